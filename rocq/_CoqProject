-Q theories Verif
theories/GoBase.v
theories/GoFloat.v
theories/Types.v
theories/M_Core.v
theories/S_Core.v
theories/P_Core.v
theories/T_Core.v
theories/GoNum.v
theories/GoStrconv.v
theories/M_Errors.v
theories/S_Errors.v
theories/P_Errors.v
theories/T_Errors.v
theories/M_Text.v
theories/S_Text.v
theories/P_Text.v
theories/T_Text.v
theories/Conc.v
theories/M_Geom.v
theories/S_Geom.v
theories/P_Geom.v
theories/T_Geom.v
theories/P_Float.v
theories/T_Float.v
theories/M_Coherency.v
theories/S_Coherency.v
theories/P_Coherency.v
theories/T_Coherency.v
theories/M_Validate.v
theories/S_Validate.v
theories/P_Validate.v
theories/P_Validate2.v
theories/P_Validate3.v
theories/T_Validate.v
theories/M_ExtValidate.v
theories/S_ExtValidate.v
theories/P_ExtMat.v
theories/T_ExtMat.v
theories/P_ExtBeam.v
theories/T_ExtBeam.v
theories/P_ExtSlices.v
theories/P_ExtSlices2.v
theories/T_ExtSlices.v
theories/S_ExtProd.v
theories/P_ExtProd.v
theories/P_ExtProd2.v
theories/T_ExtProd.v
theories/GoUtf8.v
theories/XmlTypes.v
theories/M_Xml.v
theories/S_Xml.v
theories/P_Xml.v
theories/P_Xml2.v
theories/P_Esc.v
theories/T_Xml.v
theories/M_Reader.v
theories/S_Reader.v
theories/P_Reader.v
theories/T_Reader.v
theories/M_Printer.v
theories/S_Printer.v
theories/P_Printer.v
theories/T_Printer.v
theories/S_Lex.v
theories/P_Lex.v
theories/T_Lex.v
theories/M_Decode.v
theories/M_Encode.v
theories/S_Strconv.v
theories/P_ParseText.v
theories/P_Strconv.v
theories/T_Strconv.v
theories/S_Decode.v
theories/P_Decode.v
theories/P_Panic.v
theories/P_State.v
theories/T_Decode.v
theories/S_Encode.v
theories/P_Encode.v
theories/T_Encode.v
theories/M_Stl.v
theories/S_Stl.v
theories/P_Stl.v
theories/T_Stl.v
theories/PkgTypes.v
theories/M_Package.v
theories/S_Package.v
theories/P_Package.v
theories/T_Package.v
theories/P_Frame.v
theories/M_Childs.v
theories/M_Decoder.v
theories/S_Childs.v
theories/P_Childs.v
theories/T_Childs.v
theories/S_RoundTrip.v
theories/S_PkgTrip.v
theories/P_RTBase.v
theories/P_RTText.v
theories/P_RTAttr.v
theories/P_RTExt.v
theories/P_RTCore.v
theories/P_RTModel.v
theories/T_RoundTrip.v
theories/P_RTPkg.v
theories/T_PkgTrip.v
theories/S_Parse.v
theories/P_Parse.v
theories/T_Parse.v
theories/M_Matrix.v
theories/S_Matrix.v
theories/P_Matrix.v
theories/T_Matrix.v
theories/M_ErrText.v
theories/S_ErrText.v
theories/P_ErrText.v
theories/T_ErrText.v
theories/S_Attr.v
theories/P_Attr.v
theories/T_Attr.v
theories/S_Stable.v
theories/P_Stable.v
theories/T_Stable.v
theories/S_Meaning.v
theories/P_Meaning.v
theories/P_MeaningRun.v
theories/P_MeaningExt.v
theories/P_MeaningCore.v
theories/P_MeaningModel.v
theories/P_MeaningTree.v
theories/T_Meaning.v
theories/S_Revalid.v
theories/P_Revalid.v
theories/P_Revalid2.v
theories/P_Revalid3.v
theories/T_Revalid.v
theories/MemTypes.v
theories/M_Save.v
theories/S_Save.v
theories/P_Save.v
theories/T_Save.v
theories/M_Reuse.v
theories/T_Reuse.v
theories/WriteTypes.v
theories/M_Write.v
theories/S_Write.v
theories/P_Write.v
theories/T_Write.v
theories/S_Ids.v
theories/P_Ids.v
theories/T_Ids.v
theories/S_Error.v
theories/P_Error.v
theories/T_Error.v
theories/T_Cells.v
theories/StackTypes.v
theories/S_Stack.v
theories/M_Stack.v
theories/P_Stack.v
theories/T_Stack.v
theories/RegTypes.v
theories/S_Registry.v
theories/M_Registry.v
theories/P_Registry.v
theories/T_Registry.v
theories/PoolTypes.v
theories/M_Pool.v
theories/P_Pool.v
theories/T_Pool.v
theories/ErrTypes.v
theories/S_ErrHeap.v
theories/M_ErrHeap.v
theories/P_ErrHeap.v
theories/T_ErrHeap.v
theories/S_Read.v
theories/P_Read.v
theories/T_Read.v
theories/S_Document.v
theories/P_Document.v
theories/P_Alike.v
theories/T_Document.v
theories/S_WellFormed.v
theories/P_WellFormed.v
theories/P_Saved.v
theories/P_Malformed.v
theories/T_WellFormed.v
theories/M_Torn.v
theories/P_Torn.v
theories/T_Torn.v
theories/S_Cycle.v
theories/P_Cycle.v
theories/T_Cycle.v
theories/T_ExtProd2.v
theories/StreamTypes.v
theories/S_Streams.v
theories/M_Streams.v
theories/P_Streams.v
theories/T_Streams.v
theories/S_Used.v
theories/P_Onto.v
theories/P_Used.v
theories/T_Used.v
theories/S_Convert.v
theories/P_Convert.v
theories/P_Convert2.v
theories/T_Convert.v
theories/S_Repro.v
theories/P_Repro.v
theories/T_Repro.v
theories/AppendTypes.v
theories/S_Append.v
theories/M_Append.v
theories/P_Append.v
theories/T_Append.v
theories/T_Roots.v
theories/S_Report.v
theories/P_Firm.v
theories/P_Report.v
theories/T_Report.v
theories/S_Shape.v
theories/P_Shape.v
theories/T_Shape.v
theories/S_Added.v
theories/P_Added.v
theories/T_Added.v
theories/S_Renumber.v
theories/P_Renumber.v
theories/T_Renumber.v
theories/S_Within.v
theories/P_Within.v
theories/T_Within.v
theories/S_Surface.v
theories/P_Surface.v
theories/T_Surface.v
theories/S_Same.v
theories/P_Same.v
theories/T_Same.v
theories/T_Exact.v
theories/P_Frame2.v
theories/P_Childs2.v
theories/T_Childs2.v
theories/T_Read2.v
theories/S_Bare.v
theories/P_Bare.v
theories/T_Bare.v
theories/S_Union.v
theories/P_Union.v
theories/T_Union.v
theories/S_Uuids.v
theories/P_Uuids.v
theories/P_UuidSet.v
theories/T_Uuids.v
theories/S_Alloc.v
theories/T_Alloc.v
theories/S_Placed.v
theories/P_Placed.v
theories/T_Placed.v
theories/S_Closed.v
theories/P_Closed.v
theories/T_Closed.v
theories/S_SameStl.v
theories/T_SameStl.v
theories/S_Merge.v
theories/T_Merge.v
theories/BuildTypes.v
theories/M_Build.v
theories/S_Build.v
theories/P_Build.v
theories/T_Build.v
theories/M_Get.v
theories/S_Groups.v
theories/P_Groups.v
theories/T_Groups.v
theories/T_BuiltBox.v
theories/T_StlBox.v
