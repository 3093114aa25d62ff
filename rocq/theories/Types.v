(** * The data types of go3mf

    Pointers to records are modelled by the records themselves.  The model
    therefore covers the go3mf values in which the pointers in a slice are
    non-nil and pairwise distinct, which is what the decoder produces.
    [uint32] fields are [N]; theorems that need the bound state it. *)
From Verif Require Import GoBase GoFloat.

(** encoding/xml.Name *)
Record Name := mkName { nspace : string; nlocal : string }.
Definition name_eqb (a b : Name) : bool := seq (nspace a) (nspace b) && seq (nlocal a) (nlocal b).
Lemma name_eqb_spec a b : reflect (a = b) (name_eqb a b).
Proof.
  destruct a as [s l], b as [s' l']; unfold name_eqb; cbn.
  destruct (seq_spec s s'), (seq_spec l l'); cbn; constructor; congruence.
Qed.
Lemma name_eqb_refl a : name_eqb a a = true.
Proof. destruct (name_eqb_spec a a); congruence. Qed.

(** encoding/xml.Attr and spec.XMLAttr (spec/spec.go 60-63); the latter holds
    its value as a byte slice. *)
Record Attr := mkAttr { aname : Name; avalue : string }.

(** encoding/xml.Token, restricted to the three kinds go3mf produces. *)
Inductive Token :=
| TStart (n : Name) (attrs : list Attr)
| TEnd (n : Name)
| TChar (s : string).

(** image/color.RGBA; components are bytes. *)
Record RGBA := mkRGBA { cR : N; cG : N; cB : N; cA : N }.

(** math.go 76 (Point2D), 89 (Point3D), 109 (Matrix), 198-201 (Box). *)
Record Point2D := P2 { p2x : f32; p2y : f32 }.
Record Point3D := P3 { px : f32; py : f32; pz : f32 }.
Record Matrix := M16 { m0 : f32; m1 : f32; m2 : f32; m3 : f32;
                       m4 : f32; m5 : f32; m6 : f32; m7 : f32;
                       m8 : f32; m9 : f32; m10 : f32; m11 : f32;
                       m12 : f32; m13 : f32; m14 : f32; m15 : f32 }.
Record Box := mkBox { bmin : Point3D; bmax : Point3D }.

(** Attribute groups: spec/unknown.go 10-13 and the groups of
    production/production.go 41-43, 61-63, 74-77, 97-100 and
    slices/slices.go 127-130.  Types defined outside the repository that
    implement spec.AttrGroup are not modelled. *)
Inductive AttrGroup :=
| GUnknown (space : string) (attrs : list Attr)
| GBuild (uuid : string)
| GObj (uuid : string)
| GItem (uuid path : string)
| GComp (uuid path : string)
| GSlice (stack_id : N) (res : N).
Definition AnyAttr := list AttrGroup.

(** materials/materials.go 114-245.  Enumerations are their integer codes. *)
Record Texture2D := mkTex2D { tx_id : N; tx_path : string; tx_ctype : N;
                              tx_tu : N; tx_tv : N; tx_filter : N }.
Record Tex2DGroup := mkTG { tg_id : N; tg_tex : N; tg_coords : list (f32 * f32) }.
Record ColorGroup := mkCG { cg_id : N; cg_colors : list RGBA }.
Record CompositeMaterials := mkCM { cm_id : N; cm_mat : N; cm_indices : list N;
                                    cm_comps : list (list f32) }.
Record MultiProps := mkMP { mp_id : N; mp_pids : list N; mp_blend : list N;
                            mp_multis : list (list N) }.

(** slices/slices.go 44-110. *)
Record Segment := mkSeg { sg_v2 : N; sg_pid : N; sg_p1 : N; sg_p2 : N }.
Record Polygon := mkPoly { pg_start : N; pg_segs : list Segment }.
Record Slice := mkSlice { sl_top : f32; sl_verts : list Point2D; sl_polys : list Polygon }.
Record SliceRef := mkSRef { sr_id : N; sr_path : string }.
Record SliceStack := mkSS { ss_id : N; ss_bottom : f32; ss_slices : list Slice;
                            ss_refs : list SliceRef }.

(** beamlattice/beamlattice.go 91-130. *)
Record Beam := mkBeam { bm_i1 : N; bm_i2 : N; bm_r1 : f32; bm_r2 : f32;
                        bm_c1 : N; bm_c2 : N }.
Record BeamSet := mkBS { bs_refs : list N; bs_name : string; bs_ident : string }.
Record BeamLattice := mkBL { bl_clip : N; bl_clipmesh : N; bl_repmesh : N;
                             bl_beams : list Beam; bl_sets : list BeamSet;
                             bl_minlen : f32; bl_radius : f32; bl_cap : N }.

(** The elements the four extension packages define. *)
Inductive ExtElem :=
| XTexture2D (t : Texture2D)
| XTex2DGroup (g : Tex2DGroup)
| XColorGroup (g : ColorGroup)
| XComposite (g : CompositeMaterials)
| XMulti (g : MultiProps)
| XSliceStack (s : SliceStack)
| XBeamLattice (b : BeamLattice).

(** spec.Any members (spec/spec.go 121-122): extension elements and raw tokens. *)
Inductive AnyElem :=
| AnyTokens (ts : list Token)
| AnyExt (e : ExtElem).

(** core.go 98-105 *)
Record Metadata := mkMeta { md_name : Name; md_value : string; md_type : string; md_preserve : bool }.
(** core.go 107-122; an attachment stream is its bytes. *)
Record Attachment := mkAtt { at_data : string; at_path : string; at_ctype : string }.
Record Relationship := mkRel { rel_path : string; rel_type : string; rel_id : string }.
(** core.go 339-350 *)
Record Base := mkBase { ba_name : string; ba_color : RGBA; ba_any : AnyAttr }.
Record BaseMaterials := mkBM { bs_id : N; bs_mats : list Base; bs_any : AnyAttr }.
(** core.go 367-379 *)
Record MetadataGroup := mkMG { mg_list : list Metadata; mg_any : AnyAttr }.
Record Item := mkItem { it_oid : N; it_tr : Matrix; it_part : string;
                        it_md : MetadataGroup; it_any : AnyAttr }.
(** core.go 436-446 *)
Record Component := mkComp { co_oid : N; co_tr : Matrix; co_any : AnyAttr }.
Record Components := mkComps { cs_list : list Component; cs_any : AnyAttr }.
(** core.go 471-497 *)
Record Triangle := mkTri { t_v1 : N; t_v2 : N; t_v3 : N; t_pid : N;
                           t_p1 : N; t_p2 : N; t_p3 : N; t_any : AnyAttr }.
Record Mesh := mkMesh { me_verts : list Point3D; me_vany : AnyAttr;
                        me_tris : list Triangle; me_tany : AnyAttr;
                        me_any : AnyAttr; me_ext : list AnyElem }.
(** core.go 402-414; ObjectType is an int8. *)
Record Object := mkObj { ob_id : N; ob_name : string; ob_part : string; ob_thumb : string;
                         ob_pid : N; ob_pindex : N; ob_type : Z; ob_md : MetadataGroup;
                         ob_mesh : option Mesh; ob_comps : option Components; ob_any : AnyAttr }.
(** Asset implementations: core.go 346-350 (BaseMaterials), 549-556 (UnknownAsset)
    and the extension resources. *)
Inductive Asset :=
| ABase (b : BaseMaterials)
| AUnknown (id : N) (ts : list Token)
| AExt (e : ExtElem).
(** core.go 130-136 *)
Record Resources := mkRes { rs_assets : list Asset; rs_objects : list Object; rs_any : AnyAttr }.
(** core.go 186-190 *)
Record Extension := mkExt { ex_ns : string; ex_local : string; ex_req : bool }.
(** core.go 198-202 *)
Record Child := mkChild { ch_res : Resources; ch_rels : list Relationship; ch_any : list AnyElem }.
(** core.go 124-128 *)
Record Build := mkBuild { bu_items : list Item; bu_any : AnyAttr }.
(** core.go 211-226; the Childs map is an association list with distinct keys. *)
Record Model := mkModel {
  mo_path : string; mo_lang : string; mo_units : N; mo_thumb : string;
  mo_res : Resources; mo_build : Build; mo_atts : list Attachment;
  mo_exts : list Extension; mo_md : list Metadata; mo_childs : list (string * Child);
  mo_rootrels : list Relationship; mo_rels : list Relationship;
  mo_any : list AnyElem; mo_anyattr : AnyAttr }.

(** Identify methods: core.go 358-360, 554-556; materials/materials.go 124-126, 166-168,
    188-190, 214-216, 242-244; slices/slices.go 113-115.  A BeamLattice does not
    implement Asset, so [AExt (XBeamLattice _)] is not a Go value; it gets 0. *)
Definition ext_id (e : ExtElem) : N :=
  match e with
  | XTexture2D t => tx_id t
  | XTex2DGroup g => tg_id g
  | XColorGroup g => cg_id g
  | XComposite g => cm_id g
  | XMulti g => mp_id g
  | XSliceStack s => ss_id s
  | XBeamLattice _ => 0%N
  end.
Definition asset_id (a : Asset) : N :=
  match a with ABase b => bs_id b | AUnknown id _ => id | AExt e => ext_id e end.

(** core.go 32-33 *)
Definition DefaultModelPath : string := "/3D/3dmodel.model".

(** The namespaces: core.go 18, materials/materials.go 17, production/production.go 15,
    slices/slices.go 15, beamlattice/beamlattice.go 14. *)
Definition ns_core : string := "http://schemas.microsoft.com/3dmanufacturing/core/2015/02".
Definition ns_materials : string := "http://schemas.microsoft.com/3dmanufacturing/material/2015/02".
Definition ns_production : string := "http://schemas.microsoft.com/3dmanufacturing/production/2015/06".
Definition ns_slices : string := "http://schemas.microsoft.com/3dmanufacturing/slice/2015/07".
Definition ns_beam : string := "http://schemas.microsoft.com/3dmanufacturing/beamlattice/2017/02".

(** Empty values. *)
Definition mg_zero := mkMG [] [].
Definition res_zero := mkRes [] [] [].
Definition child_zero := mkChild res_zero [] [].
Definition model_zero :=
  mkModel "" "" 0 "" res_zero (mkBuild [] []) [] [] [] [] [] [] [] [].
Definition obj_zero := mkObj 0 "" "" "" 0 0 0 mg_zero None None [].
Definition matrix_zero := M16 f_zero f_zero f_zero f_zero f_zero f_zero f_zero f_zero
                              f_zero f_zero f_zero f_zero f_zero f_zero f_zero f_zero.
Definition point_zero := P3 f_zero f_zero f_zero.

(** ** Errors (package errors) *)
(** errors/errors.go 40-43 *)
Record Level := mkLevel { lv_name : string; lv_index : Z }.

(** Non-nil error values (lines of errors/errors.go unless said otherwise).
    - [ESent s]: an error created by errors.New, identified by the Go variable
      that holds it (errors/errors.go 13-39 and the extension packages);
    - [EMissing f]: MissingFieldError, 117-127; [EParse a r]: ParseAttrError, 129-144;
    - [EErr t e p]: *Error, 53-57, with Target in Go's order (innermost level first);
    - [EList l]: a non-nil *List, errors/list.go 13-15, whose members are non-nil.
    *Error and *List values are modelled by value: WrapIndex and Append update
    them in place, and in the repository the updated value is the only one used
    afterwards.  A typed nil *List and nil members of a List, which no code in
    the repository produces, are not modelled. *)
Inductive gerr :=
| ESent (name : string)
| EMissing (field : string)
| EParse (attr : string) (required : bool)
| EErr (target : list Level) (err : gerr) (path : string)
| EList (errs : list gerr).

(** A Go [error]; [None] is nil. *)
Definition error := option gerr.


(** What an extension validator is given (spec/spec.go 51-54): the model itself
    (validate.go 51), an asset (186) or an object (244). *)
Inductive VElem :=
| VModel
| VAsset (a : Asset)
| VObject (o : Object).
