{"id": "C01", "title": "UnusedID is fresh and lowest", "statement": "If the IDs of the assets and objects held by a Resources are non-zero and pairwise distinct, UnusedID returns a non-zero ID carried by none of them, and every smaller non-zero ID is in use.", "quantifier": "every Resources value with any number of assets and objects in any order", "why_tests_cant": "Freshness and minimality range over every finite set of IDs and every order of the slices; a test fixes one set.", "anchors": ["core.go: Resources.UnusedID"]}
{"id": "C02", "title": "UnusedID never returns an ID in use", "statement": "UnusedID never returns the ID of an asset or object that is already in the Resources, whatever the IDs are (including 0, which the decoder gives to extension resources without an id attribute, and repeated IDs, which assets of different files may have).", "quantifier": "every Resources value, with no condition on the IDs", "why_tests_cant": "The duplicate and zero cases are combinations of the whole ID multiset; a table of examples cannot exclude a clash.", "anchors": ["core.go: Resources.UnusedID"]}
{"id": "C03", "title": "Lookups return the first resource with the ID in the addressed part", "statement": "FindResources addresses the root for the empty path and for the model's own (or the default) path, and a child for its key. FindObject and FindAsset succeed exactly when the addressed part has a resource with the ID, and return the first one in slice order.", "quantifier": "every model, path and ID", "why_tests_cant": "It is an exact characterisation over all models, including several resources sharing an ID and child keys that collide with the root path.", "anchors": ["core.go: Model.FindResources, Model.FindAsset, Model.FindObject, Resources.FindAsset, Resources.FindObject, Model.PathOrDefault"]}
{"id": "C04", "title": "WalkObjects and WalkAssets visit everything once, in a fixed order, and stop at the first error", "statement": "The callback is called for each object (asset) exactly once, the children's in ascending lexical order of child path with that path, then the root's with path \"\", each in slice order. If the callback fails, that error is returned and no later call is made; the result does not depend on the map iteration order of the children.", "quantifier": "every model, every callback, every map iteration order", "why_tests_cant": "Go randomises map iteration; tests see a few orders, and a stateful callback may fail at any point.", "anchors": ["core.go: Model.WalkObjects, Model.WalkAssets, Model.sortedChilds"]}
{"id": "C05", "title": "Enumerated values survive text and unknown text is refused", "statement": "For every enumerated attribute (units, object type, 2D texture type, tile style, filter, blend method, clip mode, cap mode, mesh resolution) parsing the text of a value gives the value back, and a text is accepted only if it is the text of some value.", "quantifier": "every value of every enumeration and every string", "why_tests_cant": "Refusal ranges over all strings.", "anchors": ["core.go: Units.String, newUnits, ObjectType.String, newObjectType", "materials/materials.go: Texture2DType, TileStyle, TextureFilter, BlendMethod", "beamlattice/beamlattice.go: ClipMode, CapMode", "slices/slices.go: MeshResolution"]}
{"id": "C06", "title": "Colour text round trip", "statement": "ParseRGBA(FormatRGBA(c)) is c without error for every 8-bit RGBA colour c; FormatRGBA(ParseRGBA(s)) is s in lower case, with the alpha digits dropped when they are ff, for every accepted s.", "quantifier": "all 2^32 colours and all strings", "why_tests_cant": "2^32 colours and an infinite set of strings.", "anchors": ["spec/utils.go: ParseRGBA, FormatRGBA"]}
{"id": "C07", "title": "Colour text is accepted exactly when well formed", "statement": "ParseRGBA succeeds exactly on '#' followed by 6 or 8 hexadecimal digits of either case, and then returns the bytes the digits denote, with alpha 255 for the short form.", "quantifier": "every string", "why_tests_cant": "The refused set is infinite.", "anchors": ["spec/utils.go: ParseRGBA"]}
{"id": "C08", "title": "Generated UUIDs are valid version-4 UUIDs", "statement": "uuid.New returns a 36-character lower-case string with hyphens at positions 8, 13, 18 and 23, version digit 4 and RFC 4122 variant, which uuid.Validate accepts, whatever the random source delivers; distinct random bits outside the six fixed ones give distinct strings.", "quantifier": "every 16-byte random value", "why_tests_cant": "2^128 random values.", "anchors": ["uuid/uuid.go: New, UUID encoding, Validate"]}
{"id": "C09", "title": "UUID validation accepts exactly the documented forms", "statement": "uuid.Validate accepts exactly: the hyphenated form, the same prefixed by urn:uuid: in any case, the same enclosed in braces, and 32 raw hexadecimal digits.", "quantifier": "every string", "why_tests_cant": "The refused set is infinite.", "anchors": ["uuid/uuid.go: Validate"]}
{"id": "C10", "title": "MeshBuilder indices designate the added point", "statement": "After any sequence of AddVertex calls on a builder over an empty mesh, every returned index is in range and still designates a vertex with the same grid cell as the point that was added; equal points get equal indices; no two stored vertices share a cell when connectivity is on, and with connectivity off each call appends.", "quantifier": "every sequence of AddVertex calls with any float32 points", "why_tests_cant": "It is an invariant over histories of calls.", "anchors": ["core.go: NewMeshBuilder, MeshBuilder.AddVertex", "math.go: vectorTree, newvec3IFromVec3"]}
{"id": "C11", "title": "MeshBuilder never merges points more than a micron apart", "statement": "Two points given to AddVertex that differ by more than one micron (1e-6, the documented accuracy) in some coordinate get different indices.", "quantifier": "every pair of finite float32 points", "why_tests_cant": "It ranges over all pairs of floats, where rounding and integer overflow matter.", "anchors": ["math.go: micronsAccuracy, newvec3IFromVec3", "core.go: MeshBuilder.AddVertex"]}
{"id": "C12", "title": "A mesh bounding box is the tightest box containing its vertices", "statement": "For a mesh whose coordinates are ordinary numbers (neither NaN nor infinite), every vertex lies inside the box returned by Mesh.BoundingBox, each face of the box touches a vertex, and the empty mesh gives the zero box.", "quantifier": "every mesh of any size with finite coordinates", "why_tests_cant": "It holds for vertex lists of every length and all float values.", "anchors": ["core.go: Mesh.BoundingBox", "math.go: Box, extendPoint, newLimitBox"]}
{"id": "C13", "title": "The model bounding box does not depend on goroutine scheduling", "statement": "Model.BoundingBox runs one goroutine per build item; for every interleaving the box returned has numerically equal coordinates.", "quantifier": "every model and every interleaving of the per-item goroutines", "why_tests_cant": "A test run samples one schedule.", "anchors": ["core.go: Model.BoundingBox", "math.go: Box.extend, min, max"]}
{"id": "C14", "title": "A transformed box contains the transformed points", "statement": "For every matrix and box, every point of the box is mapped by the matrix into MulBox(box).", "quantifier": "every transform matrix, box and point of the box", "why_tests_cant": "It ranges over all real transforms, including rotations.", "anchors": ["math.go: Matrix.MulBox, Matrix.Mul3D"]}
{"id": "C15", "title": "Bounding box and slice validation terminate on validated models", "statement": "Model.BoundingBox returns for every model accepted by Validate.", "quantifier": "every model, with component graphs of any shape", "why_tests_cant": "Non-termination cannot be observed by a finite test, and component cycles have any length.", "anchors": ["core.go: Object.boundingBox", "validate.go: Components.validate", "slices/validate.go: validateObjectTransforms"]}
{"id": "C16", "title": "Component references are resolved relative to the file that contains them", "statement": "Model.BoundingBox resolves a component without explicit path in the file where the component is written.", "quantifier": "every model with nested components across files", "why_tests_cant": "Component trees have unbounded depth and mix files.", "anchors": ["core.go: Object.boundingBox, Component.ObjectPath"]}
{"id": "C17", "title": "Mesh coherency is exactly 2-manifold orientation", "statement": "Mesh.ValidateCoherency returns nil exactly when the mesh has at least three vertices, at least four triangles, no degenerate edge, and each directed edge of a triangle occurs exactly once and its reverse occurs exactly once.", "quantifier": "every mesh with any triangle list", "why_tests_cant": "It is an equivalence over all triangle lists.", "anchors": ["validate.go: Mesh.ValidateCoherency", "math.go: pairMatch"]}
{"id": "C18", "title": "Model coherency reports each incoherent mesh once, whatever the schedule", "statement": "Model.ValidateCoherency reports one error for each model-type mesh object of any part that is not coherent, located at that object, and no other; the collection of errors is the same for every goroutine interleaving.", "quantifier": "every model, every interleaving, every map iteration order", "why_tests_cant": "Errors are appended by concurrent goroutines.", "anchors": ["validate.go: Model.ValidateCoherency"]}
{"id": "C19", "title": "The error list loses nothing", "statement": "errors.Append keeps all errors in order, flattening nested lists by one level and dropping nil; WrapIndex and WrapPath keep the number, order and innermost error of the list and prepend exactly one location step; XPath of an error prints the location outermost first.", "quantifier": "every sequence of appends and wraps", "why_tests_cant": "It is an algebraic law over histories.", "anchors": ["errors/errors.go: Append, WrapIndex, WrapPath, Error.XPath, List"]}
{"id": "C20", "title": "Core validation accepts exactly the conforming models", "statement": "Model.Validate (no extensions) returns nil exactly when the model satisfies the list of core rules: relationships unique and pointing to attachments, required extensions registered, metadata names, unique non-zero IDs, base material, object, mesh, component, property and build item rules, in all parts.", "quantifier": "every model", "why_tests_cant": "An equivalence over all models; tests cover single violations.", "anchors": ["validate.go: Model.Validate and everything it calls"]}
{"id": "C21", "title": "Core validation reports each violation at its place", "statement": "An error kind with a location is in the list reported by Model.Validate exactly when the corresponding rule is violated at that element.", "quantifier": "every model, error kind and location", "why_tests_cant": "Combinations of several violations in one model are unbounded.", "anchors": ["validate.go"]}
{"id": "C22", "title": "Relationship validation", "statement": "A relationship list is accepted exactly when every path is absolute and well formed, every target is attached, no (type, path) pair is repeated, a print ticket has the print ticket content type and there is at most one print ticket.", "quantifier": "every list of relationships and attachments", "why_tests_cant": "Repeated entries may be anywhere in the list.", "anchors": ["validate.go: validateRelationship, findAttachment"]}
{"id": "C23", "title": "Reserved metadata names are recognised exactly", "statement": "A metadata name without namespace is accepted exactly when, ignoring case, it is one of the nine names of the specification.", "quantifier": "every metadata name", "why_tests_cant": "All strings; the implementation uses a binary search that is right only if its table is sorted.", "anchors": ["validate.go: Metadata.Validate, allowedMetadataNames, checkMetadadata"]}
{"id": "C24", "title": "Namespaced metadata of a decoded file passes validation", "statement": "Metadata whose name uses a prefix declared in the model element is not reported as having an undeclared namespace after decoding.", "quantifier": "every file with namespaced metadata", "why_tests_cant": "It relates two components over all documents.", "anchors": ["decoder.go: metadataDecoder", "validate.go: Metadata.Validate"]}
{"id": "C25", "title": "Material validation accepts exactly the conforming resources", "statement": "The materials validator accepts an asset exactly when it satisfies the materials rules; in particular, composite and multi-property indices must be smaller than the length of the referenced group.", "quantifier": "every model with material resources", "why_tests_cant": "Boundary of every index against every group length.", "anchors": ["materials/validate.go"]}
{"id": "C26", "title": "Beam lattice validation accepts exactly the conforming lattices", "statement": "The beam lattice validator accepts a lattice exactly when it satisfies the beam lattice rules: lengths positive, indices in range, clipping mesh given when clipping, beam set references designate beams.", "quantifier": "every model with beam lattices", "why_tests_cant": "Boundary of every index against every list length.", "anchors": ["beamlattice/validate.go"]}
{"id": "C27", "title": "Slice validation accepts exactly the conforming stacks", "statement": "The slice validator accepts a stack exactly when it satisfies the slice rules: exactly one of slices and references, heights strictly increasing above the bottom, closed polygons with indices in range, references resolvable and ordered.", "quantifier": "every model with slice stacks", "why_tests_cant": "Monotonicity over lists of every length.", "anchors": ["slices/validate.go"]}
{"id": "C28", "title": "Production validation and SetMissingUUIDs", "statement": "After SetMissingUUIDs no UUID is missing on build, items, objects and components, UUIDs present before are unchanged, and nothing else in the model changes.", "quantifier": "every model and every random source", "why_tests_cant": "Any subset of the elements may lack a UUID.", "anchors": ["production/production.go: SetMissingUUIDs", "production/validate.go"]}
{"id": "C29", "title": "XML events are well nested", "statement": "Whatever the input bytes, the start and end events delivered by the XML scanner are well nested with equal names, and if the scan ends without error all are closed.", "quantifier": "every byte sequence", "why_tests_cant": "Infinite input set, including malformed documents.", "anchors": ["internal/xml/xml.go: Decoder.RawToken, pushElement, popElement"]}
{"id": "C30", "title": "Namespace declarations are scoped to their element", "statement": "The namespace bindings in force after an element is closed are those in force before it was opened, and each name is resolved with the bindings of the innermost declarations.", "quantifier": "every document, any nesting depth and redeclaration pattern", "why_tests_cant": "Nesting is unbounded.", "anchors": ["internal/xml/xml.go: pushNs, popElement, translate"]}
{"id": "C31", "title": "The XML scanner does not depend on how the reader splits the input", "statement": "The bytes seen by the scanner are the concatenation of what the reader delivered, for every splitting of the input into reads, including empty reads (up to the documented limit), and the reader's error is reported after all bytes.", "quantifier": "every input and every schedule of Read results", "why_tests_cant": "Infinitely many splittings.", "anchors": ["internal/xml/xml.go: bufioReader.ReadByte, fill"]}
{"id": "C32", "title": "The XML scanner always makes progress", "statement": "Each RawToken call on a finite input consumes input, closes a pending element or returns an error; so the scan terminates for every input.", "quantifier": "every byte sequence", "why_tests_cant": "Termination is not testable.", "anchors": ["internal/xml/xml.go: Decoder.RawToken"]}
{"id": "C33", "title": "The name cache is invisible", "statement": "Names and prefixes returned by the scanner are the same as without the 8-byte-key cache, after any history of previously scanned names.", "quantifier": "every history of names", "why_tests_cant": "The cache depends on the whole history.", "anchors": ["internal/xml/xml.go: Decoder.name, nameCache"]}
{"id": "C34", "title": "Escaped text is read back unchanged", "statement": "For every string made of XML characters in valid UTF-8, escaping it as the encoder does and scanning the result as attribute value or as character data gives the string back.", "quantifier": "every valid string", "why_tests_cant": "Infinite set of strings, including multi-byte characters and control characters.", "anchors": ["internal/xml/printer.go: Printer.WriteStart, EscapeString", "internal/xml/xml.go: Decoder.text"]}
{"id": "C35", "title": "Printed XML is scanned back to the same events", "statement": "Printing a well-formed event sequence, whose namespaces are declared on the root element, and scanning the text gives the same events with the same qualified names, attributes and text.", "quantifier": "every well-formed event sequence, any depth", "why_tests_cant": "Infinite set of documents.", "anchors": ["internal/xml/printer.go", "internal/xml/xml.go"]}
{"id": "C36", "title": "Strict and lenient decoding agree", "statement": "Strict decoding fails exactly when lenient decoding reports an error, strict decoding returns the first of the errors that lenient decoding reports when the document is well-formed XML, and both produce the same model when there is no error.", "quantifier": "every document", "why_tests_cant": "A relation between two runs over all inputs.", "anchors": ["read.go: decodeModelFile, UnmarshalModel"]}
{"id": "C37", "title": "Decoding never panics", "statement": "Decoding arbitrary bytes returns normally, with or without error.", "quantifier": "every byte sequence and set of registered extensions", "why_tests_cant": "Any byte sequence may be the crashing one.", "anchors": ["read.go: decodeModelFile", "decoder.go", "materials/decoder.go", "production/decoder.go", "slices/decoder.go", "beamlattice/decoder.go"]}
{"id": "C38", "title": "Unknown extension content is preserved", "statement": "An element of an unregistered extension is decoded to the sequence of its start, text and end events, whatever its content, and encoded back to the same sequence (README: lossless decoding and encoding of unknown extensions).", "quantifier": "every well-formed subtree of any depth", "why_tests_cant": "All trees, including elements nested in an element of the same name.", "anchors": ["read.go: decodeModelFile", "spec/unknown.go: UnknownTokensDecoder, UnknownTokens.Marshal3MF", "internal/xml/printer.go"]}
{"id": "C39", "title": "Core model round trip", "statement": "UnmarshalModel(MarshalModel(m)) yields m again, up to the rounding of coordinates and transforms to the written precision, for every well-formed core model.", "quantifier": "every well-formed model of any size", "why_tests_cant": "Infinite set of models.", "anchors": ["encoder.go: MarshalModel, modelEncoder", "read.go: UnmarshalModel", "decoder.go"]}
{"id": "C40", "title": "Triangle properties survive the round trip", "statement": "The property group and the three indices of every triangle are the same after encoding and decoding a mesh, with the defaults of the object applied and whatever extension attributes other triangles carry.", "quantifier": "every mesh and object defaults", "why_tests_cant": "The encoder shares one attribute buffer among all triangles, so the output of one depends on all the earlier ones.", "anchors": ["encoder.go: writeTriangles", "decoder.go: triangleDecoder"]}
{"id": "C41", "title": "Number text round trip", "statement": "Every uint32 written by the encoder is read back unchanged; numeric attributes out of the uint32 range or not a decimal number are reported.", "quantifier": "all 2^32 values and all strings", "why_tests_cant": "Infinite refused set.", "anchors": ["encoder.go: FormatUint uses", "decoder.go: ParseUint uses"]}
{"id": "C42", "title": "Coordinate text error and stability", "statement": "A finite coordinate written with p decimals is read back as the float32 nearest to the written decimal, which differs from the coordinate by at most half a unit of the last decimal; writing the read-back value again gives the same text.", "quantifier": "every float32 and every precision", "why_tests_cant": "2^32 floats and all precisions.", "anchors": ["encoder.go: writeVertices", "decoder.go: vertexDecoder"]}
{"id": "C43", "title": "Transform text round trip", "statement": "A transform written as twelve numbers is read back with each entry rounded to three decimals and the constant last column; a text with other than twelve numbers is refused.", "quantifier": "every matrix and every string", "why_tests_cant": "Infinite sets.", "anchors": ["math.go: Matrix.String", "spec/utils.go: ParseMatrix", "decoder.go"]}
{"id": "C44", "title": "Every extension element of a part is written", "statement": "All elements of an Any list are encoded, in order.", "quantifier": "every list of extension elements", "why_tests_cant": "Lists of every length.", "anchors": ["spec/spec.go: Any.Marshal3MF"]}
{"id": "C45", "title": "Encoded XML is balanced", "statement": "For every model, the encoder's token sequence is balanced: each start has its end with the same name.", "quantifier": "every model", "why_tests_cant": "Infinite set of models.", "anchors": ["encoder.go", "materials/encoder.go", "slices/encoder.go", "beamlattice/encoder.go", "production/encoder.go"]}
{"id": "C46", "title": "Relationships written are the model's, without duplicates", "statement": "The relationships written for a part are the model's relationships plus those demanded by its resources, each (type, path) pair once, in order.", "quantifier": "every list of relationships", "why_tests_cant": "Duplicates may be anywhere.", "anchors": ["encoder.go: xmlEncoder.AddRelationship", "opc.go: opcPart.AddRelationship, opcWriter.AddRelationship"]}
{"id": "C47", "title": "Decoded attachments are unique and complete", "statement": "After processing a package every part reached by a non-model relationship is attached exactly once (paths compared case-insensitively) with its content, and relationships to absent parts are dropped.", "quantifier": "every package", "why_tests_cant": "Relationship graphs of any size.", "anchors": ["read.go: processOPC, extractCoreAttachments, addAttachment"]}
{"id": "C48", "title": "Concurrent child decoding is schedule independent", "statement": "When all child files decode without error, the model after decoding is the same for every interleaving of the goroutines; when some child fails, Decode returns an error describing a failing child.", "quantifier": "every package and every interleaving of the per-child goroutines", "why_tests_cant": "A test run samples one schedule.", "anchors": ["read.go: processNonRootModels, readChildModel", "decoder.go: modelDecoder.Child"]}
{"id": "C49", "title": "Cancellation stops decoding", "statement": "If the context is cancelled, decoding returns the context's error after at most 1000 further tokens (or ends by itself before that).", "quantifier": "every document and every moment of cancellation", "why_tests_cant": "The moment of cancellation is arbitrary.", "anchors": ["read.go: decodeModelFile"]}
{"id": "C50", "title": "STL import (ASCII)", "statement": "Decoding an ASCII STL adds exactly one object with one triangle for each complete group of three vertex lines, whose corner coordinates are the written ones up to the merge accuracy, and one build item; the ID is unused before.", "quantifier": "every ASCII input and every prior model", "why_tests_cant": "Infinite set of files.", "anchors": ["importer/stl/ascii.go", "importer/stl/decoder.go"]}
{"id": "C51", "title": "STL import (binary)", "statement": "Decoding a binary STL succeeds exactly when the declared number of facets is present and then yields that many triangles with the stored corners; otherwise an error is returned and the model is unchanged.", "quantifier": "every binary input", "why_tests_cant": "Infinite set of files and truncation points.", "anchors": ["importer/stl/binary.go", "importer/stl/decoder.go"]}
{"id": "C52", "title": "STL import honours cancellation", "statement": "If the context is cancelled during import, an error is returned and the model is unchanged.", "quantifier": "every file and every moment of cancellation", "why_tests_cant": "The moment of cancellation is arbitrary.", "anchors": ["importer/stl/binary.go", "importer/stl/ascii.go"]}
{"id": "C53", "title": "STL format detection", "statement": "Every well-formed binary STL file is recognised as binary and every ASCII file as ASCII, whatever its size, and detection terminates on every reader.", "quantifier": "every file and reader behaviour", "why_tests_cant": "All sizes and reader error patterns.", "anchors": ["importer/stl/decoder.go: Decoder.isASCII, DecodeContext"]}
{"id": "C54", "title": "Package round trip", "statement": "Decoding a package written by Encoder.Encode gives the model back: children, relationships, attachments and path included.", "quantifier": "every well-formed model", "why_tests_cant": "Infinite set of models.", "anchors": ["encoder.go: Encoder.Encode", "read.go: Decoder.Decode"]}
{"id": "C55", "title": "Extension resources round trip", "statement": "Encoding and decoding material, slice, beam lattice and production data gives the same data, up to the written precision.", "quantifier": "every well-formed extension resource", "why_tests_cant": "Infinite set of resources.", "anchors": ["materials/encoder.go, materials/decoder.go", "slices/encoder.go, slices/decoder.go", "beamlattice/encoder.go, beamlattice/decoder.go", "production/encoder.go, production/decoder.go"]}
{"id": "C56", "title": "An item or component transform is meaningful exactly when it is neither zero nor identity", "statement": "HasTransform is false exactly for the all-zero and the identity matrix, and an unset transform is treated as identity by BoundingBox.", "quantifier": "every matrix", "why_tests_cant": "All float matrices.", "anchors": ["core.go: Item.HasTransform, Component.HasTransform", "math.go: MulBox"]}
{"id": "C57", "title": "Validate always returns", "statement": "Model.Validate returns on every model, also with the validators of the extensions registered.", "quantifier": "every model, whatever its references", "why_tests_cant": "Reference graphs of every shape, including cycles.", "anchors": ["validate.go: Model.Validate", "slices/validate.go: validateBuildTransforms, validateObjectTransforms"]}
{"id": "C58", "title": "Tags and texts are read as XML says", "statement": "A start tag with any white space and either quote, an end tag, and text with line endings and character references are read as the XML specification says: names split at the colon, CR and CR LF as LF, references as their characters. Comments, CDATA sections and document types are refused with an error.", "quantifier": "every tag and every text", "why_tests_cant": "Infinite set of spellings.", "anchors": ["internal/xml/xml.go: RawToken, text, attrval, nsname, space"]}
{"id": "C59", "title": "Malformed files are refused", "statement": "A file is decoded without error only if the scanner reached its end and its tags are those of nested elements that are all closed; lenient decoding of a malformed file returns the scanner's error (or panics, see C37).", "quantifier": "every byte string, specification registry and mode", "why_tests_cant": "Infinite set of documents; tests try a few malformed ones.", "anchors": ["read.go: decodeModelFile", "internal/xml/xml.go: RawToken"]}
{"id": "C60", "title": "Numbers in attributes mean what they spell", "statement": "strconv.ParseFloat, which reads every coordinate, gives the float32 nearest to the number in the text (the even one at half-way), exponents included; numbers out of range are errors, and only texts that the 3MF schema allows as numbers are accepted.", "quantifier": "every text", "why_tests_cant": "Infinite set of texts, rounding at every half-way point.", "anchors": ["decoder.go: vertexDecoder", "spec/utils.go: ParseMatrix", "beamlattice/decoder.go", "slices/decoder.go", "materials/decoder.go"]}
{"id": "C61", "title": "Matrix products compose", "statement": "a.Mul(b).Mul3D(p) equals a.Mul3D(b.Mul3D(p)) for affine b; Identity is neutral; Translate moves images by the vector; Mul2D is Mul3D in the plane of height zero.", "quantifier": "every pair of matrices and every point", "why_tests_cant": "All float matrices; rounding.", "anchors": ["math.go: Matrix.Mul, Mul2D, Mul3D, Translate, Identity"]}
{"id": "C62", "title": "Reported violations can be read and tested for", "statement": "The text of the error Validate or Decode returns has one line per violation, with number, part, location and message; errors.Is on it finds each of the violations.", "quantifier": "every error built by the package", "why_tests_cant": "Lists of any length and depth.", "anchors": ["errors/errors.go: Error.Error, Unwrap, Wrap, WrapIndex, WrapPath", "errors/list.go: List.Error, Unwrap, Append"]}
{"id": "C63", "title": "Bad attribute values are reported where they are", "statement": "When decoding a model file, an attribute whose value is not of the type the 3MF specifications give it (number, matrix, colour, UUID, word of an enumeration, list) is reported once per fault, as a required or optional attribute, located at the names and indices of the elements around it; nothing else is reported.", "quantifier": "every byte string, registered set of extensions, strict or lenient, for every tag whose ancestors are elements of the specifications", "why_tests_cant": "Infinite set of documents: every element, attribute and value, in every context, after anything read before.", "anchors": ["read.go: decodeModelFile", "decoder.go", "materials/decoder.go", "slices/decoder.go", "beamlattice/decoder.go", "production/decoder.go", "errors/errors.go: WrapIndex, NewParseAttrError"]}
{"id": "C64", "title": "Reading a file and saving it again does not change it", "statement": "A model file written by MarshalModel that is read and saved any number of times keeps its bytes, and what is read from it stays the same: rounding to the decimals written happens once.", "quantifier": "every model within the bounds of the specification, every set of registered extensions, every number of saves", "why_tests_cant": "Infinite set of models and of repetitions; depends on the rounding of every number.", "anchors": ["encoder.go: MarshalModel, writeModel", "decoder.go", "beamlattice/encoder.go: marshalBeams", "slices/encoder.go", "spec/utils.go: FormatMatrix, ParseMatrix"]}
{"id": "C65", "title": "A file means what its elements say", "statement": "The model read from a file that is accepted is a function of its tree of elements: each attribute is looked up by name and each child by name and in order, with the defaults of the specification; every vertex, triangle, material, slice, beam, component, item and metadata of the file is in the model once, in file order, and nothing else is.", "quantifier": "every byte string that is read without error, every set of registered extensions, root and child files, strict or lenient", "why_tests_cant": "Infinite set of documents: every element with any number of children and attributes in any order.", "anchors": ["read.go: decodeModelFile, UnmarshalModel", "decoder.go", "spec/unknown.go", "materials/decoder.go", "slices/decoder.go", "beamlattice/decoder.go", "production/decoder.go"]}
{"id": "C66", "title": "A valid model stays valid when it is saved and read", "statement": "A model that Validate accepts, saved with an Encoder and read with a Decoder, is accepted by Validate again: neither the rounding of numbers nor the relationships added nor the order of goroutines makes it invalid.", "quantifier": "every valid model, number of decimals, set of registered extensions, order of map iteration and execution of the decoder", "why_tests_cant": "Infinite set of models; depends on the rounding of every number and on every interleaving.", "anchors": ["encoder.go: Encode", "read.go: Decode", "validate.go", "materials/validate.go", "slices/validate.go", "beamlattice/validate.go", "production/validate.go"]}
{"id": "C67", "title": "Saving leaves the model as it was", "statement": "Encode writes the model and does not change it: its relationships and attachments are the same afterwards, and saving it a second time gives the same package.", "quantifier": "every model in memory, with slices that may share their arrays, every growth policy of append and order of map iteration", "why_tests_cant": "Sharing of arrays and the position of streams are not visible in the value of a model; all layouts in memory.", "anchors": ["encoder.go: Encode, writeChildModels, writeAttachements, xmlEncoder.AddRelationship"]}
{"id": "C68", "title": "Each child model is read once", "statement": "Decode reads every child model of the package into the model once; a Decoder can be used several times, each time with the same result.", "quantifier": "every package, every number of calls, every execution of the goroutines", "why_tests_cant": "Any number of calls and children; needs packages that name a child twice.", "anchors": ["read.go: Decoder, processOPC, extractCoreAttachments, processNonRootModels"]}
{"id": "C69", "title": "Errors of writing are reported", "statement": "If the destination or the stream of an attachment fails at any point, Encode returns that error and writes no more; if Encode returns no error, every part of the package was created and got all of its bytes, and the package was closed.", "quantifier": "every model, every package writer that obeys io.Writer, every size of the buffer and way of cutting texts and streams into pieces", "why_tests_cant": "The failure can come at any write of any model; the errors of most writes are only kept by the buffer and never looked at.", "anchors": ["encoder.go: Encode, writeAttachements, writeChildModels, writeModel, writeResources; internal/xml/printer.go: Printer; opc.go: opcPart, opcWriter.Create"]}
{"id": "C70", "title": "Recycled nodes do not corrupt the stack of the scanner", "statement": "The stack of open elements and namespace declarations of the XML scanner, whose nodes are reused after they are popped and read after they are given back, always behaves as a stack: no entry is lost, changed or shared, the loops over it end, and no more nodes are made than were needed at one time.", "quantifier": "every sequence of the methods of the stack, and every input of the scanner", "why_tests_cant": "Any number of calls in any order; a shared node shows only after a particular sequence of pushes and pops.", "anchors": ["internal/xml/xml.go: push, pop, pushEOF, popEOF, pushElement, pushNs, popElement"]}
{"id": "C71", "title": "Registering specs is safe and refuses mistakes", "statement": "Register panics if it is called twice with the same namespace or if the spec is nil; whatever goroutines call Register, Load and LoadValidator, a lookup returns the spec registered last, the map is never written while it is read, and every call returns.", "quantifier": "every number of goroutines, every sequence of calls in each, every interleaving", "why_tests_cant": "All interleavings of any number of goroutines.", "anchors": ["spec/spec.go: Register, Load, LoadValidator, NewAttrGroup, NewElementDecoder"]}
{"id": "C72", "title": "Attribute values stay with their element", "statement": "The attribute values that an element decoder is given are those of its element, whatever elements were read before, and they are not changed afterwards.", "quantifier": "every sequence of start tags with any number of attributes and any values, every growth of the buffers", "why_tests_cant": "Reuse of buffers shows only for particular sequences of lengths; a retained slice changes later.", "anchors": ["internal/xml/xml.go: RawToken, attrPool, strPool", "spec/encoding.go: UnmarshalerAttr, ElementDecoder"]}
{"id": "C73", "title": "Wrapping one error does not change another", "statement": "Wrapping an error with its place, or appending errors to a list, makes the error that is meant, each part at its place, and changes no other error that somebody holds.", "quantifier": "every expression of Wrap, WrapIndex, WrapPath and Append, every memory", "why_tests_cant": "Errors are updated in place; which errors share memory depends on all calls before.", "anchors": ["errors/errors.go: WrapIndex, WrapPath", "errors/list.go: Append"]}
{"id": "C74", "title": "A conforming model file is read", "statement": "A file whose elements are where the specifications put them and whose attributes have values of their types is read to its end without error or panic, in strict mode and in the lenient one, and gives the model its elements say.", "quantifier": "every input whose document conforms, every set of registered specs, the root file and the file of a child, every size of the context interval", "why_tests_cant": "All documents; a test reads a few.", "anchors": ["read.go: decodeModelFile, UnmarshalModel", "decoder.go, materials/decoder.go, slices/decoder.go, beamlattice/decoder.go, production/decoder.go"]}
{"id": "C75", "title": "A package of conforming files is read", "statement": "If the root model and all the child models of a package conform, every execution of Decode ends without error or panic, and the model says what the files say: the root its elements, each child its resources, and the relationships and attachments of the package.", "quantifier": "every package, any number of children, every interleaving of the goroutines that read them", "why_tests_cant": "All packages and all interleavings.", "anchors": ["read.go: Decode, processOPC, processNonRootModels, processRootModel, extractCoreAttachments"]}
{"id": "C76", "title": "A document is read as the tree it spells", "statement": "For every well-formed XML document without comments, CDATA sections and document type, with any white space, quotes, references, prefixes and declarations of namespaces, the scanner reports the elements, attributes and texts of the tree it spells, with the names the declarations in scope give them; so a file that spells a conforming document is read without error or panic and gives the model it means.", "quantifier": "every string of bytes that spells a document, every nesting, every set of declarations, every registered specs, strict and lenient", "why_tests_cant": "All documents and all their spellings; a test scans a few.", "anchors": ["internal/xml/xml.go 124-183, 318-488, 558-683", "read.go: decodeModelFile, UnmarshalModel", "decoder.go"]}
{"id": "C77", "title": "How a model file is spelled does not matter", "statement": "Two files that differ only in the order and quotes of attributes, white space and other text outside values, references, prefixes of elements, empty-element tags, processing instructions and elements nobody keeps are read as the same model.", "quantifier": "every pair of files that spell alike conforming documents, every registered specs, strict and lenient", "why_tests_cant": "All pairs of spellings of all documents; a test compares a few.", "anchors": ["internal/xml/xml.go 318-683", "decoder.go, materials/decoder.go, slices/decoder.go, beamlattice/decoder.go, production/decoder.go"]}
{"id": "C78", "title": "A model is saved as well-formed XML", "statement": "Every model that was read or that Validate accepts is saved as a document that is well-formed by XML 1.0 and Namespaces in XML: names are names, start and end tags match, no attribute occurs twice, every prefix is declared, values and texts are escaped.", "quantifier": "every model, every precision of numbers, the root and every child model", "why_tests_cant": "All models with all extension data, all texts and all kept elements; a test saves a few and mostly compares structs, not bytes.", "anchors": ["internal/xml/printer.go 9-97", "encoder.go 22-84, 97-104, 220-597", "materials/encoder.go, slices/encoder.go, beamlattice/encoder.go, production/encoder.go", "core.go: UnknownTokens"]}
{"id": "C79", "title": "The error of concurrently read child models is a whole value", "statement": "When child models are read concurrently, the error Decode returns is nil exactly if none failed, and otherwise is one of the error values that occurred: its dynamic type is that of its data.", "quantifier": "every schedule of the goroutines, at the grain of machine words; every number of failing children; cancellation at any time", "why_tests_cant": "The words of an interface value are mixed in few schedules and on few machines; a test sees the schedules it happens to get.", "anchors": ["read.go 215-238: errs", "read.go 308-322", "errors/errors.go 53", "errors/list.go 17"]}
{"id": "C80", "title": "Every stream Decode opens is closed, once, after its last read", "statement": "When DecodeContext has returned, with or without error, each stream it opened in the package (attachments, child models, root model) was closed exactly once and never read afterwards; every child model that can be opened was opened; the root model is opened after all others are closed. At no time is a stream read before it is opened or after it is closed. OpenReader keeps a file open only if it returns the ReadCloser that closes it.", "quantifier": "every package, file and registry; new and used Decoders; every interleaving of the goroutines; cancellation at any time; files that cannot be opened or read; callbacks that panic", "why_tests_cant": "A stream left open shows only as a leak, in the error paths and schedules a test does not take; a closed stream may still be readable.", "anchors": ["read.go 45-62: OpenReader, Close", "read.go 183-238: DecodeContext, processRootModel, processNonRootModels", "read.go 292-333: addAttachment, readChildModel, copyFile"]}
{"id": "C81", "title": "What Decode adds does not depend on what the model held, which is kept", "statement": "Decoding into a model that already has content reads the file as into a new model: the objects, assets, items, metadata and other elements of the model stay at their places, those of the file follow, and unit, extensions, children and attachments of both are there.", "quantifier": "every model, file and package, conforming or not; every registry; new and used Decoders; every interleaving of the goroutines", "why_tests_cant": "The decoders work on the last element of shared lists and on indices into them; whether these are the ones of the file depends on the combination of what was there and what is read.", "anchors": ["decoder.go 30-792", "read.go 64-333: decodeModelFile, processOPC", "decoder.go 58-84: unit, requiredextensions"]}
{"id": "C82", "title": "A watertight STL file becomes a valid and coherent model, and stays one when it is saved and read", "statement": "If an STL file is imported without error there is one triangle for each facet. The mesh is coherent exactly if there are at least four facets and these are watertight (each edge occurs once in each direction, points being told apart up to the accuracy of merging). The model is valid, if it was before, exactly if there are at least four facets and no two corners of a facet are merged. If the facets are watertight, the model that is read after encoding and decoding is valid, and the mesh of its last object is coherent and has the same facets, up to merging and rounding.", "quantifier": "every text and binary file below 4 GB and every state of the context for which the importer returns no error; every valid model without extensions that can be saved as starting point; every order and interleaving while saving and reading", "why_tests_cant": "The chain of importer, builder, validator, encoder, package and decoder is tested link by link on a few small files; whether the result of one always meets what the next assumes is not.", "anchors": ["importer/stl/decoder.go 39-58: DecodeContext", "importer/stl/ascii.go 22-59", "importer/stl/binary.go 30-68", "core.go: MeshBuilder.AddVertex", "validate.go: Mesh.ValidateCoherency, Object.validateMesh"]}
{"id": "C83", "title": "Saving a model twice gives the same package", "statement": "Encoding the same model again gives the same package: the same parts with the same names, types, contents and relationships, in the same order, and the same outcome.", "quantifier": "every model, with any number of children and attachments; every pair of iteration orders of the map of the children in each of the two saves; every way the OPC library names, resolves and refuses parts", "why_tests_cant": "The children are iterated over twice per save, each time in an order chosen at random by the runtime; a test sees the orders it happens to get, and compares what it thinks of comparing.", "anchors": ["encoder.go 146-180: Encode", "encoder.go 182-205: writeChildModels", "encoder.go 207-218: writeAttachements", "opc.go: opcWriter, opcPart.AddRelationship"]}
{"id": "C84", "title": "No element of another namespace of a child model is lost", "statement": "After the child models have been read concurrently, model.Any is a proper slice that holds what it held before and every element of another namespace found in the element model of a child.", "quantifier": "every number of children and of such elements; every interleaving of the loads and stores of single words by the goroutines, in every order a compiler may choose; every initial slice and growth of arrays", "why_tests_cant": "The goroutines append to the same slice without synchronisation; a test that passes shows one interleaving, and the race detector only those that occur.", "anchors": ["decoder.go 41-47: modelDecoder.Child", "read.go 215-238: processNonRootModels", "read.go 308-322: readChildModel"]}
{"id": "C85", "title": "A package is read from its one root model", "statement": "Decode refuses a package without a root model, with a relationship to a root model that is not there, and with several root models; otherwise the model has the path, the relationships and the children of the root model.", "quantifier": "every package: any relationships in any order, any parts; every model to decode into; every way the OPC library resolves names", "why_tests_cant": "The loop over the relationships of the package has side effects on the model and on the list of children that accumulate; tests have packages with one root relationship.", "anchors": ["read.go 240-266: processOPC", "read.go 268-290: extractCoreAttachments"]}
{"id": "C86", "title": "What Validate reports survives saving and reading", "statement": "For a model with mistakes, Validate returns the same error, with the same places in the same order, before the model is saved and after it was read again.", "quantifier": "every model that fits the format, every mistake the core, material, production, slice and beam lattice rules know; every order of the maps, every schedule of the decoder, every set of loaded extensions", "why_tests_cant": "Relates two runs of Validate through an encoder and a decoder; tests validate models that were built in memory and compare the encoded with the decoded for valid models only.", "anchors": ["validate.go 30-73: Model.Validate", "encoder.go 146-180: Encode", "read.go 178-200: Decoder.Decode"]}
{"id": "C87", "title": "Coherency and bounding box survive saving and reading", "statement": "ValidateCoherency of the model that is read has the results it has for the model that was saved, and BoundingBox returns the box of the model that was saved with its corners rounded to the decimals written.", "quantifier": "every model that fits the format; every order of the maps, every schedule of the encoder, the decoder and of the goroutines of the two functions", "why_tests_cant": "Relates two computations over all meshes through rounding in text; tests compare decoded values of a few models and compute boxes of models built in memory.", "anchors": ["core.go 237-261: Model.BoundingBox", "core.go 416-433: Object.boundingBox", "validate.go 370-462: ValidateCoherency", "encoder.go 146-180: Encode", "read.go 178-200: Decoder.Decode"]}
{"id": "C88", "title": "What is added to a valid model is all that Validate can complain about", "statement": "If Validate accepts a model and assets, objects, items, metadata, relationships, attachments or parts are appended to it, every error Validate then reports is located at something that was appended; so a valid model to which a valid object with the identifier of UnusedID is added is valid.", "quantifier": "every valid model; everything that can be appended to it in any number and combination; every set of registered validators of the repository", "why_tests_cant": "Quantifies over pairs of models, each with unboundedly many references that must keep their meaning; tests validate single models with one defect.", "anchors": ["core.go 139-165: UnusedID", "core.go 264-288: FindResources, FindAsset, FindObject", "validate.go 29-368: Validate", "materials/validate.go", "beamlattice/validate.go", "slices/validate.go 27-206", "production/validate.go"]}
{"id": "C89", "title": "Renumbering the resources consistently changes no answer about the model", "statement": "If the resources of each part of a model get new identifiers, different ones staying different and zero staying zero, and all references to them are changed alike, then Validate returns the same errors in the same order, ValidateCoherency the same verdict and BoundingBox the same boxes.", "quantifier": "every model with any number of parts; every such renumbering, in each part a different one; every answer any schedule of the concurrent checks can give", "why_tests_cant": "Quantifies over all models and all injective functions on identifiers; a test can compare two numberings of one model.", "anchors": ["core.go 237-288: BoundingBox, FindResources, FindAsset, FindObject", "validate.go 29-456: Validate, ValidateCoherency", "materials/validate.go", "beamlattice/validate.go", "slices/validate.go 27-243", "production/validate.go"]}
{"id": "C90", "title": "All that the build places lies in the bounding box", "statement": "Every vertex of every mesh an item of the build places, directly or through components, moved by the transforms on the way, lies in the box BoundingBox returns; and if no transform is set each face of the box touches one of them.", "quantifier": "every model with meshes, components nested to any depth and any transforms; every schedule of the goroutines of BoundingBox; every placed point", "why_tests_cant": "Quantifies over component trees of any depth, all float32 coordinates and transforms with their rounding, and all schedules; tests compare the box of a few fixed models.", "anchors": ["core.go 237-261: Model.BoundingBox", "core.go 416-433: Object.boundingBox", "core.go 500-509: Mesh.BoundingBox", "math.go 158-240: Mul3D, MulBox, Box.extend"]}
{"id": "C91", "title": "Coherency is a property of the surface, not of how it is listed", "statement": "What ValidateCoherency says of a mesh does not change when its triangles are reordered, each is listed from another corner, the vertices are renumbered, or all triangles are turned over, whatever the coordinates; an accepted mesh has an even number of triangles, so one triangle more or less makes it refused; a mesh of two separate pieces is accepted exactly if both are.", "quantifier": "every mesh of fewer than 2^32 edges, every permutation, renumbering and choice of corners; every model of such meshes and every schedule", "why_tests_cant": "Quantifies over all meshes and all their relistings; the tests check five fixed meshes.", "anchors": ["validate.go 369-462: Model.ValidateCoherency, Mesh.ValidateCoherency", "math.go: pairMatch"]}
{"id": "C92", "title": "The checks depend on nothing but what they check", "statement": "Validate, ValidateCoherency, BoundingBox and the lookups return the same for two models that differ only in the order in which their map of parts is iterated, in language, units, thumbnail, unknown elements and attributes, in the contents of attachments and in namespace prefixes; Validate returns the same list of errors in the same order.", "quantifier": "every model with any number of parts, every order of the map, every loaded set of the known extensions, every schedule", "why_tests_cant": "Go randomises map iteration, so a test sees some of the orders of one model; the claim is over all orders of all models and all values of the ignored fields.", "anchors": ["validate.go 17-73: sortedChilds, Validate", "validate.go 369-414: ValidateCoherency", "core.go 237-288: BoundingBox, FindResources, FindAsset, FindObject", "materials/validate.go", "beamlattice/validate.go", "slices/validate.go", "production/validate.go"]}
{"id": "C93", "title": "The core content is read the same whichever extensions are registered", "statement": "A conforming file or package is read without error whichever of the extension packages are imported, and everything the core specification speaks of (objects, meshes, components, base materials, items, metadata, units, parts, relationships) is the same; so is what ValidateCoherency returns, and what BoundingBox returns unless an item or component names a part.", "quantifier": "every two sets of registered extensions, every conforming root or child file of any size, every package of such files, every schedule of the goroutines that read the children, strict or not", "why_tests_cant": "Registration is global state set by imports, so a test program has one set; the claim compares all sets on all files.", "anchors": ["spec/spec.go 25-70: Register, Load", "read.go 178-260: Decode, decoder", "decoder.go", "core.go 237-261: BoundingBox", "validate.go 369-414: ValidateCoherency"]}
{"id": "C94", "title": "The box of a build is put together from its items", "statement": "A build without items has the zero box. The order of the items, and items that place nothing, make no difference to the box; the box of a build split in two parts is the least box around the boxes of the parts; and adding items takes nothing out of the box.", "quantifier": "every model, every split of its items, every order, every schedule of the goroutines of BoundingBox", "why_tests_cant": "Quantifies over all models, all ways to split or order the items and all schedules; tests compare the box of a few fixed builds.", "anchors": ["core.go 237-261: Model.BoundingBox", "math.go 205-225: newLimitBox, Box.extend"]}
{"id": "C95", "title": "UUIDs matter to the production extension only, and SetMissingUUIDs changes nothing else", "statement": "Models that differ only in UUIDs have the same bounding box, the same coherency and the same lookups, and Validate returns the same unless the production extension is declared. SetMissingUUIDs changes nothing but UUIDs, does nothing when it is called again, and does not depend on the order in which the map of parts is iterated.", "quantifier": "every model with distinct part names, every pair of models that differ in UUIDs only, every source of UUIDs, every order of the map", "why_tests_cant": "Quantifies over all models and all assignments of UUIDs; tests compare a few fixed models before and after SetMissingUUIDs.", "anchors": ["production/production.go 127-164: SetMissingUUIDs", "core.go 384-394, 451-461: Item.ObjectPath, Component.ObjectPath", "validate.go 30-73: Model.Validate", "core.go 237-261: Model.BoundingBox"]}
{"id": "C96", "title": "Resources added with UnusedID get the first unused numbers", "statement": "If the identifiers of a Resources are distinct and not zero, and resources (assets or objects, anywhere in their lists) are added one after the other, each with the identifier UnusedID returns at that time, then the identifiers handed out are the first unused numbers in ascending order, which determines them; the identifiers stay distinct and not zero; and no other number becomes an identifier.", "quantifier": "every Resources with distinct identifiers, every number of additions as long as fewer than 2^32 resources result, every place of insertion", "why_tests_cant": "Quantifies over runs of any length; tests call UnusedID once on a few fixed Resources.", "anchors": ["core.go 133-164: Resources.UnusedID"]}
{"id": "C97", "title": "The box depends on what the build places", "statement": "Two models whose builds have the same items and place objects with the same geometry (the vertices of a mesh, or the components) have the same bounding box; objects the build does not place, assets, and all other content make no difference, also to whether BoundingBox returns.", "quantifier": "every pair of models, every schedule of the goroutines of BoundingBox", "why_tests_cant": "Quantifies over all pairs of models that agree on what is placed; tests compute the box of a few fixed models.", "anchors": ["core.go 237-261: Model.BoundingBox", "core.go 416-433: Object.boundingBox", "core.go 264-288: FindResources, FindObject"]}
{"id": "C98", "title": "A mesh that ValidateCoherency accepts is a closed surface", "statement": "If ValidateCoherency reports nothing, the mesh of every solid object is closed: going around all triangles each edge is passed as often in one direction as in the other; wherever the vertices are, the signed volume does not depend on the point it is measured from and the area facing any direction is the area facing away from it; and the number of triangles is even.", "quantifier": "every mesh with less than 2^32 edges, every model, all positions of the vertices, all points and directions", "why_tests_cant": "Quantifies over all meshes, positions and measures; tests check the verdict for a few fixed meshes and never what it implies.", "anchors": ["validate.go 370-462: Model.ValidateCoherency, Mesh.ValidateCoherency", "math.go 10-36: pairMatch"]}
{"id": "C99", "title": "STL files with the same facets are imported as the same model", "statement": "Two STL files with the same facets, be both text, both binary, or one of each, are imported as the same model: names, headers, normals, attribute bytes, the way numbers and lines are written, other lines and trailing bytes make no difference.", "quantifier": "every list of facets, every pair of files of them, every model they are imported into, every conversion of floats out of the range of int32", "why_tests_cant": "Quantifies over all pairs of files in two formats; tests import a text and a binary file of one body each.", "anchors": ["importer/stl/decoder.go 39-58: DecodeContext", "importer/stl/ascii.go 22-59", "importer/stl/binary.go 30-68"]}
{"id": "C100", "title": "Two models put together", "statement": "If the objects, items and parts of two models are put together, and neither refers to an identifier of the other, the bounding box of the result is the least box around the boxes of the two (the box of the other one if a build is empty), and ValidateCoherency accepts the result exactly if it accepts both.", "quantifier": "every pair of models, every schedule of the goroutines of BoundingBox and ValidateCoherency", "why_tests_cant": "Quantifies over all pairs of models; tests look at one model at a time.", "anchors": ["core.go 237-261: Model.BoundingBox", "core.go 416-433: Object.boundingBox", "validate.go 370-462: ValidateCoherency"]}
{"id": "C101", "title": "A builder used freely", "statement": "Whatever vertices a mesh has when a MeshBuilder is made for it, and however the program alternates AddVertex with setting CalculateConnectivity and with appending vertices itself: the vertices of the mesh stay where they are, every returned index designates a vertex in the cell of the point added, the mesh grows by no more than the vertices appended and the different indices returned, and a call with CalculateConnectivity set returns the vertex of the mesh with the coordinates of the point if there is one, as the comment of the field promises.", "quantifier": "every initial list of vertices, every sequence of calls, flag changes and appended vertices (below 2^32 vertices)", "why_tests_cant": "Quantifies over all sequences of uses; the tests add a few points to an empty mesh with a constant flag.", "anchors": ["core.go 511-530: MeshBuilder, NewMeshBuilder", "core.go 533-545: AddVertex", "math.go 47-73: vectorTree"]}
{"id": "C102", "title": "Attributes grouped by namespace", "statement": "Whatever attributes a core element has that can carry those of extensions (all but metadata and vertex; repeated, with values in error, the namespaces mixed in any order), after reading it has one group for each namespace that occurs, in the order of first occurrence; AnyAttr.Get returns the group of a namespace, which has been given exactly the attributes of that namespace in their order, so that neither the attributes of other namespaces nor the way they are mixed with them matter; for a namespace without registered extension the group is those attributes.", "quantifier": "every list of attributes, every combination of registered extensions, every namespace", "why_tests_cant": "Quantifies over all lists of attributes and their interleavings; tests have one attribute of each namespace.", "anchors": ["spec/spec.go 84-112: AnyAttr.Get, NewAttrGroup", "decoder.go 234-269: buildItemDecoder.Start", "decoder.go 712-743: componentDecoder.Start", "decoder.go 125-136: the loop of the elements without attributes of their own"]}
{"id": "C103", "title": "The box of a built mesh", "statement": "The bounding box of a mesh made by adding points with a MeshBuilder is the least box around the points that were added: every point is in it and each of its faces is at one of them. So the box of an imported STL file is the box of the corners of its facets.", "quantifier": "every list of finite points (below 2^32), with CalculateConnectivity set or not", "why_tests_cant": "Quantifies over all lists of float32 points; tests add a few points far apart.", "anchors": ["core.go 511-545: MeshBuilder.AddVertex", "core.go 500-509: Mesh.BoundingBox", "math.go 47-73: vectorTree"]}
