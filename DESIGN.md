# Formal model of go3mf in Rocq (Coq 8.16.1)

Source: `/repo` (HPInc/go3mf at the pinned commit), read as text only; nothing was built or run.
Files: `rocq/theories/*.v`, logical name `Verif`. Properties: `properties.jsonl`.
Status of each property: `MANIFEST.json`. Wrong programs tried against the theorems: `seeded/LOG.jsonl`.

## 1. How the model is built

* Each Go function that matters becomes one total Gallina function with a comment citing file and lines.
* Go strings and byte slices are Coq `string` (a sequence of bytes).
* `uint32`, `int` are `N`/`Z`/`nat`; where Go would wrap or truncate, the model does so explicitly or the
  comment says which bound is assumed.
* `float32` is `SpecFloat.spec_float` of the standard library with precision 24 and emax 128; operations are
  `SFadd`, `SFmul`, `SFdiv`, `SFcompare`: the IEEE 754 algorithms, executable and free of axioms. NaN payloads
  are not distinguished.
* A run-time panic is an explicit result (`Panic`), and fuel exhaustion is an explicit result (`OutOfFuel`),
  never confused with success.
* Maps (`map[string]*ChildModel`) are association lists with distinct keys; an iteration is any permutation of
  them, and theorems quantify over the permutation.
* Goroutines are step machines; theorems quantify over the interleaving.
* Pointers into the model held by decoders are represented by the position of the datum (innermost open object,
  last resource, ...); the comments say why they designate the same datum.
* Shared slices whose aliasing is observable (`writeTriangles`, the text of unknown elements) are modelled with an
  explicit backing array.

Layers of files: `Go*` (language and library primitives), `Types`, `XmlTypes`, `PkgTypes` (data), `Conc` and `M_*`
(the model), `S_*` (specifications; they use the data types and Go primitives, never `M_*`), `P_*` (proofs), `T_*`
(the property theorems, each with a non-vacuity `Example` and `Print Assumptions`).

If a property is false of the faithful model, the theorem `…_refuted` exhibits a witness, and `…_partial`
states what does hold. Section 4 lists these findings.

| model file | what it models |
|---|---|
| `GoBase`, `GoNum`, `GoStrconv`, `GoUtf8`, `GoFloat` | the parts of `strings`, `strconv`, `unicode/utf8`, `encoding/xml.EscapeText`, `sort` and float32 arithmetic that go3mf uses |
| `M_Core` | `core.go`: identifiers, lookups, walks; the enumerations of all packages |
| `M_Errors` | `errors/` |
| `M_Text` | `spec/utils.go` colours, `uuid/` |
| `M_Geom` | `math.go`, `MeshBuilder`, bounding boxes of `core.go` |
| `M_Coherency`, `Conc` | `ValidateCoherency`; goroutines under a mutex |
| `M_Validate`, `M_ExtValidate` | `validate.go`; `validate.go` of the four extensions; `SetMissingUUIDs` |
| `M_Xml`, `M_Reader`, `M_Printer` | `internal/xml`: scanner, buffered reader, printer |
| `M_Decode` | `decoder.go`, `read.go` 64-159, `spec/`, the four extension decoders |
| `M_Encode` | `encoder.go`, the four extension encoders |
| `M_Package` | `opc.go`, `read.go` 183-345, `Encoder.Encode` |
| `M_Childs` | the goroutines of `processNonRootModels` |
| `M_Stl` | `importer/stl` |
| `M_Matrix` | `math.go`: matrix products |
| `M_ErrText` | `errors/`: texts and unwrapping |
| `M_Save`, `M_Write`, `M_Reuse` | saving with shared relationship arrays and attachment streams; with a writer that fails; decoding again |
| `M_Stack`, `M_Pool` | the recycled stack nodes of the scanner; the buffers of attribute values |
| `M_Registry` | `spec/spec.go`: the registry of specs under its RWMutex |
| `M_ErrHeap` | `errors/` with its pointers |
| `M_Torn` | the variable errs of `processNonRootModels`, word by word |
| `M_Append` | decoder.go 41-47 run by several goroutines (read.go 215-238): append to model.Any, word by word |
| `M_Streams` | the streams that `DecodeContext` opens, reads and closes; `OpenReader` |

## 2. Each property: what is modelled and how it is proved

| id | what is modelled | how it is proved |
|----|------------------|------------------|
| C01, C02 | `Resources.UnusedID`, sort as insertion sort | sortedness and pigeonhole; witness and exact side condition for C02 |
| C03 | `FindResources`, `FindObject`, `FindAsset` | list induction; spec is "nth element, no earlier one" |
| C04 | `WalkObjects`, `WalkAssets` with a stateful callback | fold induction; spec is an inductive list of visits and an outcome; independent of the map order |
| C05 | all enumeration tables | case analysis on values and texts |
| C06, C07 | `ParseRGBA`, `FormatRGBA` | nibble lemmas, each checked for all 256 bytes inside a universally quantified proof |
| C08, C09 | `uuid.New`, `uuid.Validate` | positional characterisation by inductive grammar |
| C10, C11 | `MeshBuilder`, `vectorTree`, float32 quantisation to the grid | invariant over call sequences; rounding errors with Flocq; witnesses |
| C12 | `Mesh.BoundingBox` | fold invariant; order of `SFcompare` |
| C13 | `Model.BoundingBox` as goroutines with lock, load, store, unlock | permutation-invariance of the fold; `Conc` gives the serialisation |
| C14 | `MulBox`, `Mul3D` | monotonicity of rounding (Flocq); witness |
| C15, C57 | recursion of `boundingBox`, slice validation with fuel | well-founded depth of acyclic component graphs; exactly when it returns: a walk longer than the number of components passes a key twice (P_Cycle); witnesses diverge for every fuel |
| C16 | path argument of `boundingBox` | inductive resolution relation; witness |
| C17, C18 | `ValidateCoherency` of meshes and models, `pairMatch` | fold invariant on the edge map against a counting spec; all interleavings |
| C19 | package `errors` | induction on lists of errors |
| C20, C21, C22, C23 | `validate.go` | the list of errors is characterised exactly by an inductive relation "rule violated at this place", nil iff none |
| C24 | metadata decoder and validator | composition of both; witness |
| C25–C28 | validators of the extensions, `SetMissingUUIDs` | as C21; conformity specs written from the 3MF specifications; witnesses |
| C29–C33, C58 | the scanner on bytes with element stack, name cache, reader | stack invariants, fuel lemmas, grammar of tags and texts; buffering by a simulation for every client |
| C34, C35 | `EscapeText`, printer, scanner | per-rune lemma; simulation of the scanner on printed text |
| C36, C59 | `decodeModelFile` strict and lenient | simulation of the two runs; the run determines the events |
| C37 | all element decoders with explicit nil dereference and index panics | invariant on the machine over "tame" event lists; witnesses |
| C38 | unknown-element decoder with aliased scan buffer | induction on balanced token lists; witnesses |
| C39 | all encoders and decoders | each writer `W` has a triple: scanning what `W` prints and running the decoder takes a state without the datum to the state with it (`P_RTBase`, `P_RTAttr`, `P_RTText`, `P_RTExt`, `P_RTCore`, `P_RTModel`) |
| C40, C55 | same, extension data and triangles with the shared array | consequences of C39's triples; witnesses |
| C41–C43 | decimal text of uint32, float32, matrices | digit induction; value of the text over the reals and Flocq's rounding |
| C44, C45 | encoder as operation list | induction; witnesses |
| C46, C47 | relationships and attachments of a package, names of opc as parameters | list invariants |
| C48, C49 | goroutines of child decoding at token granularity; polling | commutation of steps on disjoint parts of the model (frame property of the decoder), confluence, measure; the frame is widened to the Any of the model for the one child that has foreign elements (P_Frame2, P_Childs2, T_Childs2) |
| C50–C53 | STL import on byte streams | stream induction; witnesses |
| C54 | `Encode` then `Decode` on the list of parts | composition of C39, C46, C47, C48 |
| C56 | `HasTransform` | float case analysis |
| C60 | `strconv.ParseFloat`: decimal, hexadecimal, underscores, words | grammar of numerals as spec; scanner lemmas on texts; Flocq's division and rounding theorems for the value; witnesses outside the schema |
| C61 | `Matrix.Mul`, `Mul2D`, `Mul3D`, `Translate`, `Identity` | exactness of float32 on integers below 2^24 (Flocq), then ring identities; for all numbers a calculus of relative errors (Flocq error_N_FLT); witness of rounding |
| C62 | `Error()`, `Unwrap` of package `errors`, `errors.Is` | inductive spec of the text; induction on error trees; witness |
| C63 | decoder: `Start` of every element, wrapping of errors along the stack | table of attribute types as spec; invariant of the decoder's stack (each decoder belongs to its element name); run induction; witnesses |
| C64 | encoder and decoder together: `MarshalModel`, `UnmarshalModel` repeated | the writer as a function of the image of the reader (C39) is equal element by element; distance to the default in the reals; witnesses |
| C65 | the decoders of M_Decode against `S_Meaning`, a function of the tree of elements | invariant per decoder: after the children D the record read is that of the specification for D; induction on the tree; ignored and kept elements by induction on their events; witnesses |
| C66 | `encode`, `decodes` and `validate` together, against `S_Revalid` | from C54: the model read is the image of the saved one under rounding; C20: valid means `Conforms`; each clause of it is preserved by the image (rounding is monotone, keeps zero and keeps values apart that are two units apart); witnesses |
| C67 | `encode_mem` (M_Save): Encode with relationships as slices of shared arrays and attachments as streams | induction on the relationships added: append writes only behind the slice; refinement of `encode`; witnesses |
| C68 | `decodes_again` (M_Reuse): Decode of a Decoder with the files of earlier calls | induction on the relationships: the files added do not depend on those before; executions as witnesses |
| C69 | `encode_io` (M_Write): Encode with a package writer that may fail at any call, the calls of the printer, bufio.Writer with its sticky error | invariant of the buffer: bytes taken plus bytes kept are the text handed over; refinement of `encode` |
| C70 | `push`, `pop`, `push_eof`, `pop_eof`, `push_element`, `push_ns` (M_Stack) on a heap of nodes with pointers, and RawToken with them | invariant: the chains of the stack and of the free list are disjoint and hold all nodes; simulation of the scanner of M_Xml |
| C71 | `RegStep` (M_Registry): the steps of goroutines that take the RWMutex, get at the map and give it back | refuted by executions; invariant of the mutex, order of the accesses to the map, measure |
| C72 | `pool_tags` (M_Pool): the pool of bytes.Buffer and the slices given to the callbacks, with their arrays | refuted by two tags; invariant: the buffers own different arrays |
| C73 | `wrap_h`, `append_h` (M_ErrHeap): WrapIndex, WrapPath, Append on a heap of Error and List cells | footprints: the cells of a result are new or those of its operands and are reached once; refinement of M_Errors; refuted by sharing |
| C74 | `decode_with`, `unmarshal_model` (M_Decode) on the events of a tree | composition of C37 (no panic), C63 (only ill-typed attributes give errors) and C65 (meaning); the loop ends at the end of the input |
| C75 | `decodes` (M_Decoder): processOPC, the goroutines of the children, the root model | C74 for each file, merged by C48 for all interleavings; packages by C47; one child with foreign elements by the one-child frame of C48 and the prefix law of C81 (T_Read2) |
| C76 | `scan` (M_Xml) on bytes, `unmarshal_model` (M_Decode) | induction over the grammar `Content` (S_Document); one step of the scanner per token (P_Document), then C74 |
| C77 | `unmarshal_model` on two files | induction over the relation `Alike` on trees (P_Alike): the meaning (S_Meaning) of alike trees is the same; with C76 |
| C78 | `print` of `write_model`, `write_child` (M_Printer, M_Encode) | grammar `WellFormed` (S_WellFormed) from the productions of XML 1.0 and Namespaces; one lemma per writing function (P_WellFormed, P_Saved); a checker that accepts all of the grammar for the refutations (P_Malformed) |
| C79 | step machine of M_Childs with assignments to errs in two steps, type word and data word (M_Torn) | simulation by M_Childs; invariant: all errors about to be assigned are equal, since they wait for cancel (P_Torn) |
| C80 | the executions of M_Package, M_Childs and M_Reuse with a log of what is done with each stream (M_Streams) | invariant relating the state of each goroutine to the operations on its stream; the logged executions are all executions (P_Streams) |
| C81 | M_Decode, M_Package, M_Childs, M_Reuse started from any model | simulation of decoding into a model by decoding into it without its lists; invariant: a decoder that works on the last element of a list has added one, also while other goroutines run (P_Onto, P_Used) |
| C82 | M_Stl, M_Geom, M_Coherency, M_Validate, M_Package together | the importer is inverted (success implies the facets of the file and the builder invariant); two corners have one index iff they share a cell, so edges of facets and of triangles correspond; conformance, PackageFits and Robust extend to the model with the new object; then C17, C20, C66 (P_Convert, P_Convert2) |
| C83 | M_Package `encode` with the two iteration orders as arguments | encode as a list of parts accepted one after the other; adding relationships without repetition commutes up to permutation (P_Repro) |
| C84 | M_Append: the shared slice, word by word | machine of loads and stores in any order; invariant: the stores that remain, done in any order, give the slice with the next element (P_Append); witnesses are executions |
| C85 | M_Package `process_opc` for any relationships | induction over the relationships of the package; invariant: the children listed are in the map (T_Roots) |
| C86 | M_Validate `validate` before `encode` and after `decodes` | comparisons of numbers that are clear come out alike after rounding (P_Firm); every part of Validate returns the same on a part and on what is read of it (P_Report), then the round trip of C39/C54 (T_Report) |
| C87 | M_Coherency `model_coherency`, M_Geom `model_bbox` before `encode` and after `decodes` | minimum and maximum commute with rounding, which is monotone; the test for empty boxes comes out alike for boxes of one unit or more; the tasks of both models are equal for corresponding orders of the children (P_Shape, T_Shape) |
| C88 | M_Validate `validate` with the `registry` of M_ExtValidate, M_Core `unused_id` | the violations of C21, C25-C28 one by one: references of the old part resolve to the same resource in the longer model (P_Added), so a violation at an old place is one of the old model (T_Added) |
| C89 | M_Validate `validate` with the `registry` of M_ExtValidate, M_Geom `model_bbox`, M_Coherency `model_coherency` | `renumber` in S_Renumber changes identifiers and references only; every lookup commutes with it (P_Renumber), so does every validator; counterexamples computed (T_Renumber) |
| C90 | M_Geom `model_bbox`, `obj_bbox`, `mul_box` | placed points defined in S_Within by the component tree and rounded arithmetic; induction on the nesting depth with a bound on magnitudes from Flocq (P_Within); counterexamples computed (T_Within) |
| C91 | M_Coherency `mesh_coherency`, `model_coherency` | relistings in S_Surface; the directed edges of a relisting are a permutation of the images of those of the mesh; a list closed under reversal has even length (P_Surface); with C17 and C18 (T_Surface) |
| C92 | M_Validate, M_ExtValidate, M_Geom `model_bbox`, M_Coherency `model_coherency`, M_Core lookups | the relation Same in S_Same lists the fields that count, parts up to permutation; every validator is shown to return the same (P_Same, T_Same) |
| C93 | M_Decode `decode_with`, M_Decoder `decodes`, M_Coherency, M_Geom | S_Bare removes from a model what is of extensions; the meanings of C65 for two sets of extensions are equal then (P_Bare); with C65, C74 and C75 (T_Bare) |
| C94 | M_Geom `model_bbox` | union and items that place nothing defined in S_Union; the possible boxes characterised by the orders of the items' boxes, then folds of min and max (P_Union); counterexamples computed (T_Union) |
| C95 | M_ExtValidate `set_missing_uuids`, M_Validate, M_Geom, M_Coherency | S_Uuids removes the UUIDs of a model; every check gives the same on the result (P_Uuids), then C92; what SetMissingUUIDs leaves is followed through its loops (P_UuidSet) |
| C96 | M_Core `unused_id`, called in a loop by a caller that inserts resources (S_Alloc `Run`) | induction over the run with C01 at each step; uniqueness by comparing the two sorted lists (T_Alloc) |
| C97 | M_Geom `item_task`, `obj_bbox`, `model_bbox` | placed objects defined inductively in S_Placed; induction on the nesting with an invariant that ties the part of the object to the path the code passes on (P_Placed); counterexample computed (T_Placed) |
| C98 | M_Coherency `mesh_coherency`, `model_coherency` | closed surfaces defined in S_Closed over exact integer points; the edges are a permutation of the reversed edges, so antisymmetric sums vanish; volume and area by ring identities (P_Closed) |
| C99 | M_Stl `decode_stl` | files of given facets defined in S_SameStl; both loops are `add_all` on the corners (P_Stl `Built`), which determines builder and triangles (T_SameStl) |
| C100 | M_Geom `model_bbox`, M_Coherency `model_coherency` | merged models in S_Merge; the lookups of the items of either model are unchanged, so C97 and C94 apply; coherency by the objects (T_Merge) |
| C101 | BuildTypes `use`, M_Build `build` over M_Geom `add_vertex` | calls, appended vertices and different indices in S_Build; invariant between the tree, the calls so far and the mesh, by induction on the uses (P_Build, T_Build) |
| C102 | M_Get `any_get`, M_Decode `any_attr`, `group_start`, `item_attr`, `obj_attr`, `comp_attr`, `bm_attr`, `base_attr`, `tri_attr`, `model_attr` | attributes by namespace in S_Groups; what Get finds after each attribute is a function of what it found before and of that attribute, by induction on the groups and on the attributes (P_Groups, T_Groups) |
| C103 | M_Geom `add_all`, `mesh_bbox` | `Inside`, `Touches`, `SameCell` of S_Geom; the vertices of the mesh are among the points, then C10 and C12 (T_BuiltBox); STL files by the lemmas of C99 (T_StlBox) |

## 3. Trusted base

* Coq 8.16.1's kernel, including `vm_compute` conversion.
* The axioms of the standard library that `Print Assumptions` lists for some theorems (section 5): they all come
  from the real numbers (`ClassicalDedekindReals.sig_forall_dec`, `sig_not_dec`,
  `FunctionalExtensionality.functional_extensionality_dep`) and classical logic (`Classical_Prop.classic`, through
  Flocq's use of it). The project adds none. Flocq is used in proofs only (`P_Float`, `P_Strconv` and what builds on
  them); no definition of the model or of a specification mentions it.
* That the model is what the Go text says: argued by the citations in the comments, not checked mechanically.

### Modelled from the documentation of Go, not from source in /repo
`strconv.ParseUint/ParseFloat/FormatFloat/FormatUint`, `encoding/xml.EscapeText`, `unicode/utf8`, `strings.Fields/Split/
EqualFold/ToLower` (the last for U+0130 and ASCII), `bufio.Scanner` and `bufio.Reader.Peek`, `sort`, `sync.Mutex`,
`context` (a done flag that does not go back), float32 arithmetic without fused multiply-add (the Go specification
permits fusing on some architectures; amd64 does not).

### Not modelled
* `github.com/qmuntal/opc` (its source is not available here): ZIP, content types, the XML of relationships. Its
  name functions (`NormalizePartName`, `ResolveRelationship`, the name check of `CreatePart`) are parameters.
* `CreateWriter`, `WriteCloser.Close` and the calls of `os` (of `OpenReader`, only when its file is closed, C80); `utils/` (test helpers); a writer that takes less than
  all without an error (C69 assumes the contract of `io.Writer`).
* Specs registered from outside the repository: validators are an arbitrary function in C20–C22, decoders and encoders
  are the four of the repository, in any combination of being registered.
* Memory exhaustion, stack depth, integer overflow of `int` lengths beyond 2^31.
* Data races other than those of the modelled goroutines; where two goroutines write the same place Go gives no meaning.
* The text of error messages except `XPath` and what `Error()` of package `errors` prints.

## 4. Findings (properties the code violates)

Each is a theorem `…_refuted` with a concrete witness, or is visible in the model where cited.

1. **C02** `UnusedID` returns an ID in use if IDs repeat, or an ID is 0, below the gap.
2. **C09** `uuid.Validate` does not look at the first and last byte of a 38-byte text: `x…y` is accepted in place of braces.
3. **C11** `MeshBuilder` merges adjacent floats near 17 units (float32 cannot carry a micron there), and on amd64 merges
   all points beyond 2147 units, where the conversion to int32 overflows.
4. **C12** with infinite coordinates the mesh box is not tight (`MaxFloat32` remains as the limit).
5. **C13** NaN coordinates, which the decoder accepts, make the model's box depend on the schedule.
6. **C14** `MulBox` transforms two corners only: a rotated box does not contain the rotated points. An object whose
   components resolve to nothing has the limit box, which `MulBox` turns into the whole space.
7. **C15, C57** components may contain each other: `Validate` accepts this, and `BoundingBox` and the slices validator
   recurse forever.
8. **C16** `boundingBox` passes the path of the item down unchanged, so a component without path inside a child model
   is looked up in the wrong file.
9. **C23** `TİTLE` (U+0130) is accepted as the reserved name title.
10. **C24** the decoder stores the prefix of a metadata name where `Validate` expects the namespace, so each namespaced
    metadata of a decoded file is reported. In child models prefixes are never resolved.
11. **C25** an index equal to the length of the group is accepted in composites and multiproperties; a texture group in
    multiproperties counts as empty.
12. **C26** beam lattice: the clipping check is inverted, conical beams are refused, beam set references are compared
    with the number of references of the set itself, negative lengths are accepted.
13. **C27** slices: `v2` and `startv` are not range checked, a bottom height of 0 is refused, NaN heights are accepted,
    references are resolved in the wrong part.
14. **C28** `SetMissingUUIDs` leaves an empty UUID of an existing build attribute group empty.
15. **C37** decoding panics on `<:/>`, on a second or nested `<model>`, on `<b:beamlattice>` directly under resources,
    and on attributes of a registered extension on elements where it defines none.
16. **C38** the text of unknown elements aliases the scan buffer and is overwritten by later tokens; an unknown element
    inside one of the same name ends the outer one early. Children of unrecognised core elements are hoisted into the parent.
17. **C40** the attributes of all triangles share one backing array: an extension attribute of one triangle takes the
    place of the property attributes of later ones. The witness is a model that `Validate` accepts.
18. **C44** `Any.Marshal3MF` returns after its first element.
19. **C45** re-encoding a decoded document with nested unknown elements of one name gives unbalanced XML.
20. **C46** `AddRelationship` compares paths only: a relationship that a texture demands is lost if there is one of
    another type to the same part.
21. **C47** a part that cannot be read is left out silently while the relationship stays.
22. **C48** foreign elements of children are appended to the root model's `Any` by all goroutines (a data race, order
    by schedule); the error of a failing child is overwritten by the error of the context it cancelled.
23. **C50, C51, C53** STL files of less than 300 bytes are refused, among them every binary file of up to four facets;
    detection loops forever on a reader that fails with an error other than EOF; a binary file that begins with "solid"
    and is ASCII in its first 300 bytes is taken for text.
24. **C52** cancellation of binary import takes effect only if the last facet is number 1001, 2001, ...; nothing polls
    before 1000 facets.
25. **C55** a beam whose second radius is the lattice's but whose first is not is read with the first for both. A radius
    below one unit of the last decimal is read as the radius of the lattice. A bottom height of −0 is read as +0.
26. **C54** an attachment that no relationship leads to is written to the package and not read again.
27. **C60** hexadecimal numbers (`0x1.fp4`), digits separated by underscores (`1_000`), `NaN` and `Inf` are accepted as
    coordinates although the schema of 3MF allows none of them.
28. **C61** float32 rounding: the product of two matrices does not map a point as the two one after the other do.
29. **C62** `errors.Is` on a list of violations finds only the first of them (`List.Unwrap` gives the first element).
30. **C63** values of `contenttype`, `tilestyleu/v`, `filter`, `blendmethods`, `cap1/cap2`, and `preserve` that the
    schema does not allow are read as the default without error; the index in the location of a slice segment is the
    number of polygons (`polygonDecoder.Child`), not the place of the segment; the slice reader ignores the namespace
    of attributes, so `other:id` overwrites the identifier of a slice stack; an attribute no specification defines is
    an error on `vertex` and `triangle` (marked required) and ignored everywhere else.
31. **C64** a second radius of 1.00001 in a lattice of radius 1 is written as `1.0000`, left out when the file is read
    and saved again, and then read as the first radius: saving alone changes the geometry. A transform that rounds to
    the identity is written once and gone after the next save, and so is the bottom of a slice stack that rounds to zero.
32. **C65** what is inside an ignored element is read as if the element were not there (`<x:alternative><item/></x:alternative>`
    builds the item), an element inside it with the name of the parent ends the parent, and the siblings behind are
    lost without error (C65_closed_refuted loses a triangle); `<m:color/>` is left out and later colours change index; `<metadata>a<?p?>b</metadata>` keeps `b` only.
33. **C66** a valid model can be invalid when it is read again: slices at 1.00001 and 1.00002 are both written 1.0000
    (not increasing); minlength 0.00001 is written 0.0000 (missing); metadata that Validate accepts because its
    namespace is declared is written `namespace:name` and refused after reading; a texture at `/3D/.t.png` is accepted until
    saving adds the relationship to it (ErrOPCPartName).
34. **C67** a model can be saved once: Encode reads the attachment streams to their end, the second save writes them empty
    without error (also for models that were just decoded). `enc.relationships = child.Relationships` is not a copy: with
    `child1.Relationships = rels[:1]` and `child2.Relationships = rels[1:]` the texture of child 1 overwrites the
    relationship of child 2, in the package and in memory.
35. **C68** `nonRootModels` is never cleared: a second Decode of the same Decoder reads each child twice (two goroutines
    that write the same resources); the same happens at once if the root names a child twice, e.g. by a relative and
    an absolute path.
36. **C71** Register does not panic when it is called twice for a namespace or with a nil spec, as its comment says: the
    second spec replaces the first, and a nil spec is accepted and makes the decoder panic at the first attribute or
    element of the namespace.
37. **C72** the attribute values handed to `Unmarshal3MFAttr` and `Start` are slices of buffers that the next start tag
    overwrites; the interfaces do not say that they must be copied (all decoders of the repository do).
38. **C73** `WrapIndex`, `WrapPath` and `Append` change the error they are given: an `*Error` that a validator keeps and
    returns twice is reported with the levels of both places in both, and two lists made by `Append` from one list have
    the errors of both.
39. **C78** a file with `<y:a xmlns:y="u"/>` among the elements that are kept is saved as `<a xmlns:y="u"></y:a>` (WriteStart
    takes the prefix of the tag before it reads the attributes, WriteEnd after), which no reader accepts, go3mf included.
    A model with UUIDs, or other attributes of extensions, but without the Extension is valid and saved with
    `http://schemas.microsoft.com/3dmanufacturing/production/2015/06:UUID="..."`.
40. **C79** processNonRootModels assigns to the named result `errs` from several goroutines without a lock. If two children
    fail (or one does and the caller cancels), the two words of the interface may come from different errors: a value
    with the type `*xml.SyntaxError` and a pointer to an `Error`, whose Error method reads memory as what it is not.
41. **C81** Decoding into a model that is not new: a file without a `unit` is read in the unit the model had (the default,
    millimetre, is never set); `requiredextensions` marks the first extension with the prefix, which may be one of the
    model for another namespace; object IDs are not renumbered, so items of the file may build objects of the model; a
    child of the model with the path of a child of the package is replaced; an attachment of the package with the name
    of one of the model is dropped.
42. **C82** (no refutation) The importer keeps facets of which two corners are merged (closer than the accuracy of
    merging): it reports no error and the model is not valid (`ErrDuplicatedIndices`), see `C82_degenerate_facet`.
43. **C83** `Encode` ranges over the map `m.Childs` twice, so with two children or more the order of the parts and of the
    relationships of the root model differs from save to save: saved files cannot be compared by bytes, and when
    children have attachments, `Attachments` of the model read back is in one order or another.
44. **C84** `modelDecoder.Child` appends to the shared `model.Any` from the goroutines of all children (decoder.go 46): with
    elements of other namespaces in two children one may be lost, and the slice may get the array of one goroutine and
    the length of the other, so that ranging over it reads memory behind the array.
45. **C85** `processOPC` goes on after the first root model: of two root models the last is read, but `Relationships` has
    those of both, the children of both are read, and the relationships of the children of the first are added twice
    (also when both relationships lead to the same part; its children are then read twice into the same resources).
46. **C86** Saving can hide mistakes: a slice at 1.00001 in a stack whose bottom is at 1.00002 is reported, but both are
    written as 1.0000 and the model read is valid; a relationship that is there twice is reported, but written once.
47. **C87** Transforms are written with three decimals whatever FloatPrecision says: a model scaled by 1.00024 of size 8194
    is read with size 8192. A model smaller than half a unit of the last decimal is read with a box of zeroes, which
    BoundingBox takes for no box at all: it then returns its start value, from 3.4e38 down to -3.4e38.
48. **C88** Adding an object that the build does not place can make Validate report ErrSliceInvalidTranform for an object with
    slices that was there and is unchanged: slices/validate.go 188-206 looks up build items without path in the part of
    the sliced object. An asset added under the identifier of an object makes Validate report the object, not the asset.
49. **C89** Renumbering the resources of one part together with all references to them can make Validate report a valid
    model with slices, and can change the box BoundingBox returns: both look up references without path in the wrong part
    (slices/validate.go 188-243; core.go 237-261 with Object.boundingBox).
50. **C90** A mesh all of whose vertices are at the origin has the box that Object.boundingBox takes for "no box"
    (core.go 251, 427): it is left out wherever it is placed. If nothing else is placed, BoundingBox returns the box with
    minimum +MaxFloat32 and maximum -MaxFloat32; if an object with such a component is placed with a transform, MulBox
    turns that box into one that spans all float32 numbers. Rotated objects stick out of the box (as C14).
51. **C94** A build all of whose items place nothing (no such object, or one without vertices and components) has the box
    with minimum +MaxFloat32 and maximum -MaxFloat32, where the build without items has the zero box.
52. **C97** An object that the build does not place decides the box, if a placed object of another part has a component
    without path with its identifier (consequence of C16).
53. **C99** Three facets are imported from a text and refused from a binary file, which has 234 bytes (C51).
54. **C100** With a NaN the box of two models put together need not contain the box of either (consequence of C94).
55. **C101** `NewMeshBuilder` does not enter the vertices the mesh already has: against the comment of
    `CalculateConnectivity`, a point of the mesh is added again (always by the first call, `C101_first`). The same holds
    of vertices added while the flag was not set.
56. **C103** The box of a mesh made with `MeshBuilder` may leave out points that were added: a point in the cell of an
    earlier one is not stored (half a micron apart at the origin; much farther far from it, see C11).
57. Not refutations, but worth knowing: triangle extension attributes are written without escaping; a metadata group
    without metadata, properties of an object without mesh, components of an object with mesh and identity transforms
    are not written; XML comments, CDATA and document types are refused (C58_no_comments); a child listed by two
    relationships is decoded twice concurrently; attachment streams are consumed by `Encode`, so a second `Encode`
    writes them empty; lenient decoding drops the errors collected when the XML turns out malformed; ValidateCoherency
    accepts meshes that enclose no volume (two pairs of opposite triangles, example C98_flat) or are inside out (C91).

## 5. Assumptions of each theorem

Output of `Print Assumptions`, which also stands behind each theorem in the `T_*` files.

**No assumptions (“Closed under the global context”)** (340 theorems)

`C01_unused_id_fresh_and_lowest`, `C02_unused_id_not_in_use_refuted`, `C02_unused_id_not_in_use_partial`, `C02_exact`, `C03_find_resources`, `C03_find_object`, `C03_find_asset`, `C04_walk_objects`, `C04_walk_assets`, `C04_visits_unique`, `C04_outcome_unique`, `C04_map_order`, `C05_enumerations`, `C06_format_parse_rgba`, `C06_parse_format_rgba`, `C07_parse_rgba_accepts`, `C08_new_is_version4`, `C08_new_is_valid`, `C08_new_injective`, `C09_validate_refuted`, `C09_validate_partial`, `C10_builder_indices`, `C10_equal_points_equal_indices`, `C10_no_connectivity`, `C11_merge_refuted`, `C11_merge_far_refuted`, `C12_mesh_box_tight`, `C12_infinite_refuted`, `C13_schedule_refuted`, `C13_schedule_partial`, `C13_schedule_untransformed_partial`, `C14_mulbox_refuted`, `C15_bounding_box_refuted`, `C15_exact_partial`, `C15_bounding_box_terminates_partial`, `C15_fuel_irrelevant`, `C16_resolution_refuted`, `C16_resolution_partial`, `C17_mesh_coherency`, `C18_model_coherency`, `C19_append_keeps_all`, `C19_append_nil`, `C19_append_makes_list`, `C19_wrap_index`, `C19_wrap`, `C19_wrap_path`, `C19_xpath`, `C20_validate_nil`, `C20_core_validate_nil`, `C20_registry_proper`, `C21_validate_reports`, `C22_relationships`, `C23_reserved_refuted`, `C23_reserved_partial`, `C23_reserved_exact`, `C24_refuted`, `C24_exact_partial`, `C25_materials_reports`, `C25_color_group`, `C25_texture_group`, `C25_texture`, `C25_indices_refuted`, `C25_composite_partial`, `C25_multi_partial`, `C26_lattice_reports`, `C26_lattice_refuted`, `C26_lattice_partial`, `C27_slices_reports`, `C27_stack_refuted`, `C27_stack_partial`, `C27_object_refuted`, `C27_object_partial`, `C28_production_reports`, `C28_production_nil`, `C28_set_missing_completes`, `C28_set_missing_refuted`, `C28_set_missing_partial`, `C28_set_missing_distinct_partial`, `C28_then_valid_partial`, `C28_exact_partial`, `C29_well_nested`, `C29_empty_tag_closed`, `C30_names_resolved`, `C30_bindings_scoped`, `C30_bindings_restored`, `C30_ends_supplied`, `C31_splitting_invisible`, `C31_same_bytes`, `C31_no_progress`, `C32_progress`, `C32_scan_ends`, `C33_cache_invisible`, `C33_names`, `C34_attribute`, `C34_text`, `C35_print_scan`, `C35_header`, `C36_strict_lenient`, `C37_no_name_refuted`, `C37_second_model_refuted`, `C37_nested_model_refuted`, `C37_beamlattice_refuted`, `C37_attribute_refuted`, `C37_no_panic_partial`, `C38_text_refuted`, `C38_nested_refuted`, `C38_model_partial`, `C38_mesh_partial`, `C38_resources_partial`, `C38_written_partial`, `C40_refuted`, `C41_uint_round_trip`, `C41_uint_accepted`, `C41_uint_refused`, `C42_not_finite`, `C43_twelve_numbers`, `C44_refuted`, `C44_single_partial`, `C45_refuted`, `C45_balanced_partial`, `C45_child_partial`, `C46_package`, `C46_parts_partial`, `C46_unique_partial`, `C46_refuted`, `C47_relationships`, `C47_attachments_partial`, `C47_unreadable_refuted`, `C48_merged_partial`, `C48_no_error_partial`, `C48_schedule_partial`, `C48_error_partial`, `C48_returns_partial`, `C48_one_foreign_partial`, `C48_one_schedule_partial`, `C48_one_error_partial`, `C48_order_refuted`, `C48_error_refuted`, `C49_cancelled`, `C49_panic`, `C50_text_partial`, `C50_text_total`, `C50_short_refuted`, `C51_present_partial`, `C51_missing_partial`, `C51_small_refuted`, `C52_unchanged_partial`, `C52_text_partial`, `C52_binary_ignored`, `C52_binary_refuted`, `C52_text_refuted`, `C53_detection_partial`, `C53_short_refused`, `C53_reader_error_loops`, `C53_detection_refuted`, `C53_solid_refuted`, `C55_refuted`, `C56_has_transform`, `C56_unset_transform_keeps_box`, `C57_validate_refuted`, `C57_slices_terminates_partial`, `C57_reachable_partial`, `C58_text`, `C58_start_tag`, `C58_end_tag`, `C58_no_comments`, `C59_accepted`, `C59_reported`, `C60_accepts`, `C60_schema`, `C60_refuted`, `C61_refuted`, `C62_text`, `C62_built`, `C62_is_partial`, `C62_wrapped`, `C62_is_refuted`, `C63_tag`, `C63_open`, `C63_justified`, `C63_clean`, `C63_reported`, `C63_index`, `C63_place`, `C63_silent_refuted`, `C63_segment_refuted`, `C63_namespace_refuted`, `C63_undefined_refuted`, `C65_tree`, `C65_meaning_partial`, `C65_unmarshal_partial`, `C65_child_partial`, `C65_ignored_refuted`, `C65_closed_refuted`, `C65_color_refuted`, `C65_text_refuted`, `C66_metadata_refuted`, `C67_saved_partial`, `C67_again_partial`, `C67_streams_refuted`, `C67_relationships_refuted`, `C68_first`, `C68_files`, `C68_again_partial`, `C68_again_refuted`, `C68_listed_refuted`, `C69_complete`, `C69_reported`, `C69_succeeds`, `C70_stack`, `C70_determined`, `C70_memory`, `C70_scanner`, `C71_panics_refuted`, `C71_sequential_partial`, `C71_no_race_partial`, `C71_progress_partial`, `C72_kept_refuted`, `C72_values_partial`, `C73_wrap_refuted`, `C73_append_refuted`, `C73_once_partial`, `C73_value_partial`, `C73_determined`, `C74_root`, `C74_unmarshal`, `C74_child`, `C75_read_partial`, `C75_ends_partial`, `C75_one_foreign_partial`, `C76_tree`, `C76_read`, `C77_same`, `C78_well_formed_partial`, `C78_child_partial`, `C78_local_refuted`, `C78_undeclared_refuted`, `C79_whole_partial`, `C79_nil_partial`, `C79_torn_refuted`, `C79_cancel_refuted`, `C80_closed`, `C80_always`, `C80_all_children`, `C80_root_last`, `C80_attachments`, `C80_executions`, `C80_open_reader`, `C81_file_partial`, `C81_kept_partial`, `C81_document_partial`, `C81_package_partial`, `C81_unit_refuted`, `C81_required_refuted`, `C81_object_refuted`, `C81_parts_refuted`, `C82_degenerate_facet`, `C83_same_partial`, `C83_one_child_partial`, `C83_success`, `C83_refuted`, `C84_kept_partial`, `C84_ends`, `C84_lost_refuted`, `C84_torn_refuted`, `C85_accepts`, `C85_last`, `C85_two_refuted`, `C88_added`, `C88_valid_partial`, `C88_object_partial`, `C88_sliced_refuted`, `C88_identifier_refuted`, `C89_validate`, `C89_coherency`, `C89_box_partial`, `C89_parts_refuted`, `C90_rotated_refuted`, `C90_origin_refuted`, `C91_relisted`, `C91_even`, `C91_hole`, `C91_pieces`, `C91_model`, `C92_validate`, `C92_box`, `C92_coherency`, `C92_lookups`, `C93_core`, `C93_plain`, `C93_child`, `C93_package`, `C93_coherency`, `C93_box`, `C94_empty`, `C94_order`, `C94_nothing_partial`, `C94_union_partial`, `C94_more_partial`, `C94_union_refuted`, `C94_nothing_refuted`, `C95_box`, `C95_coherency`, `C95_validate`, `C95_lookups`, `C95_only_uuids`, `C95_again`, `C95_order`, `C96_run`, `C96_same`, `C97_named`, `C97_placed_partial`, `C97_placed_refuted`, `C98_mesh`, `C98_model`, `C99_same_partial`, `C99_same_refuted`, `C100_box_partial`, `C100_empty`, `C100_coherency`, `C100_box_refuted`, `C101_build_partial`, `C101_first`, `C101_existing_refuted`, `C101_flag_refuted`, `C102_get`, `C102_group`, `C102_item`, `C102_object`, `C102_component`, `C102_base_materials`, `C102_base`, `C102_triangle`, `C102_model`, `C102_order`, `C103_box_partial`, `C103_apart_partial`, `C103_no_connectivity`, `C103_stl_partial`, `C103_box_refuted`

**Assumes `ClassicalDedekindReals.sig_forall_dec`, `FunctionalExtensionality.functional_extensionality_dep`** (11 theorems)

`C54_refuted`, `C64_radius_refuted`, `C64_transform_refuted`, `C64_bottom_refuted`, `C66_slices_refuted`, `C66_lattice_refuted`, `C66_names_refuted`, `C86_numbers_refuted`, `C86_repeated_refuted`, `C87_transform_refuted`, `C87_tiny_refuted`

**Assumes `ClassicalDedekindReals.sig_forall_dec`, `ClassicalDedekindReals.sig_not_dec`, `Classical_Prop.classic`, `FunctionalExtensionality.functional_extensionality_dep`** (37 theorems)

`C11_merge_partial`, `C11_near_partial`, `C14_mulbox_partial`, `C39_round_trip`, `C39_header`, `C40_properties_partial`, `C42_text_round_trip`, `C42_exact`, `C42_lossless`, `C43_transform_round_trip`, `C54_partial`, `C55_resource_partial`, `C55_lattice_partial`, `C55_production_partial`, `C56_identity_keeps_box`, `C60_meaning`, `C60_range`, `C61_product`, `C61_point`, `C61_compose_partial`, `C61_identity`, `C61_translate`, `C61_plane`, `C61_point_error`, `C61_compose_error`, `C64_fixed_partial`, `C64_resaved_partial`, `C64_header_partial`, `C66_valid_partial`, `C82_imported`, `C82_saved`, `C86_model_partial`, `C86_package_partial`, `C87_coherency`, `C87_box_partial`, `C90_inside_partial`, `C90_tight_partial`
