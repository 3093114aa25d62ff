{
 "claims": [
  {
   "property": "C01",
   "status": "proved",
   "theorems": [
    "C01_unused_id_fresh_and_lowest"
   ],
   "note": "Bound: fewer than 2^32-1 resources, so that the uint32 conversion does not wrap."
  },
  {
   "property": "C02",
   "status": "partial",
   "theorems": [
    "C02_unused_id_not_in_use_refuted",
    "C02_unused_id_not_in_use_partial",
    "C02_exact"
   ],
   "note": "The code violates the property: repeated IDs (or an ID 0) below the gap make UnusedID return an ID in use. C02_exact says exactly when: if and only if a repeated ID, or an ID 0, lies at least two below the lowest free one."
  },
  {
   "property": "C03",
   "status": "proved",
   "theorems": [
    "C03_find_resources",
    "C03_find_object",
    "C03_find_asset"
   ],
   "note": ""
  },
  {
   "property": "C04",
   "status": "proved",
   "theorems": [
    "C04_walk_objects",
    "C04_walk_assets",
    "C04_visits_unique",
    "C04_outcome_unique",
    "C04_map_order"
   ],
   "note": ""
  },
  {
   "property": "C05",
   "status": "proved",
   "theorems": [
    "C05_enumerations"
   ],
   "note": ""
  },
  {
   "property": "C06",
   "status": "proved",
   "theorems": [
    "C06_format_parse_rgba",
    "C06_parse_format_rgba"
   ],
   "note": ""
  },
  {
   "property": "C07",
   "status": "proved",
   "theorems": [
    "C07_parse_rgba_accepts"
   ],
   "note": ""
  },
  {
   "property": "C08",
   "status": "proved",
   "theorems": [
    "C08_new_is_version4",
    "C08_new_is_valid",
    "C08_new_injective"
   ],
   "note": "crypto/rand is an arbitrary 16 byte string."
  },
  {
   "property": "C09",
   "status": "partial",
   "theorems": [
    "C09_validate_refuted",
    "C09_validate_partial"
   ],
   "note": "The code accepts 38 byte texts whose first and last bytes are anything (the braces are not checked): refuted with a witness. The partial theorem describes exactly what is accepted."
  },
  {
   "property": "C10",
   "status": "proved",
   "theorems": [
    "C10_builder_indices",
    "C10_equal_points_equal_indices",
    "C10_no_connectivity"
   ],
   "note": "Bound: at most 2^32 vertices (the index is a uint32). The float64->int32 conversion out of range is a parameter of the theorem."
  },
  {
   "property": "C11",
   "status": "partial",
   "theorems": [
    "C11_merge_refuted",
    "C11_merge_far_refuted",
    "C11_merge_partial",
    "C11_near_partial"
   ],
   "note": "The code violates the property; refuted with witnesses (neighbouring floats near 17; and on amd64 any points beyond 2147 units). Proved: within 16 units of the origin points more than two microns apart are kept apart; within 2147 units merged points are at most one micron plus two units of rounding of their size apart."
  },
  {
   "property": "C12",
   "status": "proved",
   "theorems": [
    "C12_mesh_box_tight",
    "C12_infinite_refuted"
   ],
   "note": "For finite coordinates; C12_infinite_refuted shows why infinities are excluded."
  },
  {
   "property": "C13",
   "status": "partial",
   "theorems": [
    "C13_schedule_refuted",
    "C13_schedule_partial",
    "C13_schedule_untransformed_partial"
   ],
   "note": "False when a coordinate is NaN (which the decoder accepts): refuted with a witness. Proved for all models whose placed boxes have no NaN, over all interleavings of the individual lock/load/store/unlock steps."
  },
  {
   "property": "C14",
   "status": "partial",
   "theorems": [
    "C14_mulbox_refuted",
    "C14_mulbox_partial"
   ],
   "note": "MulBox transforms only two corners: refuted by a rotation. Proved for transforms whose rows have coefficients of one sign, including float32 rounding."
  },
  {
   "property": "C15",
   "status": "partial",
   "theorems": [
    "C15_bounding_box_refuted",
    "C15_exact_partial",
    "C15_bounding_box_terminates_partial",
    "C15_fuel_irrelevant"
   ],
   "note": "False: Validate accepts components that contain each other and BoundingBox recurses forever on them. Proved: it returns exactly if no object of the build contains one that contains itself (C15_exact_partial)."
  },
  {
   "property": "C16",
   "status": "partial",
   "theorems": [
    "C16_resolution_refuted",
    "C16_resolution_partial"
   ],
   "note": "The recursion passes the item's path unchanged: refuted with a witness; proved when an object reached through an explicit path has no component without path."
  },
  {
   "property": "C17",
   "status": "proved",
   "theorems": [
    "C17_mesh_coherency"
   ],
   "note": "Bound: vertex indices fit 32 bits and meshes have fewer than 2^32 vertices."
  },
  {
   "property": "C18",
   "status": "proved",
   "theorems": [
    "C18_model_coherency"
   ],
   "note": "All interleavings of the goroutines' lock/append/unlock steps and all map orders."
  },
  {
   "property": "C19",
   "status": "proved",
   "theorems": [
    "C19_append_keeps_all",
    "C19_append_nil",
    "C19_append_makes_list",
    "C19_wrap_index",
    "C19_wrap",
    "C19_wrap_path",
    "C19_xpath"
   ],
   "note": ""
  },
  {
   "property": "C20",
   "status": "proved",
   "theorems": [
    "C20_validate_nil",
    "C20_core_validate_nil",
    "C20_registry_proper"
   ],
   "note": "For any registered validators that return nil or a non-empty error, which the validators of the four extensions do (C20_registry_proper); meshes of fewer than 2^32 vertices."
  },
  {
   "property": "C21",
   "status": "proved",
   "theorems": [
    "C21_validate_reports"
   ],
   "note": ""
  },
  {
   "property": "C22",
   "status": "proved",
   "theorems": [
    "C22_relationships"
   ],
   "note": ""
  },
  {
   "property": "C23",
   "status": "partial",
   "theorems": [
    "C23_reserved_refuted",
    "C23_reserved_partial",
    "C23_reserved_exact"
   ],
   "note": "False for names with U+0130, whose lower case in Go is i: T\u0130TLE is accepted. Proved for ASCII names; C23_reserved_exact gives the exact accepted set."
  },
  {
   "property": "C24",
   "status": "partial",
   "theorems": [
    "C24_refuted",
    "C24_exact_partial"
   ],
   "note": "False of the code: the decoder stores the prefix where Validate expects the namespace, so namespaced metadata of a decoded file is reported as undeclared (C24_refuted). The exact condition under which it passes is C24_exact_partial."
  },
  {
   "property": "C25",
   "status": "partial",
   "theorems": [
    "C25_materials_reports",
    "C25_color_group",
    "C25_texture_group",
    "C25_texture",
    "C25_indices_refuted",
    "C25_composite_partial",
    "C25_multi_partial"
   ],
   "note": "False for index bounds: an index equal to the length is accepted in composites and multiproperties, and texture groups in multiproperties count as empty. Proved: exactly which errors are reported; conformity for colour groups, texture groups and textures; conformity of composites and multiproperties up to the last index."
  },
  {
   "property": "C26",
   "status": "partial",
   "theorems": [
    "C26_lattice_reports",
    "C26_lattice_refuted",
    "C26_lattice_partial"
   ],
   "note": "False in six ways (clipping check inverted, conical beams refused, set references compared with their own number, negative lengths accepted, ...): refuted with witnesses. Proved: exactly which errors are reported; equivalence with the rules on the lattices where the six do not matter."
  },
  {
   "property": "C27",
   "status": "partial",
   "theorems": [
    "C27_slices_reports",
    "C27_stack_refuted",
    "C27_stack_partial",
    "C27_object_refuted",
    "C27_object_partial"
   ],
   "note": "False: indices are not checked, NaN heights are accepted, height 0 is refused, and references are resolved in the wrong part; refuted with witnesses. Proved: exactly which errors are reported; conformity of stacks with ordinary heights and indices in range; conformity of sliced objects in models of one part."
  },
  {
   "property": "C28",
   "status": "partial",
   "theorems": [
    "C28_production_reports",
    "C28_production_nil",
    "C28_set_missing_completes",
    "C28_set_missing_refuted",
    "C28_set_missing_partial",
    "C28_set_missing_distinct_partial",
    "C28_then_valid_partial",
    "C28_exact_partial"
   ],
   "note": "False for a build whose attribute group has an empty UUID: SetMissingUUIDs leaves it empty (refuted with a witness). Proved: present UUIDs and everything else are unchanged for every model and source; nothing is missing exactly when the build has no group or a UUID; distinct; the validator reports exactly the violations."
  },
  {
   "property": "C29",
   "status": "proved",
   "theorems": [
    "C29_well_nested",
    "C29_empty_tag_closed"
   ],
   "note": ""
  },
  {
   "property": "C30",
   "status": "proved",
   "theorems": [
    "C30_names_resolved",
    "C30_bindings_scoped",
    "C30_bindings_restored",
    "C30_ends_supplied"
   ],
   "note": ""
  },
  {
   "property": "C31",
   "status": "proved",
   "theorems": [
    "C31_splitting_invisible",
    "C31_same_bytes",
    "C31_no_progress"
   ],
   "note": "For every client of the byte reader that reads bytes and puts back the byte just read, as the scanner does. The reader's error is persistent and there are no 100 empty reads in a row; C31_no_progress shows what happens then."
  },
  {
   "property": "C32",
   "status": "proved",
   "theorems": [
    "C32_progress",
    "C32_scan_ends"
   ],
   "note": ""
  },
  {
   "property": "C33",
   "status": "proved",
   "theorems": [
    "C33_cache_invisible",
    "C33_names"
   ],
   "note": ""
  },
  {
   "property": "C34",
   "status": "proved",
   "theorems": [
    "C34_attribute",
    "C34_text"
   ],
   "note": ""
  },
  {
   "property": "C35",
   "status": "proved",
   "theorems": [
    "C35_print_scan",
    "C35_header"
   ],
   "note": "The printer writes to a text; write errors are not modelled. Attribute values written without escaping must not contain markup bytes. Namespaces must be declared on the root."
  },
  {
   "property": "C36",
   "status": "proved",
   "theorems": [
    "C36_strict_lenient"
   ],
   "note": "For every input, registry, context and start model. Where lenient decoding goes on after an error and then panics (see C37) there is no lenient result to compare with; the theorem says so."
  },
  {
   "property": "C37",
   "status": "partial",
   "theorems": [
    "C37_no_name_refuted",
    "C37_second_model_refuted",
    "C37_nested_model_refuted",
    "C37_beamlattice_refuted",
    "C37_attribute_refuted",
    "C37_no_panic_partial"
   ],
   "note": "False of the code: five families of documents panic. Proved: every document outside those families (predicate Tame on its events) returns normally, strict or lenient, for every registry. Missing: an exact characterisation; Tame also excludes some harmless documents, e.g. core elements inside elements of the same name."
  },
  {
   "property": "C38",
   "status": "partial",
   "theorems": [
    "C38_text_refuted",
    "C38_nested_refuted",
    "C38_model_partial",
    "C38_mesh_partial",
    "C38_resources_partial",
    "C38_written_partial"
   ],
   "note": "False of the code for elements with text (the scan buffer is aliased) and for elements inside elements of the same name. Proved for the other elements, of any depth, in the model, resources and meshes. Missing: nothing else is true."
  },
  {
   "property": "C39",
   "status": "proved",
   "theorems": [
    "C39_round_trip",
    "C39_header"
   ],
   "note": "For every registered set of extensions and every model within the bounds of the specification (ModelFits: identifiers and enumerations in range, texts that XML can hold, unique prefixes, at most one foreign element per place, ...), what UnmarshalModel reads from MarshalModel is the same model with coordinates and transforms rounded to the decimals written; also with the XML header and any precision. A triangle without property group is read with the defaults of its object."
  },
  {
   "property": "C40",
   "status": "partial",
   "theorems": [
    "C40_properties_partial",
    "C40_refuted"
   ],
   "note": "False in general: extension attributes of one triangle overwrite the property attributes of later ones in the shared array (witness is a valid model). Proved when only the last triangle of a mesh carries extension attributes, or those that carry them have a property group and differing indices."
  },
  {
   "property": "C41",
   "status": "proved",
   "theorems": [
    "C41_uint_round_trip",
    "C41_uint_accepted",
    "C41_uint_refused"
   ],
   "note": ""
  },
  {
   "property": "C42",
   "status": "proved",
   "theorems": [
    "C42_text_round_trip",
    "C42_not_finite",
    "C42_exact",
    "C42_lossless"
   ],
   "note": "A number of at most p decimals is kept, and with 149 decimals every number is. Every finite float32 and every precision p >= 0 (a negative precision is not modelled): the text is a decimal within half a unit of the last place, is read as the nearest float32 of the same sign, and that is written as the same text. Uses the axioms of the real numbers."
  },
  {
   "property": "C43",
   "status": "proved",
   "theorems": [
    "C43_transform_round_trip",
    "C43_twelve_numbers"
   ],
   "note": "Every matrix of valid float32 values; a text is accepted exactly if it is twelve numbers separated by ASCII white space. The first theorem uses the axioms of the real numbers."
  },
  {
   "property": "C44",
   "status": "partial",
   "theorems": [
    "C44_refuted",
    "C44_single_partial"
   ],
   "note": "False of the code: Any.Marshal3MF returns after the first element. Proved for lists of at most one element."
  },
  {
   "property": "C45",
   "status": "partial",
   "theorems": [
    "C45_refuted",
    "C45_balanced_partial",
    "C45_child_partial"
   ],
   "note": "Holds for every model and child model whose unknown elements are balanced token lists. Without that condition it is false, also for models that were just decoded (C45_refuted)."
  },
  {
   "property": "C46",
   "status": "partial",
   "theorems": [
    "C46_package",
    "C46_parts_partial",
    "C46_unique_partial",
    "C46_refuted"
   ],
   "note": "Refuted: the encoder compares paths only, so a relationship demanded by a texture is lost if the model has one of another type to the same part. Proved: the package's relationships for every model; the parts' for models where a path has one type; without that, uniqueness and completeness of the model's own. Names in an opc package are a parameter."
  },
  {
   "property": "C47",
   "status": "partial",
   "theorems": [
    "C47_relationships",
    "C47_attachments_partial",
    "C47_unreadable_refuted"
   ],
   "note": "Refuted: a part that cannot be read is left out silently while its relationship stays. Proved for every package with one root relationship and distinct part names. The resolution of names by the opc library is a parameter."
  },
  {
   "property": "C48",
   "status": "partial",
   "theorems": [
    "C48_merged_partial",
    "C48_no_error_partial",
    "C48_schedule_partial",
    "C48_error_partial",
    "C48_returns_partial",
    "C48_one_foreign_partial",
    "C48_one_schedule_partial",
    "C48_one_error_partial",
    "C48_order_refuted",
    "C48_error_refuted"
   ],
   "note": "Refuted: elements of other namespaces of the children are appended to the root model in the order of the goroutines, and the error of a failing child is overwritten by the error of the context it cancelled. Proved for every interleaving at token granularity of any number of distinct children, at most one of which has such elements: one result, the error of the context or of a failing child, and termination. Missing: nothing else is true, two children with such elements are those of the refutation; panicking children are excluded (C37)."
  },
  {
   "property": "C49",
   "status": "proved",
   "theorems": [
    "C49_cancelled",
    "C49_panic"
   ],
   "note": "Decoding polls the context every 1000 tokens (a parameter of the model)."
  },
  {
   "property": "C50",
   "status": "partial",
   "theorems": [
    "C50_text_partial",
    "C50_text_total",
    "C50_short_refuted"
   ],
   "note": "Refuted: a text of less than 300 bytes is refused. Proved for every text of at least 300 bytes that begins with solid and whose lines have at most 65535 bytes."
  },
  {
   "property": "C51",
   "status": "partial",
   "theorems": [
    "C51_present_partial",
    "C51_missing_partial",
    "C51_small_refuted"
   ],
   "note": "Refuted: a binary file of up to four facets (a tetrahedron) is refused. Proved for every file of at least 300 bytes that is not taken for text."
  },
  {
   "property": "C52",
   "status": "partial",
   "theorems": [
    "C52_unchanged_partial",
    "C52_text_partial",
    "C52_binary_ignored",
    "C52_binary_refuted",
    "C52_text_refuted"
   ],
   "note": "Refuted: binary files are imported although the context is done unless the number of facets is 1001, 2001, ...; texts of up to 1000 facets are imported. Proved: an error leaves the model unchanged, and texts are refused if the context is done at a poll."
  },
  {
   "property": "C53",
   "status": "partial",
   "theorems": [
    "C53_detection_partial",
    "C53_short_refused",
    "C53_reader_error_loops",
    "C53_detection_refuted",
    "C53_solid_refuted"
   ],
   "note": "Refuted: files of less than 300 bytes are refused, a reader that fails early makes detection loop forever, and binary files that begin with solid can be taken for text. Proved: from 300 bytes on the choice is by prefix and ASCII bytes."
  },
  {
   "property": "C54",
   "status": "partial",
   "theorems": [
    "C54_partial",
    "C54_refuted"
   ],
   "note": "False in general: an attachment that no relationship leads to is written and not read. Proved for every model within PackageFits (absolute part names that differ in more than case, attachments with relationships and relationships to attachments, resources within the bounds of C39, one type per path, no foreign elements in children), every order of map iteration, every execution of the decoding goroutines, strict or not: children, attachments, path and resources are read again; relationships demanded by resources and the thumbnail are added, and repeated ones dropped. The container is the list of its parts; zip and content types are not modelled."
  },
  {
   "property": "C55",
   "status": "partial",
   "theorems": [
    "C55_resource_partial",
    "C55_lattice_partial",
    "C55_production_partial",
    "C55_refuted"
   ],
   "note": "False for a beam whose second radius is that of the lattice while the first is not. Proved for every colour group, texture, texture group, composite, multiproperties, slice stack (segments without property group carry no indices), beam lattice with other radii, and production data."
  },
  {
   "property": "C56",
   "status": "proved",
   "theorems": [
    "C56_has_transform",
    "C56_unset_transform_keeps_box",
    "C56_identity_keeps_box"
   ],
   "note": ""
  },
  {
   "property": "C57",
   "status": "partial",
   "theorems": [
    "C57_validate_refuted",
    "C57_slices_terminates_partial",
    "C57_reachable_partial"
   ],
   "note": "False: the slices validator recurses forever on objects that contain each other, which the core rules accept. Proved: it returns if no object of the build contains one that contains itself, and the witness shows that this cannot be dropped. The core validator is a structural recursion."
  },
  {
   "property": "C58",
   "status": "proved",
   "theorems": [
    "C58_text",
    "C58_start_tag",
    "C58_end_tag",
    "C58_no_comments"
   ],
   "note": ""
  },
  {
   "property": "C59",
   "status": "proved",
   "theorems": [
    "C59_accepted",
    "C59_reported"
   ],
   "note": "For every input, registry and mode."
  },
  {
   "property": "C60",
   "status": "partial",
   "theorems": [
    "C60_meaning",
    "C60_range",
    "C60_accepts",
    "C60_schema",
    "C60_refuted"
   ],
   "note": "Meaning, range and the exact set of accepted texts are proved for every text (exponents below 100000; Go stops reading the digits of larger ones). That only texts of the schema are accepted is refuted: hexadecimal numbers, underscores and the words for infinity and NaN are accepted too. Axioms of the reals, through Flocq."
  },
  {
   "property": "C61",
   "status": "partial",
   "theorems": [
    "C61_product",
    "C61_point",
    "C61_compose_partial",
    "C61_identity",
    "C61_translate",
    "C61_plane",
    "C61_point_error",
    "C61_compose_error",
    "C61_refuted"
   ],
   "note": "False of float32 as an equation (rounding). Proved: exact for integer matrices and points whose products stay below 2^24; for all finite numbers that do not overflow, both ways of composing are within nine units of rounding of the real result; the identity and plane laws for all finite matrices. The order of evaluation is that of the source without fused operations. Axioms of the reals."
  },
  {
   "property": "C62",
   "status": "partial",
   "theorems": [
    "C62_text",
    "C62_built",
    "C62_is_partial",
    "C62_wrapped",
    "C62_is_refuted"
   ],
   "note": "Texts: proved for every error built. Testing: refuted, errors.Is finds only the first violation of a list."
  },
  {
   "property": "C63",
   "status": "partial",
   "theorems": [
    "C63_tag",
    "C63_open",
    "C63_justified",
    "C63_clean",
    "C63_reported",
    "C63_index",
    "C63_place",
    "C63_silent_refuted",
    "C63_segment_refuted",
    "C63_namespace_refuted",
    "C63_undefined_refuted"
   ],
   "note": "Proved for every file, against a table of attribute types: every error reported is justified by an attribute and located at its element, and every faulty attribute the table covers is reported, in order, where all elements around are known and none is inside one of its own name. Refuted: values of seven enumerations and of preserve are never checked; the index of a slice segment is not its place; the slice reader takes attributes of any namespace for its own; attributes no specification defines are errors on vertices and triangles only. Indices: proved for elements added when they start (vertices, triangles, components, bases, texture coordinates, composites, multis, slice references, slice vertices, polygons, beams, references); for the elements added when they end (metadata, items, objects, base materials, assets, colours, slices, beam sets) that the index is the number of those read before."
  },
  {
   "property": "C64",
   "status": "partial",
   "theorems": [
    "C64_fixed_partial",
    "C64_resaved_partial",
    "C64_header_partial",
    "C64_radius_refuted",
    "C64_transform_refuted",
    "C64_bottom_refuted"
   ],
   "note": "Refuted: a value that is left out when it is a default, and rounds to that default when it is written, is left out by the second save; the second radius of a beam then changes its value, a transform that rounds to the identity becomes the zero matrix. Proved for every model within ModelFits and every number of saves where no transform, beam radius or stack bottom is that near to the default (Settled). Axioms of the reals."
  },
  {
   "property": "C65",
   "status": "partial",
   "theorems": [
    "C65_tree",
    "C65_meaning_partial",
    "C65_unmarshal_partial",
    "C65_child_partial",
    "C65_ignored_refuted",
    "C65_closed_refuted",
    "C65_color_refuted",
    "C65_text_refuted"
   ],
   "note": "Refuted: of the texts of a metadata divided by a processing instruction or an element only the last is kept; the content of an element that is ignored is read as if that element were not there; inside it an element of the name of the parent ends the parent, so that the following siblings are lost; a colour without its attribute is left out and the indices of the others move. Proved for every plain file (ignored elements contain nothing that would be read, elements of which there is one are not repeated, kept elements contain none of their own name, attributes have distinct names, colours have their attribute), root or child, strict or lenient: the model is that of a specification that looks attributes and children up by name in the tree; every accepted file is one tree. The order of attributes on items, objects etc. shows only in the order of extension attribute groups."
  },
  {
   "property": "C66",
   "status": "partial",
   "theorems": [
    "C66_valid_partial",
    "C66_slices_refuted",
    "C66_lattice_refuted",
    "C66_metadata_refuted",
    "C66_names_refuted"
   ],
   "note": "Refuted: two slices closer than the last decimal become equal, a shortest beam below it becomes 0, metadata names are validated by namespace and written by it although files have prefixes, and the relationship added for a texture may lead to a part whose name Validate refuses. Proved for every model within PackageFits whose heights, lattice sizes and added relationships do not hang on digits that are not written (Robust), every set of loaded and registered extensions, every order and execution. Axioms of the reals, and classic through Flocq."
  },
  {
   "property": "C67",
   "status": "partial",
   "theorems": [
    "C67_saved_partial",
    "C67_again_partial",
    "C67_streams_refuted",
    "C67_relationships_refuted"
   ],
   "note": "Refuted twice: the streams of attachments are read to their end, so that a second save writes empty attachments; the relationships of children are extended in place, which overwrites those of another child (in the package and in the model) if they are parts of one array. Proved for every model whose relationships are not in the spare room behind those of a child: the package is that of M_Package, all relationships are as before, and a second save writes the same package with empty attachments. Streams that fail are not modelled."
  },
  {
   "property": "C68",
   "status": "partial",
   "theorems": [
    "C68_first",
    "C68_files",
    "C68_again_partial",
    "C68_again_refuted",
    "C68_listed_refuted"
   ],
   "note": "Refuted: the list of children of a Decoder is never cleared, so the second Decode reads each child twice into the same resources; and a child named twice by the root is read twice. Proved: the n-th Decode reads exactly n copies of the list of children, for every package; packages without children are read the same any number of times."
  },
  {
   "property": "C69",
   "status": "proved",
   "theorems": [
    "C69_complete",
    "C69_reported",
    "C69_succeeds"
   ],
   "note": "For every package writer (an oracle of all that happened before), every size of the buffer, every cut of escaped texts and streams into pieces and every place of the intermediate Flush calls. io.Writer is assumed to return an error when it takes less than all; a nil stream (io.Copy panics) and the relationships, handed over at Close, are outside."
  },
  {
   "property": "C70",
   "status": "proved",
   "theorems": [
    "C70_stack",
    "C70_determined",
    "C70_memory",
    "C70_scanner"
   ],
   "note": "The nodes are a heap with next pointers, the free list shares it; C70_scanner shows that the scanner with these nodes reports exactly what the scanner of M_Xml, whose stack is a list, reports, so that the theorems about it apply to the code with recycled nodes. pushEOF and popEOF are included although nothing calls them."
  },
  {
   "property": "C71",
   "status": "partial",
   "theorems": [
    "C71_panics_refuted",
    "C71_sequential_partial",
    "C71_no_race_partial",
    "C71_progress_partial"
   ],
   "note": "Refuted: the second spec silently replaces the first, and a nil spec is accepted and makes the decoder panic later. Proved for every execution: it is sequential (linearizable), free of races on the map and of deadlocks, and every call returns."
  },
  {
   "property": "C72",
   "status": "partial",
   "theorems": [
    "C72_kept_refuted",
    "C72_values_partial"
   ],
   "note": "Refuted: a decoder that keeps the []byte it was given sees it overwritten by the next start tag. Proved for every sequence of start tags and growth of the buffers: during the callback the values are those of the tag, and no index is out of range; all decoders of the repository copy them."
  },
  {
   "property": "C73",
   "status": "partial",
   "theorems": [
    "C73_wrap_refuted",
    "C73_append_refuted",
    "C73_once_partial",
    "C73_value_partial",
    "C73_determined"
   ],
   "note": "Refuted: an *Error given twice (a validator that keeps one) gets the levels of both places in both, and Append extends the list it is given. Proved for every expression whose results are used once, as everywhere in the repository, in every memory: the places are those meant, earlier errors are unchanged, and the result is that of M_Errors. The loop of validate.go 350-356 that sets Path of the errors just made is not among the operations."
  },
  {
   "property": "C74",
   "status": "proved",
   "theorems": [
    "C74_root",
    "C74_unmarshal",
    "C74_child"
   ],
   "note": "Conforming: plain in the sense of C65, tags the reader can handle in the sense of C37, and attributes of their types in the sense of C63. The scanner must accept the input as a document (C59 says when)."
  },
  {
   "property": "C75",
   "status": "partial",
   "theorems": [
    "C75_read_partial",
    "C75_ends_partial",
    "C75_one_foreign_partial"
   ],
   "note": "Missing: packages in which two or more children have elements of other namespaces in their model element, for which C48_order_refuted shows that the result depends on the schedule (with one such child the elements are read as those of the root model), and packages with several root models, which the format does not allow (C85). The zip container and the XML of relationships are those of the library."
  },
  {
   "property": "C76",
   "status": "proved",
   "theorems": [
    "C76_tree",
    "C76_read"
   ],
   "note": "From the bytes: the grammar of S_Document is stated without the scanner. Comments, CDATA sections and document types are outside: the scanner refuses comments and the like (C58)."
  },
  {
   "property": "C77",
   "status": "proved",
   "theorems": [
    "C77_same"
   ],
   "note": "Outside: the prefixes the root element declares, which are part of the model (its extensions and the names of metadata), and texts inside foreign elements that are kept (C38)."
  },
  {
   "property": "C78",
   "status": "partial",
   "theorems": [
    "C78_well_formed_partial",
    "C78_child_partial",
    "C78_local_refuted",
    "C78_undeclared_refuted"
   ],
   "note": "Refuted: an element that declares its own prefix is kept by the reader and saved with another name in its start tag than in its end tag (the reader refuses the file then); attributes of a namespace without Extension are written with the namespace as prefix. Proved for models whose kept elements have no declarations of their own and whose namespaces are declared (ModelOk, ChildOk)."
  },
  {
   "property": "C79",
   "status": "partial",
   "theorems": [
    "C79_whole_partial",
    "C79_nil_partial",
    "C79_torn_refuted",
    "C79_cancel_refuted"
   ],
   "note": "Refuted: the assignments to errs race, so with two failing children, or one and a cancelling caller, the value returned may have the type of one error and the data of another. Proved: whole if at most one child fails on its own and the caller does not cancel (the others assign after cancel); nil exactly if nothing failed, always."
  },
  {
   "property": "C80",
   "status": "proved",
   "theorems": [
    "C80_closed",
    "C80_always",
    "C80_all_children",
    "C80_root_last",
    "C80_attachments",
    "C80_executions",
    "C80_open_reader"
   ],
   "note": "The number of reads of a stream is left open (the scanner and io.Copy have buffers of their own). Whether Open and reading succeed is a parameter of each file; opc.File.Open itself is not modelled."
  },
  {
   "property": "C81",
   "status": "partial",
   "theorems": [
    "C81_file_partial",
    "C81_kept_partial",
    "C81_document_partial",
    "C81_package_partial",
    "C81_unit_refuted",
    "C81_required_refuted",
    "C81_object_refuted",
    "C81_parts_refuted"
   ],
   "note": "Refuted: a file without a unit is read in the unit of the model; a required prefix marks the extension of the model with that prefix; an item of the file may refer to an object of the model with the same ID; a child of the model with the path of one of the package is lost; an attachment of the package with a name the model has is ignored. Proved: resources, items, metadata and other elements are kept and those of the file added, with the same errors up to positions, as into the model without them; for packages, execution by execution."
  },
  {
   "property": "C82",
   "status": "proved",
   "theorems": [
    "C82_imported",
    "C82_saved",
    "C82_degenerate_facet"
   ],
   "note": "Hypotheses: the file has less than 4 GB (so that indices fit 32 bits); for the validity of the model, it has no extensions and distinct IDs (see C02); for saving, the model before can be saved (PackageFits, Robust: see C54, C66). C82_degenerate_facet: a facet with corners that are merged is imported without error and makes the model invalid."
  },
  {
   "property": "C83",
   "status": "partial",
   "theorems": [
    "C83_same_partial",
    "C83_one_child_partial",
    "C83_success",
    "C83_refuted"
   ],
   "note": "Refuted: with two children the order of the parts and the order of the relationships of the root model change from save to save, and with them the order of the attachments of the model that is read from the file. Proved: names, types, contents and relationships are the same up to these two orders; with at most one child the packages are equal; if the library refuses parts regardless of their order, all saves succeed or none does."
  },
  {
   "property": "C84",
   "status": "partial",
   "theorems": [
    "C84_kept_partial",
    "C84_ends",
    "C84_lost_refuted",
    "C84_torn_refuted"
   ],
   "note": "Refuted: with two children that have such elements one is lost, and if one of them has two, the slice may end up longer than its array. Proved for every execution if at most one child has such elements. That justifies the atomic append of M_Childs for these packages (C48, C75)."
  },
  {
   "property": "C85",
   "status": "partial",
   "theorems": [
    "C85_accepts",
    "C85_last",
    "C85_two_refuted"
   ],
   "note": "Refuted: a package with two root models is accepted. Proved for every package: it is accepted exactly if there is a root relationship and all of them lead to parts; the last one is read, with the relationships and the children of all of them."
  },
  {
   "property": "C86",
   "status": "partial",
   "theorems": [
    "C86_model_partial",
    "C86_package_partial",
    "C86_numbers_refuted",
    "C86_repeated_refuted"
   ],
   "note": "Refuted: a slice below the bottom of its stack by less than is written, and a repeated relationship, are reported before saving but not after. Proved: the error is equal for model files and packages that fit, with relationships that keep the rules and, where slices or beam lattices are used, numbers that are equal or further apart than two units of the last written decimal (Firm)."
  },
  {
   "property": "C87",
   "status": "partial",
   "theorems": [
    "C87_coherency",
    "C87_box_partial",
    "C87_transform_refuted",
    "C87_tiny_refuted"
   ],
   "note": "Coherency: proved for every package that fits. Box: refuted with transforms (three decimals whatever the precision: a box of 8194 becomes 8192), and for a model smaller than the precision, whose box is read as all zeroes, which counts as none, so that the inverted start value is returned. Proved: without transforms, with finite vertices and meshes that have a coordinate of at least one unit of the last decimal, the box is the rounded one, and BoundingBox returns for one model exactly if it does for the other. Axioms of the reals, and classic through Flocq."
  },
  {
   "property": "C88",
   "status": "partial",
   "theorems": [
    "C88_added",
    "C88_valid_partial",
    "C88_object_partial",
    "C88_sliced_refuted",
    "C88_identifier_refuted"
   ],
   "note": "C88_added: every report about the longer model is at a new place, except that an old object with slices can be reported for a placement the slices validator finds only in the longer model. Refuted without that exception: the slices validator follows references in the wrong part, so adding an object the build does not place makes it report an old object; and an asset that takes the identifier of an object makes Validate report the object. Proved without exception if the slices extension is not declared (C88_valid_partial), with the exact condition for an object added under UnusedID (C88_object_partial). Missing: models on which the slices validator does not return."
  },
  {
   "property": "C89",
   "status": "partial",
   "theorems": [
    "C89_validate",
    "C89_coherency",
    "C89_box_partial",
    "C89_parts_refuted"
   ],
   "note": "Validate: proved for renumberings that differ from part to part, unless the slices extension is declared, in which case all parts must be renumbered alike. ValidateCoherency: proved for every renumbering. BoundingBox: proved if all parts are renumbered alike. Refuted otherwise (C89_parts_refuted): the slices validator and BoundingBox look references up in the wrong part, so renumbering one part changes what they return."
  },
  {
   "property": "C90",
   "status": "partial",
   "theorems": [
    "C90_inside_partial",
    "C90_tight_partial",
    "C90_rotated_refuted",
    "C90_origin_refuted"
   ],
   "note": "Proved for models whose transforms have rows of one sign (translations, scalings, quarter turns), whose numbers leave room for the products in a float32 (an explicit bound in the nesting depth), in which every object has a point away from the origin and components are resolved in the right part (C16). Refuted for a valid, coherent model with a rotation (a placed vertex is outside the box), and for objects all of whose vertices are at the origin: they are left out, so that the box is inside out, or spans all numbers when they are a component of an object with a transform."
  },
  {
   "property": "C91",
   "status": "proved",
   "theorems": [
    "C91_relisted",
    "C91_even",
    "C91_hole",
    "C91_pieces",
    "C91_model"
   ],
   "note": "Meshes with fewer than 2^32 edges, as for C17."
  },
  {
   "property": "C92",
   "status": "proved",
   "theorems": [
    "C92_validate",
    "C92_box",
    "C92_coherency",
    "C92_lookups"
   ],
   "note": "For the validators of the four extensions of this repository; the keys of the map are distinct, as in Go."
  },
  {
   "property": "C93",
   "status": "proved",
   "theorems": [
    "C93_core",
    "C93_plain",
    "C93_child",
    "C93_package",
    "C93_coherency",
    "C93_box"
   ],
   "note": "Files that conform with both sets of extensions (S_Read); packages as in C75, all but the attachments, which do not depend on the extensions (C47). The example C93_parts_matter shows that the box may differ if an item names a part."
  },
  {
   "property": "C94",
   "status": "partial",
   "theorems": [
    "C94_empty",
    "C94_order",
    "C94_nothing_partial",
    "C94_union_partial",
    "C94_more_partial",
    "C94_union_refuted",
    "C94_nothing_refuted"
   ],
   "note": "The empty build and the order of the items are proved without conditions. Items that place nothing can be left out as long as one item stays; a build all of whose items place nothing has an inverted box and not the zero box (refuted). The union is proved when the box of no single item has a NaN; with a NaN it is refuted."
  },
  {
   "property": "C95",
   "status": "proved",
   "theorems": [
    "C95_box",
    "C95_coherency",
    "C95_validate",
    "C95_lookups",
    "C95_only_uuids",
    "C95_again",
    "C95_order"
   ],
   "note": "Validate is the one with the four registered validators. The order of the association list that stands for the map of parts may change (Reordered), which no caller can see."
  },
  {
   "property": "C96",
   "status": "proved",
   "theorems": [
    "C96_run",
    "C96_same"
   ],
   "note": "The example C96_repeats shows that the condition is needed: with a repeated identifier UnusedID hands out the same number again and again."
  },
  {
   "property": "C97",
   "status": "partial",
   "theorems": [
    "C97_named",
    "C97_placed_partial",
    "C97_placed_refuted"
   ],
   "note": "Proved without conditions for objects whose identifier nothing in the model refers to (C97_named). Refuted in general: a component without path of an object in another part is looked up in the part of the item (C16), so an object that is not placed decides the box. Proved for models without such components."
  },
  {
   "property": "C98",
   "status": "proved",
   "theorems": [
    "C98_mesh",
    "C98_model"
   ],
   "note": "The example C98_flat shows what the property does not say: two pairs of opposite triangles are accepted and enclose no volume, wherever their vertices are."
  },
  {
   "property": "C99",
   "status": "partial",
   "theorems": [
    "C99_same_partial",
    "C99_same_refuted"
   ],
   "note": "Refuted for files of less than 300 bytes: of three facets the text is imported and the binary file is refused. Proved for all files of at least 300 bytes in the format they look like, with lines of at most 65535 bytes."
  },
  {
   "property": "C100",
   "status": "partial",
   "theorems": [
    "C100_box_partial",
    "C100_empty",
    "C100_coherency",
    "C100_box_refuted"
   ],
   "note": "Coherency and empty builds are proved without further conditions. The box is proved when the box of no single item has a NaN; with a NaN it is refuted. That both models call their root part the same is part of what putting them together means."
  },
  {
   "property": "C101",
   "status": "partial",
   "theorems": [
    "C101_build_partial",
    "C101_first",
    "C101_existing_refuted",
    "C101_flag_refuted"
   ],
   "note": "Refuted: NewMeshBuilder does not enter the vertices of the mesh, so none of them is ever found, and neither is a vertex added while CalculateConnectivity was not set. Proved for all sequences: old vertices stay, indices stay good, the growth of the mesh, and that calls with the flag set share vertices exactly if their points are in the same cell. Bound: fewer than 2^32 vertices."
  },
  {
   "property": "C102",
   "status": "proved",
   "theorems": [
    "C102_get",
    "C102_group",
    "C102_item",
    "C102_object",
    "C102_component",
    "C102_base_materials",
    "C102_base",
    "C102_triangle",
    "C102_model",
    "C102_order"
   ],
   "note": "If reading the element does not panic (C37). Attributes of other namespaces on metadata and vertex are dropped by the decoder and have no place in the model."
  },
  {
   "property": "C103",
   "status": "partial",
   "theorems": [
    "C103_box_partial",
    "C103_apart_partial",
    "C103_no_connectivity",
    "C103_stl_partial",
    "C103_box_refuted"
   ],
   "note": "Refuted with connectivity: of two points in one cell only the first is stored, so the other may be outside the box. Proved: each face is at a point added, and each point shares its cell with a point in the box; the full statement if no two different points share a cell, and always without connectivity. The same for the corners of the facets of an STL file that is imported."
  }
 ]
}