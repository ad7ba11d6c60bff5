{
 "claims": [
  {
   "property": "C01",
   "status": "partial",
   "theorems": [
    "C01_path_data",
    "C01_path_data_float64",
    "C01_every_list",
    "C01_exactly",
    "C01_close_refuted",
    "C01_exponent_refuted",
    "C01_document",
    "C01_document_float64"
   ],
   "note": "Path data and whole documents (body, masks, use). C01_every_list gives what is drawn for every command list, C01_exactly shows that it is what SVG says iff every Z closes a subpath opened by M since the last Z. The statement without that condition is false of the code (C01_close_refuted), and so are exponents written E or e+ (C01_exponent_refuted)."
  },
  {
   "property": "C02",
   "status": "proved",
   "theorems": [
    "C02_number_lists"
   ],
   "note": "For every list, separators and environment."
  },
  {
   "property": "C03",
   "status": "proved",
   "theorems": [
    "C03_wrong_count"
   ],
   "note": ""
  },
  {
   "property": "C04",
   "status": "proved",
   "theorems": [
    "C04_history"
   ],
   "note": "Path data compilation, all pairs of states with equal offset and mode."
  },
  {
   "property": "C05",
   "status": "proved",
   "theorems": [
    "C05_path_data_never_panics",
    "C05_number_lists_never_panic"
   ],
   "note": ""
  },
  {
   "property": "C06",
   "status": "proved",
   "theorems": [
    "C06_strict",
    "C06_lenient",
    "C06_quiet"
   ],
   "note": "For every token stream, fuel and outcome."
  },
  {
   "property": "C07",
   "status": "partial",
   "theorems": [
    "C07_arc_end_partial",
    "C07_arc_end_float64_partial",
    "C07_arc_end_real",
    "C07_zero_radius_refuted",
    "C07_repeated_refuted",
    "C07_document_real",
    "C07_arc_drawn_float64",
    "C07_document_float64"
   ],
   "note": "Path data of all commands with single arcs. Exact arithmetic: every arc ends exactly at its end point. float64: every arc with coordinates, rotation and radii up to 2^50, radii from 2^-50 and end points 2^-50 apart does (weak laws for sin, cos, atan2); any other does, or draws nothing and the current point stays. Refuted: a zero radius in float64, and several arcs in one command."
  },
  {
   "property": "C08",
   "status": "proved",
   "theorems": [
    "C08_arc_geometry",
    "C08_equation",
    "C08_document"
   ],
   "note": "Exact real arithmetic, from path data text to drawn curves; includes the choice among the four arcs by the flags and minimality of the scaling of the radii."
  },
  {
   "property": "C09",
   "status": "proved",
   "theorems": [
    "C09_lengths"
   ],
   "note": "Every text made of a number and one of the ten units, for the three kinds of percentage."
  },
  {
   "property": "C10",
   "status": "proved",
   "theorems": [
    "C10_hex"
   ],
   "note": "Six- and three-digit forms on fill, stroke and stop-color; hypothesis name_table: the colour-name table has only lower-case names."
  },
  {
   "property": "C11",
   "status": "partial",
   "theorems": [
    "C11_colours",
    "C11_other_partial",
    "C11_other_refuted"
   ],
   "note": "All colour forms are read as specified. The claim that everything else is an error is false: #12345678 and rgb(-1,0,200%) are accepted (C11_other_refuted)."
  },
  {
   "property": "C12",
   "status": "partial",
   "theorems": [
    "C12_no_panic_refuted",
    "C12_panics_partial",
    "C12_panics"
   ],
   "note": "False of the code: an empty fill panics in every error mode (C12_no_panic_refuted). Proved instead: only three shapes of text can panic, and they do."
  },
  {
   "property": "C13",
   "status": "proved",
   "theorems": [
    "C13_scoping"
   ],
   "note": "From every state, for every forest of elements that is read without error."
  },
  {
   "property": "C14",
   "status": "proved",
   "theorems": [
    "C14_document",
    "C14_document_float64"
   ],
   "note": "A relational semantics of documents (SpecTree.v: groups, shapes, titles, gradients, definitions of shapes and groups, use, masks, unsupported elements outside strict mode) and the theorem that parsing any document with a meaning succeeds and yields it. Documents with mask attributes or with ids inside grouped definitions have no meaning in this semantics. Hypotheses: commutative addition (proved for float64) and lower-case colour-name table."
  },
  {
   "property": "C15",
   "status": "proved",
   "theorems": [
    "C15_other_parts",
    "C15_values",
    "C15_attributes"
   ],
   "note": ""
  },
  {
   "property": "C16",
   "status": "proved",
   "theorems": [
    "C16_opacity"
   ],
   "note": "Stated on the chain of pushStyle calls made while descending through nested elements."
  },
  {
   "property": "C17",
   "status": "partial",
   "theorems": [
    "C17_identity",
    "C17_inverse",
    "C17_vector",
    "C17_composition_partial",
    "C17_composition_refuted"
   ],
   "note": "Exact real arithmetic. Identity and inverse are proved for all matrices. Mult composes exactly when the stated condition on its arguments holds (equivalence proved); in general composition is refuted."
  },
  {
   "property": "C18",
   "status": "partial",
   "theorems": [
    "C18_list_partial",
    "C18_single_partial",
    "C18_nested_refuted",
    "C18_rotate_about_refuted",
    "C18_order_refuted",
    "C18_translate_one_refuted"
   ],
   "note": "Exact real arithmetic, from attribute text to the map of the stored matrix. Proved for lists of translations and scalings commuting with the parent, then at most one other function; exact conditions for a single function under any parent. Nesting, rotation about a point, lists of rotate/skew/matrix and translate(x) are refuted."
  },
  {
   "property": "C19",
   "status": "proved",
   "theorems": [
    "C19_nil",
    "C19_nil_streams",
    "C19_decoder_error",
    "C19_parser_error",
    "C19_success",
    "C19_file"
   ],
   "note": "A result is nil, an Svg, or the parser panics or diverges (C28, C29)."
  },
  {
   "property": "C20",
   "status": "proved",
   "theorems": [
    "C20_view_box",
    "C20_wrong_count"
   ],
   "note": ""
  },
  {
   "property": "C21",
   "status": "partial",
   "theorems": [
    "C21_line",
    "C21_polylines_partial",
    "C21_two_points_refuted",
    "C21_odd"
   ],
   "note": "All lines, polylines and polygons of three or more points. False of the code for two points, which draw nothing (C21_two_points_refuted)."
  },
  {
   "property": "C22",
   "status": "partial",
   "theorems": [
    "C22_rect_partial",
    "C22_unmoved",
    "C22_rounded_partial",
    "C22_rounded_refuted",
    "C22_document_partial"
   ],
   "note": "Rectangles without rounded corners for every number type, C22_unmoved discharges the exactness premise for float64. Rounded rectangles with equal radii (after the missing-radius and half-side rules) over the reals: shape and containment up to one grid unit. False of the code for unequal radii: C22_rounded_refuted gives the displacement."
  },
  {
   "property": "C23",
   "status": "proved",
   "theorems": [
    "C23_round",
    "C23_round_real",
    "C23_document"
   ],
   "note": "C23_round: start, end and closedness for every number type; C23_round_real: with exact arithmetic the outline is the whole ellipse, for all centres and all radii other than zero (those draw nothing, C24)."
  },
  {
   "property": "C24",
   "status": "proved",
   "theorems": [
    "C24_flat"
   ],
   "note": ""
  },
  {
   "property": "C25",
   "status": "partial",
   "theorems": [
    "C25_notes_partial",
    "C25_nested_refuted",
    "C25_use_refuted"
   ],
   "note": "Titles and Descriptions of every tidy document parsed without error are the texts of its title and desc elements outside <defs>, in document order, for every split of the character data. Missing: documents that are not tidy (nested titles, definitions of titles that are referenced, elements other than stops in gradients); for the first two the statement is refuted."
  },
  {
   "property": "C26",
   "status": "partial",
   "theorems": [
    "C26_defs_partial",
    "C26_gradient_refuted",
    "C26_nested_refuted"
   ],
   "note": "A tidy <defs> at any position outside titles, masks, gradients and definitions leaves SvgPaths, SvgMasks, Titles and Descriptions as they are, whatever the outcome. Refuted for content that is not tidy: elements inside a gradient are drawn, and the end of an inner <defs> ends the outer one."
  },
  {
   "property": "C27",
   "status": "partial",
   "theorems": [
    "C27_use_partial",
    "C27_use_alone_partial",
    "C27_stored",
    "C27_arc_refuted",
    "C27_group_refuted",
    "C27_path_refuted",
    "C27_ids_refuted",
    "C27_nested_refuted"
   ],
   "note": "Definitions of any shapes, groups and nested uses: exactly which shapes are drawn, at which offsets, as one path with the style of the use element. False of the code: arcs end unmoved, elements of the definition lose their styles, a path discards the shapes before it, a nested use replaces the offset around it, a group whose elements have ids draws nothing and leaks the style of the use element."
  },
  {
   "property": "C28",
   "status": "partial",
   "theorems": [
    "C28_streams_partial",
    "C28_streams_any_numbers_partial",
    "C28_fuel",
    "C28_terminates_partial",
    "C28_any_numbers_partial",
    "C28_self_use_refuted"
   ],
   "note": "Parse ends on every token stream, well formed or not, whose references between definitions are acyclic, with an explicit bound on the depth; a parse that ends does not depend on the fuel of the model. Refuted in general: a use inside its own definition never ends."
  },
  {
   "property": "C29",
   "status": "partial",
   "theorems": [
    "C29_no_panic_partial",
    "C29_streams_partial",
    "C29_without_use_partial",
    "C29_fill_refuted",
    "C29_group_refuted",
    "C29_ends_refuted"
   ],
   "note": "No panic on arbitrary token streams (nested defs, anything in gradients, mismatched ends) whose colours are harmless, whose ends follow starts, and, if there is a use, whose g ends stay in the group of their start; documents without use need only harmless colours. Each condition is shown necessary by a refuted theorem."
  },
  {
   "property": "C30",
   "status": "proved",
   "theorems": [
    "C30_gradients"
   ],
   "note": "For every token stream, every mode and every outcome."
  },
  {
   "property": "C31",
   "status": "proved",
   "theorems": [
    "C31_gradient",
    "C31_stops"
   ],
   "note": "The defaults are those of the code; fr defaults to 50%."
  },
  {
   "property": "C32",
   "status": "partial",
   "theorems": [
    "C32_masks_partial",
    "C32_mask_lists_partial",
    "C32_mask_lists_final_partial",
    "C32_elements_partial",
    "C32_none_refuted"
   ],
   "note": "The mask map and all mask lists, also of paths inside mask elements, for documents with arbitrary geometry and attributes but without use outside definitions, nested masks, and elements other than stops in gradients; lists of up to 3 masks (longer ones are overwritten, see C39); exact lists of any length at the time of drawing. mask=none is recorded as a mask named by the empty string (refuted)."
  },
  {
   "property": "C33",
   "status": "partial",
   "theorems": [
    "C33_text_partial",
    "C33_same_iff",
    "C33_eighths",
    "C33_refuted",
    "C33_cubic_refuted"
   ],
   "note": "Float64, all paths of M, L, Q and Z with coordinates below 2^24/64: the text parses and each coordinate comes back unchanged or 1/64 closer to zero, exactly which is stated; the same path comes back iff all coordinates are lossless (multiples of 1/8 are). The claim is false of the code: 5/64 comes back as 4/64, and any path with a cubic curve is written with CC and rejected."
  },
  {
   "property": "C34",
   "status": "partial",
   "theorems": [
    "C34_last",
    "C34_target_partial",
    "C34_target_refuted",
    "C34_drawn_partial",
    "C34_drawn_iff_partial",
    "C34_no_target_refuted"
   ],
   "note": "Opacity and override order proved for all option lists. Exact conditions (equivalences, real arithmetic) for Target and for the composition with the path's transform; other rectangles and a missing Target are refuted."
  },
  {
   "property": "C35",
   "status": "partial",
   "theorems": [
    "C35_rasterx",
    "C35_rasterx_partial",
    "C35_rasterx_rule_refuted",
    "C35_ignored_refuted",
    "C35_draw2d",
    "C35_gg",
    "C35_draw2d_partial",
    "C35_draw2d_subpaths_refuted",
    "C35_gg_partial",
    "C35_gg_fill_refuted",
    "C35_gg_leak_refuted",
    "C35_gg_open_refuted"
   ],
   "note": "Items painted by each library, described as a machine on its calls, from any state of the context. Exact for all documents and all three libraries; that this is what the document asks for holds under stated conditions, each shown needed by a refutation."
  },
  {
   "property": "C36",
   "status": "partial",
   "theorems": [
    "C36_gg_partial",
    "C36_gg_ends",
    "C36_rasterx",
    "C36_self_mask_refuted"
   ],
   "note": "No panic for any parsed document; gg ends exactly when no path of the document is limited by a mask that leads into a circle of masks, with as many nested calls as there are masks; refuted otherwise, e.g. for a mask containing a path masked by it. What the external libraries do with their arguments is not modelled."
  },
  {
   "property": "C37",
   "status": "partial",
   "theorems": [
    "C37_strokes_partial",
    "C37_none_refuted"
   ],
   "note": "All settings but stroke-dasharray none, which the code ignores (C37_none_refuted)."
  },
  {
   "property": "C38",
   "status": "proved",
   "theorems": [
    "C38_grid",
    "C38_stored"
   ],
   "note": "float64, by Flocq's rounding theorems; C38_stored for the points of line, polyline, polygon and rect elements as parsed. Path data: the points of C01 have the same form."
  },
  {
   "property": "C39",
   "status": "partial",
   "theorems": [
    "C39_final_partial",
    "C39_masks_final",
    "C39_append",
    "C39_final_refuted"
   ],
   "note": "False in general: a sibling overwrites the fourth mask of a list. Proved for every token stream and continuation for lists of up to 3 masks."
  },
  {
   "property": "C40",
   "status": "proved",
   "theorems": [
    "C40_references"
   ],
   "note": "In every parser state."
  },
  {
   "property": "C41",
   "status": "partial",
   "theorems": [
    "C41_width_partial",
    "C41_width_refuted"
   ],
   "note": "Exact value of the factor for all similarities: k cos(a); right only without rotation, refuted for a quarter turn."
  },
  {
   "property": "C42",
   "status": "proved",
   "theorems": [
    "C42_own_outline",
    "C42_one_outline",
    "C42_documents"
   ],
   "note": "Shapes of any geometry that draw without error; a polyline or polygon has a points attribute."
  },
  {
   "property": "C43",
   "status": "partial",
   "theorems": [
    "C43_initial",
    "C43_svg_partial",
    "C43_svg_refuted"
   ],
   "note": "Exact values for all properties; they are SVG's except for the stroke width (2 instead of 1) and the line join (bevel instead of miter), where every document that strokes by default is wrong."
  },
  {
   "property": "C44",
   "status": "proved",
   "theorems": [
    "C44_unknown"
   ],
   "note": "Attribute and property names unknown to the parser, on any element, in style attributes too; values arbitrary."
  },
  {
   "property": "C45",
   "status": "proved",
   "theorems": [
    "C45_masks_only"
   ],
   "note": "mask=\"none\" and mask=\"url(#id)\" attributes and declarations."
  },
  {
   "property": "C46",
   "status": "partial",
   "theorems": [
    "C46_comments",
    "C46_text_partial",
    "C46_text_refuted"
   ],
   "note": "Comments and cutting of text: all token streams. Text: tidy documents (gradients contain only stops, no nested defs, titles and masks not inside definitions that are used); refuted after a reference to a title."
  },
  {
   "property": "C47",
   "status": "partial",
   "theorems": [
    "C47_order_partial",
    "C47_style_refuted",
    "C47_radius_refuted"
   ],
   "note": "All token streams and permutations, definitions included, when two attributes of an element are about different things (different names and style parts). Refuted without that: a fill attribute after style=\"fill:...\" wins, and r beside rx depends on the order."
  },
  {
   "property": "C48",
   "status": "partial",
   "theorems": [
    "C48_linear_real_partial",
    "C48_linear_float64_partial",
    "C48_exponential_refuted",
    "C48_exponential_float64_refuted",
    "C48_leftover_refuted"
   ],
   "note": "All token streams and outcomes without use elements in which polylines and polygons have points; float64 (with atan2 in range) and exact arithmetic. Refuted in general: chains of uses grow faster than every polynomial, and polylines without points redraw earlier numbers."
  },
  {
   "property": "C49",
   "status": "proved",
   "theorems": [
    "C49_grows",
    "C49_stops",
    "C49_values_refuted"
   ],
   "note": "All token streams, no hypotheses. What a mask id names can be replaced by a later mask with the same id (C49_values_refuted); for mask lists of stored paths see C39."
  },
  {
   "property": "C50",
   "status": "partial",
   "theorems": [
    "C50_agree_partial",
    "C50_rasterx_partial",
    "C50_draw2d_partial",
    "C50_gg_partial",
    "C50_join_refuted"
   ],
   "note": "Holds for documents with opaque plain colours, no dashes or masks, common caps, round or bevel joins, one MoveTo and one colour per path, and no strokes after even-odd fills; one by one under weaker conditions. False of the code in general: miter joins (C50_join_refuted), and each refutation of C35."
  },
  {
   "property": "C51",
   "status": "proved",
   "theorems": [
    "C51_renamed",
    "C51_drawn"
   ],
   "note": "Ids used in url(#id) references are printable ASCII without white space, ':' and ')'; an injective renaming of finitely many ids extends to one of all strings. Attributes that are kept unchanged must not contain the text url( ."
  },
  {
   "property": "C52",
   "status": "partial",
   "theorems": [
    "C52_flattened",
    "C52_bare_group",
    "C52_transform_refuted"
   ],
   "note": "Refuted for transform: on one element a later transform replaces an earlier one, nested transforms are composed (C52_transform_refuted). Missing: mask attributes on the group (the mask lists share memory differently), groups around use, defs, svg and gradients, and the converse direction."
  },
  {
   "property": "C53",
   "status": "partial",
   "theorems": [
    "C53_replaced",
    "C53_deleted",
    "C53_swapped",
    "C53_points_refuted",
    "C53_masks_refuted"
   ],
   "note": "Refuted for polylines and polygons without points, which draw the numbers read last (C53_points_refuted), and for shapes with masks, whose mask lists can share memory with those of their neighbours (C53_masks_refuted). Missing: edits inside definitions, masks and gradients, and of use elements."
  },
  {
   "property": "C54",
   "status": "partial",
   "theorems": [
    "C54_rasterx_partial",
    "C54_draw2d_partial",
    "C54_gg_partial",
    "C54_fixed_refuted"
   ],
   "note": "Proved for rasterx without gradients, for draw2d without dashes, and for gg with masks, without dashes and gradient fills. False for the rest: dash patterns (draw2d, gg), gradients (gg) and user-space gradients (rasterx) are the same on every target, C54_fixed_refuted."
  },
  {
   "property": "C55",
   "status": "proved",
   "theorems": [
    "C55_rasterx",
    "C55_draw2d",
    "C55_gg"
   ],
   "note": "Rounding errors are followed through target, product, transform and truncation. The object-unit bounds of rasterx gradients come from the library (path extent) and are left out of the comparison."
  },
  {
   "property": "C56",
   "status": "proved",
   "theorems": [
    "C56_longhand",
    "C56_alike",
    "C56_float64"
   ],
   "note": "For lists in which every Z closes a subpath opened by an M (see C01 for the others); arcs are not covered."
  },
  {
   "property": "C57",
   "status": "proved",
   "theorems": [
    "C57_numbers",
    "C57_exponent_limit",
    "C57_path",
    "C57_short"
   ],
   "note": "For lists in which every Z closes a subpath opened by an M (see C01); arcs are not covered (see C14 and C22 for them). Numerals up to 2^900."
  },
  {
   "property": "C58",
   "status": "partial",
   "theorems": [
    "C58_respelled",
    "C58_paths",
    "C58_line",
    "C58_polyline",
    "C58_polygon",
    "C58_rect",
    "C58_circle",
    "C58_defs_refuted"
   ],
   "note": "C58_respelled is the general statement; the others give the pairs of elements. False inside definitions when a shape is written as path data (C58_defs_refuted). Lengths of the rewritten shapes do not depend on the view box; rectangles only in exact arithmetic."
  },
  {
   "property": "C59",
   "status": "proved",
   "theorems": [
    "C59_element",
    "C59_document"
   ],
   "note": "Circles and ellipses are covered where the trigonometric functions are within 2^-40 of the truth (fair_trig; see C63). Rounded corners and arcs are not covered (see C14, C22, C23 for their shape). Offsets are the float64 offsets of the use elements. Numerals may not have a plus sign in lengths."
  },
  {
   "property": "C60",
   "status": "proved",
   "theorems": [
    "C60_range",
    "C60_range_exact",
    "C60_untransformed",
    "C60_rasterx",
    "C60_draw2d",
    "C60_gg"
   ],
   "note": "draw2d and gg close subpaths more often than the path says (see C35), so closings are compared for rasterx only. The attributes must be ones whose declarations are defined by the style grammar of C15."
  },
  {
   "property": "C61",
   "status": "proved",
   "theorems": [
    "C61_element",
    "C61_style",
    "C61_use",
    "C61_path",
    "C61_stop",
    "C61_strict_element",
    "C61_strict_style",
    "C61_definition_refuted",
    "C61_offset_refuted"
   ],
   "note": "Documents must not have a defs element inside a definition (a use of such a definition turns the rest of the document into definitions, C26). A panic counts as not accepted (C12 and C29 say where there are none). C61_path needs commutative addition, as in float64 and the reals."
  },
  {
   "property": "C62",
   "status": "proved",
   "theorems": [
    "C62_rasterx",
    "C62_draw2d",
    "C62_gg",
    "C62_place"
   ],
   "note": "Circles and ellipses are covered where the trigonometric functions are within 2^-40 of the truth (fair_trig; see C63). Rounded corners and arcs are not covered. Transforms are the float64 matrices stored with the figures, and the place includes the library's handling of translations and of the rectangle's corner (see C33, C34). For gg the drawing is assumed to end without a panic (C35). Closings are compared for rasterx only; draw2d and gg close more often (C35)."
  },
  {
   "property": "C63",
   "status": "proved",
   "theorems": [
    "C63_element",
    "C63_flat",
    "C63_document"
   ],
   "note": "The trigonometric functions of Go are not modelled; fair_trig says what is assumed of them (those of Go are within 2^-52). Numerals in lengths may not have a plus sign."
  },
  {
   "property": "C64",
   "status": "proved",
   "theorems": [
    "C64_rasterx",
    "C64_draw2d",
    "C64_gg",
    "C64_place"
   ],
   "note": "Figures of a use element with several shapes are covered by C62 only. For gg the figures of masks are covered by C62 only and the drawing is assumed to end without a panic (C35). The image includes the library's handling of translations and of the rectangle's corner (see C33, C34)."
  },
  {
   "property": "C65",
   "status": "proved",
   "theorems": [
    "C65_matrix",
    "C65_rasterx",
    "C65_draw2d",
    "C65_gg"
   ],
   "note": "The other compositions of functions are wrong whatever the rounding (C18), and so are view boxes and rectangles away from the origin with a transform that moves that corner (C33, C34); they are outside C65_rasterx, C65_draw2d and C65_gg, but not outside C65_matrix, except for rotate(a, x, y). Figures of masks are covered by C62 only."
  },
  {
   "property": "C66",
   "status": "proved",
   "theorems": [
    "C66_rasterx",
    "C66_draw2d",
    "C66_gg",
    "C66_circle"
   ],
   "note": "The conditions on the transform and on the page are those of C65; outside them SVG's place is missed whatever the rounding (C18, C33, C34). Figures of masks are covered by C62 only."
  },
  {
   "property": "C67",
   "status": "proved",
   "theorems": [
    "C67_rasterx",
    "C67_draw2d",
    "C67_gg"
   ],
   "note": "The image under the transform that the library stored, for all transforms, and the one SVG gives, under the conditions of C65. draw2d and gg close subpaths more often than SVG (C35, C50), which is why closing lines are left out for them. Figures of masks are covered by C62 only."
  },
  {
   "property": "C68",
   "status": "proved",
   "theorems": [
    "C68_element",
    "C68_document"
   ],
   "note": "Corners with different radii in x and y go through a scaling around the centre and are covered by C22 and C37 in exact arithmetic only; for radii below 1/8 the 3/32 would be no statement about the corner."
  },
  {
   "property": "C69",
   "status": "proved",
   "theorems": [
    "C69_list",
    "C69_wrong",
    "C69_element",
    "C69_transform"
   ],
   "note": "Characters outside ASCII that unicode.IsNumber accepts would become part of a word; texts with them are left out. In transform functions the arguments are ASCII."
  },
  {
   "property": "C70",
   "status": "proved",
   "theorems": [
    "C70_arcs",
    "C70_document"
   ],
   "note": "Outside uses with an offset (inside them the arc is wrong, C07, C08). One arc per command; of two arcs in one command the second is wrong (C07_repeated_refuted). The laws assumed of sin, cos, tan and atan2 are those of SpecArcNear.fair_angles. The shape over exact reals is C08."
  },
  {
   "property": "C71",
   "status": "proved",
   "theorems": [
    "C71_accepted",
    "C71_draws",
    "C71_document",
    "C71_figure",
    "C71_figure_draws"
   ],
   "note": "Letters outside ASCII begin a command in the code too, but one that is never known; texts with them are left out. C71_draws and C71_figure_draws are about texts without arc commands, in which every Z closes a subpath opened by an M (arcs are in C07 and C70); addition has to be commutative."
  },
  {
   "property": "C72",
   "status": "partial",
   "theorems": [
    "C72_accepted",
    "C72_result",
    "C72_document",
    "C72_comma_refuted"
   ],
   "note": "C72_accepted is an equivalence: it gives exactly the texts that the code accepts. They are not quite those of SVG: a function after a comma is never accepted (C72_comma_refuted), translate takes one number for both directions (see C18), and the closing bracket of the last function can be missing."
  },
  {
   "property": "C73",
   "status": "partial",
   "theorems": [
    "C73_accepted",
    "C73_refused",
    "C73_branches",
    "C73_branch_refused",
    "C73_float64",
    "C73_order",
    "C73_context_refuted"
   ],
   "note": "Two runs are compared step by step. C73_context_refuted shows why the conditions are there: a <use> depends on definitions elsewhere, and the end of an inner <defs> or gradient ends the outer one. Assumes that strings.ToLower keeps the letters url at the beginning of a text, which it does. Missing: <use> outside <defs>."
  },
  {
   "property": "C74",
   "status": "proved",
   "theorems": [
    "C74_accepted",
    "C74_plain",
    "C74_float64",
    "C74_length",
    "C74_colour",
    "C74_selector",
    "C74_fraction",
    "C74_declaration"
   ],
   "note": "Builds on C71 (path data), C72 (transforms) and C73 (elements one by one). C74_values and C74_example show odd texts that are accepted, such as #f0cAB, rgb(10%,+20,-3 without its bracket and an offset 10%%. Assumes as C73 that strings.ToLower keeps the letters url at the beginning of a text; for float64 the atan2 of C28."
  },
  {
   "property": "C75",
   "status": "proved",
   "theorems": [
    "C75_more",
    "C75_rounding",
    "C75_platforms",
    "C75_modes"
   ],
   "note": "Follows from C74: the condition there mentions the arithmetic only in which texts ParseFloat accepts and which names are colours. C75_strict_example: the inclusion between the modes is strict. Assumptions on ToLower and atan2 as in C74."
  },
  {
   "property": "C76",
   "status": "proved",
   "theorems": [
    "C76_panics",
    "C76_errors",
    "C76_ends",
    "C76_float64",
    "C76_colour"
   ],
   "note": "With C74 this divides the documents into accepted, refused with an error, and panicking. It gives the converse of C29 for these documents. C76_order_example shows that the order of two wrong declarations decides between an error and a panic. Assumes as C73 that strings.ToLower keeps the letters url at the beginning of a text; for float64 the atan2 of C28."
  },
  {
   "property": "C77",
   "status": "proved",
   "theorems": [
    "C77_malformed",
    "C77_panics",
    "C77_errors",
    "C77_rest",
    "C77_float64"
   ],
   "note": "C74 and C76 are the case where nothing is cut off. The tokens handed out are the beginning of some document because encoding/xml checks that elements are nested properly; the decoder itself is not modelled. Assumes as C73 that strings.ToLower keeps the letters url at the beginning of a text; for float64 the atan2 of C28."
  },
  {
   "property": "C78",
   "status": "proved",
   "theorems": [
    "C78_reshaped",
    "C78_joined",
    "C78_joined_panics",
    "C78_grouped",
    "C78_float64"
   ],
   "note": "Follows from C74 and C76. C78_defs_example shows why an element that opens definitions can only be dropped with its contents. Assumes as C73 that strings.ToLower keeps the letters url at the beginning of a text; for float64 the atan2 of C28."
  }
 ]
}