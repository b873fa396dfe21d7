{
 "claims": [
  {
   "property": "C01",
   "status": "proved",
   "theorems": [
    "C01_int_resolution_proper",
    "C01_invalid_method_rejected",
    "C01_none_is_one"
   ],
   "note": "Positions proved in closed form for every integer, None and every method name."
  },
  {
   "property": "C02",
   "status": "proved",
   "theorems": [
    "C02_constant_gaps_equal",
    "C02_log_gaps_increase",
    "C02_logr_gaps_decrease",
    "C02_log_is_mirror_of_logr"
   ],
   "note": "Gap monotonicity for every resolution by monotonicity of ln."
  },
  {
   "property": "C03",
   "status": "proved",
   "theorems": [
    "C03_array_sorted_permutation",
    "C03_other_rejected"
   ],
   "note": "Any 1-D array; other values rejected."
  },
  {
   "property": "C04",
   "status": "proved",
   "theorems": [
    "C04_line_on_segment",
    "C04_line_endpoints",
    "C04_line_defined",
    "C04_defined_iff",
    "C04_shape_mismatch_rejected"
   ],
   "note": "2-D and 3-D points; other sizes rejected as pv.MultipleLines does."
  },
  {
   "property": "C05",
   "status": "proved",
   "theorems": [
    "C05_arc_on_circle",
    "C05_arc_ends",
    "C05_arc_points"
   ],
   "note": "Exact real arithmetic."
  },
  {
   "property": "C06",
   "status": "proved",
   "theorems": [
    "C06_surface_coordinates",
    "C06_mismatch_rejected",
    "C06_plane_rejected",
    "C06_defined"
   ],
   "note": "Every plane, resolution and line argument; errors on unequal lengths and unknown planes."
  },
  {
   "property": "C07",
   "status": "partial",
   "theorems": [
    "C07_point_data_partial",
    "C07_cell_data_partial",
    "C07_point_data_any_plane",
    "C07_cell_data_any_plane",
    "C07_transposed_plane_refuted",
    "C07_reordered_line_refuted"
   ],
   "note": "Holds for planes xy, xz, yz with lines stored in traversal order; refuted for transposed planes and for lines whose stored order differs from the traversal order. The any_plane theorems say what every plane gives instead."
  },
  {
   "property": "C08",
   "status": "proved",
   "theorems": [
    "C08_collapsed_cells_flagged",
    "C08_line_flags"
   ],
   "note": "Cell areas (VTK compute_cell_sizes) are an oracle parameter."
  },
  {
   "property": "C09",
   "status": "proved",
   "theorems": [
    "C09_structured_volume_coordinates",
    "C09_incompatible_surfaces_rejected"
   ],
   "note": "Cell volumes (VTK) are an oracle parameter; every one of the three orientations."
  },
  {
   "property": "C10",
   "status": "proved",
   "theorems": [
    "C10_repeat_structured_data",
    "C10_defined_on_matching_size",
    "C10_wrong_size_rejected",
    "C10_volume_data_from_base"
   ],
   "note": "repeat_structured_data and its use for point and cell data of volumes."
  },
  {
   "property": "C11",
   "status": "proved",
   "theorems": [
    "C11_layers_of_cells",
    "C11_defined",
    "C11_unsupported_cell_rejected",
    "C11_incompatible_rejected"
   ],
   "note": "VTK cell stream decoded by an independent decoder; definedness and rejection also proved."
  },
  {
   "property": "C12",
   "status": "proved",
   "theorems": [
    "C12_polyhedra_closed"
   ],
   "note": "Each directed edge is matched by its opposite (invert_faces) or each edge is shared by two faces."
  },
  {
   "property": "C13",
   "status": "partial",
   "theorems": [
    "C13_convex_outward_partial",
    "C13_concave_inward_refuted",
    "C13_enclosed_partial"
   ],
   "note": "Every face of every layer is outward for planar strictly convex polygons under translation; for any planar polygon the faces enclose the volume of the prism, turned outwards exactly when the first corner turns like the polygon; refuted for other concave polygons because the code tests the first three vertices only."
  },
  {
   "property": "C14",
   "status": "partial",
   "theorems": [
    "C14_input_cells_partial",
    "C14_input_modified_refuted"
   ],
   "note": "Refuted: polygon connectivity of the input surface is reversed in place. Proved: nothing else changes."
  },
  {
   "property": "C15",
   "status": "partial",
   "theorems": [
    "C15_flags_from_first_layer_partial",
    "C15_zero_thickness_flagged",
    "C15_thick_cell_flagged_refuted",
    "C15_flat_cell_missed_refuted"
   ],
   "note": "Exact law proved (layer 0 decides for all layers), zero-thickness cells always flagged; the per-layer claim is refuted twice."
  },
  {
   "property": "C16",
   "status": "proved",
   "theorems": [
    "C16_unstructured_data_from_base"
   ],
   "note": "Tiling law for every array and every layer."
  },
  {
   "property": "C17",
   "status": "proved",
   "theorems": [
    "C17_group_numbering",
    "C17_from_empty"
   ],
   "note": "Invariant over every history of group-table operations."
  },
  {
   "property": "C18",
   "status": "proved",
   "theorems": [
    "C18_every_cell_named",
    "C18_every_cell_named_size"
   ],
   "note": "Meshes and plain sizes; every group argument that does not raise."
  },
  {
   "property": "C19",
   "status": "proved",
   "theorems": [
    "C19_base_groups_kept",
    "C19_string_group_overrides"
   ],
   "note": "No group argument and string group; names via an independent base_name relation."
  },
  {
   "property": "C20",
   "status": "proved",
   "theorems": [
    "C20_last_selector_wins",
    "C20_arrays_accepted"
   ],
   "note": "Index and mask arrays and callables returning masks; acceptance of valid arrays also proved."
  },
  {
   "property": "C21",
   "status": "partial",
   "theorems": [
    "C21_string_selectors_partial",
    "C21_string_selectors_refuted",
    "C21_numbers_partial",
    "C21_ignored_group_error_refuted"
   ],
   "note": "Proved for an empty table, no ignored group and a base mesh numbered 0..n-1; refuted for other numberings and for ignored names (KeyError). C21_numbers_partial says what is selected for any numbering and table: the cells with the number the name has in the table of the new mesh."
  },
  {
   "property": "C22",
   "status": "partial",
   "theorems": [
    "C22_callable_indices_partial",
    "C22_inverted_indices_refuted",
    "C22_mirrored_indices_partial"
   ],
   "note": "Proved for keys without ~; refuted for ~ keys (NumPy ~ on indices gives -i-1)."
  },
  {
   "property": "C23",
   "status": "proved",
   "theorems": [
    "C23_clean_removes_unused"
   ],
   "note": "Names kept, exactly the used names remain, numbered from 0 in order."
  },
  {
   "property": "C24",
   "status": "partial",
   "theorems": [
    "C24_remap_simultaneous_partial",
    "C24_invalid_rejected",
    "C24_remap_simultaneous_refuted"
   ],
   "note": "Proved for mappings addressing each value at most once, with rejection of bad input; refuted when a value is addressed both by number and by label."
  },
  {
   "property": "C25",
   "status": "partial",
   "theorems": [
    "C25_remap_keeps_labels_partial",
    "C25_remap_drops_label_refuted"
   ],
   "note": "Proved when the mapping covers every value present; refuted for partial mappings, which drop labels."
  },
  {
   "property": "C26",
   "status": "proved",
   "theorems": [
    "C26_out_of_place_leaves_input",
    "C26_in_place",
    "C26_same_result"
   ],
   "note": "Mesh objects on a heap; in-place and copy give the same mesh."
  },
  {
   "property": "C27",
   "status": "proved",
   "theorems": [
    "C27_get_cell_group",
    "C27_missing"
   ],
   "note": "Injective tables; KeyError exactly on unnamed numbers."
  },
  {
   "property": "C28",
   "status": "proved",
   "theorems": [
    "C28_merge_names"
   ],
   "note": "Both orders in which pv.merge may append."
  },
  {
   "property": "C29",
   "status": "partial",
   "theorems": [
    "C29_merge_repeatable_partial",
    "C29_merge_repeatable_refuted"
   ],
   "note": "Proved for unlabelled items; refuted for labelled items, whose group numbers are overwritten by the first call."
  },
  {
   "property": "C30",
   "status": "proved",
   "theorems": [
    "C30_pair_cut",
    "C30_pair_cut_defined",
    "C30_lawful_meshes"
   ],
   "note": "For every class of base mesh obeying the point laws (proved for the three classes used)."
  },
  {
   "property": "C31",
   "status": "partial",
   "theorems": [
    "C31_surfaces_ordered_partial",
    "C31_last_pair_ordered_partial",
    "C31_ordered_unchanged",
    "C31_elevations_partial",
    "C31_equal_priorities_partial",
    "C31_never_cross_refuted"
   ],
   "note": "Refuted (4,5,3). Proved when each later item has lower priority than the previous one (always for two items), for the last pair always, and ordered stacks are left unchanged. C31_elevations_partial states, for every column and any priorities, the exact elevations after cutting; with equal priorities each surface is cut by the next one only (C31_equal_priorities_partial)."
  },
  {
   "property": "C32",
   "status": "partial",
   "theorems": [
    "C32_ordered_unchanged_partial",
    "C32_elevations_partial",
    "C32_top_down_refuted"
   ],
   "note": "Refuted (0,1 moves to -1,1). Proved: stacks already ordered downwards with non-negative thickness are unchanged, and the exact elevations after cutting, column by column (C32_elevations_partial)."
  },
  {
   "property": "C33",
   "status": "partial",
   "theorems": [
    "C33_repeatable_partial",
    "C33_repeatable_refuted"
   ],
   "note": "Refuted (4,5,3). Proved under the same priority condition as C31."
  },
  {
   "property": "C34",
   "status": "proved",
   "theorems": [
    "C34_add_scalar"
   ],
   "note": "Both directions, first and later items."
  },
  {
   "property": "C35",
   "status": "partial",
   "theorems": [
    "C35_stack_ids_partial",
    "C35_extrude_ids_partial",
    "C35_unstructured_ids_partial",
    "C35_unstructured_extrude_ids_partial",
    "C35_line_ids_partial",
    "C35_ids_refuted",
    "C35_transition_ids_partial"
   ],
   "note": "Whole mesh along the third axis for structured bases, and for transitions between lines; block level for unstructured and line bases; refuted along axis 0."
  },
  {
   "property": "C36",
   "status": "proved",
   "theorems": [
    "C36_too_few_stack",
    "C36_too_few_extrude",
    "C36_merge_none",
    "C36_stack_layers",
    "C36_extrude_layers"
   ],
   "note": "Structured stacks and extrusions of any axis."
  },
  {
   "property": "C37",
   "status": "proved",
   "theorems": [
    "C37_structured_merge"
   ],
   "note": "Any number of blocks; interface points taken from the first block, close to those of the second."
  },
  {
   "property": "C38",
   "status": "proved",
   "theorems": [
    "C38_merge_validated"
   ],
   "note": "Success iff consecutive interfaces are close."
  },
  {
   "property": "C39",
   "status": "proved",
   "theorems": [
    "C39_stack_defined",
    "C39_extrude_defined",
    "C39_integer_resolution",
    "C39_stack_surfaces",
    "C39_extrude_surfaces",
    "C39_extrude_iff",
    "C39_stack_iff",
    "C39_lines_defined",
    "C39_stack_lines"
   ],
   "note": "Success, exact surfaces, and the iff for explicit positions; whole stacks of lines and of surfaces."
  },
  {
   "property": "C40",
   "status": "partial",
   "theorems": [
    "C40_rows_partial",
    "C40_faces_once_partial",
    "C40_defined",
    "C40_collapsed_partial",
    "C40_faces_once_refuted"
   ],
   "note": "Proved with collapsed faces kept or absent (order, once, rows, width, definedness) and for rows after dropping collapsed faces exactly when, wherever a kept face has an id, two kept faces differ (C40_rows_partial). Refuted otherwise: a column of equal ids is dropped."
  },
  {
   "property": "C41",
   "status": "partial",
   "theorems": [
    "C41_collapsed_partial",
    "C41_neighbors_partial",
    "C41_neighbors_refuted"
   ],
   "note": "Proved without collapsed faces (exact neighbours, symmetric with multiplicity), and with collapsed ones under the exact condition of C40 (wherever a kept face has an id, two kept faces differ): neighbours share a face that is not collapsed. Refuted with a collapsed face: TypeError."
  },
  {
   "property": "C42",
   "status": "partial",
   "theorems": [
    "C42_collapsed_partial",
    "C42_defined_partial",
    "C42_total_refuted",
    "C42_errors_partial"
   ],
   "note": "Exact condition of success (some face shared, none by three cells) and error raised otherwise (TypeError, ValueError), without collapsed faces; condition of success with collapsed faces as C41. Refuted: one quad."
  },
  {
   "property": "C43",
   "status": "partial",
   "theorems": [
    "C43_collapsed_partial",
    "C43_lines_partial",
    "C43_shape_rejected",
    "C43_lines_refuted"
   ],
   "note": "Proved without collapsed faces; wrong shapes rejected. Refuted with a collapsed face and a face of three cells. With collapsed faces as C41."
  },
  {
   "property": "C44",
   "status": "proved",
   "theorems": [
    "C44_closed"
   ],
   "note": "Any distinct ids."
  },
  {
   "property": "C45",
   "status": "proved",
   "theorems": [
    "C45_decodable",
    "C45_defined"
   ],
   "note": "Decoding gives the nested connectivity; success for every mesh whose polyhedra have faces."
  },
  {
   "property": "C46",
   "status": "partial",
   "theorems": [
    "C46_structured",
    "C46_cells_partial",
    "C46_cells_refuted",
    "C46_rejected"
   ],
   "note": "Refuted for CONVEX_POINT_SET (dimension 0 instead of 3); proved otherwise."
  },
  {
   "property": "C47",
   "status": "partial",
   "theorems": [
    "C47_extraction_partial",
    "C47_method_rejected",
    "C47_extraction_refuted"
   ],
   "note": "Exact set of kept cells, empty cells having dimension -1; refuted: 'lower' keeps empty cells."
  },
  {
   "property": "C48",
   "status": "proved",
   "theorems": [
    "C48_input_restored",
    "C48_defined"
   ],
   "note": "All outcomes."
  },
  {
   "property": "C49",
   "status": "partial",
   "theorems": [
    "C49_ghosts_partial",
    "C49_ghosts_refuted"
   ],
   "note": "Proved when the call succeeds. Refuted: a polyhedron of zero volume raises ZeroDivisionError and the ghost array is lost."
  },
  {
   "property": "C50",
   "status": "proved",
   "theorems": [
    "C50_split_faithful",
    "C50_split_defined"
   ],
   "note": ""
  },
  {
   "property": "C51",
   "status": "proved",
   "theorems": [
    "C51_points_and_cells",
    "C51_common_keys",
    "C51_point_data",
    "C51_cell_data",
    "C51_merge_of_split",
    "C51_defined",
    "C51_errors"
   ],
   "note": "The final merge_points() of VTK is not modelled."
  },
  {
   "property": "C52",
   "status": "proved",
   "theorems": [
    "C52_midpoints",
    "C52_defined_iff",
    "C52_unsupported"
   ],
   "note": ""
  },
  {
   "property": "C53",
   "status": "proved",
   "theorems": [
    "C53_permutation"
   ],
   "note": ""
  },
  {
   "property": "C54",
   "status": "partial",
   "theorems": [
    "C54_terminates_iff_partial",
    "C54_terminates_refuted"
   ],
   "note": "Proved: it terminates exactly when the tolerance is positive and two points differ. Refuted for all inputs: equal points."
  },
  {
   "property": "C55",
   "status": "partial",
   "theorems": [
    "C55_local_optimum_partial",
    "C55_local_optimum_refuted"
   ],
   "note": "Proved for blocks that start before the last two points when the order is kept. Refuted: the last two points are never exchanged."
  },
  {
   "property": "C56",
   "status": "partial",
   "theorems": [
    "C56_subsequence_partial",
    "C56_straight_lines",
    "C56_negative_tolerance",
    "C56_cells_partial",
    "C56_segment_refuted"
   ],
   "note": "Proved with the distance to the line through the kept points, for non-negative tolerance. Refuted for the distance to the segment."
  },
  {
   "property": "C57",
   "status": "proved",
   "theorems": [
    "C57_classes"
   ],
   "note": "For any set of pairs reported by KDTree."
  },
  {
   "property": "C58",
   "status": "proved",
   "theorems": [
    "C58_faces",
    "C58_defined"
   ],
   "note": ""
  },
  {
   "property": "C59",
   "status": "proved",
   "theorems": [
    "C59_offset_distance",
    "C59_offset_zero"
   ],
   "note": "Real arithmetic; vertices that would be NaN are None. The side is the sign of the area sum used by the code."
  },
  {
   "property": "C60",
   "status": "partial",
   "theorems": [
    "C60_offset_outward_partial",
    "C60_offset_outward_refuted"
   ],
   "note": "Proved when the closing edge counted twice does not change the sign of the area; refuted otherwise (unit square at x = 10)."
  },
  {
   "property": "C61",
   "status": "partial",
   "theorems": [
    "C61_plane_partial",
    "C61_plane_refuted"
   ],
   "note": "Proved for planes through the origin; refuted otherwise: the constant coordinate is reset to 0."
  },
  {
   "property": "C62",
   "status": "proved",
   "theorems": [
    "C62_partition",
    "C62_no_edges",
    "C62_without_holes"
   ],
   "note": "For all containment relations (shapely's area and contains are a parameter)."
  },
  {
   "property": "C63",
   "status": "proved",
   "theorems": [
    "C63_open_or_closed",
    "C63_one_cell",
    "C63_default_celltype",
    "C63_holes_rejected",
    "C63_celltype_rejected"
   ],
   "note": "Input as arrays; numpy rows are lists of reals."
  },
  {
   "property": "C64",
   "status": "proved",
   "theorems": [
    "C64_session_closed",
    "C64_engine_rejected"
   ],
   "note": "Calls of gmsh as a trace, any call may fail."
  },
  {
   "property": "C65",
   "status": "partial",
   "theorems": [
    "C65_fused_partial",
    "C65_each_group_partial",
    "C65_fused_refuted",
    "C65_accepts",
    "C65_rejects"
   ],
   "note": "Proved for groups without common cells; refuted for overlapping groups. get_dimension and extract_boundary_polygons are parameters, the final clean() is not modelled."
  },
  {
   "property": "C66",
   "status": "proved",
   "theorems": [
    "C66_arrays_aligned",
    "C66_accepted"
   ],
   "note": "From the items to the mesh before fuse_cells and the final clean."
  },
  {
   "property": "C67",
   "status": "proved",
   "theorems": [
    "C67_active_iff_not_covered"
   ],
   "note": "Cover relation given by find_containing_cell (oracle)."
  },
  {
   "property": "C68",
   "status": "partial",
   "theorems": [
    "C68_points_inside_partial",
    "C68_points_inside_refuted"
   ],
   "note": "Proved for items with a cell in the background mesh; refuted for items wholly outside."
  },
  {
   "property": "C69",
   "status": "proved",
   "theorems": [
    "C69_regions_valid",
    "C69_missing_ridges"
   ],
   "note": "For diagrams as SciPy returns them; C69_missing_ridges gives the KeyError otherwise."
  },
  {
   "property": "C70",
   "status": "partial",
   "theorems": [
    "C70_orientation_partial",
    "C70_same_outline",
    "C70_orientation_refuted"
   ],
   "note": "Proved when the open shoelace sum of the first three points has the sign of the area; refuted otherwise."
  },
  {
   "property": "C71",
   "status": "proved",
   "theorems": [
    "C71_selection_toggles",
    "C71_unknown_view"
   ],
   "note": "Click history as a list; picked ids are the ones vtk reports."
  },
  {
   "property": "C72",
   "status": "partial",
   "theorems": [
    "C72_horizontal_partial",
    "C72_outline_partial",
    "C72_view_plane_refuted",
    "C72_unknown_view"
   ],
   "note": "Proved for the xy view; what the polygon tests in the other views is proved too; refuted for xz and yz, where the polygon is drawn in the view plane but the x and y coordinates of the centers are tested."
  },
  {
   "property": "C73",
   "status": "proved",
   "theorems": [
    "C73_regular_line",
    "C73_ends",
    "C73_rejected"
   ],
   "note": "Rows of three columns; np.interp modelled for nondecreasing knots."
  },
  {
   "property": "C74",
   "status": "proved",
   "theorems": [
    "C74_linear",
    "C74_range",
    "C74_rejects",
    "C74_flat",
    "C74_surface"
   ],
   "note": "One varying axis: np.interp; two varying axes: SciPy interpolators are parameters."
  },
  {
   "property": "C75",
   "status": "partial",
   "theorems": [
    "C75_plane_partial",
    "C75_angles_kept_refuted"
   ],
   "note": "Plane contains the point and is affine; refuted: an ndarray of angles is modified in place."
  },
  {
   "property": "C76",
   "status": "proved",
   "theorems": [
    "C76_translate_scale",
    "C76_vector_size"
   ],
   "note": "Center and every point, with default or given scale."
  },
  {
   "property": "C77",
   "status": "partial",
   "theorems": [
    "C77_radii_partial",
    "C77_radius_refuted"
   ],
   "note": "Proved for AnnularSector, Annulus, Sector, Circle, SectorRectangle and for RectangleSector with positive radius; refuted for RectangleSector with radius <= 0."
  },
  {
   "property": "C78",
   "status": "partial",
   "theorems": [
    "C78_gate_partial",
    "C78_gate_refuted"
   ],
   "note": "Proved for one-digit major and minor numbers and any patch. Refuted: 9.10.0."
  },
  {
   "property": "C79",
   "status": "proved",
   "theorems": [
    "C79_construction",
    "C79_arrays_rejected",
    "C79_added_item"
   ],
   "note": ""
  },
  {
   "property": "C80",
   "status": "partial",
   "theorems": [
    "C80_transition_partial",
    "C80_transition_refuted"
   ],
   "note": "Proved for callables, arrays and meshes; refuted for scalars, which copy the last item."
  },
  {
   "property": "C81",
   "status": "partial",
   "theorems": [
    "C81_slope_partial",
    "C81_inclination_refuted"
   ],
   "note": "Exact law for all axes and angles: the slope is sin w across the rotation vector. Refuted: it is not tan w (45 degrees)."
  },
  {
   "property": "C82",
   "status": "proved",
   "theorems": [
    "C82_stack_groups",
    "C82_extrude_groups"
   ],
   "note": ""
  },
  {
   "property": "C83",
   "status": "proved",
   "theorems": [
    "C83_extrusion_similar"
   ],
   "note": "Any rotation about the vector, non-zero vector."
  },
  {
   "property": "C84",
   "status": "proved",
   "theorems": [
    "C84_outward"
   ],
   "note": ""
  },
  {
   "property": "C85",
   "status": "partial",
   "theorems": [
    "C85_unsupported_partial",
    "C85_unsupported_refuted"
   ],
   "note": "Proved for meshes of dimension 1 and 2. Refuted in 3D: KeyError or AttributeError."
  },
  {
   "property": "C86",
   "status": "proved",
   "theorems": [
    "C86_apex_independent",
    "C86_affine",
    "C86_inside"
   ],
   "note": "The version is 9.5.0 for the position; any version for the apex."
  },
  {
   "property": "C87",
   "status": "proved",
   "theorems": [
    "C87_rows"
   ],
   "note": ""
  },
  {
   "property": "C88",
   "status": "partial",
   "theorems": [
    "C88_holes_inside_partial",
    "C88_holes_inside_refuted"
   ],
   "note": "Proved for one level of nesting; refuted for deeper nesting."
  },
  {
   "property": "C89",
   "status": "proved",
   "theorems": [
    "C89_gmsh_outline"
   ],
   "note": "Tags are those gmsh returns, numbered from 1."
  },
  {
   "property": "C90",
   "status": "proved",
   "theorems": [
    "C90_mesh_sizes"
   ],
   "note": ""
  },
  {
   "property": "C91",
   "status": "partial",
   "theorems": [
    "C91_gmsh_cells_partial",
    "C91_gmsh_cells_refuted"
   ],
   "note": "Proved when gmsh numbers nodes 1..N in order; refuted otherwise."
  },
  {
   "property": "C92",
   "status": "proved",
   "theorems": [
    "C92_offset_accepts",
    "C92_offset_rejects"
   ],
   "note": ""
  },
  {
   "property": "C93",
   "status": "partial",
   "theorems": [
    "C93_higher_priority_partial",
    "C93_strictly_refuted",
    "C93_higher_refuted"
   ],
   "note": "Proved for nonnegative priorities and strictly higher priority; refuted for equal and negative priorities."
  },
  {
   "property": "C94",
   "status": "proved",
   "theorems": [
    "C94_no_boundary_rejected",
    "C94_outlines"
   ],
   "note": "Clipping (shapely) and validity are oracles."
  },
  {
   "property": "C95",
   "status": "proved",
   "theorems": [
    "C95_annular_sector",
    "C95_invalid_radii"
   ],
   "note": ""
  },
  {
   "property": "C96",
   "status": "proved",
   "theorems": [
    "C96_annulus_closed",
    "C96_shell_closed"
   ],
   "note": "Before the final clean that merges coincident points."
  },
  {
   "property": "C97",
   "status": "proved",
   "theorems": [
    "C97_sector_fan",
    "C97_triangles"
   ],
   "note": ""
  },
  {
   "property": "C98",
   "status": "proved",
   "theorems": [
    "C98_quadrilateral",
    "C98_default",
    "C98_too_few_points"
   ],
   "note": ""
  },
  {
   "property": "C99",
   "status": "partial",
   "theorems": [
    "C99_rectangle_partial",
    "C99_square_partial",
    "C99_center_refuted"
   ],
   "note": "center is the first corner of the rectangle; refuted as its center."
  },
  {
   "property": "C100",
   "status": "proved",
   "theorems": [
    "C100_shell_nodes",
    "C100_shell_flags"
   ],
   "note": "Centers of three coordinates. Cell sizes (VTK) are oracle parameters."
  },
  {
   "property": "C101",
   "status": "partial",
   "theorems": [
    "C101_centers_partial",
    "C101_shell_refuted"
   ],
   "note": "Proved for flat objects; refuted for CylindricalShellSector."
  },
  {
   "property": "C102",
   "status": "proved",
   "theorems": [
    "C102_sector_rectangle",
    "C102_sector_rectangle_conform",
    "C102_rectangle_sector",
    "C102_rectangle_sector_conform",
    "C102_sector_square",
    "C102_square_sector"
   ],
   "note": "Blocks before their merge by VTK."
  },
  {
   "property": "C103",
   "status": "partial",
   "theorems": [
    "C103_constant_partial",
    "C103_method_refuted"
   ],
   "note": "Proved for constant spacing; refuted for log spacing."
  },
  {
   "property": "C104",
   "status": "partial",
   "theorems": [
    "C104_rectangle_partial",
    "C104_annular_refuted",
    "C104_blocks_refuted"
   ],
   "note": "Proved for Rectangle (and for Sector in C97); refuted for AnnularSector and for the blocks of SectorRectangle."
  },
  {
   "property": "C105",
   "status": "proved",
   "theorems": [
    "C105_curved_line",
    "C105_length",
    "C105_straight",
    "C105_invalid_resolution"
   ],
   "note": "Directions nonzero and not opposite."
  },
  {
   "property": "C106",
   "status": "partial",
   "theorems": [
    "C106_enclosed_partial",
    "C106_interior_refuted",
    "C106_descending_refuted"
   ],
   "note": "Proved for ascending data and base points; refuted for interior points out of the range and for descending data."
  },
  {
   "property": "C107",
   "status": "partial",
   "theorems": [
    "C107_accepted_partial",
    "C107_rejected",
    "C107_atomic",
    "C107_large_refuted"
   ],
   "note": "Accepted exactly when 0 < radius <= constraint radius < 2 radius (proved); the documented condition is refuted by a constraint radius of twice the radius."
  },
  {
   "property": "C108",
   "status": "partial",
   "theorems": [
    "C108_chords_partial",
    "C108_other_axes",
    "C108_axis_refuted"
   ],
   "note": "Proved for axis 2; refuted for axes 0 and 1, where the circle is flattened."
  },
  {
   "property": "C109",
   "status": "partial",
   "theorems": [
    "C109_plain_partial",
    "C109_center_refuted"
   ],
   "note": "Proved for centers in the plane of axis 2; refuted for a center out of the plane."
  },
  {
   "property": "C110",
   "status": "partial",
   "theorems": [
    "C110_groups_partial",
    "C110_default_refuted"
   ],
   "note": "Proved for named groups and for constraint radius = radius; refuted without group name."
  },
  {
   "property": "C111",
   "status": "proved",
   "theorems": [
    "C111_strips"
   ],
   "note": "Resolutions that give at least two positions; polylines of at least two points; perpendicularity where the neighbours differ."
  },
  {
   "property": "C112",
   "status": "proved",
   "theorems": [
    "C112_core_strip"
   ],
   "note": ""
  },
  {
   "property": "C113",
   "status": "proved",
   "theorems": [
    "C113_mirrors"
   ],
   "note": "Straightness is local: the segments around the cell."
  },
  {
   "property": "C114",
   "status": "partial",
   "theorems": [
    "C114_point_partial",
    "C114_cell_partial",
    "C114_preference_refuted"
   ],
   "note": "The documented meaning is refuted; the actual centers are proved for the default resolution."
  },
  {
   "property": "C115",
   "status": "proved",
   "theorems": [
    "C115_points_accepted",
    "C115_mesh_item",
    "C115_mesh",
    "C115_points",
    "C115_circle",
    "C115_polyline"
   ],
   "note": ""
  },
  {
   "property": "C116",
   "status": "partial",
   "theorems": [
    "C116_single_partial",
    "C116_several_refuted"
   ],
   "note": "Proved for at most one polyline; refuted for several."
  },
  {
   "property": "C117",
   "status": "partial",
   "theorems": [
    "C117_faces_partial",
    "C117_lines_partial",
    "C117_parallel_refuted"
   ],
   "note": "Proved for faces (limit of at most 90 degrees) and for lines not parallel to the ray; refuted for a parallel line (NaN coordinates)."
  },
  {
   "property": "C118",
   "status": "proved",
   "theorems": [
    "C118_faces",
    "C118_lines",
    "C118_mixed_rejected",
    "C118_total"
   ],
   "note": "Normals are unit vectors; the cells met by the segment are VTK's answer."
  },
  {
   "property": "C119",
   "status": "proved",
   "theorems": [
    "C119_arrays"
   ],
   "note": "For every answer of VTK and SciPy."
  },
  {
   "property": "C120",
   "status": "partial",
   "theorems": [
    "C120_spacing_partial",
    "C120_tolerance_refuted"
   ],
   "note": "Spacing proved for every answer of VTK; refuted that points farther than the tolerance are kept (relative tolerance of numpy.allclose)."
  },
  {
   "property": "C121",
   "status": "partial",
   "theorems": [
    "C121_sources_partial",
    "C121_row_partial",
    "C121_start_refuted",
    "C121_end_refuted",
    "C121_trip_partial",
    "C121_nearest_refuted",
    "C121_reentry_refuted"
   ],
   "note": "Sources of the points proved for every answer of VTK; ids proved for a polyline through any mesh that it enters once, by the cell with the nearest center, and for a segment through a row of two cells or more; refuted for a line that starts inside the mesh, ends in the first cell, enters by a cell whose center is not the nearest, or comes back into the mesh."
  },
  {
   "property": "C122",
   "status": "partial",
   "theorems": [
    "C122_values",
    "C122_enough_partial",
    "C122_polyline_refuted"
   ],
   "note": "Values proved; success proved with a value per segment; refuted for a line of one cell of several segments (IndexError)."
  },
  {
   "property": "C123",
   "status": "partial",
   "theorems": [
    "C123_flags_partial",
    "C123_miss",
    "C123_boundary_refuted",
    "C123_trip_partial"
   ],
   "note": "Order of the ids proved for every answer of VTK; exact effect proved for a polyline that enters any mesh once, for a row of cells and for a line that misses the mesh; refuted for a line that starts on the boundary."
  },
  {
   "property": "C124",
   "status": "partial",
   "theorems": [
    "C124_row_partial",
    "C124_inside_refuted",
    "C124_trip_partial"
   ],
   "note": "Proved for a polyline that enters any mesh once and for a segment through a row of two cells or more; refuted for a line inside one cell."
  },
  {
   "property": "C125",
   "status": "partial",
   "theorems": [
    "C125_row_partial",
    "C125_refuted",
    "C125_trip_partial"
   ],
   "note": "Proved for a polyline that enters any mesh once and for a segment through a row of two cells or more; refuted with a cell thinner than min_length."
  },
  {
   "property": "C126",
   "status": "proved",
   "theorems": [
    "C126_transition_outline"
   ],
   "note": ""
  },
  {
   "property": "C127",
   "status": "proved",
   "theorems": [
    "C127_cut_independent",
    "C127_cut_sizes"
   ],
   "note": ""
  },
  {
   "property": "C128",
   "status": "partial",
   "theorems": [
    "C128_sizes_rejected",
    "C128_defined",
    "C128_build_partial",
    "C128_build_refuted"
   ],
   "note": "Sizes proved in both directions and success proved when the item before a scalar is no transition; refuted for a scalar right after set_transition, which copies the line before the transition."
  },
  {
   "property": "C129",
   "status": "proved",
   "theorems": [
    "C129_no_transition",
    "C129_one_transition",
    "C129_mixed"
   ],
   "note": ""
  },
  {
   "property": "C130",
   "status": "partial",
   "theorems": [
    "C130_transition_groups_partial",
    "C130_masks_refuted"
   ],
   "note": "Proved for names and no group; refuted for boolean masks of the cells of the line."
  },
  {
   "property": "C131",
   "status": "partial",
   "theorems": [
    "C131_base_line_partial",
    "C131_base_line_refuted",
    "C131_no_line"
   ],
   "note": "Proved for one LINE or POLY_LINE cell; refuted for a line made of several cells (only the first is kept)."
  },
  {
   "property": "C132",
   "status": "proved",
   "theorems": [
    "C132_stack_ghosts",
    "C132_extrude_ghosts",
    "C132_stack_defined",
    "C132_extrude_defined"
   ],
   "note": "Volumes come from VTK (oracle with one value per cell); structured base meshes, no transition."
  },
  {
   "property": "C133",
   "status": "proved",
   "theorems": [
    "C133_stack_groups",
    "C133_extrude_groups"
   ],
   "note": "Dictionaries of masks, index arrays and functions returning masks; entries that are names are the subject of C21."
  },
  {
   "property": "C134",
   "status": "proved",
   "theorems": [
    "C134_stack_cell_data",
    "C134_extrude_cell_data"
   ],
   "note": ""
  },
  {
   "property": "C135",
   "status": "partial",
   "theorems": [
    "C135_stack_point_data_partial",
    "C135_extrude_point_data_partial",
    "C135_no_point_data",
    "C135_point_data_refuted"
   ],
   "note": "Proved for stacks and extrusions of two items; with three or more items it is proved that no point array is left (merge builds a new grid without point data), hence refuted."
  },
  {
   "property": "C136",
   "status": "proved",
   "theorems": [
    "C136_array_accepted",
    "C136_array_rejected",
    "C136_seeds_of_array",
    "C136_seeds_rejected"
   ],
   "note": ""
  },
  {
   "property": "C137",
   "status": "partial",
   "theorems": [
    "C137_positions_partial",
    "C137_positions_refuted",
    "C137_positions_elsewhere",
    "C137_positions_line",
    "C137_mesh_line",
    "C137_no_line"
   ],
   "note": "Proved for stacking along Z; along X and Y the line is never along the documented axis (refuted), but it is perpendicular to the stacking axis on every axis. A base given as a mesh is its first line cut in segments."
  },
  {
   "property": "C138",
   "status": "proved",
   "theorems": [
    "C138_mesh_line",
    "C138_no_line",
    "C138_transition_count",
    "C138_transition_rejected"
   ],
   "note": "Numbers n >= 1; n = 0 means the number of points of the current line (C73). A transition given as a mesh is its first line cut in segments."
  },
  {
   "property": "C139",
   "status": "proved",
   "theorems": [
    "C139_default_surface",
    "C139_default_defined"
   ],
   "note": ""
  },
  {
   "property": "C140",
   "status": "proved",
   "theorems": [
    "C140_half_stadium",
    "C140_bad_resolution"
   ],
   "note": ""
  },
  {
   "property": "C141",
   "status": "proved",
   "theorems": [
    "C141_stack_cells",
    "C141_extrude_cells",
    "C141_stack_defined",
    "C141_extrude_defined"
   ],
   "note": "pv.merge is assumed to append the meshes in some order, merging points that coincide, and UnstructuredGrid.clean to rename points within the tolerance, keeping cells and their data; gmsh transitions are excluded (C125-C130)."
  },
  {
   "property": "C142",
   "status": "proved",
   "theorems": [
    "C142_stack_groups",
    "C142_extrude_groups"
   ],
   "note": "Same assumptions as C141."
  },
  {
   "property": "C143",
   "status": "proved",
   "theorems": [
    "C143_stack_ghosts",
    "C143_extrude_ghosts"
   ],
   "note": "Same assumptions as C141. The flag of a block is decided on its first layer only, which is what the statement says."
  },
  {
   "property": "C144",
   "status": "proved",
   "theorems": [
    "C144_stack_cell_data",
    "C144_extrude_cell_data"
   ],
   "note": "Same assumptions as C141."
  },
  {
   "property": "C145",
   "status": "proved",
   "theorems": [
    "C145_line_nodes",
    "C145_line_defined"
   ],
   "note": ""
  },
  {
   "property": "C146",
   "status": "partial",
   "theorems": [
    "C146_line_cells_partial",
    "C146_line_cells_along_x",
    "C146_line_cells_refuted"
   ],
   "note": "Proved along y and z, and refuted along x, where the arrays are written in the order of the lines and read in the order of the columns; C146_line_cells_along_x states which segment is read instead."
  },
  {
   "property": "C147",
   "status": "proved",
   "theorems": [
    "C147_returned_cells"
   ],
   "note": "Qhull, clean() and the boundaries of fused cells are oracles; clean() renames points within the tolerance."
  },
  {
   "property": "C148",
   "status": "partial",
   "theorems": [
    "C148_remaining_cells",
    "C148_circles_partial",
    "C148_defined",
    "C148_circle_lost_refuted"
   ],
   "note": "Remaining cells and existence are proved for all circles; that every circle has a cell is proved for circles without a common cell, and refuted otherwise: the second of two circles sharing a cell disappears."
  },
  {
   "property": "C149",
   "status": "proved",
   "theorems": [
    "C149_merged_cells",
    "C149_merged_defined"
   ],
   "note": "pv.merge is assumed to append the meshes in some order, merging points that coincide, and clean() to rename points within the tolerance."
  },
  {
   "property": "C150",
   "status": "proved",
   "theorems": [
    "C150_merged_groups"
   ],
   "note": ""
  },
  {
   "property": "C151",
   "status": "proved",
   "theorems": [
    "C151_merged_cell_data"
   ],
   "note": "pv.merge is assumed to keep the arrays that all meshes have."
  },
  {
   "property": "C152",
   "status": "partial",
   "theorems": [
    "C152_merged_flags_partial",
    "C152_merged_flags_lost",
    "C152_merged_flags_refuted"
   ],
   "note": "Proved when every mesh has flags; refuted otherwise: pv.merge keeps the arrays that all meshes have, so that the flags are lost when one mesh has none (C152_merged_flags_lost)."
  },
  {
   "property": "C153",
   "status": "proved",
   "theorems": [
    "C153_rectangle",
    "C153_annular_sector",
    "C153_annular_sector_equal",
    "C153_sector",
    "C153_sector_equal",
    "C153_frame",
    "C153_filled"
   ],
   "note": "Areas are those of the polygonal cells; SectorRectangle with equal angular subdivisions (theta_method does not reach it, C103)."
  },
  {
   "property": "C154",
   "status": "proved",
   "theorems": [
    "C154_rings",
    "C154_sector_ring",
    "C154_ring_frame",
    "C154_frame_rectangles"
   ],
   "note": "Over exact reals; in floating point the coincidence is up to rounding."
  },
  {
   "property": "C155",
   "status": "proved",
   "theorems": [
    "C155_polygons",
    "C155_areas"
   ],
   "note": "pv.merge and clean as in C149."
  },
  {
   "property": "C156",
   "status": "proved",
   "theorems": [
    "C156_load_well",
    "C156_areas",
    "C156_counts"
   ],
   "note": "Without voronoi; pv.merge and clean as in C149, over exact reals."
  },
  {
   "property": "C157",
   "status": "proved",
   "theorems": [
    "C157_prism",
    "C157_concave",
    "C157_half_stadium"
   ],
   "note": "Enclosed volume with sign: negative when the faces are turned inwards."
  },
  {
   "property": "C158",
   "status": "proved",
   "theorems": [
    "C158_anticline",
    "C158_inactive"
   ],
   "note": "Over exact reals; the areas reported by VTK are an oracle, assumed to vanish exactly on flat cells for the flags."
  },
  {
   "property": "C159",
   "status": "proved",
   "theorems": [
    "C159_stack_nodes",
    "C159_extrude_nodes",
    "C159_stack_even",
    "C159_extrude_even"
   ],
   "note": "Structured surfaces; the cutting of crossing surfaces is C31."
  },
  {
   "property": "C160",
   "status": "proved",
   "theorems": [
    "C160_points",
    "C160_groups",
    "C160_inactive"
   ],
   "note": "Structured surfaces, without scale nor angle (these are C76, C83)."
  },
  {
   "property": "C161",
   "status": "proved",
   "theorems": [
    "C161_anticline",
    "C161_inactive"
   ],
   "note": "Over exact reals; areas and volumes reported by VTK are oracles, assumed to vanish exactly on cells without height for the flags."
  },
  {
   "property": "C162",
   "status": "proved",
   "theorems": [
    "C162_nodes",
    "C162_groups",
    "C162_flags",
    "C162_arrays",
    "C162_ids",
    "C162_errors"
   ],
   "note": "Structured surfaces, calls without transition; interpolation is a parameter (C74). Identifiers along the third axis only (C35 for the others)."
  },
  {
   "property": "C163",
   "status": "proved",
   "theorems": [
    "C163_nodes",
    "C163_groups"
   ],
   "note": "Over exact reals; SciPy's linear interpolator is an oracle assumed to give back the data at data points that are distinct and not aligned; the image is a parameter."
  },
  {
   "property": "C164",
   "status": "proved",
   "theorems": [
    "C164_cells",
    "C164_groups",
    "C164_data",
    "C164_defined",
    "C164_errors"
   ],
   "note": "Unstructured surfaces, without scale nor angle; pv.merge and clean are oracles."
  },
  {
   "property": "C165",
   "status": "proved",
   "theorems": [
    "C165_load_well"
   ],
   "note": "Without voronoi; pv.merge, clean and extract_cells are oracles, assumed to keep one row of point data per point."
  },
  {
   "property": "C166",
   "status": "proved",
   "theorems": [
    "C166_cells",
    "C166_groups",
    "C166_data",
    "C166_defined",
    "C166_errors"
   ],
   "note": "Unstructured surfaces; interpolation, pv.merge and clean are oracles."
  },
  {
   "property": "C167",
   "status": "proved",
   "theorems": [
    "C167_accepted",
    "C167_cells",
    "C167_circles",
    "C167_defined",
    "C167_errors",
    "C167_first_error"
   ],
   "note": "Qhull, clean(), cell centers and the boundaries of fused cells are oracles; the boundary of a circle must run through a point once."
  },
  {
   "property": "C168",
   "status": "proved",
   "theorems": [
    "C168_nodes",
    "C168_groups",
    "C168_flags",
    "C168_arrays",
    "C168_ids",
    "C168_errors"
   ],
   "note": "Without transitions; interpolation, vtkStripper and cell areas are oracles. Identifiers along the first axis are out of order (C146)."
  },
  {
   "property": "C169",
   "status": "proved",
   "theorems": [
    "C169_defined",
    "C169_blocks",
    "C169_no_line"
   ],
   "note": "Up to _clean; gmsh, pv.merge, vtkStripper, interpolation and cell areas are oracles. Scalars right after a transition are excluded (C128)."
  },
  {
   "property": "C170",
   "status": "proved",
   "theorems": [
    "C170_defined",
    "C170_mesh"
   ],
   "note": "gmsh, pv.merge (appends its meshes in some order), clean, vtkStripper, interpolation and cell areas are oracles; gmsh elements have three or four nodes numbered from one. Along the first axis the columns and layers are written in the order of C146."
  },
  {
   "property": "C171",
   "status": "partial",
   "theorems": [
    "C171_flags_partial",
    "C171_flags_refuted"
   ],
   "note": "False: pv.merge drops the flags of the strips because the triangles have none (C171_flags_refuted, for all measures of area). What holds: no cell is flagged as soon as every mesh of gmsh has a cell."
  },
  {
   "property": "C172",
   "status": "proved",
   "theorems": [
    "C172_layer",
    "C172_faces",
    "C172_extrude",
    "C172_stack"
   ],
   "note": "Programs of MeshExtrude and MeshStack3D on unstructured surfaces: when cleaning moves no point (tolerance 0). Polyhedra are C13, C121 and C157."
  },
  {
   "property": "C173",
   "status": "proved",
   "theorems": [
    "C173_volumes"
   ],
   "note": "Absolute volumes of the cells; when the cleaning moves no point (tolerances 0)."
  },
  {
   "property": "C174",
   "status": "proved",
   "theorems": [
    "C174_empty",
    "C174_missing_array",
    "C174_no_ids",
    "C174_quadrilateral",
    "C174_no_vertices",
    "C174_collapsed"
   ],
   "note": ""
  },
  {
   "property": "C175",
   "status": "proved",
   "theorems": [
    "C175_stack",
    "C175_extrude"
   ],
   "note": "When cleaning moves no point (tolerance 0); triangles, quadrilaterals and pixels, positions from 0 to 1."
  },
  {
   "property": "C176",
   "status": "proved",
   "theorems": [
    "C176_areas"
   ],
   "note": "Cells by the coordinates of their four nodes; areas with sign, doubled (Volume_spec.area_along)."
  },
  {
   "property": "C177",
   "status": "proved",
   "theorems": [
    "C177_volumes"
   ],
   "note": "Hexahedra by the coordinates of their eight nodes, with the faces of VTK hexahedra numbered from the surface upwards."
  },
  {
   "property": "C178",
   "status": "proved",
   "theorems": [
    "C178_points",
    "C178_cells"
   ],
   "note": "A call that turns the surface must have a vector that is not zero; subdivisions run from 0 to 1; volumes of cells (compute_cell_sizes) are an oracle."
  },
  {
   "property": "C179",
   "status": "proved",
   "theorems": [
    "C179_cells",
    "C179_data",
    "C179_defined"
   ],
   "note": "Surfaces with at least one point; a call that turns must have a vector that is not zero; pv.merge and clean are oracles."
  },
  {
   "property": "C180",
   "status": "proved",
   "theorems": [
    "C180_mesh",
    "C180_defined"
   ],
   "note": "SciPy's diagram, the pairs of the KDTree, np.argsort, shapely's is_valid and intersection are oracles; plain circles are in C148."
  },
  {
   "property": "C181",
   "status": "proved",
   "theorems": [
    "C181_load_voronoi",
    "C181_defined"
   ],
   "note": "pv.merge, clean, get_cell_centers, SciPy and shapely are oracles; the axis is the default 2."
  },
  {
   "property": "C182",
   "status": "proved",
   "theorems": [
    "C182_load_voronoi",
    "C182_whole",
    "C182_missing"
   ],
   "note": "As C181, and every polygon cut by the boundary has at least three points; extract_cells of PyVista is an oracle."
  },
  {
   "property": "C183",
   "status": "partial",
   "theorems": [
    "C183_nearest_partial",
    "C183_mesh",
    "C183_overlap",
    "C183_contains_refuted"
   ],
   "note": "The part on nearest seeds is proved for the regions and for the mesh; the last part is false (C183_contains_refuted): unbounded regions are closed at 1000 times the extent of the mesh from their last vertex, which for seeds in a thin triangle does not go around the seed. SciPy's diagram is assumed to be that of the seeds and shapely to return points of the region; vertices are not averaged."
  },
  {
   "property": "C184",
   "status": "proved",
   "theorems": [
    "C184_hexahedra",
    "C184_quadrilaterals"
   ],
   "note": "VTK's cast of structured grids is described by hexahedra and quadrilaterals; with remove_ghost_cells no face or edge has zero measure, as in C41."
  },
  {
   "property": "C185",
   "status": "proved",
   "theorems": [
    "C185_hexahedra",
    "C185_quadrilaterals"
   ],
   "note": "As C184."
  },
  {
   "property": "C186",
   "status": "proved",
   "theorems": [
    "C186_extruded",
    "C186_surface"
   ],
   "note": "The surface has distinct corners in every cell, at most two cells per side, at most one common side for two cells and no two cells with the same corners (conforming). VTK reads the streams of cells as in C11 (holds); with remove_ghost_cells no face has zero area, as in C41."
  },
  {
   "property": "C187",
   "status": "proved",
   "theorems": [
    "C187_extruded",
    "C187_surface",
    "C187_sides"
   ],
   "note": "As C186. The sides are given as a list, which C187_sides shows to exist for every surface."
  },
  {
   "property": "C188",
   "status": "partial",
   "theorems": [
    "C188_lines_partial",
    "C188_grid_partial",
    "C188_shared_partial",
    "C188_lines_refuted"
   ],
   "note": "Refuted: lines that follow each other are no neighbours, as their segments are compared and not their ends. Proved what happens: TypeError for every mesh of lines without repeated segments and every structured grid of one row; otherwise the neighbours are the lines with a common segment."
  },
  {
   "property": "C189",
   "status": "partial",
   "theorems": [
    "C189_single_partial",
    "C189_crossed_partial",
    "C189_single_refuted"
   ],
   "note": "Refuted: one cell crossed from side to side. Proved what happens: TypeError as soon as the first segment meets a cell farther than min_length from the end of the line."
  },
  {
   "property": "C190",
   "status": "proved",
   "theorems": [
    "C190_agree"
   ],
   "note": "No condition on the faces; every cell of the mesh has a type and ids."
  }
 ]
}