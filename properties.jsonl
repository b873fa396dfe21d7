{"id": "C01", "title": "Integer resolution yields a proper subdivision", "statement": "For every integer resolution n (values below 1 and None behave as 1) and every accepted method, the subdivision has exactly max(1,n)+1 positions, starts at 0, ends at 1 and is strictly increasing; any other method name is rejected with ValueError.", "quantifier": "all integers, all method strings", "why_tests_cant": "unbounded n and real-valued logarithms; a test samples a few n", "anchors": ["pvgridder/core/_helpers.py:resolution_to_perc"]}
{"id": "C02", "title": "Subdivision methods have the documented grading", "statement": "For every integer resolution the 'constant' gaps are all equal to 1/n, the 'log' gaps strictly increase, the 'log_r' gaps strictly decrease, and 'log' is the mirror image of 'log_r'.", "quantifier": "all integers, all gap indices", "why_tests_cant": "inequality between logarithms for every n and index", "anchors": ["pvgridder/core/_helpers.py:resolution_to_perc"]}
{"id": "C03", "title": "Explicit subdivisions are returned sorted and otherwise untouched", "statement": "A one-dimensional resolution array is returned as the sorted permutation of its values whatever the method (even an invalid one); any resolution that is neither an int nor a 1-D array is rejected with ValueError.", "quantifier": "all finite real arrays, all methods", "why_tests_cant": "all permutations of arrays of every length", "anchors": ["pvgridder/core/_helpers.py:resolution_to_perc"]}
{"id": "C04", "title": "Line from two points lies on the segment", "statement": "The line between two points of equal shape has one point per subdivision position t, namely a+t(b-a) padded with z=0 for 2-D points; with an integer resolution it starts exactly at a and ends at b; points of different shapes are rejected.", "quantifier": "all real points, all resolutions and methods", "why_tests_cant": "real-valued identity over all inputs", "anchors": ["pvgridder/core/_helpers.py:generate_line_from_two_points"]}
{"id": "C05", "title": "Arc points are on the circle", "statement": "Every point of a generated arc is at distance |radius| from the origin in the plane z=0, the number of points is the number of subdivision positions, and with an integer resolution the first and last points are at theta_min and theta_max.", "quantifier": "all radii, angles, resolutions", "why_tests_cant": "trigonometric identity over reals", "anchors": ["pvgridder/core/_helpers.py:generate_arc"]}
{"id": "C06", "title": "Surface between two lines: dimensions and coordinates", "statement": "For each of the six planes the structured surface between two lines of equal length n with m subdivision positions has the dimensions prescribed by the plane, and the grid point addressed by (line index i, level j) is a_i + t_j (b_i - a_i).", "quantifier": "all lines, resolutions, planes", "why_tests_cant": "index arithmetic for all sizes", "anchors": ["pvgridder/core/_helpers.py:generate_surface_from_two_lines"]}
{"id": "C07", "title": "Surface between two lines: data follow the line", "statement": "Point and cell data of the first line are transferred so that every grid point (cell) of the surface carries the value of the line point (segment) it is extruded from.", "quantifier": "all lines with data, resolutions, planes", "why_tests_cant": "layout law quantified over all sizes; fails only for some planes", "anchors": ["pvgridder/core/_helpers.py:generate_surface_from_two_lines"]}
{"id": "C08", "title": "Surface between two lines: collapsed cells are flagged", "statement": "Exactly the quadrilaterals whose area is zero are flagged hidden (ghost value 32); all others keep the ghost value inherited from the line (0 without one).", "quantifier": "all area vectors and inherited ghost arrays", "why_tests_cant": "for every pattern of collapsed cells", "anchors": ["pvgridder/core/_helpers.py:generate_surface_from_two_lines"]}
{"id": "C09", "title": "Structured volume: dimensions and coordinates", "statement": "Extruding between two structured surfaces of the same dimensions (one of them 1) with m positions yields dimensions with m along that axis and the grid point at level l equal to a + t_l (b - a) of the corresponding surface points; differing dimensions are rejected.", "quantifier": "all surfaces, axes, resolutions", "why_tests_cant": "index arithmetic for all sizes", "anchors": ["pvgridder/core/_helpers.py:generate_volume_from_two_surfaces"]}
{"id": "C10", "title": "Repeating structured data follows the grid", "statement": "repeat_structured_data puts at every cell (i,j,k) of the extended grid the value of the original cell with the coordinate along the axis divided by the repeat count, for the three axes.", "quantifier": "all shapes, axes, repeat counts, data", "why_tests_cant": "Fortran-order index law for all shapes", "anchors": ["pvgridder/core/_helpers.py:repeat_structured_data"]}
{"id": "C11", "title": "Unstructured volume: layered cells with valid ids", "statement": "Extruding an unstructured surface with m positions yields (m-1) copies of every cell in layer-major order, the ids of the cell of layer l being the base ids shifted by l*n_points (bottom) and (l+1)*n_points (top), all below the number of points, each cell with the extruded type; unsupported cell types are rejected.", "quantifier": "all surfaces, resolutions", "why_tests_cant": "all meshes; id arithmetic", "anchors": ["pvgridder/core/_helpers.py:generate_volume_from_two_surfaces", "pvgridder/core/_helpers.py:_extruded_celltype_map"]}
{"id": "C12", "title": "Extruded polygons are closed polyhedra", "statement": "The polyhedron made from a polygon with pairwise distinct vertices is a closed surface: every edge belongs to exactly two faces, and with face inversion enabled these traverse it in opposite directions.", "quantifier": "all polygons of any vertex count, either branch of the orientation test", "why_tests_cant": "polygons with arbitrarily many vertices", "anchors": ["pvgridder/core/_helpers.py:generate_volume_from_two_surfaces"]}
{"id": "C13", "title": "Extruded polyhedra faces point outwards", "statement": "With face inversion enabled, the bottom face of every extruded polygon has its normal pointing away from the top, for every planar polygon.", "quantifier": "all planar polygons, convex or not", "why_tests_cant": "depends on geometry of the first corner", "anchors": ["pvgridder/core/_helpers.py:generate_volume_from_two_surfaces"]}
{"id": "C14", "title": "Generating a volume leaves the input surfaces unchanged", "statement": "Generating a volume from two surfaces does not modify points, connectivity or data of the inputs.", "quantifier": "all inputs", "why_tests_cant": "aliasing side effects only visible for some cell types", "anchors": ["pvgridder/core/_helpers.py:generate_volume_from_two_surfaces"]}
{"id": "C15", "title": "Collapsed volume cells are flagged per layer", "statement": "A cell of the extruded mesh is flagged hidden iff its bottom and top faces coincide.", "quantifier": "all surfaces, resolutions", "why_tests_cant": "all geometries and layers", "anchors": ["pvgridder/core/_helpers.py:generate_volume_from_two_surfaces"]}
{"id": "C16", "title": "Extruded unstructured data follow the base", "statement": "Point and cell data of the base surface are replicated so that point (cell) i of every layer carries the value of base point (cell) i.", "quantifier": "all data arrays, resolutions", "why_tests_cant": "all sizes", "anchors": ["pvgridder/core/_helpers.py:generate_volume_from_two_surfaces"]}
{"id": "C17", "title": "Group numbering is injective, contiguous and stable", "statement": "During generation the group table always maps distinct names to the numbers 0..n-1; adding names never renumbers or drops an existing one.", "quantifier": "all call histories", "why_tests_cant": "invariant over all histories", "anchors": ["pvgridder/core/_base.py:MeshBase._initialize_group_array", "pvgridder/core/_base.py:MeshBase._get_group_number"]}
{"id": "C18", "title": "Every generated cell has a named group", "statement": "The group array has one entry per cell and each entry is the number of a name in the group table; no cell is left unassigned.", "quantifier": "all meshes, group arguments, ignore lists", "why_tests_cant": "all inputs and all error-free paths", "anchors": ["pvgridder/core/_base.py:MeshBase._initialize_group_array"]}
{"id": "C19", "title": "Groups of the base mesh are kept unless ignored or overridden", "statement": "Without a group argument, a cell keeps the name it has in the base mesh when that name is not ignored, otherwise it gets the default group; a string group overrides all cells.", "quantifier": "all meshes, labels, ignore lists", "why_tests_cant": "semantic law through renumbering", "anchors": ["pvgridder/core/_base.py:MeshBase._initialize_group_array"]}
{"id": "C20", "title": "Dictionary groups: last matching selector wins", "statement": "With a group dictionary whose selectors are index or mask arrays, each cell gets the name of the last entry selecting it (an entry whose key starts with ~ selects the complement), and cells selected by none keep their base/default name.", "quantifier": "all dictionaries, masks, cells", "why_tests_cant": "all overlap patterns and orders", "anchors": ["pvgridder/core/_base.py:MeshBase._initialize_group_array"]}
{"id": "C21", "title": "String selectors select cells by their base group name", "statement": "In a group dictionary a string selector selects exactly the cells whose group name in the base mesh is that string (complement with ~).", "quantifier": "all meshes and labels", "why_tests_cant": "depends on numbering coincidence", "anchors": ["pvgridder/core/_base.py:MeshBase._initialize_group_array"]}
{"id": "C22", "title": "Callable selectors returning indices", "statement": "In a group dictionary an entry with a callable returning cell indices selects those cells, or with a ~ key all the others.", "quantifier": "all callables returning index arrays", "why_tests_cant": "only wrong for inverted keys", "anchors": ["pvgridder/core/_base.py:MeshBase._initialize_group_array"]}
{"id": "C23", "title": "Final cleaning removes exactly the unused groups", "statement": "The cleaned mesh has the same number of cells, each cell keeps its group name, every remaining name is used, and numbers are contiguous from 0 in the original order.", "quantifier": "all group tables and arrays", "why_tests_cant": "all usage patterns", "anchors": ["pvgridder/core/_base.py:MeshBase._clean", "pvgridder/utils/_misc.py:remap_categorical_data"]}
{"id": "C24", "title": "Remapping is simultaneous", "statement": "remap_categorical_data replaces every value by its image under the mapping evaluated on the original data (so swaps work), leaves unmapped values unchanged, and rejects unknown labels, non-integer data and invalid preferences.", "quantifier": "all data arrays and mappings", "why_tests_cant": "all permutations/cycles of values", "anchors": ["pvgridder/utils/_misc.py:remap_categorical_data"]}
{"id": "C25", "title": "Remapping keeps labels", "statement": "After remapping, every cell keeps its label (values mapped by a label get the label of the source).", "quantifier": "all data arrays, mappings, label tables", "why_tests_cant": "partial mappings", "anchors": ["pvgridder/utils/_misc.py:remap_categorical_data"]}
{"id": "C26", "title": "Remapping out of place leaves the input unchanged", "statement": "With inplace=False the input mesh keeps data and labels and a new mesh is returned; with inplace=True nothing is returned and the mesh holds what the copy would.", "quantifier": "all inputs", "why_tests_cant": "side effects for all inputs", "anchors": ["pvgridder/utils/_misc.py:remap_categorical_data"]}
{"id": "C27", "title": "get_cell_group inverts the group table", "statement": "get_cell_group returns for every cell the name whose number the cell carries; it fails with KeyError exactly when some cell carries an unnamed number and returns None when key or array is missing.", "quantifier": "all meshes", "why_tests_cant": "all tables", "anchors": ["pvgridder/utils/_properties.py:get_cell_group"]}
{"id": "C28", "title": "MeshMerge names every cell correctly", "statement": "The merged mesh contains the cells of all items in order; each has the name it has in its own item if labelled there and not ignored, else the group given for the item, else the default group.", "quantifier": "all item lists", "why_tests_cant": "all combinations of tables", "anchors": ["pvgridder/core/merge.py:MeshMerge.generate_mesh"]}
{"id": "C29", "title": "MeshMerge generation is repeatable", "statement": "Calling generate_mesh twice on the same MeshMerge gives the same groups.", "quantifier": "all item lists", "why_tests_cant": "history dependence", "anchors": ["pvgridder/core/merge.py:MeshMerge.generate_mesh"]}
{"id": "C30", "title": "Stack cut fixes each processed pair", "statement": "Bottom-up, after a pair of consecutive surfaces is processed every column has the upper surface at least the minimum thickness above the lower one, only the surface of lower priority moves, and columns that already satisfy it are untouched.", "quantifier": "all elevations, priorities, thicknesses", "why_tests_cant": "all real elevations", "anchors": ["pvgridder/core/_base.py:MeshStackBase._generate_mesh"]}
{"id": "C31", "title": "Stacked surfaces never cross", "statement": "Bottom-up, all consecutive surfaces of the generated stack are ordered with at least the required thickness.", "quantifier": "all stacks of any number of items", "why_tests_cant": "non-local interaction between pairs", "anchors": ["pvgridder/core/_base.py:MeshStackBase._generate_mesh"]}
{"id": "C32", "title": "Top-down stacks never cross", "statement": "With bottom_up=False consecutive surfaces of the generated stack are ordered downwards.", "quantifier": "all top-down stacks", "why_tests_cant": "sign conventions", "anchors": ["pvgridder/core/_base.py:MeshStackBase._generate_mesh"]}
{"id": "C33", "title": "Stack generation is repeatable", "statement": "Calling generate_mesh twice on a stack gives the same elevations.", "quantifier": "all stacks", "why_tests_cant": "history dependence", "anchors": ["pvgridder/core/_base.py:MeshStackBase._generate_mesh"]}
{"id": "C34", "title": "Adding by thickness", "statement": "Adding a scalar to a non-empty stack creates a surface at distance |scalar| from the previous one in the stacking direction for every column; the first scalar sets the elevation itself.", "quantifier": "all scalars, surfaces, directions", "why_tests_cant": "all histories of add", "anchors": ["pvgridder/core/_base.py:MeshStackBase.add", "pvgridder/core/_helpers.py:translate"]}
{"id": "C35", "title": "Column, layer and item indices of generated meshes", "statement": "In extruded or stacked meshes, ColumnId is the index of the base cell, LayerId the 0-based layer counted over all items and the item index the 0-based item of each cell.", "quantifier": "all base meshes, items, axes", "why_tests_cant": "layout law; fails for some axes", "anchors": ["pvgridder/core/extrude.py:MeshExtrude.generate_mesh", "pvgridder/core/_base.py:MeshStackBase._generate_mesh"]}
{"id": "C36", "title": "Not enough items", "statement": "Generating an extrusion or a stack with fewer than two items, or a merge with none, raises ValueError; otherwise the number of generated layers is the sum of the subdivisions of the items.", "quantifier": "all builders", "why_tests_cant": "all histories", "anchors": ["pvgridder/core/extrude.py:MeshExtrude.generate_mesh", "pvgridder/core/_base.py:MeshStackBase._generate_mesh", "pvgridder/core/merge.py:MeshMerge.generate_mesh"]}
{"id": "C37", "title": "Structured merge concatenates along the axis", "statement": "Merging structured grids along an axis gives, along it, 1+sum(n_i-1) points; each point and each common cell array of each block appears at its shifted index; keys not common to all are dropped.", "quantifier": "all grids, axes, number of blocks", "why_tests_cant": "index arithmetic for all shapes", "anchors": ["pvgridder/utils/_misc.py:merge"]}
{"id": "C38", "title": "Structured merge validates its inputs", "statement": "Structured merge fails with ValueError when the axis is missing or the shared interfaces differ; a single dataset is returned as is.", "quantifier": "all inputs", "why_tests_cant": "all interfaces", "anchors": ["pvgridder/utils/_misc.py:merge"]}
{"id": "C39", "title": "Consecutive extruded blocks share their interface", "statement": "For integer resolutions the last layer of points of a block coincides with the first layer of the next one, so merging the blocks of a stack or extrusion never fails; with explicit positions generation succeeds iff consecutive blocks end and start at close points, and otherwise raises ValueError.", "quantifier": "all surfaces, resolutions", "why_tests_cant": "real equality", "anchors": ["pvgridder/core/_helpers.py:generate_volume_from_two_surfaces", "pvgridder/utils/_misc.py:merge"]}
{"id": "C40", "title": "Face extraction lists each distinct face once", "statement": "extract_cell_geometry lists each distinct vertex set among the faces (edges in 2D) of the cells exactly once in order of first occurrence, and its CellIds row lists exactly the cells having it.", "quantifier": "all meshes", "why_tests_cant": "all meshes", "anchors": ["pvgridder/utils/_misc.py:extract_cell_geometry"]}
{"id": "C41", "title": "Cell neighbourhood is symmetric face sharing", "statement": "On meshes where some face is shared and none by more than two cells, get_neighborhood lists for each cell exactly the cells sharing a face with it; the relation is symmetric.", "quantifier": "all meshes", "why_tests_cant": "all meshes", "anchors": ["pvgridder/utils/_connectivity.py:get_neighborhood"]}
{"id": "C42", "title": "Cell neighbourhood is total", "statement": "get_neighborhood succeeds on every mesh.", "quantifier": "all meshes", "why_tests_cant": "degenerate meshes", "anchors": ["pvgridder/utils/_connectivity.py:get_neighborhood"]}
{"id": "C43", "title": "Connectivity lines link neighbours", "statement": "get_connectivity has one line per shared face joining the centers of the two cells, and rejects custom centers of the wrong shape.", "quantifier": "all meshes", "why_tests_cant": "all meshes", "anchors": ["pvgridder/utils/_connectivity.py:get_connectivity"]}
{"id": "C44", "title": "Face tables are closed and consistently oriented", "statement": "For TETRA, PYRAMID, WEDGE, HEXAHEDRON and VOXEL with distinct vertices the faces used form a closed surface whose edges are traversed once in each direction.", "quantifier": "all vertex assignments", "why_tests_cant": "all id assignments", "anchors": ["pvgridder/utils/_misc.py:_celltype_to_faces", "pvgridder/utils/_misc.py:extract_cell_geometry"]}
{"id": "C45", "title": "Flattened connectivity is decodable", "statement": "The flattened connectivity of get_cell_connectivity (including polyhedra) determines the nested one: decoding gives back every cell.", "quantifier": "all meshes", "why_tests_cant": "all cell lists", "anchors": ["pvgridder/utils/_properties.py:get_cell_connectivity"]}
{"id": "C46", "title": "Mesh dimension", "statement": "get_dimension of a structured grid is the number of axes with more than one point; otherwise the maximum topological dimension of its cell types. Types out of the table and meshes without cells are rejected.", "quantifier": "all dimensions/type lists", "why_tests_cant": "all inputs", "anchors": ["pvgridder/utils/_properties.py:get_dimension", "pvgridder/utils/_properties.py:_dimension_map"]}
{"id": "C47", "title": "Extraction by dimension", "statement": "extract_cells_by_dimension keeps exactly the cells of dimension >= ndim ('upper') or <= ndim ('lower') in order, default ndim being the mesh dimension, dropping empty cells unless asked; invalid methods are rejected.", "quantifier": "all meshes, ndim, methods", "why_tests_cant": "all mixtures", "anchors": ["pvgridder/utils/_misc.py:extract_cells_by_dimension"]}
{"id": "C48", "title": "extract_cells restores the input", "statement": "extract_cells leaves the ghost array of the input as it was on every outcome including failure, and the ghost values of the output are those of the selected cells.", "quantifier": "all outcomes of the extraction", "why_tests_cant": "crash points", "anchors": ["pvgridder/utils/_misc.py:extract_cells"]}
{"id": "C49", "title": "get_cell_centers leaves the mesh unchanged", "statement": "get_cell_centers leaves the ghost array of the input as it was on every outcome.", "quantifier": "all outcomes", "why_tests_cant": "crash points", "anchors": ["pvgridder/utils/_properties.py:get_cell_centers"]}
{"id": "C50", "title": "Split lines are faithful", "statement": "split_lines yields per input line a line with the same points in order, local ids 0..n-1 (n-1 segments when split), and the cell data of the line.", "quantifier": "all polydata lines", "why_tests_cant": "all line lists", "anchors": ["pvgridder/utils/_misc.py:split_lines"]}
{"id": "C51", "title": "Merging lines preserves order and common data", "statement": "merge_lines yields, before VTK merges coincident points, the lines of all inputs in order (as segments or polylines) with the point and cell data present in all inputs aligned with them; merging the lines of a split mesh restores its lines; no input or no line is an error.", "quantifier": "all lists of lines", "why_tests_cant": "all list shapes", "anchors": ["pvgridder/utils/_misc.py:merge_lines"]}
{"id": "C52", "title": "Quadratic conversion", "statement": "quadraticize keeps the points, appends one midpoint per edge of each cell, and gives every cell its old ids followed by fresh consecutive ids in range; unsupported cells are rejected.", "quantifier": "all meshes", "why_tests_cant": "id arithmetic for all meshes", "anchors": ["pvgridder/utils/_misc.py:quadraticize"]}
{"id": "C53", "title": "Line reconstruction permutes the points", "statement": "reconstruct_line returns a permutation of the input ids starting at the given start, never longer than the input order rotated to the start.", "quantifier": "all point sets, tolerances, oracles", "why_tests_cant": "all 2-opt histories", "anchors": ["pvgridder/utils/_misc.py:reconstruct_line"]}
{"id": "C54", "title": "Line reconstruction terminates", "statement": "reconstruct_line terminates for every point set and tolerance.", "quantifier": "all inputs", "why_tests_cant": "termination", "anchors": ["pvgridder/utils/_misc.py:reconstruct_line"]}
{"id": "C55", "title": "Line reconstruction is 2-opt locally optimal", "statement": "When no improvement is reported, no reversal of a block not containing the start shortens the line.", "quantifier": "all point sets", "why_tests_cant": "all segments", "anchors": ["pvgridder/utils/_misc.py:reconstruct_line"]}
{"id": "C56", "title": "RDP decimation", "statement": "decimate_rdp returns a subsequence of the line with both endpoints, terminates for non-negative tolerance and every removed point is within tolerance of the segment between the two kept points around it.", "quantifier": "all lines, tolerances", "why_tests_cant": "recursion over all inputs", "anchors": ["pvgridder/utils/_misc.py:decimate_rdp"]}
{"id": "C57", "title": "Averaging points groups connected close points", "statement": "average_points merges exactly the points connected by chains of pairs within tolerance and replaces them by their mean; the map is idempotent.", "quantifier": "all point sets", "why_tests_cant": "transitive closure over all pair sets", "anchors": ["pvgridder/utils/_misc.py:average_points"]}
{"id": "C58", "title": "Averaged faces", "statement": "Faces keep their order, lose consecutive duplicates, are dropped iff fewer than three vertices remain, and record the original index.", "quantifier": "all face lists", "why_tests_cant": "all face lists", "anchors": ["pvgridder/utils/_misc.py:average_points"]}
{"id": "C59", "title": "Polygon offset distance", "statement": "Every vertex of an offset polygon lies at the given distance from the lines of both adjacent edges (when not parallel), on one side of the ring; a vertex is not a number exactly when one of its edges is empty, the edges fold back or the signed area used is zero.", "quantifier": "all polygons", "why_tests_cant": "real geometry", "anchors": ["pvgridder/utils/_misc.py:offset_polygon"]}
{"id": "C60", "title": "Polygon offset direction", "statement": "A positive distance moves every vertex outwards for every simple polygon.", "quantifier": "all polygons", "why_tests_cant": "depends on position", "anchors": ["pvgridder/utils/_misc.py:offset_polygon"]}
{"id": "C61", "title": "Polygon offset keeps the plane", "statement": "The offset polygon lies in the plane of the input.", "quantifier": "all planar polygons", "why_tests_cant": "all planes", "anchors": ["pvgridder/utils/_misc.py:offset_polygon"]}
{"id": "C62", "title": "Boundary polygons partition the boundary edges", "statement": "Every boundary polygon returned for a surface appears exactly once, either as outer ring or as hole of one polygon.", "quantifier": "all containment relations", "why_tests_cant": "all nestings", "anchors": ["pvgridder/utils/_misc.py:extract_boundary_polygons"]}
{"id": "C63", "title": "Polygon accepts open and closed rings", "statement": "Polygon builds the same geometry whether the ring repeats its first point or not.", "quantifier": "all rings", "why_tests_cant": "all inputs", "anchors": ["pvgridder/core/geometric_objects.py:Polygon"]}
{"id": "C64", "title": "The gmsh session is always closed", "statement": "Polygon clears and finalizes the gmsh session on every outcome after initialization (finalize is skipped only when clear itself fails).", "quantifier": "all failure points", "why_tests_cant": "crash points", "anchors": ["pvgridder/core/geometric_objects.py:Polygon"]}
{"id": "C65", "title": "Fusing cells", "statement": "fuse_cells keeps the unselected cells with their data in order and replaces every group by one cell at the position of its first member; non-2D meshes and groups with several boundaries are rejected.", "quantifier": "all meshes, selections", "why_tests_cant": "all selections incl. overlaps", "anchors": ["pvgridder/utils/_misc.py:fuse_cells"]}
{"id": "C66", "title": "Voronoi arrays stay aligned", "statement": "All per-point arrays of VoronoiMesh2D built from items have the same length and order, items being processed by ascending |priority| with insertion order kept on ties.", "quantifier": "all item lists", "why_tests_cant": "all priorities", "anchors": ["pvgridder/core/voronoi.py:VoronoiMesh2D.generate_mesh"]}
{"id": "C67", "title": "Voronoi priorities", "statement": "A point stays active iff no other item of dominating priority covers it.", "quantifier": "all item lists and cover relations", "why_tests_cant": "all overlaps", "anchors": ["pvgridder/core/voronoi.py:VoronoiMesh2D.generate_mesh"]}
{"id": "C68", "title": "Voronoi points outside the base are ignored", "statement": "Points of items outside the base mesh never become active.", "quantifier": "all items", "why_tests_cant": "items wholly outside", "anchors": ["pvgridder/core/voronoi.py:VoronoiMesh2D.generate_mesh"]}
{"id": "C69", "title": "Finite Voronoi regions reference valid vertices", "statement": "Regions returned by the tessellation reference existing vertices only, finite regions are kept and the vertices of the diagram are only appended to.", "quantifier": "all diagrams", "why_tests_cant": "all diagrams", "anchors": ["pvgridder/core/voronoi.py:VoronoiMesh2D._generate_voronoi_tesselation"]}
{"id": "C70", "title": "Voronoi cells are oriented", "statement": "Region orientation normalisation produces cells of one orientation for every polygon.", "quantifier": "all polygons", "why_tests_cant": "position dependent", "anchors": ["pvgridder/core/voronoi.py:VoronoiMesh2D"]}
{"id": "C71", "title": "Interactive selection toggles", "statement": "The selected ids are exactly those clicked an odd number of times, without duplicates, ordered by the click that selected them; the window shows the named view, from the other side after a minus sign.", "quantifier": "all click histories", "why_tests_cant": "all histories", "anchors": ["pvgridder/utils/_interactive.py:interactive_selection"]}
{"id": "C72", "title": "Lasso selection uses the view plane", "statement": "Lasso selection selects exactly the cells whose projected center is in the lasso for every view plane; the window shows the named view, from the other side after a minus sign.", "quantifier": "all meshes, views", "why_tests_cant": "view dependence", "anchors": ["pvgridder/utils/_interactive.py:interactive_lasso_selection"]}
{"id": "C73", "title": "Regular line", "statement": "RegularLine has resolution+1 points, starts and ends at the ends of the input line, and all its points lie on the input polyline at equally spaced curvilinear positions.", "quantifier": "all lines, resolutions", "why_tests_cant": "all polylines", "anchors": ["pvgridder/core/geometric_objects.py:RegularLine"]}
{"id": "C74", "title": "Linear interpolation of item elevations", "statement": "Interpolated elevations reproduce the data points, stay within the data range, and rejects bases whose endpoints leave the data range.", "quantifier": "all data", "why_tests_cant": "all knots", "anchors": ["pvgridder/core/_base.py:MeshStackBase._interpolate"]}
{"id": "C75", "title": "add_plane passes through the point", "statement": "The plane added by add_plane contains the given point and is affine; angles given by the caller are not modified.", "quantifier": "all angles, points", "why_tests_cant": "real geometry, aliasing", "anchors": ["pvgridder/core/stack.py:MeshStack3D.add_plane"]}
{"id": "C76", "title": "Extrusion translation and scaling", "statement": "Each added extrusion item is the previous one translated by the vector and scaled about its own center, so its center is the previous center plus the vector; vectors not of size 3 are rejected.", "quantifier": "all vectors, scales, meshes", "why_tests_cant": "all real inputs", "anchors": ["pvgridder/core/extrude.py:MeshExtrude.add"]}
{"id": "C77", "title": "Radius validation", "statement": "Objects built from radii reject non-positive or inconsistent radii.", "quantifier": "all radii", "why_tests_cant": "boundary values", "anchors": ["pvgridder/core/geometric_objects.py:AnnularSector", "pvgridder/core/geometric_objects.py:SectorRectangle", "pvgridder/core/geometric_objects.py:RectangleSector"]}
{"id": "C78", "title": "Version gate", "statement": "The version tests that select the polyhedron center formula agree with the numeric order of VTK versions.", "quantifier": "all version triples", "why_tests_cant": "string comparison", "anchors": ["pvgridder/utils/_properties.py:get_cell_centers"]}
{"id": "C79", "title": "Stack construction and added surfaces are validated", "statement": "A stack accepts exactly the axes 0, 1, 2 and structured base meshes with one point along the axis (else ValueError); arrays added must be n x 3 (else ValueError); each accepted add appends exactly one item on the base mesh with the given priority.", "quantifier": "all meshes, axes, arguments", "why_tests_cant": "all argument kinds", "anchors": ["pvgridder/core/_base.py:MeshStackBase.__init__", "pvgridder/core/_base.py:MeshStackBase.add"]}
{"id": "C80", "title": "Transition applies to the next item with the new base", "statement": "After set_transition(mesh) the next item added is the only transition item and it and later items are built on the new base mesh, for every kind of argument.", "quantifier": "all stacks, meshes, arguments", "why_tests_cant": "all orders of calls", "anchors": ["pvgridder/core/stack.py:MeshStack2D.set_transition", "pvgridder/core/_base.py:MeshStackBase.add"]}
{"id": "C81", "title": "add_plane inclination", "statement": "A plane added with angle t about the x axis is inclined by t degrees, i.e. its slope is tan t.", "quantifier": "all angles", "why_tests_cant": "real geometry", "anchors": ["pvgridder/core/stack.py:MeshStack3D.add_plane"]}
{"id": "C82", "title": "Groups of generated layers", "statement": "In a stacked or extruded structured mesh each cell carries the group of the item its layer belongs to: the item's own name if given, else the group of its base cell on the lower surface.", "quantifier": "all base meshes, items, axes", "why_tests_cant": "all combinations of groups", "anchors": ["pvgridder/core/_base.py:MeshStackBase._generate_mesh", "pvgridder/core/extrude.py:MeshExtrude.generate_mesh"]}
{"id": "C83", "title": "Extrusion items are similar", "statement": "Each added extrusion item is the image of the previous one by a similarity whose ratio is the scale, whatever the rotation.", "quantifier": "all vectors, scales, angles", "why_tests_cant": "real geometry", "anchors": ["pvgridder/core/extrude.py:MeshExtrude.add"]}
{"id": "C84", "title": "Face tables turn outward", "statement": "For every image of a VTK linear cell (TETRA, PYRAMID, WEDGE, HEXAHEDRON, VOXEL in VTK point order) by an affine map of positive determinant, the faces used by extract_cell_geometry turn outward: no vertex of the cell is in front of a face and some vertex is behind.", "quantifier": "all affine maps, all point ids", "why_tests_cant": "all shapes", "anchors": ["pvgridder/utils/_misc.py:_celltype_to_faces", "pvgridder/utils/_misc.py:extract_cell_geometry"]}
{"id": "C85", "title": "Unsupported cells are rejected", "statement": "extract_cell_geometry raises NotImplementedError for every mesh that has a cell type it does not support.", "quantifier": "all meshes", "why_tests_cant": "all cell types", "anchors": ["pvgridder/utils/_misc.py:extract_cell_geometry"]}
{"id": "C86", "title": "Tetrahedral center is geometric", "statement": "The 'tetra' center of a closed polyhedron does not depend on which vertex is used as apex, commutes with invertible affine maps, and lies in every half-space containing the vertices when the tetrahedra have volumes of one sign.", "quantifier": "all polyhedra, points, maps", "why_tests_cant": "real geometry", "anchors": ["pvgridder/utils/_properties.py:get_cell_centers"]}
{"id": "C87", "title": "Cell centers by method", "statement": "get_cell_centers has one row per cell: NaN for empty cells, VTK's center for cells that are not polyhedra, and for polyhedra either VTK's center or the middle of the bounds, the mean of the points or the volume weighted mean of the tetrahedra according to the method.", "quantifier": "all meshes", "why_tests_cant": "all mixes of cells", "anchors": ["pvgridder/utils/_properties.py:get_cell_centers"]}
{"id": "C88", "title": "Holes lie in their ring", "statement": "In the polygons returned with holes, the first edge is not inside another edge and the others are inside the first.", "quantifier": "all nestings of boundary edges", "why_tests_cant": "all nestings", "anchors": ["pvgridder/utils/_misc.py:extract_boundary_polygons"]}
{"id": "C89", "title": "Outline given to gmsh", "statement": "The points given to gmsh by Polygon are those of the rings, each once, and the lines join them exactly as the edges of the rings; the mesh is built from what gmsh returns before the session is closed.", "quantifier": "all rings, holes, engines and gmsh answers", "why_tests_cant": "external tool, all rings", "anchors": ["pvgridder/core/geometric_objects.py:Polygon"]}
{"id": "C90", "title": "Mesh size at the vertices", "statement": "Without cellsize the size at each vertex is the length of its longest edge (twice that for quads); with cellsize it is the given size (twice that for quads).", "quantifier": "all rings", "why_tests_cant": "real geometry", "anchors": ["pvgridder/core/geometric_objects.py:Polygon"]}
{"id": "C91", "title": "Cells of the gmsh mesh", "statement": "The cells returned by Polygon have the points of the nodes of the gmsh elements; lines and vertices are ignored.", "quantifier": "all gmsh answers", "why_tests_cant": "external numbering", "anchors": ["pvgridder/core/geometric_objects.py:Polygon"]}
{"id": "C92", "title": "Polygons accepted by offset_polygon", "statement": "offset_polygon with nonzero distance succeeds exactly when there is a face and every face has exactly one constant coordinate; otherwise it raises ValueError.", "quantifier": "all meshes, distances", "why_tests_cant": "all planes", "anchors": ["pvgridder/utils/_misc.py:offset_polygon"]}
{"id": "C93", "title": "Documented priority rule", "statement": "A point enclosed in a cell of an item of strictly higher priority is discarded, and a point is discarded only for that reason.", "quantifier": "all item lists, priorities", "why_tests_cant": "equal and negative priorities", "anchors": ["pvgridder/core/voronoi.py:VoronoiMesh2D.add"]}
{"id": "C94", "title": "Voronoi cell outlines", "statement": "The outline of each cell is the clipped region of its own point: finite regions keep their vertices, open regions are closed by points at the far radius on the rays of their ridges, sorted by angle around the point.", "quantifier": "all diagrams, items, clips", "why_tests_cant": "real geometry, all diagrams", "anchors": ["pvgridder/core/voronoi.py:VoronoiMesh2D.generate_mesh", "pvgridder/core/voronoi.py:VoronoiMesh2D._generate_voronoi_tesselation"]}
{"id": "C95", "title": "Annular sector nodes", "statement": "Node (i, j) of an AnnularSector is at angle theta_min + t_i (theta_max - theta_min) and radius inner + s_j (outer - inner) around the center.", "quantifier": "all radii, angles, subdivisions, centers", "why_tests_cant": "real geometry", "anchors": ["pvgridder/core/geometric_objects.py:AnnularSector"]}
{"id": "C96", "title": "Annulus and cylindrical shell are closed", "statement": "In Annulus and CylindricalShell with an integer theta resolution the last column of nodes coincides with the first.", "quantifier": "all radii, resolutions, methods", "why_tests_cant": "real geometry", "anchors": ["pvgridder/core/geometric_objects.py:Annulus", "pvgridder/core/geometric_objects.py:CylindricalShell"]}
{"id": "C97", "title": "Sector fan", "statement": "Sector is a fan of triangles from its center; triangles are counterclockwise when angles increase by less than 180 degrees.", "quantifier": "all radii, angles, subdivisions", "why_tests_cant": "real geometry", "anchors": ["pvgridder/core/geometric_objects.py:Sector", "pvgridder/core/geometric_objects.py:Circle"]}
{"id": "C98", "title": "Quadrilateral nodes", "statement": "Node (i, j) of Quadrilateral is the bilinear combination of its four corners with weights t_i and s_j.", "quantifier": "all corners, subdivisions, centers", "why_tests_cant": "real geometry", "anchors": ["pvgridder/core/geometric_objects.py:Quadrilateral"]}
{"id": "C99", "title": "Center of a rectangle", "statement": "The argument center of Rectangle is the center of the rectangle generated (as documented).", "quantifier": "all rectangles", "why_tests_cant": "real geometry", "anchors": ["pvgridder/core/geometric_objects.py:Rectangle"]}
{"id": "C100", "title": "Cylindrical shell nodes", "statement": "Nodes of CylindricalShellSector are at their angle and radius around the center and their heights extend from half the height below to half the height above it; a cell without volume is flagged, any other cell has the flag of the cell of the annular sector below it.", "quantifier": "all radii, angles, heights, subdivisions, centers", "why_tests_cant": "real geometry", "anchors": ["pvgridder/core/geometric_objects.py:CylindricalShellSector"]}
{"id": "C101", "title": "Centers of two or three coordinates", "statement": "Every object accepts a center of two or three coordinates and rejects other sizes with ValueError.", "quantifier": "all centers", "why_tests_cant": "all objects and sizes", "anchors": ["pvgridder/core/geometric_objects.py:AnnularSector", "pvgridder/core/geometric_objects.py:CylindricalShellSector", "pvgridder/core/geometric_objects.py:Sector", "pvgridder/core/geometric_objects.py:Rectangle"]}
{"id": "C102", "title": "Blocks of sector rectangles", "statement": "The nodes of the two blocks of SectorRectangle and RectangleSector lie on the segments from the arc to the sides and the blocks share the nodes of the diagonal.", "quantifier": "all sizes, subdivisions", "why_tests_cant": "real geometry", "anchors": ["pvgridder/core/geometric_objects.py:SectorRectangle", "pvgridder/core/geometric_objects.py:RectangleSector"]}
{"id": "C103", "title": "theta_method applies to the arc", "statement": "The nodes of the arc of SectorRectangle are at the positions given by theta_method.", "quantifier": "all methods", "why_tests_cant": "parameters not forwarded", "anchors": ["pvgridder/core/geometric_objects.py:SectorRectangle"]}
{"id": "C104", "title": "Cells of flat objects turn counterclockwise", "statement": "The cells of every flat object of increasing angles and positive sizes turn counterclockwise.", "quantifier": "all flat objects", "why_tests_cant": "orientation is not visible in tests of areas", "anchors": ["pvgridder/core/geometric_objects.py:Rectangle", "pvgridder/core/geometric_objects.py:AnnularSector", "pvgridder/core/geometric_objects.py:SectorRectangle"]}
{"id": "C105", "title": "Curved line", "statement": "CurvedLine starts at its origin, has resolution segments of equal length, total length |length|, and segment k is directed at the fraction (k+1/2)/n of the arc from start to end; without end it is straight; resolutions <= 0 are rejected.", "quantifier": "all origins, lengths, directions not opposite, resolutions", "why_tests_cant": "real geometry", "anchors": ["pvgridder/core/geometric_objects.py:CurvedLine"]}
{"id": "C106", "title": "Interpolation needs enclosing data", "statement": "Without extrapolation _interpolate succeeds exactly when all base points lie in the range of the data points.", "quantifier": "all data and base points", "why_tests_cant": "orders of points", "anchors": ["pvgridder/core/_base.py:MeshStackBase._interpolate"]}
{"id": "C107", "title": "Circles accepted", "statement": "add_circle accepts a circle exactly when the constraint radius is not less than the radius, and leaves the mesh unchanged when it raises.", "quantifier": "all radii, resolutions, centers, flags", "why_tests_cant": "all combinations of radii", "anchors": ["pvgridder/core/voronoi.py:VoronoiMesh2D.add_circle"]}
{"id": "C108", "title": "Circle boundary is a polygon of chords", "statement": "For every axis, the cell centers on both sides of each chord of an added circle are at equal distance from the ends of the chord, so that the Voronoi diagram has the chords as edges.", "quantifier": "all radii, centers, resolutions, axes", "why_tests_cant": "real geometry", "anchors": ["pvgridder/core/voronoi.py:VoronoiMesh2D.add_circle"]}
{"id": "C109", "title": "Plain circles", "statement": "With plain=True the cells fused are exactly those whose center is inside the circle that is drawn.", "quantifier": "all centers and radii", "why_tests_cant": "real geometry, all centers", "anchors": ["pvgridder/core/voronoi.py:VoronoiMesh2D.add_circle"]}
{"id": "C110", "title": "Group of a circle", "statement": "The cells inside an added circle are in the group given, or in the default group of the mesh if none is given, even after clipping.", "quantifier": "all groups, radii, options", "why_tests_cant": "nested merges", "anchors": ["pvgridder/core/voronoi.py:VoronoiMesh2D.add_circle"]}
{"id": "C111", "title": "Strip of a polyline", "statement": "add_polyline adds two items for each polyline, in order: cells between consecutive sections, each of the given width, centered on a point of the line and perpendicular to the chord of its neighbours; the line is prolonged by the constraint points, which repeat its end segments; the first item has the priority and the group given, the second has neither.", "quantifier": "all polylines, widths, paddings, constraints, resolutions, axes", "why_tests_cant": "real geometry, unbounded lines", "anchors": ["pvgridder/core/voronoi.py:VoronoiMesh2D.add_polyline"]}
{"id": "C112", "title": "Core of a polyline", "statement": "The first item of a polyline is exactly the strip between its first and last sections at the positions of the resolution, whatever the constraints.", "quantifier": "all polylines, constraints, resolutions", "why_tests_cant": "index masks over all sizes", "anchors": ["pvgridder/core/voronoi.py:VoronoiMesh2D.add_polyline"]}
{"id": "C113", "title": "Constraint cells mirror core cells", "statement": "Where the polyline is straight, the center of each constraint cell is the mirror image, in the shared edge, of the center of the core cell next to it, along both sides and across both ends of the strip.", "quantifier": "all polylines, widths, resolutions", "why_tests_cant": "real geometry", "anchors": ["pvgridder/core/voronoi.py:VoronoiMesh2D.add_polyline"]}
{"id": "C114", "title": "Preference of a polyline", "statement": "With preference 'point' the core centers are the points of the polyline; with preference 'cell' they are the centers of its segments (as documented).", "quantifier": "all polylines", "why_tests_cant": "documentation against geometry", "anchors": ["pvgridder/core/voronoi.py:VoronoiMesh2D.add_polyline"]}
{"id": "C115", "title": "Items lie in the plane", "statement": "add, add_circle and add_polyline only append items, all in the plane of the mesh, whatever the outcome of the call.", "quantifier": "all arguments, including failing calls", "why_tests_cant": "all calls", "anchors": ["pvgridder/core/voronoi.py:VoronoiMesh2D.add", "pvgridder/core/voronoi.py:VoronoiMesh2D.add_circle", "pvgridder/core/voronoi.py:VoronoiMesh2D.add_polyline"]}
{"id": "C116", "title": "add_polyline is atomic", "statement": "When add_polyline raises, the items of the mesh are unchanged.", "quantifier": "all polylines", "why_tests_cant": "failures in the middle of a loop", "anchors": ["pvgridder/core/voronoi.py:VoronoiMesh2D.add_polyline"]}
{"id": "C117", "title": "Intersection points of ray_cast", "statement": "Every intersection point returned by ray_cast lies on the ray and on the face or line it belongs to.", "quantifier": "all surfaces, rays, tolerances, angles", "why_tests_cant": "real geometry", "anchors": ["pvgridder/utils/_misc.py:ray_cast"]}
{"id": "C118", "title": "Selection of ray_cast", "statement": "ray_cast returns, in ascending order and with their original ids, exactly the faces met by the segment whose normal makes an angle less than max_angle with it, or all lines met if there is no face, None if there is none, and ValueError for polydata with faces and lines.", "quantifier": "all surfaces, rays, angles", "why_tests_cant": "real geometry, all orders of ids", "anchors": ["pvgridder/utils/_misc.py:ray_cast"]}
{"id": "C119", "title": "Arrays of intersect_polyline", "statement": "intersect_polyline returns one line id and one cell id per segment; line ids are in ascending order and number segments of the line; the first point of the line is kept unless points before entry are ignored.", "quantifier": "all meshes, lines, options", "why_tests_cant": "unbounded walks over cells", "anchors": ["pvgridder/utils/_misc.py:intersect_polyline"]}
{"id": "C120", "title": "Spacing of intersect_polyline", "statement": "Consecutive points are farther apart than tolerance, points farther apart than tolerance are not merged, and segments inside cells have at least min_length.", "quantifier": "all meshes, lines, tolerances", "why_tests_cant": "real geometry", "anchors": ["pvgridder/utils/_misc.py:intersect_polyline"]}
{"id": "C121", "title": "Cell ids of intersect_polyline", "statement": "Every segment returned has the id of the cell that contains it, or -1 if there is none, and ends at a vertex of the line or at an intersection with that cell.", "quantifier": "all meshes, lines", "why_tests_cant": "real geometry, all starting positions", "anchors": ["pvgridder/utils/_misc.py:intersect_polyline"]}
{"id": "C122", "title": "Cell data of intersect_polyline", "statement": "With pass_cell_data the cell data of the line are passed to the segments cut out of it.", "quantifier": "all lines and cell data", "why_tests_cant": "lines of several cells or of one", "anchors": ["pvgridder/utils/_misc.py:intersect_polyline"]}
{"id": "C123", "title": "Ignored points of intersect_polyline", "statement": "ignore_points_before_entry and ignore_points_after_exit remove exactly the segments before the line enters the mesh and after it leaves it.", "quantifier": "all lines", "why_tests_cant": "real geometry", "anchors": ["pvgridder/utils/_misc.py:intersect_polyline"]}
{"id": "C124", "title": "Last point of intersect_polyline", "statement": "The last point of the line is the last point returned unless points after exit are ignored.", "quantifier": "all lines", "why_tests_cant": "real geometry", "anchors": ["pvgridder/utils/_misc.py:intersect_polyline"]}
{"id": "C125", "title": "Termination of intersect_polyline", "statement": "intersect_polyline terminates.", "quantifier": "all meshes, lines, tolerances", "why_tests_cant": "non-termination cannot be observed by a test", "anchors": ["pvgridder/utils/_misc.py:intersect_polyline"]}
{"id": "C126", "title": "Outline of a transition", "statement": "The polygon given to gmsh for a transition between two lines goes once around the strip: the points of the lower line in order, then those of the upper line in reverse order.", "quantifier": "all lines, numbers of points, gmsh answers", "why_tests_cant": "external mesher, all sizes", "anchors": ["pvgridder/core/stack.py:MeshStack2D._extrude"]}
{"id": "C127", "title": "Transitions are cut alone", "statement": "A stack with transitions is cut into the transitions and the maximal runs of other items; the blocks of each depend only on the items of that part, and their sizes add up to the size of the mesh.", "quantifier": "all lists of items", "why_tests_cant": "all patterns of transitions", "anchors": ["pvgridder/core/_base.py:MeshStackBase.generate_mesh"]}
{"id": "C128", "title": "Building with transitions", "statement": "Lines of different numbers of points are accepted exactly around a transition, so that a stack built by set_transition and add always generates a mesh (if gmsh succeeds).", "quantifier": "all sequences of calls", "why_tests_cant": "all call histories", "anchors": ["pvgridder/core/_base.py:MeshStackBase.add", "pvgridder/core/stack.py:MeshStack2D.set_transition", "pvgridder/core/stack.py:MeshStack2D._extrude"]}
{"id": "C129", "title": "Kind of mesh with transitions", "statement": "Without transition the mesh is a structured grid, with a single transition and nothing else it is the mesh of gmsh, and otherwise it is the merge of the meshes of the parts as an unstructured grid.", "quantifier": "all lists of items", "why_tests_cant": "all patterns of transitions", "anchors": ["pvgridder/core/_base.py:MeshStackBase.generate_mesh", "pvgridder/utils/_misc.py:merge"]}
{"id": "C130", "title": "Groups of transition cells", "statement": "Cells of a transition are in the group given to its item or in the default group, and every group accepted for a regular item is accepted for a transition.", "quantifier": "all groups, gmsh answers", "why_tests_cant": "number of triangles decided by gmsh", "anchors": ["pvgridder/core/_base.py:MeshStackBase.generate_mesh", "pvgridder/core/_base.py:MeshBase._initialize_group_array"]}
{"id": "C131", "title": "Base line of a stack", "statement": "The line used by MeshStack2D and set_transition is the whole line given.", "quantifier": "all meshes of lines", "why_tests_cant": "all cell structures", "anchors": ["pvgridder/core/stack.py:MeshStack2D.__init__", "pvgridder/core/stack.py:MeshStack2D.set_transition"]}
{"id": "C132", "title": "Ghost cells of the returned mesh", "statement": "The mesh returned by a structured stack or extrusion flags exactly the cells without volume and the cells above flagged base cells; the flag array is absent when no cell is flagged.", "quantifier": "all base meshes, items, axes, volumes", "why_tests_cant": "cleaning happens after merging, all combinations", "anchors": ["pvgridder/core/_base.py:MeshBase._clean", "pvgridder/core/_base.py:MeshStackBase.generate_mesh", "pvgridder/core/extrude.py:MeshExtrude.generate_mesh"]}
{"id": "C133", "title": "Groups of the returned mesh", "statement": "In the mesh returned by a structured stack or extrusion every cell has a name, decided by the group argument of its item (none, string or dictionary of masks) and the cell of the lower surface below it; the table lists exactly the names in use, numbered without gaps.", "quantifier": "all base meshes, items, axes, group arguments", "why_tests_cant": "numbers are rewritten twice before the user sees them", "anchors": ["pvgridder/core/_base.py:MeshBase._clean", "pvgridder/core/_base.py:MeshBase._initialize_group_array", "pvgridder/core/_base.py:MeshStackBase.generate_mesh", "pvgridder/core/extrude.py:MeshExtrude.generate_mesh"]}
{"id": "C134", "title": "Cell data of the base in stacks", "statement": "The cell arrays of the mesh returned by a structured stack or extrusion are the identifiers, the groups and the arrays common to all lower surfaces; each cell has the value of the cell below it in the lower surface of its item.", "quantifier": "all base meshes, cell data, items, axes", "why_tests_cant": "composition of repetition and merging", "anchors": ["pvgridder/core/_base.py:MeshStackBase.generate_mesh", "pvgridder/core/extrude.py:MeshExtrude.generate_mesh", "pvgridder/utils/_misc.py:merge"]}
{"id": "C135", "title": "Point data of the base in stacks", "statement": "The point arrays of the base reach the mesh returned by a structured stack or extrusion, each point having the value of the base point of its column.", "quantifier": "all base meshes, point data, items", "why_tests_cant": "depends on the number of items", "anchors": ["pvgridder/core/_base.py:MeshStackBase.generate_mesh", "pvgridder/core/extrude.py:MeshExtrude.generate_mesh", "pvgridder/utils/_misc.py:merge"]}
{"id": "C136", "title": "Arrays of points", "statement": "Arrays of one or two dimensions whose points have two or three entries are accepted, other arrays are rejected with a ValueError and leave the mesh unchanged; two entries are the coordinates other than the axis, and VoronoiMesh2D.add makes one cell of each point, in the plane of the mesh.", "quantifier": "all arrays, axes", "why_tests_cant": "all shapes and axes", "anchors": ["pvgridder/core/_base.py:MeshBase._check_point_array", "pvgridder/core/voronoi.py:VoronoiMesh2D.add"]}
{"id": "C137", "title": "Base line from positions", "statement": "A base line given to MeshStack2D as positions lies along the documented axis, perpendicular to the stacking axis, with one segment per pair of consecutive positions.", "quantifier": "all axes, positions", "why_tests_cant": "documentation against code on each axis", "anchors": ["pvgridder/core/stack.py:MeshStack2D.__init__"]}
{"id": "C138", "title": "Transition to a number of cells", "statement": "set_transition(n) makes a line of n segments whose points are equally spaced along the current line, with the same ends; negative numbers below -1 are rejected.", "quantifier": "all lines, numbers", "why_tests_cant": "real geometry, unbounded lines", "anchors": ["pvgridder/core/stack.py:MeshStack2D.set_transition", "pvgridder/core/geometric_objects.py:RegularLine"]}
{"id": "C139", "title": "Default surface", "statement": "Without lines StructuredSurface is the unit square with nodes at the positions of the resolution.", "quantifier": "all planes, resolutions, methods", "why_tests_cant": "all subdivisions", "anchors": ["pvgridder/core/geometric_objects.py:StructuredSurface"]}
{"id": "C140", "title": "Half stadium", "statement": "load_half_stadium returns one convex polyhedron of resolution + 5 faces, closed, with all faces turned outwards, whose points are on the outline; resolutions below 1 are rejected.", "quantifier": "all resolutions", "why_tests_cant": "real geometry, all resolutions", "anchors": ["pvgridder/examples/examples.py:load_half_stadium"]}
{"id": "C141", "title": "Cells of the returned unstructured mesh", "statement": "In the mesh returned by a stack or an extrusion of unstructured surfaces there is exactly one cell above each base cell in each layer of each item; it is the wedge, hexahedron or polyhedron extruded from that base cell, its points are within the tolerance between the two surfaces at the positions of the layer, and its column, layer and item are those of its identifiers.", "quantifier": "all base meshes, items, axes, orders of appending, tolerances", "why_tests_cant": "unbounded meshes, external merge and clean", "anchors": ["pvgridder/core/_base.py:MeshStackBase.generate_mesh", "pvgridder/core/_base.py:MeshBase._clean", "pvgridder/core/extrude.py:MeshExtrude.generate_mesh", "pvgridder/utils/_misc.py:merge"]}
{"id": "C142", "title": "Groups of the returned unstructured mesh", "statement": "In the mesh returned by a stack or an extrusion of unstructured surfaces every cell has a name, decided by the group argument of its item and the base cell below it, whatever the order in which the blocks are appended; the table lists exactly the names in use.", "quantifier": "all base meshes, items, group arguments", "why_tests_cant": "numbers are rewritten twice before the user sees them", "anchors": ["pvgridder/core/_base.py:MeshBase._clean", "pvgridder/core/_base.py:MeshBase._initialize_group_array", "pvgridder/core/_base.py:MeshStackBase.generate_mesh", "pvgridder/core/extrude.py:MeshExtrude.generate_mesh"]}
{"id": "C143", "title": "Ghost cells of the returned unstructured mesh", "statement": "In the mesh returned by a stack or an extrusion of unstructured surfaces the cells above a base cell are flagged when they are flat in the first layer of the item, and otherwise have the flag of the base cell; where the two surfaces coincide at the vertices of a base cell all the cells above it are flagged; the array is absent when no cell is flagged.", "quantifier": "all base meshes, items", "why_tests_cant": "real geometry, all combinations", "anchors": ["pvgridder/core/_base.py:MeshBase._clean", "pvgridder/core/_base.py:MeshStackBase.generate_mesh", "pvgridder/core/extrude.py:MeshExtrude.generate_mesh"]}
{"id": "C144", "title": "Cell data of the base in unstructured stacks", "statement": "The cell arrays of the mesh returned by a stack or an extrusion of unstructured surfaces are the identifiers, the groups and the arrays common to all lower surfaces; each cell has the value of its base cell in the lower surface of its item.", "quantifier": "all base meshes, cell data, items", "why_tests_cant": "composition of repetition, merging and cleaning", "anchors": ["pvgridder/core/_base.py:MeshStackBase.generate_mesh", "pvgridder/core/extrude.py:MeshExtrude.generate_mesh", "pvgridder/utils/_misc.py:merge"]}
{"id": "C145", "title": "Nodes of a stack of lines", "statement": "The mesh returned by a stack of lines without transition is a structured grid whose rows at the ends of the items are the lines, after cutting, in the order of their segments, and whose rows between two lines are at the positions of the subdivision; where two items meet the points of the lower one are kept.", "quantifier": "all lines, items, axes, subdivisions", "why_tests_cant": "all axes, unbounded lines", "anchors": ["pvgridder/core/stack.py:MeshStack2D._extrude", "pvgridder/core/_base.py:MeshStackBase.generate_mesh", "pvgridder/utils/_misc.py:merge"]}
{"id": "C146", "title": "Cells of a stack of lines", "statement": "In the mesh returned by a stack of lines without transition each cell has the group, ghost flag, cell data and column of the segment below it in the lower line of its item, and the layer and item it is in.", "quantifier": "all lines, items, axes, group arguments", "why_tests_cant": "depends on the axis", "anchors": ["pvgridder/core/stack.py:MeshStack2D._extrude", "pvgridder/core/_base.py:MeshStackBase.generate_mesh", "pvgridder/core/_base.py:MeshBase._clean", "pvgridder/utils/_misc.py:merge"]}
{"id": "C147", "title": "Cells of the returned Voronoi mesh", "statement": "The mesh returned by VoronoiMesh2D has one cell per retained candidate point, in the order of the candidates and with its coordinates as X, Y, Z; candidates inside a later item are not retained, and without circles and without minimum length every other candidate is; the group of a cell is named as its candidate, and the table lists exactly the names in use.", "quantifier": "all base meshes, items, diagrams, circles", "why_tests_cant": "unbounded meshes, external tessellation", "anchors": ["pvgridder/core/voronoi.py:VoronoiMesh2D.generate_mesh", "pvgridder/core/_base.py:MeshBase._clean", "pvgridder/utils/_misc.py:fuse_cells"]}
{"id": "C148", "title": "Circles of the returned Voronoi mesh", "statement": "In the mesh returned by VoronoiMesh2D the cells with their center in a circle are replaced by one cell, the polygon around them, in the place of the first of them and with its data; the other cells keep their polygon and data; a mesh is returned exactly when every circle has such cells and they form one polygon.", "quantifier": "all base meshes, items, diagrams, circles", "why_tests_cant": "circles overlapping or not, external boundaries", "anchors": ["pvgridder/core/voronoi.py:VoronoiMesh2D.generate_mesh", "pvgridder/core/voronoi.py:VoronoiMesh2D.add_circle", "pvgridder/utils/_misc.py:fuse_cells"]}
{"id": "C149", "title": "Cells of merged meshes", "statement": "MeshMerge.generate_mesh returns a mesh with exactly one cell for each cell of each mesh added; the cell has the same type and its points are within the tolerance of where they were, in the same order; without meshes a ValueError is raised, and otherwise a mesh is returned.", "quantifier": "all meshes, groups, orders of appending, tolerances", "why_tests_cant": "unbounded meshes, external merge and clean", "anchors": ["pvgridder/core/merge.py:MeshMerge.generate_mesh", "pvgridder/core/merge.py:MeshMerge.add", "pvgridder/core/_base.py:MeshBase._clean"]}
{"id": "C150", "title": "Groups of merged meshes", "statement": "In the mesh returned by MeshMerge a cell has the name it had in its mesh unless that name is ignored, and otherwise the group given with its mesh or the default group; the table lists exactly the names in use.", "quantifier": "all meshes, tables of groups, ignored groups", "why_tests_cant": "numbers are rewritten twice before the user sees them", "anchors": ["pvgridder/core/merge.py:MeshMerge.generate_mesh", "pvgridder/core/_base.py:MeshBase._initialize_group_array", "pvgridder/core/_base.py:MeshBase._clean"]}
{"id": "C151", "title": "Cell data of merged meshes", "statement": "The cell arrays of the mesh returned by MeshMerge are the groups and the arrays that all meshes have, each cell having its value.", "quantifier": "all meshes, cell data", "why_tests_cant": "unbounded meshes, all combinations of arrays", "anchors": ["pvgridder/core/merge.py:MeshMerge.generate_mesh", "pvgridder/core/_base.py:MeshBase._clean"]}
{"id": "C152", "title": "Ghost cells of merged meshes", "statement": "In the mesh returned by MeshMerge a cell is flagged as it was in its mesh.", "quantifier": "all meshes, flags", "why_tests_cant": "all combinations of meshes with and without flags", "anchors": ["pvgridder/core/merge.py:MeshMerge.generate_mesh", "pvgridder/core/_base.py:MeshBase._clean"]}
{"id": "C153", "title": "Areas of flat objects", "statement": "The cells of a Rectangle, an AnnularSector and a Sector have together the area of the rectangle, of the region between the inscribed polylines and of the inscribed polygon; no cell of a SectorRectangle with equal subdivisions is folded, and with the quarter of disc it has the area of the rectangle.", "quantifier": "all sizes, angles, subdivisions, centers", "why_tests_cant": "real geometry, sums over unbounded meshes", "anchors": ["pvgridder/core/geometric_objects.py:Rectangle", "pvgridder/core/geometric_objects.py:AnnularSector", "pvgridder/core/geometric_objects.py:Sector", "pvgridder/core/geometric_objects.py:SectorRectangle"]}
{"id": "C154", "title": "Objects that fit together", "statement": "Rings with the same angular subdivision, a sector and a ring, a quarter of ring and a SectorRectangle, and a SectorRectangle and the rectangles beside it share the nodes where they meet, so that they can be merged.", "quantifier": "all sizes, subdivisions, centers", "why_tests_cant": "real geometry, exact coincidence", "anchors": ["pvgridder/core/geometric_objects.py:AnnularSector", "pvgridder/core/geometric_objects.py:Sector", "pvgridder/core/geometric_objects.py:SectorRectangle", "pvgridder/core/geometric_objects.py:Rectangle"]}
{"id": "C155", "title": "Merged polygons", "statement": "When the meshes given to MeshMerge are made of polygons, the mesh returned shows the same polygons with the names of their groups, up to the order of the cells and the tolerance; when no point is moved, the area of every group is the sum of its areas in the meshes.", "quantifier": "all meshes of polygons, groups, orders of appending, tolerances", "why_tests_cant": "unbounded meshes, external merge and clean", "anchors": ["pvgridder/core/merge.py:MeshMerge.generate_mesh", "pvgridder/core/_base.py:MeshBase._clean"]}
{"id": "C156", "title": "Mesh of a well", "statement": "load_well_2d returns 704 polygons named Core, Casing, Cement and Matrix; up to the tolerances the corners of those of a group are between the radii of the group and in the square of side 20, and when no point is moved the groups have the areas of nested regular polygons of 32 sides in this square; the groups have 64, 32, 128 and 480 triangles or quadrilaterals.", "quantifier": "all orders of appending, tolerances", "why_tests_cant": "real geometry, composition of eleven objects and two merges", "anchors": ["pvgridder/examples/examples.py:load_well_2d", "pvgridder/core/geometric_objects.py:SectorRectangle", "pvgridder/core/merge.py:MeshMerge.generate_mesh"]}
{"id": "C157", "title": "Prisms over polygons", "statement": "The volume between a plane polygon given by its corners and its translate, as in load_concave_polyhedron and load_half_stadium, is one closed polyhedron with one face per edge and two ends; its faces enclose the area of the polygon times the height, turned outwards exactly when the first corner turns like the polygon.", "quantifier": "all polygons, resolutions", "why_tests_cant": "real geometry, concave polygons", "anchors": ["pvgridder/examples/examples.py:load_concave_polyhedron", "pvgridder/examples/examples.py:load_half_stadium", "pvgridder/core/_helpers.py:generate_volume_from_two_surfaces"]}
{"id": "C158", "title": "Anticline", "statement": "load_anticline_2d returns a structured grid of 41 columns and 14 rows of cells; its nodes are at equal distances between the horizons 0, 1 + cos x, 3/2 + cos x, 2 + cos x, 5/2 + cos x cut by 3.4, and 3.4, its cells are named after their layers, and the flagged cells are the 20 cells of the last layer above the crest.", "quantifier": "all area measures that vanish exactly on flat cells, all point data", "why_tests_cant": "real geometry, composition of stacking, cutting and cleaning", "anchors": ["pvgridder/examples/examples.py:load_anticline_2d", "pvgridder/core/stack.py:MeshStack2D._extrude", "pvgridder/core/_base.py:MeshStackBase._generate_mesh", "pvgridder/core/_base.py:MeshBase._clean"]}
{"id": "C159", "title": "Nodes of structured stacks", "statement": "The nodes of the mesh returned by a stack or an extrusion of structured surfaces are on the lines between the corresponding points of consecutive surfaces, at the positions of the subdivision; with a number of layers n, the k-th node after a surface is at k/n of the way to the next surface.", "quantifier": "all base meshes, items, axes, subdivisions", "why_tests_cant": "all sizes and axes, composition of blocks and merging", "anchors": ["pvgridder/core/_base.py:MeshStackBase.generate_mesh", "pvgridder/core/extrude.py:MeshExtrude.generate_mesh", "pvgridder/utils/_misc.py:merge"]}
{"id": "C160", "title": "Extrusion by successive moves", "statement": "MeshExtrude(surface).add(v1, n1).add(v2, n2)....generate_mesh() returns a grid of n1 + n2 + ... layers whose nodes are the points of the surface displaced by the previous vectors and k/n of the current one; its cells have the name given by the group of the call, and a cell is flagged when it has no volume or when the cell of the surface is.", "quantifier": "all surfaces, sequences of calls, groups by name", "why_tests_cant": "unbounded sequences of calls", "anchors": ["pvgridder/core/extrude.py:MeshExtrude.__init__", "pvgridder/core/extrude.py:MeshExtrude.add", "pvgridder/core/extrude.py:MeshExtrude.generate_mesh"]}
{"id": "C161", "title": "Anticline in three dimensions", "statement": "load_anticline_3d returns a grid of 41 by 10 by 14 cells whose nodes are those of load_anticline_2d repeated every 0.628 along y; its cells are named after their layers, and the flagged cells are the 200 cells of the last layer above the crest.", "quantifier": "all area and volume measures that vanish exactly on flat cells, all point data", "why_tests_cant": "real geometry, composition of stacking, cutting, cleaning and extruding", "anchors": ["pvgridder/examples/examples.py:load_anticline_3d", "pvgridder/core/extrude.py:MeshExtrude.generate_mesh", "pvgridder/core/_base.py:MeshBase._clean"]}
{"id": "C162", "title": "Stacking by successive calls", "statement": "MeshStack3D(mesh, axis, bottom_up).add(...)....generate_mesh() returns a grid with the layers asked by the calls after the first; in each column the surfaces are at the elevations given by the calls (a scalar for the first call or an offset from the previous surface as it was added, a function of the point of the base mesh, an interpolation) moved apart by priority and minimum thickness, and the nodes are between them at the positions of the subdivisions; a cell is named after the group of its call. The cell arrays of the mesh are repeated in every layer, its point arrays only when there are two calls; a cell without volume in the layers of its call is flagged, the others have the flag of the cell of the mesh; along the third axis the identifiers of a cell are its column, its layer and its call. Meshes that are not surfaces, axes along which the mesh is not flat, arrays that are not rows of three numbers and fewer than two calls raise a ValueError.", "quantifier": "all structured surfaces, axes, sequences of calls, groups by name", "why_tests_cant": "unbounded sequences of calls", "anchors": ["pvgridder/core/stack.py:MeshStack3D.__init__", "pvgridder/core/stack.py:MeshStack3D.generate_mesh", "pvgridder/core/_base.py:MeshStackBase.__init__", "pvgridder/core/_base.py:MeshStackBase.add", "pvgridder/core/_base.py:MeshStackBase.generate_mesh"]}
{"id": "C163", "title": "Topographic terrain", "statement": "load_topographic_terrain returns a grid of 40 by 40 by 10 cells in one group; its columns are at every tenth pixel of the image from (500, 400) to (900, 800), from 0, or from the terrain where it is lower, up to the terrain, with layers in logarithmic progression, finer at the top.", "quantifier": "all images large enough, all interpolators that give back their data", "why_tests_cant": "real geometry, composition of interpolation, cutting and subdivision; the image is downloaded", "anchors": ["pvgridder/examples/examples.py:load_topographic_terrain", "pvgridder/core/stack.py:MeshStack3D.generate_mesh", "pvgridder/core/_base.py:MeshStackBase.add", "pvgridder/core/_base.py:MeshStackBase._interpolate"]}
{"id": "C164", "title": "Extrusion of unstructured surfaces by successive moves", "statement": "MeshExtrude(surface).add(v1, r1).add(v2, r2)....generate_mesh() on an unstructured surface returns exactly one cell for each cell of the surface, layer and call; it is the cell extruded from that cell, its points being within the tolerance of the points of the surface displaced by the previous vectors and the fractions of the current one; it has the name given by the group of the call and the cell data of the cell of the surface; it is flagged when the first layer of the call cannot be told from a flat one, else it has the flag of the cell of the surface. Meshes with volumes or without faces, calls with vectors that have not three coordinates and no call at all raise a ValueError.", "quantifier": "all surfaces, sequences of calls, groups, resolutions, orders of appending, tolerances", "why_tests_cant": "unbounded sequences of calls, external merge and clean", "anchors": ["pvgridder/core/extrude.py:MeshExtrude.__init__", "pvgridder/core/extrude.py:MeshExtrude.add", "pvgridder/core/extrude.py:MeshExtrude.generate_mesh"]}
{"id": "C165", "title": "Mesh of a well in three dimensions", "statement": "load_well_3d returns 7328 wedges and hexahedra: above every polygon of load_well_2d ten layers of thickness 3 between -30 and 0, and above those named Core and Casing three more layers of thickness 1; every cell has the name of its polygon and its points are within the tolerance of the corners of the polygon at the two heights of its layer; ColumnId, LayerId and ExtrudeItem tell its polygon, its layer and its part.", "quantifier": "all orders of appending, tolerances, extraction filters", "why_tests_cant": "composition of merging, extruding, naming and extracting", "anchors": ["pvgridder/examples/examples.py:load_well_3d", "pvgridder/core/extrude.py:MeshExtrude.generate_mesh", "pvgridder/utils/_misc.py:extract_cells"]}
{"id": "C166", "title": "Stacking on unstructured surfaces by successive calls", "statement": "MeshStack3D(mesh, axis, bottom_up).add(...)....generate_mesh() on an unstructured surface returns exactly one cell for each cell of the surface, layer and call after the first; it is the cell extruded from that cell, its points being within the tolerance of the points between the two elevations of the layer, which follow from the arguments of the calls as for structured surfaces; it has the name given by the group of the call and the cell data of the cell of the surface; it is flagged when the first layer of the call cannot be told from a flat one, else it has the flag of the cell of the surface. Meshes with volumes or without faces, other axes, fewer than two calls and arrays that are not rows of three numbers raise a ValueError.", "quantifier": "all surfaces, axes, sequences of calls, groups, resolutions, orders of appending, tolerances", "why_tests_cant": "unbounded sequences of calls, external merge and clean", "anchors": ["pvgridder/core/stack.py:MeshStack3D.__init__", "pvgridder/core/stack.py:MeshStack3D.generate_mesh", "pvgridder/core/_base.py:MeshStackBase.__init__", "pvgridder/core/_base.py:MeshStackBase.add", "pvgridder/core/_base.py:MeshStackBase.generate_mesh"]}
{"id": "C167", "title": "Voronoi meshes by successive calls", "statement": "VoronoiMesh2D(mesh, axis).add(...).add_circle(...).add_polyline(...)....generate_mesh() returns one cell per retained point among the centers of the background cells and of the cells drawn by the calls (the given meshes and points, the sectors and rings of circles, the strips of polylines, all in the plane of the mesh), named after the group of the call; every plain circle that shares no cell with another becomes one polygon around the cells whose center is at less than its radius from its center, the others staying as they were; a call with invalid arguments makes the program fail, with the error of the first such call (a ValueError for a constraint radius outside [r, 2r)).", "quantifier": "all programs, axes, background meshes, geometries", "why_tests_cant": "compositions of calls of any length", "anchors": ["pvgridder/core/voronoi.py:VoronoiMesh2D.add", "pvgridder/core/voronoi.py:VoronoiMesh2D.add_circle", "pvgridder/core/voronoi.py:VoronoiMesh2D.add_polyline", "pvgridder/core/voronoi.py:VoronoiMesh2D.generate_mesh"]}
{"id": "C168", "title": "Stacking lines by successive calls", "statement": "MeshStack2D(line, axis, bottom_up).add(...)....generate_mesh() returns a structured grid with one column of cells per segment of the line (positions along the axis after the stacking axis, or the first line of a polydata) and the layers asked by the calls after the first; in each column the nodes are between the elevations given by the calls, moved apart by priority and minimum thickness, at the positions of the subdivisions; a cell is named after the group of its call or else has the default group, whatever the groups of the polydata; the other cell arrays are those of the polydata, with the value of its first line everywhere; a cell without area is flagged and the others have the flag of the line; along the second and third axes the identifiers of a cell are its segment, its layer and its call. Polydata without lines, other axes, fewer than two calls and arrays that are not rows of three numbers raise a ValueError.", "quantifier": "all lines, axes, sequences of calls without transitions, groups by name", "why_tests_cant": "unbounded sequences of calls", "anchors": ["pvgridder/core/stack.py:MeshStack2D.__init__", "pvgridder/core/stack.py:MeshStack2D.generate_mesh", "pvgridder/core/_base.py:MeshStackBase.__init__", "pvgridder/core/_base.py:MeshStackBase.add", "pvgridder/utils/_misc.py:split_lines"]}
{"id": "C169", "title": "Stacking lines with transitions by successive calls", "statement": "MeshStack2D(line, axis, bottom_up).add(...)....set_transition(...).add(...)....generate_mesh() joins one block for each call of add after the first. A call right after a transition makes the triangles of gmsh in the outline formed by the last line before it and the first line after it, with column -1 and one layer; the other calls make the grid between their line and the previous one, subdivided as asked. A transition replaces the base line by points at equal distances along it or by the first line of a polydata; after a transition the elevations follow from the calls of the same base line only, moved apart by priority and minimum thickness. A cell is named after the group of its call, else it has the default group; along the second and third axes the identifiers of a cell of a grid are its segment, its layer counted from the first call, and its call. A transition to a polydata without lines raises an IndexError.", "quantifier": "all lines, axes, sequences of calls and transitions, groups by name, no scalar right after a transition", "why_tests_cant": "unbounded sequences of calls, external triangulation and merge", "anchors": ["pvgridder/core/stack.py:MeshStack2D.set_transition", "pvgridder/core/stack.py:MeshStack2D._transition", "pvgridder/core/stack.py:MeshStack2D.generate_mesh", "pvgridder/core/_base.py:MeshStackBase.add", "pvgridder/core/_base.py:MeshStackBase._generate_mesh"]}
{"id": "C170", "title": "Mesh of stacks of lines with transitions", "statement": "generate_mesh() of a MeshStack2D with transitions returns one unstructured mesh. It has exactly one cell for each cell of the blocks between consecutive lines: the quadrilaterals of a strip, with corners on the lines between corresponding points at the positions of the subdivision, and the triangles given by gmsh for a transition, in the outline formed by the two lines (without its last point when the lines start at the same point). Its points are within the tolerance of theirs. A cell is named after the group of its call, else it has the default group, and the table has the names in use. StackItem is the rank of the call, LayerId counts the subdivisions of all blocks (a transition is one), ColumnId is -1 in transitions. There is no other cell array, each exists once, and no cell is flagged if a transition has a cell.", "quantifier": "all lines, axes, sequences of calls and transitions, groups by name, orders of appending, tolerances", "why_tests_cant": "unbounded sequences of calls, external triangulation, merge and clean", "anchors": ["pvgridder/core/stack.py:MeshStack2D.generate_mesh", "pvgridder/core/_base.py:MeshStackBase._generate_mesh", "pvgridder/core/_base.py:MeshBase._clean", "pvgridder/utils/_misc.py:merge"]}
{"id": "C171", "title": "Flags of stacks of lines with transitions", "statement": "A collapsed cell of the mesh returned by a MeshStack2D with transitions is flagged, as it is without transitions.", "quantifier": "all lines, axes, sequences of calls and transitions", "why_tests_cant": "unbounded sequences of calls, external triangulation and merge", "anchors": ["pvgridder/core/stack.py:MeshStack2D.generate_mesh", "pvgridder/core/_base.py:MeshStackBase._generate_mesh", "pvgridder/utils/_misc.py:merge"]}
{"id": "C172", "title": "Volumes of extruded cells", "statement": "The wedges and hexahedra made from triangles, quadrilaterals and pixels by generate_volume_from_two_surfaces, MeshExtrude and MeshStack3D have the volume above their polygon, cut into triangles from its first corner, each triangle having the mean height of the layer at its three corners; with one displacement this is the area of the polygon seen along it times the fraction of the layer. The sign is that of the turn of the polygon. extract_cell_geometry finds the faces of these cells turned outwards, a closed surface when the points are distinct.", "quantifier": "all surfaces, displacements, elevations, subdivisions, sequences of calls", "why_tests_cant": "real geometry, unbounded meshes and calls", "anchors": ["pvgridder/core/_helpers.py:generate_volume_from_two_surfaces", "pvgridder/core/extrude.py:MeshExtrude.generate_mesh", "pvgridder/core/stack.py:MeshStack3D.generate_mesh", "pvgridder/utils/_misc.py:extract_cell_geometry"]}
{"id": "C173", "title": "Volumes of the well", "statement": "When no point is moved by the cleaning, the cells of load_well_3d named Core, Casing, Cement and Matrix have together the volumes of nested prisms over regular polygons of 32 sides, of height 33 for Core and Casing and 30 for Cement and Matrix, the last one in a square of side 20.", "quantifier": "all orders of appending, extraction filters", "why_tests_cant": "real geometry, sums over 7328 cells", "anchors": ["pvgridder/examples/examples.py:load_well_3d", "pvgridder/core/extrude.py:MeshExtrude.generate_mesh", "pvgridder/core/merge.py:MeshMerge.generate_mesh"]}
{"id": "C174", "title": "Errors on degenerate inputs", "statement": "quadraticize raises a ValueError on a mesh without cells, reconstruct_line an IndexError on a closed line without points, remap_categorical_data a KeyError on a missing array (and changes nothing), interactive_selection an IndexError on a selection without original ids, Quadrilateral an IndexError on less than four corners, VoronoiMesh2D.generate_mesh a ValueError when the diagram has no vertices, and extract_cell_geometry, get_neighborhood and get_connectivity a ValueError when all faces are collapsed.", "quantifier": "all such inputs", "why_tests_cant": "error paths behind any valid prefix of inputs", "anchors": ["pvgridder/utils/_misc.py:quadraticize", "pvgridder/utils/_misc.py:reconstruct_line", "pvgridder/utils/_misc.py:remap_categorical_data", "pvgridder/utils/_interactive.py:interactive_selection", "pvgridder/core/geometric_objects.py:Quadrilateral", "pvgridder/core/voronoi.py:VoronoiMesh2D.generate_mesh"]}
{"id": "C175", "title": "Columns fill the space between surfaces", "statement": "The cells that MeshExtrude makes above one cell of the surface have together the volume swept by the sum of the displacements, and those that MeshStack3D makes above one cell of an unstructured surface have together the volume between the first and the last surface above it: nothing is counted twice and nothing is left out, whatever the subdivisions.", "quantifier": "all surfaces of triangles, quadrilaterals and pixels, sequences of calls, subdivisions from 0 to 1", "why_tests_cant": "real geometry, unbounded sequences of calls", "anchors": ["pvgridder/core/extrude.py:MeshExtrude.generate_mesh", "pvgridder/core/stack.py:MeshStack3D.generate_mesh", "pvgridder/core/_base.py:MeshStackBase.generate_mesh"]}
{"id": "C176", "title": "Areas of stacks of lines", "statement": "In the grid returned by MeshStack2D(line, axis, bottom_up).add(...)....generate_mesh() the cell of a segment of the line and a layer is a trapezium between two columns of nodes: seen along any direction, its area is the mean of the two thicknesses of the call there, times the fraction of the layer, times the width of the segment across the stacking axis. The cells of a segment have together the area between the first and the last line.", "quantifier": "all lines, axes, sequences of calls without transitions, segments, layers", "why_tests_cant": "real geometry, unbounded sequences of calls", "anchors": ["pvgridder/core/stack.py:MeshStack2D.generate_mesh", "pvgridder/core/_base.py:MeshStackBase.generate_mesh", "pvgridder/core/_helpers.py:generate_surface_from_two_lines"]}
{"id": "C177", "title": "Volumes of stacks of structured surfaces", "statement": "In the grid returned by MeshStack3D(mesh, axis, bottom_up).add(...)....generate_mesh() on a structured surface, the hexahedron of a cell of the surface and a layer has the volume between the two surfaces of its call above that cell (the cell cut into two triangles, each with the mean thickness at its corners) times the fraction of the layer. The cells above one cell of the surface have together the volume between the first and the last surface.", "quantifier": "all structured surfaces, axes, sequences of calls, layers", "why_tests_cant": "real geometry, unbounded sequences of calls", "anchors": ["pvgridder/core/stack.py:MeshStack3D.generate_mesh", "pvgridder/core/_base.py:MeshStackBase.generate_mesh", "pvgridder/core/_helpers.py:generate_volume_from_two_surfaces"]}
{"id": "C178", "title": "Extrusion of structured surfaces with scales and angles", "statement": "In MeshExtrude(mesh, scale, angle).add(...)....generate_mesh() on a structured surface each call makes the next surface from the last: moved along the vector, scaled and turned in degrees around the vector about the moved middle of its box, by the scale and angle of the call or else those of the constructor. The nodes of the grid are at the fractions of each call between consecutive surfaces; cells have the names given by their call, the arrays and flags of the cell of the surface below them, and flag 32 if their block says they have no volume.", "quantifier": "all structured surfaces, scales, angles, sequences of calls, resolutions", "why_tests_cant": "real geometry with rotations, unbounded sequences of calls", "anchors": ["pvgridder/core/extrude.py:MeshExtrude.add", "pvgridder/core/extrude.py:MeshExtrude.generate_mesh", "pvgridder/core/_base.py:MeshStackBase.generate_mesh"]}
{"id": "C179", "title": "Extrusion of unstructured surfaces with scales and angles", "statement": "The same on an unstructured surface: the mesh has one cell per cell of the surface and layer, whose points are, up to the tolerance of clean, at the fractions of the call between the surface before the call and the one it makes (moved, scaled, turned); cells have the names given by their call, the arrays and flags of the cell of the surface, and flag 32 if the first layer cannot be told from a flat one.", "quantifier": "all unstructured surfaces, scales, angles, sequences of calls, resolutions", "why_tests_cant": "real geometry with rotations, unbounded sequences of calls", "anchors": ["pvgridder/core/extrude.py:MeshExtrude.add", "pvgridder/core/extrude.py:MeshExtrude.generate_mesh", "pvgridder/core/_base.py:MeshStackBase.generate_mesh"]}
{"id": "C180", "title": "Voronoi meshes exist", "statement": "With the diagram that scipy returns (every point has a region with a vertex, open regions have a ridge), VoronoiMesh2D.generate_mesh without plain circles returns a mesh: the only error is a ValueError, raised for an invalid polygon or for a mesh without points, which takes an empty intersection with the boundary or averaged vertices.", "quantifier": "all background meshes, items, diagrams, tolerances", "why_tests_cant": "unbounded meshes and diagrams; oracle behaviour", "anchors": ["pvgridder/core/voronoi.py:VoronoiMesh2D.generate_mesh", "pvgridder/core/voronoi.py:VoronoiMesh2D._generate_voronoi_tesselation"]}
{"id": "C181", "title": "Mesh of a well with Voronoi cells", "statement": "load_well_2d(voronoi=True) returns cells for some of the 704 polygons of load_well_2d(), in their order: the cell data X and Y are the center of the polygon (Z is 0), the name of the cell is that of the polygon, names are numbered from 0 and all used; when no vertices are averaged all 704 are there.", "quantifier": "all behaviours of VTK, SciPy and shapely that meet their description", "why_tests_cant": "depends on libraries that can return different meshes", "anchors": ["pvgridder/examples/examples.py:load_well_2d", "pvgridder/core/voronoi.py:VoronoiMesh2D.generate_mesh"]}
{"id": "C182", "title": "Mesh of a well in three dimensions with Voronoi cells", "statement": "load_well_3d(voronoi=True) has above every polygon of load_well_2d(voronoi=True) ten layers of thickness 3 from -30 to 0 and, above those named Core and Casing, three layers of thickness 1 up to 3; cells are wedges, hexahedra or polyhedra over their polygon and have its name and its X, Y and Z, ColumnId, LayerId and ExtrudeItem tell the polygon, the layer and the part, and no cell is flagged; 7328 cells when no vertices are averaged. Without a cell named Cement or without one named Matrix it raises KeyError.", "quantifier": "all behaviours of VTK, SciPy and shapely that meet their description", "why_tests_cant": "depends on libraries that can return different meshes", "anchors": ["pvgridder/examples/examples.py:load_well_3d", "pvgridder/core/extrude.py:MeshExtrude.generate_mesh", "pvgridder/utils/_misc.py:extract_cells"]}
{"id": "C183", "title": "Voronoi cells and nearest seeds", "statement": "When scipy returns the Voronoi diagram of the seeds, the region that _generate_voronoi_tesselation builds for a seed (also the unbounded ones, closed at a finite distance) and the cell of the mesh made from it, if no vertices are averaged, only contain points that are at least as near to that seed as to any other, hence two cells only share points at the same distance of both seeds; and the region contains its seed.", "quantifier": "all diagrams, seeds, background meshes, positive values of infinity", "why_tests_cant": "real geometry, unbounded numbers of seeds", "anchors": ["pvgridder/core/voronoi.py:VoronoiMesh2D._generate_voronoi_tesselation", "pvgridder/core/voronoi.py:VoronoiMesh2D.generate_mesh"]}
{"id": "C184", "title": "Neighbours in structured grids", "statement": "On a structured grid of nx by ny by nz hexahedra, or of nx by ny quadrilaterals, with more than one cell, get_neighborhood gives to every cell exactly the cells one step away along one axis, each once, and get_connectivity draws exactly one line between any two such cells, from the first to the second. The same holds for the grid cast to an unstructured one.", "quantifier": "all sizes, all cells; no face or edge has zero measure", "why_tests_cant": "unbounded sizes", "anchors": ["pvgridder/utils/_connectivity.py:get_neighborhood", "pvgridder/utils/_connectivity.py:get_connectivity", "pvgridder/utils/_misc.py:extract_cell_geometry"]}
{"id": "C185", "title": "Faces of structured grids", "statement": "On a structured grid of nx by ny by nz hexahedra with more than one cell, extract_cell_geometry returns (nx+1) ny nz + nx (ny+1) nz + nx ny (nz+1) faces: every face of the lattice exactly once, with the ids of the two cells beside it in increasing order, or of the only one followed by -1 on the boundary; on nx by ny quadrilaterals it returns the (nx+1) ny + nx (ny+1) edges, with the same ids.", "quantifier": "all sizes, all faces; no face or edge has zero measure", "why_tests_cant": "unbounded sizes", "anchors": ["pvgridder/utils/_misc.py:extract_cell_geometry"]}
{"id": "C186", "title": "Neighbours in volumes between two surfaces", "statement": "On a surface of triangles, quadrilaterals, pixels and polygons where no side belongs to three cells, get_neighborhood gives to every cell exactly the cells with a common side, each once. In the volume that generate_volume_from_two_surfaces makes from such a surface, it gives to the cell above cell c in layer l exactly the cells above c in the layers just below and above, and the cells of layer l above the neighbours of c on the surface; get_connectivity draws one line between any two neighbours, from the first to the second.", "quantifier": "all conforming surfaces, all pairs of surfaces, all resolutions, wedges, hexahedra and polyhedra; no face has zero area", "why_tests_cant": "unbounded sizes and shapes of the surface", "anchors": ["pvgridder/core/_helpers.py:generate_volume_from_two_surfaces", "pvgridder/utils/_connectivity.py:get_neighborhood", "pvgridder/utils/_connectivity.py:get_connectivity", "pvgridder/utils/_misc.py:extract_cell_geometry"]}
{"id": "C187", "title": "Faces of volumes between two surfaces", "statement": "On the volume that generate_volume_from_two_surfaces makes with n layers from a surface of nc cells with s sides, extract_cell_geometry returns (n+1) nc + n s faces: every cell of the surface at every level and what lies above every side in every layer, exactly once. The row of the first kind has the cells of the column below and above, -1 standing for none; that of the second kind has the one or two cells of the layer above the cells with this side, in increasing order. On the surface itself it returns the s sides, each with its one or two cells.", "quantifier": "all conforming surfaces with two neighbours somewhere, all pairs of surfaces, all resolutions; no face has zero area", "why_tests_cant": "unbounded sizes and shapes of the surface", "anchors": ["pvgridder/core/_helpers.py:generate_volume_from_two_surfaces", "pvgridder/utils/_misc.py:extract_cell_geometry"]}
{"id": "C188", "title": "Neighbours in meshes of lines", "statement": "On a mesh of lines and polylines get_neighborhood gives to every line the lines with which it shares an end, and get_connectivity draws a line between them.", "quantifier": "all meshes of lines", "why_tests_cant": "unbounded numbers of lines; the tests only use surfaces and volumes", "anchors": ["pvgridder/utils/_connectivity.py:get_neighborhood", "pvgridder/utils/_connectivity.py:get_connectivity", "pvgridder/utils/_misc.py:extract_cell_geometry"]}
{"id": "C189", "title": "Lines through a mesh without shared faces", "statement": "intersect_polyline on a mesh of one cell, or of cells without a common face, cuts the line where it enters and leaves the cell.", "quantifier": "all lines, all cells", "why_tests_cant": "unbounded lines; oracle behaviour; the tests only use meshes of several cells", "anchors": ["pvgridder/utils/_misc.py:intersect_polyline", "pvgridder/utils/_misc.py:extract_cell_geometry"]}
{"id": "C190", "title": "Neighbours and connectivity agree", "statement": "On every mesh, with or without collapsed faces, get_neighborhood and get_connectivity (given one center per cell) both succeed or raise the same error; the neighbours of a cell are exactly the other ends of the lines at this cell, in the order of the lines and as often.", "quantifier": "all meshes, all answers of VTK about collapsed faces", "why_tests_cant": "unbounded meshes, two loops written separately", "anchors": ["pvgridder/utils/_connectivity.py:get_neighborhood", "pvgridder/utils/_connectivity.py:get_connectivity"]}
