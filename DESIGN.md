# Formal model of pyvista-gridder in Rocq (Coq 8.16.1)

## 1. Method

* The model is a shallow embedding: every Python function under study becomes
  a total, computable Gallina function written branch by branch after the
  source; every definition cites file and lines of `/repo`.
* Exceptions are values: `res A := Ok a | Err e` (`exn` lists the Python
  exception classes that matter).
* In-place mutation becomes a returned new value; functions that mutate their
  arguments return the mutated argument as well, so that "the input is
  unchanged" is a statement about the model.
* Loops are structural recursion or folds.  `while` loops use fuel; running
  out of fuel is a distinct outcome which theorems exclude or characterise.
* External code (VTK/PyVista filters, SciPy KDTree/Voronoi, gmsh, shapely) is
  an argument of the model (an oracle, a `Section` variable that becomes a
  universally quantified parameter).  Theorems hold for every oracle, or for
  every oracle satisfying a hypothesis stated in the theorem.
* Floating point numbers are modelled by real numbers (`R`) in geometric code
  and by rationals where only comparisons and sums matter.  Rounding is not modelled.
* Python ints are `nat`/`Z` (unbounded).  NumPy `int64` overflow and the
  `int8`/`uint8` width of ghost arrays are not modelled.

How to read `seeded/LOG.jsonl`: in most entries `failed` was not obtained by
recompiling every theorem.  The mutated copy is rebuilt until the first lemma
that no longer compiles and on which a theorem depends; `failed` lists all the
theorems whose proofs use this lemma, found in the `.glob` files.  A listed
theorem has therefore lost its proof script; it need not have become false, and
theorems that fail for another reason are not listed.  Whether the broken claim
is in the statement of a listed theorem was judged by reading it, and only for
some entries by repairing the scripts (the entry on `as_surface` is one where
this showed that no listed theorem stated the claim).  Entries on `through` and
`walk` of Cast_model, and those marked "tried again" on unstructured stacks,
combine several failing lemmas.  In about 80 entries, most of them early, none
of the listed theorems has the number given in `claim`: there the number is
mistaken, or the theorem of that number was not reached; the text of the claim
is what was tried.

## 2. Layout of `rocq/theories`

For each area `X`: `X_model.v` (definitions only), `X_spec.v` (independent
specification vocabulary), `X_proof.v` (lemmas), `X_props.v` (final theorems,
`exact lemma`, `Print Assumptions`, and an `Example` for non-vacuity).
`Prelude.v`, `Grid.v`, `RealAux.v` hold shared vocabulary and lemmas.

| area | source | properties |
|---|---|---|
| Perc | `core/_helpers.py` resolution_to_perc, generate_line…, generate_arc | C01–C05 |
| Surface | `core/_helpers.py` generate_surface_from_two_lines | C06–C08 |
| Volume | `core/_helpers.py` generate_volume_from_two_surfaces, repeat_structured_data | C09–C16 |
| Groups | `core/_base.py` MeshBase, `core/merge.py`, `utils/_misc.py` remap_categorical_data, `utils/_properties.py` get_cell_group | C17–C29 |
| Stack | `core/_base.py` MeshStackBase, `core/stack.py`, `core/extrude.py`, `utils/_misc.py` merge | C30–C39, C75–C76, C79–C83 |
| Topology | `utils/_misc.py` extract_cell_geometry, extract_cells…, `utils/_connectivity.py`, `utils/_properties.py` | C40–C49, C78, C84–C87 |
| Lines | `utils/_misc.py` split_lines, merge_lines, quadraticize, reconstruct_line, decimate_rdp, average_points | C50–C58 |
| Polygon | `utils/_misc.py` offset_polygon, extract_boundary_polygons, fuse_cells, `core/geometric_objects.py` Polygon | C59–C65, C88–C92 |
| Voronoi | `core/voronoi.py` | C66–C70, C93–C94 |
| Seeds | `core/voronoi.py` add, add_circle, add_polyline | C107–C116 |
| Cast, Trip | `utils/_misc.py` ray_cast, intersect_polyline | C117–C125 |
| Trans | `core/stack.py` MeshStack2D (transitions), `core/_base.py` generate_mesh | C126–C131, C35, C39 |
| Input | `core/_base.py` _check_point_array, `core/stack.py` MeshStack2D.__init__, set_transition | C136–C138 |
| Final, Unstr, Line | `core/_base.py` generate_mesh and _clean, `core/extrude.py`, `core/stack.py`: the mesh returned | C132–C135, C141–C144, C145–C146 |
| VFinal | `core/voronoi.py` generate_mesh: the mesh returned | C147–C148 |
| VProg | `core/voronoi.py`: sequences of add, add_circle and add_polyline ended by generate_mesh | C167 |
| Pile, Pile2, Pile3, Pile4, Pile5 | `core/stack.py`, `core/_base.py`: sequences of add and set_transition ended by generate_mesh | C162, C166, C168 to C171 |
| Bulk, Bulk2, Bulk3 | volumes and faces of the cells of `MeshExtrude`, `MeshStack3D` and `load_well_3d` | C172, C173, C175 |
| Bulk4 | areas and volumes of the cells of structured stacks | C176, C177 |
| Reject | errors on degenerate inputs | C174 |
| Spin, Spin2 | programs of MeshExtrude with scales and angles | C178, C179 |
| VDef | meshes that VoronoiMesh2D builds | C180 |
| Well4, Well5, Well6, Well7 | the wells of the examples with Voronoi cells | C181, C182 |
| Nearest | distances to the seeds in the cells of Voronoi meshes | C183 |
| Lattice | neighbours, lines and faces in structured grids | C184, C185 |
| Strata | neighbours in volumes extruded from a surface | C186 |
| Sides | faces of volumes extruded from a surface | C187 |
| Unpack, Single | meshes where no face has two cells: errors | C42, C188, C189 |
| Agree | get_neighborhood against get_connectivity | C190 |
| Hidden | rows and neighbours in meshes with collapsed faces | C40, C41, C42, C43 |
| Shell | flags of cylindrical shells | C100 |
| Interactive | `utils/_interactive.py` | C71–C72 |
| Objects | `core/geometric_objects.py`, `MeshStackBase._interpolate` | C73–C74, C77, C95–C106 |

## 3. Properties: what is modelled and how it is proved

Status words: *proved* = full statement; *partial* = the full statement is
false of the code (a `_refuted` theorem gives the witness) and a `_partial`
theorem gives the part that holds, or only a part is expressible.

(Section 5 lists the code that is modelled, section 6 the theorems of each property with its status, section 7 the assumptions of each theorem.)

* C01–C03: closed form of the sorted positions; uniqueness of sorted permutations; monotonicity of `ln`.
* C04–C05: pointwise real identities (`field`, `sin2_cos2`).
* C06–C10: functional 3-D arrays + Fortran ravel; index law `i + nx*(j + ny*k)`.
* C07: full statement false for planes yx/zx/zy (data tiled in line-major order while the level index is fastest).
* C11–C16: VTK cell stream as a list; edges of faces as multisets; convexity for orientation; full statements of C13, C14, C15 are false.
* C17–C29: insertion-ordered association lists as Python dicts; semantics through "name of a cell"; C21, C22, C25, C29 false in general.
* C30–C33: per-column real elevations, fold over consecutive pairs; C31–C33 false in general; `settled` and
  `settled_down` (Settle_spec) state the exact law of the fold for one column.
* C34–C39: list arithmetic; blocks and their merge composed; C35 false for structured axes 0 and 1.
* C79–C83: case analysis of `add`; Rodrigues rotation; C80 and C81 false in general.
* C40–C45: folds building the face table (invariant over insertion-ordered entries); multiset of directed edges. The size of a face (VTK) is an oracle; C40–C43 are false when collapsed faces are dropped, because the columns of ids are then filtered by `np.ptp`.
* C46–C49: case analysis, ghost arrays with crash outcomes; C46, C47 and C49 false in general.
* C84: sign of the determinants of the parametric cells, carried by affine maps.
* C85: case analysis; false in 3D.
* C86–C87: sums over fan triangles; antisymmetric edge terms cancel on closed surfaces.
* C50–C52: positional lemmas on lists of ids ("values met along a cell"); the final `merge_points()`, `clean()` of VTK are not modelled.
* C53–C55: `while True` with fuel; 2-opt passes as a fold of accepted flips; termination by the geometric decrease of the length and the triangle inequality. C54 and C55 are false in general.
* C56: recursion with fuel (out of fuel = RecursionError); Lagrange identity for the distance to a line. False for the distance to the segment.
* C57–C58: invariant of the group table (= connected components) for any list of pairs KDTree may return; directed edges of faces.
* C59–C65: real geometry; fold of containment; C60, C61 false in general, C65 false for overlapping groups.
* C63–C64, C89–C91: calls of gmsh as a trace, the answer of gmsh (tag or failure) is a function of the calls made so far; C91 false for gmsh numberings other than 1..N.
* C88, C92: fold over ordered pairs of edges (C88 false for nesting of depth two); axis found from constant coordinates.
* C66–C70, C93–C94: stable sort, masks, loop invariant over candidates; far points as points of rays; C68, C70 and C93 false in general. SciPy Voronoi, find_containing_cell, shapely are oracles.
* C71–C72: fold over click history; C72 false in general.
* C73–C77: real geometry; C73 by induction on the polyline (position met at a distance), C74 by induction on the knots; C75 and C77 false in part.
* C95–C104: closed forms of the nodes (polar, bilinear); C99, C101, C103 and C104 false in general.
* C105: spherical interpolation (inner products with both directions), normalised mean of consecutive directions.
* C106: decision on the first and last points only; false in general.
* C107–C110: the fan, the two rings and their merge composed from the models of Objects and Groups; equal distances from the ends of a chord. False in part (see the `_refuted` theorems).
* C111–C113: invariant of the three parallel lists (points, forward and backward directions) under the prolongations; node = point of the line plus a multiple of the unit normal; uniqueness of the unit normal of a direction.
* C114–C116: centers as means of four vertices; C114 (the documentation) and C116 are false.
* C117–C118: faces are centers with unit normals, lines are pairs of points, division by zero is None (NaN);
  the cells met by the segment are an oracle. C117 is false for a line parallel to the ray.
* C119–C125: the loop of intersect_polyline with fuel (None: not finished), `ray_cast` on one cell, the neighbours
  of a face, `find_cells_intersecting_line` and `find_containing_cell` as oracles. C119, the spacing of C120, the
  sources of C121 and the order of C123 are invariants that hold for all oracles. Ids (C121), options (C123), the
  last point (C124) and termination (C125) are proved with the oracles of a row of cells cut by parallel planes, for
  one segment that enters it; each is false in general, shown by computation on such a row. They are also proved
  for polylines and arbitrary oracles (`Trip_spec.v`): an inductive relation says, from the answers of VTK, which faces
  the line crosses; induction on it shows that the loop returns exactly these points, segments and cells, provided the
  line enters the mesh by the cell with the nearest center and the points are farther apart than the tolerances.
* C126–C127: the items are cut at the transitions by a loop; invariant of the accumulated blocks; gmsh is an oracle of the calls (C63).
* C128–C129: case analysis of `add`; the two merges (structured or `pv.merge`) distinguished by the kind of the blocks; C128 is false
  for a scalar added right after a transition.
* C130–C131: composition with the models of groups (C17–C29) and of split_lines (C50); both false in general.
* C132–C135: blocks, groups and merge of structured stacks and extrusions composed with `_clean`; every cell of the result is
  traced to a cell of the lower surface of its item. C135 is false from three items on.
* C136–C138: case analysis of shapes of arrays; C137 false along X and Y; C138 uses the positions along a line of C73.
* C139–C140: closed forms of the nodes; convexity of the outline for the orientation of the faces.
* C141–C144: as C132–C134 for unstructured surfaces; `pv.merge` appends the blocks in any order (a permutation),
  merging points that coincide and keeping the arrays (and flags) that all blocks have; `clean` renames points within the tolerance.
* C145–C146: composition of C06–C08, split_lines (C50), transitions (C126) and C132–C135 for stacks of lines; C146 false along x.
* C147–C148: composition of C66–C70, C93–C94 with fuse_cells (C65) and `_clean` (C23); the boundary found by
  extract_boundary_polygons and the centers are parameters. C148 is false for circles sharing a cell.
* C149–C152: invariant of the loop of MeshMerge: where each cell of the mesh comes from (mesh, cell), kept by each merge in either
  order; then C24–C29 for the groups and `_clean`. C152 is false when a mesh has no flags.
* C153–C154: closed forms of the nodes (C95–C102); the areas are telescoping sums, the sign of the cells of SectorRectangle
  follows from m sin m + cos m >= 1 on [0, pi/4].
* C155–C156: C149–C150 read as lists of named polygons; C156 applies them twice, to the eleven objects (C95–C103, C153) and to
  the four quarter turns, which keep zones and areas.
* C157: sum of the oriented volumes under the faces of a prism; translation invariance and orthogonality of the vector area of a
  plane ring. C13_enclosed_partial is the general law.
* C158: the stack of load_anticline_2d in closed form (C31_elevations), then C145–C146 for nodes and names and C132-style flags;
  the cells of the crest are found from cos on [0, pi].
* C159: C132–C133 give blocks and layers; here their points, by induction over the merge along the axis (C36).
* C160: the sequence of calls unfolds to the items of C159 (translation by partial sums of the vectors), then C132–C133.
* C161: C158 as base of one move of C160; the base of the extrusion is well formed because the mesh of a stack of three or more
  lines has no point data.
* C162: the sequence of calls unfolds to items with the elevations of the relation `heights`, by induction on the calls; then
  C159 for the nodes and C31–C32 (`settled`) for the elevations after cutting, C133 for the groups.
* C163: one instance of C162; the interpolation at the columns of the mesh itself gives back the warped elevations because these
  columns are distinct and not aligned.
* C164: the sequence of calls is unrolled to the list of items of C141 and C142, each of them the surface moved by the sum of the
  vectors so far; the groups are those of any argument of `add`.
* C165 (Well7 proof, by `raise_ok` of Well5): one instance of C164 on the mesh of C156 (which is shown to be made of triangles and quadrilaterals with one flag, group number and
  row of data per cell); the numbers of Cement and Matrix in the table of the mesh of C156 select the cells of the upper part that get the
  name Inactive, and the number of Inactive in the table of the extrusion those that are removed.
* C166: the calls are unrolled as for C162 to items of C141 and C142, with the elevations of the relation `settled_heights` in each column;
  the flags and the cell data are those of C143 and C144 for these items (`Pile2_proof`).
* C167: the relation `leaves` gives the items and the balls of each call; the calls are unrolled to the lists of items and
  functions of C147–C148, whose hypothesis on the items follows from the arguments.
* C168: the calls are unrolled as in C162 (`Pile_proof.made`, generic in the kind of mesh); the base line is the first line
  cut by `split_lines`, whose cells make one strip; the cells are those of C145–C146 for these items, where the constant
  arrays of the line make the order of reading along X harmless.
* C169: a program is cut at its transitions into runs of calls on one base line (`Pile4_spec.runs`); every run is unrolled as
  in C168, and the cut of the surfaces is independent in each run (C127), so that the lines of a run follow from its calls
  (`Pile4_proof.run_cut`). The loop over pairs of lines is inverted by `Trans1_proof.gen_blocks`: a strip or a mesh of
  triangles for each call (`Pile4b_proof.blocks_between`). What `_clean` does with the joined mesh is not
  modelled here.
* C170, C171: the strips are cast to quadrilaterals and appended to the triangles by `pv.merge` (`Pile5_model.merge_mixed`);
  `Gather_proof` follows the cells of any list of meshes with arrays through `pv.merge`, the renumbering of groups and `clean`,
  and `Pile5b_proof.assembled` applies it to the blocks of C169. VTK keeps an array only when all the meshes have it, hence the
  flags are lost next to triangles: C171 is false.
* C172, C173: volumes are sums over the faces (`Encl_spec.enclosed_volume`) of the cells with the faces that the code's own table
  gives (`Bulk_spec.outer_faces`, C172_faces). The formula follows by algebra from the positions of the corners given by
  C11, C164 and C166 with tolerance 0. For the well, the places of C165 are counted polygon by polygon and the areas of C156 are
  multiplied by the heights of the stacks.
* C174: each function is followed up to the error by computation, for all the inputs before it.
* C175: the volumes of C172 are summed layer by layer (`Bulk3_proof.column_sum`): the fractions of a call add up to one, the
  elevations of successive calls telescope.
* C176, C177: the positions of the nodes given by C168 and C162 are put in one function of the number of the layer
  (`Bulk4_proof.heights_at`, continuous from one call to the next because subdivisions go from 0 to 1); areas and volumes of single
  cells follow by algebra and their sums telescope.
* C178, C179: the surfaces are described by a relation (`Spin_spec.swept`) that says what a call does to the points: the middle of the
  box by `box_middle`, the rotation by `turned` (the part along the vector stays, the rest turns). The proof identifies the items of the
  program with the surfaces of `extrude_add` and reuses the general theorems on items (C132-C138).
* C180: the points that are left exist, the tessellation is defined (C69), averaging keeps the numbers of vertices in range (C58), so that
  only the checks of the polygons and of the points can fail.
* C181, C182: C147 on the mesh of C156 without items; the candidates are the centers of the 704 polygons and none of them is covered. The
  three-dimensional part is C164 on the mesh of polygons, with the same argument as C165 for any base mesh with these names (`raise_ok`);
  `Well4_spec.column` is a cell of C11 with the points of the polygon numbered from 0.
* C183: on top of C69 and C94. The inequality between two squared distances is affine, so it is enough to have it at the vertices of the region; at
  a far vertex it follows from the ray being orthogonal to the side of the hull and pointing away from the mean of the seeds. The last part is
  false: with the seeds (0, 0), (4000, 1), (4000, -1) the region of the first one has all its vertices at x > 900.
* C184: on top of C41 and C43. Every face of a lattice of hexahedra (edge of a lattice of quadrilaterals) has a key, its axis and its lower corner;
  two faces have the same set of points exactly when they have the same key, a key belongs to at most two cells and two cells have at most one key in
  common. For any mesh with such keys the neighbours of a cell are the cells that have a key in common with it, each listed once, and the lines join
  them once. The cast of a structured grid is not modelled, its cells are given by the point ids of VTK (`hexahedra`, `quadrilaterals` of Lattice_spec.v).
* C185: with the keys of C184; the faces returned are in bijection with the keys, numbered axis by axis for the count, and the row of a face lists
  the cells that have its key in increasing order.
* C186: with the keys of C184. A face above the surface has for key its cell and level, or its side and layer; points are numbered level by level, so
  that the set of points of a face determines its key. The cells of the volume are those of C11, whose faces are those of C40 up to order.
* C187: with the keys of C186 and the count of C185; the sides of the surface are a list given by the caller, since their number is not a function of the
  number of cells; C187_sides shows that there is one for every surface.
* C188, C189: arrays with one column are read back from VTK as flat arrays, so that the rows of
  `vtkOriginalCellIds` are then numbers: unpacking them or looking into them raises TypeError (`neighbor_loop`,
  `connectivity_lines`, `through`). Arrays left without columns by remove_ghost are an error of the model too. C188:
  statement about ends kept in `C188_lines_refuted`; C189: the mesh appears only by the answers of VTK, `sides` having
  one id.
* C78: string order against numeric order; false for two-digit components.

## 4. Trusted base

* Coq 8.16.1 kernel; no plugin, no kernel check switched off.
* Axioms: only those of the standard library of real numbers
  (`ClassicalDedekindReals.sig_forall_dec`, `ClassicalDedekindReals.sig_not_dec`,
  `FunctionalExtensionality.functional_extensionality_dep`, and
  `Classical_Prop.classic`, used by the standard library for `ln`, trigonometry
  and for the choice-free sup of reals) for theorems over `R`; all others are closed under the global context.
* The reading of the Python source by the author of the model.

## 5. Which parts of the code are modelled

Every definition of a `*_model.v` file cites the lines it models.  Common to all: floating point numbers are
real numbers (no rounding, NaN or infinity unless a definition says so), NumPy integers do not overflow,
`copy`, active scalars, type annotations and imports are not represented.

### core/_helpers.py

| function | model | not modelled |
|---|---|---|
| generate_arc | `Perc_model` | |
| generate_line_from_two_points | `Perc_model` | |
| generate_surface_from_two_lines | `Surface_model` | cell areas are an oracle (VTK) |
| generate_volume_from_two_surfaces | `Volume_model`, structured and unstructured branch | cell volumes are an oracle (VTK); ImageData and RectilinearGrid are taken as already cast |
| resolution_to_perc | `Perc_model` | |
| repeat_structured_data | `Volume_model` | |
| translate | `Objects_model.translate` | |

### core/_base.py

| function | model | not modelled |
|---|---|---|
| MeshItem | `Stack_model.item`, `Voronoi_model.vitem`, `Groups_model.merge_item` | attributes set dynamically |
| MeshBase.__init__ | `Groups_model.mk_options` | |
| MeshBase._check_point_array | `Input_model.check_point_array`, `Seeds_model.check_row`, `Voronoi_model.insert_axis` | data types of arrays |
| MeshBase._initialize_group_array, _get_group_number | `Groups_model` | values that are neither str, sequence, callable nor array |
| MeshBase._clean | `Groups_model.clean_groups`, `Final_model.clean_ghost`, `clean_grid`, `finish`, `Unstr_model.finish_unstructured` | `mesh.clean` of VTK (oracle) |
| MeshStackBase.__init__ | `Stack_model.stack_init` | |
| MeshStackBase.add | `Stack_model.stack_add` | |
| MeshStackBase._generate_mesh | `Stack_model.stack_generate` (cut_loop, gen_loop, merge) | broadcasting of a single point |
| MeshStackBase._interpolate | `Objects_model` | the two SciPy interpolators are parameters |
| properties | fields of the records | |

### core/stack.py, core/extrude.py, core/merge.py

| function | model | not modelled |
|---|---|---|
| MeshStack2D.__init__, set_transition | `Trans_model.base_line`, `transition_line`, `Input_model.stack2d_line`, `new_line` | |
| MeshStack2D.generate_mesh, _transition | `Stack_model.stack2d`, `Final_model.stack2d_mesh`, `Trans_model`, `Pile3_model.stack2d_program`, `Pile4_model.transition_program`, `Pile5_model.transition_mesh` | gmsh is an oracle of its calls |
| MeshStack3D.__init__ | `Stack_model.stack_init` | get_dimension: `Topo_model` |
| MeshStack3D.add_plane | `Stack_model.add_plane` | |
| MeshStack3D.generate_mesh | `Stack_model.stack3d_structured`, `stack3d_unstructured`, `Pile_model.stack3d_program`, `Pile2_model.stack3d_uprogram` | pv.merge of unstructured grids is an oracle |
| MeshStack3D._extrude | | never called |
| MeshExtrude.__init__, add, generate_mesh | `Stack_model.extrude_add`, `extrude_structured`, `extrude_unstructured`, `Sweep_model.extrude_program`, `Sweep2_model.extrude_uprogram` | pv.merge as above |
| MeshMerge.add, generate_mesh | `Groups_model.merge_generate`, `MMerge_model.merge_mesh` | pv.merge appends the meshes in either order |

### core/voronoi.py

| function | model | not modelled |
|---|---|---|
| VoronoiMesh2D.__init__ | `Voronoi_model.vbase` | |
| add, add_circle, add_polyline | `Seeds_model` | negative constraints; zero vectors (NaN) |
| generate_mesh | `Voronoi_model` (scatter, shorten, polygons, assemble), `VFinal_model` (polygon_mesh, finish_voronoi, generate_voronoi), `VProg_model` (chained calls) | SciPy, shapely, find_containing_cell, get_cell_centers, get_dimension, extract_boundary_polygons and clean are oracles |
| _compute_signed_area | `Voronoi_model.signed_area` | |
| _generate_voronoi_tesselation | `Voronoi_model.tessellation` | Qhull is an oracle |

### core/geometric_objects.py

| function | model | not modelled |
|---|---|---|
| AnnularSector, Annulus, Circle, CylindricalShell, CylindricalShellSector, Quadrilateral, Rectangle, RectangleSector, Sector, SectorRectangle, SectorSquare, Square, SquareSector | `Objects_model` | the final clean() or merge of VTK |
| CurvedLine, RegularLine | `Objects_model` | |
| Polygon | `Polygon_model.polygon` | gmsh is an oracle of its calls |
| StructuredSurface, Volume | `Input_model.StructuredSurface`, `Volume_model` | |

### utils

| function | model | not modelled |
|---|---|---|
| get_neighborhood, get_connectivity | `Topo_model` | |
| interactive_selection, interactive_lasso_selection | `Interactive_model` (callbacks) | the plotter |
| average_points | `Lines_model` | KDTree pairs are an oracle; clean() |
| decimate_rdp | `Lines_model` | clean() |
| extract_boundary_polygons | `Polygon_model` | extraction of the edges and shapely's contains are parameters |
| extract_cell_geometry | `Topo_model` | sizes of faces are an oracle (VTK) |
| extract_cells, extract_cells_by_dimension | `Topo_model` | extraction of VTK is an oracle |
| fuse_cells | `Polygon_model` | outline of the fused cells is an oracle; clean() |
| intersect_polyline, ray_cast | `Cast_model` | cells met by a segment, cell locator, KDTree: oracles |
| merge | `SMerge_model`, `Trans_model.merge_blocks`, `Unstr_model.merge_unstructured` | pv.merge (oracle) |
| merge_lines, split_lines, quadraticize | `Lines_model` | merge_points() |
| offset_polygon | `Polygon_model` | |
| reconstruct_line | `Lines_model` | |
| remap_categorical_data | `Groups_model` | |
| get_cell_connectivity, get_cell_group, get_dimension | `Topo_model`, `Groups_model` | |
| get_cell_centers | `Center_model`, `Topo_model` | VTK's own cell centers |

### examples/examples.py

`load_half_stadium` is `Input_model.half_stadium`, `load_concave_polyhedron` is `Solid_model.concave_polyhedron`, `load_well_2d` without voronoi is `Well_model.load_well_2d`, `load_anticline_2d` is `Anticline_model.load_anticline_2d`, `load_anticline_3d` is `Anticline3_model.load_anticline_3d`, `load_topographic_terrain` is `Terrain_model.load_topographic_terrain` (the downloaded image is a parameter).  `load_well_3d` without voronoi is `Well3_model.load_well_3d`; with voronoi they are `Well4_model.load_voronoi_2d` and `Well4_model.load_voronoi_3d`.

## 6. Properties, status and theorems

| property | title | status | theorems | note |
|---|---|---|---|---|
| C01 | Integer resolution yields a proper subdivision | proved | `C01_int_resolution_proper`, `C01_invalid_method_rejected`, `C01_none_is_one` | Positions proved in closed form for every integer, None and every method name. |
| C02 | Subdivision methods have the documented grading | proved | `C02_constant_gaps_equal`, `C02_log_gaps_increase`, `C02_logr_gaps_decrease`, `C02_log_is_mirror_of_logr` | Gap monotonicity for every resolution by monotonicity of ln. |
| C03 | Explicit subdivisions are returned sorted and otherwise untouched | proved | `C03_array_sorted_permutation`, `C03_other_rejected` | Any 1-D array; other values rejected. |
| C04 | Line from two points lies on the segment | proved | `C04_line_on_segment`, `C04_line_endpoints`, `C04_line_defined`, `C04_defined_iff`, `C04_shape_mismatch_rejected` | 2-D and 3-D points; other sizes rejected as pv.MultipleLines does. |
| C05 | Arc points are on the circle | proved | `C05_arc_on_circle`, `C05_arc_ends`, `C05_arc_points` | Exact real arithmetic. |
| C06 | Surface between two lines: dimensions and coordinates | proved | `C06_surface_coordinates`, `C06_mismatch_rejected`, `C06_plane_rejected`, `C06_defined` | Every plane, resolution and line argument; errors on unequal lengths and unknown planes. |
| C07 | Surface between two lines: data follow the line | partial | `C07_point_data_partial`, `C07_cell_data_partial`, `C07_point_data_any_plane`, `C07_cell_data_any_plane`, `C07_transposed_plane_refuted`, `C07_reordered_line_refuted` | Holds for planes xy, xz, yz with lines stored in traversal order; refuted for transposed planes and for lines whose stored order differs from the traversal order. The any_plane theorems say what every plane gives instead. |
| C08 | Surface between two lines: collapsed cells are flagged | proved | `C08_collapsed_cells_flagged`, `C08_line_flags` | Cell areas (VTK compute_cell_sizes) are an oracle parameter. |
| C09 | Structured volume: dimensions and coordinates | proved | `C09_structured_volume_coordinates`, `C09_incompatible_surfaces_rejected` | Cell volumes (VTK) are an oracle parameter; every one of the three orientations. |
| C10 | Repeating structured data follows the grid | proved | `C10_repeat_structured_data`, `C10_defined_on_matching_size`, `C10_wrong_size_rejected`, `C10_volume_data_from_base` | repeat_structured_data and its use for point and cell data of volumes. |
| C11 | Unstructured volume: layered cells with valid ids | proved | `C11_layers_of_cells`, `C11_defined`, `C11_unsupported_cell_rejected`, `C11_incompatible_rejected` | VTK cell stream decoded by an independent decoder; definedness and rejection also proved. |
| C12 | Extruded polygons are closed polyhedra | proved | `C12_polyhedra_closed` | Each directed edge is matched by its opposite (invert_faces) or each edge is shared by two faces. |
| C13 | Extruded polyhedra faces point outwards | partial | `C13_convex_outward_partial`, `C13_concave_inward_refuted`, `C13_enclosed_partial` | Every face of every layer is outward for planar strictly convex polygons under translation; for any planar polygon the faces enclose the volume of the prism, turned outwards exactly when the first corner turns like the polygon; refuted for other concave polygons because the code tests the first three vertices only. |
| C14 | Generating a volume leaves the input surfaces unchanged | partial | `C14_input_cells_partial`, `C14_input_modified_refuted` | Refuted: polygon connectivity of the input surface is reversed in place. Proved: nothing else changes. |
| C15 | Collapsed volume cells are flagged per layer | partial | `C15_flags_from_first_layer_partial`, `C15_zero_thickness_flagged`, `C15_thick_cell_flagged_refuted`, `C15_flat_cell_missed_refuted` | Exact law proved (layer 0 decides for all layers), zero-thickness cells always flagged; the per-layer claim is refuted twice. |
| C16 | Extruded unstructured data follow the base | proved | `C16_unstructured_data_from_base` | Tiling law for every array and every layer. |
| C17 | Group numbering is injective, contiguous and stable | proved | `C17_group_numbering`, `C17_from_empty` | Invariant over every history of group-table operations. |
| C18 | Every generated cell has a named group | proved | `C18_every_cell_named`, `C18_every_cell_named_size` | Meshes and plain sizes; every group argument that does not raise. |
| C19 | Groups of the base mesh are kept unless ignored or overridden | proved | `C19_base_groups_kept`, `C19_string_group_overrides` | No group argument and string group; names via an independent base_name relation. |
| C20 | Dictionary groups: last matching selector wins | proved | `C20_last_selector_wins`, `C20_arrays_accepted` | Index and mask arrays and callables returning masks; acceptance of valid arrays also proved. |
| C21 | String selectors select cells by their base group name | partial | `C21_string_selectors_partial`, `C21_string_selectors_refuted`, `C21_numbers_partial`, `C21_ignored_group_error_refuted` | Proved for an empty table, no ignored group and a base mesh numbered 0..n-1; refuted for other numberings and for ignored names (KeyError). C21_numbers_partial says what is selected for any numbering and table: the cells with the number the name has in the table of the new mesh. |
| C22 | Callable selectors returning indices | partial | `C22_callable_indices_partial`, `C22_inverted_indices_refuted`, `C22_mirrored_indices_partial` | Proved for keys without ~; refuted for ~ keys (NumPy ~ on indices gives -i-1). |
| C23 | Final cleaning removes exactly the unused groups | proved | `C23_clean_removes_unused` | Names kept, exactly the used names remain, numbered from 0 in order. |
| C24 | Remapping is simultaneous | partial | `C24_remap_simultaneous_partial`, `C24_invalid_rejected`, `C24_remap_simultaneous_refuted` | Proved for mappings addressing each value at most once, with rejection of bad input; refuted when a value is addressed both by number and by label. |
| C25 | Remapping keeps labels | partial | `C25_remap_keeps_labels_partial`, `C25_remap_drops_label_refuted` | Proved when the mapping covers every value present; refuted for partial mappings, which drop labels. |
| C26 | Remapping out of place leaves the input unchanged | proved | `C26_out_of_place_leaves_input`, `C26_in_place`, `C26_same_result` | Mesh objects on a heap; in-place and copy give the same mesh. |
| C27 | get_cell_group inverts the group table | proved | `C27_get_cell_group`, `C27_missing` | Injective tables; KeyError exactly on unnamed numbers. |
| C28 | MeshMerge names every cell correctly | proved | `C28_merge_names` | Both orders in which pv.merge may append. |
| C29 | MeshMerge generation is repeatable | partial | `C29_merge_repeatable_partial`, `C29_merge_repeatable_refuted` | Proved for unlabelled items; refuted for labelled items, whose group numbers are overwritten by the first call. |
| C30 | Stack cut fixes each processed pair | proved | `C30_pair_cut`, `C30_pair_cut_defined`, `C30_lawful_meshes` | For every class of base mesh obeying the point laws (proved for the three classes used). |
| C31 | Stacked surfaces never cross | partial | `C31_surfaces_ordered_partial`, `C31_last_pair_ordered_partial`, `C31_ordered_unchanged`, `C31_elevations_partial`, `C31_equal_priorities_partial`, `C31_never_cross_refuted` | Refuted (4,5,3). Proved when each later item has lower priority than the previous one (always for two items), for the last pair always, and ordered stacks are left unchanged. C31_elevations_partial states, for every column and any priorities, the exact elevations after cutting; with equal priorities each surface is cut by the next one only (C31_equal_priorities_partial). |
| C32 | Top-down stacks never cross | partial | `C32_ordered_unchanged_partial`, `C32_elevations_partial`, `C32_top_down_refuted` | Refuted (0,1 moves to -1,1). Proved: stacks already ordered downwards with non-negative thickness are unchanged, and the exact elevations after cutting, column by column (C32_elevations_partial). |
| C33 | Stack generation is repeatable | partial | `C33_repeatable_partial`, `C33_repeatable_refuted` | Refuted (4,5,3). Proved under the same priority condition as C31. |
| C34 | Adding by thickness | proved | `C34_add_scalar` | Both directions, first and later items. |
| C35 | Column, layer and item indices of generated meshes | partial | `C35_stack_ids_partial`, `C35_extrude_ids_partial`, `C35_unstructured_ids_partial`, `C35_unstructured_extrude_ids_partial`, `C35_line_ids_partial`, `C35_ids_refuted`, `C35_transition_ids_partial` | Whole mesh along the third axis for structured bases, and for transitions between lines; block level for unstructured and line bases; refuted along axis 0. |
| C36 | Not enough items | proved | `C36_too_few_stack`, `C36_too_few_extrude`, `C36_merge_none`, `C36_stack_layers`, `C36_extrude_layers` | Structured stacks and extrusions of any axis. |
| C37 | Structured merge concatenates along the axis | proved | `C37_structured_merge` | Any number of blocks; interface points taken from the first block, close to those of the second. |
| C38 | Structured merge validates its inputs | proved | `C38_merge_validated` | Success iff consecutive interfaces are close. |
| C39 | Consecutive extruded blocks share their interface | proved | `C39_stack_defined`, `C39_extrude_defined`, `C39_integer_resolution`, `C39_stack_surfaces`, `C39_extrude_surfaces`, `C39_extrude_iff`, `C39_stack_iff`, `C39_lines_defined`, `C39_stack_lines` | Success, exact surfaces, and the iff for explicit positions; whole stacks of lines and of surfaces. |
| C40 | Face extraction lists each distinct face once | partial | `C40_rows_partial`, `C40_faces_once_partial`, `C40_defined`, `C40_collapsed_partial`, `C40_faces_once_refuted` | Proved with collapsed faces kept or absent (order, once, rows, width, definedness) and for rows after dropping collapsed faces exactly when, wherever a kept face has an id, two kept faces differ (C40_rows_partial). Refuted otherwise: a column of equal ids is dropped. |
| C41 | Cell neighbourhood is symmetric face sharing | partial | `C41_collapsed_partial`, `C41_neighbors_partial`, `C41_neighbors_refuted` | Proved without collapsed faces (exact neighbours, symmetric with multiplicity), and with collapsed ones under the exact condition of C40 (wherever a kept face has an id, two kept faces differ): neighbours share a face that is not collapsed. Refuted with a collapsed face: TypeError. |
| C42 | Cell neighbourhood is total | partial | `C42_collapsed_partial`, `C42_defined_partial`, `C42_total_refuted`, `C42_errors_partial` | Exact condition of success (some face shared, none by three cells) and error raised otherwise (TypeError, ValueError), without collapsed faces; condition of success with collapsed faces as C41. Refuted: one quad. |
| C43 | Connectivity lines link neighbours | partial | `C43_collapsed_partial`, `C43_lines_partial`, `C43_shape_rejected`, `C43_lines_refuted` | Proved without collapsed faces; wrong shapes rejected. Refuted with a collapsed face and a face of three cells. With collapsed faces as C41. |
| C44 | Face tables are closed and consistently oriented | proved | `C44_closed` | Any distinct ids. |
| C45 | Flattened connectivity is decodable | proved | `C45_decodable`, `C45_defined` | Decoding gives the nested connectivity; success for every mesh whose polyhedra have faces. |
| C46 | Mesh dimension | partial | `C46_structured`, `C46_cells_partial`, `C46_cells_refuted`, `C46_rejected` | Refuted for CONVEX_POINT_SET (dimension 0 instead of 3); proved otherwise. |
| C47 | Extraction by dimension | partial | `C47_extraction_partial`, `C47_method_rejected`, `C47_extraction_refuted` | Exact set of kept cells, empty cells having dimension -1; refuted: 'lower' keeps empty cells. |
| C48 | extract_cells restores the input | proved | `C48_input_restored`, `C48_defined` | All outcomes. |
| C49 | get_cell_centers leaves the mesh unchanged | partial | `C49_ghosts_partial`, `C49_ghosts_refuted` | Proved when the call succeeds. Refuted: a polyhedron of zero volume raises ZeroDivisionError and the ghost array is lost. |
| C50 | Split lines are faithful | proved | `C50_split_faithful`, `C50_split_defined` |  |
| C51 | Merging lines preserves order and common data | proved | `C51_points_and_cells`, `C51_common_keys`, `C51_point_data`, `C51_cell_data`, `C51_merge_of_split`, `C51_defined`, `C51_errors` | The final merge_points() of VTK is not modelled. |
| C52 | Quadratic conversion | proved | `C52_midpoints`, `C52_defined_iff`, `C52_unsupported` |  |
| C53 | Line reconstruction permutes the points | proved | `C53_permutation` |  |
| C54 | Line reconstruction terminates | partial | `C54_terminates_iff_partial`, `C54_terminates_refuted` | Proved: it terminates exactly when the tolerance is positive and two points differ. Refuted for all inputs: equal points. |
| C55 | Line reconstruction is 2-opt locally optimal | partial | `C55_local_optimum_partial`, `C55_local_optimum_refuted` | Proved for blocks that start before the last two points when the order is kept. Refuted: the last two points are never exchanged. |
| C56 | RDP decimation | partial | `C56_subsequence_partial`, `C56_straight_lines`, `C56_negative_tolerance`, `C56_cells_partial`, `C56_segment_refuted` | Proved with the distance to the line through the kept points, for non-negative tolerance. Refuted for the distance to the segment. |
| C57 | Averaging points groups connected close points | proved | `C57_classes` | For any set of pairs reported by KDTree. |
| C58 | Averaged faces | proved | `C58_faces`, `C58_defined` |  |
| C59 | Polygon offset distance | proved | `C59_offset_distance`, `C59_offset_zero` | Real arithmetic; vertices that would be NaN are None. The side is the sign of the area sum used by the code. |
| C60 | Polygon offset direction | partial | `C60_offset_outward_partial`, `C60_offset_outward_refuted` | Proved when the closing edge counted twice does not change the sign of the area; refuted otherwise (unit square at x = 10). |
| C61 | Polygon offset keeps the plane | partial | `C61_plane_partial`, `C61_plane_refuted` | Proved for planes through the origin; refuted otherwise: the constant coordinate is reset to 0. |
| C62 | Boundary polygons partition the boundary edges | proved | `C62_partition`, `C62_no_edges`, `C62_without_holes` | For all containment relations (shapely's area and contains are a parameter). |
| C63 | Polygon accepts open and closed rings | proved | `C63_open_or_closed`, `C63_one_cell`, `C63_default_celltype`, `C63_holes_rejected`, `C63_celltype_rejected` | Input as arrays; numpy rows are lists of reals. |
| C64 | The gmsh session is always closed | proved | `C64_session_closed`, `C64_engine_rejected` | Calls of gmsh as a trace, any call may fail. |
| C65 | Fusing cells | partial | `C65_fused_partial`, `C65_each_group_partial`, `C65_fused_refuted`, `C65_accepts`, `C65_rejects` | Proved for groups without common cells; refuted for overlapping groups. get_dimension and extract_boundary_polygons are parameters, the final clean() is not modelled. |
| C66 | Voronoi arrays stay aligned | proved | `C66_arrays_aligned`, `C66_accepted` | From the items to the mesh before fuse_cells and the final clean. |
| C67 | Voronoi priorities | proved | `C67_active_iff_not_covered` | Cover relation given by find_containing_cell (oracle). |
| C68 | Voronoi points outside the base are ignored | partial | `C68_points_inside_partial`, `C68_points_inside_refuted` | Proved for items with a cell in the background mesh; refuted for items wholly outside. |
| C69 | Finite Voronoi regions reference valid vertices | proved | `C69_regions_valid`, `C69_missing_ridges` | For diagrams as SciPy returns them; C69_missing_ridges gives the KeyError otherwise. |
| C70 | Voronoi cells are oriented | partial | `C70_orientation_partial`, `C70_same_outline`, `C70_orientation_refuted` | Proved when the open shoelace sum of the first three points has the sign of the area; refuted otherwise. |
| C71 | Interactive selection toggles | proved | `C71_selection_toggles`, `C71_unknown_view` | Click history as a list; picked ids are the ones vtk reports. |
| C72 | Lasso selection uses the view plane | partial | `C72_horizontal_partial`, `C72_outline_partial`, `C72_view_plane_refuted`, `C72_unknown_view` | Proved for the xy view; what the polygon tests in the other views is proved too; refuted for xz and yz, where the polygon is drawn in the view plane but the x and y coordinates of the centers are tested. |
| C73 | Regular line | proved | `C73_regular_line`, `C73_ends`, `C73_rejected` | Rows of three columns; np.interp modelled for nondecreasing knots. |
| C74 | Linear interpolation of item elevations | proved | `C74_linear`, `C74_range`, `C74_rejects`, `C74_flat`, `C74_surface` | One varying axis: np.interp; two varying axes: SciPy interpolators are parameters. |
| C75 | add_plane passes through the point | partial | `C75_plane_partial`, `C75_angles_kept_refuted` | Plane contains the point and is affine; refuted: an ndarray of angles is modified in place. |
| C76 | Extrusion translation and scaling | proved | `C76_translate_scale`, `C76_vector_size` | Center and every point, with default or given scale. |
| C77 | Radius validation | partial | `C77_radii_partial`, `C77_radius_refuted` | Proved for AnnularSector, Annulus, Sector, Circle, SectorRectangle and for RectangleSector with positive radius; refuted for RectangleSector with radius <= 0. |
| C78 | Version gate | partial | `C78_gate_partial`, `C78_gate_refuted` | Proved for one-digit major and minor numbers and any patch. Refuted: 9.10.0. |
| C79 | Stack construction and added surfaces are validated | proved | `C79_construction`, `C79_arrays_rejected`, `C79_added_item` |  |
| C80 | Transition applies to the next item with the new base | partial | `C80_transition_partial`, `C80_transition_refuted` | Proved for callables, arrays and meshes; refuted for scalars, which copy the last item. |
| C81 | add_plane inclination | partial | `C81_slope_partial`, `C81_inclination_refuted` | Exact law for all axes and angles: the slope is sin w across the rotation vector. Refuted: it is not tan w (45 degrees). |
| C82 | Groups of generated layers | proved | `C82_stack_groups`, `C82_extrude_groups` |  |
| C83 | Extrusion items are similar | proved | `C83_extrusion_similar` | Any rotation about the vector, non-zero vector. |
| C84 | Face tables turn outward | proved | `C84_outward` |  |
| C85 | Unsupported cells are rejected | partial | `C85_unsupported_partial`, `C85_unsupported_refuted` | Proved for meshes of dimension 1 and 2. Refuted in 3D: KeyError or AttributeError. |
| C86 | Tetrahedral center is geometric | proved | `C86_apex_independent`, `C86_affine`, `C86_inside` | The version is 9.5.0 for the position; any version for the apex. |
| C87 | Cell centers by method | proved | `C87_rows` |  |
| C88 | Holes lie in their ring | partial | `C88_holes_inside_partial`, `C88_holes_inside_refuted` | Proved for one level of nesting; refuted for deeper nesting. |
| C89 | Outline given to gmsh | proved | `C89_gmsh_outline` | Tags are those gmsh returns, numbered from 1. |
| C90 | Mesh size at the vertices | proved | `C90_mesh_sizes` |  |
| C91 | Cells of the gmsh mesh | partial | `C91_gmsh_cells_partial`, `C91_gmsh_cells_refuted` | Proved when gmsh numbers nodes 1..N in order; refuted otherwise. |
| C92 | Polygons accepted by offset_polygon | proved | `C92_offset_accepts`, `C92_offset_rejects` |  |
| C93 | Documented priority rule | partial | `C93_higher_priority_partial`, `C93_strictly_refuted`, `C93_higher_refuted` | Proved for nonnegative priorities and strictly higher priority; refuted for equal and negative priorities. |
| C94 | Voronoi cell outlines | proved | `C94_no_boundary_rejected`, `C94_outlines` | Clipping (shapely) and validity are oracles. |
| C95 | Annular sector nodes | proved | `C95_annular_sector`, `C95_invalid_radii` |  |
| C96 | Annulus and cylindrical shell are closed | proved | `C96_annulus_closed`, `C96_shell_closed` | Before the final clean that merges coincident points. |
| C97 | Sector fan | proved | `C97_sector_fan`, `C97_triangles` |  |
| C98 | Quadrilateral nodes | proved | `C98_quadrilateral`, `C98_default`, `C98_too_few_points` |  |
| C99 | Center of a rectangle | partial | `C99_rectangle_partial`, `C99_square_partial`, `C99_center_refuted` | center is the first corner of the rectangle; refuted as its center. |
| C100 | Cylindrical shell nodes | proved | `C100_shell_nodes`, `C100_shell_flags` | Centers of three coordinates. Cell sizes (VTK) are oracle parameters. |
| C101 | Centers of two or three coordinates | partial | `C101_centers_partial`, `C101_shell_refuted` | Proved for flat objects; refuted for CylindricalShellSector. |
| C102 | Blocks of sector rectangles | proved | `C102_sector_rectangle`, `C102_sector_rectangle_conform`, `C102_rectangle_sector`, `C102_rectangle_sector_conform`, `C102_sector_square`, `C102_square_sector` | Blocks before their merge by VTK. |
| C103 | theta_method applies to the arc | partial | `C103_constant_partial`, `C103_method_refuted` | Proved for constant spacing; refuted for log spacing. |
| C104 | Cells of flat objects turn counterclockwise | partial | `C104_rectangle_partial`, `C104_annular_refuted`, `C104_blocks_refuted` | Proved for Rectangle (and for Sector in C97); refuted for AnnularSector and for the blocks of SectorRectangle. |
| C105 | Curved line | proved | `C105_curved_line`, `C105_length`, `C105_straight`, `C105_invalid_resolution` | Directions nonzero and not opposite. |
| C106 | Interpolation needs enclosing data | partial | `C106_enclosed_partial`, `C106_interior_refuted`, `C106_descending_refuted` | Proved for ascending data and base points; refuted for interior points out of the range and for descending data. |
| C107 | Circles accepted | partial | `C107_accepted_partial`, `C107_rejected`, `C107_atomic`, `C107_large_refuted` | Accepted exactly when 0 < radius <= constraint radius < 2 radius (proved); the documented condition is refuted by a constraint radius of twice the radius. |
| C108 | Circle boundary is a polygon of chords | partial | `C108_chords_partial`, `C108_other_axes`, `C108_axis_refuted` | Proved for axis 2; refuted for axes 0 and 1, where the circle is flattened. |
| C109 | Plain circles | partial | `C109_plain_partial`, `C109_center_refuted` | Proved for centers in the plane of axis 2; refuted for a center out of the plane. |
| C110 | Group of a circle | partial | `C110_groups_partial`, `C110_default_refuted` | Proved for named groups and for constraint radius = radius; refuted without group name. |
| C111 | Strip of a polyline | proved | `C111_strips` | Resolutions that give at least two positions; polylines of at least two points; perpendicularity where the neighbours differ. |
| C112 | Core of a polyline | proved | `C112_core_strip` |  |
| C113 | Constraint cells mirror core cells | proved | `C113_mirrors` | Straightness is local: the segments around the cell. |
| C114 | Preference of a polyline | partial | `C114_point_partial`, `C114_cell_partial`, `C114_preference_refuted` | The documented meaning is refuted; the actual centers are proved for the default resolution. |
| C115 | Items lie in the plane | proved | `C115_points_accepted`, `C115_mesh_item`, `C115_mesh`, `C115_points`, `C115_circle`, `C115_polyline` |  |
| C116 | add_polyline is atomic | partial | `C116_single_partial`, `C116_several_refuted` | Proved for at most one polyline; refuted for several. |
| C117 | Intersection points of ray_cast | partial | `C117_faces_partial`, `C117_lines_partial`, `C117_parallel_refuted` | Proved for faces (limit of at most 90 degrees) and for lines not parallel to the ray; refuted for a parallel line (NaN coordinates). |
| C118 | Selection of ray_cast | proved | `C118_faces`, `C118_lines`, `C118_mixed_rejected`, `C118_total` | Normals are unit vectors; the cells met by the segment are VTK's answer. |
| C119 | Arrays of intersect_polyline | proved | `C119_arrays` | For every answer of VTK and SciPy. |
| C120 | Spacing of intersect_polyline | partial | `C120_spacing_partial`, `C120_tolerance_refuted` | Spacing proved for every answer of VTK; refuted that points farther than the tolerance are kept (relative tolerance of numpy.allclose). |
| C121 | Cell ids of intersect_polyline | partial | `C121_sources_partial`, `C121_row_partial`, `C121_start_refuted`, `C121_end_refuted`, `C121_trip_partial`, `C121_nearest_refuted`, `C121_reentry_refuted` | Sources of the points proved for every answer of VTK; ids proved for a polyline through any mesh that it enters once, by the cell with the nearest center, and for a segment through a row of two cells or more; refuted for a line that starts inside the mesh, ends in the first cell, enters by a cell whose center is not the nearest, or comes back into the mesh. |
| C122 | Cell data of intersect_polyline | partial | `C122_values`, `C122_enough_partial`, `C122_polyline_refuted` | Values proved; success proved with a value per segment; refuted for a line of one cell of several segments (IndexError). |
| C123 | Ignored points of intersect_polyline | partial | `C123_flags_partial`, `C123_miss`, `C123_boundary_refuted`, `C123_trip_partial` | Order of the ids proved for every answer of VTK; exact effect proved for a polyline that enters any mesh once, for a row of cells and for a line that misses the mesh; refuted for a line that starts on the boundary. |
| C124 | Last point of intersect_polyline | partial | `C124_row_partial`, `C124_inside_refuted`, `C124_trip_partial` | Proved for a polyline that enters any mesh once and for a segment through a row of two cells or more; refuted for a line inside one cell. |
| C125 | Termination of intersect_polyline | partial | `C125_row_partial`, `C125_refuted`, `C125_trip_partial` | Proved for a polyline that enters any mesh once and for a segment through a row of two cells or more; refuted with a cell thinner than min_length. |
| C126 | Outline of a transition | proved | `C126_transition_outline` |  |
| C127 | Transitions are cut alone | proved | `C127_cut_independent`, `C127_cut_sizes` |  |
| C128 | Building with transitions | partial | `C128_sizes_rejected`, `C128_defined`, `C128_build_partial`, `C128_build_refuted` | Sizes proved in both directions and success proved when the item before a scalar is no transition; refuted for a scalar right after set_transition, which copies the line before the transition. |
| C129 | Kind of mesh with transitions | proved | `C129_no_transition`, `C129_one_transition`, `C129_mixed` |  |
| C130 | Groups of transition cells | partial | `C130_transition_groups_partial`, `C130_masks_refuted` | Proved for names and no group; refuted for boolean masks of the cells of the line. |
| C131 | Base line of a stack | partial | `C131_base_line_partial`, `C131_base_line_refuted`, `C131_no_line` | Proved for one LINE or POLY_LINE cell; refuted for a line made of several cells (only the first is kept). |
| C132 | Ghost cells of the returned mesh | proved | `C132_stack_ghosts`, `C132_extrude_ghosts`, `C132_stack_defined`, `C132_extrude_defined` | Volumes come from VTK (oracle with one value per cell); structured base meshes, no transition. |
| C133 | Groups of the returned mesh | proved | `C133_stack_groups`, `C133_extrude_groups` | Dictionaries of masks, index arrays and functions returning masks; entries that are names are the subject of C21. |
| C134 | Cell data of the base in stacks | proved | `C134_stack_cell_data`, `C134_extrude_cell_data` |  |
| C135 | Point data of the base in stacks | partial | `C135_stack_point_data_partial`, `C135_extrude_point_data_partial`, `C135_no_point_data`, `C135_point_data_refuted` | Proved for stacks and extrusions of two items; with three or more items it is proved that no point array is left (merge builds a new grid without point data), hence refuted. |
| C136 | Arrays of points | proved | `C136_array_accepted`, `C136_array_rejected`, `C136_seeds_of_array`, `C136_seeds_rejected` |  |
| C137 | Base line from positions | partial | `C137_positions_partial`, `C137_positions_refuted`, `C137_positions_elsewhere`, `C137_positions_line`, `C137_mesh_line`, `C137_no_line` | Proved for stacking along Z; along X and Y the line is never along the documented axis (refuted), but it is perpendicular to the stacking axis on every axis. A base given as a mesh is its first line cut in segments. |
| C138 | Transition to a number of cells | proved | `C138_mesh_line`, `C138_no_line`, `C138_transition_count`, `C138_transition_rejected` | Numbers n >= 1; n = 0 means the number of points of the current line (C73). A transition given as a mesh is its first line cut in segments. |
| C139 | Default surface | proved | `C139_default_surface`, `C139_default_defined` |  |
| C140 | Half stadium | proved | `C140_half_stadium`, `C140_bad_resolution` |  |
| C141 | Cells of the returned unstructured mesh | proved | `C141_stack_cells`, `C141_extrude_cells`, `C141_stack_defined`, `C141_extrude_defined` | pv.merge is assumed to append the meshes in some order, merging points that coincide, and UnstructuredGrid.clean to rename points within the tolerance, keeping cells and their data; gmsh transitions are excluded (C125-C130). |
| C142 | Groups of the returned unstructured mesh | proved | `C142_stack_groups`, `C142_extrude_groups` | Same assumptions as C141. |
| C143 | Ghost cells of the returned unstructured mesh | proved | `C143_stack_ghosts`, `C143_extrude_ghosts` | Same assumptions as C141. The flag of a block is decided on its first layer only, which is what the statement says. |
| C144 | Cell data of the base in unstructured stacks | proved | `C144_stack_cell_data`, `C144_extrude_cell_data` | Same assumptions as C141. |
| C145 | Nodes of a stack of lines | proved | `C145_line_nodes`, `C145_line_defined` |  |
| C146 | Cells of a stack of lines | partial | `C146_line_cells_partial`, `C146_line_cells_along_x`, `C146_line_cells_refuted` | Proved along y and z, and refuted along x, where the arrays are written in the order of the lines and read in the order of the columns; C146_line_cells_along_x states which segment is read instead. |
| C147 | Cells of the returned Voronoi mesh | proved | `C147_returned_cells` | Qhull, clean() and the boundaries of fused cells are oracles; clean() renames points within the tolerance. |
| C148 | Circles of the returned Voronoi mesh | partial | `C148_remaining_cells`, `C148_circles_partial`, `C148_defined`, `C148_circle_lost_refuted` | Remaining cells and existence are proved for all circles; that every circle has a cell is proved for circles without a common cell, and refuted otherwise: the second of two circles sharing a cell disappears. |
| C149 | Cells of merged meshes | proved | `C149_merged_cells`, `C149_merged_defined` | pv.merge is assumed to append the meshes in some order, merging points that coincide, and clean() to rename points within the tolerance. |
| C150 | Groups of merged meshes | proved | `C150_merged_groups` |  |
| C151 | Cell data of merged meshes | proved | `C151_merged_cell_data` | pv.merge is assumed to keep the arrays that all meshes have. |
| C152 | Ghost cells of merged meshes | partial | `C152_merged_flags_partial`, `C152_merged_flags_lost`, `C152_merged_flags_refuted` | Proved when every mesh has flags; refuted otherwise: pv.merge keeps the arrays that all meshes have, so that the flags are lost when one mesh has none (C152_merged_flags_lost). |
| C153 | Areas of flat objects | proved | `C153_rectangle`, `C153_annular_sector`, `C153_annular_sector_equal`, `C153_sector`, `C153_sector_equal`, `C153_frame`, `C153_filled` | Areas are those of the polygonal cells; SectorRectangle with equal angular subdivisions (theta_method does not reach it, C103). |
| C154 | Objects that fit together | proved | `C154_rings`, `C154_sector_ring`, `C154_ring_frame`, `C154_frame_rectangles` | Over exact reals; in floating point the coincidence is up to rounding. |
| C155 | Merged polygons | proved | `C155_polygons`, `C155_areas` | pv.merge and clean as in C149. |
| C156 | Mesh of a well | proved | `C156_load_well`, `C156_areas`, `C156_counts` | Without voronoi; pv.merge and clean as in C149, over exact reals. |
| C157 | Prisms over polygons | proved | `C157_prism`, `C157_concave`, `C157_half_stadium` | Enclosed volume with sign: negative when the faces are turned inwards. |
| C158 | Anticline | proved | `C158_anticline`, `C158_inactive` | Over exact reals; the areas reported by VTK are an oracle, assumed to vanish exactly on flat cells for the flags. |
| C159 | Nodes of structured stacks | proved | `C159_stack_nodes`, `C159_extrude_nodes`, `C159_stack_even`, `C159_extrude_even` | Structured surfaces; the cutting of crossing surfaces is C31. |
| C160 | Extrusion by successive moves | proved | `C160_points`, `C160_groups`, `C160_inactive` | Structured surfaces, without scale nor angle (these are C76, C83). |
| C161 | Anticline in three dimensions | proved | `C161_anticline`, `C161_inactive` | Over exact reals; areas and volumes reported by VTK are oracles, assumed to vanish exactly on cells without height for the flags. |
| C162 | Stacking by successive calls | proved | `C162_nodes`, `C162_groups`, `C162_flags`, `C162_arrays`, `C162_ids`, `C162_errors` | Structured surfaces, calls without transition; interpolation is a parameter (C74). Identifiers along the third axis only (C35 for the others). |
| C163 | Topographic terrain | proved | `C163_nodes`, `C163_groups` | Over exact reals; SciPy's linear interpolator is an oracle assumed to give back the data at data points that are distinct and not aligned; the image is a parameter. |
| C164 | Extrusion of unstructured surfaces by successive moves | proved | `C164_cells`, `C164_groups`, `C164_data`, `C164_defined`, `C164_errors` | Unstructured surfaces, without scale nor angle; pv.merge and clean are oracles. |
| C165 | Mesh of a well in three dimensions | proved | `C165_load_well` | Without voronoi; pv.merge, clean and extract_cells are oracles, assumed to keep one row of point data per point. |
| C166 | Stacking on unstructured surfaces by successive calls | proved | `C166_cells`, `C166_groups`, `C166_data`, `C166_defined`, `C166_errors` | Unstructured surfaces; interpolation, pv.merge and clean are oracles. |
| C167 | Voronoi meshes by successive calls | proved | `C167_accepted`, `C167_cells`, `C167_circles`, `C167_defined`, `C167_errors`, `C167_first_error` | Qhull, clean(), cell centers and the boundaries of fused cells are oracles; the boundary of a circle must run through a point once. |
| C168 | Stacking lines by successive calls | proved | `C168_nodes`, `C168_groups`, `C168_flags`, `C168_arrays`, `C168_ids`, `C168_errors` | Without transitions; interpolation, vtkStripper and cell areas are oracles. Identifiers along the first axis are out of order (C146). |
| C169 | Stacking lines with transitions by successive calls | proved | `C169_defined`, `C169_blocks`, `C169_no_line` | Up to _clean; gmsh, pv.merge, vtkStripper, interpolation and cell areas are oracles. Scalars right after a transition are excluded (C128). |
| C170 | Mesh of stacks of lines with transitions | proved | `C170_defined`, `C170_mesh` | gmsh, pv.merge (appends its meshes in some order), clean, vtkStripper, interpolation and cell areas are oracles; gmsh elements have three or four nodes numbered from one. Along the first axis the columns and layers are written in the order of C146. |
| C171 | Flags of stacks of lines with transitions | partial | `C171_flags_partial`, `C171_flags_refuted` | False: pv.merge drops the flags of the strips because the triangles have none (C171_flags_refuted, for all measures of area). What holds: no cell is flagged as soon as every mesh of gmsh has a cell. |
| C172 | Volumes of extruded cells | proved | `C172_layer`, `C172_faces`, `C172_extrude`, `C172_stack` | Programs of MeshExtrude and MeshStack3D on unstructured surfaces: when cleaning moves no point (tolerance 0). Polyhedra are C13, C121 and C157. |
| C173 | Volumes of the well | proved | `C173_volumes` | Absolute volumes of the cells; when the cleaning moves no point (tolerances 0). |
| C174 | Errors on degenerate inputs | proved | `C174_empty`, `C174_missing_array`, `C174_no_ids`, `C174_quadrilateral`, `C174_no_vertices`, `C174_collapsed` |  |
| C175 | Columns fill the space between surfaces | proved | `C175_stack`, `C175_extrude` | When cleaning moves no point (tolerance 0); triangles, quadrilaterals and pixels, positions from 0 to 1. |
| C176 | Areas of stacks of lines | proved | `C176_areas` | Cells by the coordinates of their four nodes; areas with sign, doubled (Volume_spec.area_along). |
| C177 | Volumes of stacks of structured surfaces | proved | `C177_volumes` | Hexahedra by the coordinates of their eight nodes, with the faces of VTK hexahedra numbered from the surface upwards. |
| C178 | Extrusion of structured surfaces with scales and angles | proved | `C178_points`, `C178_cells` | A call that turns the surface must have a vector that is not zero; subdivisions run from 0 to 1; volumes of cells (compute_cell_sizes) are an oracle. |
| C179 | Extrusion of unstructured surfaces with scales and angles | proved | `C179_cells`, `C179_data`, `C179_defined` | Surfaces with at least one point; a call that turns must have a vector that is not zero; pv.merge and clean are oracles. |
| C180 | Voronoi meshes exist | proved | `C180_mesh`, `C180_defined` | SciPy's diagram, the pairs of the KDTree, np.argsort, shapely's is_valid and intersection are oracles; plain circles are in C148. |
| C181 | Mesh of a well with Voronoi cells | proved | `C181_load_voronoi`, `C181_defined` | pv.merge, clean, get_cell_centers, SciPy and shapely are oracles; the axis is the default 2. |
| C182 | Mesh of a well in three dimensions with Voronoi cells | proved | `C182_load_voronoi`, `C182_whole`, `C182_missing` | As C181, and every polygon cut by the boundary has at least three points; extract_cells of PyVista is an oracle. |
| C183 | Voronoi cells and nearest seeds | partial | `C183_nearest_partial`, `C183_mesh`, `C183_overlap`, `C183_contains_refuted` | The part on nearest seeds is proved for the regions and for the mesh; the last part is false (C183_contains_refuted): unbounded regions are closed at 1000 times the extent of the mesh from their last vertex, which for seeds in a thin triangle does not go around the seed. SciPy's diagram is assumed to be that of the seeds and shapely to return points of the region; vertices are not averaged. |
| C184 | Neighbours in structured grids | proved | `C184_hexahedra`, `C184_quadrilaterals` | VTK's cast of structured grids is described by hexahedra and quadrilaterals; with remove_ghost_cells no face or edge has zero measure, as in C41. |
| C185 | Faces of structured grids | proved | `C185_hexahedra`, `C185_quadrilaterals` | As C184. |
| C186 | Neighbours in volumes between two surfaces | proved | `C186_extruded`, `C186_surface` | The surface has distinct corners in every cell, at most two cells per side, at most one common side for two cells and no two cells with the same corners (conforming). VTK reads the streams of cells as in C11 (holds); with remove_ghost_cells no face has zero area, as in C41. |
| C187 | Faces of volumes between two surfaces | proved | `C187_extruded`, `C187_surface`, `C187_sides` | As C186. The sides are given as a list, which C187_sides shows to exist for every surface. |
| C188 | Neighbours in meshes of lines | partial | `C188_lines_partial`, `C188_grid_partial`, `C188_shared_partial`, `C188_lines_refuted` | Refuted: lines that follow each other are no neighbours, as their segments are compared and not their ends. Proved what happens: TypeError for every mesh of lines without repeated segments and every structured grid of one row; otherwise the neighbours are the lines with a common segment. |
| C189 | Lines through a mesh without shared faces | partial | `C189_single_partial`, `C189_crossed_partial`, `C189_single_refuted` | Refuted: one cell crossed from side to side. Proved what happens: TypeError as soon as the first segment meets a cell farther than min_length from the end of the line. |
| C190 | Neighbours and connectivity agree | proved | `C190_agree` | No condition on the faces; every cell of the mesh has a type and ids. |

## 7. What `Print Assumptions` lists for each theorem

All axioms are axioms of the standard library of Coq.  Short names: F = `ClassicalDedekindReals.sig_forall_dec`, N = `ClassicalDedekindReals.sig_not_dec`, C = `Classical_Prop.classic`, E = `FunctionalExtensionality.functional_extensionality_dep`.

* **closed under the global context** (112): `C10_repeat_structured_data`, `C10_defined_on_matching_size`, `C10_wrong_size_rejected`, `C17_group_numbering`, `C17_from_empty`, `C18_every_cell_named`, `C18_every_cell_named_size`, `C19_base_groups_kept`, `C19_string_group_overrides`, `C20_last_selector_wins`, `C20_arrays_accepted`, `C21_string_selectors_partial`, `C21_string_selectors_refuted`, `C21_numbers_partial`, `C21_ignored_group_error_refuted`, `C22_callable_indices_partial`, `C22_inverted_indices_refuted`, `C22_mirrored_indices_partial`, `C23_clean_removes_unused`, `C24_remap_simultaneous_partial`, `C24_invalid_rejected`, `C24_remap_simultaneous_refuted`, `C25_remap_keeps_labels_partial`, `C25_remap_drops_label_refuted`, `C26_out_of_place_leaves_input`, `C26_in_place`, `C26_same_result`, `C27_get_cell_group`, `C27_missing`, `C28_merge_names`, `C29_merge_repeatable_partial`, `C29_merge_repeatable_refuted`, `C30_lawful_meshes`, `C36_too_few_extrude`, `C36_merge_none`, `C40_rows_partial`, `C40_faces_once_partial`, `C40_defined`, `C40_collapsed_partial`, `C40_faces_once_refuted`, `C41_collapsed_partial`, `C41_neighbors_partial`, `C41_neighbors_refuted`, `C42_collapsed_partial`, `C42_defined_partial`, `C42_total_refuted`, `C42_errors_partial`, `C43_collapsed_partial`, `C43_lines_partial`, `C43_shape_rejected`, `C43_lines_refuted`, `C44_closed`, `C45_decodable`, `C45_defined`, `C46_structured`, `C46_cells_partial`, `C46_cells_refuted`, `C46_rejected`, `C47_extraction_partial`, `C47_method_rejected`, `C47_extraction_refuted`, `C48_input_restored`, `C48_defined`, `C50_split_faithful`, `C50_split_defined`, `C51_points_and_cells`, `C51_common_keys`, `C51_point_data`, `C51_cell_data`, `C51_merge_of_split`, `C51_defined`, `C51_errors`, `C62_partition`, `C62_no_edges`, `C62_without_holes`, `C65_fused_partial`, `C65_each_group_partial`, `C65_fused_refuted`, `C65_accepts`, `C65_rejects`, `C66_accepted`, `C71_selection_toggles`, `C71_unknown_view`, `C72_horizontal_partial`, `C72_outline_partial`, `C72_unknown_view`, `C79_construction`, `C85_unsupported_partial`, `C85_unsupported_refuted`, `C88_holes_inside_partial`, `C88_holes_inside_refuted`, `C91_gmsh_cells_partial`, `C131_base_line_partial`, `C131_no_line`, `C137_no_line`, `C138_no_line`, `C172_faces`, `C174_missing_array`, `C174_no_ids`, `C174_collapsed`, `C184_hexahedra`, `C184_quadrilaterals`, `C185_hexahedra`, `C185_quadrilaterals`, `C186_surface`, `C187_surface`, `C187_sides`, `C188_lines_partial`, `C188_grid_partial`, `C188_shared_partial`, `C188_lines_refuted`, `C190_agree`.
* **F** (13): `C67_active_iff_not_covered`, `C68_points_inside_partial`, `C115_points_accepted`, `C115_mesh_item`, `C115_mesh`, `C115_points`, `C136_array_accepted`, `C136_array_rejected`, `C136_seeds_of_array`, `C136_seeds_rejected`, `C137_positions_partial`, `C137_positions_line`, `C137_mesh_line`.
* **F E** (64): `C30_pair_cut`, `C30_pair_cut_defined`, `C31_surfaces_ordered_partial`, `C31_last_pair_ordered_partial`, `C31_ordered_unchanged`, `C31_elevations_partial`, `C31_equal_priorities_partial`, `C32_ordered_unchanged_partial`, `C32_elevations_partial`, `C33_repeatable_partial`, `C34_add_scalar`, `C36_too_few_stack`, `C37_structured_merge`, `C38_merge_validated`, `C49_ghosts_partial`, `C49_ghosts_refuted`, `C52_midpoints`, `C52_defined_iff`, `C52_unsupported`, `C57_classes`, `C58_faces`, `C58_defined`, `C68_points_inside_refuted`, `C70_orientation_partial`, `C70_same_outline`, `C70_orientation_refuted`, `C72_view_plane_refuted`, `C74_linear`, `C74_range`, `C74_rejects`, `C74_flat`, `C74_surface`, `C78_gate_partial`, `C78_gate_refuted`, `C79_arrays_rejected`, `C79_added_item`, `C80_transition_partial`, `C80_transition_refuted`, `C84_outward`, `C86_apex_independent`, `C86_affine`, `C86_inside`, `C87_rows`, `C91_gmsh_cells_refuted`, `C93_strictly_refuted`, `C93_higher_refuted`, `C106_enclosed_partial`, `C106_interior_refuted`, `C106_descending_refuted`, `C127_cut_independent`, `C127_cut_sizes`, `C128_build_partial`, `C131_base_line_refuted`, `C137_positions_refuted`, `C137_positions_elsewhere`, `C149_merged_cells`, `C149_merged_defined`, `C150_merged_groups`, `C151_merged_cell_data`, `C152_merged_flags_partial`, `C152_merged_flags_lost`, `C152_merged_flags_refuted`, `C155_polygons`, `C155_areas`.
* **F C** (1): `C93_higher_priority_partial`.
* **F N E** (87): `C53_permutation`, `C54_terminates_iff_partial`, `C54_terminates_refuted`, `C55_local_optimum_partial`, `C55_local_optimum_refuted`, `C56_subsequence_partial`, `C56_straight_lines`, `C56_negative_tolerance`, `C56_cells_partial`, `C56_segment_refuted`, `C59_offset_distance`, `C59_offset_zero`, `C60_offset_outward_partial`, `C60_offset_outward_refuted`, `C61_plane_partial`, `C61_plane_refuted`, `C63_open_or_closed`, `C63_one_cell`, `C63_default_celltype`, `C63_holes_rejected`, `C63_celltype_rejected`, `C64_session_closed`, `C64_engine_rejected`, `C66_arrays_aligned`, `C69_regions_valid`, `C69_missing_ridges`, `C73_regular_line`, `C73_ends`, `C73_rejected`, `C75_plane_partial`, `C75_angles_kept_refuted`, `C76_translate_scale`, `C76_vector_size`, `C81_slope_partial`, `C81_inclination_refuted`, `C83_extrusion_similar`, `C89_gmsh_outline`, `C90_mesh_sizes`, `C92_offset_accepts`, `C92_offset_rejects`, `C94_no_boundary_rejected`, `C94_outlines`, `C112_core_strip`, `C113_mirrors`, `C114_point_partial`, `C114_cell_partial`, `C119_arrays`, `C120_spacing_partial`, `C120_tolerance_refuted`, `C121_sources_partial`, `C121_row_partial`, `C121_start_refuted`, `C121_end_refuted`, `C121_trip_partial`, `C121_nearest_refuted`, `C121_reentry_refuted`, `C122_values`, `C122_enough_partial`, `C122_polyline_refuted`, `C123_flags_partial`, `C123_miss`, `C123_boundary_refuted`, `C123_trip_partial`, `C124_row_partial`, `C124_inside_refuted`, `C124_trip_partial`, `C125_row_partial`, `C125_refuted`, `C125_trip_partial`, `C138_mesh_line`, `C138_transition_count`, `C138_transition_rejected`, `C147_returned_cells`, `C148_remaining_cells`, `C148_circles_partial`, `C148_defined`, `C148_circle_lost_refuted`, `C174_empty`, `C174_no_vertices`, `C180_mesh`, `C183_nearest_partial`, `C183_mesh`, `C183_overlap`, `C183_contains_refuted`, `C189_single_partial`, `C189_crossed_partial`, `C189_single_refuted`.
* **F N C E** (255): `C01_int_resolution_proper`, `C01_invalid_method_rejected`, `C01_none_is_one`, `C02_constant_gaps_equal`, `C02_log_gaps_increase`, `C02_logr_gaps_decrease`, `C02_log_is_mirror_of_logr`, `C03_array_sorted_permutation`, `C03_other_rejected`, `C04_line_on_segment`, `C04_line_endpoints`, `C04_line_defined`, `C04_defined_iff`, `C04_shape_mismatch_rejected`, `C05_arc_on_circle`, `C05_arc_ends`, `C05_arc_points`, `C06_surface_coordinates`, `C06_mismatch_rejected`, `C06_plane_rejected`, `C06_defined`, `C07_point_data_partial`, `C07_cell_data_partial`, `C07_point_data_any_plane`, `C07_cell_data_any_plane`, `C07_transposed_plane_refuted`, `C07_reordered_line_refuted`, `C08_collapsed_cells_flagged`, `C08_line_flags`, `C09_structured_volume_coordinates`, `C09_incompatible_surfaces_rejected`, `C10_volume_data_from_base`, `C11_layers_of_cells`, `C11_defined`, `C11_unsupported_cell_rejected`, `C11_incompatible_rejected`, `C12_polyhedra_closed`, `C13_convex_outward_partial`, `C13_concave_inward_refuted`, `C13_enclosed_partial`, `C14_input_cells_partial`, `C14_input_modified_refuted`, `C15_flags_from_first_layer_partial`, `C15_zero_thickness_flagged`, `C15_thick_cell_flagged_refuted`, `C15_flat_cell_missed_refuted`, `C16_unstructured_data_from_base`, `C31_never_cross_refuted`, `C32_top_down_refuted`, `C33_repeatable_refuted`, `C35_stack_ids_partial`, `C35_extrude_ids_partial`, `C35_unstructured_ids_partial`, `C35_unstructured_extrude_ids_partial`, `C35_line_ids_partial`, `C35_ids_refuted`, `C35_transition_ids_partial`, `C36_stack_layers`, `C36_extrude_layers`, `C39_stack_defined`, `C39_extrude_defined`, `C39_integer_resolution`, `C39_stack_surfaces`, `C39_extrude_surfaces`, `C39_extrude_iff`, `C39_stack_iff`, `C39_lines_defined`, `C39_stack_lines`, `C77_radii_partial`, `C77_radius_refuted`, `C82_stack_groups`, `C82_extrude_groups`, `C95_annular_sector`, `C95_invalid_radii`, `C96_annulus_closed`, `C96_shell_closed`, `C97_sector_fan`, `C97_triangles`, `C98_quadrilateral`, `C98_default`, `C98_too_few_points`, `C99_rectangle_partial`, `C99_square_partial`, `C99_center_refuted`, `C100_shell_nodes`, `C100_shell_flags`, `C101_centers_partial`, `C101_shell_refuted`, `C102_sector_rectangle`, `C102_sector_rectangle_conform`, `C102_rectangle_sector`, `C102_rectangle_sector_conform`, `C102_sector_square`, `C102_square_sector`, `C103_constant_partial`, `C103_method_refuted`, `C104_rectangle_partial`, `C104_annular_refuted`, `C104_blocks_refuted`, `C105_curved_line`, `C105_length`, `C105_straight`, `C105_invalid_resolution`, `C107_accepted_partial`, `C107_rejected`, `C107_atomic`, `C107_large_refuted`, `C108_chords_partial`, `C108_other_axes`, `C108_axis_refuted`, `C109_plain_partial`, `C109_center_refuted`, `C110_groups_partial`, `C110_default_refuted`, `C111_strips`, `C114_preference_refuted`, `C115_circle`, `C115_polyline`, `C116_single_partial`, `C116_several_refuted`, `C117_faces_partial`, `C117_lines_partial`, `C117_parallel_refuted`, `C118_faces`, `C118_lines`, `C118_mixed_rejected`, `C118_total`, `C126_transition_outline`, `C128_sizes_rejected`, `C128_defined`, `C128_build_refuted`, `C129_no_transition`, `C129_one_transition`, `C129_mixed`, `C130_transition_groups_partial`, `C130_masks_refuted`, `C132_stack_ghosts`, `C132_extrude_ghosts`, `C132_stack_defined`, `C132_extrude_defined`, `C133_stack_groups`, `C133_extrude_groups`, `C134_stack_cell_data`, `C134_extrude_cell_data`, `C135_stack_point_data_partial`, `C135_extrude_point_data_partial`, `C135_no_point_data`, `C135_point_data_refuted`, `C139_default_surface`, `C139_default_defined`, `C140_half_stadium`, `C140_bad_resolution`, `C141_stack_cells`, `C141_extrude_cells`, `C141_stack_defined`, `C141_extrude_defined`, `C142_stack_groups`, `C142_extrude_groups`, `C143_stack_ghosts`, `C143_extrude_ghosts`, `C144_stack_cell_data`, `C144_extrude_cell_data`, `C145_line_nodes`, `C145_line_defined`, `C146_line_cells_partial`, `C146_line_cells_along_x`, `C146_line_cells_refuted`, `C153_rectangle`, `C153_annular_sector`, `C153_annular_sector_equal`, `C153_sector`, `C153_sector_equal`, `C153_frame`, `C153_filled`, `C154_rings`, `C154_sector_ring`, `C154_ring_frame`, `C154_frame_rectangles`, `C156_load_well`, `C156_areas`, `C156_counts`, `C157_prism`, `C157_concave`, `C157_half_stadium`, `C158_anticline`, `C158_inactive`, `C159_stack_nodes`, `C159_extrude_nodes`, `C159_stack_even`, `C159_extrude_even`, `C160_points`, `C160_groups`, `C160_inactive`, `C161_anticline`, `C161_inactive`, `C162_nodes`, `C162_groups`, `C162_flags`, `C162_arrays`, `C162_ids`, `C162_errors`, `C163_nodes`, `C163_groups`, `C164_cells`, `C164_groups`, `C164_data`, `C164_defined`, `C164_errors`, `C165_load_well`, `C166_cells`, `C166_groups`, `C166_data`, `C166_defined`, `C166_errors`, `C167_accepted`, `C167_cells`, `C167_circles`, `C167_defined`, `C167_errors`, `C167_first_error`, `C168_nodes`, `C168_groups`, `C168_flags`, `C168_arrays`, `C168_ids`, `C168_errors`, `C169_defined`, `C169_blocks`, `C169_no_line`, `C170_defined`, `C170_mesh`, `C171_flags_partial`, `C171_flags_refuted`, `C172_layer`, `C172_extrude`, `C172_stack`, `C173_volumes`, `C174_quadrilateral`, `C175_stack`, `C175_extrude`, `C176_areas`, `C177_volumes`, `C178_points`, `C178_cells`, `C179_cells`, `C179_data`, `C179_defined`, `C180_defined`, `C181_load_voronoi`, `C181_defined`, `C182_load_voronoi`, `C182_whole`, `C182_missing`, `C186_extruded`, `C187_extruded`.
