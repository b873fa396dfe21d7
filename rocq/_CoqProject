-Q theories Verif
theories/Vec_spec.v
theories/Prelude.v
theories/RealAux.v
theories/Perc_model.v
theories/Perc_spec.v
theories/Perc_proof.v
theories/Perc_props.v
theories/Grid.v
theories/Surface_model.v
theories/Surface_spec.v
theories/Surface_proof.v
theories/Surface_props.v
theories/Volume_model.v
theories/Volume_spec.v
theories/Volume_proof.v
theories/Ring_proof.v
theories/UVol_proof.v
theories/UVol2_proof.v
theories/UVol3_proof.v
theories/Encl_spec.v
theories/Encl_proof.v
theories/Volume_props.v
theories/Groups_model.v
theories/Groups_spec.v
theories/Groups_proof.v
theories/Groups2_proof.v
theories/Groups3_proof.v
theories/GNumber_spec.v
theories/GNumber_proof.v
theories/Groups_props.v
theories/SMerge_model.v
theories/SMerge_spec.v
theories/SMerge_proof.v
theories/Stack_model.v
theories/Stack_spec.v
theories/Cut_proof.v
theories/Gen_proof.v
theories/Stack_proof.v
theories/Stack2_proof.v
theories/Stack3_proof.v
theories/Stack4_proof.v
theories/Stack5_proof.v
theories/Stack6_proof.v
theories/Stack7_proof.v
theories/Plane_proof.v
theories/Settle_spec.v
theories/Settle_proof.v
theories/Stack_props.v
theories/Topo_model.v
theories/Topo_spec.v
theories/Topo_proof.v
theories/Topo2_proof.v
theories/Topo3_proof.v
theories/Topo4_proof.v
theories/Topo5_proof.v
theories/Topo6_proof.v
theories/Center_model.v
theories/Center_spec.v
theories/Center_proof.v
theories/Center2_proof.v
theories/Center3_proof.v
theories/Center4_proof.v
theories/Topo7_proof.v
theories/Topo_props.v
theories/Lines_model.v
theories/Lines_spec.v
theories/Lines1_proof.v
theories/Lines2_proof.v
theories/Lines3_proof.v
theories/Lines4_proof.v
theories/Lines5_proof.v
theories/Lines_props.v
theories/Polygon_model.v
theories/Polygon_spec.v
theories/Polygon1_proof.v
theories/Polygon2_proof.v
theories/Polygon3_proof.v
theories/Polygon4_proof.v
theories/Polygon5_proof.v
theories/Polygon_props.v
theories/Voronoi_model.v
theories/Voronoi_spec.v
theories/Voronoi1_proof.v
theories/Voronoi2_proof.v
theories/Voronoi3_proof.v
theories/Voronoi4_proof.v
theories/Voronoi5_proof.v
theories/Voronoi6_proof.v
theories/Regions_proof.v
theories/Voronoi_props.v
theories/Interactive_model.v
theories/Interactive_spec.v
theories/Interactive_proof.v
theories/Interactive_props.v
theories/Objects_model.v
theories/Objects_spec.v
theories/Objects1_proof.v
theories/Objects2_proof.v
theories/Objects3_proof.v
theories/Objects4_proof.v
theories/Objects5_proof.v
theories/Objects_props.v
theories/Seeds_model.v
theories/Seeds_spec.v
theories/Seeds1_proof.v
theories/Seeds2_proof.v
theories/Seeds3_proof.v
theories/Seeds4_proof.v
theories/Seeds5_proof.v
theories/Seeds6_proof.v
theories/Seeds7_proof.v
theories/Seeds_props.v
theories/Cast_model.v
theories/Cast_spec.v
theories/Cast1_proof.v
theories/Cast2_proof.v
theories/Cast3_proof.v
theories/Cast4_proof.v
theories/Cast5_proof.v
theories/Cast_props.v
theories/Trans_model.v
theories/Trans_spec.v
theories/Trans1_proof.v
theories/Trans2_proof.v
theories/Trans3_proof.v
theories/Trans4_proof.v
theories/Trans5_proof.v
theories/Trans6_proof.v
theories/Trans_props.v
theories/Final_model.v
theories/Final_spec.v
theories/Final1_proof.v
theories/Final2_proof.v
theories/Final3_proof.v
theories/Final4_proof.v
theories/Final_props.v
theories/Input_model.v
theories/Input_spec.v
theories/Input1_proof.v
theories/Input2_proof.v
theories/Input_props.v
theories/Unstr_model.v
theories/Unstr_spec.v
theories/Unstr1_proof.v
theories/Unstr2_proof.v
theories/Unstr3_proof.v
theories/Unstr4_proof.v
theories/Unstr_props.v
theories/Line_spec.v
theories/Line1_proof.v
theories/Line2_proof.v
theories/Line3_proof.v
theories/Line_props.v
theories/Surface2_spec.v
theories/Surface2_proof.v
theories/VFinal_model.v
theories/VFinal_spec.v
theories/VFinal_proof.v
theories/VFinal2_proof.v
theories/VFinal_props.v
theories/VProg_model.v
theories/VProg_spec.v
theories/VProg_proof.v
theories/VProg_props.v
theories/Trip_spec.v
theories/Trip_proof.v
theories/Trip2_proof.v
theories/Trip_props.v
theories/MMerge_model.v
theories/MMerge_spec.v
theories/MMerge_proof.v
theories/MMerge_props.v
theories/Tile_spec.v
theories/Tile_proof.v
theories/Tile_props.v
theories/Paint_spec.v
theories/Paint_proof.v
theories/Tidy_proof.v
theories/Well_model.v
theories/Well_spec.v
theories/Well_proof.v
theories/Paint_props.v
theories/Well_props.v
theories/Solid_model.v
theories/Solid_spec.v
theories/Solid_proof.v
theories/Solid_props.v
theories/Anticline_model.v
theories/Anticline_spec.v
theories/Anticline_proof.v
theories/Anticline_props.v
theories/Nodes_spec.v
theories/Nodes_proof.v
theories/Nodes_props.v
theories/Sweep_model.v
theories/Sweep_spec.v
theories/Sweep_proof.v
theories/Sweep_props.v
theories/Anticline3_model.v
theories/Anticline3_spec.v
theories/Anticline3_proof.v
theories/Anticline3_props.v
theories/Pile_model.v
theories/Pile_spec.v
theories/Pile_proof.v
theories/Pile_props.v
theories/Terrain_model.v
theories/Terrain_spec.v
theories/Terrain_proof.v
theories/Terrain_props.v
theories/Sweep2_model.v
theories/Sweep2_spec.v
theories/Sweep2_proof.v
theories/Sweep2_props.v
theories/Well3_model.v
theories/Well3_spec.v
theories/Well3_proof.v
theories/Well3_props.v
theories/Pile2_model.v
theories/Pile2_spec.v
theories/Pile2_proof.v
theories/Pile2_props.v
theories/Pile3_model.v
theories/Pile3_spec.v
theories/Pile3_proof.v
theories/Pile3_props.v
theories/Pile4_model.v
theories/Pile4_spec.v
theories/Pile4_proof.v
theories/Pile4b_proof.v
theories/Pile4c_proof.v
theories/Pile4_props.v
theories/Gather_proof.v
theories/Pile5_model.v
theories/Pile5_spec.v
theories/Pile5_proof.v
theories/Pile5b_proof.v
theories/Pile5_props.v
theories/Bulk_spec.v
theories/Bulk_proof.v
theories/Bulk_props.v
theories/Bulk2_proof.v
theories/Bulk2_props.v
theories/Bulk3_proof.v
theories/Bulk3_props.v
theories/Bulk4_spec.v
theories/Bulk4_proof.v
theories/Bulk4_props.v
theories/Flat_proof.v
theories/Reject_props.v
theories/Spin_spec.v
theories/Spin_proof.v
theories/Spin_props.v
theories/Spin2_spec.v
theories/Spin2_proof.v
theories/Spin2_props.v
theories/VDef_spec.v
theories/VDef_proof.v
theories/VDef_props.v
theories/Well4_model.v
theories/Well4_spec.v
theories/Well4_proof.v
theories/Well5_proof.v
theories/Well7_proof.v
theories/Well6_proof.v
theories/Well4_props.v
theories/Nearest_spec.v
theories/Nearest_proof.v
theories/Nearest_props.v
theories/Lattice_spec.v
theories/Lattice_proof.v
theories/Lattice2_proof.v
theories/Lattice3_proof.v
theories/Lattice4_proof.v
theories/Lattice_props.v
theories/Lattice5_proof.v
theories/Lattice6_proof.v
theories/Lattice7_proof.v
theories/Lattice2_props.v
theories/Strata_spec.v
theories/Strata_proof.v
theories/Strata2_proof.v
theories/Strata3_proof.v
theories/Strata_props.v
theories/Sides_spec.v
theories/Sides_proof.v
theories/Sides_props.v
theories/Unpack_spec.v
theories/Unpack_proof.v
theories/Single_proof.v
theories/Unpack_props.v
theories/Agree_spec.v
theories/Agree_proof.v
theories/Agree_props.v
theories/Hidden_spec.v
theories/Hidden_proof.v
theories/Hidden2_proof.v
theories/Hidden_props.v
theories/Shell_proof.v
theories/Shell_props.v
