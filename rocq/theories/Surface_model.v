(* Model of pvgridder/core/_helpers.py: generate_surface_from_two_lines (111-230). *)
From Verif Require Export Perc_model Grid.
Open Scope R_scope.

Notation pt := (R * R * R)%type.

Definition lerp1 (t a b : R) : R := a + t * (b - a).
Definition lerp (t : R) (a b : pt) : pt :=
  let '(ax, ay, az) := a in let '(bx, by_, bz) := b in
  (lerp1 t ax bx, lerp1 t ay by_, lerp1 t az bz).

(* A polyline PolyData.  [ln_ids] are the point ids of the first line returned
   by line.strip(join=True) (VTK) or of the closed first polygon (150-158).
   Data arrays are dictionaries of rows; "vtkGhostType" is kept apart. *)
Record line (D : Type) := mkLine {
  ln_pts : list pt; ln_ids : list nat;
  ln_pd : list (string * list D); ln_cd : list (string * list D);
  ln_ghost : option (list nat) }.
Arguments mkLine {D}.
Arguments ln_pts {D}. Arguments ln_ids {D}. Arguments ln_pd {D}.
Arguments ln_cd {D}. Arguments ln_ghost {D}.

Inductive line_arg (D : Type) := LineArr (pts : list pt) | LinePoly (l : line D).
Arguments LineArr {D}. Arguments LinePoly {D}.

Record sgrid (D : Type) := mkSgrid {
  sg_dims : shape3; sg_pts : list pt;
  sg_pd : list (string * list D); sg_cd : list (string * list D);
  sg_ghost : list nat }.
Arguments mkSgrid {D}.
Arguments sg_dims {D}. Arguments sg_pts {D}. Arguments sg_pd {D}.
Arguments sg_cd {D}. Arguments sg_ghost {D}.

(* core/_helpers.py:146-162 get_points; fancy indexing line.points[ids]. *)
Definition get_points {D} (l : line_arg D) : res (list pt) :=
  match l with
  | LineArr pts => Ok pts
  | LinePoly l =>
      mapM (fun i => match nth_error (ln_pts l) i with
                     | Some p => Ok p | None => Err IndexError end) (ln_ids l)
  end.

(* number of cells of a structured grid with the given dimensions (VTK) *)
Definition cell_shape (d : shape3) : shape3 :=
  let '(x, y, z) := d in (Nat.max 1 (x - 1), Nat.max 1 (y - 1), Nat.max 1 (z - 1))%nat.
Definition n_cells (d : shape3) : nat := size3 (cell_shape d).

(* mesh.point_data[k] = v / mesh.cell_data[k] = v: PyVista rejects a wrong length *)
Definition assign_data {D} (n : nat) (kv : string * list D) : res (string * list D) :=
  if (length (snd kv) =? n)%nat then Ok kv else Err ValueError.

Definition origin : pt := (0, 0, 0).

(* core/_helpers.py:172-208.  X[i,j] = a_i + perc_j (b_i - a_i) as a 2-D array of
   points; the branch on [plane] inserts an axis of length one and possibly
   transposes. Returns the shape and the F-ordered points of pv.StructuredGrid (210). *)
Definition surface_points (plane : string) (a b : list pt) (perc : list R)
  : res (shape3 * list pt) :=
  let n := length a in
  let m := length perc in
  let X := fun i j => lerp (nth j perc 0) (nth i a origin) (nth i b origin) in
  if String.eqb plane "xy" then Ok ((n, m, 1%nat), ravelF n m 1 (fun i j _ => X i j))
  else if String.eqb plane "yx" then Ok ((m, n, 1%nat), ravelF m n 1 (fun j i _ => X i j))
  else if String.eqb plane "xz" then Ok ((n, 1%nat, m), ravelF n 1 m (fun i _ j => X i j))
  else if String.eqb plane "zx" then Ok ((m, 1%nat, n), ravelF m 1 n (fun j _ i => X i j))
  else if String.eqb plane "yz" then Ok ((1%nat, n, m), ravelF 1 n m (fun _ i j => X i j))
  else if String.eqb plane "zy" then Ok ((1%nat, m, n), ravelF 1 m n (fun _ j i => X i j))
  else Err ValueError.

(* core/_helpers.py:111-230.  [areas] is mesh.compute_cell_sizes (VTK), a function of
   dimensions and points.  Simplification: array lines have three columns. *)
Definition generate_surface_from_two_lines {D}
  (areas : shape3 -> list pt -> list R)
  (line_a line_b : line_arg D) (plane : string) (r : resolution) (method : option string)
  : res (sgrid D) :=
  let! pa := get_points line_a in                                       (* 164 *)
  let! pb := get_points line_b in                                       (* 165 *)
  if negb (length pa =? length pb)%nat then Err ValueError              (* 167-170 *)
  else
    let! perc := resolution_to_perc r method in                         (* 172 *)
    let! dp := surface_points plane pa pb perc in
    let '(dims, pts) := dp in
    let nc := n_cells dims in
    let! data :=
      (match line_a with
       | LineArr _ => Ok ([], [], None)
       | LinePoly l =>                                                  (* 212-219 *)
           let! pd := mapM (fun kv => assign_data (length pts)
                              (fst kv, tile (snd kv) (length perc))) (ln_pd l) in
           let! cd := mapM (fun kv => assign_data nc
                              (fst kv, tile (snd kv) (length perc - 1)%nat)) (ln_cd l) in
           let! gh := (match ln_ghost l with
                       | None => Ok None
                       | Some g => let g' := tile g (length perc - 1)%nat in
                                   if (length g' =? nc)%nat then Ok (Some g')
                                   else Err ValueError
                       end) in
           Ok (pd, cd, gh)
       end) in
    let '(pd, cd, gh) := data in
    let ghost := match gh with Some g => g | None => repeat 0%nat nc end in  (* 222-223 *)
    let mask := map (fun x => Reqb (Rabs x) 0) (areas dims pts) in      (* 225-228 *)
    Ok (mkSgrid dims pts pd cd (mask_set 32%nat mask ghost)).
