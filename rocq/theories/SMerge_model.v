(* Model of pvgridder/utils/_misc.py merge (891-988), structured branch. *)
From Verif Require Export Volume_model.
Open Scope R_scope.

(* entry (i,j,k) of an F-ordered array of the given shape *)
Definition fget {A} (d : A) (s : shape3) (v : list A) (c : shape3) : A := nth (fidx s c) v d.

(* a[..., i, ...] along [axis]: F-ordered entries of the slice *)
Definition slice (axis i : nat) (s : shape3) (v : list pt) : list pt :=
  let '(nx, ny, nz) := setc axis 1%nat s in
  ravelF nx ny nz (fun x y z => fget origin s v (setc axis i (x, y, z))).

(* np.concatenate((a, b[.., skip:, ..]), axis).ravel(order="F") on arrays of shapes sa, sb *)
Definition concat_axis {A} (d : A) (axis skip : nat) (sa sb : shape3) (a b : list A) : list A :=
  let '(nx, ny, nz) := setc axis (comp axis sa + (comp axis sb - skip))%nat sa in
  ravelF nx ny nz (fun x y z =>
    let c := (x, y, z) in
    if (comp axis c <? comp axis sa)%nat then fget d sa a c
    else fget d sb b (setc axis (comp axis c - comp axis sa + skip)%nat c)).

Fixpoint lookup {X} (k : string) (l : list (string * X)) : option X :=
  match l with
  | [] => None
  | (k', v) :: l' => if String.eqb k k' then Some v else lookup k l'
  end.

(* utils/_misc.py:966-981: reshape, concatenate and ravel one array; the length is checked
   by PyVista on assignment.  An empty array has no entry to read. *)
Definition merge_array {A} (axis : nat) (da db : shape3) (n : nat) (a b : list A) : res (list A) :=
  if negb ((length a =? n_cells da) && (length b =? n_cells db))%nat then Err ValueError
  else match a with
       | [] => Err ValueError
       | d :: _ =>
           let v := concat_axis d axis 0%nat (cell_shape da) (cell_shape db) a b in
           if (length v =? n)%nat then Ok v else Err ValueError
       end.

(* utils/_misc.py:974-982: loop over the arrays of mesh_a *)
Fixpoint merge_cell_data {D} (axis : nat) (da db : shape3) (n : nat)
  (cda cdb : list (string * list D)) : res (list (string * list D)) :=
  match cda with
  | [] => Ok []
  | (k, v) :: cda' =>
      match lookup k cdb with
      | None => merge_cell_data axis da db n cda' cdb
      | Some w =>
          let! x := merge_array axis da db n v w in
          let! xs := merge_cell_data axis da db n cda' cdb in
          Ok ((k, x) :: xs)
      end
  end.

(* utils/_misc.py:924-984: one step of the loop.  Slices of different shapes do not
   concatenate (ValueError of NumPy).  Point data are not copied.  "vtkGhostType" is an
   array like the others; [] stands for its absence. *)
Definition merge2 {D} (axis : nat) (a b : sgrid D) : res (sgrid D) :=
  let da := sg_dims a in let db := sg_dims b in
  if ((comp axis da =? 0) || (comp axis db =? 0))%nat then Err IndexError
  else if negb (shape_eqb (setc axis 0%nat da) (setc axis 0%nat db)) then Err ValueError
  else if negb (all_close (slice axis (comp axis da - 1)%nat da (sg_pts a))
                          (slice axis 0%nat db (sg_pts b))) then Err ValueError  (* 925-958 *)
  else
    let dims := setc axis (comp axis da + (comp axis db - 1))%nat da in
    let pts := concat_axis origin axis 1%nat da db (sg_pts a) (sg_pts b) in      (* 960-963 *)
    let! cd := merge_cell_data axis da db (n_cells dims) (sg_cd a) (sg_cd b) in  (* 965-982 *)
    let! gh := (match sg_ghost a, sg_ghost b with
                | [], _ | _, [] => Ok []
                | ga, gb => merge_array axis da db (n_cells dims) ga gb
                end) in
    Ok (mkSgrid dims pts [] cd gh).

(* utils/_misc.py:923-984: loop over dataset[1:] *)
Fixpoint merge_fold {D} (axis : nat) (a : sgrid D) (l : list (sgrid D)) : res (sgrid D) :=
  match l with
  | [] => Ok a
  | b :: l' => let! m := merge2 axis a b in merge_fold axis m l'
  end.

(* utils/_misc.py:915-988, all datasets structured *)
Definition merge_structured {D} (l : list (sgrid D)) (axis : option nat) : res (sgrid D) :=
  match l with
  | [] => Err IndexError                                     (* 916: dataset[0] *)
  | [a] => Ok a                                              (* 915-916 *)
  | a :: l' => match axis with
               | None => Err ValueError                      (* 919-920 *)
               | Some ax => merge_fold ax a l'
               end
  end.
