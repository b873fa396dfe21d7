(* Model of programs of VoronoiMesh2D: VoronoiMesh2D(mesh, axis).add(...)….add_circle(...)….generate_mesh(...)
   (core/voronoi.py:20-507).  Calls are chained (101, 181, 322 return self): the first one that raises
   ends the program. *)
From Coq Require Import Reals.
From Verif Require Export Prelude.
From Verif Require Import Perc_model Grid Surface_model Volume_model Groups_model Lines_model Voronoi_model Objects_model
  Seeds_model VFinal_model.
Open Scope R_scope.

(* the arguments of a call of add (a mesh, 62-101, or points), add_circle (103-181) or add_polyline (183-322) *)
Inductive vcall (D : Type) :=
| CallMesh (m : gmesh cell) (poly : bool) (priority : Z) (group : string)
| CallPoints (rows : list (list R)) (priority : Z) (group : string)
| CallCircle (radius : R) (constraint_radius : option R) (res : resolution) (center : option (list R))
    (plain : bool) (priority : Z) (group : string)
| CallLine (arg : list pt + lmesh pt D) (width : R) (pref : preference) (padding : option R) (cs ce : nat)
    (res : resolution) (priority : option Z) (group : string).
Arguments CallMesh {D}. Arguments CallPoints {D}. Arguments CallCircle {D}. Arguments CallLine {D}.

Section Program.
Context {D : Type} (areas : shape3 -> list pt -> list R) (swap : bool).

(* core/voronoi.py:62-322 *)
Definition run_call (axis : nat) (s : seeds) (c : vcall D) : seeds * res unit :=
  match c with
  | CallMesh m poly priority group => (add_mesh axis s m poly priority group, Ok tt)
  | CallPoints rows priority group => add_points axis s rows priority group
  | CallCircle radius cr res center plain priority group =>
      add_circle areas swap axis s radius cr res center plain priority group
  | CallLine arg width pref padding cs ce res priority group =>
      add_polyline areas axis s arg width pref padding cs ce res priority group
  end.

Fixpoint run_calls (axis : nat) (s : seeds) (calls : list (vcall D)) : seeds * res unit :=
  match calls with
  | [] => (s, Ok tt)
  | c :: calls' => match run_call axis s c with
                   | (s', Ok _) => run_calls axis s' calls'
                   | (s', Err e) => (s', Err e)
                   end
  end.

(* 20-60 (no items, no functions), the calls, then generate_mesh (324-507) *)
Definition voronoi_program (g : vgeo cell) (o : options) (b : vbase cell) (calls : list (vcall D))
  (vo : voptions) (t : vtools) : res vreturned :=
  match run_calls (v_axis vo) (mkSeeds [] []) calls with
  | (s, Ok _) => generate_seeds g o b s vo t
  | (_, Err e) => Err e
  end.
End Program.
