From Coq Require Import Reals Lra.
From Verif Require Import Prelude Surface_model Volume_model Volume_spec Polygon_model Input_model Encl_spec Solid_model Solid_spec Solid_proof.
Open Scope R_scope.

(* C157: the prism over any polygon of the plane given by its corners *)
Theorem C157_prism :
  forall gm result p q r rest, let ps := p :: q :: r :: rest in
  p <> last ps p ->
  exists v faces, polygon_prism gm result true (flat_rows ps) = Ok v /\
    decode (uv_types v) (uv_stream v) = Some [Poly faces] /\ length faces = (length ps + 2)%nat /\
    uv_pts v = map (fun c => (fst c, snd c, 0)) ps ++ map (fun c => (fst c, snd c, 1)) ps /\
    closed_oriented faces /\
    (0 <= corner_turn p q r -> enclosed_volume (at_pts (uv_pts v)) faces = shoelace ps) /\
    (corner_turn p q r < 0 -> enclosed_volume (at_pts (uv_pts v)) faces = - shoelace ps).
Proof. exact prism_ok. Qed.
Print Assumptions C157_prism.

(* the L of load_concave_polyhedron encloses its volume, turned outwards *)
Theorem C157_concave :
  forall gm result, exists v faces, concave_polyhedron gm result true = Ok v /\
    decode (uv_types v) (uv_stream v) = Some [Poly faces] /\ length faces = 8%nat /\
    closed_oriented faces /\ enclosed_volume (at_pts (uv_pts v)) faces = 11.
Proof.
  intros gm result.
  destruct (C157_prism gm result (0, 0) (5, 0) (5, 1) [(1, 1); (1, 7); (0, 7)]) as (v & faces & A & B & C & _ & E & F & _).
  { cbn. intros [= H]. lra. }
  exists v, faces. split; [exact A|]. split; [exact B|]. split; [exact C|]. split; [exact E|].
  rewrite F; [unfold shoelace; cbn; lra|unfold corner_turn; cbn; lra].
Qed.
Print Assumptions C157_concave.

Theorem C157_half_stadium :
  forall gm result m, (1 <= m)%nat -> exists v faces,
    half_stadium gm result true (Z.of_nat m) = Ok v /\ decode (uv_types v) (uv_stream v) = Some [Poly faces] /\
    enclosed_volume (at_pts (uv_pts v)) faces = 2 + INR m / 2 * sin (PI / INR m).
Proof. exact stadium_volume. Qed.
Print Assumptions C157_half_stadium.

(* the same L from its fourth corner, which is concave, is turned inwards *)
Example C157_example : forall gm result, exists v faces,
  polygon_prism gm result true (flat_rows [(5, 1); (1, 1); (1, 7); (0, 7); (0, 0); (5, 0)]) = Ok v /\
  decode (uv_types v) (uv_stream v) = Some [Poly faces] /\ enclosed_volume (at_pts (uv_pts v)) faces = - 11.
Proof.
  intros gm result.
  destruct (C157_prism gm result (5, 1) (1, 1) (1, 7) [(0, 7); (0, 0); (5, 0)]) as (v & faces & A & B & _ & _ & _ & _ & G).
  { cbn. intros [= H]. lra. }
  exists v, faces. split; [exact A|]. split; [exact B|]. rewrite G; [unfold shoelace; cbn; lra|unfold corner_turn; cbn; lra].
Qed.
