(* Structured grids and their casts have the dimension of their cells. *)
From Verif Require Import Prelude Topo_model Topo_spec Lattice_spec Lattice2_proof Lattice3_proof.
Open Scope nat_scope.

Lemma zmax_repeat z n : 0 < n -> zmax (repeat z n) = Ok z.
Proof.
  destruct n; [lia|]. intros _. cbn [repeat zmax]. f_equal. induction n; [reflexivity|]. cbn [repeat fold_left]. now rewrite Z.max_id.
Qed.
Lemma dims_repeat t z n : dim_of t = Ok z -> mapM dim_of (repeat t n) = Ok (repeat z n).
Proof. intros E. induction n; [reflexivity|]. cbn [repeat mapM]. rewrite E. cbn [bind]. rewrite IHn. reflexivity. Qed.

Lemma hexahedra_dimension nx ny nz m d : hexahedra nx ny nz m -> 1 < nx * ny * nz -> d = DGrid [S nx; S ny; S nz] m \/ d = DCells m ->
  cast d = m /\ get_dimension d = Ok 3%Z.
Proof.
  intros (Ht & _) Hn [ -> | ->]; (split; [reflexivity|]); cbn [get_dimension].
  - destruct nx as [|a]; [cbn in Hn; lia|]. destruct ny as [|b]; [rewrite Nat.mul_0_r in Hn; cbn in Hn; lia|]. destruct nz as [|c]; [rewrite Nat.mul_0_r in Hn; lia|]. reflexivity.
  - rewrite Ht, (dims_repeat 12 3%Z) by reflexivity. cbn [bind]. apply zmax_repeat. lia.
Qed.
Lemma quadrilaterals_dimension nx ny m d : quadrilaterals nx ny m -> 1 < nx * ny ->
  d = DGrid [S nx; S ny; 1] m \/ d = DGrid [S nx; 1; S ny] m \/ d = DGrid [1; S nx; S ny] m \/ d = DCells m ->
  cast d = m /\ get_dimension d = Ok 2%Z.
Proof.
  intros (Ht & _) Hn H. assert (P : 0 < nx /\ 0 < ny) by (destruct nx as [|a]; [cbn in Hn; lia|]; destruct ny as [|b]; [rewrite Nat.mul_0_r in Hn; lia|]; lia).
  destruct nx as [|a], ny as [|b]; try lia. destruct H as [ -> | [ -> | [ -> | ->]]]; (split; [reflexivity|]); try reflexivity.
  cbn [get_dimension]. rewrite Ht, (dims_repeat 9 2%Z) by reflexivity. cbn [bind]. apply zmax_repeat. lia.
Qed.
