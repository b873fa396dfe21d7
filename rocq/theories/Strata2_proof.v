From Coq Require Import Reals Permutation Sorted Lia.
From Verif Require Import Prelude Volume_spec Topo_model Topo_spec Topo_proof Topo2_proof Topo3_proof Topo4_proof Bulk_spec Bulk_proof Lattice_spec Lattice_proof Lattice4_proof Flat_proof
  Strata_spec Strata_proof.
Open Scope nat_scope.

Lemma list_of {A} (P : nat -> A -> Prop) k : (forall i, i < k -> exists y, P i y) -> exists l, length l = k /\ forall i, i < k -> exists y, nth_error l i = Some y /\ P i y.
Proof.
  induction k as [|k IH]; intros H; [exists []; split; [reflexivity|]; intros i Hi; lia|].
  destruct IH as (l & L & Hl); [intros i Hi; apply H; lia|]. destruct (H k ltac:(lia)) as (y & Hy). exists (l ++ [y]). split; [rewrite app_length, L; cbn; lia|].
  intros i Hi. destruct (Nat.eq_dec i k) as [->|N].
  - exists y. split; [|exact Hy]. rewrite nth_error_app2, L, Nat.sub_diag by lia. reflexivity.
  - destruct (Hl i ltac:(lia)) as (z & Hz & Pz). exists z. split; [|exact Pz]. rewrite nth_error_app1; [exact Hz|lia].
Qed.
Lemma dims_solid types : (forall t, In t types -> In t [12; 13; 42]) -> mapM dim_of types = Ok (repeat 3%Z (length types)).
Proof.
  induction types as [|t types IH]; intros H; [reflexivity|]. cbn [mapM length repeat].
  assert (E : dim_of t = Ok 3%Z) by (destruct (H t ltac:(now left)) as [<-|[<-|[<-|[]]]]; reflexivity). rewrite E. cbn [bind]. rewrite IH; [reflexivity|]. intros; apply H; now right.
Qed.

Section Strata2.
Context (base : list (nat * list nat)) (np n : nat) (invert : bool).
Context (Hb : forall b, In b base -> surface_cell np b) (Hc : conforming base).
Notation nc := (length base).
Context (m : vmesh) (cells : list vcell) (Hm : holds m cells) (Hl : length cells = n * nc).
Context (HX : forall l c b, l < n -> nth_error base c = Some b -> exists cell, nth_error cells (l * nc + c) = Some cell /\ extruded invert np l b cell).

Lemma place_of i : i < n * nc -> exists l c b, l < n /\ nth_error base c = Some b /\ i = l * nc + c.
Proof.
  intros Hi. assert (nc <> 0) by (intros E; rewrite E, Nat.mul_0_r in Hi; lia). exists (i / nc), (i mod nc).
  pose proof (Nat.mod_upper_bound i nc ltac:(lia)) as Hlt. destruct (nth_error base (i mod nc)) as [b|] eqn:E; [|apply nth_error_None in E; lia].
  exists b. split; [apply Nat.div_lt_upper_bound; lia|]. split; [reflexivity|]. pose proof (Nat.div_mod i nc ltac:(lia)). lia.
Qed.
Lemma place_lt l c b : l < n -> nth_error base c = Some b -> l * nc + c < n * nc.
Proof. intros Ln H. apply at_lt in H. nia. Qed.
Lemma cell_at l c b : l < n -> nth_error base c = Some b -> exists cell, nth_error (v_types m) (l * nc + c) = Some (fst (conn_of cell)) /\
  cell_conn m (l * nc + c) (snd (conn_of cell)) /\ extruded invert np l b cell.
Proof.
  intros Ln Hcb. destruct (HX l c b Ln Hcb) as (cell & H1 & H2). exists cell. destruct Hm as (_ & _ & H). specialize (H _ _ H1). destruct cell; cbn [conn_of fst snd]; tauto.
Qed.
Lemma types_solid t : In t (v_types m) -> In t [12; 13; 42].
Proof.
  intros Hin. apply In_nth_error in Hin as (i & Hi). assert (Hlt : i < n * nc) by (rewrite <- Hl, <- (proj1 (proj2 Hm)); apply nth_error_Some; congruence).
  destruct (place_of i Hlt) as (l & c & b & Ln & Hcb & ->). destruct (cell_at l c b Ln Hcb) as (cell & Ht & _ & HE). rewrite Hi in Ht. injection Ht as ->.
  inversion HE; subst; cbn; auto.
Qed.
Lemma solid_dimension : 0 < n * nc -> get_dimension (DCells m) = Ok 3%Z.
Proof.
  intros H. cbn [get_dimension]. rewrite (dims_solid _ types_solid). cbn [bind]. apply zmax_repeat. rewrite (proj1 (proj2 Hm)), Hl. exact H.
Qed.

Lemma mesh_keyed rg faces : mesh_faces rg m 3 faces -> forall i fs, nth_error faces i = Some fs ->
  exists ks, Forall2 (fun f k => same_set f (kset base np k)) fs ks /\ NoDup ks /\ forall k, In k ks <-> khas base n i k.
Proof.
  intros [M1 M2] i fs Hi. assert (Hlt : i < n * nc) by (rewrite <- Hl, <- (proj1 (proj2 Hm)), <- M1; apply nth_error_Some; congruence).
  destruct (place_of i Hlt) as (l & c & b & Ln & Hcb & ->). destruct (cell_at l c b Ln Hcb) as (cell & Ht & Hcc & HE).
  destruct (M2 _ _ Ht) as (cn & fs' & C1 & C2 & C3). cbn in C3. rewrite (cell_conn_fun _ _ _ _ C1 Hcc) in C3. rewrite Hi in C2. injection C2 as <-.
  destruct (extruded_keyed base np invert Hb l c b cell fs Hcb HE C3) as (ks & F & ND & Hk). exists ks. split; [exact F|]. split; [exact ND|].
  intros k. rewrite (Hk k). split.
  - intros K. exists l, c, b. auto.
  - intros K. eapply (khas_place base n l c) in K as (b' & E & _ & K); [|eapply at_lt; eauto|reflexivity]. congruence.
Qed.
Lemma mesh_faces_exist rg : exists faces, mesh_faces rg m 3 faces.
Proof.
  destruct (list_of (fun i fs => exists t c, nth_error (v_types m) i = Some t /\ cell_conn m i c /\ faces_of t c fs) (length (v_types m))) as (faces & L & H).
  - intros i Hi. rewrite (proj1 (proj2 Hm)), Hl in Hi. destruct (place_of i Hi) as (l & c & b & Ln & Hcb & ->). destruct (cell_at l c b Ln Hcb) as (cell & Ht & Hcc & HE).
    destruct (extruded_faces base np invert Hb l c b cell Hcb HE) as (fs & F). eauto 10.
  - exists faces. split; [exact L|]. intros i t Ht. destruct (H i ltac:(apply nth_error_Some; congruence)) as (fs & F1 & t' & c & F2 & F3 & F4).
    exists c, fs. split; [exact F3|]. split; [exact F1|]. cbn. congruence.
Qed.
Lemma ring_refl f : same_ring f f.
Proof. exists [], f. rewrite app_nil_r. auto. Qed.
Lemma ring_rev f : same_ring (rev f) f.
Proof. exists [], f. rewrite app_nil_r. auto. Qed.
Lemma ring_turn x f h : same_ring f (x :: h) -> h = [] \/ same_ring f (h ++ [x]).
Proof.
  intros (a & b & E & H). destruct a as [|y a].
  - cbn in E. subst b. rewrite app_nil_r in H. right. exists h, [x]. split; [reflexivity|]. exact H.
  - cbn in E. injection E as <- ->. right. exists a, (b ++ [x]). split; [now rewrite app_assoc|]. rewrite <- app_assoc. exact H.
Qed.

(* faces as they are listed for one cell *)
Lemma wedge_faces l c p q r f fs : l < n -> nth_error base c = Some (5, [p; q; r]) ->
  outer_faces (Plain 13 (lift l np [p; q; r] ++ lift (S l) np [p; q; r])) fs -> In f fs -> layer_face base np n f.
Proof.
  intros Ln Hcb HO Hf. exists c, (5, [p; q; r]). split; [exact Hcb|]. cbn [lift map app] in HO. inversion HO; subst. clear HO. cbn [corners lift map].
  cbn [In] in Hf. destruct Hf as [<-|[<-|[<-|[<-|[<-|[]]]]]].
  - left. exists l. split; [lia|]. exists [p + l * np], [q + l * np; r + l * np]. split; [reflexivity|]. right. reflexivity.
  - left. exists (S l). split; [lia|]. apply ring_refl.
  - right. exists l, p, q. split; [exact Ln|]. split; [left; cbn; auto|]. apply ring_refl.
  - right. exists l, q, r. split; [exact Ln|]. split; [left; cbn; auto|]. apply ring_refl.
  - right. exists l, r, p. split; [exact Ln|]. split; [left; cbn; auto|]. exists [r + l * np], [p + l * np; p + S l * np; r + S l * np]. split; [reflexivity|]. left. reflexivity.
Qed.
Lemma hexahedron_faces l c b p q r s f fs : l < n -> nth_error base c = Some b -> corners b = [p; q; r; s] ->
  outer_faces (Plain 12 (lift l np [p; q; r; s] ++ lift (S l) np [p; q; r; s])) fs -> In f fs -> layer_face base np n f.
Proof.
  intros Ln Hcb Hr HO Hf. exists c, b. split; [exact Hcb|]. unfold side. rewrite Hr. cbn [lift map app] in HO. inversion HO; subst. clear HO. cbn [lift map ring_edges pairs app].
  cbn [In] in Hf. destruct Hf as [<-|[<-|[<-|[<-|[<-|[<-|[]]]]]]].
  - left. exists l. split; [lia|]. exists [p + l * np], [q + l * np; r + l * np; s + l * np]. split; [reflexivity|]. right. reflexivity.
  - left. exists (S l). split; [lia|]. apply ring_refl.
  - right. exists l, p, q. split; [exact Ln|]. split; [left; cbn; auto|]. apply ring_refl.
  - right. exists l, q, r. split; [exact Ln|]. split; [left; cbn; auto|]. apply ring_refl.
  - right. exists l, r, s. split; [exact Ln|]. split; [left; cbn; auto|]. apply ring_refl.
  - right. exists l, s, p. split; [exact Ln|]. split; [left; cbn; auto|]. exists [s + l * np], [p + l * np; p + S l * np; s + S l * np]. split; [reflexivity|]. left. reflexivity.
Qed.
Lemma polyhedron_rings l c ids ring f : l < n -> nth_error base c = Some (7, ids) -> ring = ids \/ (invert = true /\ ring = rev ids) ->
  In f (lift l np ring :: (if invert then rev (lift (S l) np ring) else lift (S l) np ring)
        :: map (fun '(u, v) => [u + S l * np; v + S l * np; v + l * np; u + l * np]) (ring_edges ring)) -> layer_face base np n f.
Proof.
  intros Ln Hcb Hring Hf. exists c, (7, ids). split; [exact Hcb|]. cbn [corners].
  assert (HL : forall k, same_ring (lift k np ring) (lift k np ids) /\ same_ring (rev (lift k np ring)) (lift k np ids)).
  { intros k. unfold lift. destruct Hring as [-> |[_ ->]]; [split; [apply ring_refl|apply ring_rev]|]. rewrite map_rev, rev_involutive. split; [apply ring_rev|apply ring_refl]. }
  destruct Hf as [<-|[<-|Hf]].
  - left. exists l. split; [lia|]. apply HL.
  - left. exists (S l). split; [lia|]. destruct invert; apply HL.
  - right. apply in_map_iff in Hf as ([u v] & <- & Hin). exists l, u, v. split; [exact Ln|]. split.
    + apply (ring_of_side (7, ids) ring); [destruct Hring as [-> |[_ ->]]; [left|right]; reflexivity|]. auto.
    + exists [], [u + l * np; v + l * np; v + S l * np; u + S l * np]. split; [reflexivity|]. right. reflexivity.
Qed.
Lemma listed_face cells' cf i f : get_cell_connectivity m = Ok cells' -> cell_faces (v_types m) cells' = Ok cf -> In (i, f) (incidences cf) -> layer_face base np n f.
Proof.
  intros Ec Ef Hin. destruct (connectivity_Ok m cells' (proj1 Hm) Ec) as [Lc' Hcc]. apply incidences_In in Hin as (fs & Hfs & Hf).
  destruct (cell_faces_Ok _ _ _ Lc' Ef) as [Lf Hok]. assert (Hlt : i < n * nc) by (rewrite <- Hl, <- (proj1 (proj2 Hm)), <- Lf; apply nth_error_Some; congruence).
  destruct (place_of i Hlt) as (l & c & b & Ln & Hcb & ->). destruct (cell_at l c b Ln Hcb) as (cell & Ht & Hcn & HE).
  destruct (nth_error cells' (l * nc + c)) as [cn|] eqn:Ecn.
  2:{ apply nth_error_None in Ecn. rewrite Lc' in Ecn. assert (l * nc + c < length (v_types m)) by (apply nth_error_Some; congruence). lia. }
  assert (cn = snd (conn_of cell)) as -> by (eapply cell_conn_fun; eauto).
  pose proof (Hb _ (nth_error_In _ _ Hcb)) as (Hs & _ & _).
  inversion HE as [ids E1 E2|ids E1 E2|p q r s E1 E2|ids ring Hring E1 E2]; subst; cbn [conn_of fst snd] in Ht, Ecn.
  - assert (L : length ids = 3) by (destruct Hs as [[[_ L]|[[E|E] _]]|[E _]]; cbn in *; try discriminate; exact L). destruct ids as [|p [|q [|r [|]]]]; try discriminate.
    destruct (cell_faces_at _ _ _ _ _ _ Ef Lc' Ht Ecn ltac:(auto)) as (fs' & Hf' & HT). assert (fs' = fs) by congruence. subst fs'.
    eapply wedge_faces; [exact Ln|exact Hcb|apply outer_table; [|exact HT]|exact Hf]. left. auto.
  - assert (L : length ids = 4) by (destruct Hs as [[[E _]|[_ L]]|[E _]]; cbn in *; try discriminate; exact L). destruct ids as [|p [|q [|r [|s [|]]]]]; try discriminate.
    destruct (cell_faces_at _ _ _ _ _ _ Ef Lc' Ht Ecn ltac:(auto)) as (fs' & Hf' & HT). assert (fs' = fs) by congruence. subst fs'.
    eapply (hexahedron_faces l c); [exact Ln|exact Hcb|reflexivity|apply outer_table; [|exact HT]|exact Hf]. right. auto.
  - destruct (cell_faces_at _ _ _ _ _ _ Ef Lc' Ht Ecn ltac:(auto)) as (fs' & Hf' & HT). assert (fs' = fs) by congruence. subst fs'.
    eapply (hexahedron_faces l c); [exact Ln|exact Hcb|reflexivity|apply outer_table; [|exact HT]|exact Hf]. right. auto.
  - destruct (Hok _ _ _ Ht Ecn) as (fs' & Hf' & HT). assert (fs' = fs) by congruence. subst fs'. inversion HT; subst.
    eapply polyhedron_rings; eauto.
Qed.

Lemma drop_kept nonzero g : (forall f, In f (g_faces g) -> nonzero f = true) -> drop_collapsed nonzero g = Ok g.
Proof.
  intros H. unfold drop_collapsed. replace (forallb (fun b => b) (map nonzero (g_faces g))) with true; [reflexivity|]. symmetry. apply forallb_forall.
  intros b Hin. apply in_map_iff in Hin as (f & <- & Hf). now apply H.
Qed.
Lemma strata_geometry nonzero rg : 0 < n * nc -> (rg = true -> forall f, layer_face base np n f -> nonzero f = true) ->
  exists g w faces, extract_cell_geometry nonzero rg (DCells m) = Ok g /\ lists_once (incidences faces) g /\ common_width w g /\ length faces = n * nc /\
    forall i fs, nth_error faces i = Some fs -> exists ks, Forall2 (fun f k => same_set f (kset base np k)) fs ks /\ NoDup ks /\ forall k, In k ks <-> khas base n i k.
Proof.
  intros Hpos Hz. pose proof (solid_dimension Hpos) as HD. destruct (mesh_faces_exist rg) as (faces0 & M0). pose proof (proj1 Hm) as W.
  destruct (geometry_defined (fun _ => true) rg (DCells m) 3%Z faces0 W HD M0) as (g & Eg).
  - intros E. destruct (nth_error faces0 0) as [fs|] eqn:E0.
    + destruct (place_of 0 Hpos) as (l & c & b & Ln & Hcb & Ei). destruct (mesh_keyed rg faces0 M0 0 fs E0) as (ks & F & _ & Hk).
      assert (K : In (inl (c, l)) ks) by (apply Hk; exists l, c, b; cbn [kof]; auto 10). destruct F as [|f k fs ks S1 F]; [destruct K|].
      assert (Q : In f (concat faces0)) by (apply in_concat; exists (f :: fs); split; [eapply nth_error_In, E0|now left]). rewrite E in Q. destruct Q.
    + apply nth_error_None in E0. rewrite (proj1 M0) in E0. change (cast (DCells m)) with m in *. rewrite (proj1 (proj2 Hm)), Hl in E0. lia.
  - auto.
  - destruct (geometry_faces (fun _ => true) rg (DCells m) g W Eg) as (k & faces & HD' & M & H). rewrite HD in HD'. injection HD' as <-.
    destruct H as (Ho & w & Hw). { intros Er f Hf. reflexivity. }
    exists g, w, faces. split; [|split; [exact Ho|]; split; [exact Hw|]; split; [|eapply mesh_keyed; eauto]].
    2:{ rewrite (proj1 M). change (cast (DCells m)) with m. now rewrite (proj1 (proj2 Hm)). }
    revert Eg. unfold extract_cell_geometry. rewrite HD. cbn [bind]. change ((3 =? 1)%Z || (3 =? 2)%Z) with false. cbv iota. change (cast (DCells m)) with m.
    destruct (get_cell_connectivity m) as [cells'|] eqn:Ec; [|discriminate]. cbn [bind]. destruct (cell_faces (v_types m) cells') as [cf|] eqn:Ef; [|discriminate]. cbn [bind].
    destruct (get_polydata cf) as [g0|] eqn:E0; [|discriminate]. cbn [bind]. destruct rg; [|auto]. rewrite drop_nothing. intros [= ->]. apply drop_kept.
    intros f Hf. apply (Hz eq_refl). destruct (get_polydata_once _ _ E0) as (Ho0 & _). destruct (once_faces_in _ _ _ Ho0 Hf) as (i & Hi). exact (listed_face cells' cf i f Ec Ef Hi).
Qed.

Lemma next_keys l c l' c' b b' : l < n -> l' < n -> nth_error base c = Some b -> nth_error base c' = Some b' ->
  (l * nc + c <> l' * nc + c' /\ (exists k, khas base n (l * nc + c) k /\ khas base n (l' * nc + c') k) <-> next_to base l c l' c').
Proof.
  intros Ln Ln' Hcb Hcb'. pose proof (at_lt _ _ _ Hcb) as Lc. pose proof (at_lt _ _ _ Hcb') as Lc'. split.
  - intros (N & k & K1 & K2). apply (khas_place base n l c) in K1 as (b0 & E0 & _ & K1); [|exact Lc|reflexivity]. rewrite Hcb in E0. injection E0 as <-.
    apply (khas_place base n l' c') in K2 as (b0 & E0 & _ & K2); [|exact Lc'|reflexivity]. rewrite Hcb' in E0. injection E0 as <-.
    destruct k as [[c0 l0]|[[u v] l0]]; cbn [kof] in *.
    + left. assert (c = c') as <- by lia. split; [reflexivity|]. assert (l <> l') by (intros <-; now apply N). unfold step. lia.
    + right. destruct K1 as (<- & _ & S1), K2 as (<- & _ & S2). split; [reflexivity|]. split; [intros <-; now apply N|]. exists b, b', u, v. auto.
  - intros [[<- Hs]|[<- (N & b0 & b0' & u & v & E1 & E2 & S1 & S2)]].
    + assert (b' = b) by congruence. subst b'. split; [intros E; apply place_inj in E as [<- _]; [unfold step in Hs; lia|exact Lc|exact Lc]|].
      destruct Hs as [-> | ->].
      * exists (inl (c, S l)). split; [exists l, c, b|exists (S l), c, b]; cbn [kof]; auto 10.
      * exists (inl (c, S l')). split; [exists (S l'), c, b|exists l', c, b]; cbn [kof]; auto 10.
    + rewrite Hcb in E1. injection E1 as <-. rewrite Hcb' in E2. injection E2 as <-. split; [intros E; apply place_inj in E as [_ <-]; auto|].
      assert (Nuv : u <> v).
      { intros <-. destruct (corners_form np b (Hb _ (nth_error_In _ _ Hcb))) as (ND & L3 & _). destruct S1 as [S1|S1]; exact (Ring_proof.ring_edges_asym _ u u ND L3 S1 S1). }
      assert (Sw : forall x, side x u v -> side x (min u v) (max u v)).
      { intros x Hx. unfold side in *. destruct (Nat.le_gt_cases u v); [rewrite Nat.min_l, Nat.max_r by lia|rewrite Nat.min_r, Nat.max_l by lia]; tauto. }
      exists (inr (min u v, max u v, l)). split; [exists l, c, b|exists l, c', b']; (do 2 (split; [assumption|])); (split; [reflexivity|]); cbn [kof]; (split; [reflexivity|]); (split; [lia|]); auto.
Qed.

Lemma strata_neighbors nonzero rg : (exists l c l' c', l < n /\ l' < n /\ c < nc /\ c' < nc /\ next_to base l c l' c') ->
  (rg = true -> forall f, layer_face base np n f -> nonzero f = true) ->
  (exists nb, get_neighborhood nonzero rg (DCells m) = Ok nb /\ length nb = n * nc /\
    forall l c, l < n -> c < nc -> exists r, nth_error nb (l * nc + c) = Some r /\ NoDup r /\
      forall z, In z r <-> exists l' c', l' < n /\ c' < nc /\ z = Z.of_nat (l' * nc + c') /\ next_to base l c l' c') /\
  exists lines, (forall P (centers : list P), get_connectivity nonzero rg (DCells m) [n * nc; 3] centers = Ok (centers, lines)) /\ NoDup lines /\
    forall z, In z lines <-> exists l c l' c', l < n /\ c < nc /\ l' < n /\ c' < nc /\
      z = (Z.of_nat (l * nc + c), Z.of_nat (l' * nc + c')) /\ l * nc + c < l' * nc + c' /\ next_to base l c l' c'.
Proof.
  intros (l0 & c0 & l0' & c0' & A1 & A2 & A3 & A4 & A5) Hz.
  assert (At : forall c, c < nc -> exists b, nth_error base c = Some b).
  { intros c Lc. destruct (nth_error base c) eqn:E; [eauto|]. apply nth_error_None in E. lia. }
  destruct (strata_geometry nonzero rg ltac:(nia) Hz) as (g & w & faces & Ex & Ho & Hw & Len & HK).
  assert (Dom : forall i k, khas base n i k -> i < length faces).
  { intros i k (l & c & b & Ln & Hcb & -> & _). rewrite Len. eapply place_lt; eauto. }
  destruct (keyed_neighbors faces (khas base n) (kset base np) HK Dom (kset_inj base np n Hb Hc) (ktwo base n Hc) (kone base n Hc) g w Ho Hw) as (nb & En & Ln & H).
  { destruct (At c0 A3) as (b0 & B0). destruct (At c0' A4) as (b0' & B0'). destruct (proj2 (next_keys l0 c0 l0' c0' b0 b0' A1 A2 B0 B0') A5) as (N & k & K1 & K2). eauto 10. }
  split.
  { exists nb. unfold get_neighborhood. rewrite Ex. cbn [bind cast]. assert (El : length (v_types m) = length faces) by (rewrite Len, <- Hl; apply Hm). rewrite El.
    split; [exact En|]. split; [lia|]. intros l c Hn1 Hc1. destruct (At c Hc1) as (b & B). pose proof (place_lt l c b Hn1 B) as Hlt.
    destruct (nth_error nb (l * nc + c)) as [r|] eqn:Er; [|apply nth_error_None in Er; lia]. exists r. split; [reflexivity|]. destruct (H _ _ Er) as (ND & Hin). split; [exact ND|].
    intros z. rewrite (Hin z). split.
    - intros (j & -> & N & k & K1 & K2). pose proof K2 as (l' & c' & b' & Hn2 & B' & -> & _). exists l', c'. split; [exact Hn2|]. split; [eapply at_lt; eauto|]. split; [reflexivity|].
      apply (next_keys l c l' c' b b'); eauto.
    - intros (l' & c' & Hn2 & Hc2 & -> & Hx). destruct (At c' Hc2) as (b' & B'). apply (next_keys l c l' c' b b' Hn1 Hn2 B B') in Hx as (N & k & K1 & K2). exists (l' * nc + c'). eauto 10. }
  destruct (neighbor_loop_Ok _ _ _ En) as (_ & H2 & _). destruct (connectivity_lines_def _ H2) as (lines & El').
  destruct (keyed_lines faces (khas base n) (kset base np) HK Dom (kset_inj base np n Hb Hc) (kone base n Hc) g lines Ho El') as (ND & HL). exists lines. split; [|split; [exact ND|]].
  - intros P centers. unfold get_connectivity. cbn [cast]. assert (El : length (v_types m) = n * nc) by (rewrite <- Hl; apply Hm).
    rewrite El. replace (list_eqb [n * nc; 3] [n * nc; 3]) with true by (symmetry; now apply list_eqb_eq). cbn [negb]. rewrite Ex. cbn [bind]. rewrite El'. reflexivity.
  - intros z. rewrite (HL z). split.
    + intros (i & j & -> & Lt & k & K1 & K2). pose proof K1 as (l & c & b & Hn1 & B & -> & _). pose proof K2 as (l' & c' & b' & Hn2 & B' & -> & _).
      exists l, c, l', c'. split; [exact Hn1|]. split; [eapply at_lt; eauto|]. split; [exact Hn2|]. split; [eapply at_lt; eauto|]. split; [reflexivity|]. split; [exact Lt|].
      apply (next_keys l c l' c' b b'); eauto. split; [lia|eauto].
    + intros (l & c & l' & c' & Hn1 & Hc1 & Hn2 & Hc2 & -> & Lt & Hx). destruct (At c Hc1) as (b & B). destruct (At c' Hc2) as (b' & B').
      apply (next_keys l c l' c' b b' Hn1 Hn2 B B') in Hx as (N & k & K1 & K2). exists (l * nc + c), (l' * nc + c'). eauto 10.
Qed.
End Strata2.
