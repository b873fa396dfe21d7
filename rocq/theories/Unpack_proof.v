From Coq Require Import Sorted Lia.
From Verif Require Import Prelude Volume_spec Topo_model Topo_spec Topo_proof Topo2_proof Topo3_proof Topo4_proof Lattice4_proof Unpack_spec.
Open Scope nat_scope.

Lemma full_row (r : list Z) : ~ In (-1)%Z r -> length (filter (fun z => negb (z =? -1)%Z) r) = length r.
Proof.
  induction r as [|z r IH]; intros H; [reflexivity|]. cbn [filter]. destruct (Z.eqb_spec z (-1)); [subst; destruct H; now left|]. cbn [negb length]. rewrite IH; [reflexivity|].
  intros Hin; apply H; now right.
Qed.
Lemma filter_short (r : list Z) f : length (filter f r) <= length r.
Proof. induction r as [|z r IH]; cbn [filter length]; [lia|]. destruct (f z); cbn [length]; lia. Qed.
Lemma rows_error faces g w : lists_once (incidences faces) g -> common_width w g ->
  (~ used 2 faces -> (forall nb, neighbor_loop (g_rows g) nb = Err TypeError) /\ connectivity_lines (g_rows g) = Err TypeError) /\
  (used 3 faces -> (forall nb, neighbor_loop (g_rows g) nb = Err ValueError) /\ connectivity_lines (g_rows g) = Err ValueError).
Proof.
  intros Ho [Hw (rf & Hrf & Hfull)].
  assert (Pos : 0 < w).
  { apply In_nth_error in Hrf as (k & Hk). destruct (once_row _ _ _ _ Ho Hk) as (f & ps & sel & n & _ & E & Hs & _). rewrite <- (Hw rf (nth_error_In _ _ Hk)), E, app_length, map_length.
    destruct sel; [congruence|cbn; lia]. }
  rewrite (used_row faces g 2), (used_row faces g 3) by (auto; lia). split.
  - intros H. assert (w = 1).
    { destruct (Nat.le_gt_cases 2 w); [|lia]. destruct H. exists rf. split; [exact Hrf|]. rewrite (full_row rf Hfull), (Hw rf Hrf). lia. }
    destruct (g_rows g) as [|r rows]; [destruct Hrf|]. pose proof (Hw r (or_introl eq_refl)) as L. destruct r as [|a [|b r]]; cbn in L; try lia. split; reflexivity.
  - intros (r3 & Hr3 & L3). pose proof (filter_short r3 (fun z => negb (z =? -1)%Z)). rewrite (Hw r3 Hr3) in *.
    destruct (g_rows g) as [|r rows]; [destruct Hrf|]. pose proof (Hw r (or_introl eq_refl)) as L. destruct r as [|a [|b [|c r]]]; cbn in L; try lia. split; reflexivity.
Qed.

Theorem unpack_errors nonzero rg d g : wf_mesh (cast d) -> extract_cell_geometry nonzero rg d = Ok g ->
  exists n faces, get_dimension d = Ok n /\ mesh_faces rg (cast d) n faces /\
    (no_collapse nonzero rg faces ->
     (~ used 2 faces -> get_neighborhood nonzero rg d = Err TypeError /\
        forall P (centers : list P), get_connectivity nonzero rg d [length (v_types (cast d)); 3] centers = Err TypeError) /\
     (used 3 faces -> get_neighborhood nonzero rg d = Err ValueError /\
        forall P (centers : list P), get_connectivity nonzero rg d [length (v_types (cast d)); 3] centers = Err ValueError)).
Proof.
  intros W E. destruct (geometry_faces _ _ _ _ W E) as (n & faces & H1 & H2 & H3). exists n, faces. split; [exact H1|]. split; [exact H2|]. intros Hn. destruct (H3 Hn) as [Ho [w Hw]].
  destruct (rows_error faces g w Ho Hw) as [A B]. unfold get_neighborhood, get_connectivity. rewrite E. cbn [bind].
  replace (list_eqb [length (v_types (cast d)); 3] [length (v_types (cast d)); 3]) with true by (symmetry; now apply list_eqb_eq). cbn [negb].
  split; intros U; [destruct (A U) as [A1 A2]|destruct (B U) as [A1 A2]]; (split; [apply A1|]); intros P centers; rewrite A2; reflexivity.
Qed.

(* ---- meshes of lines ---- *)
Lemma incid_nth i0 fcs p i f : nth_error (incid i0 fcs) p = Some (i, f) -> nth_error (concat fcs) p = Some f.
Proof.
  revert i0 p. induction fcs as [|fs fcs IH]; intros i0 p H; [destruct p; discriminate|].
  assert (E : incid i0 (fs :: fcs) = map (fun f => (i0, f)) fs ++ incid (S i0) fcs) by reflexivity. rewrite E in H. cbn [concat].
  destruct (Nat.lt_ge_cases p (length fs)) as [L|L].
  - rewrite nth_error_app1 in H |- * by (rewrite ?map_length; exact L). rewrite nth_error_map in H. destruct (nth_error fs p); [|discriminate]. cbn in H. congruence.
  - rewrite nth_error_app2 in H |- * by (rewrite ?map_length; exact L). rewrite map_length in H. eapply IH, H.
Qed.
Definition seg (e : nat * nat) : list nat := [fst e; snd e].
Section LineMesh.
Context (m : vmesh) (Hm : line_mesh m).
Lemma line_conn i ids : nth_error (v_cells m) i = Some ids -> forall c, cell_conn m i c <-> c = CIds ids.
Proof.
  intros E c. assert (N : ~ In 42 (v_types m)) by (intros H; apply (proj1 Hm) in H; lia). split.
  - intros (ids' & E' & [(H & _)|(_ & ->)]); [contradiction|]. congruence.
  - intros ->. exists ids. split; [exact E|]. right. auto.
Qed.
Lemma line_dimension : v_types m <> [] -> get_dimension (DCells m) = Ok 1%Z.
Proof.
  intros H. cbn [get_dimension].
  assert (E : mapM dim_of (v_types m) = Ok (repeat 1%Z (length (v_types m)))).
  { destruct Hm as (Ht & _). revert Ht. clear. induction (v_types m) as [|t ts IH]; intros Ht; [reflexivity|]. cbn [mapM length repeat].
    assert (D : dim_of t = Ok 1%Z) by (destruct (Ht t ltac:(now left)) as [-> | ->]; reflexivity). rewrite D. cbn [bind]. rewrite IH; [reflexivity|]. intros; apply Ht; now right. }
  rewrite E. cbn [bind]. apply zmax_repeat. destruct (v_types m); [congruence|cbn; lia].
Qed.
Lemma line_faces rg faces : mesh_faces rg m 1 faces <-> faces = map (fun ids => map seg (pairs ids)) (v_cells m).
Proof.
  assert (Sg : forall l : list (nat * nat), map (fun '(u, v) => [u; v]) l = map seg l) by (intros l; apply map_ext; intros [u v]; reflexivity).
  destruct Hm as (Ht & L & _). split.
  - intros [M1 M2]. apply nth_error_ext. intros i. rewrite nth_error_map. destruct (nth_error (v_types m) i) as [t|] eqn:Et.
    + destruct (M2 _ _ Et) as (c & fs & C1 & -> & C2). cbn in C2. destruct C2 as (ids & -> & C2). pose proof C1 as (ids' & Ec & _). apply (line_conn i ids' Ec) in C1. injection C1 as ->.
      rewrite Ec. cbn [option_map]. f_equal. destruct (Ht t (nth_error_In _ _ Et)) as [-> | ->]; inversion C2; subst; try (cbn in *; lia); apply Sg.
    + apply nth_error_None in Et. rewrite (proj2 (nth_error_None faces i)) by lia. rewrite (proj2 (nth_error_None (v_cells m) i)) by lia. reflexivity.
  - intros ->. split; [rewrite map_length; exact L|]. intros i t Et.
    destruct (nth_error (v_cells m) i) as [ids|] eqn:Ec; [|apply nth_error_None in Ec; assert (i < length (v_types m)) by (apply nth_error_Some; congruence); lia].
    exists (CIds ids), (map seg (pairs ids)). split; [now apply (line_conn i ids Ec)|]. split; [rewrite nth_error_map, Ec; reflexivity|]. cbn. exists ids. split; [reflexivity|].
    rewrite <- Sg. apply eo_line. apply Ht. eapply nth_error_In, Et.
Qed.
Lemma line_concat : concat (map (fun ids => map seg (pairs ids)) (v_cells m)) = map seg (segments m).
Proof. unfold segments. rewrite concat_map, map_map. reflexivity. Qed.

Lemma line_neighbors_of d nonzero rg : cast d = m -> get_dimension d = Ok 1%Z -> segments m <> [] -> segments_differ m -> (rg = true -> forall f, nonzero f = true) ->
  get_neighborhood nonzero rg d = Err TypeError /\
  forall P (centers : list P), get_connectivity nonzero rg d [length (v_types m); 3] centers = Err TypeError.
Proof.
  intros Ed HD Hne Hd Hz. assert (W : wf_mesh m) by (destruct Hm as (_ & A & B); split; assumption).
  pose proof (proj2 (line_faces rg _) eq_refl) as M.
  destruct (geometry_defined nonzero rg d 1%Z (map (fun ids => map seg (pairs ids)) (v_cells m))) as (g & Eg).
  { rewrite Ed; exact W. } { exact HD. } { rewrite Ed; exact M. }
  { rewrite line_concat. intros E. apply map_eq_nil in E. contradiction. }
  { intros Er f f' _ _. now apply Hz. }
  destruct (unpack_errors nonzero rg d g ltac:(rewrite Ed; exact W) Eg) as (n & faces & HD' & M' & H). rewrite Ed in M', H. rewrite HD in HD'. injection HD' as <-. apply line_faces in M'. subst faces.
  apply H; [intros Er f _; now apply Hz|].
  intros (ps & f & L2 & ND & Hps). destruct ps as [|p [|q [|]]]; try discriminate.
  destruct (Hps p ltac:(now left)) as (i & h & Hp & S1). destruct (Hps q ltac:(cbn; auto)) as (j & h' & Hq & S2).
  apply (incid_nth 0) in Hp, Hq. rewrite line_concat, nth_error_map in Hp, Hq.
  destruct (nth_error (segments m) p) as [[u v]|] eqn:Ep; [|discriminate]. destruct (nth_error (segments m) q) as [[u' v']|] eqn:Eq; [|discriminate].
  cbn in Hp, Hq. injection Hp as <-. injection Hq as <-. cbn [fst snd seg] in *.
  assert (p = q).
  { apply (Hd p q u v u' v' Ep Eq). assert (S3 : same_set [u; v] [u'; v']) by (intros x; rewrite (S1 x); symmetry; apply S2).
    pose proof (proj1 (S3 u) ltac:(cbn; auto)) as A1. pose proof (proj1 (S3 v) ltac:(cbn; auto)) as A2. pose proof (proj2 (S3 u') ltac:(cbn; auto)) as A3. pose proof (proj2 (S3 v') ltac:(cbn; auto)) as A4.
    cbn in A1, A2, A3, A4. lia. }
  subst q. inversion ND as [|? ? N _]. apply N. now left.
Qed.
Theorem line_neighbors nonzero rg : segments m <> [] -> segments_differ m -> (rg = true -> forall f, nonzero f = true) ->
  get_neighborhood nonzero rg (DCells m) = Err TypeError /\
  forall P (centers : list P), get_connectivity nonzero rg (DCells m) [length (v_types m); 3] centers = Err TypeError.
Proof.
  intros Hne. apply line_neighbors_of; [reflexivity| |exact Hne].
  apply line_dimension. intros E. apply Hne. unfold segments. destruct Hm as (_ & L & _). rewrite E in L. destruct (v_cells m); [reflexivity|discriminate].
Qed.

Lemma same_two u v u' v' : same_set [u; v] [u'; v'] -> (u = u' /\ v = v') \/ (u = v' /\ v = u').
Proof.
  intros S3. pose proof (proj1 (S3 u) ltac:(cbn; auto)) as A1. pose proof (proj1 (S3 v) ltac:(cbn; auto)) as A2. pose proof (proj2 (S3 u') ltac:(cbn; auto)) as A3. pose proof (proj2 (S3 v') ltac:(cbn; auto)) as A4.
  cbn in A1, A2, A3, A4. lia.
Qed.
Lemma joined_face ids u v : joined ids u v <-> exists f, In f (map seg (pairs ids)) /\ same_set f [u; v].
Proof.
  split.
  - intros [H|H]; [exists [u; v]|exists [v; u]]; (split; [apply in_map_iff; eexists; split; [|exact H]; reflexivity|]); intros x; cbn; tauto.
  - intros (f & Hf & S1). apply in_map_iff in Hf as ([a b] & <- & H). change (seg (a, b)) with [a; b] in S1. apply same_two in S1. destruct S1 as [[-> ->]|[-> ->]]; [now left|now right].
Qed.
Theorem line_shared nonzero rg nb : get_neighborhood nonzero rg (DCells m) = Ok nb -> (rg = true -> forall f, nonzero f = true) ->
  length nb = length (v_cells m) /\
  forall i j r ids ids', i <> j -> nth_error nb i = Some r -> nth_error (v_cells m) i = Some ids -> nth_error (v_cells m) j = Some ids' ->
    (In (Z.of_nat j) r <-> exists u v, joined ids u v /\ joined ids' u v).
Proof.
  intros E Hz. assert (W : wf_mesh m) by (destruct Hm as (_ & A & B); split; assumption).
  destruct (neighborhood_spec nonzero rg (DCells m) nb W E) as (n & faces & HD & M & H). cbn [cast] in *.
  assert (Hty : v_types m <> []) by (intros Z; cbn in HD; rewrite Z in HD; discriminate).
  rewrite (line_dimension Hty) in HD. injection HD as <-. apply line_faces in M. subst faces.
  destruct H as (L & N & _); [intros Er f _; now apply Hz|].
  split; [rewrite L; symmetry; apply Hm|]. intros i j r ids ids' Hij Er Ei Ej. rewrite (N i r Er). split.
  - intros (j' & Ej' & p & q & f & h & _ & Hp & Hq & S1). apply Nat2Z.inj in Ej'. subst j'.
    apply nth_error_In, incidences_In in Hp. apply nth_error_In, incidences_In in Hq.
    destruct Hp as (fs & Hfs & Hf). destruct Hq as (hs & Hhs & Hh). rewrite nth_error_map, Ei in Hfs. rewrite nth_error_map, Ej in Hhs. injection Hfs as <-. injection Hhs as <-.
    pose proof Hf as Hf'. apply in_map_iff in Hf' as ([u v] & <- & _). exists u, v. split; apply joined_face; [exists [u; v]|exists h]; (split; [assumption|]); intros x; [reflexivity|symmetry; apply S1].
  - intros (u & v & J1 & J2). apply joined_face in J1 as (f & Hf & S1). apply joined_face in J2 as (h & Hh & S2). exists j. split; [reflexivity|].
    assert (If : In (i, f) (incidences (map (fun ids => map seg (pairs ids)) (v_cells m)))) by (apply incidences_In; eexists; rewrite nth_error_map, Ei; split; [reflexivity|exact Hf]).
    assert (Ih : In (j, h) (incidences (map (fun ids => map seg (pairs ids)) (v_cells m)))) by (apply incidences_In; eexists; rewrite nth_error_map, Ej; split; [reflexivity|exact Hh]).
    apply In_nth_error in If as (p & Hp). apply In_nth_error in Ih as (q & Hq). exists p, q, f, h. split; [intros ->; congruence|]. split; [exact Hp|]. split; [exact Hq|].
    intros x. rewrite (S1 x). symmetry. apply S2.
Qed.
End LineMesh.

(* ---- structured grids of one row ---- *)
Lemma row_segments n : segments (grid_row n) = map (fun i => (i, S i)) (seq 0 n).
Proof. unfold segments, grid_row. cbn [v_cells]. rewrite map_map. generalize 0. induction n as [|n IH]; intros k; cbn [seq map concat]; [reflexivity|]. rewrite IH. reflexivity. Qed.
Theorem row_neighbors dims n nonzero rg : 0 < n -> In dims [[S n; 1; 1]; [1; S n; 1]; [1; 1; S n]] -> (rg = true -> forall f, nonzero f = true) ->
  get_neighborhood nonzero rg (DGrid dims (grid_row n)) = Err TypeError /\
  forall P (centers : list P), get_connectivity nonzero rg (DGrid dims (grid_row n)) [n; 3] centers = Err TypeError.
Proof.
  intros Hn Hd Hz. assert (L : line_mesh (grid_row n)).
  { split; [|split]; cbn [grid_row v_types v_cells v_locs]; [|rewrite map_length, seq_length, repeat_length; reflexivity|cbn; lia]. intros t Ht. apply repeat_spec in Ht. now left. }
  assert (E : length (v_types (grid_row n)) = n) by apply repeat_length.
  pose proof (line_neighbors_of (grid_row n) L (DGrid dims (grid_row n)) nonzero rg eq_refl) as H. rewrite E in H. apply H; [| | |exact Hz].
  - destruct n as [|n]; [lia|]. destruct Hd as [<-|[<-|[<-|[]]]]; reflexivity.
  - rewrite row_segments. destruct n; [lia|discriminate].
  - intros p q u v u' v' E1 E2 H12. rewrite row_segments, nth_error_map in E1, E2.
    assert (N : forall k x y, option_map (fun i => (i, S i)) (nth_error (seq 0 n) k) = Some (x, y) -> x = k /\ y = S k).
    { intros k x y Ek. destruct (Nat.lt_ge_cases k n) as [Lk|Lk].
      - rewrite (nth_error_nth' _ 0) in Ek by (rewrite seq_length; exact Lk). rewrite seq_nth in Ek by exact Lk. cbn in Ek. injection Ek as <- <-. auto.
      - rewrite (proj2 (nth_error_None _ _)) in Ek by (rewrite seq_length; exact Lk). discriminate. }
    apply N in E1, E2. lia.
Qed.
