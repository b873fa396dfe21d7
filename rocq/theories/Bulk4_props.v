From Verif Require Import Lines_spec RealAux Perc_model Perc_spec Perc_proof Surface_model Surface_spec
  Volume_model Volume_spec SMerge_model SMerge_spec Groups_model Groups_spec
  Stack_model Stack_spec Final_model Final_spec Settle_spec
  Input_model Pile_model Pile_spec Pile2_spec Pile_proof Pile_props Pile3_model Pile3_spec Pile3_props Encl_spec Paint_spec Paint_proof
  Bulk_spec Bulk_proof Bulk4_spec Bulk4_proof.
From Verif Require Import Stack6_proof Final_props Line_props.
From Verif Require Lines_model Stack3_proof.
From Coq Require Import Reals Lra.
Import Lines_model(lmesh).
Open Scope nat_scope.

Lemma at_pts_coord dims pts c p : at_coord dims pts c = Some p -> at_pts pts (fidx dims c) = p.
Proof. unfold at_coord, at_pts. intros H. now rewrite (nth_error_nth _ _ _ H). Qed.

(* the call of a layer and the two ends of the layer *)
Lemma layer_call calls nsubs percs l j : call_positions (tl calls) percs -> nsubs = layers percs -> layer_in nsubs l j ->
  exists call perc t t', nth_error calls (S j) = Some call /\ resolution_to_perc (ao_res (sc_opts call)) (ao_method (sc_opts call)) = Ok perc /\
    nth_error percs j = Some perc /\ nth_error perc (l - list_sum (firstn j nsubs)) = Some t /\ nth_error perc (S l - list_sum (firstn j nsubs)) = Some t'.
Proof.
  intros HP Hn [Hlo Hhi].
  destruct (nth_error nsubs j) as [n|] eqn:En.
  2:{ apply nth_error_None in En. rewrite !firstn_all2 in * by lia. lia. }
  assert (ES : list_sum (firstn (S j) nsubs) = list_sum (firstn j nsubs) + n).
  { clear - En. revert nsubs En. induction j as [|j IH]; intros [|x ns] E; try discriminate; cbn [nth_error] in E.
    - injection E as ->. cbn. lia.
    - change (firstn (S (S j)) (x :: ns)) with (x :: firstn (S j) ns). change (firstn (S j) (x :: ns)) with (x :: firstn j ns).
      change (list_sum (x :: ?y)) with (x + list_sum y). rewrite (IH ns E). lia. }
  rewrite Hn in En. unfold layers in En. rewrite nth_error_map in En. destruct (nth_error percs j) as [perc|] eqn:Ep; [|discriminate].
  injection En as <-. destruct (Stack3_proof.Forall2_nth_error_r _ _ _ _ _ HP Ep) as (call & Hc & E).
  destruct (nth_error perc (l - list_sum (firstn j nsubs))) as [t|] eqn:Et; [|apply nth_error_None in Et; lia].
  destruct (nth_error perc (S l - list_sum (firstn j nsubs))) as [t'|] eqn:Et'; [|apply nth_error_None in Et'; lia].
  exists call, perc, t, t'. repeat split; try assumption. destruct calls; [destruct j; discriminate|exact Hc].
Qed.

(* difference of heights of the two ends of a layer *)
Lemma layer_step percs out l j perc t t' h h' : Forall whole percs -> Forall (fun p => 2 <= length p) percs -> length out = S (length percs) ->
  layer_in (layers percs) l j -> nth_error percs j = Some perc -> nth_error perc (l - list_sum (firstn j (layers percs))) = Some t ->
  nth_error perc (S l - list_sum (firstn j (layers percs))) = Some t' -> nth_error out j = Some h -> nth_error out (S j) = Some h' ->
  (heights_at percs out (S l) - heights_at percs out l = (t' - t) * (h' - h))%R.
Proof.
  intros HW H2 Lo [Hlo Hhi] Ep Et Et' Eh Eh'.
  pose proof (heights_block percs out j perc _ t h h' HW H2 Lo Ep Et Eh Eh') as A.
  pose proof (heights_block percs out j perc _ t' h h' HW H2 Lo Ep Et' Eh Eh') as B.
  replace (list_sum (firstn j (layers percs)) + (l - list_sum (firstn j (layers percs)))) with l in A by lia.
  replace (list_sum (firstn j (layers percs)) + (S l - list_sum (firstn j (layers percs)))) with (S l) in B by lia.
  rewrite A, B. ring.
Qed.

(* C176: twice the areas of the cells of a stack of lines, seen along any direction d: a cell is a trapezium between two columns of nodes, and
   the cells of a segment fill the space between the first and the last line *)
Theorem C176_areas :
  forall (D : Type) (num : Z -> D) (int : D -> Z) (Hint : forall z, int (num z) = z)
    (areas : shape3 -> list pt -> list R) (Har : forall dims pts, length (areas dims pts) = n_cells dims) interp o ax bu arg pts n calls,
  ax <= 2 -> base_ok arg -> base_points ax arg pts -> length pts = S n -> 1 <= n ->
  2 <= length calls -> Forall (accepted interp pts) calls -> Forall regular_call (tl calls) ->
  exists g labels nsubs, stack2d_program num int areas interp o (Z.of_nat ax) bu arg calls = Ok (g, labels) /\
    call_layers (tl calls) nsubs /\
    forall i p q, nth_error pts i = Some p -> nth_error pts (S i) = Some q ->
    exists out out', column_heights interp bu pts i calls out /\ column_heights interp bu pts (S i) calls out' /\
      forall d,
      let area l := area_along (at_pts (sg_pts g)) d (strip_cell (sg_dims g) ax i l) in
      let width := det3 (vsub q p) (unit_axis ax) d in
      (forall l j call perc t t' h h' u u', layer_in nsubs l j -> nth_error calls (S j) = Some call ->
         resolution_to_perc (ao_res (sc_opts call)) (ao_method (sc_opts call)) = Ok perc ->
         nth_error perc (l - list_sum (firstn j nsubs)) = Some t -> nth_error perc (S l - list_sum (firstn j nsubs)) = Some t' ->
         nth_error out j = Some h -> nth_error out (S j) = Some h' -> nth_error out' j = Some u -> nth_error out' (S j) = Some u' ->
         area l = (width * ((t' - t) * ((h' - h) + (u' - u))))%R) /\
      forall h h' u u', nth_error out 0 = Some h -> nth_error out (length nsubs) = Some h' ->
        nth_error out' 0 = Some u -> nth_error out' (length nsubs) = Some u' ->
        sum_list (map area (seq 0 (list_sum nsubs))) = (width * ((h' - h) + (u' - u)))%R.
Proof.
  intros D num int Hint areas Har interp o ax bu arg pts n calls Hax Hok Hp Len Hn L2 Hacc Hreg.
  destruct (C168_nodes D num int Hint areas Har interp o ax bu arg pts n calls Hax Hok Hp Len Hn L2 Hacc Hreg) as (g & labels & nsubs & E & HL & Hd & _ & HN).
  exists g, labels, nsubs. split; [exact E|]. split; [exact HL|]. intros i p q Hi Hi'.
  destruct (HN i p Hi) as (out & HC & HO). destruct (HN (S i) q Hi') as (out' & HC' & HO').
  exists out, out'. split; [exact HC|]. split; [exact HC'|].
  destruct (calls_percs calls nsubs HL Hreg L2) as (percs & HP & En & HW & H2 & Lp).
  destruct HC as (_ & _ & _ & Lo). destruct HC' as (_ & _ & _ & Lo').
  assert (Lo1 : length out = S (length percs)) by lia. assert (Lo1' : length out' = S (length percs)) by lia.
  pose proof (nodes_at calls nsubs HL Hreg L2 percs out (fun L h => at_coord (sg_dims g) (sg_pts g) (node_at ax i L) = Some (at_height ax p h)) HP En HW H2 Lp Lo HO) as HA. cbv beta in HA.
  pose proof (nodes_at calls nsubs HL Hreg L2 percs out' (fun L h => at_coord (sg_dims g) (sg_pts g) (node_at ax (S i) L) = Some (at_height ax q h)) HP En HW H2 Lp Lo' HO') as HA'. cbv beta in HA'.
  intros d area width.
  assert (HS : forall l, l < list_sum nsubs ->
    (area l = width * ((heights_at percs out (S l) - heights_at percs out l) + (heights_at percs out' (S l) - heights_at percs out' l)))%R).
  { intros l Hl. unfold area, strip_cell. cbn [map].
    pose proof (at_pts_coord _ _ _ _ (HA l ltac:(lia))) as A1. pose proof (at_pts_coord _ _ _ _ (HA (S l) ltac:(lia))) as A2.
    pose proof (at_pts_coord _ _ _ _ (HA' l ltac:(lia))) as A3. pose proof (at_pts_coord _ _ _ _ (HA' (S l) ltac:(lia))) as A4.
    rewrite at_height_shift in A1, A2, A3, A4 by exact Hax.
    rewrite (quad_area _ d (unit_axis ax) _ _ _ _ p q _ _ _ _ A1 A2 A3 A4). unfold width. ring. }
  split.
  - intros l j call perc t t' h h' u u' Hj Hcall EP Ht Ht' Hh Hh' Hu Hu'.
    destruct (layer_call calls nsubs percs l j HP En Hj) as (call0 & perc0 & t0 & t1 & C1 & C2 & C3 & C4 & C5).
    rewrite Hcall in C1. injection C1 as <-. rewrite EP in C2. injection C2 as <-.
    assert (Hl : l < list_sum nsubs).
    { destruct Hj as [_ Hj]. assert (list_sum nsubs = list_sum (firstn (S j) nsubs) + list_sum (skipn (S j) nsubs)) by now rewrite <- list_sum_app, firstn_skipn. lia. }
    rewrite (HS l Hl). rewrite En in Ht, Ht', Hj.
    rewrite (layer_step percs out l j perc t t' h h' HW H2 Lo1 Hj C3 Ht Ht' Hh Hh'), (layer_step percs out' l j perc t t' u u' HW H2 Lo1' Hj C3 Ht Ht' Hu Hu'). ring.
  - intros h h' u u' Hh Hh' Hu Hu'.
    rewrite (map_ext_in _ (fun l => width * ((heights_at percs out (S l) - heights_at percs out l) + (heights_at percs out' (S l) - heights_at percs out' l)))%R)
      by (intros l Hl; apply in_seq in Hl; apply HS; lia).
    rewrite sum_list_scale, sum_list_plus, !telescope.
    rewrite En, !heights_last, !heights_first by (assumption || lia).
    assert (Ln : length nsubs = length percs) by (rewrite En; unfold layers; apply map_length). rewrite Ln in Hh', Hu'.
    now rewrite (nth_error_nth _ _ _ Hh), (nth_error_nth _ _ _ Hh'), (nth_error_nth _ _ _ Hu), (nth_error_nth _ _ _ Hu').
Qed.
Print Assumptions C176_areas.

(* a hexahedron between two heights of four columns *)
Lemma hexahedron_columns P e p0 p1 p2 p3 a b c d a' b' c' d' xa xb xc xd ya yb yc yd :
  P a = vadd p0 (scaled xa e) -> P b = vadd p1 (scaled xb e) -> P c = vadd p2 (scaled xc e) -> P d = vadd p3 (scaled xd e) ->
  P a' = vadd p0 (scaled ya e) -> P b' = vadd p1 (scaled yb e) -> P c' = vadd p2 (scaled yc e) -> P d' = vadd p3 (scaled yd e) ->
  enclosed_volume P [[a; d; c; b]; [a'; b'; c'; d']; [a; b; b'; a']; [b; c; c'; b']; [c; d; d'; c']; [a; a'; d'; d]] =
    volume_above (at_pts [p0; p1; p2; p3]) e (fun k => nth k [ya - xa; yb - xb; yc - xc; yd - xd] 0)%R [0; 1; 2; 3].
Proof.
  intros Ea Eb Ec Ed Ea' Eb' Ec' Ed'.
  assert (SH : forall p x y, vadd p (scaled y e) = vadd (vadd p (scaled x e)) (scaled (y - x) e)).
  { intros [[? ?] ?] x y. destruct e as [[? ?] ?]. cbn. f_equal; [f_equal|]; ring. }
  rewrite (hexahedron_volume P e a b c d a' b' c' d' (ya - xa) (yb - xb) (yc - xc) (yd - xd))%R
    by (rewrite ?Ea, ?Eb, ?Ec, ?Ed, ?Ea', ?Eb', ?Ec', ?Ed'; apply SH).
  unfold volume_above, columns_above. cbn [nth]. unfold turn. rewrite Ea, Eb, Ec, Ed. unfold at_pts. cbn [nth].
  destruct p0 as [[? ?] ?], p1 as [[? ?] ?], p2 as [[? ?] ?], p3 as [[? ?] ?], e as [[? ?] ?]. cbn. field.
Qed.

(* C177: the volumes of the cells of a stack of structured surfaces, and of all the cells above one cell of the base *)
Theorem C177_volumes :
  forall (D : Type) (num : Z -> D) (int : D -> Z) (Hint : forall z, int (num z) = z)
    (volumes : shape3 -> list pt -> list R) interp o ax d bu m calls,
  ax <= 2 -> unit_along ax d -> wf_base d m ->
  2 <= length calls -> Forall (accepted interp (ss_pts (sb_surf m))) calls -> Forall regular_call (tl calls) ->
  exists g labels nsubs, stack3d_program num int volumes interp o (Z.of_nat ax) bu m calls = Ok (g, labels) /\
    call_layers (tl calls) nsubs /\
    forall c ps, Forall (in_shape d) (ring_at ax c) -> Forall2 (fun c p => at_coord d (ss_pts (sb_surf m)) c = Some p) (ring_at ax c) ps ->
    exists outs, Forall2 (fun c out => column_heights interp bu (ss_pts (sb_surf m)) (fidx d c) calls out) (ring_at ax c) outs /\
      let above j j' := volume_above (at_pts ps) (unit_axis ax) (fun k => nth j' (nth k outs []) 0 - nth j (nth k outs []) 0)%R [0; 1; 2; 3] in
      (forall l j call perc t t', layer_in nsubs l j -> nth_error calls (S j) = Some call ->
         resolution_to_perc (ao_res (sc_opts call)) (ao_method (sc_opts call)) = Ok perc ->
         nth_error perc (l - list_sum (firstn j nsubs)) = Some t -> nth_error perc (S l - list_sum (firstn j nsubs)) = Some t' ->
         has_volume (sg_pts g) (block_cell (sg_dims g) ax c l) ((t' - t) * above j (S j))%R) /\
      exists vols, Forall2 (fun l V => has_volume (sg_pts g) (block_cell (sg_dims g) ax c l) V) (seq 0 (list_sum nsubs)) vols /\
        sum_list vols = above 0 (length nsubs).
Proof.
  intros D num int Hint volumes interp o ax d bu m calls Hax Hu Hw L2 Hacc Hreg.
  destruct (C162_nodes D num int Hint volumes interp o ax d bu m calls Hax Hu Hw L2 Hacc Hreg) as (g & labels & nsubs & E & HL & Hd & _ & HN).
  exists g, labels, nsubs. split; [exact E|]. split; [exact HL|]. intros c ps HI HPs.
  destruct (calls_percs calls nsubs HL Hreg L2) as (percs & HP & En & HW & H2 & Lp).
  assert (HO : forall c p, in_shape d c -> at_coord d (ss_pts (sb_surf m)) c = Some p -> exists out,
    column_heights interp bu (ss_pts (sb_surf m)) (fidx d c) calls out /\ length out = S (length percs) /\
    forall L, L <= list_sum nsubs -> at_pts (sg_pts g) (fidx (sg_dims g) (setc ax L c)) =
      vadd p (scaled (heights_at percs out L - base_height ax p) (unit_axis ax))).
  { intros c0 p Hc Hp. destruct (HN c0 p Hc Hp) as (ls & out & H1 & H3 & Lo & H4). exists out. split; [exists ls; auto|]. split; [lia|].
    intros L HLs. rewrite <- at_height_shift by exact Hax. apply at_pts_coord.
    exact (nodes_at calls nsubs HL Hreg L2 percs out (fun L h => at_coord (sg_dims g) (sg_pts g) (setc ax L c0) = Some (at_height ax p h)) HP En HW H2 Lp Lo H4 L HLs). }
  unfold ring_at in HI, HPs |- *.
  set (c1 := forward (second_axis ax) c) in *. set (c2 := forward (third_axis ax) c1) in *. set (c3 := forward (third_axis ax) c) in *.
  inversion HI as [|? ? I0 HI1]; subst. inversion HI1 as [|? ? I1 HI2]; subst. inversion HI2 as [|? ? I2 HI3]; subst. inversion HI3 as [|? ? I3 _]; subst.
  inversion HPs as [|? p0 ? ? P0 HQ1]; subst. inversion HQ1 as [|? p1 ? ? P1 HQ2]; subst. inversion HQ2 as [|? p2 ? ? P2 HQ3]; subst.
  inversion HQ3 as [|? p3 ? ? P3 HQ4]; subst. inversion HQ4; subst.
  destruct (HO c p0 I0 P0) as (o0 & C0 & Lo0 & N0). destruct (HO c1 p1 I1 P1) as (o1 & C1 & Lo1 & N1).
  destruct (HO c2 p2 I2 P2) as (o2 & C2 & Lo2 & N2). destruct (HO c3 p3 I3 P3) as (o3 & C3 & Lo3 & N3).
  exists [o0; o1; o2; o3]. split; [repeat (constructor; [assumption|]); constructor|]. cbv zeta.
  set (above := fun j j' => volume_above (at_pts [p0; p1; p2; p3]) (unit_axis ax) (fun k => nth j' (nth k [o0; o1; o2; o3] []) 0 - nth j (nth k [o0; o1; o2; o3] []) 0)%R [0; 1; 2; 3]).
  set (V := fun l => volume_above (at_pts [p0; p1; p2; p3]) (unit_axis ax) (fun k => nth k
    [heights_at percs o0 (S l) - heights_at percs o0 l; heights_at percs o1 (S l) - heights_at percs o1 l;
     heights_at percs o2 (S l) - heights_at percs o2 l; heights_at percs o3 (S l) - heights_at percs o3 l] 0)%R [0; 1; 2; 3]).
  assert (HV : forall l, l < list_sum (layers percs) -> has_volume (sg_pts g) (block_cell (sg_dims g) ax c l) (V l)).
  { intros l Hl. unfold block_cell, ring_at. fold c1. fold c2. fold c3. cbn [map app].
    eexists. split; [constructor|].
    rewrite (hexahedron_columns _ (unit_axis ax) p0 p1 p2 p3 _ _ _ _ _ _ _ _ _ _ _ _ _ _ _ _
      (N0 l ltac:(lia)) (N1 l ltac:(lia)) (N2 l ltac:(lia)) (N3 l ltac:(lia)) (N0 (S l) ltac:(lia)) (N1 (S l) ltac:(lia)) (N2 (S l) ltac:(lia)) (N3 (S l) ltac:(lia))).
    unfold V, volume_above, columns_above. cbn [nth]. field. }
  assert (HT : forall o j, j < length percs -> length o = S (length percs) -> nth_error o j = Some (nth j o 0%R) /\ nth_error o (S j) = Some (nth (S j) o 0%R)).
  { intros o' j Hj Lo. split; apply nth_error_nth'; lia. }
  split.
  - intros l j call perc t t' Hj Hcall EP Ht Ht'.
    destruct (layer_call calls _ percs l j HP eq_refl Hj) as (call0 & perc0 & t0 & t1 & D1 & D2 & D3 & D4 & D5).
    rewrite Hcall in D1. injection D1 as <-. rewrite EP in D2. injection D2 as <-.
    assert (Hl : l < list_sum (layers percs)).
    { destruct Hj as [_ Hj]. assert (list_sum (layers percs) = list_sum (firstn (S j) (layers percs)) + list_sum (skipn (S j) (layers percs)))
        by now rewrite <- list_sum_app, firstn_skipn. lia. }
    assert (Hjp : j < length percs) by (apply nth_error_Some; congruence).
    assert (EQ : V l = ((t' - t) * above j (S j))%R); [|pose proof (HV l Hl) as HX; rewrite EQ in HX; exact HX].
    assert (HS : forall o, length o = S (length percs) -> (heights_at percs o (S l) - heights_at percs o l = (t' - t) * (nth (S j) o 0 - nth j o 0))%R).
    { intros o' Lo. destruct (HT o' j Hjp Lo) as [A B]. exact (layer_step percs o' l j perc t t' _ _ HW H2 Lo Hj D3 Ht Ht' A B). }
    unfold V, above. rewrite (HS o0 Lo0), (HS o1 Lo1), (HS o2 Lo2), (HS o3 Lo3). unfold volume_above, columns_above. cbn [nth]. field.
  - exists (map V (seq 0 (list_sum (layers percs)))). split.
    + assert (HF : forall l, (forall x, In x l -> x < list_sum (layers percs)) ->
        Forall2 (fun l V => has_volume (sg_pts g) (block_cell (sg_dims g) ax c l) V) l (map V l)).
      { induction l as [|x l IH]; intros Hx; cbn [map]; constructor; [apply HV, Hx; left; reflexivity|apply IH; intros y Hy; apply Hx; right; exact Hy]. }
      apply HF. intros x Hx. apply in_seq in Hx. lia.
    + set (A := turn (at_pts [p0; p1; p2; p3]) (unit_axis ax) 0 1 2). set (B := turn (at_pts [p0; p1; p2; p3]) (unit_axis ax) 0 2 3).
      set (W0 := fun l => (heights_at percs o0 (S l) - heights_at percs o0 l)%R). set (W1 := fun l => (heights_at percs o1 (S l) - heights_at percs o1 l)%R).
      set (W2 := fun l => (heights_at percs o2 (S l) - heights_at percs o2 l)%R). set (W3 := fun l => (heights_at percs o3 (S l) - heights_at percs o3 l)%R).
      rewrite (map_ext V (fun l => ((A + B) / 6 * W0 l + A / 6 * W1 l) + ((A + B) / 6 * W2 l + B / 6 * W3 l))%R).
      2:{ intros l. unfold V, volume_above, columns_above. cbn [nth]. fold A B. unfold W0, W1, W2, W3. field. }
      rewrite (sum_list_plus (fun l => (A + B) / 6 * W0 l + A / 6 * W1 l)%R), !sum_list_plus, !sum_list_scale.
      unfold W0, W1, W2, W3. rewrite !telescope. unfold above.
      assert (L1 : 1 <= length percs) by lia. replace (length (layers percs)) with (length percs) by (unfold layers; now rewrite map_length).
      rewrite !heights_last, !heights_first by assumption.
      unfold volume_above, columns_above. cbn [nth]. fold A B. field.
Qed.
Print Assumptions C177_volumes.

(* examples: the program of C162_example and C168_example, from -1 up to x + 8 *)
Lemma px_column base i x y z out : nth_error base i = Some (x, y, z) -> (0 <= x <= 3)%R ->
  column_heights (fun _ _ => Err ValueError) true base i px_calls out -> exists h, out = [-1; h; x + 8]%R.
Proof.
  intros Hp Hx (ls & H1 & H2 & _).
  inversion H1 as [|? ? z0 ? l0 R0 G0]; subst. inversion G0 as [|? ? z1 ? l1 R1 G1]; subst. inversion G1 as [|? ? z2 ? l2 R2 G2]; subst.
  inversion G2; subst. inversion R0; subst. inversion R2; subst. inversion R1 as [| |? ? x' y' z' Hn| |]; subst.
  rewrite Hp in Hn. injection Hn as <- <- <-.
  cbn [sc_opts ao_prio ao_thick] in H2.
  inversion H2 as [|? ? ? ? ? ? ? o1 Lt S1|? ? ? ? ? ? ? o1 Le S1]; subst; [|lia].
  inversion S1 as [|? ? ? ? ? ? ? o2 Lt' S2|? ? ? ? ? ? ? o2 Le' S2]; subst; [lia|].
  inversion S2; subst. replace (Rabs 10) with 10%R in * by (rewrite Rabs_right; lra).
  match goal with |- exists h, [_; ?b; ?c] = _ => exists b; replace c with (x + 8)%R; [reflexivity|] end. lra.
Qed.

Example C176_example : exists g labels,
  stack2d_program zz zz lx_areas (fun _ _ => Err ValueError) cx_opt 2 true (inr qx_line) px_calls = Ok (g, labels) /\
  sum_list (map (fun l => area_along (at_pts (sg_pts g)) (0, -1, 0)%R (strip_cell (sg_dims g) 2 0 l)) (seq 0 3)) = 19%R.
Proof.
  assert (HA : Forall (accepted (fun _ _ => Err ValueError) [(0, 0, 5); (1, 0, 5); (3, 0, 5)]%R) px_calls) by repeat constructor.
  pose proof (proj2 (px_ok (fun _ _ => Err ValueError))) as HR.
  destruct (C176_areas Z zz zz (fun z => eq_refl) lx_areas lx_len (fun _ _ => Err ValueError) cx_opt 2 true (inr qx_line) _ 2 px_calls
    (le_n 2) qx_ok qx_points eq_refl ltac:(lia) ltac:(cbn; lia) HA HR) as (g & labels & ns & E & HL & HN).
  rewrite (px_layers _ HL) in *. clear HL ns. exists g, labels. split; [exact E|].
  destruct (HN 0 _ _ eq_refl eq_refl) as (out & out' & C & C' & HS).
  destruct (px_column [(0, 0, 5); (1, 0, 5); (3, 0, 5)]%R 0 0%R 0%R 5%R out eq_refl ltac:(lra) C) as (h & ->).
  destruct (px_column [(0, 0, 5); (1, 0, 5); (3, 0, 5)]%R 1 1%R 0%R 5%R out' eq_refl ltac:(lra) C') as (h' & ->).
  destruct (HS (0, -1, 0)%R) as [_ HT].
  specialize (HT _ _ _ _ eq_refl eq_refl eq_refl eq_refl). change (list_sum [2; 1]) with 3 in HT. rewrite HT. cbn. ring.
Qed.

Example C177_example : exists g labels vols,
  stack3d_program zz zz fx_volumes (fun _ _ => Err ValueError) cx_opt 2 true (fx_base 5) px_calls = Ok (g, labels) /\
  Forall2 (fun l V => has_volume (sg_pts g) (block_cell (sg_dims g) 2 (0, 0, 0) l) V) (seq 0 3) vols /\ sum_list vols = (19/2)%R.
Proof.
  destruct (px_ok (fun _ _ => Err ValueError)) as [HA HR].
  destruct (C177_volumes Z zz zz (fun z => eq_refl) fx_volumes (fun _ _ => Err ValueError) cx_opt 2 (3, 2, 1) true (fx_base 5) px_calls
    (le_n 2) fx_unit (fx_wf 5) ltac:(cbn; lia) HA HR) as (g & labels & ns & E & HL & HN).
  rewrite (px_layers _ HL) in *. clear HL ns. exists g, labels.
  destruct (HN (0, 0, 0) [(0, 0, 5); (1, 0, 5); (1, 1, 5); (0, 1, 5)]%R) as (outs & HO & _ & vols & HV & HS).
  { repeat constructor; unfold in_shape; cbn; lia. }
  { repeat constructor. }
  exists vols. split; [exact E|]. split; [exact HV|]. rewrite HS.
  inversion HO as [|? o0 ? ? O0 HO1]; subst. inversion HO1 as [|? o1 ? ? O1 HO2]; subst. inversion HO2 as [|? o2 ? ? O2 HO3]; subst.
  inversion HO3 as [|? o3 ? ? O3 HO4]; subst. inversion HO4; subst.
  destruct (px_column (ss_pts (sb_surf (fx_base 5))) (fidx (3, 2, 1) (0, 0, 0)) 0%R 0%R 5%R _ eq_refl ltac:(lra) O0) as (h0 & ->). destruct (px_column (ss_pts (sb_surf (fx_base 5))) (fidx (3, 2, 1) (1, 0, 0)) 1%R 0%R 5%R _ eq_refl ltac:(lra) O1) as (h1 & ->).
  destruct (px_column (ss_pts (sb_surf (fx_base 5))) (fidx (3, 2, 1) (1, 1, 0)) 1%R 1%R 5%R _ eq_refl ltac:(lra) O2) as (h2 & ->). destruct (px_column (ss_pts (sb_surf (fx_base 5))) (fidx (3, 2, 1) (0, 1, 0)) 0%R 1%R 5%R _ eq_refl ltac:(lra) O3) as (h3 & ->).
  unfold volume_above, columns_above, turn, at_pts. cbn. field.
Qed.
