(* A merge filter and a clean filter that satisfy what is asked of pv.merge and mesh.clean. *)
From Verif Require Import RealAux Perc_model Perc_spec Surface_model Volume_model Volume_spec
  SMerge_model SMerge_proof Groups_model Stack_model Stack_spec Stack_proof Lines_spec Unstr_model Unstr_spec Unstr1_proof Unstr2_proof.
From Coq Require Import Lra Permutation.
Open Scope nat_scope.

Definition vtype (c : vcell) : nat := match c with Plain ty _ => ty | Poly _ => 42 end.
Definition vbody (c : vcell) : list nat :=
  match c with Plain _ ids => ids | Poly fs => length fs :: flat_map (fun f => length f :: f) fs end.
Definition encode (cs : list vcell) : list nat := flat_map (fun c => length (vbody c) :: vbody c) cs.
Definition encodable (c : vcell) : Prop := match c with Plain ty _ => ty <> 42 | Poly _ => True end.

Lemma take_encoded fs : forall s, take_faces (length fs) (flat_map (fun f => length f :: f) fs ++ s) = Some (fs, s).
Proof.
  induction fs as [|f fs IH]; intros s; cbn [length take_faces flat_map app]; [auto|].
  rewrite <- !app_assoc. rewrite app_length.
  destruct (Nat.ltb_spec (length f + length (flat_map (fun f => length f :: f) fs ++ s)) (length f)); [lia|].
  rewrite skipn_app, skipn_all, Nat.sub_diag. cbn [app skipn]. rewrite IH.
  rewrite firstn_app, firstn_all, Nat.sub_diag. cbn [firstn]. rewrite app_nil_r. auto.
Qed.
Lemma decode_cell_encoded c : encodable c -> decode_cell (vtype c) (vbody c) = Some c.
Proof.
  destruct c as [ty ids|fs]; cbn [encodable vtype vbody]; intros H; unfold decode_cell.
  - destruct (Nat.eqb_spec ty 42); [congruence|auto].
  - cbn [Nat.eqb]. pose proof (take_encoded fs []) as E. rewrite app_nil_r in E. rewrite E. auto.
Qed.
Lemma decode_encoded cs : Forall encodable cs -> decode (map vtype cs) (encode cs) = Some cs.
Proof.
  induction 1 as [|c cs Hc HF IH]; [auto|].
  unfold encode in *. cbn [map decode flat_map app]. rewrite app_length.
  destruct (Nat.ltb_spec (length (vbody c) + length (flat_map (fun c => length (vbody c) :: vbody c) cs)) (length (vbody c))); [lia|].
  rewrite skipn_app, skipn_all, Nat.sub_diag, firstn_app, firstn_all, Nat.sub_diag. cbn [app skipn firstn].
  rewrite app_nil_r, decode_cell_encoded by auto. rewrite IH. auto.
Qed.
Lemma decoded_encodable ts : forall s cs, decode ts s = Some cs -> Forall encodable cs.
Proof.
  induction ts as [|t ts IH]; intros s cs; cbn [decode].
  - destruct s; [|discriminate]. intros [= <-]. constructor.
  - destruct s as [|n s]; [discriminate|]. destruct (_ <? _); [discriminate|].
    destruct (decode_cell t _) as [c|] eqn:Ec; [|discriminate]. destruct (decode ts _) as [l|] eqn:E; [|discriminate].
    intros [= <-]. constructor; [|eauto]. unfold decode_cell in Ec. destruct (Nat.eqb_spec t 42) as [->|H].
    + destruct (firstn n s) as [|nf b]; [discriminate|]. destruct (take_faces nf b) as [[fs [|]]|]; try discriminate.
      injection Ec as <-. exact I.
    + injection Ec as <-. exact H.
Qed.
Lemma rename_encodable f c : encodable c -> encodable (rename f c).
Proof. destruct c; auto. Qed.

Definition block_cells {D} (b : uvol D) : list vcell :=
  match decode (uv_types b) (uv_stream b) with Some cs => cs | None => [] end.
Definition array_of {D} (k : string) (b : uvol D) : list D := match lookup k (uv_cd b) with Some v => v | None => [] end.

Definition append_blocks {D} (bs : list (uvol D)) : res (uvol D) :=
  match bs with
  | [] => Err ValueError
  | b :: _ =>
      let cells := stacked 0 bs (map block_cells bs) in
      let keys := nodup String.string_dec
        (filter (fun k => forallb (fun b => if in_dec String.string_dec k (map fst (uv_cd b)) then true else false) bs)
           (map fst (uv_cd b))) in
      Ok (mkUvol (flat_map uv_pts bs) (encode cells) (map vtype cells) []
            (map (fun k => (k, flat_map (array_of k) bs)) keys)
            (if forallb (fun b => length (uv_ghost b) =? length (uv_types b)) bs then flat_map uv_ghost bs else []) [])
  end.

Lemma stacked_encodable {D} (bs : list (uvol D)) : forall off cells, Forall (Forall encodable) cells -> Forall encodable (stacked off bs cells).
Proof.
  induction bs as [|b bs IH]; intros off [|cs cells] H; cbn [stacked]; try constructor.
  inversion H; subst. apply Forall_app. split; [|auto].
  apply Forall_forall. intros x Hx. apply in_map_iff in Hx as (c & <- & Hc). apply rename_encodable.
  rewrite Forall_forall in H2. auto.
Qed.

Lemma append_blocks_appended {D} (bs : list (uvol D)) g : append_blocks bs = Ok g -> appended bs g.
Proof.
  destruct bs as [|b bs0]; [discriminate|]. unfold append_blocks. set (bs := b :: bs0).
  intros H%Ok_inj. subst g. 
  assert (HK : forall k, In k (nodup String.string_dec
        (filter (fun k => forallb (fun b => if in_dec String.string_dec k (map fst (uv_cd b)) then true else false) bs)
           (map fst (uv_cd b)))) <-> forall b, In b bs -> In k (map fst (uv_cd b))).
  { intros k. rewrite nodup_In, filter_In, forallb_forall. split.
    - intros [_ H] x Hx. specialize (H x Hx). destruct (in_dec _ k _); [auto|discriminate].
    - intros H. split; [apply H; left; auto|]. intros x Hx. destruct (in_dec _ k _); [auto|]. exfalso; auto. }
  split.
  { intros cells HF. exists (fun i => i). split; [|auto]. rewrite (map_ext _ (fun c => c) (fun c => rename_id c)), map_id. assert (E : map block_cells bs = cells).
    { clear -HF. induction HF as [|x cs l l' Hx HF IH]; [auto|]. cbn. f_equal; auto. unfold block_cells. rewrite Hx. auto. }
    unfold cells_of. cbn [uv_types uv_stream]. rewrite E. apply decode_encoded. apply stacked_encodable.
    clear -HF. induction HF; constructor; auto. eapply decoded_encodable; eauto. }
  assert (Ek : map fst (map (fun k => (k, flat_map (array_of k) bs)) (nodup String.string_dec
        (filter (fun k => forallb (fun b => if in_dec String.string_dec k (map fst (uv_cd b)) then true else false) bs)
           (map fst (uv_cd b))))) = nodup String.string_dec
        (filter (fun k => forallb (fun b => if in_dec String.string_dec k (map fst (uv_cd b)) then true else false) bs)
           (map fst (uv_cd b)))).
  { rewrite map_map. cbn [fst]. apply map_id. }
  cbn [uv_cd uv_ghost]. rewrite Ek. split; [apply NoDup_nodup|]. split; [exact HK|]. split.
  2:{ split.
      - intros H. rewrite (proj2 (forallb_forall _ _)); [reflexivity|]. intros x Hx. apply Nat.eqb_eq, H, Hx.
      - intros (x & Hx & Ht & Hg). destruct (forallb _ bs) eqn:Ef; [|reflexivity]. rewrite forallb_forall in Ef.
        specialize (Ef x Hx). apply Nat.eqb_eq in Ef. rewrite Hg in Ef. destruct (uv_types x); [contradiction|discriminate]. }
  intros k x Hx. apply in_map_iff in Hx as (k' & [= <- <-] & Hk). rewrite HK in Hk.
  exists (map (array_of k') bs). split; [|exact (flat_map_concat_map (array_of k') bs)].
  clear -Hk. induction bs as [|y l IH]; constructor; [|apply IH; intros; apply Hk; right; auto].
  specialize (Hk y (or_introl eq_refl)). unfold array_of. clear -Hk. induction (uv_cd y) as [|[k v] l IH]; [destruct Hk|].
  cbn [lookup]. destruct (String.eqb_spec k' k) as [->|Hn]; [left; auto|]. right. apply IH. destruct Hk as [E|E]; [cbn in E; congruence|auto].
Qed.

Lemma append_blocks_appends {D} : @appends D append_blocks.
Proof.
  intros bs g H. exists (seq 0 (length bs)), bs. split; [apply Permutation_refl|].
  split; [|apply append_blocks_appended; auto]. clear H.
  assert (E : forall l off (pre : list (uvol D)), length pre = off -> picks (pre ++ l) (seq off (length l)) l).
  { induction l as [|b l IH]; intros off pre Hl; cbn [length seq]; constructor.
    - rewrite nth_error_app2, Hl, Nat.sub_diag by lia. auto.
    - replace (pre ++ b :: l) with ((pre ++ [b]) ++ l) by (rewrite <- app_assoc; auto).
      apply IH. rewrite app_length. cbn. lia. }
  apply (E bs 0 [] eq_refl).
Qed.

Lemma keep_cleans {D} tol : (0 <= tol)%R -> @cleans D tol (fun g => g).
Proof.
  intros Ht g cells Hc. exists (fun i => i). split.
  { replace (map (rename (fun i => i)) cells) with cells; [auto|].
    rewrite <- (map_id cells) at 1. apply map_ext. intros c. symmetry. apply (rename_id c). }
  split; [auto|]. split; [auto|]. intros i p _ Hp. exists p. split; [auto|].
  destruct p as [[x y] z]. unfold within. rewrite !Rminus_diag_eq, Rabs_R0 by auto. auto.
Qed.
