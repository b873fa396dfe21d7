From Coq Require Import Ascii.
From Verif Require Import Prelude Groups_model Groups_spec Groups_proof.
Open Scope Z_scope.
Open Scope string_scope.
Lemma mirrored {A} o (mesh : gmesh A) t k f ids default arr t' : numbered t -> aligned mesh -> plain k ->
  f mesh = MInt ids ->
  initialize_group_array o mesh t (GDict [(String "~"%char k, SelCall f)]) default = Ok (arr, t') ->
  forall c, (c < length (gm_cells mesh))%nat ->
  exists name, named t' arr c name /\
    (name = k /\ (In (Z.of_nat (length (gm_cells mesh)) - 1 - Z.of_nat c) ids \/ In (- 1 - Z.of_nat c) ids) \/
     ~ In (Z.of_nat (length (gm_cells mesh)) - 1 - Z.of_nat c) ids /\ ~ In (- 1 - Z.of_nat c) ids /\
     base_name (labelled mesh) (ignore_groups o) (the_default o default) c name).
Proof.
  intros Hn Ha Hp Hf H c Hc.
  set (f' := fun _ : gmesh A => MInt (map (fun i => - i - 1) ids)).
  assert (H' : initialize_group_array o mesh t (GDict [(k, SelCall f')]) default = Ok (arr, t')).
  { rewrite <- H. rewrite !initialize_eq. destruct (base_array o mesh t) as [a0 g0]. cbn [entries_of apply_entries selector_mask].
    rewrite Hf. cbn [bind]. replace (tilde (String "~"%char k)) with (Some k) by reflexivity.
    rewrite (proj2 (tilde_None k) Hp). reflexivity. }
  destruct (dict_groups o mesh t [(k, SelCall f')] default arr t' Hn Ha ltac:(intros e [<-|[]]; cbn; auto) H' c Hc) as (name & N & D).
  exists name. split; [exact N|].
  assert (Q : entry_selects mesh (k, SelCall f') c <->
    In (Z.of_nat (length (gm_cells mesh)) - 1 - Z.of_nat c) ids \/ In (- 1 - Z.of_nat c) ids).
  { unfold entry_selects. cbn [fst snd selects addresses f']. split.
    - intros [P _]. destruct (P Hp) as (i & Hi & E). apply in_map_iff in Hi as (j & <- & Hj).
      destruct E as [E|E]; [right|left]; match goal with |- In ?x ids => replace x with j by lia end; auto.
    - intros E. split; [intros _|intros k' ->; exfalso; eapply Hp; eauto].
      destruct E as [E|E]; eexists; (split; [apply in_map_iff; eexists; split; [reflexivity|exact E]|lia]). }
  destruct D as [(e & (l1 & l2 & E & S & _) & K)|(F & B)].
  - left. destruct l1 as [|? [|]]; try discriminate. injection E as <- <-. split; [|now apply Q].
    destruct K as [K|[_ K]]; [exfalso; eapply Hp; eauto|exact K].
  - right. inversion_clear F as [|? ? F' _]. rewrite Q in F'. tauto.
Qed.
