From Verif Require Import RealAux Volume_model Volume_spec Groups_model Objects_model Objects_spec Final_spec Unstr_spec
  MMerge_model MMerge_spec MMerge_proof MMerge_props Paint_spec Tidy_proof Well_model Well_spec Well_proof Unstr4_proof Stack6_proof.
From Coq Require Import Reals Lra.
Open Scope R_scope.

(* C156: the mesh of a well is made of 704 polygons, each of them in the zone of its group *)
Theorem C156_load_well :
  forall (D : Type) (num : Z -> D) (int : D -> Z) (Hint : forall z, int (num z) = z) areas pvmerge clean e1 e2,
  appends pvmerge -> (forall x y, exists g, pvmerge [x; y] = Ok g) ->
  cleans e1 (clean (/ 10 ^ 8)) -> cleans e2 (clean (/ 10 ^ 4)) ->
  exists g labels l, load_well_2d num int areas pvmerge clean = Ok (g, labels) /\
    drawn g (map snd l) /\ names_of int g labels (map fst l) /\ length l = 704%nat /\
    forall k ps, In (k, ps) l -> exists qs, Forall (in_zone k) qs /\ Forall2 (within (e1 + e2)) qs ps.
Proof.
  intros D num int Hint areas pvmerge clean e1 e2 Hm HT H1 H2.
  destruct (load_ok num int Hint areas pvmerge Hm HT clean e1 e2 H1 H2) as (g & labels & l & A & B & C & E & F & _). exists g, labels, l. auto.
Qed.
Print Assumptions C156_load_well.

(* when the cleaning moves no point, the groups have the areas of nested regular polygons of 32 sides in a square *)
Theorem C156_areas :
  forall (D : Type) (num : Z -> D) (int : D -> Z) (Hint : forall z, int (num z) = z) areas pvmerge clean,
  appends pvmerge -> (forall x y, exists g, pvmerge [x; y] = Ok g) ->
  cleans 0 (clean (/ 10 ^ 8)) -> cleans 0 (clean (/ 10 ^ 4)) ->
  exists g labels l, load_well_2d num int areas pvmerge clean = Ok (g, labels) /\
    drawn g (map snd l) /\ names_of int g labels (map fst l) /\
    let disk r := 32 * (r * r * sin (2 * PI / 32) / 2) in
    named_area "Core" l = disk (34 / 100) /\
    named_area "Casing" l = disk (445 / 1000) - disk (34 / 100) /\
    named_area "Cement" l = disk 1 - disk (445 / 1000) /\
    named_area "Matrix" l = 20 * 20 - disk 1.
Proof.
  intros D num int Hint areas pvmerge clean Hm HT H1 H2.
  destruct (load_ok num int Hint areas pvmerge Hm HT clean 0 0 H1 H2) as (g & labels & l & A & B & C & _ & _ & F & _).
  exists g, labels, l. split; [exact A|]. split; [exact B|]. split; [exact C|]. destruct (F eq_refl eq_refl) as (F1 & F2 & F3 & F4).
  assert (E : sin (2 * PI / 32) = eighth) by (unfold eighth, degrees; f_equal; field).
  cbv zeta. rewrite E, F1, F2, F3, F4. repeat split; field.
Qed.
Print Assumptions C156_areas.

(* the polygons of each group *)
Theorem C156_counts :
  forall (D : Type) (num : Z -> D) (int : D -> Z) (Hint : forall z, int (num z) = z) areas pvmerge clean e1 e2,
  appends pvmerge -> (forall x y, exists g, pvmerge [x; y] = Ok g) ->
  cleans e1 (clean (/ 10 ^ 8)) -> cleans e2 (clean (/ 10 ^ 4)) ->
  exists g labels l, load_well_2d num int areas pvmerge clean = Ok (g, labels) /\
    drawn g (map snd l) /\ names_of int g labels (map fst l) /\
    (named_count "Core" l = 64 /\ named_count "Casing" l = 32 /\ named_count "Cement" l = 128 /\ named_count "Matrix" l = 480)%nat /\
    forall k ps, In (k, ps) l -> In k ["Core"; "Casing"; "Cement"; "Matrix"]%string /\ (length ps = 3 \/ length ps = 4)%nat.
Proof.
  intros D num int Hint areas pvmerge clean e1 e2 Hm HT H1 H2.
  destruct (load_ok num int Hint areas pvmerge Hm HT clean e1 e2 H1 H2) as (g & labels & l & A & B & C & _ & F & _ & K & T & _). exists g, labels, l.
  split; [exact A|]. split; [exact B|]. split; [exact C|]. split; [exact K|]. intros k ps Hin. split.
  - destruct (F k ps Hin) as (qs & HZ & HF). assert (exists q, In q qs) as (q & Hq).
    { destruct qs as [|q qs]; [|exists q; now left]. inversion HF; subst. destruct (tidy_corners g (map snd l) [] B T) as [E|E]; try discriminate.
      apply in_map_iff. exists (k, []). auto. }
    rewrite Forall_forall in HZ. destruct (HZ q Hq) as (lo & hi & Hz & _). unfold zones in Hz. cbn in Hz. cbn.
    destruct Hz as [Hz|[Hz|[Hz|[Hz|[]]]]]; injection Hz as <- _ _; auto.
  - apply (tidy_corners g (map snd l) ps B T). apply in_map_iff. exists (k, ps). auto.
Qed.
Print Assumptions C156_counts.

Example C156_example : exists g labels l,
  load_well_2d zz zz (fun _ _ => []) append_blocks (fun _ => my_keep) = Ok (g, labels) /\
  drawn g (map snd l) /\ names_of zz g labels (map fst l) /\ length l = 704%nat.
Proof.
  destruct (C156_load_well Z zz zz (fun z => eq_refl) (fun _ _ => []) append_blocks (fun _ => my_keep) 0 0) as (g & labels & l & A & B & C & E & _);
    auto using append_blocks_appends, my_total.
  1, 2: apply keep_cleans; lra.
  exists g, labels, l. auto.
Qed.
