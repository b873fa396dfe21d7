(* Model of group handling: core/_base.py (MeshBase), core/merge.py (MeshMerge),
   utils/_misc.py remap_categorical_data, utils/_properties.py get_cell_group. *)
From Coq Require Import Ascii.
From Verif Require Export Prelude.
Open Scope Z_scope.

(* ---- Python dictionaries with string keys, in insertion order ---- *)
Definition dict := list (string * Z).

(* d.get(k) *)
Fixpoint dget (k : string) (d : dict) : option Z :=
  match d with
  | [] => None
  | (k', v) :: d' => if String.eqb k k' then Some v else dget k d'
  end.

(* d[k] = v *)
Fixpoint dset (k : string) (v : Z) (d : dict) : dict :=
  match d with
  | [] => [(k, v)]
  | (k', v') :: d' => if String.eqb k k' then (k, v) :: d' else (k', v') :: dset k v d'
  end.

(* {v: k for k, v in d.items()}[z] : the last key with value z *)
Fixpoint inv_get (z : Z) (d : dict) : option string :=
  match d with
  | [] => None
  | (k, v) :: d' => match inv_get z d' with
                    | Some k' => Some k'
                    | None => if v =? z then Some k else None
                    end
  end.

Definition mem (k : string) (l : list string) : bool := existsb (String.eqb k) l.

(* s[1:] when s.startswith("~") *)
Definition tilde (s : string) : option string :=
  match s with
  | String c s' => if Ascii.eqb c "~"%char then Some s' else None
  | EmptyString => None
  end.

(* ---- meshes, as far as groups are concerned ----
   [gm_cells]: the cells (abstract payload), [gm_cg]: cell_data["CellGroup"] if present,
   [gm_labels]: user_dict["CellGroup"] if present.  NumPy arrays of integers. *)
Record gmesh (A : Type) := mkG {
  gm_cells : list A; gm_cg : option (list Z); gm_labels : option dict }.
Arguments mkG {A}. Arguments gm_cells {A}. Arguments gm_cg {A}. Arguments gm_labels {A}.

(* core/_base.py:232-235 *)
Definition get_group_number (group : string) (groups : dict) : Z * dict :=
  match dget group groups with
  | Some n => (n, groups)
  | None => (Z.of_nat (length groups), groups ++ [(group, Z.of_nat (length groups))])
  end.

(* ---- NumPy indexing ---- *)
(* an index array or a boolean array *)
Inductive npmask := MBool (m : list bool) | MInt (ids : list Z).

(* position addressed by index i in an array of length n *)
Definition norm_index (n : nat) (i : Z) : option nat :=
  if (0 <=? i) && (i <? Z.of_nat n) then Some (Z.to_nat i)
  else if (- Z.of_nat n <=? i) && (i <? 0) then Some (Z.to_nat (i + Z.of_nat n))
  else None.

(* a[ids] = x *)
Fixpoint set_ids {B} (x : B) (ids : list Z) (a : list B) : res (list B) :=
  match ids with
  | [] => Ok a
  | i :: ids' =>
      match norm_index (length a) i with
      | Some p => set_ids x ids' (upd p x a)
      | None => Err IndexError
      end
  end.

(* a[mask] = x *)
Definition np_set {B} (x : B) (m : npmask) (a : list B) : res (list B) :=
  match m with
  | MBool b => if (length b =? length a)%nat then Ok (mask_set x b a) else Err IndexError
  | MInt ids => set_ids x ids a
  end.

(* ~mask *)
Definition np_not (m : npmask) : npmask :=
  match m with MBool b => MBool (map negb b) | MInt ids => MInt (map (fun i => - i - 1) ids) end.

(* ---- group argument ---- *)
(* core/_base.py:154-185, values of a group dictionary.  [SelArr (MInt ids)] is an array of
   signed integers, [SelOther] an array of any other type but bool. *)
Inductive selector (A : Type) :=
| SelCall (f : gmesh A -> npmask)
| SelStr (s : string)
| SelStrs (l : list string)
| SelArr (m : npmask)
| SelOther.
Arguments SelCall {A}. Arguments SelStr {A}. Arguments SelStrs {A}.
Arguments SelArr {A}. Arguments SelOther {A}.

Inductive group_arg (A : Type) := GNone | GStr (s : string) | GDict (d : list (string * selector A)).
Arguments GNone {A}. Arguments GStr {A}. Arguments GDict {A}.

(* core/_base.py:158-163: mask of a string selector.  KeyError when the array or the
   name is missing. *)
Definition string_mask {A} (mesh : gmesh A) (groups : dict) (s : string) : res (list bool) :=
  match gm_cg mesh with
  | None => Err KeyError
  | Some cg =>
      match tilde s with
      | Some s' => match dget s' groups with
                   | Some g => Ok (map (fun x => negb (x =? g)) cg)
                   | None => Err KeyError end
      | None => match dget s groups with
                | Some g => Ok (map (fun x => x =? g) cg)
                | None => Err KeyError end
      end
  end.

(* core/_base.py:168-175 *)
Fixpoint strings_mask {A} (mesh : gmesh A) (groups : dict) (l : list string) (acc : list bool)
  : res (list bool) :=
  match l with
  | [] => Ok acc
  | s :: l' => let! m := string_mask mesh groups s in
               strings_mask mesh groups l' (map2 orb acc m)
  end.

(* core/_base.py:154-186: the mask of one entry *)
Definition selector_mask {A} (mesh : gmesh A) (groups : dict) (sel : selector A) : res npmask :=
  let size := length (gm_cells mesh) in
  match sel with
  | SelCall f => Ok (f mesh)                                              (* 154-155 *)
  | SelStr s => let! m := string_mask mesh groups s in Ok (MBool m)       (* 157-162 *)
  | SelStrs l => let! m := strings_mask mesh groups l (repeat false size) in Ok (MBool m) (* 164-175 *)
  | SelArr (MInt ids) => let! m := set_ids true ids (repeat false size) in Ok (MBool m)   (* 180-183 *)
  | SelArr (MBool b) => Ok (MBool b)
  | SelOther => Err ValueError                                            (* 185-186 *)
  end.

(* core/_base.py:153-192, loop over the entries *)
Fixpoint apply_entries {A} (mesh : gmesh A) (entries : list (string * selector A))
  (arr : list Z) (groups : dict) : res (list Z * dict) :=
  match entries with
  | [] => Ok (arr, groups)
  | (k, sel) :: es =>
      let! m := selector_mask mesh groups sel in
      let '(k, m) := match tilde k with Some k' => (k', np_not m) | None => (k, m) end in (* 188-190 *)
      let '(n, groups) := get_group_number k groups in                    (* 192 *)
      let! arr := np_set n m arr in
      apply_entries mesh es arr groups
  end.

(* core/_base.py:141-147, loop over the labels of the mesh *)
Fixpoint apply_labels (cg : list Z) (ignore : list string) (labels : dict)
  (arr : list Z) (groups : dict) : list Z * dict :=
  match labels with
  | [] => (arr, groups)
  | (k, v) :: ls =>
      if mem k ignore then apply_labels cg ignore ls arr groups
      else let '(n, groups) := get_group_number k groups in
           apply_labels cg ignore ls (mask_set n (map (fun x => x =? v) cg) arr) groups
  end.

Record options := mkOpt { default_group : string; ignore_groups : list string }.

(* core/_base.py:78: default_group or "default" (None is the empty string) *)
Definition mk_options (d : string) (ig : list string) : options :=
  mkOpt (if String.eqb d "" then "default" else d) ig.

(* core/_base.py:119-198, mesh given *)
Definition initialize_group_array {A} (o : options) (mesh : gmesh A) (groups : dict)
  (group : group_arg A) (default : string) : res (list Z * dict) :=
  let size := length (gm_cells mesh) in
  let arr := repeat (-1) size in                                          (* 134 *)
  let '(arr, groups) :=                                                   (* 136-147 *)
    match gm_cg mesh, gm_labels mesh with
    | Some cg, Some labels => apply_labels cg (ignore_groups o) labels arr groups
    | _, _ => (arr, groups)
    end in
  let! ag :=
    (match group with                                                     (* 149-151 *)
     | GNone => Ok (arr, groups)
     | GStr s => if String.eqb s "" then Ok (arr, groups)
                 else apply_entries mesh [(s, SelArr (MBool (repeat true size)))] arr groups
     | GDict d => apply_entries mesh d arr groups                         (* 153-192 *)
     end) in
  let '(arr, groups) := ag in
  if existsb (fun x => x =? -1) arr then                                  (* 194 *)
    let d := if String.eqb default "" then default_group o else default in (* 195 *)
    let '(n, groups) := get_group_number d groups in
    Ok (mask_set n (map (fun x => x =? -1) arr) arr, groups)              (* 196 *)
  else Ok (arr, groups).

(* core/_base.py:130-134, 194-198: mesh_or_size is an integer *)
Definition initialize_group_array_size (o : options) (size : nat) (groups : dict) (default : string)
  : list Z * dict :=
  if (size =? 0)%nat then ([], groups)
  else let d := if String.eqb default "" then default_group o else default in
       let '(n, groups) := get_group_number d groups in (repeat n size, groups).

(* ---- remap_categorical_data ---- *)
Inductive mkey := KStr (s : string) | KInt (z : Z).

(* stable insertion sort by value: sorted(items, key=lambda x: x[1]) *)
Fixpoint dinsert (kv : string * Z) (d : dict) : dict :=
  match d with
  | [] => [kv]
  | kv' :: d' => if snd kv <=? snd kv' then kv :: d else kv' :: dinsert kv d'
  end.
Fixpoint dsort (d : dict) : dict :=
  match d with [] => [] | kv :: d' => dinsert kv (dsort d') end.

Definition sremove (k : string) (l : list string) : list string :=
  filter (fun x => negb (String.eqb k x)) l.

(* utils/_misc.py:1387-1408, loop over the mapping: remapped data, labels, unused labels.
   [lmap] are the original labels (data_labels_map is built from them at 1384). *)
Fixpoint remap_loop (data : list Z) (lmap : dict) (mapping : list (mkey * Z))
  (st : list Z * dict * list string) : res (list Z * dict * list string) :=
  match mapping with
  | [] => Ok st
  | (k, v) :: ms =>
      let '(out, labels, unused) := st in
      let! vid := (match k with
                   | KStr s => match dget s labels with                   (* 1388-1393 *)
                               | Some z => Ok z | None => Err ValueError end
                   | KInt z => Ok z
                   end) in
      let mask := map (fun x => x =? vid) data in                         (* 1398 *)
      if existsb (fun b => b) mask then                                   (* 1400 *)
        let out := mask_set v mask out in                                 (* 1401 *)
        let key_ := match k with KStr s => Some s | KInt _ => inv_get vid lmap end in (* 1404 *)
        let '(labels, unused) :=
          match key_ with
          | Some s => (dset s v labels, sremove s unused)                 (* 1405-1406 *)
          | None => (labels, unused)                                      (* 1408-1409 *)
          end in
        remap_loop data lmap ms (out, labels, unused)
      else remap_loop data lmap ms (out, labels, unused)
  end.

(* utils/_misc.py:1374-1378 *)
Definition lab_of (labels : option dict) : dict := match labels with Some d => d | None => [] end.

(* utils/_misc.py:1383-1421: data and labels after remapping *)
Definition remap_data (data : list Z) (labels : option dict) (mapping : list (mkey * Z))
  : res (list Z * option dict) :=
  let! st := remap_loop data (lab_of labels) mapping (data, lab_of labels, map fst (lab_of labels)) in
  let '(out, labels', unused) := st in
  Ok (out, match labels' with
           | [] => labels                                                 (* 1417 *)
           | _ => Some (dsort (filter (fun kv => negb (mem (fst kv) unused)) labels')) (* 1418-1421 *)
           end).

(* ---- meshes as objects: named cell and point arrays, user dictionary ---- *)
Inductive array := AInt (l : list Z) | AOther (n : nat).  (* dtype kind "i" or anything else *)

Record cmesh := mkC {
  cm_cell : list (string * array); cm_point : list (string * array); cm_user : list (string * dict) }.

Fixpoint aget {B} (k : string) (d : list (string * B)) : option B :=
  match d with
  | [] => None
  | (k', v) :: d' => if String.eqb k k' then Some v else aget k d'
  end.
Fixpoint aset {B} (k : string) (v : B) (d : list (string * B)) : list (string * B) :=
  match d with
  | [] => [(k, v)]
  | (k', v') :: d' => if String.eqb k k' then (k, v) :: d' else (k', v') :: aset k v d'
  end.

(* utils/_misc.py:1333-1424.  The heap [h] holds the mesh objects; the argument [mesh] and the
   result are references into it.  Mapping keys are strings or integers. *)
Definition remap_categorical_data (h : list cmesh) (mesh : nat) (key : string)
  (mapping : list (mkey * Z)) (preference : string) (inplace : bool)
  : res (option nat) * list cmesh :=
  match nth_error h mesh with
  | None => (Err TypeError, h)
  | Some m =>
      let data :=
        if String.eqb preference "cell" then                              (* 1362-1363 *)
          match aget key (cm_cell m) with Some d => Ok d | None => Err KeyError end
        else if String.eqb preference "point" then                        (* 1365-1366 *)
          match aget key (cm_point m) with Some d => Ok d | None => Err KeyError end
        else Err ValueError in                                            (* 1368-1369 *)
      match data with
      | Err e => (Err e, h)
      | Ok (AOther _) => (Err ValueError, h)                              (* 1371-1372 *)
      | Ok (AInt d) =>
          let labels := aget key (cm_user m) in                           (* 1374-1378 *)
          let '(target, h1) := if inplace then (mesh, h) else (length h, h ++ [m]) in (* 1380-1381 *)
          match remap_data d labels mapping with                          (* 1383-1421 *)
          | Err e => (Err e, h1)
          | Ok (out, labels') =>
              let m' := mkC
                (if String.eqb preference "cell" then aset key (AInt out) (cm_cell m) else cm_cell m)
                (if String.eqb preference "cell" then cm_point m else aset key (AInt out) (cm_point m))
                (match labels' with Some d => aset key d (cm_user m) | None => cm_user m end) in
              (Ok (if inplace then None else Some target), upd target m' h1) (* 1411-1424 *)
          end
      end
  end.

(* utils/_properties.py:227-237 *)
Definition get_cell_group (cg : option (list Z)) (labels : option dict)
  : res (option (list string + list Z)) :=
  match cg with
  | None => Ok None                                                       (* 236-237 *)
  | Some data =>
      match labels with
      | None => Ok (Some (inr data))
      | Some d => let! names := mapM (fun i => match inv_get i d with
                                               | Some k => Ok k | None => Err KeyError end) data in
                  Ok (Some (inl names))                                   (* 230-234 *)
      end
  end.

(* core/_base.py:213-228: removal of unused groups (the group part of _clean) *)
Fixpoint enum_from (n : Z) (l : list string) : list (mkey * Z) :=
  match l with [] => [] | k :: l' => (KStr k, n) :: enum_from (n + 1) l' end.

Definition clean_groups (cg : option (list Z)) (labels : option dict)
  : res (option (list Z) * option dict) :=
  match cg, labels with
  | Some data, Some d =>
      let used := map (fun kv => existsb (fun x => x =? snd kv) data) d in (* 214-215 *)
      if forallb (fun b => b) used then Ok (cg, labels)                   (* 217 *)
      else
        let keys := mask_get used (map fst d) in                          (* 218-220 *)
        let! r := remap_data data labels (enum_from 0 keys) in            (* 221-228 *)
        let '(out, labels') := r in Ok (Some out, labels')
  | _, _ => Ok (cg, labels)
  end.

(* ---- MeshMerge ---- *)
(* core/merge.py:62-72: an item.  Group "" stands for None. *)
Definition merge_item (A : Type) := (gmesh A * string)%type.

(* core/merge.py:94-104: loop over the items.  [swap] is the order in which pv.merge
   appends its two arguments (it depends on the PyVista/VTK version): false = first mesh
   first.  Returns the merged cells with their group numbers, the group table and the items
   after the call (their "CellGroup" array is overwritten in place). *)
Fixpoint merge_loop {A} (o : options) (swap : bool) (items : list (merge_item A))
  (acc : option (list (A * Z))) (groups : dict)
  : res (option (list (A * Z)) * dict * list (merge_item A)) :=
  match items with
  | [] => Ok (acc, groups, [])
  | (mesh, g) :: its =>
      let! ag := initialize_group_array o mesh groups GNone g in          (* 96-98 *)
      let '(arr, groups) := ag in
      let b := combine (gm_cells mesh) arr in
      let acc := match acc with
                 | None => b                                              (* 103-104 *)
                 | Some a => if swap then b ++ a else a ++ b              (* 100-101 *)
                 end in
      let! r := merge_loop o swap its (Some acc) groups in
      let '(out, groups, its') := r in
      Ok (out, groups, (mkG (gm_cells mesh) (Some arr) (gm_labels mesh), g) :: its')
  end.

(* core/merge.py:74-110.  [clean] (VTK) keeps the cells of the mesh; only the group part of
   _clean is modelled.  Returns the merged mesh and the items after the call. *)
Definition merge_generate {A} (o : options) (swap : bool) (items : list (merge_item A))
  : res (gmesh A * list (merge_item A)) :=
  match items with
  | [] => Err ValueError                                                  (* 89-90 *)
  | _ =>
      let! r := merge_loop o swap items None [] in
      let '(out, groups, items') := r in
      let cells := match out with Some c => c | None => [] end in
      let! cl := clean_groups (Some (map snd cells)) (Some groups) in     (* 106-110 *)
      let '(cg, labels) := cl in
      Ok (mkG (map fst cells) cg labels, items')
  end.
