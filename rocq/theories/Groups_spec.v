(* Specification vocabulary for cell groups. *)
From Verif Require Import Prelude.
From Coq Require Import Ascii.
From Verif Require Groups_model.
Import Groups_model(npmask(..), gmesh(..), selector(..), mkey(..)).
Export (notations) Groups_model.
Open Scope Z_scope.

Definition table := list (string * Z).

(* the value of key k, the first one *)
Fixpoint entry_of {X} (k : string) (l : list (string * X)) : option X :=
  match l with
  | [] => None
  | (k', v) :: l' => if String.eqb k k' then Some v else entry_of k l'
  end.
(* a missing table is an empty one *)
Definition table_of (o : option table) : table := match o with Some t => t | None => [] end.

(* distinct names numbered 0, 1, ..., n-1 in order *)
Definition numbered (t : table) : Prop :=
  NoDup (map fst t) /\ map snd t = map Z.of_nat (seq 0 (length t)).

(* t' extends t: nothing renumbered, nothing dropped *)
Definition extends (t t' : table) : Prop := exists ext, t' = t ++ ext.

(* cell c carries the number of [name] *)
Definition named (t : table) (arr : list Z) (c : nat) (name : string) : Prop :=
  exists z, nth_error arr c = Some z /\ In (name, z) t.

(* an array of indices or a boolean mask addresses position c of an array of n elements *)
Definition addresses (n : nat) (m : npmask) (c : nat) : Prop :=
  match m with
  | MBool b => nth_error b c = Some true
  | MInt ids => exists i, In i ids /\ (i = Z.of_nat c \/ i = Z.of_nat c - Z.of_nat n)
  end.

(* e is the last element of l satisfying P *)
Definition last_such {E} (P : E -> Prop) (l : list E) (e : E) : Prop :=
  exists l1 l2, l = l1 ++ e :: l2 /\ P e /\ Forall (fun x => ~ P x) l2.

(* the label of cell c in a mesh with numbers cg and labels *)
Definition label_of (cg : list Z) (labels : table) (c : nat) (k : string) : Prop :=
  exists v, nth_error cg c = Some v /\ In (k, v) labels.

(* name of a cell before the group argument is considered: its label unless ignored,
   otherwise the default *)
Inductive base_name (labelled : option (list Z * table)) (ignored : list string) (default : string)
  (c : nat) : string -> Prop :=
| bn_label cg labels k :
    labelled = Some (cg, labels) -> label_of cg labels c k -> ~ In k ignored ->
    base_name labelled ignored default c k
| bn_default :
    (forall cg labels k, labelled = Some (cg, labels) -> label_of cg labels c k -> In k ignored) ->
    base_name labelled ignored default c default.

(* ---- meshes and selectors ---- *)
(* the array of group numbers, when present, has one entry per cell *)
Definition aligned {A} (mesh : gmesh A) : Prop :=
  match Groups_model.gm_cg mesh with
  | Some cg => length cg = length (Groups_model.gm_cells mesh) | None => True end.

Definition labelled {A} (mesh : gmesh A) : option (list Z * table) :=
  match Groups_model.gm_cg mesh, Groups_model.gm_labels mesh with
  | Some cg, Some l => Some (cg, l) | _, _ => None end.

(* does not start with ~ *)
Definition plain (s : string) : Prop := forall s', s <> String "~"%char s'.

(* a name selects the cells labelled so, ~name the others *)
Definition string_selects (cg : list Z) (labels : table) (s : string) (c : nat) : Prop :=
  (plain s -> label_of cg labels c s) /\
  (forall s', s = String "~"%char s' -> ~ label_of cg labels c s').

(* the cells denoted by a selector *)
Definition selects {A} (mesh : gmesh A) (sel : selector A) (c : nat) : Prop :=
  match sel with
  | Groups_model.SelCall f => addresses (length (Groups_model.gm_cells mesh)) (f mesh) c
  | Groups_model.SelArr m => addresses (length (Groups_model.gm_cells mesh)) m c
  | Groups_model.SelStr s =>
      match Groups_model.gm_cg mesh, Groups_model.gm_labels mesh with
      | Some cg, Some labels => string_selects cg labels s c | _, _ => False end
  | Groups_model.SelStrs l =>
      match Groups_model.gm_cg mesh, Groups_model.gm_labels mesh with
      | Some cg, Some labels => exists s, In s l /\ string_selects cg labels s c | _, _ => False end
  | Groups_model.SelOther => False
  end.

(* the cells an entry of a group dictionary addresses: the complement when its key starts with ~ *)
Definition entry_selects {A} (mesh : gmesh A) (e : string * selector A) (c : nat) : Prop :=
  (plain (fst e) -> selects mesh (snd e) c) /\
  (forall k, fst e = String "~"%char k -> ~ selects mesh (snd e) c).

(* the group name of an entry *)
Definition key_name (key k : string) : Prop := key = String "~"%char k \/ (plain key /\ k = key).

(* the default group: the one given, or that of the object when none ("") is given *)
Definition the_default (o : Groups_model.options) (default : string) : string :=
  if String.eqb default "" then Groups_model.default_group o else default.

(* ---- call histories: the operations that change a group table during generation ---- *)
Inductive group_call (A : Type) (t : table) : table -> Prop :=
| gc_mesh o (mesh : gmesh A) group default arr t' :
    aligned mesh -> Groups_model.initialize_group_array o mesh t group default = Ok (arr, t') ->
    group_call A t t'
| gc_size o size default arr t' :
    Groups_model.initialize_group_array_size o size t default = (arr, t') -> group_call A t t'
| gc_number k n t' :
    Groups_model.get_group_number k t = (n, t') -> group_call A t t'.
Inductive history (A : Type) : table -> table -> Prop :=
| h_nil t : history A t t
| h_cons t t1 t2 : group_call A t t1 -> history A t1 t2 -> history A t t2.

(* ---- remapping ---- *)
(* the value addressed by a key of a mapping *)
Definition resolves (labels : table) (k : mkey) (z : Z) : Prop :=
  match k with Groups_model.KStr s => In (s, z) labels | Groups_model.KInt z' => z = z' end.

(* no two entries of the mapping address the same value *)
Definition unambiguous (labels : table) (mapping : list (mkey * Z)) : Prop :=
  ForallOrdPairs (fun a b => forall z, ~ (resolves labels (fst a) z /\ resolves labels (fst b) z)) mapping.

(* every string key names a label *)
Definition known_keys (labels : table) (mapping : list (mkey * Z)) : Prop :=
  forall s v, In (Groups_model.KStr s, v) mapping -> exists z, In (s, z) labels.

(* data' is the image of data *)
Definition image_under (labels : table) (mapping : list (mkey * Z)) (data data' : list Z) : Prop :=
  length data' = length data /\
  forall c x, nth_error data c = Some x ->
    (forall k v, In (k, v) mapping -> resolves labels k x -> nth_error data' c = Some v) /\
    ((forall k v, In (k, v) mapping -> ~ resolves labels k x) -> nth_error data' c = Some x).

(* l is l' with some elements removed *)
Inductive subseq {E} : list E -> list E -> Prop :=
| ss_nil l : subseq [] l
| ss_skip x l l' : subseq l l' -> subseq l (x :: l')
| ss_keep x l l' : subseq l l' -> subseq (x :: l) (x :: l').
