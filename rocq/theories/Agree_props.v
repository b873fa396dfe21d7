From Coq Require Import Lia.
From Verif Require Import Prelude Topo_model Topo_spec Agree_spec Agree_proof.
Open Scope nat_scope.

(* C190: both functions succeed together, with the same pairs in the same order, or raise the same error *)
Theorem C190_agree :
  forall nonzero rg d, wf_mesh (cast d) -> forall P (centers : list P),
  match get_connectivity nonzero rg d [length (v_types (cast d)); 3] centers with
  | Ok (c, lines) => c = centers /\ exists nb, get_neighborhood nonzero rg d = Ok nb /\ length nb = length (v_types (cast d)) /\
      forall i r, nth_error nb i = Some r -> r = flat_map (other_end i) lines
  | Err e => get_neighborhood nonzero rg d = Err e
  end.
Proof. exact @agree. Qed.
Print Assumptions C190_agree.

(* three quadrilaterals, each with an edge of both others *)
Definition corner : vmesh := mkV [9; 9; 9] [[0; 1; 2; 3]; [1; 4; 5; 2]; [3; 2; 5; 6]] [] [].
Example C190_example : wf_mesh corner /\
  get_connectivity (fun _ => true) true (DCells corner) [3; 3] (seq 0 3) = Ok (seq 0 3, [(0, 1); (0, 2); (1, 2)]%Z) /\
  get_neighborhood (fun _ => true) true (DCells corner) = Ok [[1; 2]; [0; 2]; [0; 1]]%Z.
Proof. split; [split; cbn; lia|]. split; reflexivity. Qed.

(* with a collapsed edge that takes no column away *)
Example C190_collapsed_example :
  get_connectivity (fun f => negb (existsb (Nat.eqb 0) f)) true (DCells corner) [3; 3] (seq 0 3) = Ok (seq 0 3, [(0, 1); (0, 2); (1, 2)]%Z).
Proof. reflexivity. Qed.
