(* Model of pvgridder/core/_helpers.py: resolution_to_perc (461-509),
   generate_line_from_two_points (61-108), generate_arc (15-58). *)
From Verif Require Export RealAux.
Open Scope R_scope.

(* core/_helpers.py:461-465.  The accepted forms of the [resolution] argument.
   [ResOther] stands for every other value (float, NumPy scalar, array whose
   ndim is not 1).  A bool is an int in Python (True = 1, False = 0). *)
Inductive resolution :=
| ResNone
| ResInt (n : Z)
| ResArr (l : list R)
| ResOther.

(* np.linspace(a, b, num) for num >= 2 (exact arithmetic). *)
Definition linspace (a b : R) (num : nat) : list R :=
  map (fun i => a + INR i * ((b - a) / INR (num - 1))) (seq 0 num).

(* str.endswith("_r") *)
Definition ends_with_r (s : string) : bool :=
  let n := String.length s in
  if (2 <=? n)%nat then String.eqb (substring (n - 2) 2 s) "_r" else false.

(* core/_helpers.py:461-509 *)
Definition resolution_to_perc (r : resolution) (method : option string) : res (list R) :=
  let r := match r with ResNone => ResInt 1 | _ => r end in             (* 485 *)
  match r with
  | ResInt n =>
      let n := Z.to_nat (Z.max 1 n) in                                  (* 488 *)
      let m := match method with                                        (* 489 *)
               | None => "constant"
               | Some s => if String.eqb s "" then "constant" else s
               end%string in
      let! perc :=
        (if String.eqb m "constant" then Ok (linspace 0 1 (n + 1))      (* 491-492 *)
         else if (String.eqb m "log" || String.eqb m "log_r")%bool
         then Ok (map log10 (linspace 1 10 (n + 1)))                    (* 494-495 *)
         else Err ValueError) in                                        (* 497-498 *)
      let perc :=
        if negb (String.eqb m "constant" || ends_with_r m)%bool
        then map (fun p => 1 - p) perc else perc in                     (* 500-501 *)
      Ok (np_sort perc)                                                 (* 509 *)
  | ResArr l => Ok (np_sort l)                                          (* 503-504 *)
  | ResOther => Err ValueError                                          (* 506-507 *)
  | ResNone => Err ValueError (* unreachable: replaced above *)
  end.

(* pv.MultipleLines: at least two points *)
Definition multiple_lines {A} (pts : list A) : res (list A) :=
  if (2 <=? length pts)%nat then Ok pts else Err ValueError.

(* core/_helpers.py:61-108.  Points are arrays of coordinates; the result is
   the list of points of the polyline (connectivity is 0..n-1).  The checks of
   the number of columns and of points are those of pv.MultipleLines. *)
Definition generate_line_from_two_points
  (a b : list R) (r : resolution) (method : option string) : res (list (list R)) :=
  if negb (length a =? length b)%nat then Err ValueError                (* 95-96 *)
  else
    let! perc := resolution_to_perc r method in                         (* 98 *)
    let pts := map (fun t => map2 (fun x y => x + t * (y - x)) a b) perc in (* 99 *)
    let pts := if (length a =? 3)%nat then pts
               else map (fun p => p ++ [0]) pts in                      (* 100-104 *)
    if ((length a =? 3) || (length a =? 2))%nat%bool then multiple_lines pts
    else Err ValueError.                                                (* 105 *)

Definition deg2rad (x : R) : R := x * (PI / 180).

(* core/_helpers.py:15-58 *)
Definition generate_arc (radius tmin tmax : R) (r : resolution) (method : option string)
  : res (list (R * R * R)) :=
  let! perc := resolution_to_perc r method in                           (* 49 *)
  let angles := map (fun p => deg2rad (tmin + p * (tmax - tmin))) perc in (* 50-51 *)
  multiple_lines (map (fun t => (radius * cos t, radius * sin t, radius * 0)) angles). (* 52-55 *)
