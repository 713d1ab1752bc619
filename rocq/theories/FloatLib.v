(** PageRank in double precision.  Model only.  As in Float.v every operation is the exact one followed by the rounding [rn]; the functions are
    those of Lib.v for floating point weights, and [np.sum] of compiled code adds from left to right. *)
From Verif Require Import Base Num Lib Kernels Float.

Section Rounded.
Variable rn : R -> num.

(** lib.py:19 ([np.sum(vals)]) *)
Definition rrow_sum (vals : list (nat * R)) : num := for_each vals (fun e c => radd rn c (Fin (snd e))) (Fin 0).

(** lib.py:8-21, [normalise_rows] *)
Definition rnormalise_rows (A : nat -> list (nat * R)) : nat -> list (nat * num) :=
  fun i =>
    match A i with
    | [] => []
    | vals => map (fun e => (fst e, rdiv rn (Fin (snd e)) (rrow_sum vals))) vals
    end.

(** lib.py:24-44, [propagate_measure].  [M] is the number of rows, [N = len(meas)]. *)
Definition rpropagate_measure (M : nat) (A : nat -> list (nat * num)) (N : nat) (meas : nat -> num)
    (absorb : bool) : nat -> num :=
  for_range M (fun i update =>
    match A i with
    | [] =>
        if negb absorb
        then for_range N (fun k update => radd_at rn update k (rdiv rn (meas i) (Fin (INR N)))) update
        else update
    | row => for_each row (fun e update => radd_at rn update (fst e) (rmul rn (snd e) (meas i))) update
    end) (fun _ => Fin 0).

(** lib.py:83 ([np.all(np.absolute(rank - old_rank) < tol)]) *)
Definition rall_close (N : nat) (tol : R) (new old : nat -> num) : bool :=
  forallb (fun k => nltb (nabs (rsub rn (new k) (old k))) (Fin tol)) (seq 0 N).

(** lib.py:47-88, [pagerank], from the row view of the adjacency matrix it asks the graph for *)
Definition rpagerank (N : nat) (A : nat -> list (nat * R)) (alpha : R) (max_iter : nat) (tol : R)
    : res ((nat -> num) * verdict) :=
  let w := rnormalise_rows A in
  match for_flow max_iter (fun n rank =>
      let new_rank := rpropagate_measure N w N rank false in
      if Nat.eqb N 0 then Return (Raise ZeroDivisionError)
      else
        let new_rank := fun k => radd rn (rmul rn (new_rank k) (Fin alpha)) (rdiv rn (rsub rn (Fin 1) (Fin alpha)) (Fin (INR N))) in
        if rall_close N tol new_rank rank
        then Return (Ok (new_rank, Converged n))
        else Next new_rank)
    (fun _ => rdiv rn (Fin 1) (Fin (INR N))) with
  | Return r => r
  | Next rank => if Nat.eqb max_iter 0 then Raise UnboundLocalError else Ok (rank, Stopped max_iter)
  end.

End Rounded.
