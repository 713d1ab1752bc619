(** Model of lib.py: row normalisation, measure propagation, PageRank and trophic depth.

    A CSR matrix with [N] rows is given by its row view: [A i] is the list of (column, value) pairs
    stored in [indptr[i]:indptr[i+1]].  Slicing an array by two consecutive [indptr] values is the only
    use these functions make of the three CSR arrays. *)
From Verif Require Import Base Num.

(** [a[i] += v] on an array of floats. *)
(** lib.py:25-44 (propagate_measure) *)
Definition nadd_at (a : nat -> num) (i : nat) (v : num) : nat -> num := upd a i (nadd (a i) v).

(** Conversion made when a float is stored into an array of the dtype of the weights.
    Float arrays keep the value, integer arrays truncate it towards zero.  (nan and infinities cannot
    occur: rows are not empty and the graph constructors only accept positive weights.) *)
(** lib.py:9-21 (normalise_rows) *)
Definition store_float (x : num) : num := x.
Definition store_int (x : num) : num :=
  match x with
  | Fin r => Fin (IZR (if Rltb r 0 then (- Int_part (- r))%Z else Int_part r))
  | _ => x
  end.

(** lib.py:8-21, [normalise_rows].  [new_w] starts at zero with the dtype of [weights]; every row is
    written independently, so the loop is given as a function of the row. *)
Definition normalise_rows (store : num -> num) (A : nat -> list (nat * R)) : nat -> list (nat * num) :=
  fun i =>
    match A i with
    | [] => []
    | vals => map (fun e => (fst e, store (ndiv (Fin (snd e)) (Fin (suml snd vals))))) vals
    end.

(** lib.py:24-44, [propagate_measure].  [M] is the number of rows, [N = len(meas)]. *)
Definition propagate_measure (M : nat) (A : nat -> list (nat * num)) (N : nat) (meas : nat -> num)
    (absorb : bool) : nat -> num :=
  for_range M (fun i update =>
    match A i with
    | [] =>
        if negb absorb
        then for_range N (fun k update => nadd_at update k (ndiv (meas i) (Fin (INR N)))) update
        else update
    | row => for_each row (fun e update => nadd_at update (fst e) (nmul (snd e) (meas i))) update
    end) (fun _ => Fin 0).

(** What is printed at the end of the iterations. *)
(** lib.py:47-88 (pagerank); lib.py:91-124 (trophic_depth) *)
Inductive verdict : Type :=
| Converged (n : nat)
| Stopped (n : nat).

(** [np.all(np.absolute(new - old) < tol)] *)
(** lib.py:47-88 (pagerank); lib.py:91-124 (trophic_depth) *)
Definition all_close (N : nat) (tol : R) (new old : nat -> num) : bool :=
  forallb (fun k => nltb (nabs (nsub (new k) (old k))) (Fin tol)) (seq 0 N).

(** lib.py:47-88, [pagerank], from the row view of the adjacency matrix it asks the graph for; [store]
    is the conversion to the dtype of that matrix.  The result holds the vector and the message
    printed.  [n] is unbound when the loop body never runs (lib.py:87), and [(1 - alpha) / N] is a
    division of Python numbers. *)
Definition pagerank (store : num -> num) (N : nat) (A : nat -> list (nat * R)) (alpha : R)
    (max_iter : nat) (tol : R) : res ((nat -> num) * verdict) :=
  let w := normalise_rows store A in
  match for_flow max_iter (fun n rank =>
      let new_rank := propagate_measure N w N rank false in
      if Nat.eqb N 0 then Return (Raise ZeroDivisionError)
      else
        let new_rank := fun k => nadd (nmul (new_rank k) (Fin alpha)) (Fin ((1 - alpha) / INR N)) in
        if all_close N tol new_rank rank
        then Return (Ok (new_rank, Converged n))
        else Next new_rank)
    (fun _ => ndiv (Fin 1) (Fin (INR N))) with
  | Return r => r
  | Next rank => if Nat.eqb max_iter 0 then Raise UnboundLocalError else Ok (rank, Stopped max_iter)
  end.

(** [adj.tocsc()]: column [c] lists the (row, value) pairs of column [c] by increasing row. *)
(** lib.py:91-124 (trophic_depth) *)
Definition csc (N : nat) (A : nat -> list (nat * R)) : nat -> list (nat * R) :=
  fun c => flat_map (fun r => map (fun e => (r, snd e)) (filter (fun e => Nat.eqb (fst e) c) (A r)))
             (seq 0 N).

(** lib.py:91-124, [trophic_depth].  [matrix] tells whether [adj.sum(axis=1)] is an [np.matrix]
    (scipy sparse matrices) and so has the attribute [A1]; for scipy sparse arrays it is a plain
    [ndarray] without it (lib.py:104). *)
Definition trophic_depth (matrix : bool) (N : nat) (A : nat -> list (nat * R)) (final : nat -> R)
    (max_iter : nat) (tol : R) : res ((nat -> num) * verdict) :=
  guard matrix AttributeError
  (let col := fun c => map (fun e => (fst e, Fin (snd e))) (csc N A c) in
   let strength := fun v => suml snd (A v) + final v in
   match for_flow max_iter (fun n depth =>
       let new_depth := propagate_measure N col N (fun k => nadd (depth k) (Fin 1)) true in
       let new_depth := fun v =>
         if negb (Reqb (strength v) 0)
         then ndiv (nadd (Fin (final v)) (new_depth v)) (Fin (strength v)) else new_depth v in
       if all_close N tol new_depth depth
       then Return (Ok (new_depth, Converged n))
       else Next new_depth)
     (fun v => Fin (final v)) with
   | Return r => r
   | Next depth => if Nat.eqb max_iter 0 then Raise UnboundLocalError else Ok (depth, Stopped max_iter)
   end).

(** The adjacency matrices of sparse/graphs.py are scipy sparse arrays: they are built with
    [sp.coo_array] (sparse/graphs.py 184, 190, 948, 961), and sums and conversions keep the kind. *)
Definition graph_trophic_depth := trophic_depth false.
