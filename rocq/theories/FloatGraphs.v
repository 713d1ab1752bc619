(** Strengths and total weights of weighted graphs in double precision.  Model only.

    As in Graphs.v for a single table of edges, with a column of doubles as weights and every operation followed by a rounding [rn].  The
    order in which scipy and numpy add the terms of a sum is left open: a sum follows a [plan], one for repeated edges ([dup]), one for
    the sums over rows and columns ([axis]) and one for the sums over arrays ([whole]). *)
From Verif Require Import Base Num Graphs Float.

(** An order and bracketing of additions. *)
(** sparse/graphs.py:229-243, 268-274, 562-568, 628-642 (the calls of [sum]). *)
Inductive plan := Leaf (a : num) | Plus (l r : plan).
Fixpoint leaves (t : plan) : list num := match t with Leaf a => [a] | Plus l r => leaves l ++ leaves r end.

Section Rounded.
Variable rn : R -> num.

Fixpoint rplan (t : plan) : num := match t with Leaf a => a | Plus l r => radd rn (rplan l) (rplan r) end.
Definition rtotal (order : list num -> plan) (l : list num) : num := match l with [] => Fin 0 | _ => rplan (order l) end.

Variables dup axis whole : list num -> plan.

(** sparse/graphs.py:175-186 (Graph.__init__, the matrix [adj] of a weighted graph): the weights of repeated edges are added. *)
Definition rcoo_row (N : nat) (e : list (nat * nat * R)) (i : nat) : list (nat * num) :=
  map (fun j => (j, rtotal dup (map (fun t => Fin (snd t)) (filter (hits i j) e)))) (filter (fun j => existsb (hits i j) e) (seq 0 N)).

(** [A[i, j]], 0 if it is not stored. *)
(** sparse/graphs.py:213-227 (Graph.adjacency_matrix) *)
Fixpoint rget (r : list (nat * num)) (j : nat) : num :=
  match r with [] => Fin 0 | (k, v) :: t => if Nat.eqb k j then v else rget t j end.

(** [A.sum(axis=1)], [A.sum(axis=0)] and [A.sum()], which adds the sums of the rows. *)
(** sparse/graphs.py:237-243 (Graph.total_weight), 268-274 (Graph.strength), 562-568 (DiGraph.total_weight), 628-642 (out_strength, in_strength) *)
Definition rsum_axis1 (A : nat -> list (nat * num)) (i : nat) : num := rtotal axis (map snd (A i)).
Definition rsum_axis0 (N : nat) (A : nat -> list (nat * num)) (j : nat) : num :=
  rtotal axis (map snd (flat_map (fun i => filter (fun p => Nat.eqb (fst p) j) (A i)) (seq 0 N))).
Definition rsum_all (N : nat) (A : nat -> list (nat * num)) : num := rtotal whole (map (rsum_axis1 A) (seq 0 N)).

(** sparse/graphs.py:213-227 (Graph.adjacency_matrix, weighted): the matrix plus its transpose minus the diagonal.  Weights are positive,
    so no entry of the result is zero. *)
Definition rsymmetrize (N : nat) (A : nat -> list (nat * num)) (i : nat) : list (nat * num) :=
  map (fun j => (j, let s := radd rn (rget (A i) j) (rget (A j) i) in if Nat.eqb i j then rsub rn s (rget (A i) i) else s))
    (filter (fun j => existsb (Nat.eqb j) (map fst (A i)) || existsb (Nat.eqb i) (map fst (A j))) (seq 0 N)).

(** DiGraph.out_strength, in_strength and total_weight, sparse/graphs.py:628-642, 562-568. *)
Definition rout_strength (N : nat) (e : list (nat * nat * R)) (i : nat) : num := rsum_axis1 (rcoo_row N e) i.
Definition rin_strength (N : nat) (e : list (nat * nat * R)) (j : nat) : num := rsum_axis0 N (rcoo_row N e) j.
Definition rdi_total_weight (N : nat) (e : list (nat * nat * R)) : num := rsum_all N (rcoo_row N e).

(** Graph.strength and total_weight, sparse/graphs.py:268-274, 237-243. *)
Definition rstrength (N : nat) (e : list (nat * nat * R)) (i : nat) : num := rsum_axis1 (rsymmetrize N (rcoo_row N e)) i.
Definition rgraph_total_weight (N : nat) (e : list (nat * nat * R)) : num :=
  let A := rsymmetrize N (rcoo_row N e) in
  rdiv rn (radd rn (rsum_all N A) (rtotal whole (map (fun i => rget (A i) i) (seq 0 N)))) (Fin 2).
End Rounded.
