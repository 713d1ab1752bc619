(** Strengths of weighted multigraphs in double precision.  Model only.

    As in Graphs.v for a table of edges with labels, with every operation followed by a rounding [rn] and sums of rows, columns and
    repeated edges in any order, as in FloatGraphs.v.  A row of the table is an edge with its weight, and the index of its label. *)
From Verif Require Import Base Num Graphs Float FloatGraphs.

(** sparse/graphs.py:915-927 (MultiGraph.__init__, weighted, which MultiDiGraph calls: the rows with label [l]) *)
Definition layer (E : list (nat * nat * R * nat)) (l : nat) : list (nat * nat * R) := map fst (filter (fun t => Nat.eqb (snd t) l) E).

Section Rounded.
Variable rn : R -> num.
Variables dup axis : list num -> plan.

(** The sum of two sparse matrices.  Weights are positive, so no entry of the result is zero. *)
(** sparse/graphs.py:1220-1221 (MultiDiGraph.adjacency_matrix), 948-949 (MultiGraph.adjacency_matrix) *)
Definition radd_rows (N : nat) (A B : nat -> list (nat * num)) (i : nat) : list (nat * num) :=
  map (fun j => (j, radd rn (rget (A i) j) (rget (B i) j)))
    (filter (fun j => existsb (Nat.eqb j) (map fst (A i)) || existsb (Nat.eqb j) (map fst (B i))) (seq 0 N)).

(** sparse/graphs.py:1216-1221 (MultiDiGraph.adjacency_matrix, directed and weighted), 944-949 (MultiGraph.adjacency_matrix, before it is
    made symmetric) *)
Definition rprojection (N : nat) (E : list (nat * nat * R * nat)) (num_labels : nat) : nat -> list (nat * num) :=
  for_each (seq 1 (num_labels - 1)) (fun l adj => radd_rows N adj (rcoo_row rn dup N (layer E l))) (rcoo_row rn dup N (layer E 0)).

(** DiGraph.out_strength and in_strength, sparse/graphs.py:628-642, of a MultiDiGraph. *)
Definition rmulti_out (N : nat) (E : list (nat * nat * R * nat)) (num_labels i : nat) : num := rsum_axis1 rn axis (rprojection N E num_labels) i.
Definition rmulti_in (N : nat) (E : list (nat * nat * R * nat)) (num_labels j : nat) : num := rsum_axis0 rn axis N (rprojection N E num_labels) j.

(** MultiDiGraph.out_strength_by_label and in_strength_by_label, sparse/graphs.py:1301-1323: the entry of a vertex and a label. *)
Definition rout_by_label (N : nat) (E : list (nat * nat * R * nat)) (i l : nat) : num := rsum_axis1 rn axis (rcoo_row rn dup N (layer E l)) i.
Definition rin_by_label (N : nat) (E : list (nat * nat * R * nat)) (j l : nat) : num := rsum_axis0 rn axis N (rcoo_row rn dup N (layer E l)) j.

(** Graph.strength, sparse/graphs.py:268-274, of a MultiGraph: the projection is made symmetric, sparse/graphs.py:944-954. *)
Definition rmulti_strength (N : nat) (E : list (nat * nat * R * nat)) (num_labels i : nat) : num :=
  rsum_axis1 rn axis (rsymmetrize rn N (rprojection N E num_labels)) i.
(** MultiGraph.strength_by_label, sparse/graphs.py:1016-1026: the entry of a vertex and a label. *)
Definition rstrength_by_label (N : nat) (E : list (nat * nat * R * nat)) (i l : nat) : num :=
  rsum_axis1 rn axis (rsymmetrize rn N (rcoo_row rn dup N (layer E l))) i.
End Rounded.
