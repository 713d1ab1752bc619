(** Strengths by group of weighted graphs in double precision.  Model only.

    As in Graphs.v for a single table of edges, with every operation followed by a rounding [rn].  The loops of [sum_by_group] add
    from left to right, so only the order of the additions for repeated edges ([dup]) is left open. *)
From Verif Require Import Base Num Graphs Float FloatGraphs.

Section Rounded.
Variable rn : R -> num.
Variable dup : list num -> plan.

(** [gcnt[g] = gcnt[g] + v] if present, [gcnt[g] = v] otherwise. *)
(** sparse/graphs.py:407-410 (Graph.sum_by_group) *)
Fixpoint rtally (d : list (nat * num)) (g : nat) (v : num) : list (nat * num) :=
  match d with
  | [] => [(g, v)]
  | (h, w) :: t => if Nat.eqb h g then (h, radd rn w v) :: t else (h, w) :: rtally t g v
  end.
(** sparse/graphs.py:405-410 (Graph.sum_by_group): the dictionary [gcnt] for one row.  Its keys are different, so that the matrix that is
    built from the dictionaries adds nothing. *)
Definition rgcnt (g_arr : nat -> nat) (row : list (nat * num)) : list (nat * num) :=
  for_each row (fun e d => rtally d (g_arr (fst e)) (snd e)) [].

(** [adj.tocsc()]: the entries of a column, by row. *)
(** sparse/graphs.py:660 (DiGraph.in_strength_by_group) *)
Definition rcolumn (N : nat) (A : nat -> list (nat * num)) (j : nat) : list (nat * num) :=
  flat_map (fun i => map (fun p => (i, snd p)) (filter (fun p => Nat.eqb (fst p) j) (A i))) (seq 0 N).

(** The entry of a vertex and a group of DiGraph.out_strength_by_group and in_strength_by_group, sparse/graphs.py:644-668, and
    of Graph.strength_by_group, sparse/graphs.py:276-289. *)
Definition rout_by_group (N : nat) (e : list (nat * nat * R)) (groups : nat -> nat) (i g : nat) : num :=
  rget (rgcnt groups (rcoo_row rn dup N e i)) g.
Definition rin_by_group (N : nat) (e : list (nat * nat * R)) (groups : nat -> nat) (j g : nat) : num :=
  rget (rgcnt groups (rcolumn N (rcoo_row rn dup N e) j)) g.
Definition rby_group (N : nat) (e : list (nat * nat * R)) (groups : nat -> nat) (i g : nat) : num :=
  rget (rgcnt groups (rsymmetrize rn N (rcoo_row rn dup N e) i)) g.
End Rounded.
