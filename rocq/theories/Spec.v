(** Specification vocabulary.  Nothing here models code: these are the mathematical notions the
    property theorems are stated with.  The file depends only on sums/products (Base.v) and on the
    extended numbers (Num.v). *)
From Verif Require Import Base Num.
From Coq Require Import Sorting.Sorted.

(** * Numbers *)

(** Order on extended numbers. *)
Definition nle (a b : num) : Prop :=
  match a, b with
  | Fin x, Fin y => x <= y
  | Fin _, PInf | PInf, PInf | NInf, Fin _ | NInf, PInf | NInf, NInf => True
  | _, _ => False
  end.

(** [l] is the logarithm of the probability [p] (minus infinity for p = 0). *)
Definition log_of (p : R) (l : num) : Prop :=
  (0 < p /\ l = Fin (ln p)) \/ (p = 0 /\ l = NInf).

(** * Connection probabilities *)

(** Probability functions of the two model families: t/(1+t) (fitness model) and 1-exp(-t)
    (scale invariant model). *)
Definition logistic (t : R) : R := t / (1 + t).
Definition poissonian (t : R) : R := 1 - exp (- t).

Definition some_zero (l : list num) : Prop := In (Fin 0) l.
Definition some_inf (l : list num) : Prop := In PInf l.

(** Link probability from a list of non-negative factors: 0 if a factor is zero, 1 if a factor is
    infinite (and none is zero), [g] of the product otherwise. *)
Definition is_zero (a : num) : bool := match a with Fin x => Reqb x 0 | _ => false end.
Definition is_infinite (a : num) : bool := match a with PInf => true | _ => false end.
Definition link_prob (g : R -> R) (l : list num) : R :=
  if existsb is_zero l then 0
  else if existsb is_infinite l then 1
  else g (prodl toR l).

(** * Label vectors *)

(** Value of a sparse label vector (list of (label, value)) at a label, 0 when not stored. *)
Fixpoint lookup (k : nat) (xs : list (nat * num)) : num :=
  match xs with
  | [] => Fin 0
  | (l, v) :: t => if Nat.eqb l k then v else lookup k t
  end.

(** Canonical sparse row: labels strictly increasing and below the number of labels. *)
Definition canonical (L : nat) (xs : list (nat * num)) : Prop :=
  StronglySorted lt (map fst xs) /\ Forall (fun p => (fst p < L)%nat) xs.

Definition all_nonneg (xs : list (nat * num)) : Prop := Forall (fun p => nonneg (snd p)) xs.
Definition all_finite (xs : list (nat * num)) : Prop :=
  Forall (fun p => exists v, snd p = Fin v /\ 0 <= v) xs.

(** * Pairs and graphs *)

(** Admissible ordered pairs: all, or all but the diagonal. *)
Definition allowed (sl : bool) (i j : nat) : bool := negb (Nat.eqb i j) || sl.

(** Sum over all admissible ordered pairs. *)
Definition pair_sum (N : nat) (sl : bool) (q : nat -> nat -> R) : R :=
  sumn N (fun i => sumn N (fun j => if allowed sl i j then q i j else 0)).

(** The admissible ordered pairs in row-major order. *)
Definition pairs (N : nat) (sl : bool) : list (nat * nat) :=
  filter (fun e => allowed sl (fst e) (snd e)) (list_prod (seq 0 N) (seq 0 N)).

Fixpoint sublists {A} (l : list A) : list (list A) :=
  match l with
  | [] => [[]]
  | e :: t => map (cons e) (sublists t) ++ sublists t
  end.

Definition pair_eqb (e f : nat * nat) : bool := Nat.eqb (fst e) (fst f) && Nat.eqb (snd e) (snd f).
Definition mem (e : nat * nat) (G : list (nat * nat)) : bool := existsb (pair_eqb e) G.

(** All graphs of the ensemble: every set of admissible pairs, as a list in row-major order. *)
Definition all_graphs (N : nat) (sl : bool) : list (list (nat * nat)) := sublists (pairs N sl).

(** CSR row view of a graph given as a list of pairs. *)
Definition row_of (G : list (nat * nat)) (i : nat) : list nat :=
  map snd (filter (fun e => Nat.eqb (fst e) i) G).

(** Probability of a graph when links are independent with probabilities [p]. *)
Definition graph_weight (N : nat) (sl : bool) (p : nat -> nat -> R) (G : list (nat * nat)) : R :=
  prodn N (fun i => prodn N (fun j =>
    if allowed sl i j then (if mem (i, j) G then p i j else 1 - p i j) else 1)).

(** Observables of a graph. *)
Definition g_edges (N : nat) (G : list (nat * nat)) : R :=
  sumn N (fun i => sumn N (fun j => b2r (mem (i, j) G))).
Definition g_out (N : nat) (G : list (nat * nat)) (v : nat) : R := sumn N (fun j => b2r (mem (v, j) G)).
Definition g_in (N : nat) (G : list (nat * nat)) (v : nat) : R := sumn N (fun j => b2r (mem (j, v) G)).
(** number of distinct vertices linked to v in either direction *)
Definition g_deg (N : nat) (G : list (nat * nat)) (v : nat) : R :=
  sumn N (fun j => b2r (mem (v, j) G || mem (j, v) G)).

(** Mean over the ensemble of an observable, weighting each graph by [w]. *)
Definition ensemble_mean (N : nat) (sl : bool) (w : list (nat * nat) -> R) (f : list (nat * nat) -> R) : R :=
  suml (fun G => w G * f G) (all_graphs N sl).

(** Equality of graphs given as lists of links. *)
Fixpoint list_eqb (l m : list (nat * nat)) : bool :=
  match l, m with
  | [], [] => true
  | x :: l', y :: m' => pair_eqb x y && list_eqb l' m'
  | _, _ => false
  end.

(** Total weight carried by pair (i,j) in a list of weighted links. *)
Definition w_pair (i j : nat) (G : list (nat * nat * R)) : R :=
  suml (fun t => if pair_eqb (fst t) (i, j) then snd t else 0) G.

(** * Directed neighbourhoods *)

(** Probability that j is a neighbour of v along outgoing links, incoming links, or either. *)
Definition out_link (q : nat -> nat -> R) (v j : nat) : R := q v j.
Definition in_link (q : nat -> nat -> R) (v j : nat) : R := q j v.
Definition either_link (q : nat -> nat -> R) (v j : nat) : R :=
  if Nat.eqb v j then q v v else 1 - (1 - q v j) * (1 - q j v).

(** Expected number of neighbours, and expected total of [prop] over the neighbours. *)
Definition nb_degree (N : nat) (sl : bool) (l : nat -> nat -> R) (v : nat) : R :=
  sumn N (fun j => if allowed sl v j then l v j else 0).
Definition nb_total (N : nat) (sl : bool) (l : nat -> nat -> R) (prop : nat -> R) (v : nat) : R :=
  sumn N (fun j => if allowed sl v j then l v j * prop j else 0).

(** * Aggregation of vertices into blocks *)

(** Sum of extended numbers. *)
Fixpoint nsumn (n : nat) (f : nat -> num) : num :=
  match n with O => Fin 0 | S k => nadd (nsumn k f) (f k) end.

(** Fitness of block [a] of the partition [g]: the sum of the fitnesses of its vertices. *)
Definition block_sum (N : nat) (g : nat -> nat) (x : nat -> num) (a : nat) : num :=
  nsumn N (fun i => if Nat.eqb (g i) a then x i else Fin 0).

(** The graph has a link from block [a] to block [b]. *)
Definition blocks_linked (g : nat -> nat) (a b : nat) (G : list (nat * nat)) : bool :=
  existsb (fun e => Nat.eqb (g (fst e)) a && Nat.eqb (g (snd e)) b) G.

(** * Weighted rows and random walks *)

(** Value at column [j] of a sparse row of (column, value) entries, duplicates summed. *)
Definition entry (r : list (nat * R)) (j : nat) : R :=
  suml (fun e => if Nat.eqb (fst e) j then snd e else 0) r.

(** Sum of a sparse row. *)
Definition total (r : list (nat * R)) : R := suml snd r.

(** One step of the random walk on the rows [A]: from vertex [i] to a vertex [j] with probability
    proportional to the weight of the link, or to any of the [N] vertices when [i] has no links. *)
Definition walk (N : nat) (A : nat -> list (nat * R)) (x : nat -> R) (j : nat) : R :=
  sumn N (fun i => match A i with
                   | [] => x i / INR N
                   | _ :: _ => x i * (entry (A i) j / total (A i))
                   end).

(** PageRank iterates: uniform start, walk with probability [alpha], restart otherwise. *)
Fixpoint rank_seq (N : nat) (A : nat -> list (nat * R)) (alpha : R) (n : nat) : nat -> R :=
  match n with
  | O => fun _ => 1 / INR N
  | S k => fun j => alpha * walk N A (rank_seq N A alpha k) j + (1 - alpha) / INR N
  end.

(** Trophic depth iterates: the mean over the outgoing links of [v] (the link to the final vertex,
    which has depth zero, has weight [final v]) of one plus the depth of the target. *)
Fixpoint depth_seq (N : nat) (A : nat -> list (nat * R)) (final : nat -> R) (n : nat) : nat -> R :=
  match n with
  | O => final
  | S k => fun v =>
      let s := total (A v) + final v in
      if Req_EM_T s 0 then sumn N (fun j => entry (A v) j * (1 + depth_seq N A final k j))
      else 1 + sumn N (fun j => entry (A v) j * depth_seq N A final k j) / s
  end.

(** [u] and [v] differ by less than [tol] in each of the first [N] components. *)
Definition close (N : nat) (tol : R) (u v : nat -> R) : Prop :=
  forall k, (k < N)%nat -> Rabs (u k - v k) < tol.

(** The sequence [u] is stopped after [n] of at most [m] steps: no earlier step moved every component
    by less than [tol], and either the last one did or all [m] steps were made. *)
Definition stops (N : nat) (tol : R) (u : nat -> nat -> R) (m n : nat) : Prop :=
  (1 <= n <= m)%nat /\
  (forall k, (k + 1 < n)%nat -> ~ close N tol (u (S k)) (u k)) /\
  (n = m \/ close N tol (u n) (u (n - 1)%nat)).

(** * Ordered keys *)

(** [leb] is a total order (identifiers, group names and labels are sorted by it). *)
Definition total_order {K : Type} (leb : K -> K -> bool) : Prop :=
  (forall x y, leb x y = true \/ leb y x = true) /\
  (forall x y z, leb x y = true -> leb y z = true -> leb x z = true) /\
  (forall x y, leb x y = true -> leb y x = true -> x = y).

(** Equality of keys, decided by the order. *)
Definition eq_key {K : Type} (leb : K -> K -> bool) (x y : K) : bool := leb x y && leb y x.

(** * Weighted graphs *)

(** 1 for a non-zero weight, 0 otherwise. *)
Definition present (x : R) : R := if Req_EM_T x 0 then 0 else 1.

(** Undirected views of the directed weights [w]: links in either direction with self-loops counted
    once, as a weight and as a 0/1 indicator. *)
Definition both_ways (w : nat -> nat -> R) (i j : nat) : R := if Nat.eqb i j then w i i else w i j + w j i.
Definition neighbours (w : nat -> nat -> R) (i j : nat) : R := present (both_ways w i j).

(** * Fitnesses by label *)

(** A vertex-by-label table stored by rows, each row a pair (labels, values). *)
Definition row_vec (t : list nat * list num) : list (nat * num) := combine (fst t) (snd t).
Definition label_value (t : list (list nat * list num)) (i k : nat) : num := lookup k (row_vec (nth i t ([], []))).
(** The table has an entry (possibly zero) for vertex [i] and label [k]. *)
Definition label_stored (t : list (list nat * list num)) (i k : nat) : Prop := In k (map fst (row_vec (nth i t ([], [])))).

(** Rows of a table with [L] labels and non-negative values, at least one row. *)
Definition label_table (L : nat) (t : list (list nat * list num)) : Prop :=
  t <> [] /\ Forall (fun r => length (fst r) = length (snd r)) t /\
  Forall (fun r => canonical L (row_vec r) /\ all_nonneg (row_vec r)) t.

(** Link probability of the pair (i,j) in layer [k]. *)
Definition layer_prob (g : R -> R) (d : nat -> num) (xs ys : list (list nat * list num)) (k i j : nat) : R :=
  link_prob g [d k; label_value xs i k; label_value ys j k; Fin 1].

(** Equality of tensors given as lists of layers. *)
Fixpoint tensor_eqb (s t : list (list (nat * nat))) : bool :=
  match s, t with
  | [], [] => true
  | x :: s', y :: t' => list_eqb x y && tensor_eqb s' t'
  | _, _ => false
  end.

(** The layers of a list of triples (label, (row, column)). *)
Definition slices (L : nat) (t : list (nat * (nat * nat))) : list (list (nat * nat)) :=
  map (fun k => map snd (filter (fun e => Nat.eqb (fst e) k) t)) (seq 0 L).

(** * Conditioning on an aggregate graph *)

(** Two lists of links are the same graph. *)
Definition links_eqb (G H : list (nat * nat)) : bool :=
  forallb (fun e => mem e H) G && forallb (fun e => mem e G) H.

(** The graph [G], aggregated with the partition [g] into [M] blocks, is the graph [A]. *)
Definition agrees (M : nat) (g : nat -> nat) (A : nat -> nat -> bool) (G : list (nat * nat)) : bool :=
  forallb (fun e => Bool.eqb (blocks_linked g (fst e) (snd e) G) (A (fst e) (snd e))) (list_prod (seq 0 M) (seq 0 M)).

(** Probability, for independent links with probabilities [p], that the aggregate graph is [A]; and
    probability of the graph [G] given that the aggregate graph is [A]. *)
Definition prob_aggregate (N : nat) (sl : bool) (p : nat -> nat -> R) (M : nat) (g : nat -> nat)
    (A : nat -> nat -> bool) : R :=
  ensemble_mean N sl (graph_weight N sl p) (fun G => b2r (agrees M g A G)).
Definition cond_weight (N : nat) (sl : bool) (p : nat -> nat -> R) (M : nat) (g : nat -> nat)
    (A : nat -> nat -> bool) (G : list (nat * nat)) : R :=
  graph_weight N sl p G * b2r (agrees M g A G) / prob_aggregate N sl p M g A.

(** The aggregate graph given by sparse rows of (column, value): a link from [a] to [b]. *)
Definition macro_link (adj : nat -> list (nat * R)) (a b : nat) : bool :=
  existsb (fun e => Nat.eqb (fst e) b) (adj a).

(** Rows of a graph with [M] vertices: no column is repeated. *)
Definition aggregate_graph (M : nat) (adj : nat -> list (nat * R)) : Prop :=
  forall a, (a < M)%nat -> NoDup (map fst (adj a)) /\ (forall e, In e (adj a) -> (fst e < M)%nat).

(** Number of groups: one more than the largest group label. *)
Definition num_groups (N : nat) (g : nat -> nat) : nat := S (list_max (map g (seq 0 N))).

(** Link probability of the scale invariant model with fitnesses [x] and [y]. *)
Definition inv_prob (d : num) (x y : nat -> R) (i j : nat) : R :=
  link_prob poissonian [d; Fin (x i); Fin (y j)].

(** Total weight of the links from block [a] to block [b]. *)
Definition block_weight (g : nat -> nat) (a b : nat) (G : list (nat * nat * R)) : R :=
  suml (fun t => if Nat.eqb (g (fst (fst t))) a && Nat.eqb (g (snd (fst t))) b then snd t else 0) G.
