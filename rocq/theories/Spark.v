(** The distributed computations of spark/models.py: partition of the pair matrix into blocks, block
    functions, and the folds that combine their results.  Model only, no proofs.
    An RDD is the list of its elements, one per partition ([numSlices=len(elements)]); [map] and
    [fold] follow the PySpark documentation.  The random streams of the workers are taken to be
    independent, as the draws of a single sampler are. *)
From Coq Require Import ZArith.
From Verif Require Import Base Num Prob Ensemble.

(** * Partitions *)

(** spark/models.py:1558-1577 (FitnessModel.__init__, [p_blocks]); the same code in RandomDiGraph
    984-1003 and MultiFitnessModel 3362-3381.  [req] is the keyword argument, [None] when absent; for a
    value that is not a whole number see SparkConstruct.v. *)
Definition p_blocks (N : nat) (req : option Z) : res nat :=
  match req with
  | Some z => if (z <=? 0)%Z then Raise ValueError
              else let b := Z.to_nat z in
                   Ok (if Nat.ltb N (10 * b) then (if Nat.ltb (N / 10) 2 then 2 else N / 10) else b)
  | None => Ok (if Nat.ltb N (10 * 10) then (if Nat.ltb (N / 10) 2 then 2 else N / 10) else 10)
  end%nat.

(** A range of indices (lower bound included, upper bound excluded), and a block of the pair matrix. *)
(** spark/models.py:537-566 (DiGraphEnsemble.fit_map) *)
Definition span := (nat * nat)%type.
Definition block := (span * span)%type.

(** spark/models.py:1582-1587 and 1589-1592: the [i]-th of [B] ranges. *)
Definition bounds (N B i : nat) : span :=
  let step := (N / B)%nat in
  if Nat.eqb i (B - 1) then ((i * step)%nat, N) else ((i * step)%nat, ((i + 1) * step)%nat).

(** spark/models.py:1581-1597 ([p_iter_rdd]) *)
Definition square_blocks (N B : nat) : list block :=
  flat_map (fun i => map (fun j => (bounds N B i, bounds N B j)) (seq 0 B)) (seq 0 B).

(** spark/models.py:1601-1615 ([p_sym_rdd]) *)
Definition triangle_blocks (N B : nat) : list block :=
  flat_map (fun i => map (fun j => (bounds N B i, bounds N B j)) (seq 0 (S i))) (seq 0 B).

Definition len (s : span) : nat := (snd s - fst s)%nat.
Definition span_eqb (s t : span) : bool := Nat.eqb (fst s) (fst t) && Nat.eqb (snd s) (snd t).

(** A slice [x[lo:hi]] read at a local index. *)
(** spark/models.py:537-566 (DiGraphEnsemble.fit_map) *)
Definition slice {X} (x : nat -> X) (s : span) : nat -> X := fun i => x (fst s + i)%nat.

(** spark/models.py:46-51 (in_range) *)
Definition in_range (i : nat) (ind : span) (fold : bool) : nat := if fold then S i else len ind.

(** [rdd.fold(zero, op)]: every partition (one element each) folds from [zero], then the driver folds
    the partition results from [zero]. *)
(** spark/models.py:132-149 (DiGraphEnsemble.expected_num_edges);
    spark/models.py:151-180 (DiGraphEnsemble.expected_degree) *)
Definition rdd_fold {A} (zero : A) (op : A -> A -> A) (l : list A) : A :=
  fold_left op (map (fun a => op zero a) l) zero.

Section Blocks.
Variables P X Y Z : Type.

(** * Block functions.  [prop_dyad] is called with the local indices, as in the code. *)

(** spark/models.py:574-588 (exp_edges); the multi-label version 2626-2657 reads the same rows from slices of
    CSR matrices. *)
Definition b_edges (p_ij : P -> X -> Y -> Z -> R) (param : P) (b : block)
    (prop_out : nat -> X) (prop_in : nat -> Y) (prop_dyad : nat -> nat -> Z) (selfloops : bool) : R :=
  let (ind_out, ind_in) := b in
  for_range (len ind_out) (fun i exp_e =>
    for_range (len ind_in) (fun j exp_e =>
      if adm selfloops (fst ind_out + i) (fst ind_in + j)
      then exp_e + p_ij param (prop_out i) (prop_in j) (prop_dyad i j)
      else exp_e) exp_e) 0.

(** spark/models.py:1710-1727 (FitnessModel.exp_edges_f_jac), 3591-3624 (MultiFitnessModel) *)
Definition b_f_jac (p_jac_ij : P -> X -> Y -> num * num) (param : P) (b : block)
    (prop_out : nat -> X) (prop_in : nat -> Y) (selfloops : bool) : num * num :=
  let (ind_out, ind_in) := b in
  for_range (len ind_out) (fun i st =>
    for_range (len ind_in) (fun j (st : num * num) =>
      if adm selfloops (fst ind_out + i) (fst ind_in + j)
      then let (f, jac) := st in
           let (p_tmp, jac_tmp) := p_jac_ij param (prop_out i) (prop_in j) in
           (nadd f p_tmp, nadd jac jac_tmp)
      else st) st) (Fin 0, Fin 0).

(** spark/models.py:590-629 (exp_degrees).  [x_i], [x_j] are [prop_out[0]], [prop_out[1]] and [y_j], [y_i] are
    [prop_in[0]], [prop_in[1]] (fit_map, spark/models.py:537-566).  The multi-label version 2677-2731 calls
    [pdyad(i, j)] for the reversed pair too; its dyadic property is None. *)
Definition b_degrees (p_ij : P -> X -> Y -> Z -> R) (param : P) (b : block)
    (x_i x_j : nat -> X) (y_j y_i : nat -> Y) (prop_dyad : nat -> nat -> Z) (selfloops : bool) : degs :=
  let (ind_out, ind_in) := b in
  let fold := span_eqb ind_out ind_in in
  for_range (len ind_out) (fun i st =>
    let ind_i := (fst ind_out + i)%nat in
    for_range (in_range i ind_in fold) (fun j (st : degs) =>
      let ind_j := (fst ind_in + j)%nat in
      let '(exp_d, exp_d_out, exp_d_in) := st in
      if negb (Nat.eqb ind_i ind_j) then
        let pij := p_ij param (x_i i) (y_j j) (prop_dyad i j) in
        let pji := p_ij param (x_j j) (y_i i) (prop_dyad j i) in
        let p := pij + pji - pij * pji in
        (add_at (add_at exp_d ind_i p) ind_j p,
         add_at (add_at exp_d_out ind_i pij) ind_j pji,
         add_at (add_at exp_d_in ind_j pij) ind_i pji)
      else if selfloops then
        let pii := p_ij param (x_i i) (y_j j) (prop_dyad i j) in
        (add_at exp_d ind_i pii, add_at exp_d_out ind_i pii, add_at exp_d_in ind_j pii)
      else st) st) ((fun _ => 0), (fun _ => 0), (fun _ => 0)).

(** spark/models.py:631-687 (exp_av_nn_prop) for a one-dimensional property; an unknown direction raises, see
    [spark_av_nn]. *)
Definition b_av_nn (p_ij : P -> X -> Y -> Z -> R) (param : P) (b : block)
    (x_i x_j : nat -> X) (y_j y_i : nat -> Y) (prop_dyad : nat -> nat -> Z) (prop : nat -> R) (ndir : dir)
    (selfloops : bool) : nat -> R :=
  let (ind_out, ind_in) := b in
  let fold := span_eqb ind_out ind_in in
  for_range (len ind_out) (fun i av_nn =>
    let ind_i := (fst ind_out + i)%nat in
    for_range (in_range i ind_in fold) (fun j av_nn =>
      let ind_j := (fst ind_in + j)%nat in
      if negb (Nat.eqb ind_i ind_j) then
        let pij := p_ij param (x_i i) (y_j j) (prop_dyad i j) in
        let pji := p_ij param (x_j j) (y_i i) (prop_dyad j i) in
        match ndir with
        | Dout => add_at (add_at av_nn ind_i (pij * prop ind_j)) ind_j (pji * prop ind_i)
        | Din => add_at (add_at av_nn ind_i (pji * prop ind_j)) ind_j (pij * prop ind_i)
        | Doutin => let p := pij + pji - pij * pji in
                    add_at (add_at av_nn ind_i (p * prop ind_j)) ind_j (p * prop ind_i)
        | Dother => av_nn
        end
      else if selfloops then
        add_at av_nn ind_i (p_ij param (x_i i) (y_j j) (prop_dyad i j) * prop ind_i)
      else av_nn) av_nn) (fun _ => 0).

(** spark/models.py:689-726 (_likelihood); [row i] is [adj_j[adj_i[i]:adj_i[i+1]]]. *)
Definition b_likelihood (logp log1mp : P -> X -> Y -> Z -> num) (param : P) (b : block)
    (prop_out : nat -> X) (prop_in : nat -> Y) (prop_dyad : nat -> nat -> Z) (row : nat -> list nat)
    (selfloops : bool) : num :=
  let (ind_out, ind_in) := b in
  flow_val (for_flow (len ind_out) (fun i =>
    let ind_i := (fst ind_out + i)%nat in
    for_flow (len ind_in) (fun j like =>
      let ind_j := (fst ind_in + j)%nat in
      if adm selfloops ind_i ind_j then
        let tmp := if existsb (Nat.eqb ind_j) (row ind_i)
                   then logp param (prop_out i) (prop_in j) (prop_dyad i j)
                   else log1mp param (prop_out i) (prop_in j) (prop_dyad i j) in
        if isinf tmp then Return tmp else Next (nadd like tmp)
      else Next like)) (Fin 0)).

(** The four arrays (tp, fp, tn, fn) of spark/models.py:743-746, indexed by the position of the threshold. *)
Definition counts := ((nat -> nat) * (nat -> nat) * (nat -> nat) * (nat -> nat))%type.
Definition no_counts : counts := ((fun _ => O), (fun _ => O), (fun _ => O), (fun _ => O)).
Definition incr (a : nat -> nat) (k : nat) : nat -> nat := upd a k (S (a k)).

(** spark/models.py:728-774 (_confusion_matrix) *)
Definition b_confusion (thresholds : list num) (pij : P -> X -> Y -> Z -> R) (param : P) (b : block)
    (prop_out : nat -> X) (prop_in : nat -> Y) (prop_dyad : nat -> nat -> Z) (row : nat -> list nat)
    (selfloops : bool) : counts :=
  let (ind_out, ind_in) := b in
  for_range (len ind_out) (fun i st =>
    let ind_i := (fst ind_out + i)%nat in
    for_range (len ind_in) (fun j st =>
      let ind_j := (fst ind_in + j)%nat in
      if adm selfloops ind_i ind_j then
        let p := pij param (prop_out i) (prop_in j) (prop_dyad i j) in
        if existsb (Nat.eqb ind_j) (row ind_i) then
          for_range (length thresholds) (fun k (st : counts) =>
            let '(tp, fp, tn, fn) := st in
            if ngeb (Fin p) (nth k thresholds NaN) then (incr tp k, fp, tn, fn) else (tp, fp, tn, incr fn k)) st
        else
          for_range (length thresholds) (fun k (st : counts) =>
            let '(tp, fp, tn, fn) := st in
            if ngeb (Fin p) (nth k thresholds NaN) then (tp, incr fp k, tn, fn) else (tp, fp, incr tn k, fn)) st
      else st) st) no_counts.

(** spark/models.py:776-796 (_binary_sample) *)
Definition b_sample (p_ij : P -> X -> Y -> Z -> R) (param : P) (b : block)
    (prop_out : nat -> X) (prop_in : nat -> Y) (prop_dyad : nat -> nat -> Z) (selfloops : bool)
    : prog (list (nat * nat)) :=
  let (ind_out, ind_in) := b in
  for_prog (seq 0 (len ind_out)) (fun i acc =>
    let ind_i := (fst ind_out + i)%nat in
    for_prog (seq 0 (len ind_in)) (fun j acc =>
      let ind_j := (fst ind_in + j)%nat in
      if adm selfloops ind_i ind_j then
        Draw (p_ij param (prop_out i) (prop_in j) (prop_dyad i j))
             (fun d => Ret (if d then acc ++ [(ind_i, ind_j)] else acc))
      else Ret acc) acc) [].

(** spark/models.py:798-834 (_cremb_sample), after the test on the strengths (see [spark_cremb]); each link
    carries the scale passed to [rng.exponential]. *)
Definition b_cremb (p_ij : P -> X -> Y -> Z -> R) (param : P) (b : block)
    (prop_out : nat -> X) (prop_in : nat -> Y) (prop_dyad : nat -> nat -> Z) (s_out s_in : nat -> R) (s_tot : R)
    (selfloops : bool) : prog (list (nat * nat * R)) :=
  let (ind_out, ind_in) := b in
  for_prog (seq 0 (len ind_out)) (fun i acc =>
    let ind_i := (fst ind_out + i)%nat in
    for_prog (seq 0 (len ind_in)) (fun j acc =>
      let ind_j := (fst ind_in + j)%nat in
      if adm selfloops ind_i ind_j then
        let p := p_ij param (prop_out i) (prop_in j) (prop_dyad i j) in
        Draw p (fun d => Ret (if d then acc ++ [(ind_i, ind_j, s_out ind_i * s_in ind_j / (s_tot * p))] else acc))
      else Ret acc) acc) [].

(** * Distributed measures of a model with [N] vertices and [B] blocks *)

Variables (param : P) (prop_out : nat -> X) (prop_in : nat -> Y) (prop_dyad : nat -> nat -> Z) (N B : nat).

(** spark/models.py:132-149 (expected_num_edges) *)
Definition spark_edges (p_ij : P -> X -> Y -> Z -> R) (sl : bool) : R :=
  rdd_fold 0 Rplus
    (map (fun b => b_edges p_ij param b (slice prop_out (fst b)) (slice prop_in (snd b)) prop_dyad sl)
         (square_blocks N B)).

(** spark/models.py:1696-1708 (density_fit_fun), 3564-3589 *)
Definition spark_f_jac (p_jac_ij : P -> X -> Y -> num * num) (delta : P) (sl : bool) : num * num :=
  rdd_fold (Fin 0, Fin 0) (fun a b => (nadd (fst a) (fst b), nadd (snd a) (snd b)))
    (map (fun b => b_f_jac p_jac_ij delta b (slice prop_out (fst b)) (slice prop_in (snd b)) sl)
         (square_blocks N B)).

Definition add_degs (a b : degs) : degs :=
  let '(a1, a2, a3) := a in let '(b1, b2, b3) := b in
  ((fun v => a1 v + b1 v), (fun v => a2 v + b2 v), (fun v => a3 v + b3 v)).

(** spark/models.py:151-180 (expected_degree); fit_map 537-566 *)
Definition spark_degrees (p_ij : P -> X -> Y -> Z -> R) (sl : bool) : degs :=
  rdd_fold ((fun _ => 0), (fun _ => 0), (fun _ => 0)) add_degs
    (map (fun b => b_degrees p_ij param b (slice prop_out (fst b)) (slice prop_out (snd b))
                     (slice prop_in (snd b)) (slice prop_in (fst b)) prop_dyad sl)
         (triangle_blocks N B)).

(** spark/models.py:237-247 of expected_av_nn_property: the total over the neighbourhood, before the division by
    the degree (which is shared with the single-process classes, EnsembleState.v). *)
Definition spark_av_nn (p_ij : P -> X -> Y -> Z -> R) (prop : nat -> R) (ndir : dir) (sl : bool) : nat -> R :=
  rdd_fold (fun _ => 0) (fun a b v => a v + b v)
    (map (fun b => b_av_nn p_ij param b (slice prop_out (fst b)) (slice prop_out (snd b))
                     (slice prop_in (snd b)) (slice prop_in (fst b)) prop_dyad prop ndir sl)
         (triangle_blocks N B)).

(** spark/models.py:345-371 (log_likelihood) *)
Definition spark_likelihood (logp log1mp : P -> X -> Y -> Z -> num) (row : nat -> list nat) (sl : bool) : num :=
  rdd_fold (Fin 0) nadd
    (map (fun b => b_likelihood logp log1mp param b (slice prop_out (fst b)) (slice prop_in (snd b)) prop_dyad row sl)
         (square_blocks N B)).

Definition add_counts (a b : counts) : counts :=
  let '(a1, a2, a3, a4) := a in let '(b1, b2, b3, b4) := b in
  ((fun k => a1 k + b1 k), (fun k => a2 k + b2 k), (fun k => a3 k + b3 k), (fun k => a4 k + b4 k))%nat.

(** spark/models.py:417-446 (confusion_matrix) *)
Definition spark_confusion (thresholds : list num) (p_ij : P -> X -> Y -> Z -> R) (row : nat -> list nat) (sl : bool)
    : counts :=
  rdd_fold no_counts add_counts
    (map (fun b => b_confusion thresholds p_ij param b (slice prop_out (fst b)) (slice prop_in (snd b)) prop_dyad row sl)
         (square_blocks N B)).

(** spark/models.py:568-572 (tuple_of_lists_append) folded over the blocks, 493-503: the lists of the blocks one
    after the other. *)
Definition spark_sample (p_ij : P -> X -> Y -> Z -> R) (sl : bool) : prog (list (nat * nat)) :=
  for_prog (square_blocks N B) (fun b acc =>
    pbind (b_sample p_ij param b (slice prop_out (fst b)) (slice prop_in (snd b)) prop_dyad sl)
          (fun l => Ret (acc ++ l))) [].

(** spark/models.py:505-527.  Every block tests the strengths (spark/models.py:814-816); there is at least one block. *)
Definition spark_cremb (p_ij : P -> X -> Y -> Z -> R) (s_out s_in : nat -> R) (sl : bool)
    : res (prog (list (nat * nat * R))) :=
  let s_tot := sumn N s_out in
  if Reqb s_tot 0 then Raise ZeroDivisionError
  else
    guard (Rltb (Rabs (1 - sumn N s_in / s_tot)) (1 / 1000000)) AssertionError
      (Ok (for_prog (square_blocks N B) (fun b acc =>
        pbind (b_cremb p_ij param b (slice prop_out (fst b)) (slice prop_in (snd b)) prop_dyad s_out s_in s_tot sl)
              (fun l => Ret (acc ++ l))) [])).
End Blocks.

Arguments b_edges {P X Y Z}.
Arguments b_f_jac {P X Y}.
Arguments b_degrees {P X Y Z}.
Arguments b_av_nn {P X Y Z}.
Arguments b_likelihood {P X Y Z}.
Arguments b_confusion {P X Y Z}.
Arguments b_sample {P X Y Z}.
Arguments b_cremb {P X Y Z}.
Arguments spark_edges {P X Y Z}.
Arguments spark_f_jac {P X Y}.
Arguments spark_degrees {P X Y Z}.
Arguments spark_av_nn {P X Y Z}.
Arguments spark_likelihood {P X Y Z}.
Arguments spark_confusion {P X Y Z}.
Arguments spark_sample {P X Y Z}.
Arguments spark_cremb {P X Y Z}.

(** * confusion_matrix, spark/models.py:373-446 *)

(** The graph argument: a matrix given by its stored entries (a Graph or a scipy matrix, which may store
    explicit zeros), a dense array, or anything else. *)
(** spark/models.py:373-446 (DiGraphEnsemble.confusion_matrix) *)
Inductive graph_arg :=
| Stored (rows cols : nat) (entries : nat -> list (nat * R))
| Dense (rows cols : nat) (a : nat -> nat -> R)
| OtherArg.

(** spark/models.py:397-414: the rows of stored column indices ([csr_matrix(array)] stores the non-zero entries). *)
Definition arg_rows (N : nat) (g : graph_arg) : res (nat -> list nat) :=
  match g with
  | Stored r c e => guard (Nat.eqb r N && Nat.eqb c N) ValueError (Ok (fun i => map fst (e i)))
  | Dense r c a => guard (Nat.eqb r N && Nat.eqb c N) ValueError
                     (Ok (fun i => filter (fun j => negb (Reqb (a i j) 0)) (seq 0 c)))
  | OtherArg => Raise ValueError
  end.

(** [np.logspace(start, stop, num)]: [num] powers of ten with exponents evenly spaced from start to stop. *)
(** spark/models.py:373-446 (DiGraphEnsemble.confusion_matrix) *)
Definition logspace (start stop : R) (num : nat) : list R :=
  map (fun k => Rpower 10 (if Nat.eqb num 1 then start else start + INR k * ((stop - start) / INR (num - 1)%nat)))
      (seq 0 num).

(** Largest and smallest entry of an array of length [n] (at least 1). *)
(** spark/models.py:373-446 (DiGraphEnsemble.confusion_matrix) *)
Fixpoint amax (n : nat) (x : nat -> R) : R := match n with O | 1%nat => x O | S k => Rmax (amax k x) (x k) end.
Fixpoint amin (n : nat) (x : nat -> R) : R := match n with O | 1%nat => x O | S k => Rmin (amin k x) (x k) end.

(** The [thresholds] argument. *)
(** spark/models.py:373-446 (DiGraphEnsemble.confusion_matrix) *)
Inductive thresholds_arg := ThNone | ThInt (n : Z) | ThArray (l : list num) | ThOther.

(** spark/models.py:385-395 for finite fitnesses and link probability [p] ([math.log] of zero raises ValueError;
    [np.logspace] rejects a negative count). *)
Definition thresholds_of (p : R -> R -> R) (N : nat) (prop_out prop_in : nat -> R) (th : thresholds_arg)
    : res (list num) :=
  let auto (n : nat) :=
    let p_max := p (amax N prop_out) (amax N prop_in) in
    let p_min := p (amin N prop_out) (amin N prop_in) in
    guard (Rltb 0 p_min && Rltb 0 p_max) ValueError (Ok (map Fin (logspace (ln p_min) (ln p_max) n))) in
  match th with
  | ThNone => auto 20%nat
  | ThInt n => if (n <? 0)%Z
               then do _ <- auto 0%nat ; Raise ValueError
               else auto (Z.to_nat n)
  | ThArray l => Ok l
  | ThOther => Raise ValueError
  end.

(** confusion_matrix of a model with finite fitnesses; [p_ij x y] is the model's link probability. *)
(** spark/models.py:373-446 (DiGraphEnsemble.confusion_matrix) *)
Definition confusion_matrix (p_ij : R -> R -> R) (N B : nat) (prop_out prop_in : nat -> R) (g : graph_arg)
    (th : thresholds_arg) (sl : bool) : res (counts * nat) :=
  do l <- thresholds_of p_ij N prop_out prop_in th ;
  do row <- arg_rows N g ;
  Ok (spark_confusion tt prop_out prop_in (fun _ _ => tt) N B l (fun _ x y _ => p_ij x y) row sl, length l).
