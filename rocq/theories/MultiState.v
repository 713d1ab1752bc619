(** MultiDiGraphEnsemble objects: label caches, graph arguments of log_likelihood and options of sample.
    Model only.  The computations on the layers are those of Layers.v, the inherited methods those of
    EnsembleState.v. *)
From Verif Require Import Base Num Spec Kernels MultiKernels Prob Ensemble Lib Ids Graphs DenseGraphs Spark EnsembleState
  Models Layers.

(** * The attributes holding label-resolved measures *)

(** [E]: arrays with one entry per label; [D]: vertex-by-label arrays. *)
Section LabelState.
Variables P E D : Type.
(** The computations of the module: expected number of edges of each label, and the triple of degree
    arrays, from the parameters and the self-loop option. *)
Variables (edges_fun : P -> bool -> res E) (degrees_fun : P -> bool -> res (D * D * D)).

(** _exp_num_edges_label, _exp_degree_label, _exp_out_degree_label, _exp_in_degree_label; [None] when the
    attribute does not exist. *)
(** sparse/models/ensembles.py:601-634
    (MultiDiGraphEnsemble.expected_num_edges_label);
    sparse/models/ensembles.py:636-683
    (MultiDiGraphEnsemble.expected_degree_by_label) *)
Record lab := mkLab { b_edges : option E; b_degree : option D; b_out : option D; b_in : option D }.
Definition no_lab : lab := mkLab None None None None.
(** The inherited attributes and the label attributes. *)
(** sparse/models/ensembles.py:601-634
    (MultiDiGraphEnsemble.expected_num_edges_label);
    sparse/models/ensembles.py:636-683
    (MultiDiGraphEnsemble.expected_degree_by_label) *)
Definition obj : Type := (ens P * lab)%type.
Definition new_obj (param : option P) (selfloops : bool) : obj := (new_ens param selfloops, no_lab).
(** What [fit] does to the object (sparse/models/fitness.py:684). *)
Definition refit (s : obj) (p : P) : obj := (set_param (fst s) p, snd s).

(** sparse/models/ensembles.py:601-632; models.py:1478-1493; spark/models.py:1969-2002
    (expected_num_edges_label) *)
Definition lbl_num_edges (recompute : bool) (s : obj) : res E * obj :=
  match a_param (fst s) with
  | None => (Raise GenericException, s)
  | Some param =>
      if is_none (b_edges (snd s)) || recompute then
        match edges_fun param (a_selfloops (fst s)) with
        | Raise e => (Raise e, s)
        | Ok v => (Ok v, (fst s, mkLab (Some v) (b_degree (snd s)) (b_out (snd s)) (b_in (snd s))))
        end
      else (attr (b_edges (snd s)), s)
  end.

(** sparse/models/ensembles.py:636-683; models.py:1495-1515; spark/models.py:2065-2112
    (expected_degree_by_label) *)
Definition lbl_degree (recompute : bool) (s : obj) : res D * obj :=
  match a_param (fst s) with
  | None => (Raise GenericException, s)
  | Some param =>
      if is_none (b_degree (snd s)) || recompute then
        match degrees_fun param (a_selfloops (fst s)) with
        | Raise e => (Raise e, s)
        | Ok (d, o, i) => (Ok d, (fst s, mkLab (b_edges (snd s)) (Some d) (Some o) (Some i)))
        end
      else (attr (b_degree (snd s)), s)
  end.

(** sparse/models/ensembles.py:685-697; models.py:1517-1529; spark/models.py:2114-2126
    (expected_out_degree_by_label, expected_in_degree_by_label).  [pass]: the recompute flag is passed
    on to expected_degree_by_label; the Spark module calls it without arguments. *)
Definition lbl_out (pass recompute : bool) (s : obj) : res D * obj :=
  if is_none (b_out (snd s)) || recompute then
    match lbl_degree (pass && recompute) s with
    | (Raise e, s') => (Raise e, s')
    | (Ok _, s') => (attr (b_out (snd s')), s')
    end
  else (attr (b_out (snd s)), s).
Definition lbl_in (pass recompute : bool) (s : obj) : res D * obj :=
  if is_none (b_in (snd s)) || recompute then
    match lbl_degree (pass && recompute) s with
    | (Raise e, s') => (Raise e, s')
    | (Ok _, s') => (attr (b_in (snd s')), s')
    end
  else (attr (b_in (snd s)), s).

(** spark/models.py:1937-1967 (expected_num_edges of the multi-label classes): tests for the attribute
    of the label-resolved measure.  [total] is the computation of the module. *)
Definition spark_num_edges (total : P -> bool -> R) (recompute : bool) (s : obj) : res R * obj :=
  match a_param (fst s) with
  | None => (Raise GenericException, s)
  | Some param =>
      let s' := if is_none (b_edges (snd s)) || recompute
                then (with_edges (fst s) (total param (a_selfloops (fst s))), snd s) else s in
      (attr (a_edges (fst s')), s')
  end.

(** The queries of a multi-label model: the inherited ones and the label-resolved ones. *)
(** sparse/models/ensembles.py:601-634
    (MultiDiGraphEnsemble.expected_num_edges_label);
    sparse/models/ensembles.py:636-683
    (MultiDiGraphEnsemble.expected_degree_by_label) *)
Inductive lquery := LBase (q : query) | LEdges (recompute : bool)
  | LDegree (recompute : bool) | LOut (recompute : bool) | LIn (recompute : bool).
Inductive lanswer := ABase (a : answer) | AEdges (e : E) | ADegrees (d : D).

Definition lift {A} (f : A -> lanswer) (r : res A * obj) : res lanswer * obj :=
  (match fst r with Ok v => Ok (f v) | Raise e => Raise e end, snd r).

(** [base]: the inherited queries, which do not touch the label attributes. *)
Variable base : query -> ens P -> res answer * ens P.
Variable pass : bool.
(** sparse/models/ensembles.py:601-634
    (MultiDiGraphEnsemble.expected_num_edges_label);
    sparse/models/ensembles.py:636-683
    (MultiDiGraphEnsemble.expected_degree_by_label) *)
Definition run_lquery (q : lquery) (s : obj) : res lanswer * obj :=
  match q with
  | LBase q => let (a, s') := base q (fst s) in lift ABase (a, (s', snd s))
  | LEdges r => lift AEdges (lbl_num_edges r s)
  | LDegree r => lift ADegrees (lbl_degree r s)
  | LOut r => lift ADegrees (lbl_out pass r s)
  | LIn r => lift ADegrees (lbl_in pass r s)
  end.
Fixpoint run_lqueries (qs : list lquery) (s : obj) : list (res lanswer) * obj :=
  match qs with
  | [] => ([], s)
  | q :: t => let (a, s1) := run_lquery q s in let (l, s2) := run_lqueries t s1 in (a :: l, s2)
  end.
End LabelState.
Arguments mkLab {E D}. Arguments no_lab {E D}. Arguments b_edges {E D}. Arguments b_degree {E D}.
Arguments b_out {E D}. Arguments b_in {E D}. Arguments new_obj {P E D}. Arguments refit {P E D}.
Arguments lbl_num_edges {P E D}. Arguments lbl_degree {P E D}. Arguments lbl_out {P E D}. Arguments lbl_in {P E D}.
Arguments spark_num_edges {P E D}. Arguments ABase {E D}. Arguments AEdges {E D}. Arguments ADegrees {E D}.
Arguments lift {P E D A}. Arguments run_lquery {P E D}. Arguments run_lqueries {P E D}.

(** * The multi-label models *)

(** A model of the sparse (and Spark) module: sizes, fitnesses by vertex, dyadic function, kernels of the
    layers and kernels of the projection. *)
(** sparse/models/ensembles.py:601-634
    (MultiDiGraphEnsemble.expected_num_edges_label);
    sparse/models/ensembles.py:636-683
    (MultiDiGraphEnsemble.expected_degree_by_label) *)
Record multi := mkMulti {
  u_N : nat; u_L : nat;
  u_xs : list tuple; u_ys : list tuple;
  u_dyad : nat -> nat -> num;
  u_p_ijk : num -> num -> num -> num -> R;
  u_logp_ijk : num -> num -> num -> num -> num;
  u_log1mp_ijk : num -> num -> num -> num -> num;
  u_p_ij : (nat -> num) -> svec -> svec -> unit -> R;
  u_logp : (nat -> num) -> svec -> svec -> unit -> num;
  u_log1mp : (nat -> num) -> svec -> svec -> unit -> num
}.
(** MultiFitnessModel (sparse/models/fitness.py:331-856) *)
Definition multi_fitness (N L : nat) (xs ys : list tuple) (z : nat -> nat -> num) : multi :=
  mkMulti N L xs ys z (fun d x y z => toR (mfit_p_ijk d x y z)) mfit_logp_ijk mfit_log1mp_ijk
    (fun d x y _ => toR (mfit_p_ij d x y)) (fun d x y _ => mfit_logp d x y) (fun d x y _ => mfit_log1mp d x y).
(** MultiInvariantModel (sparse/models/invariant.py:108-) *)
Definition multi_invariant (N L : nat) (xs ys : list tuple) (z : nat -> nat -> num) : multi :=
  mkMulti N L xs ys z (fun d x y z => toR (minv_p_ijk d x y z)) minv_logp_ijk minv_log1mp_ijk
    (fun d x y _ => toR (minv_p_ij d x y)) (fun d x y _ => minv_logp d x y) (fun d x y _ => minv_log1mp d x y).

(** The properties by vertex as passed to the inherited methods. *)
(** sparse/models/ensembles.py:109-124 (DiGraphEnsemble.expected_num_edges) *)
Definition vertex (t : list tuple) (i : nat) : svec := zip (nth i t ([], [])).
Definition u_model (u : multi) (d : nat -> num) : model :=
  mkModel (nat -> num) svec unit (u_p_ij u) (u_logp u) (u_log1mp u) d (vertex (u_xs u)) (vertex (u_ys u))
    (fun _ _ => tt) (u_N u).

(** sparse/models/ensembles.py:601-634
    (MultiDiGraphEnsemble.expected_num_edges_label) *)
Definition u_edges_label (u : multi) (d : nat -> num) (sl : bool) : res (nat -> R) :=
  expected_num_edges_label (u_p_ijk u) (u_dyad u) (u_L u) (u_xs u) (u_ys u) (Some d) sl.
(** sparse/models/ensembles.py:636-683
    (MultiDiGraphEnsemble.expected_degree_by_label) *)
Definition u_degrees_label (u : multi) (d : nat -> num) (sl : bool) :=
  expected_degrees_by_label (u_p_ijk u) (u_dyad u) (u_L u) (u_xs u) (u_ys u) (Some d) sl.
(** The inherited queries (sparse/models/ensembles.py:109-281). *)
Definition u_query (u : multi) : query -> ens (nat -> num) -> res answer * ens (nat -> num) :=
  run_query (u_p_ij u) (vertex (u_xs u)) (vertex (u_ys u)) (fun _ _ => tt) (u_N u).
(** Queries of an object of the sparse module. *)
(** sparse/models/ensembles.py:601-634
    (MultiDiGraphEnsemble.expected_num_edges_label);
    sparse/models/ensembles.py:636-683
    (MultiDiGraphEnsemble.expected_degree_by_label) *)
Definition u_ask (u : multi) := run_lquery (u_edges_label u) (u_degrees_label u) (u_query u) true.
Definition u_asks (u : multi) := run_lqueries (u_edges_label u) (u_degrees_label u) (u_query u) true.

(** A model of the dense module (models.py:1863-2624). *)
Record multi_dense := mkDense {
  v_N : nat; v_L : nat;
  v_x : nat -> nat -> num; v_y : nat -> nat -> num;
  v_dyad : nat -> nat -> num;
  v_p_ijk : num -> num -> num -> num -> R;
  v_logp_ijk : num -> num -> num -> num -> num;
  v_log1mp_ijk : num -> num -> num -> num -> num;
  v_p_ij : (nat -> num) -> (nat -> num) -> (nat -> num) -> unit -> R;
  v_logp : (nat -> num) -> (nat -> num) -> (nat -> num) -> unit -> num;
  v_log1mp : (nat -> num) -> (nat -> num) -> (nat -> num) -> unit -> num
}.
Definition multi_fitness_dense (N L : nat) (x y : nat -> nat -> num) (z : nat -> nat -> num) : multi_dense :=
  mkDense N L x y z (fun d x y z => toR (mfit_p_ijk d x y z)) mfit_logp_ijk mfit_log1mp_ijk
    (fun d x y _ => toR (mfit_p_ij_dense L d x y)) (fun d x y _ => mfit_logp_dense L d x y)
    (fun d x y _ => mfit_log1mp_dense L d x y).
Definition multi_invariant_dense (N L : nat) (x y : nat -> nat -> num) (z : nat -> nat -> num) : multi_dense :=
  mkDense N L x y z (fun d x y z => toR (minv_p_ijk d x y z)) minv_logp_ijk minv_log1mp_ijk
    (fun d x y _ => toR (minv_p_ij_dense L d x y)) (fun d x y _ => minv_logp_dense L d x y)
    (fun d x y _ => minv_log1mp_dense L d x y).
Definition v_model (v : multi_dense) (d : nat -> num) : model :=
  mkModel (nat -> num) (nat -> num) unit (v_p_ij v) (v_logp v) (v_log1mp v) d (v_x v) (v_y v) (fun _ _ => tt) (v_N v).
Definition v_edges_label (v : multi_dense) (d : nat -> num) (sl : bool) : res (list R) :=
  exp_edges_label_dense (v_p_ijk v) (v_dyad v) (v_N v) (v_L v) d (v_x v) (v_y v) sl.
Definition v_degrees_label (v : multi_dense) (d : nat -> num) (sl : bool)
    : res ((nat -> nat -> R) * (nat -> nat -> R) * (nat -> nat -> R)) :=
  let deg k := exp_degrees_label_dense (v_p_ijk v) (v_dyad v) (v_N v) d (v_x v) (v_y v) sl k in
  Ok ((fun i k => fst (fst (deg k)) i), (fun i k => snd (fst (deg k)) i), (fun i k => snd (deg k) i)).
Definition v_query (v : multi_dense) : query -> ens (nat -> num) -> res answer * ens (nat -> num) :=
  run_query (v_p_ij v) (v_x v) (v_y v) (fun _ _ => tt) (v_N v).
Definition v_ask (v : multi_dense) := run_lquery (v_edges_label v) (v_degrees_label v) (v_query v) true.
Definition v_asks (v : multi_dense) := run_lqueries (v_edges_label v) (v_degrees_label v) (v_query v) true.

(** * Spark: the layers are distributed, one element (label, column of prop_out, column of prop_in) per
    label (spark/models.py:3427-3432). *)

(** spark/models.py:2659-2673 (exp_edges_layer): the dyadic function is given the positions in the
    column, not the vertices. *)
Definition enumerate {A} (l : list A) : list (nat * A) := combine (seq 0 (length l)) l.
Definition spark_edges_layer (p_ijk : num -> num -> num -> num -> R) (pdyad : nat -> nat -> num) (param : num)
    (prop_out prop_in : svec) (selfloops : bool) : R :=
  for_each (enumerate prop_out) (fun o f =>
    for_each (enumerate prop_in) (fun q f =>
      let '(i, (out_i, f_out)) := o in let '(j, (in_j, f_in)) := q in
      if adm selfloops out_i in_j then f + p_ijk param f_out f_in (pdyad i j) else f) f) 0.
Definition spark_column (L : nat) (t : list tuple) (k : nat) : svec := column (map zip t) k.
(** spark/models.py:1969-2002: the values collected and assigned by label *)
Definition w_edges_label (u : multi) (d : nat -> num) (sl : bool) : res (nat -> R) :=
  Ok (for_each (map (fun k => (k, spark_edges_layer (u_p_ijk u) (u_dyad u) (d k) (spark_column (u_L u) (u_xs u) k)
                                    (spark_column (u_L u) (u_ys u) k) sl)) (seq 0 (u_L u)))
        (fun iv e => upd e (fst iv) (snd iv)) (fun _ => 0)).
(** spark/models.py:2065-2112: the lists of (vertex, label, value) of the layers one after the other, then sparse
    arrays (repeated entries would be summed; the labels of the layers differ).  With no entry at all
    [d[:, 2]] is an IndexError. *)
Definition w_degrees_label (u : multi) (d : nat -> num) (sl : bool)
    : res ((nat -> nat -> R) * (nat -> nat -> R) * (nat -> nat -> R)) :=
  let '(a, b, c) := for_each (seq 0 (u_L u)) (fun k st =>
      let '(a, b, c) := st in
      let '(a', b', c') := exp_degrees_layer (u_p_ijk u) (u_dyad u) (d k) k (spark_column (u_L u) (u_xs u) k)
                             (spark_column (u_L u) (u_ys u) k) sl in
      (a ++ a', b ++ b', c ++ c')) ([], [], []) in
  match a with
  | [] => Raise IndexError
  | _ :: _ => Ok (dok_at a, dok_at b, dok_at c)
  end.
(** The total expected number of edges over the blocks. *)
(** spark/models.py:1937-1967 (MultiDiGraphEnsemble.expected_num_edges) *)
Definition w_total (u : multi) (B : nat) (d : nat -> num) (sl : bool) : R :=
  spark_edges d (vertex (u_xs u)) (vertex (u_ys u)) (fun _ _ => tt) (u_N u) B (u_p_ij u) sl.

(** * Graph arguments of log_likelihood *)

(** A matrix: stored entries of a scipy sparse array, or a numpy array. *)
(** sparse/models/ensembles.py:699-811 (MultiDiGraphEnsemble.log_likelihood)
    *)
Inductive matrix_arg :=
| MStored (rows cols : nat) (entries : nat -> list (nat * R))
| MArray (rows cols : nat) (a : nat -> nat -> R).
(** [sp.csr_array(x)]: keeps the stored entries of a sparse array (explicit zeros too), stores the
    non-zero entries of an array.  Only the positions are used. *)
(** sparse/models/ensembles.py:699-811 (MultiDiGraphEnsemble.log_likelihood)
    *)
Definition csr_layer (m : matrix_arg) : layer :=
  match m with
  | MStored r c e => mkLayer r c (fun i => map fst (e i))
  | MArray r c a => mkLayer r c (fun i => filter (fun j => negb (Reqb (a i j) 0)) (seq 0 c))
  end.
Definition spm_layer (n : nat) (A : spm) : layer := mkLayer n n (fun i => map fst (sp_row A i)).

(** The argument [g]: a graph object of the sparse module with [n] vertices, a matrix, a 3-dimensional
    array, an array of another dimension, a list of matrices, or anything else. *)
(** sparse/models/ensembles.py:699-811 (MultiDiGraphEnsemble.log_likelihood)
    *)
Inductive tensor_arg :=
| GGraph (n : nat) (s : shape)
| GMatrix (m : matrix_arg)
| GArray3 (layers rows cols : nat) (a : nat -> nat -> nat -> R)
| GArrayN
| GList (l : list matrix_arg)
| GOther.

(** sparse/models/ensembles.py:709-735; spark/models.py:2278-2304: [inl] a tensor (list of CSR layers),
    [inr] a CSR matrix. *)
Definition read_graph (g : tensor_arg) : res (list layer + layer) :=
  match g with
  | GGraph n (SMultiGraph L) => Ok (inl (map (spm_layer n) (multigraph_tensor n L true false)))
  | GGraph n (SMultiDiGraph L) => Ok (inl (map (spm_layer n) (multidigraph_tensor n L true false)))
  | GGraph n s => do A <- adjacency_matrix n s true false ; Ok (inr (spm_layer n A))
  | GMatrix m => Ok (inr (csr_layer m))
  | GArray3 k r c a => Ok (inl (map (fun l => csr_layer (MArray r c (a l))) (seq 0 k)))
  | GArrayN => Raise ValueError
  | GList l => Ok (inl (map csr_layer l))
  | GOther => Raise ValueError
  end.

Definition effective_loops {P} (selfloops : option bool) (s : ens P) : bool :=
  match selfloops with None => a_selfloops s | Some b => b end.

(** sparse/models/ensembles.py:699-811 (log_likelihood) *)
Definition u_log_likelihood (u : multi) (g : tensor_arg) (selfloops : option bool) (s : ens (nat -> num)) : res num :=
  match a_param s with
  | None => Raise GenericException
  | Some d =>
      do adj <- read_graph g ;
      match adj with
      | inl t => log_likelihood_tensor (u_logp_ijk u) (u_log1mp_ijk u) (u_dyad u) (u_N u) (u_L u) (u_xs u) (u_ys u)
                   (Some d) (a_selfloops s) t selfloops
      | inr m =>
          guard (Nat.eqb (l_rows m) (u_N u) && Nat.eqb (l_cols m) (u_N u)) ValueError
            (Ok (likelihood (u_logp u) (u_log1mp u) d (vertex (u_xs u)) (vertex (u_ys u)) (fun _ _ => tt)
                   (l_row m) (u_N u) (effective_loops selfloops s)))
      end
  end.

(** spark/models.py:2264-2380 (log_likelihood): the layers (or blocks) are summed. *)
Definition w_log_likelihood (u : multi) (B : nat) (g : tensor_arg) (selfloops : option bool) (s : ens (nat -> num))
    : res num :=
  match a_param s with
  | None => Raise GenericException
  | Some d =>
      let sl := effective_loops selfloops s in
      do adj <- read_graph g ;
      match adj with
      | inl t =>
          guard (Nat.eqb (length t) (u_L u)) ValueError
            (guard (forallb (fun x => Nat.eqb (l_rows x) (u_N u) && Nat.eqb (l_cols x) (u_N u)) t) AttributeError
              (Ok (rdd_fold (Fin 0) nadd (map (fun k =>
                 likelihood_layer (u_logp_ijk u) (u_log1mp_ijk u) (u_dyad u) (d k) (spark_column (u_L u) (u_xs u) k)
                   (spark_column (u_L u) (u_ys u) k) (l_row (nth k t (mkLayer 0 0 (fun _ => [])))) (u_N u) sl)
                 (seq 0 (u_L u))))))
      | inr m =>
          guard (Nat.eqb (l_rows m) (u_N u) && Nat.eqb (l_cols m) (u_N u)) ValueError
            (Ok (spark_likelihood d (vertex (u_xs u)) (vertex (u_ys u)) (fun _ _ => tt) (u_N u) B
                   (u_logp u) (u_log1mp u) (l_row m) sl))
      end
  end.

(** The dense module: graph objects of graphs.py with [n] vertices ([w]: the weights are numbers). *)
Inductive dense_arg :=
| HGraph (n : nat) (w : bool) (s : dshape)
| HMatrix (m : matrix_arg)
| HArray3 (layers rows cols : nat) (a : nat -> nat -> nat -> R)
| HArrayN
| HSparseList (l : list matrix_arg)
| HEmptyList
| HOther.
(** Entry of [x.todense()]: the value stored last if an entry is repeated (coo arrays sum them; only
    matrices without repeated entries are meant). *)
(** models.py:1531-1610 (MultiDiGraphEnsemble.log_likelihood) *)
Definition matrix_at (m : matrix_arg) (i j : nat) : R :=
  match m with MStored _ _ e => stored (e i) j | MArray _ _ a => a i j end.
Definition matrix_shape (m : matrix_arg) : nat * nat :=
  match m with MStored r c _ => (r, c) | MArray r c _ => (r, c) end.

(** models.py:1531-1605 (log_likelihood).  A list of sparse layers becomes a list of arrays, whose
    attribute [shape] does not exist; the first element of an empty list does not exist. *)
Definition v_log_likelihood (v : multi_dense) (g : dense_arg) (selfloops : option bool) (s : ens (nat -> num)) : res num :=
  match a_param s with
  | None => Raise GenericException
  | Some d =>
      let sl := effective_loops selfloops s in
      let tensor (k r c : nat) (a : nat -> nat -> nat -> R) :=
        guard (Nat.eqb k (v_L v) && Nat.eqb r (v_N v) && Nat.eqb c (v_N v)) ValueError
          (Ok (likelihood_tensor_dense (v_logp_ijk v) (v_log1mp_ijk v) (v_dyad v) (v_N v) k d (v_x v) (v_y v)
                 (fun k i j => negb (Reqb (a k i j) 0)) sl)) in
      let flat (r c : nat) (a : nat -> nat -> R) :=
        guard (Nat.eqb r (v_N v) && Nat.eqb c (v_N v)) ValueError
          (Ok (likelihood_dense (v_logp v) (v_log1mp v) d (v_x v) (v_y v) (fun _ _ => tt)
                 (fun i j => negb (Reqb (a i j) 0)) (v_N v) sl)) in
      match g with
      | HGraph n w (DMultiGraph k a) => tensor k n n (d_tensor w false a true false)
      | HGraph n w (DMultiDiGraph k a) => tensor k n n (d_tensor w true a true false)
      | HGraph n w s => flat n n (d_adjacency w s true false)
      | HMatrix m => flat (fst (matrix_shape m)) (snd (matrix_shape m)) (matrix_at m)
      | HArray3 k r c a => tensor k r c a
      | HArrayN => Raise ValueError
      | HSparseList l => Raise AttributeError
      | HEmptyList => Raise IndexError
      | HOther => Raise ValueError
      end
  end.

(** * Options of sample *)

(** sparse/models/ensembles.py:813-951 (MultiDiGraphEnsemble.sample) *)
Inductive weights_opt := WNone | WCremb | WOther.

(** The strength arguments: absent, a numpy array, a sparse array given by its columns, anything else. *)
(** sparse/models/ensembles.py:813-951 (MultiDiGraphEnsemble.sample) *)
Inductive strength_arg :=
| StNone
| StArray (rows cols : nat) (a : nat -> nat -> R)
| StSparse (rows cols : nat) (entries : nat -> list (nat * R))
| StOther.

(** The strengths of one layer; [None] when one of them is infinite. *)
(** sparse/models/ensembles.py:813-951 (MultiDiGraphEnsemble.sample) *)
Definition finite_strengths (v : svec) : option (list (nat * R)) :=
  if forallb (fun e => match snd e with Fin _ => true | _ => false end) v
  then Some (map (fun e => (fst e, toR (snd e))) v) else None.

(** sparse/models/ensembles.py:875-917: the strengths by layer; [own] the layers of the fitnesses. *)
Definition strength_layers (N L : nat) (own : list tuple) (s : strength_arg) : res (nat -> option (list (nat * R))) :=
  match s with
  | StNone => Ok (fun k => finite_strengths (zip (nth k own ([], []))))
  | StArray r c a =>
      guard (Nat.eqb r N && Nat.eqb c L) AssertionError
        (Ok (fun k => Some (filter (fun e => negb (Reqb (snd e) 0)) (map (fun i => (i, a i k)) (seq 0 r)))))
  | StSparse r c e => guard (Nat.eqb r N && Nat.eqb c L) AssertionError (Ok (fun k => Some (e k)))
  | StOther => Raise ValueError
  end.

(** sparse/models/ensembles.py:919-949: one layer.  With an infinite strength the test on the totals
    fails (the quotient is 0, infinite or not a number). *)
Definition sample_layer (u : multi) (d : nat -> num) (po pin : list tuple) (w : weights_opt)
    (s_out s_in : nat -> option (list (nat * R))) (sl : bool) (k : nat) : prog (res (list (nat * nat * R))) :=
  let p_out := zip (nth k po ([], [])) in
  let p_in := zip (nth k pin ([], [])) in
  match w with
  | WNone => pbind (binary_sample_layer (u_p_ijk u) (u_dyad u) (d k) p_out p_in sl)
               (fun links => Ret (Ok (map (fun e => (e, 1)) links)))
  | WCremb =>
      match s_out k, s_in k with
      | Some so, Some si =>
          match cremb_sample_layer (u_p_ijk u) (u_dyad u) (d k) p_out p_in so si sl with
          | Ok m => m
          | Raise e => Ret (Raise e)
          end
      | _, _ => Ret (Raise AssertionError)
      end
  | WOther => Ret (Raise ValueError)
  end.

(** sparse/models/ensembles.py:813-951 (sample): the weighted links of each layer.  The argument
    [selfloops] is not used.  An exception while a layer is sampled is the result of the draws so far. *)
Definition u_sample (u : multi) (w : weights_opt) (out_strength in_strength : strength_arg) (selfloops : option bool)
    (s : ens (nat -> num)) : res (prog (res (list (list (nat * nat * R))))) :=
  match a_param s with
  | None => Raise GenericException
  | Some d =>
      do po <- by_layer (u_L u) (u_xs u) ;
      do pin <- by_layer (u_L u) (u_ys u) ;
      do s_out <- strength_layers (u_N u) (u_L u) po out_strength ;
      do s_in <- strength_layers (u_N u) (u_L u) pin in_strength ;
      Ok (for_prog (seq 0 (u_L u)) (fun k acc =>
        match acc with
        | Raise e => Ret (Raise e)
        | Ok adj => pbind (sample_layer u d po pin w s_out s_in (a_selfloops s) k)
                      (fun r => Ret (do l <- r ; Ok (adj ++ [l])))
        end) (Ok []))
  end.

(** models.py:1612-1729 (sample): triples (label, (row, column)).  [_cremb_sample_tensor] does not
    exist. *)
Definition dense_strength (N L : nat) (s : strength_arg) : res unit :=
  match s with
  | StNone => Ok tt
  | StArray r c _ | StSparse r c _ => guard (Nat.eqb r N && Nat.eqb c L) AssertionError (Ok tt)
  | StOther => Raise ValueError
  end.
Definition v_sample (v : multi_dense) (w : weights_opt) (out_strength in_strength : strength_arg) (selfloops : option bool)
    (s : ens (nat -> num)) : res (prog (list (nat * (nat * nat)))) :=
  match a_param s with
  | None => Raise GenericException
  | Some d =>
      do _ <- dense_strength (v_N v) (v_L v) out_strength ;
      do _ <- dense_strength (v_N v) (v_L v) in_strength ;
      match w with
      | WNone => Ok (binary_sample_tensor (v_p_ijk v) (v_dyad v) (v_N v) (v_L v) d (v_x v) (v_y v) (a_selfloops s))
      | WCremb => Raise AttributeError
      | WOther => Raise ValueError
      end
  end.

(** spark/models.py:2471-2624 (sample): an unknown [weights] is rejected before anything is drawn.  The
    layers are sampled by the workers with independent generators, here one after the other; an exception
    of a worker is passed on. *)
Definition w_sample (u : multi) (w : weights_opt) (out_strength in_strength : strength_arg) (selfloops : option bool)
    (s : ens (nat -> num)) : res (prog (res (list (list (nat * nat * R))))) :=
  do m <- u_sample u w out_strength in_strength selfloops s ;
  match w with WOther => Raise ValueError | _ => Ok m end.
