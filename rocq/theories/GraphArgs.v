(** The graph argument of [log_likelihood] of the single-label classes of the three modules.  Model only. *)
From Verif Require Import Base Num Prob Ensemble EnsembleState Models Ids Graphs DenseGraphs Layers Random Spark SparkState MultiState.

Open Scope R_scope.
Open Scope list_scope.

(** sparse/models/ensembles.py:293-301, sparse/models/random.py:290-298, spark/models.py:328-336: shape and stored entries of the CSR
    matrix made from the argument.  A list is neither a graph nor a matrix.
    Simplification: a numpy array without two dimensions is a ValueError (of scipy or of the test of the shape). *)
Definition read_matrix (g : tensor_arg) : res (nat * nat * (nat -> list (nat * R))) :=
  match g with
  | GGraph n s => do A <- adjacency_matrix n s true false ; Ok (n, n, sp_row A)
  | GMatrix (MStored r c e) => Ok (r, c, e)
  | GMatrix (MArray r c a) => Ok (r, c, fun i => map (fun j => (j, a i j)) (filter (fun j => negb (Reqb (a i j) 0)) (seq 0 c)))
  | GArray3 _ _ _ _ | GArrayN | GList _ | GOther => Raise ValueError
  end.

(** sparse/models/ensembles.py:283-326 (DiGraphEnsemble.log_likelihood) *)
Definition sparse_likelihood (m : model) (g : tensor_arg) (selfloops : option bool) (s : ens (mP m)) : res num :=
  match a_param s with
  | None => Raise GenericException
  | Some _ => do x <- read_matrix g ;
      let '(r, c, e) := x in o_log_likelihood m (EnsembleState.Matrix r c (fun i => map fst (e i))) selfloops s
  end.

(** spark/models.py:318-371 (DiGraphEnsemble.log_likelihood), in [B] blocks *)
Definition spark_arg_likelihood (m : model) (B : nat) (g : tensor_arg) (selfloops : option bool) (s : ens (mP m)) : res num :=
  match a_param s with
  | None => Raise GenericException
  | Some _ => do x <- read_matrix g ;
      let '(r, c, e) := x in
      sp_log_likelihood (m_logp m) (m_log1mp m) (m_out m) (m_in m) (m_dyad m) (m_N m) B (Spark.Stored r c e) selfloops s
  end.

(** models.py:299-307, 830-838: the array made from the argument and its shape.  Only whether an entry is zero is used. *)
Definition read_array (g : dense_arg) : res (nat * nat * (nat -> nat -> R)) :=
  match g with
  | HGraph n w s => Ok (n, n, d_adjacency w s true false)
  | HMatrix x => Ok (fst (matrix_shape x), snd (matrix_shape x), matrix_at x)
  | HArray3 _ _ _ _ | HArrayN => Raise ValueError   (* the shape is wrong *)
  | HSparseList _ | HEmptyList | HOther => Raise ValueError
  end.

(** models.py:289-331 (DiGraphEnsemble.log_likelihood of the dense module).  The local variable [selfloops] is computed and then
    not used. *)
Definition dense_likelihood (m : model) (g : dense_arg) (selfloops : option bool) (s : ens (mP m)) : res num :=
  match a_param s with
  | None => Raise GenericException
  | Some param => do x <- read_array g ;
      let '(r, c, a) := x in
      guard (Nat.eqb r (m_N m) && Nat.eqb c (m_N m)) ValueError
        (Ok (likelihood_dense (m_logp m) (m_log1mp m) param (m_out m) (m_in m) (m_dyad m)
               (fun i j => negb (Reqb (a i j) 0)) (m_N m) (a_selfloops s)))
  end.

(** * RandomDiGraph *)

(** sparse/models/random.py:310-327, spark/models.py:1213-1230, models.py:850-868: the value from the number [k] of entries;
    [diagonal] is the test for entries on the diagonal. *)
Definition rnd_formula (N : nat) (p : num) (k : nat) (selfloops diagonal : bool) : res num :=
  if neqb p (Fin 0) && Nat.ltb 0 k then Ok NInf
  else if neqb p (Fin 1) && negb (Nat.eqb k 0) then Ok NInf
  else
    do l1 <- py_log p ;
    let like := times (INR k) l1 in
    do l2 <- py_log1p (nopp p) ;
    let like := nadd like (times (pairs_of N selfloops - INR k) l2) in
    if selfloops then Ok like else if diagonal then Ok NInf else Ok like.

(** [adj.diagonal().sum()] of a square matrix with [n] rows *)
(** sparse/models/random.py:324, spark/models.py:1227 *)
Definition diagonal_sum (n : nat) (e : nat -> list (nat * R)) : R :=
  sumn n (fun i => suml snd (filter (fun x => Nat.eqb (fst x) i) (e i))).

(** sparse/models/random.py:280-327, spark/models.py:1183-1230 (RandomDiGraph.log_likelihood) *)
Definition rnd_arg_likelihood (g : tensor_arg) (selfloops : option bool) (s : rnd) : res num :=
  match r_param s with
  | None => Raise GenericException
  | Some (p, _) =>
      let sl := match selfloops with None => r_selfloops s | Some b => b end in
      do x <- read_matrix g ;
      let '(r, c, e) := x in
      guard (Nat.eqb r (r_N s) && Nat.eqb c (r_N s)) ValueError
        (rnd_formula (r_N s) p (nnz (r_N s) (fun i => map fst (e i))) sl (Rltb 0 (diagonal_sum (r_N s) e)))
  end.

(** [np.count_nonzero] of a matrix and of its diagonal *)
(** models.py:850-868 (RandomDiGraph.log_likelihood of the dense module) *)
Definition count_entries (n : nat) (a : nat -> nat -> R) : nat :=
  for_range n (fun i k => for_range n (fun j k => if Reqb (a i j) 0 then k else S k) k) 0%nat.
Definition count_diagonal (n : nat) (a : nat -> nat -> R) : nat :=
  for_range n (fun i k => if Reqb (a i i) 0 then k else S k) 0%nat.

(** models.py:820-868 (RandomDiGraph.log_likelihood of the dense module).  [two_dim] tells that the array is a [np.matrix]: what
    [todense] makes of a [csr_matrix] (of a [csr_array] it makes an ordinary array).  [ravel] of a [np.matrix] is again
    two-dimensional, with one row, and the slice [[:: N + 1]] of its rows is all of it. *)
Definition rnd_dense_likelihood (two_dim : bool) (g : dense_arg) (selfloops : option bool) (s : rnd) : res num :=
  match r_param s with
  | None => Raise GenericException
  | Some (p, _) =>
      let sl := match selfloops with None => r_selfloops s | Some b => b end in
      do x <- read_array g ;
      let '(r, c, a) := x in
      guard (Nat.eqb r (r_N s) && Nat.eqb c (r_N s)) ValueError
        (let k := count_entries (r_N s) a in
         let d := match g with
                  | HMatrix _ => if two_dim then k else count_diagonal (r_N s) a
                  | _ => count_diagonal (r_N s) a
                  end in
         rnd_formula (r_N s) p k sl (Nat.ltb 0 d))
  end.
