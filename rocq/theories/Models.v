(** The models of the library as instances of the generic ensemble code, with their link
    probabilities stated independently of the code. *)
From Verif Require Import Base Num Spec Kernels KernelFacts MultiKernels MultiFacts Prob Ensemble EnsembleFacts
  EnsembleProps EnsembleState.

(** Everything a DiGraphEnsemble subclass contributes to the generic methods: kernels, parameter and
    vertex properties (sparse/models/ensembles.py:40-90, models.py:40-90). *)
Record model := mkModel {
  mP : Type; mX : Type; mZ : Type;
  m_p_ij : mP -> mX -> mX -> mZ -> R;
  m_logp : mP -> mX -> mX -> mZ -> num;
  m_log1mp : mP -> mX -> mX -> mZ -> num;
  m_param : mP;
  m_out : nat -> mX;
  m_in : nat -> mX;
  m_dyad : nat -> nat -> mZ;
  m_N : nat
}.

(** FitnessModel (sparse/models/fitness.py:16-340) *)
Definition FitnessModel (N : nat) (d : num) (x y : nat -> num) (z : nat -> nat -> num) : model :=
  mkModel num num num (fun d x y z => toR (fit_p_ij d x y z)) fit_logp fit_log1mp d x y z N.
(** ScaleInvariantModel (sparse/models/invariant.py) *)
Definition ScaleInvariantModel (N : nat) (d : num) (x y : nat -> num) (z : nat -> nat -> num) : model :=
  mkModel num num num (fun d x y z => toR (inv_p_ij d x y z)) inv_logp inv_log1mp d x y z N.
(** MultiFitnessModel (sparse/models/fitness.py:343-): label parameters, sparse rows *)
Definition MultiFitnessModel (N : nat) (d : nat -> num) (xs ys : nat -> svec) : model :=
  mkModel (nat -> num) svec unit (fun d x y _ => toR (mfit_p_ij d x y)) (fun d x y _ => mfit_logp d x y)
    (fun d x y _ => mfit_log1mp d x y) d xs ys (fun _ _ => tt) N.
(** MultiInvariantModel (sparse/models/invariant.py) *)
Definition MultiInvariantModel (N : nat) (d : nat -> num) (xs ys : nat -> svec) : model :=
  mkModel (nat -> num) svec unit (fun d x y _ => toR (minv_p_ij d x y)) (fun d x y _ => minv_logp d x y)
    (fun d x y _ => minv_log1mp d x y) d xs ys (fun _ _ => tt) N.
(** The dense module's FitnessModel and ScaleInvariantModel (models.py:1037-1434) *)
Definition FitnessModelDense (N : nat) (d : num) (x y : nat -> num) (z : nat -> nat -> num) : model :=
  mkModel num num num (fun d x y z => toR (fit_p_ij_dense d x y z)) fit_logp_dense fit_log1mp_dense d x y z N.
Definition ScaleInvariantModelDense (N : nat) (d : num) (x y : nat -> num) (z : nat -> nat -> num) : model :=
  mkModel num num num (fun d x y z => toR (inv_p_ij_dense d x y z)) inv_logp_dense inv_log1mp_dense d x y z N.
(** The dense module's MultiFitnessModel and MultiInvariantModel (models.py:1863-2624), [L] labels *)
Definition MultiFitnessModelDense (N L : nat) (d : nat -> num) (x y : nat -> nat -> num) : model :=
  mkModel (nat -> num) (nat -> num) unit (fun d x y _ => toR (mfit_p_ij_dense L d x y))
    (fun d x y _ => mfit_logp_dense L d x y) (fun d x y _ => mfit_log1mp_dense L d x y) d x y (fun _ _ => tt) N.
Definition MultiInvariantModelDense (N L : nat) (d : nat -> num) (x y : nat -> nat -> num) : model :=
  mkModel (nat -> num) (nat -> num) unit (fun d x y _ => toR (minv_p_ij_dense L d x y))
    (fun d x y _ => minv_logp_dense L d x y) (fun d x y _ => minv_log1mp_dense L d x y) d x y (fun _ _ => tt) N.

(** Probability that at least one of the layers 0..L-1 is linked. *)
Definition any_layer (L : nat) (q : nat -> R) : R := 1 - prodn L (fun k => 1 - q k).

(** [library_model m q]: [m] is a model of the library with admissible (non-negative, possibly
    infinite) parameters and fitnesses, and [q i j] is the documented probability of the link i->j. *)
Inductive library_model : model -> (nat -> nat -> R) -> Prop :=
| lib_fitness : forall N d x y z, nonneg d ->
    (forall i, (i < N)%nat -> nonneg (x i) /\ nonneg (y i)) ->
    (forall i j, (i < N)%nat -> (j < N)%nat -> nonneg (z i j)) ->
    library_model (FitnessModel N d x y z) (fun i j => link_prob logistic [d; x i; y j; z i j])
| lib_invariant : forall N d x y z, nonneg d ->
    (forall i, (i < N)%nat -> nonneg (x i) /\ nonneg (y i)) ->
    (forall i j, (i < N)%nat -> (j < N)%nat -> nonneg (z i j)) ->
    library_model (ScaleInvariantModel N d x y z) (fun i j => link_prob poissonian [d; x i; y j; z i j])
| lib_multi_fitness : forall N L d xs ys, (forall k, (k < L)%nat -> nonneg (d k)) ->
    (forall i, (i < N)%nat -> canonical L (xs i) /\ all_nonneg (xs i) /\ canonical L (ys i) /\ all_nonneg (ys i)) ->
    library_model (MultiFitnessModel N d xs ys)
      (fun i j => any_layer L (fun k => link_prob logistic [d k; lookup k (xs i); lookup k (ys j); Fin 1]))
| lib_multi_invariant : forall N L d xs ys, (forall k, (k < L)%nat -> nonneg (d k)) ->
    (forall i, (i < N)%nat -> canonical L (xs i) /\ all_nonneg (xs i) /\ canonical L (ys i) /\ all_nonneg (ys i)) ->
    library_model (MultiInvariantModel N d xs ys)
      (fun i j => any_layer L (fun k => link_prob poissonian [d k; lookup k (xs i); lookup k (ys j); Fin 1]))
| lib_fitness_dense : forall N d x y z, nonneg d ->
    (forall i, (i < N)%nat -> nonneg (x i) /\ nonneg (y i)) ->
    library_model (FitnessModelDense N d x y z) (fun i j => link_prob logistic [d; x i; y j; Fin 1])
| lib_invariant_dense : forall N d x y z, nonneg d ->
    (forall i, (i < N)%nat -> nonneg (x i) /\ nonneg (y i)) ->
    library_model (ScaleInvariantModelDense N d x y z) (fun i j => link_prob poissonian [d; x i; y j; Fin 1])
| lib_multi_fitness_dense : forall N L d x y, (forall k, (k < L)%nat -> nonneg (d k)) ->
    (forall i k, (i < N)%nat -> (k < L)%nat -> nonneg (x i k) /\ nonneg (y i k)) ->
    library_model (MultiFitnessModelDense N L d x y)
      (fun i j => any_layer L (fun k => link_prob logistic [d k; x i k; y j k; Fin 1]))
| lib_multi_invariant_dense : forall N L d x y, (forall k, (k < L)%nat -> nonneg (d k)) ->
    (forall i k, (i < N)%nat -> (k < L)%nat -> nonneg (x i k) /\ nonneg (y i k)) ->
    library_model (MultiInvariantModelDense N L d x y)
      (fun i j => any_layer L (fun k => link_prob poissonian [d k; x i k; y j k; Fin 1])).

(** The measures of a model, as computed by the generic static methods. *)
(** sparse/models/ensembles.py:407-415 (DiGraphEnsemble.exp_edges) *)
Definition m_edges (m : model) (sl : bool) : R :=
  exp_edges (m_p_ij m) (m_param m) (m_out m) (m_in m) (m_dyad m) (m_N m) sl.
(** sparse/models/ensembles.py:419-446 (DiGraphEnsemble.exp_degrees) *)
Definition m_degrees (m : model) (sl : bool) : degs :=
  exp_degrees (m_p_ij m) (m_param m) (m_out m) (m_in m) (m_dyad m) (m_N m) sl.
(** sparse/models/ensembles.py:491-512 (DiGraphEnsemble._likelihood) *)
Definition m_likelihood (m : model) (G : list (nat * nat)) (sl : bool) : num :=
  likelihood (m_logp m) (m_log1mp m) (m_param m) (m_out m) (m_in m) (m_dyad m) (row_of G) (m_N m) sl.
(** models.py:494-510 (DiGraphEnsemble._likelihood) *)
Definition m_likelihood_dense (m : model) (A : nat -> nat -> bool) (sl : bool) : num :=
  likelihood_dense (m_logp m) (m_log1mp m) (m_param m) (m_out m) (m_in m) (m_dyad m) A (m_N m) sl.
(** sparse/models/ensembles.py:516-528 (DiGraphEnsemble._binary_sample) *)
Definition m_sample (m : model) (sl : bool) : prog (list (nat * nat)) :=
  binary_sample (m_p_ij m) (m_param m) (m_out m) (m_in m) (m_dyad m) (m_N m) sl.
(** sparse/models/ensembles.py:532-551 (DiGraphEnsemble._cremb_sample) *)
Definition m_cremb (m : model) (s_out s_in : nat -> R) (sl : bool) : res (prog (list (nat * nat * R))) :=
  cremb_sample (m_p_ij m) (m_param m) (m_out m) (m_in m) (m_dyad m) s_out s_in (m_N m) sl.

(** The methods of an object of the model's class; the object state (parameter, self-loop option and
    caches) is the last argument, see EnsembleState.v. *)
(** sparse/models/ensembles.py:109-124 (DiGraphEnsemble.expected_num_edges) *)
Definition o_num_edges (m : model) := expected_num_edges (m_p_ij m) (m_out m) (m_in m) (m_dyad m) (m_N m).
(** sparse/models/ensembles.py:126-145 (DiGraphEnsemble.expected_degree) *)
Definition o_degree (m : model) := degree_of (m_p_ij m) (m_out m) (m_in m) (m_dyad m) (m_N m).
(** sparse/models/ensembles.py:161-227
    (DiGraphEnsemble.expected_av_nn_property) *)
Definition o_av_nn_property (m : model) := expected_av_nn_property (m_p_ij m) (m_out m) (m_in m) (m_dyad m) (m_N m).
(** sparse/models/ensembles.py:229-281 (DiGraphEnsemble.expected_av_nn_degree)
    *)
Definition o_av_nn_degree (m : model) := expected_av_nn_degree (m_p_ij m) (m_out m) (m_in m) (m_dyad m) (m_N m).
(** sparse/models/ensembles.py:283-326 (DiGraphEnsemble.log_likelihood) *)
Definition o_log_likelihood (m : model) := log_likelihood (m_logp m) (m_log1mp m) (m_out m) (m_in m) (m_dyad m) (m_N m).
(** sparse/models/ensembles.py:328-403 (DiGraphEnsemble.sample) *)
Definition o_sample (m : model) := sample (m_p_ij m) (m_out m) (m_in m) (m_dyad m) (m_N m).
(** sparse/models/ensembles.py:109-124 (DiGraphEnsemble.expected_num_edges);
    sparse/models/ensembles.py:126-145 (DiGraphEnsemble.expected_degree);
    sparse/models/ensembles.py:161-227
    (DiGraphEnsemble.expected_av_nn_property);
    sparse/models/ensembles.py:229-281 (DiGraphEnsemble.expected_av_nn_degree)
    *)
Definition o_query (m : model) := run_query (m_p_ij m) (m_out m) (m_in m) (m_dyad m) (m_N m).
Definition o_queries (m : model) := run_queries (m_p_ij m) (m_out m) (m_in m) (m_dyad m) (m_N m).

(** ** The kernels of every model give its documented probability *)

Lemma any_layer_ext : forall L p q, (forall k, (k < L)%nat -> p k = q k) -> any_layer L p = any_layer L q.
Proof.
  intros L p q H. unfold any_layer. f_equal. apply prodn_ext. intros k Hk. rewrite H by exact Hk; reflexivity.
Qed.

Lemma nonneg_one : nonneg (Fin 1). Proof. simpl; lra. Qed.

Lemma library_kernel : forall m q, library_model m q ->
  forall i j, (i < m_N m)%nat -> (j < m_N m)%nat ->
  m_p_ij m (m_param m) (m_out m i) (m_in m j) (m_dyad m i j) = q i j /\
  log_of (q i j) (m_logp m (m_param m) (m_out m i) (m_in m j) (m_dyad m i j)) /\
  log_of (1 - q i j) (m_log1mp m (m_param m) (m_out m i) (m_in m j) (m_dyad m i j)).
Proof.
  intros m q H; destruct H as [N d x y z Hd H Hz|N d x y z Hd H Hz|N L d xs ys Hd H|N L d xs ys Hd H
    |N d x y z Hd H|N d x y z Hd H|N L d x y Hd H|N L d x y Hd H]; intros i j Hi Hj; cbn in *.
  - destruct (H i Hi) as [Hx _], (H j Hj) as [_ Hy]. specialize (Hz i j Hi Hj).
    pose proof (view_link_prob fit_p_ij logistic fit_view d _ _ _ Hd Hx Hy Hz) as E.
    pose proof (fit_logp_spec d _ _ _ Hd Hx Hy Hz) as L1. pose proof (fit_log1mp_spec d _ _ _ Hd Hx Hy Hz) as L2.
    rewrite E in L1, L2 |- *. auto.
  - destruct (H i Hi) as [Hx _], (H j Hj) as [_ Hy]. specialize (Hz i j Hi Hj).
    pose proof (view_link_prob inv_p_ij poissonian inv_view d _ _ _ Hd Hx Hy Hz) as E.
    pose proof (inv_logp_spec d _ _ _ Hd Hx Hy Hz) as L1. pose proof (inv_log1mp_spec d _ _ _ Hd Hx Hy Hz) as L2.
    rewrite E in L1, L2 |- *. auto.
  - destruct (H i Hi) as (C1 & P1 & _ & _), (H j Hj) as (_ & _ & C2 & P2).
    pose proof (mfit_union L d _ _ C1 C2 P1 P2 Hd) as E.
    pose proof (mfit_logs_spec L d _ _ C1 C2 P1 P2 Hd) as [L1 L2].
    rewrite E in L1, L2 |- *. auto.
  - destruct (H i Hi) as (C1 & P1 & _ & _), (H j Hj) as (_ & _ & C2 & P2).
    pose proof (minv_union L d _ _ C1 C2 P1 P2 Hd) as E.
    pose proof (minv_logs_spec L d _ _ C1 C2 P1 P2 Hd) as [L1 L2].
    rewrite E in L1, L2 |- *. auto.
  - destruct (H i Hi) as [Hx _], (H j Hj) as [_ Hy].
    pose proof (view_link_prob fit_p_ij logistic fit_view d _ _ _ Hd Hx Hy nonneg_one) as E.
    pose proof (fit_logp_spec d _ _ _ Hd Hx Hy nonneg_one) as L1.
    pose proof (fit_log1mp_spec d _ _ _ Hd Hx Hy nonneg_one) as L2.
    rewrite fit_p_ij_dense_eq, fit_logp_dense_eq, fit_log1mp_dense_eq.
    rewrite E in L1, L2 |- *. auto.
  - destruct (H i Hi) as [Hx _], (H j Hj) as [_ Hy].
    pose proof (view_link_prob inv_p_ij poissonian inv_view d _ _ _ Hd Hx Hy nonneg_one) as E.
    pose proof (inv_logp_spec d _ _ _ Hd Hx Hy nonneg_one) as L1.
    pose proof (inv_log1mp_spec d _ _ _ Hd Hx Hy nonneg_one) as L2.
    rewrite inv_p_ij_dense_eq, inv_logp_dense_eq, inv_log1mp_dense_eq by assumption.
    rewrite E in L1, L2 |- *. auto.
  - assert (Hx : forall k, (k < L)%nat -> nonneg (x i k)) by (intros; apply H; assumption).
    assert (Hy : forall k, (k < L)%nat -> nonneg (y j k)) by (intros; apply H; assumption).
    pose proof (mfit_p_dense_spec L d (x i) (y j) Hd Hx Hy) as E.
    pose proof (mfit_logp_dense_spec L d (x i) (y j) Hd Hx Hy) as L1.
    pose proof (mfit_log1mp_dense_spec L d (x i) (y j) Hd Hx Hy) as L2.
    assert (Q : 1 - prodn L (q_fit d (x i) (y j))
                = any_layer L (fun k => link_prob logistic [d k; x i k; y j k; Fin 1])).
    { unfold any_layer. f_equal. apply prodn_ext. intros k Hk. unfold q_fit.
      rewrite mfit_p_ijk_eq, (view_link_prob fit_p_ij logistic fit_view) by (auto using nonneg_one). reflexivity. }
    rewrite E. cbn [toR]. rewrite Q in L1 |- *.
    replace (1 - any_layer L _) with (prodn L (q_fit d (x i) (y j))) by (rewrite <- Q; ring). auto.
  - assert (Hx : forall k, (k < L)%nat -> nonneg (x i k)) by (intros; apply H; assumption).
    assert (Hy : forall k, (k < L)%nat -> nonneg (y j k)) by (intros; apply H; assumption).
    pose proof (minv_p_dense_spec L d (x i) (y j) Hd Hx Hy) as E.
    pose proof (minv_logp_dense_spec L d (x i) (y j) Hd Hx Hy) as L1.
    pose proof (minv_log1mp_dense_spec L d (x i) (y j) Hd Hx Hy) as L2.
    assert (Q : 1 - prodn L (q_inv d (x i) (y j))
                = any_layer L (fun k => link_prob poissonian [d k; x i k; y j k; Fin 1])).
    { unfold any_layer. f_equal. apply prodn_ext. intros k Hk. unfold q_inv.
      rewrite minv_p_ijk_eq, (view_link_prob inv_p_ij poissonian inv_view) by (auto using nonneg_one). reflexivity. }
    rewrite E. cbn [toR]. rewrite Q in L1 |- *.
    replace (1 - any_layer L _) with (prodn L (q_inv d (x i) (y j))) by (rewrite <- Q; ring). auto.
Qed.
