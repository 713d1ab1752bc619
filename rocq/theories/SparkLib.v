(** The models of the spark module and their distributed measures. *)
From Coq Require Import ZArith Permutation FunctionalExtensionality.
From Verif Require Import Base Num Spec Kernels KernelFacts MultiKernels MultiFacts Prob Ensemble EnsembleFacts
  EnsembleProps EnsembleState Models ModelFacts StateFacts StateProps Fit Spark SparkFacts SparkMeasures SparkConfusion.

(** spark/models.py:1790-1887 (ScaleInvariantModel) *)
Definition ScaleInvariantModelSpark (N : nat) (d : num) (x y : nat -> num) (z : nat -> nat -> num) : model :=
  mkModel num num num (fun d x y z => toR (inv_p_ij_dense d x y z)) inv_logp_dense inv_log1mp_spark d x y z N.

(** [spark_model m q]: [m] is a model of the spark module with admissible (non-negative, possibly
    infinite) parameters and fitnesses and [q i j] the documented probability of the link i->j.  The
    kernels of FitnessModel are those of the dense module (spark/models.py:1729-1787), the kernels of the
    multi-label models those of the sparse module (3656-3806, 3892-4039). *)
Inductive spark_model : model -> (nat -> nat -> R) -> Prop :=
| spk_fitness : forall N d x y z, nonneg d ->
    (forall i, (i < N)%nat -> nonneg (x i) /\ nonneg (y i)) ->
    spark_model (FitnessModelDense N d x y z) (fun i j => link_prob logistic [d; x i; y j; Fin 1])
| spk_invariant : forall N d x y z, nonneg d ->
    (forall i, (i < N)%nat -> nonneg (x i) /\ nonneg (y i)) ->
    spark_model (ScaleInvariantModelSpark N d x y z) (fun i j => link_prob poissonian [d; x i; y j; Fin 1])
| spk_multi_fitness : forall N L d xs ys, (forall k, (k < L)%nat -> nonneg (d k)) ->
    (forall i, (i < N)%nat -> canonical L (xs i) /\ all_nonneg (xs i) /\ canonical L (ys i) /\ all_nonneg (ys i)) ->
    spark_model (MultiFitnessModel N d xs ys)
      (fun i j => any_layer L (fun k => link_prob logistic [d k; lookup k (xs i); lookup k (ys j); Fin 1]))
| spk_multi_invariant : forall N L d xs ys, (forall k, (k < L)%nat -> nonneg (d k)) ->
    (forall i, (i < N)%nat -> canonical L (xs i) /\ all_nonneg (xs i) /\ canonical L (ys i) /\ all_nonneg (ys i)) ->
    spark_model (MultiInvariantModel N d xs ys)
      (fun i j => any_layer L (fun k => link_prob poissonian [d k; lookup k (xs i); lookup k (ys j); Fin 1])).

(** The distributed measures of a model. *)
(** spark/models.py:132-149 (DiGraphEnsemble.expected_num_edges) *)
Definition s_edges (m : model) (B : nat) (sl : bool) : R :=
  spark_edges (m_param m) (m_out m) (m_in m) (m_dyad m) (m_N m) B (m_p_ij m) sl.
(** spark/models.py:151-180 (DiGraphEnsemble.expected_degree) *)
Definition s_degree (m : model) (B : nat) (nd : dir) (sl : bool) : nat -> R :=
  let '(d, o, i) := spark_degrees (m_param m) (m_out m) (m_in m) (m_dyad m) (m_N m) B (m_p_ij m) sl in
  match nd with Dout => o | Din => i | Doutin => d | Dother => fun _ => 0 end.
(** spark/models.py:196-262 (DiGraphEnsemble.expected_av_nn_property) *)
Definition s_av_nn (m : model) (B : nat) (prop : nat -> R) (nd : dir) (sl : bool) : nat -> R :=
  spark_av_nn (m_param m) (m_out m) (m_in m) (m_dyad m) (m_N m) B (m_p_ij m) prop nd sl.
(** spark/models.py:318-371 (DiGraphEnsemble.log_likelihood) *)
Definition s_likelihood (m : model) (B : nat) (G : list (nat * nat)) (sl : bool) : num :=
  spark_likelihood (m_param m) (m_out m) (m_in m) (m_dyad m) (m_N m) B (m_logp m) (m_log1mp m) (row_of G) sl.
(** spark/models.py:373-446 (DiGraphEnsemble.confusion_matrix) *)
Definition s_confusion (m : model) (B : nat) (th : list num) (G : list (nat * nat)) (sl : bool) : counts :=
  spark_confusion (m_param m) (m_out m) (m_in m) (m_dyad m) (m_N m) B th (m_p_ij m) (row_of G) sl.
(** spark/models.py:448-534 (DiGraphEnsemble.sample) *)
Definition s_sample (m : model) (B : nat) (sl : bool) : prog (list (nat * nat)) :=
  spark_sample (m_param m) (m_out m) (m_in m) (m_dyad m) (m_N m) B (m_p_ij m) sl.
(** spark/models.py:448-534 (DiGraphEnsemble.sample) *)
Definition s_cremb (m : model) (B : nat) (s_out s_in : nat -> R) (sl : bool) : res (prog (list (nat * nat * R))) :=
  spark_cremb (m_param m) (m_out m) (m_in m) (m_dyad m) (m_N m) B (m_p_ij m) s_out s_in sl.

(** Every spark model has a single-process model with the same probabilities and the same properties. *)
Lemma spark_twin : forall m q, spark_model m q -> exists m', library_model m' q /\ m_N m' = m_N m /\
  (forall sl, m_edges m' sl = m_edges m sl) /\ (forall sl, m_degrees m' sl = m_degrees m sl) /\
  (forall sl, m_sample m' sl = m_sample m sl) /\ (forall a b sl, m_cremb m' a b sl = m_cremb m a b sl).
Proof.
  intros m q H. destruct H as [N d x y z Hd H|N d x y z Hd H|N L d xs ys Hd H|N L d xs ys Hd H].
  - exists (FitnessModelDense N d x y z). split; [apply lib_fitness_dense; assumption|]. repeat split.
  - exists (ScaleInvariantModelDense N d x y z). split; [apply lib_invariant_dense; assumption|]. repeat split.
  - exists (MultiFitnessModel N d xs ys). split; [apply lib_multi_fitness; assumption|]. repeat split.
  - exists (MultiInvariantModel N d xs ys). split; [apply lib_multi_invariant; assumption|]. repeat split.
Qed.

Lemma spark_kernel : forall m q, spark_model m q ->
  forall i j, (i < m_N m)%nat -> (j < m_N m)%nat ->
  m_p_ij m (m_param m) (m_out m i) (m_in m j) (m_dyad m i j) = q i j /\
  log_of (q i j) (m_logp m (m_param m) (m_out m i) (m_in m j) (m_dyad m i j)) /\
  log_of (1 - q i j) (m_log1mp m (m_param m) (m_out m i) (m_in m j) (m_dyad m i j)).
Proof.
  intros m q H. destruct H as [N d x y z Hd H|N d x y z Hd H|N L d xs ys Hd H|N L d xs ys Hd H].
  - exact (library_kernel _ _ (lib_fitness_dense N d x y z Hd H)).
  - intros i j Hi Hj. cbn in Hi, Hj.
    destruct (library_kernel _ _ (lib_invariant_dense N d x y z Hd H) i j Hi Hj) as (A & B & C).
    split; [exact A|]. split; [exact B|]. cbn in C |- *.
    rewrite inv_log1mp_spark_eq. destruct (H i Hi) as [Hx _], (H j Hj) as [_ Hy].
    rewrite inv_log1mp_dense_eq in C by assumption. exact C.
  - exact (library_kernel _ _ (lib_multi_fitness N L d xs ys Hd H)).
  - exact (library_kernel _ _ (lib_multi_invariant N L d xs ys Hd H)).
Qed.

Lemma spark_no_dyad : forall m q, spark_model m q ->
  (forall d x y z z', m_p_ij m d x y z = m_p_ij m d x y z') /\
  (forall d x y z z', m_logp m d x y z = m_logp m d x y z') /\
  (forall d x y z z', m_log1mp m d x y z = m_log1mp m d x y z').
Proof. intros m q H. destruct H; repeat split; intros; reflexivity. Qed.

Section Lib.
Variables (m : model) (q : nat -> nat -> R).
Hypothesis Hm : spark_model m q.
Let N := m_N m.
Let pr (i j : nat) : R := m_p_ij m (m_param m) (m_out m i) (m_in m j) (m_dyad m i j).
Hypothesis HN : (1 <= N)%nat.
Variable B : nat.
Hypothesis HB : (1 <= B)%nat.

Lemma spark_pr : forall i j, (i < N)%nat -> (j < N)%nat -> pr i j = q i j.
Proof. intros i j Hi Hj. exact (proj1 (spark_kernel m q Hm i j Hi Hj)). Qed.

Lemma s_edges_spec : forall sl, s_edges m B sl = pair_sum N sl q /\ s_edges m B sl = m_edges m sl.
Proof.
  intros sl.
  assert (E : s_edges m B sl = pair_sum N sl pr).
  { apply spark_edges_sum; [exact HB | exact (proj1 (spark_no_dyad m q Hm))]. }
  assert (E' : pair_sum N sl pr = pair_sum N sl q) by (apply pair_sum_ext; exact spark_pr).
  split; [rewrite E; exact E'|].
  destruct (spark_twin m q Hm) as (m' & L & EN & Ee & _).
  pose proof (lib_edges_degrees m' q L sl) as K. destruct (m_degrees m' sl) as [[? ?] ?].
  destruct K as [K _]. rewrite E, E', <- Ee, K, EN. reflexivity.
Qed.

Lemma s_degree_spec : forall nd sl v, nd <> Dother -> (v < N)%nat ->
  s_degree m B nd sl v = nb_degree N sl (dir_link nd q) v.
Proof.
  intros nd sl v Hnd Hv.
  destruct (spark_twin m q Hm) as (m' & L & EN & _ & Ed & _).
  pose proof (spark_degrees_eq _ _ _ (m_p_ij m) (m_param m) (m_out m) (m_in m) (m_dyad m) N B sl HN HB
    (proj1 (spark_no_dyad m q Hm)) v) as K. cbv zeta in K.
  assert (Hv' : (v < m_N m')%nat) by (rewrite EN; exact Hv).
  pose proof (deg_lib m' q L nd sl v Hnd Hv') as D. unfold deg_now in D.
  change (exp_degrees (m_p_ij m') (m_param m') (m_out m') (m_in m') (m_dyad m') (m_N m') sl) with (m_degrees m' sl) in D.
  rewrite Ed in D. unfold m_degrees in D. rewrite EN in D. fold N in D.
  unfold s_degree. fold N.
  destruct (spark_degrees _ _ _ _ _ _ _ _) as [[a1 a2] a3], (exp_degrees _ _ _ _ _ _ _) as [[b1 b2] b3].
  destruct K as (K1 & K2 & K3). unfold dview, oview, iview in K1, K2, K3. cbn in K1, K2, K3.
  destruct nd; [rewrite K2 | rewrite K3 | rewrite K1 |]; try exact D.
Qed.

Lemma s_av_nn_spec : forall prop nd sl v, nd <> Dother -> (v < N)%nat ->
  s_av_nn m B prop nd sl v = nb_total N sl (dir_link nd q) prop v.
Proof.
  intros prop nd sl v Hnd Hv. unfold s_av_nn. fold N.
  rewrite (spark_av_nn_spec _ _ _ (m_p_ij m) (m_param m) (m_out m) (m_in m) (m_dyad m) N B sl prop nd HN HB
    (proj1 (spark_no_dyad m q Hm)) Hnd v Hv).
  unfold nb_total. apply sumn_ext. intros j Hj. destruct (allowed sl v j); [|reflexivity]. f_equal.
  pose proof (spark_pr v j Hv Hj) as E1. pose proof (spark_pr j v Hj Hv) as E2. pose proof (spark_pr v v Hv Hv) as E3.
  unfold pr in E1, E2, E3.
  unfold nd_link, dir_link. destruct nd; unfold out_link, in_link, either_link; rewrite ?E1, ?E2, ?E3;
    try reflexivity. exfalso; apply Hnd; reflexivity.
Qed.

Lemma s_likelihood_spec : forall G sl, log_of (graph_weight N sl q G) (s_likelihood m B G sl).
Proof.
  intros G sl.
  pose proof (spark_likelihood_log _ _ _ _ (m_p_ij m) (m_logp m) (m_log1mp m) (m_param m) (m_out m) (m_in m)
    (m_dyad m) N B (row_of G) sl HB) as K.
  assert (E : forall i j, (i < N)%nat -> (j < N)%nat -> pr i j = q i j) by exact spark_pr. unfold pr in E.
  unfold s_likelihood. fold N.
  replace (graph_weight N sl q G) with (prodn N (fun i => prodn N (fun j =>
    if allowed sl i j then (if existsb (Nat.eqb j) (row_of G i) then pr i j else 1 - pr i j) else 1))).
  - apply K; try (apply (spark_no_dyad m q Hm)).
    + intros i j Hi Hj. rewrite E by assumption. apply (spark_kernel m q Hm i j Hi Hj).
    + intros i j Hi Hj. rewrite E by assumption. apply (spark_kernel m q Hm i j Hi Hj).
  - unfold graph_weight. apply prodn_ext; intros i Hi. apply prodn_ext; intros j Hj.
    rewrite row_of_mem, spark_pr by assumption. reflexivity.
Qed.

Lemma s_likelihood_eq : forall G sl m', library_model m' q -> m_N m' = N ->
  s_likelihood m B G sl = m_likelihood m' G sl.
Proof.
  intros G sl m' L EN. pose proof (s_likelihood_spec G sl) as H1. pose proof (lib_likelihood m' q L sl G) as H2.
  rewrite EN in H2. destruct H1 as [[P1 ->]|[P1 ->]], H2 as [[P2 ->]|[P2 ->]]; try reflexivity; lra.
Qed.

(** [H] and [G] contain the same admissible pairs. *)
Definition same_links (n : nat) (sl : bool) (H G : list (nat * nat)) : bool :=
  forallb (fun e => Bool.eqb (mem e H) (mem e G)) (pairs n sl).

Lemma mem_perm : forall e H G, Permutation H G -> mem e H = mem e G.
Proof.
  intros e H G P. apply Bool.eq_iff_eq_true. rewrite !mem_spec.
  split; apply Permutation_in; [exact P | apply Permutation_sym; exact P].
Qed.

Lemma same_links_perm : forall n sl H H' G, Permutation H H' -> same_links n sl H G = same_links n sl H' G.
Proof.
  intros n sl H H' G P. unfold same_links. induction (pairs n sl) as [|e l IH]; [reflexivity|].
  cbn. rewrite IH, (mem_perm e H H' P). reflexivity.
Qed.

Lemma b2r_forallb : forall A (b : A -> bool) l, b2r (forallb b l) = prodl (fun x => b2r (b x)) l.
Proof.
  intros A b l. induction l as [|x l IH]; cbn; [reflexivity|]. rewrite <- IH.
  destruct (b x), (forallb b l); cbn; ring.
Qed.

Lemma s_sample_prob : forall sl G, prob (s_sample m B sl) (fun H => same_links N sl H G) = graph_weight N sl q G.
Proof.
  intros sl G. unfold prob, s_sample. fold N.
  rewrite (spark_sample_expect _ _ _ _ (m_p_ij m) (m_param m) (m_out m) (m_in m) (m_dyad m) N B sl HB
    (proj1 (spark_no_dyad m q Hm))).
  2:{ intros a b P. rewrite (same_links_perm N sl a b G P). reflexivity. }
  rewrite binary_sample_bern, bern_sublists by apply NoDup_pairs.
  set (p := fun e : nat * nat => m_p_ij m (m_param m) (m_out m (fst e)) (m_in m (snd e)) (m_dyad m (fst e) (snd e))).
  transitivity (suml (fun H => lweight p (pairs N sl) H
      * prodl (fun e => b2r (Bool.eqb (mem e H) (mem e G))) (pairs N sl)) (sublists (pairs N sl))).
  - apply suml_ext. intros H _. rewrite map_id. cbn [app]. unfold same_links. rewrite b2r_forallb. reflexivity.
  - rewrite (bern_product p (pairs N sl) (fun e b => b2r (Bool.eqb b (mem e G)))) by apply NoDup_pairs.
    rewrite graph_weight_list. apply prodl_ext. intros [i j] He.
    apply filter_In in He. destruct He as [He _]. apply in_prod_iff in He. destruct He as [Hi Hj].
    apply in_seq in Hi. apply in_seq in Hj. unfold p. cbn [fst snd].
    rewrite <- spark_pr by lia. fold (pr i j). destruct (mem (i, j) G); cbn; ring.
Qed.

Lemma s_sample_support : forall sl us G rest, (forall u, In u us -> 0 <= u < 1) ->
  run_draws (s_sample m B sl) us = Some (G, rest) ->
  NoDup G /\
  (forall i j, In (i, j) G -> (i < N)%nat /\ (j < N)%nat /\ (sl = false -> i <> j) /\ 0 < q i j) /\
  (forall i j, (i < N)%nat -> (j < N)%nat -> (sl = true \/ i <> j) -> q i j = 1 -> In (i, j) G).
Proof.
  intros sl us G rest Hu Hr. pose proof (run_outcome _ _ _ _ _ Hu Hr) as O.
  unfold s_sample in O. fold N in O.
  rewrite (spark_sample_bern _ _ _ _ (m_p_ij m) (m_param m) (m_out m) (m_in m) (m_dyad m) N B sl
    (proj1 (spark_no_dyad m q Hm))) in O.
  pose proof (spark_pairs_perm N B sl HB) as PP.
  apply outcome_bern in O. destruct O as (H & HH & -> & HP & HF).
  rewrite map_id. cbn [app].
  assert (Hin : forall e, In e H -> In e (pairs N sl)).
  { intros e He. apply (Permutation_in _ PP). refine (sublists_incl _ _ _ _ HH _); exact He. }
  assert (Hb : forall i j, In (i, j) (pairs N sl) -> (i < N)%nat /\ (j < N)%nat /\ (sl = false -> i <> j)).
  { intros i j He. apply filter_In in He. destruct He as [He Ha]. apply in_prod_iff in He. destruct He as [Hi Hj].
    apply in_seq in Hi. apply in_seq in Hj. split; [lia|]. split; [lia|]. intros -> ->.
    unfold allowed in Ha. cbn in Ha. rewrite Nat.eqb_refl in Ha. discriminate. }
  split.
  { assert (ND : NoDup (spark_pairs N B sl)) by (apply (Permutation_NoDup (Permutation_sym PP)), NoDup_pairs).
    clear - HH ND. revert H HH. induction (spark_pairs N B sl) as [|e l IH]; intros H HH; cbn in HH.
    - destruct HH as [<-|[]]. constructor.
    - inversion ND; subst. apply in_app_or in HH. destruct HH as [HH|HH]; [|apply IH; assumption].
      apply in_map_iff in HH. destruct HH as (H' & <- & HH). constructor; [|apply IH; assumption].
      intros K. apply H2. refine (sublists_incl _ _ _ _ HH _); exact K. }
  split.
  - intros i j He. destruct (Hb i j (Hin _ He)) as (Hi & Hj & Ha). repeat split; try assumption.
    specialize (HP (i, j) He). cbn [fst snd] in HP. fold (pr i j) in HP. rewrite spark_pr in HP by assumption. exact HP.
  - intros i j Hi Hj Ha Hq. destruct (HF (i, j)) as [K|K].
    + apply (Permutation_in _ (Permutation_sym PP)). apply filter_In. split.
      * apply in_prod_iff. split; apply in_seq; lia.
      * unfold allowed. cbn. destruct Ha as [->|Ha]; [apply orb_true_r|]. apply Nat.eqb_neq in Ha. rewrite Ha. reflexivity.
    + exact K.
    + cbn [fst snd] in K. fold (pr i j) in K. rewrite spark_pr in K by assumption. lra.
Qed.

Lemma w_pair_perm : forall i j a b, Permutation a b -> w_pair i j a = w_pair i j b.
Proof. intros i j a b P. unfold w_pair. apply suml_perm. exact P. Qed.

Lemma s_cremb_strengths : forall s_out s_in, sumn N s_in = sumn N s_out -> sumn N s_out <> 0 ->
  (forall i j, (i < N)%nat -> (j < N)%nat -> s_out i * s_in j <> 0 -> q i j <> 0) ->
  exists p, s_cremb m B s_out s_in true = Ok p /\
  (forall i j, (i < N)%nat -> (j < N)%nat -> expect p (w_pair i j) = s_out i * s_in j / sumn N s_out) /\
  (forall i, (i < N)%nat -> expect p (fun G => sumn N (fun j => w_pair i j G)) = s_out i) /\
  (forall j, (j < N)%nat -> expect p (fun G => sumn N (fun i => w_pair i j G)) = s_in j).
Proof.
  intros s_out s_in He Hn Hp.
  destruct (spark_twin m q Hm) as (m' & L & EN & _ & _ & _ & Ec).
  pose proof (lib_cremb m' q L s_out s_in) as K. rewrite EN in K. fold N in K.
  destruct (K He Hn Hp) as (p' & E' & K1 & K2 & K3). rewrite Ec in E'.
  pose proof (spark_cremb_expect _ _ _ _ (m_p_ij m) (m_param m) (m_out m) (m_in m) (m_dyad m) N B true HB
    (proj1 (spark_no_dyad m q Hm)) s_out s_in) as F.
  unfold m_cremb in E'. fold N in E'. rewrite E' in F. unfold s_cremb. fold N.
  destruct (spark_cremb _ _ _ _ _ _ _ _ _ _) as [p|e].
  2:{ destruct (F (fun _ => 0) ltac:(reflexivity)). }
  exists p. split; [reflexivity|]. split; [|split].
  - intros i j Hi Hj. rewrite F; [apply K1; assumption | apply w_pair_perm].
  - intros i Hi. rewrite F; [apply K2; assumption|]. intros a b P. apply sumn_ext. intros j _. apply w_pair_perm, P.
  - intros j Hj. rewrite F; [apply K3; assumption|]. intros a b P. apply sumn_ext. intros i _. apply w_pair_perm, P.
Qed.
End Lib.
