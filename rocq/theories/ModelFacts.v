(** Ensemble measures of the library's models. *)
From Verif Require Import Base Num Spec Kernels KernelFacts MultiKernels MultiFacts Prob Ensemble EnsembleFacts
  EnsembleProps EnsembleState Models.
From Coq Require Import FunctionalExtensionality.

Lemma pair_sum_ext : forall N sl p q, (forall i j, (i < N)%nat -> (j < N)%nat -> p i j = q i j) ->
  pair_sum N sl p = pair_sum N sl q.
Proof.
  intros N sl p q H. unfold pair_sum. apply sumn_ext; intros i Hi. apply sumn_ext; intros j Hj.
  rewrite H by assumption; reflexivity.
Qed.

Lemma graph_weight_ext : forall N sl p q G, (forall i j, (i < N)%nat -> (j < N)%nat -> p i j = q i j) ->
  graph_weight N sl p G = graph_weight N sl q G.
Proof.
  intros N sl p q G H. unfold graph_weight. apply prodn_ext; intros i Hi. apply prodn_ext; intros j Hj.
  rewrite H by assumption; reflexivity.
Qed.

Lemma ensemble_mean_ext : forall N sl w w' f, (forall G, w G = w' G) ->
  ensemble_mean N sl w f = ensemble_mean N sl w' f.
Proof. intros N sl w w' f H. replace w' with w; [reflexivity | extensionality G; apply H]. Qed.

Section Lib.
Variables (m : model) (q : nat -> nat -> R).
Hypothesis Hm : library_model m q.
Let N := m_N m.
Let pr (i j : nat) : R := m_p_ij m (m_param m) (m_out m i) (m_in m j) (m_dyad m i j).

Lemma pr_q : forall i j, (i < N)%nat -> (j < N)%nat -> pr i j = q i j.
Proof. intros i j Hi Hj. apply (library_kernel m q Hm i j Hi Hj). Qed.

Lemma lib_logs : forall i j, (i < N)%nat -> (j < N)%nat ->
  log_of (pr i j) (m_logp m (m_param m) (m_out m i) (m_in m j) (m_dyad m i j)) /\
  log_of (1 - pr i j) (m_log1mp m (m_param m) (m_out m i) (m_in m j) (m_dyad m i j)).
Proof.
  intros i j Hi Hj. rewrite pr_q by assumption. apply (library_kernel m q Hm i j Hi Hj).
Qed.

Lemma log_of_nonneg : forall p a, log_of p a -> 0 <= p.
Proof. intros p a [[H _]|[H _]]; lra. Qed.

Lemma lib_prob : forall i j, (i < N)%nat -> (j < N)%nat -> 0 <= q i j <= 1.
Proof.
  intros i j Hi Hj. destruct (library_kernel m q Hm i j Hi Hj) as (_ & H1 & H2).
  apply log_of_nonneg in H1, H2. lra.
Qed.

(** C36 *)
Lemma lib_edges_degrees : forall sl,
  let '(d, d_out, d_in) := m_degrees m sl in
  m_edges m sl = pair_sum N sl q /\
  sumn N d_out = pair_sum N sl q /\ sumn N d_in = pair_sum N sl q /\
  (forall v, (v < N)%nat -> d_out v = sumn N (fun j => if allowed sl v j then q v j else 0)) /\
  (forall v, (v < N)%nat -> d_in v = sumn N (fun i => if allowed sl i v then q i v else 0)).
Proof.
  intros sl. pose proof (edges_degrees _ _ _ (m_p_ij m) (m_param m) (m_out m) (m_in m) (m_dyad m) N sl) as H.
  unfold m_degrees, m_edges. fold N. destruct (exp_degrees _ _ _ _ _ _ _) as [[d d_out] d_in].
  cbv zeta in H. destruct H as (A & B & C & D & E).
  assert (Q : pair_sum N sl pr = pair_sum N sl q) by (apply pair_sum_ext; exact pr_q).
  change (pair_sum N sl pr) with (pair_sum N sl (fun i j => m_p_ij m (m_param m) (m_out m i) (m_in m j) (m_dyad m i j))) in Q.
  rewrite Q in A, B, C. repeat split; try assumption.
  - intros v Hv. rewrite D by assumption. apply sumn_ext; intros j Hj. rewrite <- pr_q by assumption. reflexivity.
  - intros v Hv. rewrite E by assumption. apply sumn_ext; intros j Hj. rewrite <- pr_q by assumption. reflexivity.
Qed.

(** The undirected degree. *)
Lemma lib_degree : forall sl v, (v < N)%nat ->
  fst (fst (m_degrees m sl)) v
  = sumn N (fun j => if Nat.eqb v j then (if sl then q v v else 0) else q v j + q j v - q v j * q j v).
Proof.
  intros sl v Hv.
  pose proof (exp_deg_spec _ _ _ (m_p_ij m) (m_param m) (m_out m) (m_in m) (m_dyad m) N sl v Hv) as H.
  unfold m_degrees. fold N. unfold dview in H. destruct (exp_degrees _ _ _ _ _ _ _) as [[d d_out] d_in].
  cbn [fst]. rewrite H. apply sumn_ext; intros j Hj. unfold union_prob.
  rewrite <- !(pr_q v j), <- !(pr_q j v), <- (pr_q v v) by assumption. reflexivity.
Qed.

(** C39, C37: the likelihood is the log of the graph's probability. *)
Lemma lib_weight : forall sl G, graph_weight N sl pr G = graph_weight N sl q G.
Proof. intros. apply graph_weight_ext. exact pr_q. Qed.

Lemma lib_likelihood : forall sl G, log_of (graph_weight N sl q G) (m_likelihood m G sl).
Proof.
  intros sl G. rewrite <- lib_weight.
  exact (lik_log _ _ _ _ (m_p_ij m) (m_logp m) (m_log1mp m) (m_param m) (m_out m) (m_in m) (m_dyad m) N lib_logs sl G).
Qed.

Lemma lib_likelihood_exp : forall sl G, nexp (m_likelihood m G sl) = Fin (graph_weight N sl q G).
Proof. intros. apply log_of_exp, lib_likelihood. Qed.

Lemma lib_dense : forall sl G, m_likelihood m G sl = m_likelihood_dense m (fun i j => mem (i, j) G) sl.
Proof.
  intros sl G. unfold m_likelihood, m_likelihood_dense. rewrite likelihood_sparse_dense.
  f_equal. extensionality i; extensionality j. apply row_of_mem.
Qed.

Lemma lib_mean : forall sl f,
  ensemble_mean N sl (fun G => toR (nexp (m_likelihood m G sl))) f = ensemble_mean N sl (graph_weight N sl q) f.
Proof. intros. apply ensemble_mean_ext. intros G. rewrite lib_likelihood_exp. reflexivity. Qed.

Lemma lib_means : forall sl,
  let mean := ensemble_mean N sl (fun G => toR (nexp (m_likelihood m G sl))) in
  let '(d, d_out, d_in) := m_degrees m sl in
  m_edges m sl = mean (g_edges N) /\
  forall v, (v < N)%nat ->
    d v = mean (fun G => g_deg N G v) /\ d_out v = mean (fun G => g_out N G v) /\
    d_in v = mean (fun G => g_in N G v).
Proof.
  intros sl mean. pose proof (lib_edges_degrees sl) as H. pose proof (lib_degree sl) as D.
  destruct (m_degrees m sl) as [[d d_out] d_in]. cbn [fst] in D.
  destruct H as (A & _ & _ & B & C). unfold mean. split.
  - rewrite lib_mean, mean_edges. exact A.
  - intros v Hv. rewrite !lib_mean, mean_deg, mean_out, mean_in by assumption. auto.
Qed.

Lemma lib_total : forall sl, suml (fun G => toR (nexp (m_likelihood m G sl))) (all_graphs N sl) = 1.
Proof.
  intros sl.
  exact (lik_total _ _ _ _ (m_p_ij m) (m_logp m) (m_log1mp m) (m_param m) (m_out m) (m_in m) (m_dyad m) N lib_logs sl).
Qed.

Lemma lib_impossible : forall sl G, m_likelihood m G sl = NInf <->
  exists i j, (i < N)%nat /\ (j < N)%nat /\ allowed sl i j = true /\
    ((In (i, j) G /\ q i j = 0) \/ (~ In (i, j) G /\ q i j = 1)).
Proof.
  intros sl G.
  etransitivity; [exact (lik_impossible _ _ _ _ (m_p_ij m) (m_logp m) (m_log1mp m) (m_param m) (m_out m) (m_in m) (m_dyad m) N lib_logs sl G)|].
  split; intros (i & j & Hi & Hj & Ha & H); exists i, j; repeat split; try assumption;
    pose proof (pr_q i j Hi Hj) as E; unfold pr in E; rewrite E in *; exact H.
Qed.

(** C41 *)
Lemma lib_sample : forall sl G, In G (all_graphs N sl) ->
  Fin (prob (m_sample m sl) (fun H => list_eqb H G)) = nexp (m_likelihood m G sl).
Proof.
  intros sl G HG.
  exact (sample_prob _ _ _ _ (m_p_ij m) (m_logp m) (m_log1mp m) (m_param m) (m_out m) (m_in m) (m_dyad m) N lib_logs sl G HG).
Qed.

(** C42 *)
Lemma lib_sample_admissible : forall sl us G rest, (forall u, In u us -> 0 <= u < 1) ->
  run_draws (m_sample m sl) us = Some (G, rest) ->
  NoDup G /\
  (forall i j, In (i, j) G -> (i < N)%nat /\ (j < N)%nat /\ (sl = false -> i <> j) /\ 0 < q i j) /\
  (forall i j, (i < N)%nat -> (j < N)%nat -> (sl = true \/ i <> j) -> q i j = 1 -> In (i, j) G).
Proof.
  intros sl us G rest Hu H.
  destruct (sample_admissible _ _ _ _ (m_p_ij m) (m_param m) (m_out m) (m_in m) (m_dyad m) N sl us G rest Hu H)
    as (A & B & C). repeat split; try assumption.
  1-4: intros; destruct (B i j H0) as (Hi & Hj & Hd & Hp); try assumption.
  - apply Hd; assumption.
  - rewrite <- pr_q by assumption. exact Hp.
  - intros i j Hi Hj Hs E. apply C; try assumption. pose proof (pr_q i j Hi Hj) as Q. unfold pr in Q. lra.
Qed.

Lemma lib_cremb_admissible : forall s_out s_in sl p us G rest,
  m_cremb m s_out s_in sl = Ok p -> (forall u, In u us -> 0 <= u < 1) ->
  run_draws p us = Some (G, rest) ->
  NoDup (map fst G) /\
  (forall i j w, In (i, j, w) G -> (i < N)%nat /\ (j < N)%nat /\ (sl = false -> i <> j) /\ 0 < q i j /\
     w = s_out i * s_in j / (sumn N s_out * q i j)) /\
  (forall i j, (i < N)%nat -> (j < N)%nat -> (sl = true \/ i <> j) -> q i j = 1 -> exists w, In (i, j, w) G).
Proof.
  intros s_out s_in sl p us G rest Hp Hu H.
  destruct (cremb_admissible _ _ _ _ (m_p_ij m) (m_param m) (m_out m) (m_in m) (m_dyad m) s_out s_in N sl p us G rest Hp Hu H)
    as (A & B & C). split; [exact A|]. split.
  - intros i j w Hw. destruct (B i j w Hw) as (Hi & Hj & Hd & Hq & E).
    pose proof (pr_q i j Hi Hj) as Q. unfold pr in Q. rewrite Q in *. auto.
  - intros i j Hi Hj Hs E. apply C; try assumption. pose proof (pr_q i j Hi Hj) as Q. unfold pr in Q. lra.
Qed.

(** C43 *)
Lemma lib_cremb : forall s_out s_in, sumn N s_in = sumn N s_out -> sumn N s_out <> 0 ->
  (forall i j, (i < N)%nat -> (j < N)%nat -> s_out i * s_in j <> 0 -> q i j <> 0) ->
  exists p, m_cremb m s_out s_in true = Ok p /\
  (forall i j, (i < N)%nat -> (j < N)%nat -> expect p (w_pair i j) = s_out i * s_in j / sumn N s_out) /\
  (forall i, (i < N)%nat -> expect p (fun G => sumn N (fun j => w_pair i j G)) = s_out i) /\
  (forall j, (j < N)%nat -> expect p (fun G => sumn N (fun i => w_pair i j G)) = s_in j).
Proof.
  intros s_out s_in He Hn Hp.
  assert (Hp' : forall i j, (i < N)%nat -> (j < N)%nat -> s_out i * s_in j <> 0 ->
            m_p_ij m (m_param m) (m_out m i) (m_in m j) (m_dyad m i j) <> 0).
  { intros i j Hi Hj Hs. pose proof (pr_q i j Hi Hj) as Q. unfold pr in Q. rewrite Q. auto. }
  destruct (cremb_pair _ _ _ _ (m_p_ij m) (m_param m) (m_out m) (m_in m) (m_dyad m) s_out s_in N He Hn Hp') as (p & E & A).
  destruct (cremb_strengths _ _ _ _ (m_p_ij m) (m_param m) (m_out m) (m_in m) (m_dyad m) s_out s_in N He Hn Hp') as (p' & E' & B & C).
  exists p. rewrite E in E'. inversion E'; subst p'. auto.
Qed.

Lemma lib_cremb_reject : forall s_out s_in sl, sumn N s_out <> 0 ->
  1 / 1000000 <= Rabs (1 - sumn N s_in / sumn N s_out) ->
  m_cremb m s_out s_in sl = Raise AssertionError.
Proof. intros. apply cremb_reject; assumption. Qed.
End Lib.
