(** Property C89: fitting the number of links and maximising the likelihood. *)
From Coq Require Import ZArith String Classical_Prop.
From Verif Require Import Base Num Spec Kernels KernelFacts Prob Ensemble EnsembleFacts EnsembleState
  Models ModelFacts Solver SolverFacts SolverConcave Fit FitFacts FitModels FitLib FitStart Ids IdFacts Graphs GraphFacts
  PropTables PropGraph PropEnsemble Random RandomFacts PropRandom Construct ConstructFacts PropConstruct Pipeline PropPipeline.

Open Scope R_scope.
Open Scope list_scope.

(** * A bound on the logarithm *)

Lemma ln_below : forall v, 0 < v -> ln v <= v - 1 /\ (v <> 1 -> ln v < v - 1).
Proof.
  intros v Hv. assert (S : v <> 1 -> ln v < v - 1).
  { intros Hn. pose proof (exp_ineq1 (ln v)) as E. rewrite exp_ln in E by exact Hv. assert (ln v <> 0) as Hz.
    { intros E0. apply Hn. rewrite <- (exp_ln v Hv), E0. apply exp_0. }
    specialize (E Hz). lra. }
  split; [|exact S]. destruct (Req_dec v 1) as [-> | Hn]; [rewrite ln_1; lra | specialize (S Hn); lra].
Qed.

(** The logarithm is concave. *)
Lemma ln_mix : forall q t, 0 <= q <= 1 -> 0 < t -> 0 < 1 - q + t * q /\ q * ln t <= ln (1 - q + t * q) /\
  (t <> 1 -> 0 < q < 1 -> q * ln t < ln (1 - q + t * q)).
Proof.
  intros q t Hq Ht. set (m := 1 - q + t * q).
  assert (Hm : 0 < m).
  { unfold m. destruct (Req_dec q 0) as [-> | Hn]; [lra|]. assert (0 < t * q) by (apply Rmult_lt_0_compat; lra). lra. }
  assert (P1 : 0 < / m) by (apply Rinv_0_lt_compat; exact Hm). assert (P2 : 0 < t * / m) by (apply Rmult_lt_0_compat; assumption).
  destruct (ln_below (/ m) P1) as [A1 B1]. destruct (ln_below (t * / m) P2) as [A2 B2].
  assert (E1 : ln (/ m) = - ln m) by (apply ln_Rinv; exact Hm).
  assert (E2 : ln (t * / m) = ln t - ln m) by (rewrite ln_mult by assumption; rewrite E1; ring).
  assert (Z : (1 - q) * (/ m - 1) + q * (t * / m - 1) = 0) by (transitivity (m * / m - 1); [unfold m at 3; ring | rewrite Rinv_r by lra; ring]).
  rewrite E1 in *. rewrite E2 in *.
  assert (C1 : (1 - q) * - ln m <= (1 - q) * (/ m - 1)) by (apply Rmult_le_compat_l; lra).
  assert (C2 : q * (ln t - ln m) <= q * (t * / m - 1)) by (apply Rmult_le_compat_l; lra).
  split; [exact Hm|]. split; [lra|]. intros Hn Hq'.
  assert (Hm1 : / m <> 1).
  { intros E. assert (m = 1) by (rewrite <- (Rinv_inv m), E; lra). unfold m in H. assert ((t - 1) * q = 0) as Z0 by lra.
    apply Rmult_integral in Z0. lra. }
  specialize (B1 Hm1). assert (C3 : (1 - q) * - ln m < (1 - q) * (/ m - 1)) by (apply Rmult_lt_compat_l; lra). lra.
Qed.

(** One pair: the log-probability of its state when the parameter is multiplied by [t]. *)
Lemma pair_bound : forall (a : bool) u t, 0 <= u -> 0 < t -> (a = true -> 0 < u) ->
  let state v := if a then logistic v else 1 - logistic v in
  0 < state u /\ 0 < state (t * u) /\ ln (state (t * u)) - ln (state u) <= (b2r a - logistic u) * ln t /\
  (t <> 1 -> 0 < u -> ln (state (t * u)) - ln (state u) < (b2r a - logistic u) * ln t).
Proof.
  intros a u t Hu Ht Ha state. assert (Htu : 0 <= t * u) by (apply Rmult_le_pos; lra).
  assert (Hp : 0 <= logistic u < 1).
  { unfold logistic. split; [apply Rmult_le_pos; [exact Hu | left; apply Rinv_0_lt_compat; lra]|]. apply (Rmult_lt_reg_r (1 + u)); [lra|]. unfold Rdiv. rewrite Rmult_assoc, Rinv_l by lra. lra. }
  destruct (ln_mix (logistic u) t ltac:(lra) Ht) as (Hm & Hl & Hs). set (m := 1 - logistic u + t * logistic u) in *.
  assert (Em : m = (1 + t * u) / (1 + u)) by (unfold m, logistic; field; lra).
  assert (E0 : 1 - logistic (t * u) = (1 - logistic u) * / m) by (rewrite Em; unfold logistic; field; split; lra).
  assert (E1 : logistic (t * u) = t * logistic u * / m) by (rewrite Em; unfold logistic; field; split; lra).
  assert (Pm : 0 < / m) by (apply Rinv_0_lt_compat; exact Hm).
  unfold state. destruct a; cbn [b2r].
  - specialize (Ha eq_refl). assert (P : 0 < logistic u) by (unfold logistic; apply Rdiv_lt_0_compat; lra).
    assert (Ptu : 0 < t * logistic u) by (apply Rmult_lt_0_compat; assumption). rewrite E1.
    assert (El : ln (t * logistic u * / m) - ln (logistic u) = ln t - ln m) by (rewrite !ln_mult, ln_Rinv by assumption; ring).
    split; [exact P|]. split; [apply Rmult_lt_0_compat; assumption|]. rewrite El. split; [lra|]. intros Hn _. specialize (Hs Hn ltac:(lra)). lra.
  - rewrite E0. assert (P : 0 < 1 - logistic u) by lra.
    assert (El : ln ((1 - logistic u) * / m) - ln (1 - logistic u) = - ln m) by (rewrite ln_mult, ln_Rinv by assumption; ring).
    split; [exact P|]. split; [apply Rmult_lt_0_compat; assumption|]. rewrite El. split; [lra|]. intros Hn Hu'.
    assert (P' : 0 < logistic u) by (unfold logistic; apply Rdiv_lt_0_compat; lra). specialize (Hs Hn ltac:(lra)). lra.
Qed.

(** * The likelihood of FitnessModel as a function of the parameter *)

Section Fitness.
Variables (N : nat) (sl : bool) (x y : nat -> R) (z : nat -> nat -> R).
Hypothesis Hxy : forall i, (i < N)%nat -> 0 <= x i /\ 0 <= y i.
Hypothesis Hz : forall i j, (i < N)%nat -> (j < N)%nat -> 0 <= z i j.

Definition fitness_at (d : R) : model := FitnessModel N (Fin d) (fun i => Fin (x i)) (fun j => Fin (y j)) (fun i j => Fin (z i j)).

Lemma at_library : forall d, 0 <= d -> library_model (fitness_at d) (fun i j => link_prob logistic [Fin d; Fin (x i); Fin (y j); Fin (z i j)]).
Proof.
  intros d Hd. apply lib_fitness; [exact Hd | |]; cbn [nonneg]; auto.
Qed.

Lemma at_prob : forall d i j, link_prob logistic [Fin d; Fin (x i); Fin (y j); Fin (z i j)] = logistic (d * (x i * y j * z i j)).
Proof.
  intros d i j. unfold link_prob. cbn [existsb is_zero is_infinite prodl toR orb].
  destruct (Reqb_spec d 0) as [-> | _]; [rewrite Rmult_0_l; unfold logistic; cbn; lra|].
  destruct (Reqb_spec (x i) 0) as [E | _]; [rewrite E, !Rmult_0_l, Rmult_0_r; unfold logistic; cbn; lra|].
  destruct (Reqb_spec (y j) 0) as [E | _]; [rewrite E, Rmult_0_r, Rmult_0_l, Rmult_0_r; unfold logistic; cbn; lra|].
  destruct (Reqb_spec (z i j) 0) as [E | _]; [rewrite E, !Rmult_0_r; unfold logistic; cbn; lra|].
  cbn [orb]. f_equal. ring.
Qed.

Lemma at_weight : forall i j, (i < N)%nat -> (j < N)%nat -> 0 <= x i * y j * z i j.
Proof. intros i j Hi Hj. apply Rmult_le_pos; [apply Rmult_le_pos; apply Hxy; assumption | apply Hz; assumption]. Qed.

(** A graph the model can produce: its links are admissible and between vertices of positive fitness. *)
Definition possible (G : list (nat * nat)) : Prop :=
  In G (all_graphs N sl) /\ forall i j, In (i, j) G -> 0 < x i * y j * z i j.

Definition state_at (G : list (nat * nat)) (d : R) (i j : nat) : R :=
  if mem (i, j) G then logistic (d * (x i * y j * z i j)) else 1 - logistic (d * (x i * y j * z i j)).

Lemma lik_sum : forall G d, possible G -> 0 < d ->
  m_likelihood (fitness_at d) G sl = Fin (pair_sum N sl (fun i j => ln (state_at G d i j))).
Proof.
  intros G d [HG Hp] Hd. pose proof (lib_likelihood _ _ (at_library d ltac:(lra)) sl G) as L. cbn [m_N fitness_at FitnessModel] in L.
  rewrite (graph_weight_ext N sl _ (fun i j => logistic (d * (x i * y j * z i j)))) in L by (intros; apply at_prob).
  unfold graph_weight in L.
  assert (P : forall i j, (i < N)%nat -> (j < N)%nat -> 0 < state_at G d i j).
  { intros i j Hi Hj. unfold state_at. destruct (pair_bound (mem (i, j) G) (d * (x i * y j * z i j)) 1) as [P _].
    - apply Rmult_le_pos; [lra | apply at_weight; assumption].
    - lra.
    - intros E. apply mem_spec in E. apply Rmult_lt_0_compat; [exact Hd | apply Hp; exact E].
    - exact P. }
  set (f := fun i j => if allowed sl i j then if mem (i, j) G then logistic (d * (x i * y j * z i j)) else 1 - logistic (d * (x i * y j * z i j)) else 1) in L.
  assert (Pf : forall i j, (i < N)%nat -> (j < N)%nat -> 0 < f i j /\ ln (f i j) = if allowed sl i j then ln (state_at G d i j) else 0).
  { intros i j Hi Hj. unfold f. destruct (allowed sl i j); [split; [apply P; assumption | reflexivity] | split; [lra | apply ln_1]]. }
  assert (R1 : forall i, (i < N)%nat -> 0 < prodn N (f i) /\ ln (prodn N (f i)) = sumn N (fun j => if allowed sl i j then ln (state_at G d i j) else 0)).
  { intros i Hi. destruct (ln_prodn N (f i)) as [A B]; [intros j Hj; apply Pf; assumption|]. split; [exact A|]. rewrite B. apply sumn_ext. intros j Hj. apply Pf; assumption. }
  destruct (ln_prodn N (fun i => prodn N (f i))) as [A B]; [intros i Hi; apply R1; exact Hi|].
  destruct L as [[_ ->] | [L _]].
  - f_equal. change (ln (prodn N (fun i => prodn N (f i))) = pair_sum N sl (fun i j => ln (state_at G d i j))). rewrite B. unfold pair_sum. apply sumn_ext. intros i Hi. apply R1. exact Hi.
  - exfalso. change (prodn N (fun i => prodn N (f i)) = 0) in L. lra.
Qed.

Lemma at_edges : forall d, 0 <= d -> m_edges (fitness_at d) sl = pair_sum N sl (fun i j => logistic (d * (x i * y j * z i j))).
Proof.
  intros d Hd. pose proof (C36_edges_degrees _ _ sl (at_library d Hd)) as M. cbv zeta in M.
  destruct (m_degrees _ sl) as [[a b] c]. destruct M as [M _]. rewrite M. cbn [m_N fitness_at FitnessModel]. apply pair_sum_ext. intros. apply at_prob.
Qed.

Lemma graph_edges : forall G, In G (all_graphs N sl) -> g_edges N G = pair_sum N sl (fun i j => b2r (mem (i, j) G)).
Proof.
  intros G HG. unfold g_edges, pair_sum. apply sumn_ext. intros i Hi. apply sumn_ext. intros j Hj.
  destruct (allowed sl i j) eqn:E; [reflexivity|]. destruct (mem (i, j) G) eqn:M; [|reflexivity].
  apply mem_spec in M. apply (sublists_incl _ _ _ _ HG) in M. apply in_pairs in M. cbn [fst snd] in M. destruct M as (_ & _ & M). congruence.
Qed.

Lemma bound : forall G d d', possible G -> 0 < d -> 0 < d' ->
  exists l l', m_likelihood (fitness_at d) G sl = Fin l /\ m_likelihood (fitness_at d') G sl = Fin l' /\
    l' - l <= (g_edges N G - m_edges (fitness_at d) sl) * ln (d' / d) /\
    (d' <> d -> (exists i j, (i < N)%nat /\ (j < N)%nat /\ allowed sl i j = true /\ 0 < x i * y j * z i j) ->
     l' - l < (g_edges N G - m_edges (fitness_at d) sl) * ln (d' / d)).
Proof.
  intros G d d' HG Hd Hd'. do 2 eexists. split; [apply lik_sum; assumption|]. split; [apply lik_sum; assumption|].
  rewrite (graph_edges G (proj1 HG)), (at_edges d) by lra. set (t := d' / d).
  assert (Ht : 0 < t) by (apply Rdiv_lt_0_compat; assumption).
  assert (Et : forall i j, d' * (x i * y j * z i j) = t * (d * (x i * y j * z i j))) by (intros; unfold t; field; lra).
  assert (E1 : forall f g : nat -> nat -> R, pair_sum N sl f - pair_sum N sl g = sumn N (fun i => sumn N (fun j => if allowed sl i j then f i j - g i j else 0))).
  { intros f g. unfold pair_sum. rewrite <- sumn_minus. apply sumn_ext. intros i _. rewrite <- sumn_minus. apply sumn_ext. intros j _. destruct (allowed sl i j); ring. }
  assert (B : forall i j, (i < N)%nat -> (j < N)%nat ->
    ln (state_at G d' i j) - ln (state_at G d i j) <= (b2r (mem (i, j) G) - logistic (d * (x i * y j * z i j))) * ln t /\
    (t <> 1 -> 0 < x i * y j * z i j -> ln (state_at G d' i j) - ln (state_at G d i j) < (b2r (mem (i, j) G) - logistic (d * (x i * y j * z i j))) * ln t)).
  { intros i j Hi Hj. unfold state_at. rewrite Et. destruct (pair_bound (mem (i, j) G) (d * (x i * y j * z i j)) t) as (_ & _ & B & S).
    - apply Rmult_le_pos; [lra | apply at_weight; assumption].
    - exact Ht.
    - intros E. apply mem_spec in E. apply Rmult_lt_0_compat; [exact Hd | apply HG; exact E].
    - split; [exact B|]. intros Hn Hw. apply S; [exact Hn | apply Rmult_lt_0_compat; assumption]. }
  rewrite !E1.
  assert (E2 : forall f : nat -> nat -> R, sumn N (fun i => sumn N (fun j => if allowed sl i j then f i j else 0)) * ln t
    = sumn N (fun i => sumn N (fun j => if allowed sl i j then f i j * ln t else 0))).
  { intros f. rewrite <- sumn_scal_r. apply sumn_ext. intros i _. rewrite <- sumn_scal_r. apply sumn_ext. intros j _. destruct (allowed sl i j); ring. }
  rewrite E2.
  assert (LE : forall i j, (i < N)%nat -> (j < N)%nat -> (if allowed sl i j then ln (state_at G d' i j) - ln (state_at G d i j) else 0)
    <= (if allowed sl i j then (b2r (mem (i, j) G) - logistic (d * (x i * y j * z i j))) * ln t else 0)).
  { intros i j Hi Hj. destruct (allowed sl i j); [apply B; assumption | lra]. }
  split.
  - apply sumn_le. intros i Hi. apply sumn_le. intros j Hj. apply LE; assumption.
  - intros Hn (i & j & Hi & Hj & Ha & Hw). apply sumn_lt; [intros k Hk; apply sumn_le; intros j' Hj'; apply LE; assumption|].
    exists i. split; [exact Hi|]. apply sumn_lt; [intros j' Hj'; apply LE; assumption|]. exists j. split; [exact Hj|]. rewrite Ha.
    apply B; try assumption. unfold t. intros E. apply Hn. assert (d' = d' / d * d) as -> by (field; lra). rewrite E. ring.
Qed.

End Fitness.

Definition fitnesses (N : nat) (x y : nat -> R) (z : nat -> nat -> R) : Prop :=
  (forall i, (i < N)%nat -> 0 <= x i /\ 0 <= y i) /\ (forall i j, (i < N)%nat -> (j < N)%nat -> 0 <= z i j).

(** * C89 *)

(** Changing the parameter from [d] to [d'] changes the log-likelihood of a graph by at most the difference between its
    number of links and the expected number of links at [d], times the logarithm of the ratio. *)
Theorem C89_bound : forall N sl x y z G d d', fitnesses N x y z -> possible N sl x y z G -> 0 < d -> 0 < d' ->
  exists l l', m_likelihood (fitness_at N x y z d) G sl = Fin l /\ m_likelihood (fitness_at N x y z d') G sl = Fin l' /\
    l' - l <= (g_edges N G - m_edges (fitness_at N x y z d) sl) * ln (d' / d).
Proof.
  intros N sl x y z G d d' [Hxy Hz] HG Hd Hd'. destruct (bound N sl x y z Hxy Hz G d d' HG Hd Hd') as (l & l' & E & E' & B & _).
  exists l, l'. auto.
Qed.
Print Assumptions C89_bound.

Lemma possible_link : forall N sl x y z G, possible N sl x y z G -> G <> [] ->
  exists i j, (i < N)%nat /\ (j < N)%nat /\ allowed sl i j = true /\ 0 < x i * y j * z i j /\ In (i, j) G.
Proof.
  intros N sl x y z [|(i, j) G] [HG Hp] Hn; [contradiction|]. exists i, j.
  assert (I : In (i, j) ((i, j) :: G)) by (left; reflexivity). pose proof (sublists_incl _ _ _ _ HG I) as J. apply in_pairs in J.
  destruct J as (Hi & Hj & Ha). repeat (split; [assumption|]). split; [apply Hp; exact I | exact I].
Qed.

Lemma zero_impossible : forall N sl x y z G, fitnesses N x y z -> possible N sl x y z G -> G <> [] ->
  m_likelihood (fitness_at N x y z 0) G sl = NInf.
Proof.
  intros N sl x y z G [Hxy Hz] HG Hn. destruct (possible_link _ _ _ _ _ _ HG Hn) as (i & j & Hi & Hj & Ha & _ & I).
  apply (lib_impossible _ _ (at_library N x y z Hxy Hz 0 ltac:(lra)) sl G). exists i, j. repeat (split; [assumption|]). left. split; [exact I|].
  rewrite at_prob. unfold logistic. lra.
Qed.

(** The parameter whose expected number of links is that of the graph is the one and only of maximal likelihood. *)
Theorem C89_maximum : forall N sl x y z G d, fitnesses N x y z -> possible N sl x y z G -> G <> [] -> 0 < d ->
  m_edges (fitness_at N x y z d) sl = g_edges N G ->
  forall d', 0 <= d' -> d' <> d -> nltb (m_likelihood (fitness_at N x y z d') G sl) (m_likelihood (fitness_at N x y z d) G sl) = true.
Proof.
  intros N sl x y z G d F HG Hn Hd E d' Hd' Hne. destruct (Req_dec d' 0) as [-> | H0].
  - rewrite (zero_impossible _ _ _ _ _ _ F HG Hn). destruct F as [Hxy Hz]. rewrite (lik_sum N sl x y z Hxy Hz G d HG Hd). reflexivity.
  - destruct F as [Hxy Hz]. destruct (bound N sl x y z Hxy Hz G d d' HG Hd ltac:(lra)) as (l & l' & -> & -> & _ & B).
    destruct (possible_link _ _ _ _ _ _ HG Hn) as (i & j & Hi & Hj & Ha & Hw & _).
    assert (B' : l' - l < 0). { rewrite <- (Rmult_0_l (ln (d' / d))). rewrite <- (Rminus_diag_eq _ _ (eq_sym E)). apply B; [exact Hne|]. exists i, j. auto. }
    cbn [nltb]. apply Rltb_true. lra.
Qed.
Print Assumptions C89_maximum.

(** When the graph has every link the fitnesses allow, the likelihood grows with the parameter. *)
Theorem C89_saturated : forall N sl x y z G d d', fitnesses N x y z -> possible N sl x y z G -> G <> [] ->
  (forall i j, (i < N)%nat -> (j < N)%nat -> allowed sl i j = true -> 0 < x i * y j * z i j -> In (i, j) G) -> 0 <= d < d' ->
  nltb (m_likelihood (fitness_at N x y z d) G sl) (m_likelihood (fitness_at N x y z d') G sl) = true.
Proof.
  intros N sl x y z G d d' F HG Hn Hs Hd. destruct (Req_dec d 0) as [-> | H0].
  - rewrite (zero_impossible _ _ _ _ _ _ F HG Hn). destruct F as [Hxy Hz]. rewrite (lik_sum N sl x y z Hxy Hz G d' HG) by lra. reflexivity.
  - destruct F as [Hxy Hz]. destruct (bound N sl x y z Hxy Hz G d' d HG ltac:(lra) ltac:(lra)) as (l' & l & -> & -> & B & _).
    cbn [nltb]. apply Rltb_true.
    assert (Ln : ln (d / d') < 0).
    { rewrite <- ln_1. apply ln_increasing; [apply Rdiv_lt_0_compat; lra|]. apply (Rmult_lt_reg_r d'); [lra|]. unfold Rdiv. rewrite Rmult_assoc, Rinv_l by lra. lra. }
    assert (P : 0 < g_edges N G - m_edges (fitness_at N x y z d') sl).
    { rewrite (graph_edges N sl G (proj1 HG)), (at_edges N sl x y z Hxy Hz d') by lra.
      assert (Q : forall i j, (i < N)%nat -> (j < N)%nat -> allowed sl i j = true -> logistic (d' * (x i * y j * z i j)) <= b2r (mem (i, j) G) /\
        (In (i, j) G -> logistic (d' * (x i * y j * z i j)) < b2r (mem (i, j) G))).
      { intros i j Hi Hj Ha. pose proof (at_weight N x y z Hxy Hz i j Hi Hj) as Hw.
        assert (L1 : In (i, j) G -> logistic (d' * (x i * y j * z i j)) < b2r (mem (i, j) G)).
        { intros I. rewrite (proj2 (mem_spec (i, j) G) I). cbn [b2r]. assert (0 <= d' * (x i * y j * z i j)) by (apply Rmult_le_pos; lra).
          unfold logistic. apply (Rmult_lt_reg_r (1 + d' * (x i * y j * z i j))); [lra|]. unfold Rdiv. rewrite Rmult_assoc, Rinv_l by lra. lra. }
        split; [|exact L1]. destruct Hw as [Hw | Hw]; [left; apply L1; apply Hs; assumption|].
        rewrite <- Hw, Rmult_0_r. replace (logistic 0) with 0 by (unfold logistic; lra). destruct (mem (i, j) G); cbn; lra. }
      destruct (possible_link _ _ _ _ _ _ HG Hn) as (i & j & Hi & Hj & Ha & Hw & I).
      apply Rlt_Rminus. unfold pair_sum. apply sumn_lt; [|exists i; split; [exact Hi|]; apply sumn_lt; [|exists j; split; [exact Hj|]]].
      - intros a Ha'. apply sumn_le. intros b Hb. destruct (allowed sl a b) eqn:E; [apply Q; assumption | lra].
      - intros b Hb. destruct (allowed sl i b) eqn:E; [apply Q; assumption | lra].
      - rewrite Ha. apply Q; assumption. }
    assert ((g_edges N G - m_edges (fitness_at N x y z d') sl) * ln (d / d') < 0); [|lra].
    apply Ropp_lt_cancel. rewrite Ropp_0, Ropp_mult_distr_r. apply Rmult_lt_0_compat; lra.
Qed.
Print Assumptions C89_saturated.

(** A parameter of maximal likelihood reproduces the number of links. *)
Theorem C89_only : forall N sl x y z G d, fitnesses N x y z -> possible N sl x y z G -> G <> [] -> 0 < d ->
  (forall d', 0 <= d' -> nltb (m_likelihood (fitness_at N x y z d) G sl) (m_likelihood (fitness_at N x y z d') G sl) = false) ->
  m_edges (fitness_at N x y z d) sl = g_edges N G.
Proof.
  intros N sl x y z G d F HG Hn Hd Hmax. pose proof F as [Hxy Hz].
  destruct (possible_link _ _ _ _ _ _ HG Hn) as (i0 & j0 & Hi0 & Hj0 & Ha0 & Hw0 & I0).
  assert (Lp : 0 < g_edges N G).
  { rewrite <- (sumn_0 N). unfold g_edges. apply sumn_lt; [intros; apply sumn_nonneg; intros; apply b2r_range|].
    exists i0. split; [exact Hi0|]. rewrite <- (sumn_0 N). apply sumn_lt; [intros; apply b2r_range|]. exists j0. split; [exact Hj0|].
    rewrite (proj2 (mem_spec (i0, j0) G) I0). cbn. lra. }
  destruct (classic (exists d, 0 <= d /\ m_edges (fitness_at N x y z d) sl = g_edges N G)) as [(e & He & Ee) | No].
  - assert (e <> 0).
    { intros ->. rewrite (at_edges N sl x y z Hxy Hz 0) in Ee by lra.
      assert (pair_sum N sl (fun i j => logistic (0 * (x i * y j * z i j))) = 0); [|lra].
      unfold pair_sum. apply sumn_zero. intros i _. apply sumn_zero. intros j _. destruct (allowed sl i j); [|reflexivity]. rewrite Rmult_0_l. unfold logistic. lra. }
    destruct (Req_dec d e) as [-> | Hne]; [exact Ee|].
    pose proof (C89_maximum N sl x y z G e F HG Hn ltac:(lra) Ee d ltac:(lra) Hne) as M. rewrite (Hmax e He) in M. discriminate.
  - exfalso. pose proof (C87_attained _ _ _ _ (fit_fitness N sl x y z Hxy Hz) (g_edges N G)) as [_ A].
    assert (Lk : linkable N sl (fun i j => Rltb 0 (x i * y j * z i j)) <= g_edges N G).
    { apply Rnot_lt_le. intros Hlt. apply No. apply A. right. split; [lra | exact Hlt]. }
    rewrite (graph_edges N sl G (proj1 HG)) in Lk. unfold linkable in Lk.
    assert (S : forall i j, (i < N)%nat -> (j < N)%nat -> allowed sl i j = true -> 0 < x i * y j * z i j -> In (i, j) G).
    { intros i j Hi Hj Ha Hw. apply NNPP. intros NI. apply (Rle_not_lt _ _ Lk). unfold pair_sum.
        assert (LE : forall i j, (i < N)%nat -> (j < N)%nat -> (if allowed sl i j then b2r (mem (i, j) G) else 0) <= (if allowed sl i j then b2r (Rltb 0 (x i * y j * z i j)) else 0)).
        { intros a b Ha' Hb'. destruct (allowed sl a b); [|lra]. destruct (mem (a, b) G) eqn:E; [|apply b2r_range].
          apply mem_spec in E. rewrite Rltb_true by (apply HG; exact E). lra. }
        apply sumn_lt; [intros a Ha'; apply sumn_le; intros b Hb; apply LE; assumption|]. exists i. split; [exact Hi|].
        apply sumn_lt; [intros b Hb; apply LE; assumption|]. exists j. split; [exact Hj|]. rewrite Ha, (Rltb_true 0 _ Hw).
        rewrite (proj2 (mem_false (i, j) G) NI). cbn. lra. }
    pose proof (C89_saturated N sl x y z G d (d + 1) F HG Hn S ltac:(lra)) as M. rewrite (Hmax (d + 1) ltac:(lra)) in M. discriminate.
Qed.
Print Assumptions C89_only.

(** ** Models fitted to an observed graph *)

(** The admissible links of a graph. *)
Definition observed_links (N : nat) (s : shape) (sl : bool) : list (nat * nat) :=
  filter (fun e => negb (Reqb (link s (fst e) (snd e)) 0)) (pairs N sl).

Lemma filter_sublist : forall A (f : A -> bool) l, In (filter f l) (sublists l).
Proof.
  intros A f l. induction l as [|e l IH]; [left; reflexivity|]. cbn [filter sublists]. apply in_or_app.
  destruct (f e); [left; apply in_map; exact IH | right; exact IH].
Qed.

Lemma observed_mem : forall N s sl i j, In (i, j) (observed_links N s sl) <-> (i < N)%nat /\ (j < N)%nat /\ allowed sl i j = true /\ link s i j <> 0.
Proof.
  intros N s sl i j. unfold observed_links. rewrite filter_In, in_pairs. cbn [fst snd].
  destruct (Reqb_spec (link s i j) 0) as [E | E]; cbn [negb]; intuition congruence.
Qed.

Lemma observed_edges : forall N s sl, loops_counted N s sl -> g_edges N (observed_links N s sl) = links N s.
Proof.
  intros N s sl Lc. unfold g_edges, links. apply sumn_ext. intros i Hi. apply sumn_ext. intros j Hj.
  destruct (mem (i, j) (observed_links N s sl)) eqn:M.
  - apply mem_spec, observed_mem in M. destruct M as (_ & _ & _ & M). unfold present. destruct (Req_EM_T (link s i j) 0); [contradiction | reflexivity].
  - apply mem_false in M. rewrite observed_mem in M. unfold present. destruct (Req_EM_T (link s i j) 0) as [E | E]; [reflexivity|]. exfalso. apply M.
    split; [exact Hi|]. split; [exact Hj|]. split; [|exact E]. unfold allowed. destruct (Nat.eqb_spec i j) as [-> | Hne]; [|reflexivity].
    destruct Lc as [-> | Lc]; [reflexivity|]. exfalso. apply E. apply Lc. exact Hj.
Qed.

Lemma observed_possible : forall w N s sl, valid w N s ->
  fitnesses N (strength_out w N s) (strength_in w N s) (fun _ _ => 1) /\
  possible N sl (strength_out w N s) (strength_in w N s) (fun _ _ => 1) (observed_links N s sl).
Proof.
  intros w N s sl V. split; [split|split].
  - intros i Hi. apply strengths_nonneg; assumption.
  - intros. lra.
  - apply filter_sublist.
  - intros i j H. apply observed_mem in H. destruct H as (Hi & Hj & _ & H).
    assert (C : can_link w N s i j = true) by (apply can_link_spec; try assumption; split; [exists j | exists i]; auto).
    unfold can_link in C. destruct (Rltb_spec 0 (strength_out w N s i * strength_in w N s j * 1)) as [P | P]; [exact P | discriminate].
Qed.

(** After a converged fit to an observed graph no other parameter is more likely by more than the tolerance times the
    logarithm of the ratio of the parameters. *)
Theorem C89_fitted : forall w N s gr kw sl st x0 at_ rho mi, library_graph w N s gr -> is_directed s = true ->
  layers s <> [] -> (1 <= N)%nat -> options kw sl -> loops_counted N s sl -> start_at st x0 -> 0 <= x0 -> 0 < at_ -> 0 <= rho ->
  exists o f d, fitness_of N s kw = Ok o /\ fit_object (jac_of false) o st Density (Fin at_) (Fin rho) mi = Some (Ok f) /\
    fitted_param f = Fin d /\ 0 <= d /\
    (sol_converged (fitted_sol f) = true -> 0 < d -> forall d', 0 < d' ->
     exists l l', m_likelihood (model_of false w N s d) (observed_links N s sl) sl = Fin l /\
       m_likelihood (model_of false w N s d') (observed_links N s sl) sl = Fin l' /\
       l' <= l + (at_ + rho * links N s) * Rabs (ln (d' / d))).
Proof.
  intros w N s gr kw sl st x0 at_ rho mi H D L HN O Lc S Hx Ha Hr.
  destruct (C87_fitted false w N s gr kw sl st x0 at_ rho mi H D L HN O S Hx Ha Hr) as (o & f & d & E1 & E2 & E3 & Hd & C). cbv zeta in C.
  exists o, f, d. split; [exact E1|]. split; [exact E2|]. split; [exact E3|]. split; [exact Hd|]. intros Hc Hp d' Hd'. apply C in Hc.
  pose proof (library_valid _ _ _ _ H) as V. destruct (observed_possible w N s sl V) as [F P].
  destruct (C89_bound N sl _ _ _ (observed_links N s sl) d d' F P Hp Hd') as (l & l' & L1 & L2 & B).
  exists l, l'. split; [exact L1|]. split; [exact L2|]. rewrite (observed_edges N s sl Lc) in B.
  pose proof (C37_expected_means _ _ sl (model_library false w N s d V Hd)) as M. cbv zeta in M.
  destruct (m_degrees _ sl) as [[a b] c]. destruct M as [M _]. rewrite model_N in M. rewrite <- M in Hc.
  change (fitness_at N (strength_out w N s) (strength_in w N s) (fun _ _ => 1) d) with (model_of false w N s d) in B.
  assert (A : (links N s - m_edges (model_of false w N s d) sl) * ln (d' / d) <= (at_ + rho * links N s) * Rabs (ln (d' / d))); [|lra].
  apply Rle_trans with (Rabs ((links N s - m_edges (model_of false w N s d) sl) * ln (d' / d))); [apply Rle_abs|].
  rewrite Rabs_mult. apply Rmult_le_compat_r; [apply Rabs_pos|]. rewrite Rabs_minus_sym. exact Hc.
Qed.
Print Assumptions C89_fitted.

(** ** RandomDiGraph *)

(** The fitted probability is the one of maximal likelihood, for graphs with some but not all admissible links. *)
Theorem C89_random : forall N sl disc np par G, In G (all_graphs N sl) -> (0 < length G < length (pairs N sl))%nat ->
  exists s p l, rnd_fit (mkRnd N sl (Some (INR (length G), np)) None disc par) = Ok s /\ r_param s = Some (Fin p, Fin 0) /\ 0 < p < 1 /\
    rnd_log_likelihood (Matrix N N (row_of G)) None s = Ok (Fin l) /\
    forall p' q, 0 < p' < 1 -> p' <> p -> exists l', rnd_log_likelihood (Matrix N N (row_of G)) None (with_rparam s (Fin p') q) = Ok (Fin l') /\ l' < l.
Proof.
  intros N sl disc np par G HG HL. set (k := length G) in *. set (n := length (pairs N sl)) in *.
  assert (PL : pairs_of N sl = INR n) by (unfold n; symmetry; apply pairs_length).
  assert (Hk : 0 < INR k) by (apply lt_0_INR; lia). assert (Hn : INR k < INR n) by (apply lt_INR; lia).
  set (p := INR k / INR n). exists (mkRnd N sl (Some (INR k, np)) None disc (Some (Fin p, Fin 0))), p.
  assert (Hp : 0 < p < 1).
  { split; [apply Rdiv_lt_0_compat; lra|]. unfold p. apply (Rmult_lt_reg_r (INR n)); [lra|]. unfold Rdiv. rewrite Rmult_assoc, Rinv_l by lra. lra. }
  eexists. split; [|split; [reflexivity|]; split; [exact Hp|]; split].
  - unfold rnd_fit, scalar_div. cbn [r_edges r_N r_selfloops r_weight]. rewrite PL. destruct np; cbn; rewrite Reqb_false by lra; reflexivity.
  - exact (C48_value (mkRnd N sl (Some (INR k, np)) None disc (Some (Fin p, Fin 0))) p (Fin 0) G None eq_refl Hp HG).
  - intros p' q Hp' Hne. eexists. split.
    + exact (C48_value (mkRnd N sl (Some (INR k, np)) None disc (Some (Fin p', q))) p' q G None eq_refl Hp' HG).
    + cbn [r_N r_selfloops]. rewrite !const_weight by exact HG. fold k n. rewrite !ln_mult by (apply pow_lt; lra). rewrite !ln_pow by lra.
      rewrite !minus_INR by lia.
      destruct (ln_below (p' / p)) as [_ A]; [apply Rdiv_lt_0_compat; lra|]. destruct (ln_below ((1 - p') / (1 - p))) as [B _]; [apply Rdiv_lt_0_compat; lra|].
      assert (A' : ln (p' / p) < p' / p - 1).
      { apply A. intros E. apply Hne. replace p' with (p' / p * p) by (field; lra). rewrite E. ring. }
      unfold Rdiv in A', B. rewrite !ln_mult, !ln_Rinv in * by (try apply Rinv_0_lt_compat; lra).
      assert (X1 : INR k * (ln p' + - ln p) < INR k * (p' * / p - 1)) by (apply Rmult_lt_compat_l; lra).
      assert (X2 : (INR n - INR k) * (ln (1 - p') + - ln (1 - p)) <= (INR n - INR k) * ((1 - p') * / (1 - p) - 1)) by (apply Rmult_le_compat_l; lra).
      assert (Z : INR k * (p' * / p - 1) + (INR n - INR k) * ((1 - p') * / (1 - p) - 1) = 0).
      { assert (Ek : INR k = p * INR n) by (unfold p; field; lra). rewrite Ek. field. lra. }
      lra.
Qed.
Print Assumptions C89_random.

(** * Examples *)

(** Two vertices, fitnesses 1 and 1: one link of two, at the parameter one. *)
Example C89_case : fitnesses 2 (fun _ => 1) (fun _ => 1) (fun _ _ => 1) /\ possible 2 false (fun _ => 1) (fun _ => 1) (fun _ _ => 1) [(0%nat, 1%nat)] /\
  m_edges (fitness_at 2 (fun _ => 1) (fun _ => 1) (fun _ _ => 1) 1) false = g_edges 2 [(0%nat, 1%nat)] /\
  possible 2 false (fun _ => 1) (fun i => INR i) (fun _ _ => 1) [(0%nat, 1%nat)] /\
  (forall i j, (i < 2)%nat -> (j < 2)%nat -> allowed false i j = true -> 0 < 1 * INR j * 1 -> In (i, j) [(0%nat, 1%nat)]).
Proof.
  assert (F : fitnesses 2 (fun _ => 1) (fun _ => 1) (fun _ _ => 1)) by (split; intros; [split|]; lra).
  split; [exact F|]. split; [split; [right; left; reflexivity | intros i j _; lra]|]. split; [|split].
  - destruct F as [Hxy Hz]. rewrite (at_edges 2 false _ _ _ Hxy Hz) by lra. unfold pair_sum, g_edges, allowed, mem, logistic. cbn. lra.
  - split; [right; left; reflexivity|]. intros i j [E | []]. injection E as <- <-. cbn. lra.
  - intros i j Hi Hj Ha Hw. destruct i as [|[|i]], j as [|[|j]]; try lia; cbn in *; try discriminate; [left; reflexivity | lra].
Qed.

Example C89_observed_case : observed_links 3 (small_graph 3 path) false = [(0%nat, 1%nat); (1%nat, 2%nat)].
Proof.
  unfold observed_links. cbn [pairs list_prod seq map app filter allowed fst snd Nat.eqb negb orb]. rewrite !small_link by lia.
  cbn [suml path hits fst snd Nat.eqb andb]. rewrite ?Rplus_0_r, ?Rplus_0_l, !(Reqb_true 0 0 eq_refl), !Reqb_false by lra. reflexivity.
Qed.

Example C89_random_case : In [(0%nat, 1%nat)] (all_graphs 3 false) /\ (0 < 1 < length (pairs 3 false))%nat.
Proof. split; [|cbn; lia]. cbn. tauto. Qed.

(** ** ScaleInvariantModel *)

(** Fitnesses with weights 1 and 2 for the two pairs of two vertices, and the first pair linked: at the parameter that
    reproduces the number of links the likelihood is 0.1459, at another parameter it is 4/27. *)
Definition invariant_at (N : nat) (x y : nat -> R) (z : nat -> nat -> R) (d : R) : model :=
  ScaleInvariantModel N (Fin d) (fun i => Fin (x i)) (fun j => Fin (y j)) (fun i j => Fin (z i j)).

Theorem C89_invariant_refuted : exists N x y z G d d', fitnesses N x y z /\ possible N false x y z G /\ 0 < d /\ 0 < d' /\
  m_edges (invariant_at N x y z d) false = g_edges N G /\
  nltb (m_likelihood (invariant_at N x y z d) G false) (m_likelihood (invariant_at N x y z d') G false) = true.
Proof.
  set (x := fun i : nat => if Nat.eqb i 0 then 1 else 2). set (one := fun _ : nat => 1). set (z := fun _ _ : nat => 1).
  set (q := (sqrt 5 - 1) / 2). exists 2%nat, x, one, z, [(0%nat, 1%nat)], (- ln q), (- ln (2 / 3)).
  assert (S : sqrt 5 * sqrt 5 = 5) by (apply sqrt_sqrt; lra). pose proof (sqrt_pos 5) as S0.
  assert (S1 : 2.23 < sqrt 5 < 2.24). { split; [apply Rnot_le_lt; intros K | apply Rnot_le_lt; intros K]; nra. }
  assert (Hq : 0.61 < q < 0.62) by (unfold q; lra). assert (Eq : q * q = 1 - q) by (unfold q; nra).
  assert (Pos : forall r, 0 < r < 1 -> 0 < - ln r). { intros r Hr. assert (ln r < ln 1) by (apply ln_increasing; lra). rewrite ln_1 in H. lra. }
  assert (F : fitnesses 2 x one z).
  { split; [intros i _ | intros; unfold z; lra]. unfold x, one. destruct (Nat.eqb i 0); lra. }
  split; [exact F|]. split; [split; [right; left; reflexivity|]|].
  { intros i j [E | []]. injection E as <- <-. unfold x, one, z. cbn. lra. }
  split; [apply Pos; lra|]. split; [apply Pos; lra|].
  assert (Lib : forall d, 0 <= d -> library_model (invariant_at 2 x one z d) (fun i j => link_prob poissonian [Fin d; Fin (x i); Fin (one j); Fin (z i j)])).
  { intros d Hd. destruct F as [Hxy Hz]. apply lib_invariant; [exact Hd | |]; cbn [nonneg]; auto. }
  assert (P1 : forall r, 0 < r < 1 -> link_prob poissonian [Fin (- ln r); Fin 1; Fin 1; Fin 1] = 1 - r).
  { intros r Hr. pose proof (Pos r Hr). unfold link_prob. cbn [existsb is_zero is_infinite prodl toR orb]. rewrite !Reqb_false by lra. cbn [orb].
    unfold poissonian. rewrite !Rmult_1_r, Ropp_involutive, exp_ln by lra. reflexivity. }
  assert (P2 : forall r, 0 < r < 1 -> link_prob poissonian [Fin (- ln r); Fin 2; Fin 1; Fin 1] = 1 - r * r).
  { intros r Hr. pose proof (Pos r Hr). unfold link_prob. cbn [existsb is_zero is_infinite prodl toR orb]. rewrite !Reqb_false by lra. cbn [orb].
    unfold poissonian. replace (- (- ln r * (2 * (1 * (1 * 1))))) with (ln r + ln r) by ring. rewrite exp_plus, exp_ln by lra. reflexivity. }
  assert (Lk : forall r, 0 < r < 1 -> m_likelihood (invariant_at 2 x one z (- ln r)) [(0%nat, 1%nat)] false = Fin (ln ((1 - r) * (r * r)))).
  { intros r Hr. pose proof (Pos r Hr) as Pr. pose proof (lib_likelihood _ _ (Lib (- ln r) ltac:(lra)) false [(0%nat, 1%nat)]) as L.
    assert (E : graph_weight 2 false (fun i j => link_prob poissonian [Fin (- ln r); Fin (x i); Fin (one j); Fin (z i j)]) [(0%nat, 1%nat)] = (1 - r) * (r * r)).
    { unfold graph_weight, allowed, mem, pair_eqb, x, one, z. cbn [prodn existsb Nat.eqb negb orb andb fst snd]. rewrite P1, P2 by exact Hr. ring. }
    cbn [m_N invariant_at ScaleInvariantModel] in L. rewrite E in L. assert (0 < (1 - r) * (r * r)) by (apply Rmult_lt_0_compat; nra).
    destruct L as [[_ L] | [L _]]; [exact L | lra]. }
  split.
  - pose proof (C36_edges_degrees _ _ false (Lib (- ln q) ltac:(pose proof (Pos q ltac:(lra)); lra))) as M. cbv zeta in M.
    destruct (m_degrees _ false) as [[a b] c]. destruct M as [M _]. rewrite M. cbn [m_N invariant_at ScaleInvariantModel].
    unfold pair_sum, g_edges, allowed, mem, pair_eqb, x, one, z. cbn [sumn existsb Nat.eqb negb orb andb fst snd b2r]. rewrite P1, P2 by lra. lra.
  - rewrite !Lk by lra. cbn [nltb]. apply Rltb_true. apply ln_increasing; [apply Rmult_lt_0_compat; nra|]. rewrite Eq. 
    assert (q > 0.615) by (unfold q; nra). nra.
Qed.
Print Assumptions C89_invariant_refuted.
