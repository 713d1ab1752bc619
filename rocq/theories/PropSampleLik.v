(** Property C93: the log-likelihood that a model gives to its own samples. *)
From Coq Require Import Sorted Permutation.
From Verif Require Import Base Num Spec Kernels KernelFacts MultiKernels MultiFacts Prob Ensemble EnsembleFacts EnsembleProps EnsembleState
  Models ModelFacts StateFacts StateProps PropEnsemble Ids IdFacts Graphs GraphFacts DenseGraphs DenseFacts PropDense Sampled PropSampled Layers LayerFacts LayerProps Random RandomFacts PropRandom
  Spark SparkFacts SparkMeasures SparkLib SparkState PropSparkState MultiState MultiStateFacts MultiLik Pipeline PropPipeline PropLikelihood GraphArgs FitFacts CondFacts Repeat PropGraphArgs.
Import Num Spec.

Open Scope R_scope.
Open Scope list_scope.

(** * Graph objects returned by [sample] *)

Lemma sampled_link : forall ID O (ref : option (reference ID O)) N D,
  link_form N (GGraph N (of_sparse (sparse_sample ref false N (ones D)))) D.
Proof.
  intros ID O ref N D. assert (S : of_sparse (sparse_sample ref false N (ones D)) = SDiGraph (coo_tocsr true N (ones D))) by (destruct ref; reflexivity).
  split; [reflexivity|]. split; [|split].
  - right. exists ID, O, ref, false, (ones D). split; [|reflexivity]. intros t Ht. pose proof (ones_pos D) as P. rewrite Forall_forall in P. apply P, Ht.
  - rewrite S. discriminate.
  - intros i j Hi Hj. rewrite S. destruct (sample_views N D) as [_ V]. cbn [link is_directed]. rewrite (V i j Hj), <- mem_spec.
    destruct (mem (i, j) D); cbn [b2r]; split; intros H; try reflexivity; try (left; lra); destruct H as [H | [H _]]; try discriminate; lra.
Qed.

Lemma sampled_array : forall ID O (ref : option (reference ID O)) N D,
  array_form N (HGraph N false (of_dense (dense_sample ref N (ones D)))) D.
Proof.
  intros ID O ref N D. assert (S : of_dense (dense_sample ref N (ones D)) = DDiGraph (assign_all (ones D))) by (destruct ref; reflexivity).
  split; [reflexivity|]. split.
  - right. exists ID, O, ref, (ones D). split; [|reflexivity]. intros t Ht. unfold ones in Ht. apply in_map_iff in Ht. destruct Ht as (e & <- & _).
    cbn [snd]. split; [lra | reflexivity].
  - intros i j Hi Hj. rewrite S. cbn [dlink d_directed]. rewrite assign_ones, <- mem_spec.
    destruct (mem (i, j) D); cbn [b2r]; split; intros H; try reflexivity; try (left; lra); destruct H as [H | [H _]]; try discriminate; lra.
Qed.

(** * Sums over all graphs *)

Lemma sublists_length : forall A (l : list A), length (sublists l) = Nat.pow 2 (length l).
Proof. intros A l. induction l as [|e l IH]; [reflexivity|]. cbn [sublists length]. rewrite app_length, map_length, IH. cbn [Nat.pow]. lia. Qed.

Lemma suml_bound : forall A (f : A -> R) c l, (forall x, In x l -> f x <= c) -> suml f l <= INR (length l) * c.
Proof.
  intros A f c l. induction l as [|a l IH]; intros H; [cbn [suml length INR]; lra|].
  cbn [suml length]. rewrite S_INR. pose proof (H a (or_introl eq_refl)). pose proof (IH (fun x K => H x (or_intror K))). lra.
Qed.

Lemma pow2_exp : forall n, INR (Nat.pow 2 n) = exp (INR n * ln 2).
Proof.
  induction n as [|n IH]; [cbn; rewrite Rmult_0_l, exp_0; reflexivity|].
  replace (Nat.pow 2 (S n)) with (Nat.pow 2 n + Nat.pow 2 n)%nat by (simpl; lia). rewrite plus_INR, IH, S_INR, Rmult_plus_distr_r, Rmult_1_l, exp_plus, exp_ln by lra. lra.
Qed.

Lemma graphs_count : forall N sl, INR (length (all_graphs N sl)) = exp (pairs_of N sl * ln 2).
Proof. intros N sl. unfold all_graphs. rewrite sublists_length, pow2_exp, pairs_length. reflexivity. Qed.

Section Law.
Variables (N : nat) (sl : bool) (q : nat -> nat -> R).
Hypothesis Hq : forall i j, (i < N)%nat -> (j < N)%nat -> 0 <= q i j <= 1.

Lemma prodl_range : forall A (f : A -> R) l, (forall x, In x l -> 0 <= f x <= 1) -> 0 <= prodl f l <= 1.
Proof.
  intros A f l. induction l as [|a l IH]; intros H; [cbn; lra|]. rewrite prodl_cons.
  pose proof (H a (or_introl eq_refl)). pose proof (IH (fun x K => H x (or_intror K))). split; [apply Rmult_le_pos; lra|].
  apply Rle_trans with (1 * 1); [apply Rmult_le_compat; lra | lra].
Qed.

Lemma weight_range : forall G, 0 <= graph_weight N sl q G <= 1.
Proof.
  intros G. rewrite graph_weight_list. apply prodl_range. intros [i j] H. apply in_pairs in H. destruct H as (Hi & Hj & _).
  pose proof (Hq i j Hi Hj). cbn [fst snd]. destruct (mem (i, j) G); lra.
Qed.

(** Few draws are improbable: the graphs with weight at most exp (-x) are at most 2^M. *)
Lemma tail : forall (b : list (nat * nat) -> bool) x,
  (forall G, In G (all_graphs N sl) -> b G = true -> 0 < graph_weight N sl q G -> graph_weight N sl q G <= exp (- x)) ->
  ensemble_mean N sl (graph_weight N sl q) (fun G => b2r (b G)) <= exp (pairs_of N sl * ln 2 - x).
Proof.
  intros b x H. unfold ensemble_mean. eapply Rle_trans; [apply suml_bound with (c := exp (- x))|].
  - intros G HG. pose proof (weight_range G). pose proof (exp_pos (- x)). destruct (b G) eqn:E; cbn [b2r]; [|lra].
    destruct (Rle_lt_or_eq_dec 0 (graph_weight N sl q G)) as [P | P]; [lra | | lra]. pose proof (H G HG E P). lra.
  - rewrite graphs_count, <- exp_plus. right. reflexivity.
Qed.

Lemma mean_ae : forall f g, (forall G, In G (all_graphs N sl) -> 0 < graph_weight N sl q G -> f G = g G) ->
  ensemble_mean N sl (graph_weight N sl q) f = ensemble_mean N sl (graph_weight N sl q) g.
Proof.
  intros f g H. unfold ensemble_mean. apply suml_ext. intros G HG. destruct (Rle_lt_or_eq_dec 0 (graph_weight N sl q G)) as [P | P]; [apply weight_range | |].
  - rewrite H by assumption. reflexivity.
  - rewrite <- P. lra.
Qed.

Lemma ln_prodl : forall A (f : A -> R) l, (forall x, In x l -> 0 <= f x) -> 0 < prodl f l -> ln (prodl f l) = suml (fun x => ln (f x)) l.
Proof.
  intros A f l. induction l as [|a l IH]; intros H P; [cbn; apply ln_1|]. rewrite prodl_cons in *. cbn [suml].
  pose proof (H a (or_introl eq_refl)) as Ha.
  assert (Pl : 0 <= prodl f l).
  { clear - H. induction l as [|b l IH]; [cbn; lra|]. rewrite prodl_cons. apply Rmult_le_pos; [apply H; right; left; reflexivity|].
    apply IH. intros x [E | K]; apply H; [left; exact E | right; right; exact K]. }
  assert (0 < f a) by (destruct Ha as [Ha | Ha]; [exact Ha | rewrite <- Ha in P; lra]).
  assert (0 < prodl f l) by (destruct Pl as [Pl | Pl]; [exact Pl | rewrite <- Pl in P; lra]).
  rewrite ln_mult, IH; auto. intros x K. apply H. right. exact K.
Qed.

Lemma mean_suml : forall A (f : A -> list (nat * nat) -> R) l,
  ensemble_mean N sl (graph_weight N sl q) (fun G => suml (fun e => f e G) l) = suml (fun e => ensemble_mean N sl (graph_weight N sl q) (f e)) l.
Proof. intros A f l. induction l as [|e l IH]; cbn [suml]; [apply mean_const|]. rewrite mean_plus, IH. reflexivity. Qed.

(** The uncertainty about one link. *)
Definition entropy (p : R) : R := - (p * ln p + (1 - p) * ln (1 - p)).

Lemma mean_log : ensemble_mean N sl (graph_weight N sl q) (fun G => ln (graph_weight N sl q G)) = - pair_sum N sl (fun i j => entropy (q i j)).
Proof.
  rewrite (mean_ae _ (fun G => suml (fun e => b2r (mem e G) * (ln (q (fst e) (snd e)) - ln (1 - q (fst e) (snd e))) + ln (1 - q (fst e) (snd e))) (pairs N sl))).
  - rewrite mean_suml, pair_sum_list.  replace (- suml (fun e => entropy (q (fst e) (snd e))) (pairs N sl)) with (-1 * suml (fun e => entropy (q (fst e) (snd e))) (pairs N sl)) by ring.
    rewrite <- suml_scal_l. apply suml_ext. intros [i j] H. apply in_pairs in H. destruct H as (Hi & Hj & Ha). cbn [fst snd].
    rewrite mean_plus, mean_const.
    rewrite (mean_ext N sl q _ (fun G => (ln (q i j) - ln (1 - q i j)) * b2r (mem (i, j) G))) by (intros; ring).
    rewrite mean_scal, mean_link, Ha by assumption. unfold entropy. ring.
  - intros G HG P. rewrite graph_weight_list in *. rewrite ln_prodl; [|intros [i j] H; apply in_pairs in H; destruct H as (Hi & Hj & _);
      pose proof (Hq i j Hi Hj); cbn [fst snd]; destruct (mem (i, j) G); lra | exact P].
    apply suml_ext. intros e _. destruct (mem e G); cbn [b2r]; ring.
Qed.
End Law.

Lemma entropy_range : forall p, 0 <= p <= 1 -> 0 <= entropy p <= ln 2.
Proof.
  intros p Hp. unfold entropy.
  assert (L2 : 0 < ln 2) by (rewrite <- ln_1; apply ln_increasing; lra).
  destruct (Req_dec p 0) as [-> | P0]; [rewrite Rminus_0_r, ln_1; lra|].
  destruct (Req_dec p 1) as [-> | P1]; [rewrite Rminus_diag_eq, ln_1 by reflexivity; lra|].
  assert (A : forall x, 0 < x <= 1 -> ln x <= 0).
  { intros x [H1 H2]. rewrite <- ln_1. destruct H2 as [H2 | ->]; [left; apply ln_increasing; lra | right; reflexivity]. }
  pose proof (A p ltac:(lra)). pose proof (A (1 - p) ltac:(lra)).
  assert (B : forall x, 0 < x -> x * (ln (1 / 2) - ln x) <= 1 / 2 - x).
  { intros x Hx. replace (ln (1 / 2) - ln x) with (ln (1 / 2 / x)).
    - pose proof (ln_le_sub1 (1 / 2 / x - 1)) as K. replace (1 + (1 / 2 / x - 1)) with (1 / 2 / x) in K by ring.
      assert (0 < 1 / 2 / x) by (apply Rdiv_lt_0_compat; lra). specialize (K ltac:(lra)).
      apply Rle_trans with (x * (1 / 2 / x - 1)); [apply Rmult_le_compat_l; lra|]. right. field. lra.
    - unfold Rdiv at 1. rewrite ln_mult, ln_Rinv by (try apply Rinv_0_lt_compat; lra). ring. }
  pose proof (B p ltac:(lra)). pose proof (B (1 - p) ltac:(lra)).
  assert (E : ln (1 / 2) = - ln 2) by (unfold Rdiv; rewrite Rmult_1_l; apply ln_Rinv; lra). rewrite E in *.
  split; [|lra].
  assert (0 <= p * - ln p) by (apply Rmult_le_pos; lra). assert (0 <= (1 - p) * - ln (1 - p)) by (apply Rmult_le_pos; lra). lra.
Qed.

(** * C93 *)

(** The log-likelihood of the graph object that [sample] returns for the links [L]. *)
Definition sparse_own (m : model) (s : ens (mP m)) {ID O} (ref : option (reference ID O)) (L : list (nat * nat * R)) : res num :=
  sparse_likelihood m (GGraph (m_N m) (of_sparse (sparse_sample ref false (m_N m) L))) None s.
Definition dense_own (m : model) (s : ens (mP m)) {ID O} (ref : option (reference ID O)) (L : list (nat * nat * R)) : res num :=
  dense_likelihood m (HGraph (m_N m) false (of_dense (dense_sample ref (m_N m) L))) None s.

(** The call fails, is not a number, or is at most [-x]. *)
Definition low (x : R) (r : res num) : bool := match r with Ok (Fin l) => Rleb l (- x) | _ => true end.

Lemma graph_range : forall N sl G, In G (all_graphs N sl) -> in_range N G.
Proof. intros N sl G HG i j K. pose proof (sublists_incl _ _ _ _ HG K) as H. apply in_pairs in H. tauto. Qed.

Lemma own_value : forall m q s ID O (ref : option (reference ID O)) G, library_model m q -> a_param s = Some (m_param m) -> in_range (m_N m) G ->
  exists l, sparse_own m s ref (ones G) = Ok l /\ dense_own m s ref (ones G) = Ok l /\ log_of (graph_weight (m_N m) (a_selfloops s) q G) l.
Proof.
  intros m q s ID O ref G Hm Hs HG.
  destruct (C92_sparse m q _ None s G Hm Hs HG (sampled_link ID O ref (m_N m) G)) as (l & E & V).
  destruct (C92_dense m q _ None s G Hm Hs (sampled_array ID O ref (m_N m) G)) as (l' & E' & V').
  exists l. split; [exact E|]. rewrite (log_of_unique _ _ _ V' V) in E'. split; [exact E' | exact V].
Qed.

Lemma sampler : forall m q s, library_model m q -> a_param s = Some (m_param m) ->
  exists p, o_sample m NoWeights None s = Ok p /\ wf_prog p /\
    (forall L, outcome p L -> exists G, In G (all_graphs (m_N m) (a_selfloops s)) /\ L = ones G /\ 0 < graph_weight (m_N m) (a_selfloops s) q G) /\
    forall f, expect p f = ensemble_mean (m_N m) (a_selfloops s) (graph_weight (m_N m) (a_selfloops s) q) (fun G => f (ones G)).
Proof.
  intros m q s Hm Hs. destruct (sample_mean m q Hm s (fun _ => 0) Hs) as (p & Hp & _). exists p. split; [exact Hp|].
  split; [|split].
  - unfold o_sample, sample in Hp. rewrite Hs in Hp. injection Hp as <-. apply wf_bind; [|intros; exact I]. rewrite binary_sample_bern. apply bern_wf.
    intros [i j] H. apply in_pairs in H. destruct H as (Hi & Hj & _). cbn [fst snd].
    pose proof (lib_prob m q Hm i j Hi Hj) as K. rewrite <- (pr_q m q Hm i j Hi Hj) in K. exact K.
  - intros L HL. unfold o_sample, sample in Hp. rewrite Hs in Hp. injection Hp as <-. apply outcome_bind in HL. destruct HL as (G & HG & HL). cbn [outcome] in HL.
    rewrite binary_sample_bern in HG. apply outcome_bern in HG. destruct HG as (H & HH & -> & P1 & P2). cbn [app] in HL. rewrite map_id in HL. exists H.
    split; [exact HH|]. split; [exact HL|]. rewrite <- (lib_weight m q Hm), graph_weight_list.
    assert (Z : forall l, (forall e, In e l -> In e (pairs (m_N m) (a_selfloops s))) ->
      0 < prodl (fun e => if mem e H then m_p_ij m (m_param m) (m_out m (fst e)) (m_in m (snd e)) (m_dyad m (fst e) (snd e))
                 else 1 - m_p_ij m (m_param m) (m_out m (fst e)) (m_in m (snd e)) (m_dyad m (fst e) (snd e))) l).
    { induction l as [|e l IH]; intros Hl; [cbn; lra|]. rewrite prodl_cons. apply Rmult_lt_0_compat; [|apply IH; intros x K; apply Hl; right; exact K].
      destruct (mem e H) eqn:E; [apply mem_spec in E; apply (P1 e E)|]. apply mem_false in E.
      destruct (P2 e (Hl e (or_introl eq_refl))) as [K | K]; [contradiction|]. lra. }
    apply Z. auto.
  - intros f. destruct (sample_mean m q Hm s f Hs) as (p' & Hp' & E). rewrite Hp in Hp'. injection Hp' as <-. exact E.
Qed.

(** Every graph drawn has a finite log-likelihood, the same in the sparse and the dense module, and at most 0. *)
Theorem C93_finite : forall m q s p us L rest ID O (ref : option (reference ID O)), library_model m q -> a_param s = Some (m_param m) ->
  o_sample m NoWeights None s = Ok p -> (forall u, In u us -> 0 <= u < 1) -> run_draws p us = Some (L, rest) ->
  exists l, sparse_own m s ref L = Ok (Fin l) /\ dense_own m s ref L = Ok (Fin l) /\ l <= 0.
Proof.
  intros m q s p us L rest ID O ref Hm Hs Hp Hu HL. destruct (sampler m q s Hm Hs) as (p' & Hp' & _ & HO & _).
  rewrite Hp in Hp'. injection Hp' as <-. destruct (HO L (run_outcome _ _ _ _ _ Hu HL)) as (G & HG & -> & P).
  destruct (own_value m q s ID O ref G Hm Hs (graph_range _ _ _ HG)) as (l & E1 & E2 & [[_ ->] | [Z _]]); [|lra].
  exists (ln (graph_weight (m_N m) (a_selfloops s) q G)). split; [exact E1|]. split; [exact E2|].
  destruct (weight_range (m_N m) (a_selfloops s) q (lib_prob m q Hm) G) as [_ W]. rewrite <- ln_1.
  destruct W as [W | W]; [left; apply ln_increasing; assumption | right; f_equal; exact W].
Qed.
Print Assumptions C93_finite.

(** A sample is unlikely to have a very low log-likelihood: at most [exp (M ln 2 - x)] for [-x], with [M] the number of possible links. *)
Theorem C93_tail : forall m q s x ID O (ref : option (reference ID O)), library_model m q -> a_param s = Some (m_param m) ->
  exists p, o_sample m NoWeights None s = Ok p /\
    prob p (fun L => low x (sparse_own m s ref L)) <= exp (pairs_of (m_N m) (a_selfloops s) * ln 2 - x) /\
    prob p (fun L => low x (dense_own m s ref L)) <= exp (pairs_of (m_N m) (a_selfloops s) * ln 2 - x).
Proof.
  intros m q s x ID O ref Hm Hs. destruct (sampler m q s Hm Hs) as (p & Hp & _ & _ & HE). exists p. split; [exact Hp|].
  unfold prob. rewrite !HE.
  split; apply (tail _ _ q (lib_prob m q Hm)); intros G HG; destruct (own_value m q s ID O ref G Hm Hs (graph_range _ _ _ HG)) as (l & E1 & E2 & V);
    rewrite ?E1, ?E2; intros HB P; (destruct V as [[_ ->] | [Z _]]; [|lra]); cbn [low] in HB; (destruct (Rleb_spec (ln (graph_weight (m_N m) (a_selfloops s) q G)) (- x)) as [HB' | _] in HB; [clear HB; rename HB' into HB | discriminate]);
    rewrite <- (exp_ln _ P) at 1; (destruct HB as [HB | ->]; [left; apply exp_increasing; exact HB | right; reflexivity]).
Qed.
Print Assumptions C93_tail.

(** In [n] calls, one so low has at most [n] times that probability (the loop of the package's own tests, with n = 100 and x = 2.3 N (N - 1)). *)
Theorem C93_loop : forall m q s x n ID O (ref : option (reference ID O)), library_model m q -> a_param s = Some (m_param m) ->
  exists p, o_sample m NoWeights None s = Ok p /\
    prob (calls n p) (existsb (fun L => low x (sparse_own m s ref L))) <= INR n * exp (pairs_of (m_N m) (a_selfloops s) * ln 2 - x) /\
    prob (calls n p) (existsb (fun L => low x (dense_own m s ref L))) <= INR n * exp (pairs_of (m_N m) (a_selfloops s) * ln 2 - x).
Proof.
  intros m q s x n ID O ref Hm Hs. destruct (sampler m q s Hm Hs) as (p & Hp & W & _).
  destruct (C93_tail m q s x ID O ref Hm Hs) as (p' & Hp' & A & B). rewrite Hp in Hp'. injection Hp' as <-. exists p. split; [exact Hp|].
  split; (eapply Rle_trans; [apply some_call; exact W | apply Rmult_le_compat_l; [apply pos_INR | assumption]]).
Qed.
Print Assumptions C93_loop.

(** The mean log-likelihood of the samples is minus the sum of the uncertainties about the links, between [- M ln 2] and 0. *)
Definition log_mean (p : prog (list (nat * nat * R))) (f : list (nat * nat * R) -> res num) : R :=
  expect p (fun L => match f L with Ok (Fin l) => l | _ => 0 end).

Theorem C93_mean : forall m q s ID O (ref : option (reference ID O)), library_model m q -> a_param s = Some (m_param m) ->
  exists p, o_sample m NoWeights None s = Ok p /\
    let h := pair_sum (m_N m) (a_selfloops s) (fun i j => entropy (q i j)) in
    log_mean p (sparse_own m s ref) = - h /\ log_mean p (dense_own m s ref) = - h /\
    0 <= h <= pairs_of (m_N m) (a_selfloops s) * ln 2.
Proof.
  intros m q s ID O ref Hm Hs. destruct (sampler m q s Hm Hs) as (p & Hp & _ & _ & HE). exists p. split; [exact Hp|]. intros h.
  unfold log_mean. rewrite !HE. unfold h. rewrite <- (mean_log _ _ q (lib_prob m q Hm)). split; [|split].
  1, 2: apply (mean_ae _ _ q (lib_prob m q Hm)); intros G HG P; destruct (own_value m q s ID O ref G Hm Hs (graph_range _ _ _ HG)) as (l & E1 & E2 & V);
    rewrite ?E1, ?E2; (destruct V as [[_ ->] | [Z _]]; [reflexivity | lra]).
  rewrite pair_sum_list, <- pairs_length. split.
  - assert (Z : forall l, (forall e, In e l -> In e (pairs (m_N m) (a_selfloops s))) -> 0 <= suml (fun e => entropy (q (fst e) (snd e))) l).
    { induction l as [|e l IH]; intros Hl; cbn [suml]; [lra|]. pose proof (IH (fun x K => Hl x (or_intror K))).
      destruct e as [i j]. pose proof (Hl _ (or_introl eq_refl)) as K. apply in_pairs in K. destruct K as (Hi & Hj & _). cbn [fst snd].
      pose proof (entropy_range _ (lib_prob m q Hm i j Hi Hj)). lra. }
    apply Z. auto.
  - apply suml_bound. intros [i j] K. apply in_pairs in K. destruct K as (Hi & Hj & _). cbn [fst snd]. apply entropy_range. exact (lib_prob m q Hm i j Hi Hj).
Qed.
Print Assumptions C93_mean.

(** ** The Spark classes: any number of blocks; the sampler and the likelihood both obey the option [selfloops]. *)
Definition spark_own (m : model) (B : nat) (sl : option bool) (s : ens (mP m)) {ID O} (ref : option (reference ID O)) (L : list (nat * nat * R)) : res num :=
  spark_arg_likelihood m B (GGraph (m_N m) (of_sparse (sparse_sample ref false (m_N m) L))) sl s.

Lemma expect_on : forall A (p : prog A) f g, wf_prog p -> (forall a, outcome p a -> f a = g a) -> expect p f = expect p g.
Proof. intros A p f g W H. apply Rle_antisym; apply expect_le; try exact W; intros a Ha; rewrite (H a Ha); lra. Qed.

Definition in_rangeb (N : nat) (G : list (nat * nat)) : bool := forallb (fun e => Nat.ltb (fst e) N && Nat.ltb (snd e) N) G.

Lemma in_rangeb_spec : forall N G, in_rangeb N G = true <-> in_range N G.
Proof.
  intros N G. unfold in_rangeb. rewrite forallb_forall. split.
  - intros H i j K. specialize (H _ K). cbn [fst snd] in H. apply andb_prop in H. destruct H as [A B]. apply Nat.ltb_lt in A. apply Nat.ltb_lt in B. auto.
  - intros H [i j] K. destruct (H i j K). cbn [fst snd]. apply andb_true_intro. split; apply Nat.ltb_lt; assumption.
Qed.

Lemma spark_sampler : forall m q B sl s, spark_single m q -> (1 <= B)%nat -> a_param s = Some (m_param m) ->
  let N := m_N m in let b := effective sl (a_selfloops s) in
  exists p, so_sample m B NoWeights sl s = Ok p /\ wf_prog p /\
    (forall L, outcome p L -> exists G, in_range N G /\ L = ones G /\ 0 < graph_weight N b q G) /\
    forall f, (forall a c, Permutation a c -> in_range N a -> f (ones a) = f (ones c)) ->
      expect p f = ensemble_mean N b (graph_weight N b q) (fun G => f (ones G)).
Proof.
  intros m q B sl s Hm HB Hs N b. pose proof (single_spark m q Hm) as Hk.
  set (pe := fun e : nat * nat => m_p_ij m (m_param m) (m_out m (fst e)) (m_in m (snd e)) (m_dyad m (fst e) (snd e))).
  assert (PQ : forall i j, (i < N)%nat -> (j < N)%nat -> pe (i, j) = q i j) by (intros i j Hi Hj; exact (spark_pr m q Hk i j Hi Hj)).
  assert (QR : forall i j, (i < N)%nat -> (j < N)%nat -> 0 <= q i j <= 1) by (intros i j Hi Hj; exact (so_prob m q Hk i j Hi Hj)).
  pose proof (spark_pairs_perm N B b HB) as PP.
  assert (HI : forall e, In e (spark_pairs N B b) -> (fst e < N)%nat /\ (snd e < N)%nat).
  { intros [i j] K. apply (Permutation_in _ PP) in K. apply in_pairs in K. cbn [fst snd]. tauto. }
  unfold so_sample, sp_sample. rewrite Hs. fold (effective sl (a_selfloops s)). fold b. fold N. eexists. split; [reflexivity|].
  rewrite (spark_sample_bern _ _ _ _ (m_p_ij m) (m_param m) (m_out m) (m_in m) (m_dyad m) N B b (proj1 (spark_no_dyad m q Hk))). fold pe.
  assert (W : wf_prog (bern pe (fun e => e) (spark_pairs N B b) [])).
  { apply bern_wf. intros [i j] K. destruct (HI _ K) as [Hi Hj]. rewrite PQ by assumption. apply QR; assumption. }
  assert (OC : forall L, outcome (pbind (bern pe (fun e => e) (spark_pairs N B b) []) (fun G => Ret (map (fun e => (e, 1)) G))) L ->
    exists G, in_range N G /\ L = ones G /\ 0 < graph_weight N b q G).
  { intros L HL. apply outcome_bind in HL. destruct HL as (G & HG & HL). cbn [outcome] in HL. apply outcome_bern in HG.
    destruct HG as (H & HH & -> & P1 & P2). cbn [app] in HL. rewrite map_id in HL. exists H.
    assert (RH : in_range N H). { intros i j K. exact (HI _ (sublists_incl _ _ _ _ HH K)). }
    split; [exact RH|]. split; [exact HL|]. rewrite graph_weight_list.
    assert (Z : forall l, (forall e, In e l -> In e (spark_pairs N B b)) ->
      0 < prodl (fun e => if mem e H then q (fst e) (snd e) else 1 - q (fst e) (snd e)) l).
    { induction l as [|[i j] l IH]; intros Hl; [cbn; lra|]. rewrite prodl_cons. apply Rmult_lt_0_compat; [|apply IH; intros x K; apply Hl; right; exact K].
      destruct (HI _ (Hl _ (or_introl eq_refl))) as [Hi Hj]. cbn [fst snd] in *. rewrite <- (PQ i j Hi Hj).
      destruct (mem (i, j) H) eqn:E; [apply mem_spec in E; apply (P1 _ E)|]. apply mem_false in E.
      destruct (P2 (i, j) (Hl _ (or_introl eq_refl))) as [K | K]; [contradiction|]. lra. }
    apply Z. intros e K. apply (Permutation_in _ (Permutation_sym PP)), K. }
  split; [|split].
  - apply wf_bind; [exact W | intros; exact I].
  - exact OC.
  - intros f Hf. rewrite expect_bind. cbn [expect].
    set (g := fun G => if in_rangeb N G then f (ones G) else 0).
    assert (RB : forall G, outcome (bern pe (fun e => e) (spark_pairs N B b) []) G -> in_rangeb N G = true).
    { intros G HG. apply in_rangeb_spec. apply outcome_bern in HG. destruct HG as (H & HH & -> & _). cbn [app]. rewrite map_id.
      intros i j K. exact (HI _ (sublists_incl _ _ _ _ HH K)). }
    transitivity (expect (bern pe (fun e => e) (spark_pairs N B b) []) g).
    { apply expect_on; [exact W|]. intros G HG. unfold g. rewrite (RB G HG). reflexivity. }
    assert (GP : forall a c, Permutation a c -> g a = g c).
    { intros a c P. unfold g. assert (E : in_rangeb N a = in_rangeb N c).
      { apply eq_iff_eq_true. rewrite !in_rangeb_spec. split; intros H i j K; apply H; [apply (Permutation_in _ (Permutation_sym P)), K | apply (Permutation_in _ P), K]. }
      rewrite <- E. destruct (in_rangeb N a) eqn:R; [|reflexivity]. apply Hf; [exact P | apply in_rangeb_spec; exact R]. }
    rewrite (bern_perm _ _ pe (fun e => e) g GP _ _ PP [] [] (Permutation_refl _)).
    rewrite bern_sublists by apply NoDup_pairs. unfold ensemble_mean, all_graphs. apply suml_ext. intros G HG. cbn [app]. rewrite map_id.
      unfold g. rewrite (proj2 (in_rangeb_spec N G) (graph_range N b G HG)). f_equal. rewrite graph_weight_list. unfold lweight. apply prodl_ext.
      intros [i j] K. apply in_pairs in K. destruct K as (Hi & Hj & _). rewrite (PQ i j Hi Hj). reflexivity.
Qed.

Lemma spark_value : forall m q B sl s ID O (ref : option (reference ID O)) G, spark_single m q -> (1 <= B)%nat -> a_param s = Some (m_param m) ->
  in_range (m_N m) G -> exists l, spark_own m B sl s ref (ones G) = Ok l /\ log_of (graph_weight (m_N m) (effective sl (a_selfloops s)) q G) l.
Proof. intros m q B sl s ID O ref G Hm HB Hs HG. exact (C92_spark m q B _ sl s G Hm HB Hs HG (sampled_link ID O ref (m_N m) G)). Qed.

Lemma spark_value_perm : forall m q B sl s ID O (ref : option (reference ID O)) a c, spark_single m q -> (1 <= B)%nat -> a_param s = Some (m_param m) ->
  Permutation a c -> in_range (m_N m) a -> spark_own m B sl s ref (ones a) = spark_own m B sl s ref (ones c).
Proof.
  intros m q B sl s ID O ref a c Hm HB Hs P Ha.
  assert (Hc : in_range (m_N m) c) by (intros i j K; apply Ha, (Permutation_in _ (Permutation_sym P)), K).
  destruct (spark_value m q B sl s ID O ref a Hm HB Hs Ha) as (l & E & V). destruct (spark_value m q B sl s ID O ref c Hm HB Hs Hc) as (l' & E' & V').
  rewrite E, E'. f_equal. refine (log_of_unique _ _ _ V _).
  replace (graph_weight (m_N m) (effective sl (a_selfloops s)) q a) with (graph_weight (m_N m) (effective sl (a_selfloops s)) q c); [exact V'|].
  rewrite !graph_weight_list. apply prodl_ext. intros e _. replace (mem e c) with (mem e a); [reflexivity|]. apply eq_iff_eq_true. rewrite !mem_spec.
  split; intros K; [apply (Permutation_in _ P), K | apply (Permutation_in _ (Permutation_sym P)), K].
Qed.

Theorem C93_spark : forall m q B sl s ID O (ref : option (reference ID O)), spark_single m q -> (1 <= B)%nat -> a_param s = Some (m_param m) ->
  let M := pairs_of (m_N m) (effective sl (a_selfloops s)) in
  let h := pair_sum (m_N m) (effective sl (a_selfloops s)) (fun i j => entropy (q i j)) in
  exists p, so_sample m B NoWeights sl s = Ok p /\
    (forall us L rest, (forall u, In u us -> 0 <= u < 1) -> run_draws p us = Some (L, rest) ->
       exists l, spark_own m B sl s ref L = Ok (Fin l) /\ l <= 0) /\
    (forall x, prob p (fun L => low x (spark_own m B sl s ref L)) <= exp (M * ln 2 - x)) /\
    (forall n x, prob (calls n p) (existsb (fun L => low x (spark_own m B sl s ref L))) <= INR n * exp (M * ln 2 - x)) /\
    log_mean p (spark_own m B sl s ref) = - h.
Proof.
  intros m q B sl s ID O ref Hm HB Hs M h. destruct (spark_sampler m q B sl s Hm HB Hs) as (p & Hp & W & HO & HE). exists p. split; [exact Hp|].
  assert (QR : forall i j, (i < m_N m)%nat -> (j < m_N m)%nat -> 0 <= q i j <= 1) by (intros i j Hi Hj; exact (so_prob m q (single_spark m q Hm) i j Hi Hj)).
  assert (T : forall x, prob p (fun L => low x (spark_own m B sl s ref L)) <= exp (M * ln 2 - x)).
  { intros x. unfold prob. rewrite HE by (intros a c P Ha; rewrite (spark_value_perm m q B sl s ID O ref a c Hm HB Hs P Ha); reflexivity).
    apply (tail _ _ q QR). intros G HG. destruct (spark_value m q B sl s ID O ref G Hm HB Hs (graph_range _ _ _ HG)) as (l & E & V).
    rewrite E. intros HBx P. destruct V as [[_ ->] | [Z _]]; [|lra]. cbn [low] in HBx.
    destruct (Rleb_spec (ln (graph_weight (m_N m) (effective sl (a_selfloops s)) q G)) (- x)) as [K | _] in HBx; [|discriminate].
    rewrite <- (exp_ln _ P). destruct K as [K | K]; [left; apply exp_increasing; exact K | right; f_equal; exact K]. }
  split; [|split; [exact T|split]].
  - intros us L rest Hu HL. destruct (HO L (run_outcome _ _ _ _ _ Hu HL)) as (G & HG & -> & P).
    destruct (spark_value m q B sl s ID O ref G Hm HB Hs HG) as (l & E & [[_ ->] | [Z _]]); [|lra].
    eexists. split; [exact E|]. destruct (weight_range (m_N m) (effective sl (a_selfloops s)) q QR G) as [_ W']. rewrite <- ln_1.
    destruct W' as [W' | W']; [left; apply ln_increasing; assumption | right; f_equal; exact W'].
  - intros n x. eapply Rle_trans; [apply some_call; exact W | apply Rmult_le_compat_l; [apply pos_INR | apply T]].
  - unfold log_mean. rewrite HE by (intros a c P Ha; rewrite (spark_value_perm m q B sl s ID O ref a c Hm HB Hs P Ha); reflexivity).
    unfold h. rewrite <- (mean_log _ _ q QR). apply (mean_ae _ _ q QR). intros G HG P.
    destruct (spark_value m q B sl s ID O ref G Hm HB Hs (graph_range _ _ _ HG)) as (l & E & V). rewrite E. destruct V as [[_ ->] | [Z _]]; [reflexivity | lra].
Qed.
Print Assumptions C93_spark.

(** ** RandomDiGraph with a probability strictly between 0 and 1. *)
Definition rnd_own (s : rnd) {ID O} (ref : option (reference ID O)) (r : res (list (nat * nat))) : res num :=
  do G <- r ; rnd_arg_likelihood (GGraph (r_N s) (of_sparse (sparse_sample ref false (r_N s) (ones G)))) None s.

Theorem C93_random : forall s p0 p1 ID O (ref : option (reference ID O)), r_param s = Some (Fin p0, p1) -> 0 < p0 < 1 ->
  let M := pairs_of (r_N s) (r_selfloops s) in
  (forall us r rest, (forall u, In u us -> 0 <= u < 1) -> run_draws (rnd_sample RNone s) us = Some (r, rest) ->
     exists l, rnd_own s ref r = Ok (Fin l) /\ l <= 0) /\
  (forall x, prob (rnd_sample RNone s) (fun r => low x (rnd_own s ref r)) <= exp (M * ln 2 - x)) /\
  (forall n x, prob (calls n (rnd_sample RNone s)) (existsb (fun r => low x (rnd_own s ref r))) <= INR n * exp (M * ln 2 - x)) /\
  expect (rnd_sample RNone s) (fun r => match rnd_own s ref r with Ok (Fin l) => l | _ => 0 end) = - (M * entropy p0).
Proof.
  intros s p0 p1 ID O ref Hs Hp M. set (N := r_N s) in *. set (b := r_selfloops s) in *.
  assert (QR : forall i j, (i < N)%nat -> (j < N)%nat -> 0 <= (fun _ _ : nat => p0) i j <= 1) by (intros; lra).
  assert (V : forall G, In G (all_graphs N b) -> rnd_own s ref (Ok G) = Ok (Fin (ln (graph_weight N b (fun _ _ => p0) G)))).
  { intros G HG. unfold rnd_own. cbn [bind].
    apply (proj1 (C92_random s p0 p1 _ None G Hs Hp (graph_range N b G HG) (sampled_link ID O ref N G) I)).
    intros i j K. pose proof (sublists_incl _ _ _ _ HG K) as K'. apply in_pairs in K'. fold b. tauto. }
  assert (PG : forall G, 0 < graph_weight N b (fun _ _ => p0) G).
  { intros G. rewrite graph_weight_list. induction (pairs N b) as [|e l IH]; [cbn; lra|]. rewrite prodl_cons. apply Rmult_lt_0_compat; [destruct (mem e G); lra | exact IH]. }
  assert (SE : rnd_sample RNone s = pbind (bern (fun _ => p0) (fun e => e) (pairs N b) []) (fun G => Ret (Ok G))).
  { unfold rnd_sample. rewrite Hs. cbn [toR]. rewrite rnd_binary_eq, binary_sample_bern. reflexivity. }
  assert (HE : forall f, expect (rnd_sample RNone s) f = ensemble_mean N b (graph_weight N b (fun _ _ => p0)) (fun G => f (Ok G))).
  { intros f. rewrite SE, expect_bind. cbn [expect]. rewrite bern_sublists by apply NoDup_pairs. unfold ensemble_mean. apply suml_ext. intros G HG.
    cbn [app]. rewrite map_id, graph_weight_lweight. reflexivity. }
  assert (W : wf_prog (rnd_sample RNone s)).
  { rewrite SE. apply wf_bind; [apply bern_wf; intros; lra | intros; exact I]. }
  assert (T : forall x, prob (rnd_sample RNone s) (fun r => low x (rnd_own s ref r)) <= exp (M * ln 2 - x)).
  { intros x. unfold prob. rewrite HE. apply (tail _ _ _ QR). intros G HG HBx P. rewrite (V G HG) in HBx. cbn [low] in HBx.
    destruct (Rleb_spec (ln (graph_weight N b (fun _ _ => p0) G)) (- x)) as [K | _] in HBx; [|discriminate].
    rewrite <- (exp_ln _ P). destruct K as [K | K]; [left; apply exp_increasing; exact K | right; f_equal; exact K]. }
  split; [|split; [exact T|split]].
  - intros us r rest Hu Hr. apply run_outcome in Hr; [|exact Hu]. rewrite SE in Hr. apply outcome_bind in Hr. destruct Hr as (G & HG & Hr). cbn [outcome] in Hr. subst r.
    apply outcome_bern in HG. destruct HG as (H & HH & -> & _). cbn [app]. rewrite map_id. eexists. split; [apply V; exact HH|].
    destruct (weight_range N b _ QR H) as [_ W']. rewrite <- ln_1. destruct W' as [W' | W']; [left; apply ln_increasing; [apply PG | exact W'] | right; f_equal; exact W'].
  - intros n x. eapply Rle_trans; [apply some_call; exact W | apply Rmult_le_compat_l; [apply pos_INR | apply T]].
  - rewrite HE. transitivity (- pair_sum N b (fun _ _ => entropy p0)).
    + rewrite <- (mean_log N b _ QR). apply mean_ext. intros G HG. rewrite (V G HG). reflexivity.
    + unfold M. rewrite pair_sum_list, <- pairs_length. fold N b. f_equal. clear. induction (pairs N b) as [|e l IH]; [cbn [suml length INR]; ring|].
      cbn [suml length]. rewrite S_INR, IH. ring.
Qed.
Print Assumptions C93_random.

(** * Concrete cases *)

Lemma exp_pow_ge : forall x n, 0 <= x -> (1 + x) ^ n <= exp (INR n * x).
Proof.
  intros x n Hx. induction n as [|n IH]; [cbn [pow INR]; rewrite Rmult_0_l, exp_0; lra|].
  rewrite S_INR. replace ((INR n + 1) * x) with (x + INR n * x) by ring. rewrite exp_plus. cbn [pow].
  apply Rmult_le_compat; [lra | apply pow_le; lra | apply exp_ineq1_le | exact IH].
Qed.

Lemma ln2_le : ln 2 <= 7 / 10.
Proof.
  rewrite <- (ln_exp (7 / 10)). left. apply ln_increasing; [lra|]. pose proof (exp_pow_ge (7 / 400) 40 ltac:(lra)) as H.
  replace (INR 40 * (7 / 400)) with (7 / 10) in H by (rewrite INR_IZR_INZ; cbn; lra). eapply Rlt_le_trans; [|exact H].
  cbn [pow]. lra.
Qed.

(** Three vertices, six possible links, 100 calls and the threshold of the package's tests: 2.3 for each possible link. *)
Example C93_loop_case : library_model ex_model PropEnsemble.ex_q /\ pairs_of 3 false = 6 /\
  exists p, o_sample ex_model NoWeights None (new_ens (Some (m_param ex_model)) false) = Ok p /\
    prob (calls 100 p) (existsb (fun L => low (23 / 10 * 6) (sparse_own ex_model (new_ens (Some (m_param ex_model)) false) (None : option (reference nat nat)) L))) <= 1 / 100.
Proof.
  split; [exact ex_lib|]. assert (M : pairs_of 3 false = 6) by (unfold pairs_of; cbn; lra). split; [exact M|].
  destruct (C93_loop ex_model PropEnsemble.ex_q (new_ens (Some (m_param ex_model)) false) (23 / 10 * 6) 100 nat nat None ex_lib eq_refl) as (p & Hp & A & _).
  exists p. split; [exact Hp|]. eapply Rle_trans; [exact A|]. change (m_N ex_model) with 3%nat. cbn [new_ens a_selfloops]. rewrite M.
  pose proof ln2_le. pose proof (exp_pow_ge (1 / 20) 192 ltac:(lra)) as H1. replace (INR 192 * (1 / 20)) with (96 / 10) in H1 by (rewrite INR_IZR_INZ; cbn; lra).
  assert (H2 : 10000 <= (1 + 1 / 20) ^ 192).
  { change 192%nat with (6 * (8 * 4))%nat. rewrite pow_mult. assert (A6 : 134 / 100 <= (1 + 1 / 20) ^ 6) by (cbn [pow]; lra).
    apply Rle_trans with ((134 / 100) ^ (8 * 4)); [|apply pow_incr; lra]. rewrite pow_mult. assert (A8 : 1039 / 100 <= (134 / 100) ^ 8) by (cbn [pow]; lra).
    apply Rle_trans with ((1039 / 100) ^ 4); [cbn [pow]; lra | apply pow_incr; lra]. }
  assert (H3 : exp (6 * ln 2 - 23 / 10 * 6) <= exp (- (96 / 10))).
  { destruct (Req_dec (6 * ln 2 - 23 / 10 * 6) (- (96 / 10))) as [-> | N]; [lra | left; apply exp_increasing; lra]. }
  rewrite exp_Ropp in H3. assert (H4 : / exp (96 / 10) <= / 10000) by (apply Rinv_le_contravar; lra).
  replace (INR 100) with 100 by (rewrite INR_IZR_INZ; reflexivity). lra.
Qed.

(** The mean log-likelihood of its samples: four links at 1/2 (the third vertex has no in-fitness). *)
Example C93_mean_case : library_model ex_model PropEnsemble.ex_q /\ pair_sum 3 false (fun i j => entropy (PropEnsemble.ex_q i j)) = 4 * ln 2.
Proof.
  split; [exact ex_lib|]. unfold pair_sum, entropy. cbn [sumn allowed]. unfold allowed. cbn. rewrite !PropEnsemble.ex_q_val. cbn.
  replace (1 - 1 / 2) with (1 / 2) by lra. rewrite Rminus_0_r, ln_1.
  assert (E : ln (1 / 2) = - ln 2) by (unfold Rdiv; rewrite Rmult_1_l; apply ln_Rinv; lra). rewrite E. lra.
Qed.

(** A run over two vertices linked with probability 1/2 each way: one link is drawn, and its log-likelihood is ln (1/4). *)
Example C93_finite_case : library_model (two_model 1) (two_q 1) /\
  exists p, o_sample (two_model 1) NoWeights None (new_ens (Some (m_param (two_model 1))) false) = Ok p /\
    run_draws p [1 / 4; 3 / 4] = Some (ones [(0, 1)%nat], []) /\
    sparse_own (two_model 1) (new_ens (Some (m_param (two_model 1))) false) (None : option (reference nat nat)) (ones [(0, 1)%nat]) = Ok (Fin (ln (1 / 4))).
Proof.
  assert (L : library_model (two_model 1) (two_q 1)) by (apply two_lib; lra). split; [exact L|].
  assert (K : toR (fit_p_ij (Fin 1) (Fin 1) (Fin 1) (Fin 1)) = 1 / 2) by (rewrite fit_p_ij_fin by lra; simpl; unfold logistic; field).
  eexists. split; [reflexivity|]. split.
  - assert (T : Rltb (1 / 4) (toR (fit_p_ij (Fin 1) (Fin 1) (Fin 1) (Fin 1))) = true) by (rewrite K; apply Rltb_true; lra).
    assert (F : Rltb (3 / 4) (toR (fit_p_ij (Fin 1) (Fin 1) (Fin 1) (Fin 1))) = false) by (rewrite K; apply Rltb_false; lra).
    cbn -[fit_p_ij Rltb toR Rdiv]. rewrite T. cbn -[fit_p_ij Rltb toR Rdiv]. rewrite F. reflexivity.
  - destruct (own_value (two_model 1) (two_q 1) (new_ens (Some (m_param (two_model 1))) false) nat nat None [(0, 1)%nat] L eq_refl) as (l & E & _ & V).
    { intros i j [H | []]. injection H as <- <-. cbn. lia. }
    assert (W : graph_weight 2 false (two_q 1) [(0, 1)%nat] = 1 / 4).
    { unfold graph_weight. cbn [prodn]. unfold allowed, mem. cbn. rewrite !two_q_val by lra. cbn. lra. }
    change (m_N (two_model 1)) with 2%nat in V. cbn [new_ens a_selfloops] in V. rewrite W in V. destruct V as [[_ ->] | [V _]]; [exact E | lra].
Qed.

(** Spark, two blocks per side, samples asked for with self-loops: six of the nine links have probability 1/2, three have none. *)
Example C93_spark_case : spark_single PropSparkState.ex_m PropSparkState.ex_q /\
  exists p, so_sample PropSparkState.ex_m 2 NoWeights (Some true) (new_ens (Some (m_param PropSparkState.ex_m)) false) = Ok p /\
    log_mean p (spark_own PropSparkState.ex_m 2 (Some true) (new_ens (Some (m_param PropSparkState.ex_m)) false) (None : option (reference nat nat))) = - (6 * ln 2).
Proof.
  split; [exact PropSparkState.ex_single|].
  destruct (C93_spark PropSparkState.ex_m PropSparkState.ex_q 2 (Some true) (new_ens (Some (m_param PropSparkState.ex_m)) false) nat nat None PropSparkState.ex_single
    ltac:(lia) eq_refl) as (p & Hp & _ & _ & _ & H). exists p. split; [exact Hp|]. rewrite H. f_equal.
  assert (Q : forall i j, PropSparkState.ex_q i j = if Nat.eqb j 2 then 0 else 1 / 2).
  { intros i j. unfold PropSparkState.ex_q, link_prob, PropSparkState.ex_y. cbn [existsb is_zero is_infinite prodl toR].
    destruct (Nat.eqb j 2); rewrite !(Reqb_false 1 0) by lra; [rewrite (Reqb_true 0 0) by reflexivity|]; cbn; [reflexivity|]. unfold logistic. field. }
  change (m_N PropSparkState.ex_m) with 3%nat. cbn [effective]. unfold pair_sum, entropy, allowed. cbn. rewrite !Q. cbn.
  replace (1 - 1 / 2) with (1 / 2) by lra. rewrite Rminus_0_r, ln_1.
  assert (E : ln (1 / 2) = - ln 2) by (unfold Rdiv; rewrite Rmult_1_l; apply ln_Rinv; lra). rewrite E. lra.
Qed.

Example C93_random_case : r_param (half false) = Some (Fin (1 / 2), Fin 0) /\
  expect (rnd_sample RNone (half false)) (fun r => match rnd_own (half false) (None : option (reference nat nat)) r with Ok (Fin l) => l | _ => 0 end) = - (2 * ln 2).
Proof.
  split; [reflexivity|]. destruct (C93_random (half false) (1 / 2) (Fin 0) nat nat None eq_refl ltac:(lra)) as (_ & _ & _ & ->).
  unfold entropy, pairs_of. cbn. replace (1 - 1 / 2) with (1 / 2) by lra.
  assert (E : ln (1 / 2) = - ln 2) by (unfold Rdiv; rewrite Rmult_1_l; apply ln_Rinv; lra). rewrite E. lra.
Qed.
