(** Property C81: objects of the spark module answer like single-process objects, for any number of blocks
    and any history of calls.  [so_query m B] is one call on a DiGraphEnsemble object of the spark module
    whose data are those of [m], with [B] blocks per side (SparkState.v); [o_query m] one call on the
    single-process object with the same data (Models.v). *)
From Coq Require Import ZArith.
From Verif Require Import Base Num Spec Kernels KernelFacts MultiKernels MultiFacts Prob Ensemble EnsembleFacts
  EnsembleProps EnsembleState Models ModelFacts StateFacts StateProps Solver Fit Spark SparkFacts SparkMeasures
  SparkConfusion SparkLib SparkState SparkStateFacts.
Import Num Spec.

(** The single-label models of the module. *)
Inductive spark_single : model -> (nat -> nat -> R) -> Prop :=
| ss_fitness : forall N d x y z, nonneg d -> (forall i, (i < N)%nat -> nonneg (x i) /\ nonneg (y i)) ->
    spark_single (FitnessModelDense N d x y z) (fun i j => link_prob logistic [d; x i; y j; Fin 1])
| ss_invariant : forall N d x y z, nonneg d -> (forall i, (i < N)%nat -> nonneg (x i) /\ nonneg (y i)) ->
    spark_single (ScaleInvariantModelSpark N d x y z) (fun i j => link_prob poissonian [d; x i; y j; Fin 1]).

Lemma single_spark : forall m q, spark_single m q -> spark_model m q.
Proof. intros m q H. destruct H; constructor; assumption. Qed.

Definition so_query (m : model) (B : nat) : query -> ens (mP m) -> res answer * ens (mP m) :=
  sp_query (m_p_ij m) (m_out m) (m_in m) (m_dyad m) (m_N m) B.
Definition so_log_likelihood (m : model) (B : nat) : Spark.graph_arg -> option bool -> ens (mP m) -> res num :=
  sp_log_likelihood (m_logp m) (m_log1mp m) (m_out m) (m_in m) (m_dyad m) (m_N m) B.
Definition so_sample (m : model) (B : nat) : weights_arg -> option bool -> ens (mP m) -> res (prog (list (nat * nat * R))) :=
  sp_sample (m_p_ij m) (m_out m) (m_in m) (m_dyad m) (m_N m) B.

(** ** The number of blocks does not matter: two objects with the same data but different partitions give
    the same answers to the same history of calls, parameter changes and option changes, whatever the
    caches hold at the start. *)
Theorem C81_blocks : forall m q B B' l s, spark_single m q -> (1 <= m_N m)%nat -> (1 <= B)%nat -> (1 <= B')%nat ->
  Forall2 (same_answer (m_N m)) (fst (run_events (so_query m B) l s)) (fst (run_events (so_query m B') l s)).
Proof.
  intros m q B B' l s Hm HN HB HB'. apply blocks_history; try assumption.
  exact (proj1 (spark_no_dyad m q (single_spark m q Hm))).
Qed.
Print Assumptions C81_blocks.

(** ** Nor does distributing the computation: the single-process objects answer alike. *)
Theorem C81_single : forall N d x y z B l s, (2 <= N)%nat -> (1 <= B)%nat ->
  Forall2 (same_answer N) (fst (run_events (so_query (FitnessModelDense N d x y z) B) l s))
    (fst (run_events (o_query (FitnessModelDense N d x y z)) l s)) /\
  Forall2 (same_answer N) (fst (run_events (so_query (ScaleInvariantModelSpark N d x y z) B) l s))
    (fst (run_events (o_query (ScaleInvariantModelDense N d x y z)) l s)).
Proof.
  intros N d x y z B l s HN HB. split.
  - apply (single_history _ _ _ (m_p_ij (FitnessModelDense N d x y z)) x y z N); try lia; intros; reflexivity.
  - apply (single_history _ _ _ (m_p_ij (ScaleInvariantModelDense N d x y z)) x y z N); try lia; intros; reflexivity.
Qed.
Print Assumptions C81_single.

(** ** Histories with the fitted parameter. *)
Section Lib.
Variables (m : model) (q : nat -> nat -> R) (B : nat).
Hypothesis Hm : spark_model m q.
Let N := m_N m.
Hypothesis HN : (1 <= N)%nat.
Hypothesis HB : (1 <= B)%nat.
Let tot p sl := spark_edges p (m_out m) (m_in m) (m_dyad m) N B (m_p_ij m) sl.
Let dgs p sl := spark_degrees p (m_out m) (m_in m) (m_dyad m) N B (m_p_ij m) sl.
Let nnf p prop nd sl : res (nat -> R) := Ok (spark_av_nn p (m_out m) (m_in m) (m_dyad m) N B (m_p_ij m) prop nd sl).

Lemma so_deg : forall nd sl v, nd <> Dother -> (v < N)%nat ->
  h_deg_now _ dgs nd (m_param m) sl v = nb_degree N sl (dir_link nd q) v.
Proof. intros nd sl v Hnd Hv. exact (s_degree_spec m q Hm HN B HB nd sl v Hnd Hv). Qed.

Lemma so_prob : forall i j, (i < N)%nat -> (j < N)%nat -> 0 <= q i j <= 1.
Proof.
  intros i j Hi Hj. destruct (spark_twin m q Hm) as (m' & L & EN & _).
  apply (lib_prob m' q L); rewrite EN; assumption.
Qed.

Lemma so_empty : forall nd sl prop v, nd <> Dother -> (v < N)%nat -> nb_degree N sl (dir_link nd q) v = 0 ->
  nb_total N sl (dir_link nd q) prop v = 0.
Proof.
  intros nd sl prop v Hnd Hv H. unfold nb_degree in H. unfold nb_total.
  assert (T : forall j, (j < N)%nat -> 0 <= (if allowed sl v j then dir_link nd q v j else 0)).
  { intros j Hj. destruct (allowed sl v j); [|lra]. pose proof (so_prob v j Hv Hj). pose proof (so_prob j v Hj Hv).
    destruct nd; cbn; unfold out_link, in_link, either_link; try lra. pose proof (so_prob v v Hv Hv). destruct (Nat.eqb v j); nra. }
  apply sumn_zero. intros j Hj. pose proof (sumn_zero_inv N _ T H j Hj) as K. cbn in K.
  destruct (allowed sl v j); [rewrite K; ring | reflexivity].
Qed.

Lemma so_total_ok : h_total_ok _ N dgs nnf (m_param m).
Proof.
  intros prop nd sl Hnd. eexists. split; [reflexivity|]. intros v Hv E.
  rewrite (so_deg nd sl v Hnd Hv) in E.
  change (s_av_nn m B prop nd sl v = 0). rewrite (s_av_nn_spec m q Hm HN B HB prop nd sl v Hnd Hv).
  apply so_empty; assumption.
Qed.

Lemma so_nn : forall nd sl prop v, nd <> Dother -> (v < N)%nat ->
  h_nn_now _ dgs nnf prop nd (m_param m) sl v
  = if Reqb (nb_degree N sl (dir_link nd q) v) 0 then 0
    else nb_total N sl (dir_link nd q) prop v / nb_degree N sl (dir_link nd q) v.
Proof.
  intros nd sl prop v Hnd Hv. unfold h_nn_now. cbn [nnf]. unfold nnf. rewrite (so_deg nd sl v Hnd Hv).
  change (spark_av_nn _ _ _ _ _ _ _ _ _ _ v) with (s_av_nn m B prop nd sl v).
  rewrite (s_av_nn_spec m q Hm HN B HB prop nd sl v Hnd Hv). fold N.
  destruct (Reqb_spec (nb_degree N sl (dir_link nd q) v) 0) as [E|_]; [|reflexivity]. apply so_empty; assumption.
Qed.

Lemma so_answer : forall b own qu, valid_query b own qu ->
  correct_answer m q own qu (h_answer_now _ N tot dgs nnf (m_param m) own qu).
Proof.
  intros b own qu Hq.
  destruct qu as [rc|d rc|len prop nd sl dr|dd nd sl dr rc]; cbn [valid_query correct_answer h_answer_now] in Hq |- *.
  - do 2 f_equal. exact (proj1 (s_edges_spec m q Hm B HB own)).
  - eexists; split; [reflexivity|]. intros v Hv. apply so_deg; assumption.
  - fold N. destruct (Nat.eqb len N); [|reflexivity]. eexists; split; [reflexivity|]. intros v Hv. cbv zeta. apply so_nn; assumption.
  - destruct Hq as (Vd & Vn & _). eexists; split; [reflexivity|]. intros v Hv. cbv zeta. fold N.
    rewrite so_nn by assumption. fold (effective sl own).
    replace (nb_total N (effective sl own) (dir_link nd q) (h_deg_now _ dgs dd (m_param m) (effective sl own)) v)
      with (nb_total N (effective sl own) (dir_link nd q) (nb_degree N (effective sl own) (dir_link dd q)) v); [reflexivity|].
    unfold nb_total. apply sumn_ext; intros j Hj. rewrite so_deg by assumption. reflexivity.
Qed.

Lemma so_history : forall b own qs, Forall (valid_query b own) qs ->
  let r := run_events (so_query m B) (map Ask qs) (new_ens (Some (m_param m)) own) in
  Forall2 (correct_answer m q own) qs (fst r) /\ a_param (snd r) = Some (m_param m) /\ a_selfloops (snd r) = own.
Proof.
  intros b own qs V r. unfold r, so_query.
  rewrite (run_events_ext _ _ _ (sp_query_machine _ _ _ (m_p_ij m) (m_out m) (m_in m) (m_dyad m) (m_N m) B)).
  destruct (h_history_now _ N tot dgs nnf b (m_param m) own qs so_total_ok V (new_ens (Some (m_param m)) own)
    (h_new_fresh _ tot dgs nnf b (m_param m) own) eq_refl) as (A & Bp & C).
  split; [|split; assumption].
  match goal with |- Forall2 _ _ ?x => replace x with (map (h_answer_now _ N tot dgs nnf (m_param m) own) qs) by (symmetry; exact A) end.
  clear A Bp C r.
  induction V as [|qu qs Hq V IH]; cbn [map]; constructor; auto.
  apply (so_answer b). exact Hq.
Qed.
End Lib.

(** Every answer is the documented one.  Full statement: the same without [valid_query]'s condition that all
    nearest-neighbour degree queries use the same effective self-loop option [b]; it is false
    ([C81_history_refuted]). *)
Theorem C81_history_partial : forall m q B b own qs, spark_single m q -> (1 <= m_N m)%nat -> (1 <= B)%nat ->
  Forall (valid_query b own) qs ->
  let r := run_events (so_query m B) (map Ask qs) (new_ens (Some (m_param m)) own) in
  Forall2 (correct_answer m q own) qs (fst r) /\ a_param (snd r) = Some (m_param m) /\ a_selfloops (snd r) = own.
Proof. intros m q B b own qs Hm HN HB V. exact (so_history m q B (single_spark m q Hm) HN HB b own qs V). Qed.
Print Assumptions C81_history_partial.

(** ** The self-loop argument of the likelihood and of the sampler decides, unlike in the single-process
    classes (C44): the likelihood is that of the graph among the admissible pairs of the effective option. *)
Theorem C81_likelihood : forall m q B s g sl G, spark_single m q -> (1 <= B)%nat -> a_param s = Some (m_param m) ->
  (exists row, arg_rows (m_N m) g = Ok row /\ forall i j, (i < m_N m)%nat -> (j < m_N m)%nat ->
     existsb (Nat.eqb j) (row i) = mem (i, j) G) ->
  exists l, so_log_likelihood m B g sl s = Ok l /\
    log_of (graph_weight (m_N m) (effective sl (a_selfloops s)) q G) l.
Proof.
  intros m q B s g sl G Hm HB Hp (row & Er & Hr). unfold so_log_likelihood, sp_log_likelihood. rewrite Hp, Er. cbn [bind].
  eexists. split; [reflexivity|]. fold (effective sl (a_selfloops s)). set (e := effective sl (a_selfloops s)).
  pose proof (spark_kernel m q (single_spark m q Hm)) as K. pose proof (spark_no_dyad m q (single_spark m q Hm)) as (D1 & D2 & D3).
  replace (graph_weight (m_N m) e q G) with (prodn (m_N m) (fun i => prodn (m_N m) (fun j =>
    if allowed e i j then (if existsb (Nat.eqb j) (row i)
      then m_p_ij m (m_param m) (m_out m i) (m_in m j) (m_dyad m i j)
      else 1 - m_p_ij m (m_param m) (m_out m i) (m_in m j) (m_dyad m i j)) else 1))).
  - apply (spark_likelihood_log _ _ _ _ (m_p_ij m)); try assumption.
    + intros i j Hi Hj. destruct (K i j Hi Hj) as (-> & A & _). exact A.
    + intros i j Hi Hj. destruct (K i j Hi Hj) as (-> & _ & A). exact A.
  - unfold graph_weight. apply prodn_ext; intros i Hi. apply prodn_ext; intros j Hj.
    rewrite Hr by assumption. rewrite (proj1 (K i j Hi Hj)). reflexivity.
Qed.
Print Assumptions C81_likelihood.

(** [H] (links with weights) contains exactly the admissible links of [G]. *)
Definition draws (n : nat) (sl : bool) (H : list (nat * nat * R)) (G : list (nat * nat)) : bool :=
  same_links n sl (map fst H) G.

Theorem C81_sample : forall m q B s sl G, spark_single m q -> (1 <= m_N m)%nat -> (1 <= B)%nat -> a_param s = Some (m_param m) ->
  exists p, so_sample m B NoWeights sl s = Ok p /\
    prob p (fun H => draws (m_N m) (effective sl (a_selfloops s)) H G)
    = graph_weight (m_N m) (effective sl (a_selfloops s)) q G.
Proof.
  intros m q B s sl G Hm HN HB Hp. unfold so_sample, sp_sample. rewrite Hp. eexists. split; [reflexivity|].
  fold (effective sl (a_selfloops s)). rewrite <- (s_sample_prob m q (single_spark m q Hm) HN B HB (effective sl (a_selfloops s)) G).
  unfold prob. rewrite expect_bind. apply expect_ext. intros H. cbn [expect]. unfold draws. rewrite map_map. cbn. rewrite map_id. reflexivity.
Qed.
Print Assumptions C81_sample.

(** Without weights every link drawn has weight 1; other weights than "cremb" and an object without parameter are refused. *)
Theorem C81_weights : forall m B s sl,
  (a_param s = None -> forall w, so_sample m B w sl s = Raise GenericException) /\
  (a_param s <> None -> so_sample m B OtherWeights sl s = Raise ValueError) /\
  (forall p us L rest, so_sample m B NoWeights sl s = Ok p -> run_draws p us = Some (L, rest) -> forall e, In e L -> snd e = 1).
Proof.
  intros m B s sl. unfold so_sample, sp_sample. split; [intros -> w; reflexivity|]. split; [intros H; destruct (a_param s); [reflexivity | congruence]|].
  intros p us L rest Hp HL e He. destruct (a_param s) as [d|]; [|discriminate]. injection Hp as <-.
  assert (X : forall (P : prog (list (nat * nat))) us, run_draws (pbind P (fun G => Ret (map (fun e => (e, 1)) G))) us = Some (L, rest) -> exists G, L = map (fun e => (e, 1)) G).
  { induction P as [G|x k IH]; intros vs H; cbn in H; [injection H as <- _; exists G; reflexivity|]. destruct vs as [|u vs]; [discriminate|]. exact (IH _ _ H). }
  destruct (X _ _ HL) as (G & ->). apply in_map_iff in He. destruct He as (x & <- & _). reflexivity.
Qed.
Print Assumptions C81_weights.

(** A new parameter does not clear the caches: the number of links is the old one until [recompute] is asked for. *)
Theorem C81_cached : forall m B d d' own r,
  let now x := spark_edges x (m_out m) (m_in m) (m_dyad m) (m_N m) B (m_p_ij m) own in
  fst (run_events (so_query m B) [Ask (QEdges r); Refit d'; Ask (QEdges false); Ask (QEdges true)] (new_ens (Some d) own))
  = [Ok (Scalar (now d)); Ok (Scalar (now d)); Ok (Scalar (now d'))].
Proof. intros m B d d' own r now. destruct r; reflexivity. Qed.
Print Assumptions C81_cached.

(** ** Concrete cases: three vertices with fitness 1, one of them without in-fitness; two blocks. *)
Definition ex_y (i : nat) : num := Fin (if Nat.eqb i 2 then 0 else 1).
Definition ex_m : model := FitnessModelDense 3 (Fin 1) (fun _ => Fin 1) ex_y (fun _ _ => Fin 1).
Definition ex_q (i j : nat) : R := link_prob logistic [Fin 1; Fin 1; ex_y j; Fin 1].
Lemma ex_single : spark_single ex_m ex_q.
Proof. apply ss_fitness; simpl; try lra. intros i _. unfold ex_y. destruct (Nat.eqb i 2); simpl; lra. Qed.

(** A history with a call, an option change and a new parameter; the two objects differ in their blocks. *)
Example C81_blocks_case :
  Forall2 (same_answer 3)
    (fst (run_events (so_query ex_m 2) [Ask (QNNDegree Dout Din (Some true) false false); SetLoops true; Ask (QDegree Dother false);
       Refit (Fin 4); Ask (QEdges true)] (new_ens (Some (Fin 1)) false)))
    (fst (run_events (so_query ex_m 5) [Ask (QNNDegree Dout Din (Some true) false false); SetLoops true; Ask (QDegree Dother false);
       Refit (Fin 4); Ask (QEdges true)] (new_ens (Some (Fin 1)) false))).
Proof. apply (C81_blocks ex_m ex_q); try exact ex_single; cbn; lia. Qed.

Example C81_single_case : (2 <= m_N ex_m)%nat /\
  Forall2 (same_answer 3) (fst (run_events (so_query ex_m 2) [Ask (QDegree Dother true); Ask (QNNDegree Din Dout None true false);
      Refit (Fin 3); Ask (QDegree Dout false)] (new_ens (Some (Fin 1)) true)))
    (fst (run_events (o_query ex_m) [Ask (QDegree Dother true); Ask (QNNDegree Din Dout None true false);
      Refit (Fin 3); Ask (QDegree Dout false)] (new_ens (Some (Fin 1)) true))).
Proof. split; [cbn; lia|]. apply (proj1 (C81_single 3 (Fin 1) (fun _ => Fin 1) ex_y (fun _ _ => Fin 1) 2 _ _ ltac:(lia) ltac:(lia))). Qed.

Example C81_history_case : spark_single ex_m ex_q /\
  Forall (valid_query true false) [QEdges false; QProperty 3 (fun i => INR i) Din (Some false) false;
    QNNDegree Dout Din (Some true) false false; QDegree Doutin false; QProperty 2 (fun _ => 0) Dout None true].
Proof. split; [exact ex_single|]. repeat constructor; cbn; discriminate. Qed.

(** The graph with the links 0->1 and 1->1 given as a dense array; the loop counts only with the argument. *)
Example C81_likelihood_case : exists row,
  arg_rows 3 (Dense 3 3 (fun i j => if Nat.eqb j 1 then (if Nat.ltb i 2 then 1 else 0) else 0)) = Ok row /\
  (forall i j, (i < 3)%nat -> (j < 3)%nat -> existsb (Nat.eqb j) (row i) = mem (i, j) [(0, 1); (1, 1)]%nat) /\
  graph_weight 3 true ex_q [(0, 1); (1, 1)]%nat <> graph_weight 3 false ex_q [(0, 1); (1, 1)]%nat.
Proof.
  eexists. split; [reflexivity|].
  assert (R1 : Reqb 1 0 = false) by (apply Reqb_false; lra). assert (R0 : Reqb 0 0 = true) by (apply Reqb_true; reflexivity).
  split.
  - intros i j Hi Hj. destruct i as [|[|[|i]]]; try lia; destruct j as [|[|[|j]]]; try lia; cbn; rewrite ?R1, ?R0; reflexivity.
  - assert (Q : forall i j, ex_q i j = if Nat.eqb j 2 then 0 else 1 / 2).
    { intros i j. unfold ex_q, link_prob, ex_y. cbn [existsb is_zero is_infinite prodl toR].
      destruct (Nat.eqb j 2); rewrite !(Reqb_false 1 0) by lra; [rewrite (Reqb_true 0 0) by reflexivity|]; cbn; [reflexivity|].
      unfold logistic. field. }
    unfold graph_weight. cbn [prodn allowed mem existsb]. unfold allowed, mem. cbn. rewrite !Q. cbn. lra.
Qed.

Example C81_weights_case : a_param (new_ens (Some (m_param ex_m)) false) <> None /\
  so_sample ex_m 2 OtherWeights None (new_ens (Some (m_param ex_m)) false) = Raise ValueError.
Proof. split; [discriminate | reflexivity]. Qed.

(** The stale value and the current one differ: parameter 1, then 0. *)
Example C81_cached_case : exists a, a <> 0 /\
  fst (run_events (so_query ex_m 2) [Ask (QEdges false); Refit (Fin 0); Ask (QEdges false); Ask (QEdges true)] (new_ens (Some (Fin 1)) false))
  = [Ok (Scalar a); Ok (Scalar a); Ok (Scalar 0)].
Proof.
  exists (pair_sum 3 false ex_q). pose proof (C81_cached ex_m 2 (Fin 1) (Fin 0) false false) as H. cbv zeta in H.
  assert (E1 : spark_edges (Fin 1) (m_out ex_m) (m_in ex_m) (m_dyad ex_m) (m_N ex_m) 2 (m_p_ij ex_m) false = pair_sum 3 false ex_q).
  { exact (proj1 (s_edges_spec ex_m ex_q (single_spark _ _ ex_single) 2 ltac:(lia) false)). }
  set (m0 := FitnessModelDense 3 (Fin 0) (fun _ => Fin 1) ex_y (fun _ _ => Fin 1)).
  assert (L0 : spark_single m0 (fun i j => link_prob logistic [Fin 0; Fin 1; ex_y j; Fin 1])).
  { apply ss_fitness; [cbn; lra|]. intros i _. unfold ex_y. destruct (Nat.eqb i 2); cbn; lra. }
  assert (E0 : spark_edges (Fin 0) (m_out ex_m) (m_in ex_m) (m_dyad ex_m) (m_N ex_m) 2 (m_p_ij ex_m) false = 0).
  { etransitivity; [exact (proj1 (s_edges_spec m0 _ (single_spark _ _ L0) 2 ltac:(lia) false))|]. unfold pair_sum. apply sumn_zero. intros i _. apply sumn_zero. intros j _.
    destruct (allowed false i j); [|reflexivity]. unfold link_prob. cbn [existsb is_zero]. rewrite (Reqb_true 0 0) by reflexivity. reflexivity. }
  split; [|exact (eq_trans H (f_equal2 (fun a b => [Ok (Scalar a); Ok (Scalar a); Ok (Scalar b)]) E1 E0))].
  assert (Q : forall i j, ex_q i j = if Nat.eqb j 2 then 0 else 1 / 2).
  { intros i j. unfold ex_q, link_prob, ex_y. cbn [existsb is_zero is_infinite prodl toR].
    destruct (Nat.eqb j 2); rewrite !(Reqb_false 1 0) by lra; [rewrite (Reqb_true 0 0) by reflexivity|]; cbn; [reflexivity|]. unfold logistic. field. }
  unfold pair_sum, allowed. cbn. rewrite !Q. cbn. lra.
Qed.

(** A sample asked for with self-loops from an object whose own option excludes them. *)
Example C81_sample_case : exists p, so_sample ex_m 2 NoWeights (Some true) (new_ens (Some (Fin 1)) false) = Ok p /\
  prob p (fun H => draws 3 true H [(0, 1); (1, 1)]%nat) = graph_weight 3 true ex_q [(0, 1); (1, 1)]%nat.
Proof.
  exact (C81_sample ex_m ex_q 2 (new_ens (Some (m_param ex_m)) false) (Some true) _ ex_single ltac:(cbn; lia) ltac:(lia) eq_refl).
Qed.

(** ** What is false *)

(** A cached nearest-neighbour degree is returned whatever option is asked for, as in the single-process
    classes. *)
Theorem C81_history_refuted : exists m q B own qs, spark_single m q /\ (1 <= m_N m)%nat /\ (1 <= B)%nat /\
  (forall qu, In qu qs -> exists b, valid_query b own qu) /\
  ~ Forall2 (correct_answer m q own) qs
      (fst (run_events (so_query m B) (map Ask qs) (new_ens (Some (m_param m)) own))).
Proof.
  set (m := FitnessModelDense 1 (Fin 1) (fun _ => Fin 1) (fun _ => Fin 1) (fun _ _ => Fin 1)).
  set (q := fun _ _ : nat => link_prob logistic [Fin 1; Fin 1; Fin 1; Fin 1]).
  assert (Hm : spark_single m q) by (apply ss_fitness; simpl; try lra; intros; simpl; lra).
  assert (Q : forall i j, q i j = 1 / 2).
  { intros i j. unfold q, link_prob. cbn [existsb is_zero is_infinite prodl toR].
    rewrite !(Reqb_false 1 0) by lra. cbn. unfold logistic. field. }
  exists m, q, 1%nat, false, [QNNDegree Dout Dout (Some true) false false; QNNDegree Dout Dout (Some false) false false].
  split; [exact Hm|]. split; [cbn; lia|]. split; [lia|]. split.
  { intros qu [<-|[<-|[]]]; eexists; cbn; repeat split; discriminate. }
  intros H.
  assert (V : Forall (valid_query true false) [QNNDegree Dout Dout (Some true) false false])
    by (repeat constructor; discriminate).
  pose proof (C81_history_partial m q 1 true false _ Hm ltac:(cbn; lia) ltac:(lia) V) as (F & Fp & _).
  unfold so_query in H, F, Fp.
  rewrite (run_events_ext _ _ _ (sp_query_machine _ _ _ (m_p_ij m) (m_out m) (m_in m) (m_dyad m) (m_N m) 1)) in H, F, Fp.
  cbn [map run_events g_query] in H, F, Fp.
  set (s0 := new_ens (Some (m_param m)) false) in *.
  destruct (g_av_nn_degree _ _ _ Dout Dout (Some true) false false s0) as [[a|e] s1] eqn:E1; cbn [lift_res] in F, Fp, H.
  2:{ inversion F as [|? ? ? ? C _]; subst. destruct C as (b & K & _). discriminate. }
  cbn in Fp. pose proof (g_nn_cached _ _ _ _ _ _ _ _ _ _ _ _ (Some false) _ E1 Fp) as E2.
  cbn [fst snd] in H, F. rewrite E2 in H. cbn [fst] in H.
  inversion F as [|? ? ? ? C1 _]; subst. inversion H as [|? ? ? ? _ H']; subst. inversion H' as [|? ? ? ? C2 _]; subst.
  destruct C1 as (a1 & K1 & C1), C2 as (a2 & K2 & C2).
  inversion K1; inversion K2; subst a1 a2. specialize (C1 0%nat ltac:(cbn; lia)). specialize (C2 0%nat ltac:(cbn; lia)).
  cbv zeta in C1, C2. rewrite C1 in C2. revert C2.
  unfold nb_total, nb_degree, effective, dir_link, out_link, allowed. cbn [m_N m FitnessModelDense sumn Nat.eqb negb orb].
  rewrite !Q, (Reqb_true (0 + 0) 0) by lra. rewrite (Reqb_false (0 + 1 / 2) 0) by lra. intros K. lra.
Qed.
Print Assumptions C81_history_refuted.

(** With one vertex and self-loops the objects differ: the single-process one fails. *)
Theorem C81_single_vertex_refuted : exists N d x y z B l s, (1 <= N)%nat /\ (1 <= B)%nat /\
  ~ Forall2 (same_answer N) (fst (run_events (so_query (FitnessModelDense N d x y z) B) l s))
    (fst (run_events (o_query (FitnessModelDense N d x y z)) l s)).
Proof.
  set (m := FitnessModelDense 1 (Fin 1) (fun _ => Fin 1) (fun _ => Fin 1) (fun _ _ => Fin 1)).
  set (q := fun _ _ : nat => link_prob logistic [Fin 1; Fin 1; Fin 1; Fin 1]).
  assert (Hm : spark_single m q) by (apply ss_fitness; simpl; try lra; intros; simpl; lra).
  exists 1%nat, (Fin 1), (fun _ => Fin 1), (fun _ => Fin 1), (fun _ _ => Fin 1), 1%nat,
    (map Ask [QProperty 1 (fun _ => 1) Dout None false]), (new_ens (Some (Fin 1)) true).
  fold m. split; [lia|]. split; [lia|]. intros H.
  assert (V : Forall (valid_query true true) [QProperty 1 (fun _ => 1) Dout None false]) by (repeat constructor; discriminate).
  pose proof (C81_history_partial m q 1 true true _ Hm ltac:(cbn; lia) ltac:(lia) V) as (F & _).
  change (new_ens (Some (Fin 1)) true) with (new_ens (Some (m_param m)) true) in H.
  remember (fst (run_events (so_query m 1) (map Ask [QProperty 1 (fun _ => 1) Dout None false]) (new_ens (Some (m_param m)) true))) as r eqn:Er.
  clear Er. inversion F as [|? a ? l' C Fl]; subst. inversion H as [|? b ? ? S1 _ Eb]; subst.
  cbn in C. destruct C as (v & -> & _).
  exact S1.
Qed.
Print Assumptions C81_single_vertex_refuted.
