(** Property C92: log_likelihood of the single-label classes treats all graph arguments alike. *)
From Coq Require Import Sorted.
From Verif Require Import Base Num Spec Kernels KernelFacts MultiKernels MultiFacts Prob Ensemble EnsembleFacts EnsembleProps EnsembleState
  Models ModelFacts Ids IdFacts Graphs GraphFacts DenseGraphs DenseFacts PropDense Sampled Layers LayerFacts LayerProps Random RandomFacts PropRandom
  Spark SparkFacts SparkState PropSparkState MultiState MultiStateFacts MultiLik Pipeline PropPipeline PropLikelihood GraphArgs.
Import Num Spec.

Open Scope R_scope.
Open Scope list_scope.

(** * Forms of a graph *)

(** A graph object is built from tables, in any class, or returned by [sample]. *)
Definition made (N : nat) (s : shape) : Prop :=
  (exists w gr, library_graph w N s gr) \/
  (exists ID G (ref : option (reference ID G)) weights L, (forall t, In t L -> 0 < snd t) /\ s = of_sparse (sparse_sample ref weights N L)).
Definition made_dense (w : bool) (N : nat) (s : dshape) : Prop :=
  (exists gr, library_dense w N s gr) \/
  (exists ID G (ref : option (reference ID G)) L, (forall t, In t L -> 0 < snd t /\ (w = false -> snd t = 1)) /\
     s = of_dense (dense_sample ref N L)).

(** The argument is a graph object of the sparse module with [N] vertices, or a matrix of that size; its links are [G].  An undirected graph is linked both ways.  A sparse matrix stores no zeros. *)
Definition link_form (N : nat) (arg : tensor_arg) (G : list (nat * nat)) : Prop :=
  match arg with
  | GGraph n s => n = N /\ made N s /\ layers s <> [] /\
      forall i j, (i < N)%nat -> (j < N)%nat -> (0 < link s i j \/ is_directed s = false /\ 0 < link s j i <-> In (i, j) G)
  | GMatrix m => matrix_form N m G
  | _ => False
  end.
(** The same for the dense module. *)
Definition array_form (N : nat) (arg : dense_arg) (G : list (nat * nat)) : Prop :=
  match arg with
  | HGraph n w s => n = N /\ made_dense w N s /\
      forall i j, (i < N)%nat -> (j < N)%nat -> (0 < dlink s i j \/ d_directed s = false /\ 0 < dlink s j i <-> In (i, j) G)
  | HMatrix m => matrix_form N m G
  | _ => False
  end.

(** No position is stored twice; no negative weights. *)
Definition no_repeats (N : nat) (arg : tensor_arg) : Prop :=
  match arg with GMatrix (MStored _ _ e) => forall i, (i < N)%nat -> NoDup (map fst (e i)) | _ => True end.
Definition no_negative (N : nat) (arg : tensor_arg) : Prop :=
  match arg with
  | GMatrix (MStored _ _ e) => forall i x, (i < N)%nat -> In x (e i) -> 0 <= snd x
  | GMatrix (MArray _ _ a) => forall i j, (i < N)%nat -> (j < N)%nat -> 0 <= a i j
  | _ => True
  end.

Lemma sorted_nodup : forall l : list nat, StronglySorted lt l -> NoDup l.
Proof.
  induction l as [|a l IH]; intros H; [constructor|]. inversion H as [|? ? H1 H2]; subst. constructor; [|apply IH; exact H1].
  intros K. rewrite Forall_forall in H2. specialize (H2 a K). lia.
Qed.

Lemma made_valid : forall N s, made N s -> exists w, valid w N s.
Proof.
  intros N s [(w & gr & H) | (ID & G & ref & weights & L & H & ->)].
  - exists w. eapply library_valid; exact H.
  - exists weights. replace (of_sparse (sparse_sample ref weights N L)) with (SDiGraph (coo_tocsr (negb weights) N L)) by (destruct ref; reflexivity).
    constructor; [|constructor]. split; [apply coo_wf, Forall_forall; exact H | reflexivity].
Qed.

Lemma made_dense_valid : forall w N s, made_dense w N s -> dvalid w s.
Proof.
  intros w N s [(gr & H) | (ID & G & ref & L & H & ->)]; [eapply library_dense_valid; exact H|].
  replace (of_dense (dense_sample ref N L)) with (DDiGraph (assign_all L)) by (destruct ref; reflexivity). apply assign_ok. exact H.
Qed.

Lemma read_form : forall N arg G, in_range N G -> link_form N arg G ->
  exists e, read_matrix arg = Ok (N, N, e) /\ same_rows N (fun i => map fst (e i)) (row_of G) /\
    (no_repeats N arg -> forall i, (i < N)%nat -> NoDup (map fst (e i))) /\
    (no_negative N arg -> forall i x, (i < N)%nat -> In x (e i) -> 0 < snd x).
Proof.
  intros N arg G HG H. destruct arg as [n s|m|k r c a| |l|]; cbn [link_form] in H; try contradiction.
  - destruct H as (-> & HL & L & H). destruct (made_valid _ _ HL) as (w & V). destruct (adjacency_ok N s true false L) as [A EA].
    destruct (adjacency_spec w N s true false A V EA) as [HA HV]. cbn [read_matrix]. rewrite EA. cbn [bind]. exists (sp_row A).
    split; [reflexivity|]. split; [|split].
    + assert (Gd : good_layer N G (spm_layer N A)); [|destruct Gd as (_ & _ & Gd); exact Gd].
      apply spm_good; [exact HA | exact HG |]. intros i j Hi Hj. rewrite (HV i j Hi Hj). rewrite <- (H i j Hi Hj). unfold view. cbn [andb].
      pose proof (link_nonneg _ _ _ i j V Hi) as P1. pose proof (link_nonneg _ _ _ j i V Hj) as P2.
      destruct (is_directed s).
      * rewrite present_lt by exact P1. split; [auto | intros [K | [K _]]; [exact K | discriminate]].
      * rewrite neighbours_lt by assumption. split; [intros [K | K]; auto | intros [K | [_ K]]; auto].
    + intros _ i Hi. destruct (HA i Hi) as [S _]. apply sorted_nodup; exact S.
    + intros _ i x Hi Hx. destruct (HA i Hi) as [_ F]. rewrite Forall_forall in F. apply (F x Hx).
  - destruct (matrix_form_layer N m G HG H) as (_ & _ & Gd). destruct m as [r c e|r c a]; cbn [matrix_form] in H.
    + destruct H as (-> & -> & H1 & _). exists e. split; [reflexivity|]. split; [exact Gd|]. split; [auto|].
      intros P i x Hi Hx. specialize (P i x Hi Hx). destruct (H1 i x Hi Hx) as [_ Z]. lra.
    + destruct H as (-> & -> & _). eexists. split; [reflexivity|].
      assert (M : forall i, map fst (map (fun j => (j, a i j)) (filter (fun j => negb (Reqb (a i j) 0)) (seq 0 N))) = filter (fun j => negb (Reqb (a i j) 0)) (seq 0 N)).
      { intros i. rewrite map_map. cbn [fst]. apply map_id. }
      split; [intros i j Hi; rewrite M; apply Gd; exact Hi|]. split.
      * intros _ i Hi. rewrite M. apply NoDup_filter, seq_NoDup.
      * intros P i x Hi Hx. apply in_map_iff in Hx. destruct Hx as (j & <- & Hj). apply filter_In in Hj. destruct Hj as [Hj Z].
        apply in_seq in Hj. specialize (P i j Hi ltac:(lia)). cbn [snd]. destruct (Reqb_spec (a i j) 0); [discriminate | lra].
Qed.

Lemma array_read : forall N arg G, array_form N arg G ->
  exists a, read_array arg = Ok (N, N, a) /\ forall i j, (i < N)%nat -> (j < N)%nat -> negb (Reqb (a i j) 0) = mem (i, j) G.
Proof.
  intros N arg G H. destruct arg as [n w s|m|k r c a| |l| |]; cbn [array_form] in H; try contradiction.
  - destruct H as (-> & HL & H). apply made_dense_valid in HL. eexists. split; [reflexivity|]. intros i j Hi Hj.
    pose proof (dlink_nonneg _ _ HL) as P. rewrite (d_view _ _ _ _ _ _ HL). cbn [andb]. apply mem_nonzero. rewrite <- (H i j Hi Hj).
    destruct (d_directed s).
    + rewrite pos_nonzero by (unfold present; destruct (Req_EM_T (dlink s i j) 0); lra). rewrite present_lt by apply P.
      split; [auto | intros [K | [K _]]; [exact K | discriminate]].
    + rewrite pos_nonzero by (unfold neighbours, present; destruct (Req_EM_T (both_ways (dlink s) i j) 0); lra).
      rewrite neighbours_lt by apply P. split; [intros [K | K]; auto | intros [K | [_ K]]; auto].
  - destruct m as [r c e|r c a]; cbn [matrix_form] in H; destruct H as (-> & -> & H); (eexists; split; [reflexivity|]); intros i j Hi Hj;
      cbn [matrix_at]; apply mem_nonzero.
    + destruct H as [H1 H2]. rewrite first_stored; [apply H2; assumption|]. intros x Hx. apply (H1 i x Hi Hx).
    + apply H; assumption.
Qed.

(** * C92: fitness and scale-invariant models *)

Theorem C92_sparse : forall m q arg selfloops s G, library_model m q -> a_param s = Some (m_param m) -> in_range (m_N m) G ->
  link_form (m_N m) arg G ->
  exists l, sparse_likelihood m arg selfloops s = Ok l /\ log_of (graph_weight (m_N m) (a_selfloops s) q G) l.
Proof.
  intros m q arg selfloops s G Hm Hp HG HF. destruct (read_form _ arg G HG HF) as (e & E & Se & _). unfold sparse_likelihood.
  rewrite Hp, E. cbn [bind]. unfold o_log_likelihood, log_likelihood. rewrite Hp, Nat.eqb_refl. cbn [andb guard]. eexists. split; [reflexivity|].
  rewrite (likelihood_rows _ _ _ _ _ _ _ _ _ _ _ _ _ _ Se). exact (lib_likelihood m q Hm (a_selfloops s) G).
Qed.
Print Assumptions C92_sparse.

Theorem C92_dense : forall m q arg selfloops s G, library_model m q -> a_param s = Some (m_param m) -> array_form (m_N m) arg G ->
  exists l, dense_likelihood m arg selfloops s = Ok l /\ log_of (graph_weight (m_N m) (a_selfloops s) q G) l.
Proof.
  intros m q arg selfloops s G Hm Hp HF. destruct (array_read _ arg G HF) as (a & E & Ha). unfold dense_likelihood.
  rewrite Hp, E. cbn [bind]. rewrite Nat.eqb_refl. cbn [andb guard]. eexists. split; [reflexivity|].
  pose proof (lib_likelihood m q Hm (a_selfloops s) G) as L. unfold m_likelihood in L. rewrite likelihood_sparse_dense in L.
  match type of L with log_of _ ?x => match goal with |- log_of _ ?y => replace y with x; [exact L|] end end.
  unfold likelihood_dense. f_equal. apply MultiLik.for_flow_ext. intros i s0 Hi. apply MultiLik.for_flow_ext. intros j s1 Hj.
  rewrite row_of_mem, Ha by assumption. reflexivity.
Qed.
Print Assumptions C92_dense.

(** The Spark classes, in any number of blocks; here the option given to the call decides. *)
Theorem C92_spark : forall m q B arg selfloops s G, spark_single m q -> (1 <= B)%nat -> a_param s = Some (m_param m) ->
  in_range (m_N m) G -> link_form (m_N m) arg G ->
  exists l, spark_arg_likelihood m B arg selfloops s = Ok l /\
    log_of (graph_weight (m_N m) (match selfloops with None => a_selfloops s | Some b => b end) q G) l.
Proof.
  intros m q B arg selfloops s G Hm HB Hp HG HF. destruct (read_form _ arg G HG HF) as (e & E & Se & _). unfold spark_arg_likelihood.
  rewrite Hp, E. cbn [bind]. apply (C81_likelihood m q B s (Spark.Stored (m_N m) (m_N m) e) selfloops G Hm HB Hp).
  cbn [arg_rows]. rewrite Nat.eqb_refl. cbn [andb guard]. eexists. split; [reflexivity|]. intros i j Hi _. cbn beta.
  rewrite (existsb_iff (map fst (e i)) (row_of G i)) by (intros k; apply Se; exact Hi). apply row_of_mem.
Qed.
Print Assumptions C92_spark.

Lemma log_of_unique : forall p l l', log_of p l -> log_of p l' -> l = l'.
Proof. intros p l l' [[H E] | [H E]] [[H' E'] | [H' E']]; subst; try reflexivity; lra. Qed.

(** The same model in the three modules gives the same value, in whatever form the graph is passed. *)
Theorem C92_agree : forall m m' ms q B arg arg' dar N own, library_model m q -> library_model m' q -> spark_single ms q -> (1 <= B)%nat ->
  m_N m = N -> m_N m' = N -> m_N ms = N -> forall G, in_range N G -> link_form N arg G -> link_form N arg' G -> array_form N dar G ->
  exists l, sparse_likelihood m arg None (new_ens (Some (m_param m)) own) = Ok l /\
    sparse_likelihood m arg' None (new_ens (Some (m_param m)) own) = Ok l /\
    dense_likelihood m' dar None (new_ens (Some (m_param m')) own) = Ok l /\
    spark_arg_likelihood ms B arg None (new_ens (Some (m_param ms)) own) = Ok l.
Proof.
  intros m m' ms q B arg arg' dar N own Hm Hm' Hs HB <- EN EN' G HG HF HF' HD.
  destruct (C92_sparse m q arg None (new_ens (Some (m_param m)) own) G Hm eq_refl HG HF) as (l & E & L).
  destruct (C92_sparse m q arg' None (new_ens (Some (m_param m)) own) G Hm eq_refl HG HF') as (l1 & E1 & L1).
  rewrite <- EN in HD. destruct (C92_dense m' q dar None (new_ens (Some (m_param m')) own) G Hm' eq_refl HD) as (l2 & E2 & L2).
  rewrite <- EN' in HG, HF. destruct (C92_spark ms q B arg None (new_ens (Some (m_param ms)) own) G Hs HB eq_refl HG HF) as (l3 & E3 & L3).
  cbn [new_ens a_selfloops] in *. rewrite EN in L2. rewrite EN' in L3. exists l.
  rewrite (log_of_unique _ _ _ L1 L) in E1. rewrite (log_of_unique _ _ _ L2 L) in E2. rewrite (log_of_unique _ _ _ L3 L) in E3. auto.
Qed.
Print Assumptions C92_agree.

(** What is refused: before the parameter is set, everything; then what is neither a graph nor a matrix, and matrices of
    another size. *)
Theorem C92_rejected : forall m B s selfloops,
  (a_param s = None -> forall g h, sparse_likelihood m g selfloops s = Raise GenericException /\
     spark_arg_likelihood m B g selfloops s = Raise GenericException /\ dense_likelihood m h selfloops s = Raise GenericException) /\
  (forall d, a_param s = Some d ->
     (forall g, match g with GGraph n _ => n <> m_N m /\ exists A, read_matrix g = Ok A
                | GMatrix x => matrix_shape x <> (m_N m, m_N m) | _ => True end ->
        sparse_likelihood m g selfloops s = Raise ValueError /\ spark_arg_likelihood m B g selfloops s = Raise ValueError) /\
     (forall h, match h with HGraph n _ _ => n <> m_N m | HMatrix x => matrix_shape x <> (m_N m, m_N m) | _ => True end ->
        dense_likelihood m h selfloops s = Raise ValueError)).
Proof.
  intros m B s selfloops.
  assert (Q : forall r c, (r, c) <> (m_N m, m_N m) -> Nat.eqb r (m_N m) && Nat.eqb c (m_N m) = false).
  { intros r c K. destruct (Nat.eqb_spec r (m_N m)) as [-> |]; [|reflexivity]. destruct (Nat.eqb_spec c (m_N m)) as [-> |]; [|reflexivity].
    exfalso; apply K; reflexivity. }
  split; [intros Hp g h; unfold sparse_likelihood, spark_arg_likelihood, dense_likelihood; rewrite Hp; auto|].
  intros d Hp. split.
  - intros g H. unfold sparse_likelihood, spark_arg_likelihood. rewrite Hp.
    assert (K : read_matrix g = Raise ValueError \/ exists r c e, read_matrix g = Ok (r, c, e) /\ (r, c) <> (m_N m, m_N m)).
    { destruct g as [n sh|x|k r c a| |l|]; try (left; reflexivity); right.
      - destruct H as [H [((r & c) & e) E]]. exists r, c, e. split; [exact E|]. cbn [read_matrix] in E.
        destruct (adjacency_matrix n sh true false); [|discriminate]. cbn [bind] in E. injection E as <- <- _. congruence.
      - destruct x as [r c e|r c a]; cbn [matrix_shape] in H; cbn [read_matrix]; eexists _, _, _; (split; [reflexivity | exact H]). }
    destruct K as [K | (r & c & e & K & D)]; rewrite K; cbn [bind]; [auto|].
    unfold o_log_likelihood, log_likelihood, sp_log_likelihood. rewrite Hp. cbn [arg_rows]. rewrite (Q r c D). cbn [guard bind]. auto.
  - intros h H. unfold dense_likelihood. rewrite Hp. destruct h as [n w sh|x|k r c a| |l| |]; cbn [read_array bind]; try reflexivity.
    + rewrite (Q n n) by congruence. reflexivity.
    + rewrite (Q _ _) by (destruct (matrix_shape x); exact H). reflexivity.
Qed.
Print Assumptions C92_rejected.

(** False: the option [selfloops] of the call is ignored, in the dense module as in the sparse one (C44). *)
Theorem C92_selfloops_refuted : exists m q arg G s l, library_model m q /\ array_form (m_N m) arg G /\ a_param s = Some (m_param m) /\
  dense_likelihood m arg (Some true) s = Ok l /\ log_of (graph_weight (m_N m) false q G) l /\
  graph_weight (m_N m) true q G <> graph_weight (m_N m) false q G.
Proof.
  set (m := FitnessModelDense 2 (Fin 1) (fun _ => Fin 1) (fun _ => Fin 1) (fun _ _ => Fin 1)).
  set (a := fun i j : nat => if Nat.eqb i 0 && Nat.eqb j 1 then 1 else 0).
  assert (Hm : library_model m (fun i j => link_prob logistic [Fin 1; Fin 1; Fin 1; Fin 1])).
  { apply (lib_fitness_dense 2 (Fin 1) (fun _ => Fin 1) (fun _ => Fin 1)); cbn; intros; lra. }
  assert (HF : array_form 2 (HMatrix (MArray 2 2 a)) [(0, 1)%nat]).
  { split; [reflexivity|]. split; [reflexivity|]. intros i j Hi Hj. unfold a. destruct i as [|[|i]], j as [|[|j]]; try lia; cbn; split; intros K;
      try (exfalso; apply K; reflexivity); try (destruct K as [K | []]; discriminate); try lra; auto. }
  destruct (C92_dense m _ (HMatrix (MArray 2 2 a)) (Some true) (new_ens (Some (Fin 1)) false) _ Hm eq_refl HF) as (l & E & L).
  exists m, (fun i j => link_prob logistic [Fin 1; Fin 1; Fin 1; Fin 1]), (HMatrix (MArray 2 2 a)), [(0, 1)%nat], (new_ens (Some (Fin 1)) false), l.
  split; [exact Hm|]. split; [exact HF|]. split; [reflexivity|]. split; [exact E|]. split; [exact L|].
  assert (P : link_prob logistic [Fin 1; Fin 1; Fin 1; Fin 1] = 1 / 2).
  { unfold link_prob, logistic. cbn [existsb is_zero is_infinite prodl toR orb]. rewrite !Reqb_false by lra. cbn [orb]. lra. }
  change (m_N m) with 2%nat. unfold graph_weight, allowed, mem, pair_eqb. cbn [prodn existsb Nat.eqb negb orb andb fst snd]. rewrite P. lra.
Qed.
Print Assumptions C92_selfloops_refuted.

(** * C92: RandomDiGraph *)

(** The links in the order of the pairs. *)
Definition ordered (N : nat) (b : bool) (G : list (nat * nat)) : list (nat * nat) := filter (fun e => mem e G) (pairs N b).

Lemma ordered_graph : forall N b G, In (ordered N b G) (all_graphs N b).
Proof. intros. apply filter_sublist. Qed.

Lemma ordered_mem : forall N b G i j, (i < N)%nat -> (j < N)%nat -> allowed b i j = true -> mem (i, j) (ordered N b G) = mem (i, j) G.
Proof.
  intros N b G i j Hi Hj A. apply Bool.eq_iff_eq_true. rewrite !mem_in. unfold ordered. rewrite filter_In, mem_in, in_pairs. tauto.
Qed.

Lemma ordered_weight : forall N b f G, graph_weight N b f (ordered N b G) = graph_weight N b f G.
Proof.
  intros N b f G. unfold graph_weight. apply prodn_ext; intros i Hi. apply prodn_ext; intros j Hj.
  destruct (allowed b i j) eqn:A; [|reflexivity]. rewrite (ordered_mem N b G i j Hi Hj A). reflexivity.
Qed.

Lemma ordered_all : forall N b G, in_range N G -> (forall i j, In (i, j) G -> allowed b i j = true) -> forall e, In e (ordered N b G) <-> In e G.
Proof.
  intros N b G HG HA (i, j). unfold ordered. rewrite filter_In, mem_in, in_pairs. split; [tauto|]. intros H.
  destruct (HG i j H). specialize (HA i j H). tauto.
Qed.

(** The formula for the number of links. *)
Lemma formula_value : forall N b p G d, 0 < p < 1 -> (b = false -> d = false) ->
  rnd_formula N (Fin p) (length (ordered N b G)) b d = Ok (Fin (ln (graph_weight N b (fun _ _ => p) G))).
Proof.
  intros N b p G d Hp Hd. pose proof (ordered_graph N b G) as HG. rewrite <- ordered_weight. unfold rnd_formula.
  unfold neqb. rewrite (Reqb_false p 0), (Reqb_false p 1) by lra. cbn [andb].
  unfold py_log, py_log1p. rewrite Rltb_true by lra. cbn [bind nopp nadd]. unfold py_log. rewrite Rltb_true by lra. cbn [bind].
  rewrite const_weight by exact HG. rewrite ln_mult by (apply pow_lt; lra). rewrite !ln_pow by lra.
  rewrite minus_INR by (apply graph_length; exact HG). rewrite pairs_length. replace (1 - p) with (1 + - p) by ring.
  destruct b; [reflexivity|]. rewrite (Hd eq_refl). reflexivity.
Qed.

Lemma formula_loop : forall N p k, 0 < p < 1 -> rnd_formula N (Fin p) k false true = Ok NInf.
Proof.
  intros N p k Hp. unfold rnd_formula, neqb. rewrite (Reqb_false p 0), (Reqb_false p 1) by lra. cbn [andb].
  unfold py_log, py_log1p. rewrite Rltb_true by lra. cbn [bind nopp nadd]. unfold py_log. rewrite Rltb_true by lra. reflexivity.
Qed.

Lemma same_length : forall l l' : list nat, NoDup l -> NoDup l' -> (forall x, In x l <-> In x l') -> length l = length l'.
Proof. intros l l' H H' E. apply Nat.le_antisymm; apply NoDup_incl_length; try assumption; intros x Hx; apply E; exact Hx. Qed.

Lemma row_of_nodup : forall G i, NoDup G -> NoDup (row_of G i).
Proof.
  intros G i H. unfold row_of. apply (NoDup_map_inv (fun j => (i, j))). rewrite map_map.
  rewrite (map_ext_in _ (fun e => e)); [rewrite map_id; apply NoDup_filter; exact H|].
  intros (a, b) K. apply filter_In in K. destruct K as [_ K]. cbn in *. apply Nat.eqb_eq in K. congruence.
Qed.

Lemma nnz_ordered : forall N b G e, in_range N G -> (forall i j, In (i, j) G -> allowed b i j = true) ->
  same_rows N (fun i => map fst (e i : list (nat * R))) (row_of G) -> (forall i, (i < N)%nat -> NoDup (map fst (e i))) ->
  nnz N (fun i => map fst (e i)) = length (ordered N b G).
Proof.
  intros N b G e HG HA Se Hn. pose proof (ordered_all N b G HG HA) as O.
  rewrite <- (nnz_row_of N (ordered N b G)).
  - apply INR_eq. rewrite !nnz_length. apply sumn_ext; intros i Hi. f_equal. apply same_length; [apply Hn; exact Hi | |].
    + apply row_of_nodup. unfold ordered. apply NoDup_filter, NoDup_pairs.
    + intros j. rewrite (Se i j Hi), !row_of_in, O. tauto.
  - intros (i, j) K. apply O in K. destruct (HG i j K). assumption.
Qed.

Lemma diagonal_none : forall N e, (forall i, (i < N)%nat -> ~ In i (map fst (e i : list (nat * R)))) -> diagonal_sum N e = 0.
Proof.
  intros N e H. unfold diagonal_sum. rewrite <- (sumn_0 N). apply sumn_ext; intros i Hi. apply suml_zero. intros x Hx.
  apply filter_In in Hx. destruct Hx as [Hx K]. apply Nat.eqb_eq in K. exfalso. apply (H i Hi). rewrite <- K at 1. apply in_map; exact Hx.
Qed.

Lemma suml_pos_in : forall (l : list (nat * R)) x, (forall y, In y l -> 0 < snd y) -> In x l -> 0 < suml snd l.
Proof.
  intros l x H Hx. assert (N : forall l : list (nat * R), (forall y, In y l -> 0 < snd y) -> 0 <= suml snd l).
  { induction l0 as [|y l0 IH]; intros K; cbn [suml]; [lra|]. pose proof (K y (or_introl eq_refl)). pose proof (IH (fun z Hz => K z (or_intror Hz))). lra. }
  induction l as [|y l IH]; [contradiction|]. cbn [suml]. destruct Hx as [-> | Hx].
  - pose proof (H x (or_introl eq_refl)). pose proof (N l (fun z Hz => H z (or_intror Hz))). lra.
  - pose proof (H y (or_introl eq_refl)). pose proof (IH (fun z Hz => H z (or_intror Hz)) Hx). lra.
Qed.

Lemma diagonal_some : forall N e i, (forall i x, (i < N)%nat -> In x (e i : list (nat * R)) -> 0 < snd x) -> (i < N)%nat -> In i (map fst (e i)) ->
  0 < diagonal_sum N e.
Proof.
  intros N e i H Hi K. unfold diagonal_sum.
  assert (P : forall i, (i < N)%nat -> 0 <= suml snd (filter (fun x => Nat.eqb (fst x) i) (e i))).
  { intros k Hk. destruct (filter (fun x : nat * R => Nat.eqb (fst x) k) (e k)) as [|x l] eqn:E; [cbn; lra|]. rewrite <- E. apply Rlt_le.
    apply (suml_pos_in _ x); [|rewrite E; left; reflexivity]. intros y Hy. apply filter_In in Hy. apply (H k y Hk). tauto. }
  apply in_map_iff in K. destruct K as (x & Ex & Hx).
  assert (Q : 0 < suml snd (filter (fun x => Nat.eqb (fst x) i) (e i))).
  { apply (suml_pos_in _ x); [intros y Hy; apply filter_In in Hy; apply (H i y Hi); tauto|]. apply filter_In. split; [exact Hx | apply Nat.eqb_eq; exact Ex]. }
  eapply Rlt_le_trans; [exact Q|]. apply (sumn_ge_term N (fun i => suml snd (filter (fun x => Nat.eqb (fst x) i) (e i))) i P Hi).
Qed.

(** Every form of the graph gives the logarithm of its probability; a self-loop, where none is admitted, minus infinity. *)
Theorem C92_random : forall s p q arg selfloops G, r_param s = Some (Fin p, q) -> 0 < p < 1 -> in_range (r_N s) G ->
  link_form (r_N s) arg G -> no_repeats (r_N s) arg ->
  let b := match selfloops with None => r_selfloops s | Some b => b end in
  ((forall i j, In (i, j) G -> allowed b i j = true) ->
     rnd_arg_likelihood arg selfloops s = Ok (Fin (ln (graph_weight (r_N s) b (fun _ _ => p) G)))) /\
  (b = false -> no_negative (r_N s) arg -> (exists i, In (i, i) G) -> rnd_arg_likelihood arg selfloops s = Ok NInf).
Proof.
  intros s p q arg selfloops G Hs Hp HG HF HR b. destruct (read_form _ arg G HG HF) as (e & E & Se & Hn & Hv). specialize (Hn HR).
  unfold rnd_arg_likelihood. rewrite Hs, E. fold b. cbn [bind]. rewrite Nat.eqb_refl. cbn [andb guard]. split.
  - intros HA. rewrite (nnz_ordered _ b G e HG HA Se Hn). apply formula_value; [exact Hp|]. intros Hb.
    rewrite diagonal_none; [apply Rltb_false; lra|]. intros i Hi K. apply (Se i i Hi) in K. apply row_of_in in K. specialize (HA i i K).
    rewrite Hb in HA. unfold allowed in HA. rewrite Nat.eqb_refl in HA. discriminate.
  - intros Hb Hw (i & K). rewrite Hb. destruct (HG i i K) as [Hi _].
    rewrite Rltb_true; [apply formula_loop; exact Hp|]. apply (diagonal_some _ e i (Hv Hw) Hi). apply (Se i i Hi), row_of_in. exact K.
Qed.
Print Assumptions C92_random.

Lemma count_entries_sum : forall n a, INR (count_entries n a) = sumn n (fun i => sumn n (fun j => if Reqb (a i j) 0 then 0 else 1)).
Proof.
  intros n a. unfold count_entries.
  assert (I : forall m i k, INR (for_range m (fun j k => if Reqb (a i j) 0 then k else S k) k) = INR k + sumn m (fun j => if Reqb (a i j) 0 then 0 else 1)).
  { induction m as [|m IH]; intros i k; cbn [for_range sumn]; [lra|]. destruct (Reqb (a i m) 0); rewrite ?S_INR, IH; lra. }
  assert (O : forall m, INR (for_range m (fun i k => for_range n (fun j k => if Reqb (a i j) 0 then k else S k) k) 0%nat)
     = sumn m (fun i => sumn n (fun j => if Reqb (a i j) 0 then 0 else 1))).
  { induction m as [|m IH]; cbn [for_range sumn]; [reflexivity|]. rewrite I, IH. reflexivity. }
  apply O.
Qed.

Lemma count_diagonal_pos : forall n a, (0 < count_diagonal n a)%nat <-> exists i, (i < n)%nat /\ a i i <> 0.
Proof.
  intros n a. unfold count_diagonal. induction n as [|n IH]; cbn [for_range].
  - split; [lia | intros (i & Hi & _); lia].
  - destruct (Reqb_spec (a n n) 0) as [Z | Z].
    + rewrite IH. split; intros (i & Hi & K); exists i; [split; [lia | exact K]|]. split; [|exact K]. destruct (Nat.eq_dec i n); [subst; contradiction | lia].
    + split; [intros _; exists n; split; [lia | exact Z] | intros _; lia].
Qed.

Lemma count_ordered : forall N b G a, in_range N G -> (forall i j, In (i, j) G -> allowed b i j = true) ->
  (forall i j, (i < N)%nat -> (j < N)%nat -> negb (Reqb (a i j) 0) = mem (i, j) G) -> count_entries N a = length (ordered N b G).
Proof.
  intros N b G a HG HA Ha. apply INR_eq. rewrite count_entries_sum, <- (nnz_row_of N (ordered N b G)), nnz_length.
  2:{ intros (i, j) K. apply (ordered_all N b G HG HA) in K. apply (HG i j K). }
  apply sumn_ext; intros i Hi. rewrite length_suml.
  rewrite <- (suml_seq N (fun j => if Reqb (a i j) 0 then 0 else 1)).
  assert (F : suml (fun j => if Reqb (a i j) 0 then 0 else 1) (seq 0 N) = INR (length (filter (fun j => mem (i, j) G) (seq 0 N)))).
  { rewrite length_suml, suml_filter. apply suml_ext. intros j Hj. apply in_seq in Hj. rewrite <- Ha by lia. destruct (Reqb (a i j) 0); reflexivity. }
  rewrite F, <- length_suml. f_equal. apply same_length.
  - apply NoDup_filter, seq_NoDup.
  - apply row_of_nodup. unfold ordered. apply NoDup_filter, NoDup_pairs.
  - intros j. rewrite filter_In, in_seq, mem_in, row_of_in, (ordered_all N b G HG HA). split; [tauto|]. intros K. destruct (HG i j K). split; [lia | exact K].
Qed.

(** The dense module: the same for graph objects and numpy arrays. *)
Theorem C92_dense_random : forall s p q arg selfloops G, r_param s = Some (Fin p, q) -> 0 < p < 1 -> in_range (r_N s) G ->
  array_form (r_N s) arg G ->
  let b := match selfloops with None => r_selfloops s | Some b => b end in
  ((forall i j, In (i, j) G -> allowed b i j = true) ->
     rnd_dense_likelihood false arg selfloops s = Ok (Fin (ln (graph_weight (r_N s) b (fun _ _ => p) G)))) /\
  (b = false -> (exists i, In (i, i) G) -> rnd_dense_likelihood false arg selfloops s = Ok NInf).
Proof.
  intros s p q arg selfloops G Hs Hp HG HF b. destruct (array_read _ arg G HF) as (a & E & Ha).
  unfold rnd_dense_likelihood. rewrite Hs, E. fold b. cbn [bind]. rewrite Nat.eqb_refl. cbn [andb guard].
  replace (match arg with HMatrix _ => count_diagonal (r_N s) a | _ => count_diagonal (r_N s) a end) with (count_diagonal (r_N s) a) by (destruct arg; reflexivity).
  assert (D : (0 < count_diagonal (r_N s) a)%nat <-> exists i, In (i, i) G).
  { rewrite count_diagonal_pos. split.
    - intros (i & Hi & K). exists i. apply mem_in. rewrite <- (Ha i i Hi Hi). destruct (Reqb_spec (a i i) 0); [contradiction | reflexivity].
    - intros (i & K). destruct (HG i i K) as [Hi _]. exists i. split; [exact Hi|]. apply mem_in in K. rewrite <- (Ha i i Hi Hi) in K.
      destruct (Reqb_spec (a i i) 0); [discriminate | assumption]. }
  split.
  - intros HA. rewrite (count_ordered _ b G a HG HA Ha). apply formula_value; [exact Hp|]. intros Hb. apply Nat.ltb_ge, Nat.nlt_ge. rewrite D.
    intros (i & K). specialize (HA i i K). rewrite Hb in HA. unfold allowed in HA. rewrite Nat.eqb_refl in HA. discriminate.
  - intros Hb K. rewrite Hb. rewrite (proj2 (Nat.ltb_lt _ _)) by (apply D; exact K). apply formula_loop; exact Hp.
Qed.
Print Assumptions C92_dense_random.

(** At the two ends of the range of the probability: a graph with links has minus infinity (for probability 1 also the complete
    graph, cf. [C48_complete_refuted]), the graph without links raises, in every form. *)
Theorem C92_degenerate : forall s p q arg dar selfloops G, r_param s = Some (Fin p, q) -> p = 0 \/ p = 1 -> in_range (r_N s) G ->
  link_form (r_N s) arg G -> array_form (r_N s) dar G ->
  (G <> [] -> rnd_arg_likelihood arg selfloops s = Ok NInf /\ rnd_dense_likelihood false dar selfloops s = Ok NInf) /\
  (G = [] -> rnd_arg_likelihood arg selfloops s = Raise ValueError /\ rnd_dense_likelihood false dar selfloops s = Raise ValueError).
Proof.
  intros s p q arg dar selfloops G Hs Hp HG HF HA. destruct (read_form _ arg G HG HF) as (e & E & Se & _ & _).
  destruct (array_read _ dar G HA) as (a & E' & Ha).
  unfold rnd_arg_likelihood, rnd_dense_likelihood. rewrite Hs, E, E'. cbn [bind]. rewrite !Nat.eqb_refl. cbn [andb guard].
  assert (F : forall N k b d, (0 < k)%nat -> rnd_formula N (Fin p) k b d = Ok NInf).
  { intros N k b d Hk. unfold rnd_formula, neqb. destruct Hp as [-> | ->].
    - rewrite (Reqb_true 0 0) by reflexivity. apply Nat.ltb_lt in Hk. rewrite Hk. reflexivity.
    - rewrite (Reqb_false 1 0), (Reqb_true 1 1) by lra. destruct k; [lia|]. reflexivity. }
  assert (Z : forall N b d, rnd_formula N (Fin p) 0 b d = Raise ValueError).
  { intros N b d. unfold rnd_formula, neqb. destruct Hp as [-> | ->].
    - rewrite (Reqb_true 0 0), (Reqb_false 0 1) by lra. cbn [andb Nat.ltb Nat.leb]. unfold py_log. rewrite Rltb_false by lra. reflexivity.
    - rewrite (Reqb_false 1 0), (Reqb_true 1 1) by lra. cbn [andb negb Nat.eqb]. unfold py_log1p, py_log. rewrite Rltb_true by lra. cbn [bind nopp nadd].
      rewrite Rltb_false by lra. reflexivity. }
  assert (K : nnz (r_N s) (fun i => map fst (e i)) = 0%nat <-> G = []).
  { split.
    - intros K. destruct G as [|(i, j) G]; [reflexivity|]. exfalso. destruct (HG i j (or_introl eq_refl)) as [Hi Hj].
      assert (P : 0 < INR (nnz (r_N s) (fun i => map fst (e i)))); [|rewrite K in P; cbn in P; lra]. rewrite nnz_length.
      eapply Rlt_le_trans; [|apply (sumn_ge_term _ (fun i => INR (length (map fst (e i)))) i); [intros; apply pos_INR | exact Hi]].
      assert (In j (map fst (e i))) by (apply (Se i j Hi), row_of_in; left; reflexivity). destruct (map fst (e i)); [contradiction|].
      cbn [length]. apply lt_0_INR. lia.
    - intros ->. apply INR_eq. rewrite nnz_length. change (INR 0) with 0. rewrite <- (sumn_0 (r_N s)). apply sumn_ext; intros i Hi.
      destruct (map fst (e i)) as [|j l] eqn:L; [reflexivity|]. exfalso. assert (In j (row_of [] i)) by (apply (Se i j Hi); rewrite L; left; reflexivity).
      apply row_of_in in H. contradiction. }
  assert (K' : count_entries (r_N s) a = 0%nat <-> G = []).
  { split.
    - intros K'. destruct G as [|(i, j) G]; [reflexivity|]. exfalso. destruct (HG i j (or_introl eq_refl)) as [Hi Hj].
      assert (P : 0 < INR (count_entries (r_N s) a)); [|rewrite K' in P; cbn in P; lra]. rewrite count_entries_sum.
      assert (T : forall i j, 0 <= (if Reqb (a i j) 0 then 0 else 1)) by (intros; destruct (Reqb _ _); lra).
      eapply Rlt_le_trans; [|apply (sumn_ge_term _ (fun i => sumn (r_N s) (fun j => if Reqb (a i j) 0 then 0 else 1)) i); [intros; apply sumn_nonneg; intros; apply T | exact Hi]].
      eapply Rlt_le_trans; [|apply (sumn_ge_term _ (fun j => if Reqb (a i j) 0 then 0 else 1) j); [intros; apply T | exact Hj]].
      assert (M : negb (Reqb (a i j) 0) = true) by (rewrite (Ha i j Hi Hj); apply mem_in; left; reflexivity).
      cbn beta. destruct (Reqb (a i j) 0); [discriminate | lra].
    - intros ->. apply INR_eq. rewrite count_entries_sum. change (INR 0) with 0. etransitivity; [|exact (sumn_0 (r_N s))]. apply sumn_ext; intros i Hi.
      etransitivity; [|exact (sumn_0 (r_N s))]. apply sumn_ext; intros j Hj. specialize (Ha i j Hi Hj). destruct (Reqb (a i j) 0); [reflexivity | discriminate]. }
  split; intros HGn.
  - split; apply F; apply Nat.neq_0_lt_0; intros X; [apply K in X | apply K' in X]; contradiction.
  - rewrite (proj2 K HGn), (proj2 K' HGn). split; apply Z.
Qed.
Print Assumptions C92_degenerate.

(** * C92: concrete arguments *)

(** Two vertices and the link from 0 to 1, in five forms. *)
Definition arr01 (i j : nat) : R := if Nat.eqb i 0 && Nat.eqb j 1 then 5 / 2 else 0.
Definition row01 (i : nat) : list (nat * R) := if Nat.eqb i 0 then [(1%nat, 3)] else [].

Lemma form_array : matrix_form 2 (MArray 2 2 arr01) [(0, 1)%nat].
Proof.
  split; [reflexivity|]. split; [reflexivity|]. intros i j Hi Hj. unfold arr01.
  destruct i as [|[|i]], j as [|[|j]]; try lia; cbn; split; intros K; try (exfalso; apply K; reflexivity);
    try (destruct K as [K | []]; discriminate); try lra; auto.
Qed.

Lemma form_stored : matrix_form 2 (MStored 2 2 row01) [(0, 1)%nat].
Proof.
  split; [reflexivity|]. split; [reflexivity|]. unfold row01. split.
  - intros i x Hi Hx. destruct i as [|[|i]]; try lia; cbn in Hx; [|contradiction]. destruct Hx as [<- | []]. cbn. split; [lia | lra].
  - intros i j Hi Hj. destruct i as [|[|i]]; try lia; cbn; split.
    + intros (v & [K | []]). injection K as <- _. auto.
    + intros [K | []]. injection K as <-. exists 3. auto.
    + intros (v & []).
    + intros [K | []]. discriminate.
Qed.

Lemma form_graph : link_form 2 (GGraph 2 (small_graph 2 one_link)) [(0, 1)%nat].
Proof.
  split; [reflexivity|]. split; [left; exists true, None; apply small_library; auto|]. split; [discriminate|].
  intros i j Hi Hj. rewrite !small_link by lia. cbn [small_graph is_directed].
  destruct i as [|[|i]], j as [|[|j]]; try lia; cbn; split; intros K;
    try (destruct K as [K | [K _]]; [lra | discriminate]); try (destruct K as [K | []]; discriminate); auto; left; lra.
Qed.

Lemma form_dense : exists D, array_form 2 (HGraph 2 true (DDiGraph D)) [(0, 1)%nat].
Proof.
  destruct (dense_two_library true [(0%nat, 1%nat, 3/2)]) as (g & _ & _ & H).
  { intros t [<- | []]. cbn. split; [lia|]. split; [lia | lra]. }
  eexists. split; [reflexivity|]. split; [left; eexists; exact H|]. intros i j Hi Hj. cbn [d_directed dlink].
  destruct i as [|[|i]], j as [|[|j]]; try lia; cbn; split; intros K;
    try (destruct K as [K | [K _]]; [lra | discriminate]); try (destruct K as [K | []]; discriminate); auto; left; lra.
Qed.

Example C92_forms : exists D, link_form 2 (GMatrix (MArray 2 2 arr01)) [(0, 1)%nat] /\ link_form 2 (GMatrix (MStored 2 2 row01)) [(0, 1)%nat] /\
  link_form 2 (GGraph 2 (small_graph 2 one_link)) [(0, 1)%nat] /\ array_form 2 (HMatrix (MArray 2 2 arr01)) [(0, 1)%nat] /\
  array_form 2 (HGraph 2 true (DDiGraph D)) [(0, 1)%nat] /\ no_repeats 2 (GMatrix (MStored 2 2 row01)) /\
  no_negative 2 (GMatrix (MStored 2 2 row01)) /\ MultiLik.in_range 2 [(0, 1)%nat].
Proof.
  destruct form_dense as [D HD]. exists D. split; [exact form_array|]. split; [exact form_stored|]. split; [exact form_graph|].
  split; [exact form_array|]. split; [exact HD|]. split; [|split].
  - intros i Hi. unfold row01. destruct (Nat.eqb i 0); repeat constructor; intros [].
  - intros i x Hi Hx. unfold row01 in Hx. destruct (Nat.eqb i 0); cbn in Hx; [|contradiction]. destruct Hx as [<- | []]. cbn. lra.
  - intros i j [K | []]. injection K as <- <-. lia.
Qed.

(** The three modules on these arguments, with fitnesses 1 and parameter 1. *)
Example C92_agree_case : exists m m' ms q D l, library_model m q /\ library_model m' q /\ spark_single ms q /\
  m_N m = 2%nat /\ m_N m' = 2%nat /\ m_N ms = 2%nat /\
  sparse_likelihood m (GMatrix (MStored 2 2 row01)) None (new_ens (Some (m_param m)) false) = Ok l /\
  sparse_likelihood m (GGraph 2 (small_graph 2 one_link)) None (new_ens (Some (m_param m)) false) = Ok l /\
  dense_likelihood m' (HGraph 2 true (DDiGraph D)) None (new_ens (Some (m_param m')) false) = Ok l /\
  spark_arg_likelihood ms 2 (GMatrix (MStored 2 2 row01)) None (new_ens (Some (m_param ms)) false) = Ok l /\ l = Fin (ln (1 / 4)).
Proof.
  destruct C92_forms as (D & F1 & F2 & F3 & F4 & F5 & _ & _ & HG).
  set (m := FitnessModel 2 (Fin 1) (fun _ => Fin 1) (fun _ => Fin 1) (fun _ _ => Fin 1)).
  set (m' := FitnessModelDense 2 (Fin 1) (fun _ => Fin 1) (fun _ => Fin 1) (fun _ _ => Fin 1)).
  set (q := fun i j : nat => link_prob logistic [Fin 1; Fin 1; Fin 1; Fin 1]).
  assert (Hm : library_model m q) by (apply (lib_fitness 2 (Fin 1) (fun _ => Fin 1) (fun _ => Fin 1)); cbn; intros; lra).
  assert (Hm' : library_model m' q) by (apply (lib_fitness_dense 2 (Fin 1) (fun _ => Fin 1) (fun _ => Fin 1)); cbn; intros; lra).
  assert (Hs : spark_single m' q) by (apply (ss_fitness 2 (Fin 1) (fun _ => Fin 1) (fun _ => Fin 1)); cbn; intros; lra).
  destruct (C92_agree m m' m' q 2 _ _ _ 2%nat false Hm Hm' Hs ltac:(lia) eq_refl eq_refl eq_refl _ HG F2 F3 F5) as (l & E1 & E2 & E3 & E4).
  exists m, m', m', q, D, l. repeat (split; [first [assumption | reflexivity]|]).
  destruct (C92_sparse m q (GMatrix (MStored 2 2 row01)) None (new_ens (Some (m_param m)) false) _ Hm eq_refl HG F2) as (l' & E & L).
  rewrite E1 in E. injection E as <-. apply (log_of_unique _ _ _ L). left.
  assert (P : link_prob logistic [Fin 1; Fin 1; Fin 1; Fin 1] = 1 / 2).
  { unfold link_prob, logistic. cbn [existsb is_zero is_infinite prodl toR orb]. rewrite !Reqb_false by lra. cbn [orb]. lra. }
  replace (graph_weight _ _ q _) with (1 / 4); [split; [lra | reflexivity]|].
  change (m_N m) with 2%nat. cbn [new_ens a_selfloops]. unfold graph_weight, allowed, mem, pair_eqb, q.
  cbn [prodn existsb Nat.eqb negb orb andb fst snd]. rewrite P. lra.
Qed.

Definition half (loops : bool) : rnd := mkRnd 2 loops None None None (Some (Fin (1 / 2), Fin 0)).

Lemma half_weight : graph_weight 2 false (fun _ _ => 1 / 2) [(0, 1)%nat] = 1 / 4.
Proof. unfold graph_weight, allowed, mem, pair_eqb. cbn [prodn existsb Nat.eqb negb orb andb fst snd]. lra. Qed.

Example C92_random_case : exists D,
  rnd_arg_likelihood (GMatrix (MStored 2 2 row01)) None (half false) = Ok (Fin (ln (1 / 4))) /\
  rnd_arg_likelihood (GGraph 2 (small_graph 2 one_link)) (Some false) (half true) = Ok (Fin (ln (1 / 4))) /\
  rnd_dense_likelihood false (HMatrix (MArray 2 2 arr01)) None (half false) = Ok (Fin (ln (1 / 4))) /\
  rnd_dense_likelihood false (HGraph 2 true (DDiGraph D)) (Some false) (half true) = Ok (Fin (ln (1 / 4))) /\
  rnd_arg_likelihood (GMatrix (MArray 1 1 (fun _ _ => 2))) None (mkRnd 1 false None None None (Some (Fin (1 / 2), Fin 0))) = Ok NInf.
Proof.
  destruct C92_forms as (D & F1 & F2 & F3 & F4 & F5 & R & W & HG). exists D.
  assert (A : forall i j, In (i, j) [(0, 1)%nat] -> allowed false i j = true) by (intros i j [K | []]; injection K as <- <-; reflexivity).
  assert (Hp : 0 < 1 / 2 < 1) by lra. split; [|split; [|split; [|split]]].
  - destruct (C92_random (half false) (1 / 2) (Fin 0) _ None _ eq_refl Hp HG F2 R) as [K _]. rewrite (K A). cbn [half r_N r_selfloops]. rewrite half_weight. reflexivity.
  - destruct (C92_random (half true) (1 / 2) (Fin 0) _ (Some false) _ eq_refl Hp HG F3 I) as [K _]. rewrite (K A). cbn [half r_N r_selfloops]. rewrite half_weight. reflexivity.
  - destruct (C92_dense_random (half false) (1 / 2) (Fin 0) _ None _ eq_refl Hp HG F4) as [K _]. rewrite (K A). cbn [half r_N r_selfloops]. rewrite half_weight. reflexivity.
  - destruct (C92_dense_random (half true) (1 / 2) (Fin 0) _ (Some false) _ eq_refl Hp HG F5) as [K _]. rewrite (K A). cbn [half r_N r_selfloops]. rewrite half_weight. reflexivity.
  - destruct (C92_random (mkRnd 1 false None None None (Some (Fin (1 / 2), Fin 0))) (1 / 2) (Fin 0) (GMatrix (MArray 1 1 (fun _ _ => 2))) None [(0, 0)%nat] eq_refl Hp) as [_ K].
    + intros i j [K | []]. injection K as <- <-. cbn. lia.
    + split; [reflexivity|]. split; [reflexivity|]. cbn. intros i j Hi Hj. split; [left; f_equal; lia | lra].
    + exact I.
    + apply K; [reflexivity | cbn; intros; lra | exists 0%nat; left; reflexivity].
Qed.

(** * C92: findings *)

Example C92_degenerate_case : exists s arg dar, r_param s = Some (Fin 0, Fin 0) /\ in_range (r_N s) [(0, 1)%nat] /\
  link_form (r_N s) arg [(0, 1)%nat] /\ array_form (r_N s) dar [(0, 1)%nat] /\ rnd_arg_likelihood arg None s = Ok NInf /\
  rnd_dense_likelihood false dar None s = Ok NInf.
Proof.
  destruct form_dense as (D & FD). set (s := mkRnd 2 false None None None (Some (Fin 0, Fin 0))).
  exists s, (GMatrix (MArray 2 2 arr01)), (HGraph 2 true (DDiGraph D)).
  assert (RG : in_range (r_N s) [(0, 1)%nat]). { intros i j [H | []]. injection H as <- <-. cbn. lia. }
  assert (L : link_form (r_N s) (GMatrix (MArray 2 2 arr01)) [(0, 1)%nat]) by (cbn; exact form_array).
  repeat (split; [first [reflexivity | assumption]|]).
  apply (C92_degenerate s 0 (Fin 0) _ _ None [(0, 1)%nat]); try reflexivity; try assumption; [left; reflexivity | discriminate].
Qed.


(** False: the dense RandomDiGraph takes every link of a [csr_matrix] for a self-loop.  Its test of the diagonal looks at all entries of
    what [todense] makes of the matrix. *)
Theorem C92_matrix_refuted : exists s p q arg G, r_param s = Some (Fin p, q) /\ 0 < p < 1 /\ r_selfloops s = false /\
  array_form (r_N s) arg G /\ (forall i j, In (i, j) G -> i <> j) /\
  rnd_dense_likelihood false arg None s = Ok (Fin (ln (graph_weight (r_N s) false (fun _ _ => p) G))) /\
  rnd_dense_likelihood true arg None s = Ok NInf.
Proof.
  exists (half false), (1 / 2), (Fin 0), (HMatrix (MStored 2 2 row01)), [(0, 1)%nat]. split; [reflexivity|]. split; [lra|]. split; [reflexivity|].
  split; [exact form_stored|]. split; [intros i j [K | []]; injection K as <- <-; lia|].
  destruct C92_forms as (D & _ & _ & _ & _ & _ & _ & _ & HG).
  split.
  - apply (C92_dense_random (half false) (1 / 2) (Fin 0) (HMatrix (MStored 2 2 row01)) None [(0, 1)%nat] eq_refl); [lra | exact HG | exact form_stored |].
    intros i j [K | []]; injection K as <- <-; reflexivity.
  - unfold rnd_dense_likelihood. cbn [half r_param r_selfloops r_N read_array matrix_shape matrix_at bind Nat.eqb andb guard fst snd].
    rewrite (proj2 (Nat.ltb_lt _ _)); [apply formula_loop; lra|].
    apply INR_lt. rewrite count_entries_sum. unfold row01. cbn [sumn matrix_at Graphs.stored Nat.eqb find filter map suml fst snd INR]. rewrite ?(Reqb_true 0 0 eq_refl), ?Reqb_false by lra. lra.
Qed.
Print Assumptions C92_matrix_refuted.

(** False: a self-loop is not noticed when the diagonal does not add up to a positive number. *)
Theorem C92_cancel_refuted : exists s p q arg G v, r_param s = Some (Fin p, q) /\ 0 < p < 1 /\ r_selfloops s = false /\
  link_form (r_N s) arg G /\ no_repeats (r_N s) arg /\ In (0, 0)%nat G /\ rnd_arg_likelihood arg None s = Ok (Fin v).
Proof.
  exists (half false), (1 / 2), (Fin 0), (GMatrix (MArray 2 2 (fun i j => if Nat.eqb i 0 && Nat.eqb j 0 then -1 else 0))), [(0, 0)%nat].
  eexists. split; [reflexivity|]. split; [lra|]. split; [reflexivity|]. split.
  { split; [reflexivity|]. split; [reflexivity|]. intros i j Hi Hj. destruct i as [|[|i]], j as [|[|j]]; try (cbn in *; lia); cbn; split; intros K;
      try (exfalso; apply K; reflexivity); try (destruct K as [K | []]; discriminate); try lra; auto. }
  split; [exact I|]. split; [left; reflexivity|].
  unfold rnd_arg_likelihood. cbn [half r_param r_selfloops r_N read_matrix bind Nat.eqb andb guard].
  match goal with |- context [diagonal_sum 2 ?e] => assert (D : diagonal_sum 2 e = -1) end.
  { unfold diagonal_sum. cbn [sumn seq filter map Nat.eqb andb]. rewrite !(Reqb_true 0 0 eq_refl), !Reqb_false by lra.
    cbn [negb filter map fst snd Nat.eqb suml]. lra. }
  rewrite D. rewrite (Rltb_false 0 (-1)) by lra. unfold rnd_formula. unfold neqb. rewrite (Reqb_false (1 / 2) 0), (Reqb_false (1 / 2) 1) by lra.
  cbn [andb]. unfold py_log, py_log1p. rewrite Rltb_true by lra. cbn [bind nopp nadd]. unfold py_log. rewrite Rltb_true by lra. cbn [bind times nadd]. reflexivity.
Qed.
Print Assumptions C92_cancel_refuted.

(** False: stored zeros count as links, so that a matrix and the array it stands for get different values. *)
Theorem C92_zeros_refuted : exists s p q e a, r_param s = Some (Fin p, q) /\ 0 < p < 1 /\
  (forall i j, matrix_at (MStored (r_N s) (r_N s) e) i j = a i j) /\
  rnd_arg_likelihood (GMatrix (MStored (r_N s) (r_N s) e)) None s <> rnd_arg_likelihood (GMatrix (MArray (r_N s) (r_N s) a)) None s.
Proof.
  set (s := mkRnd 2 false None None None (Some (Fin (1 / 3), Fin 0))).
  exists s, (1 / 3), (Fin 0), (fun i => if Nat.eqb i 0 then [(1%nat, 0)] else []), (fun _ _ => 0). split; [reflexivity|]. split; [lra|]. split.
  { intros i j. cbn [matrix_at]. destruct (Nat.eqb i 0); [|reflexivity]. cbn [Graphs.stored]. destruct (Nat.eqb 1 j); reflexivity. }
  unfold rnd_arg_likelihood, s. cbn [r_param r_selfloops r_N read_matrix bind Nat.eqb andb guard].
  unfold rnd_formula, neqb. rewrite (Reqb_false (1 / 3) 0), (Reqb_false (1 / 3) 1) by lra. cbn [andb].
  unfold py_log, py_log1p. rewrite Rltb_true by lra. cbn [bind nopp nadd]. unfold py_log. rewrite Rltb_true by lra. cbn [bind times nadd].
  rewrite !Rltb_false.
  - unfold nnz, pairs_of. cbn [for_range seq filter map fst length Nat.add Nat.eqb]. rewrite !(Reqb_true 0 0 eq_refl). cbn [negb filter map length Nat.add INR].
    intros K. injection K as K. assert (ln (1 / 3) < ln (1 + - (1 / 3))) by (apply ln_increasing; lra). lra.
  - unfold diagonal_sum. cbn [sumn seq filter map Nat.eqb]. rewrite !(Reqb_true 0 0 eq_refl). cbn [negb filter map suml]. lra.
  - unfold diagonal_sum. cbn [sumn filter fst snd Nat.eqb suml]. lra.
Qed.
Print Assumptions C92_zeros_refuted.

(** What RandomDiGraph refuses. *)
Theorem C92_random_rejected : forall s selfloops,
  (r_param s = None -> forall g h two_dim, rnd_arg_likelihood g selfloops s = Raise GenericException /\
     rnd_dense_likelihood two_dim h selfloops s = Raise GenericException) /\
  (forall d, r_param s = Some d ->
     (forall g, match g with GGraph n _ => n <> r_N s /\ exists A, read_matrix g = Ok A
                | GMatrix x => matrix_shape x <> (r_N s, r_N s) | _ => True end -> rnd_arg_likelihood g selfloops s = Raise ValueError) /\
     (forall h two_dim, match h with HGraph n _ _ => n <> r_N s | HMatrix x => matrix_shape x <> (r_N s, r_N s) | _ => True end ->
        rnd_dense_likelihood two_dim h selfloops s = Raise ValueError)).
Proof.
  intros s selfloops.
  assert (Q : forall r c, (r, c) <> (r_N s, r_N s) -> Nat.eqb r (r_N s) && Nat.eqb c (r_N s) = false).
  { intros r c K. destruct (Nat.eqb_spec r (r_N s)) as [-> |]; [|reflexivity]. destruct (Nat.eqb_spec c (r_N s)) as [-> |]; [|reflexivity].
    exfalso; apply K; reflexivity. }
  split; [intros Hp g h t; unfold rnd_arg_likelihood, rnd_dense_likelihood; rewrite Hp; auto|].
  intros (p, c) Hp. split.
  - intros g H. unfold rnd_arg_likelihood. rewrite Hp. destruct g as [n sh|x|k r c' a| |l|]; try reflexivity.
    + destruct H as [H [((r & c') & e) E]]. rewrite E. cbn [bind]. cbn [read_matrix] in E.
      destruct (adjacency_matrix n sh true false); [|discriminate]. cbn [bind] in E. injection E as <- <- _. rewrite (Q n n) by congruence. reflexivity.
    + destruct x as [r c' e|r c' a]; cbn [matrix_shape] in H; cbn [read_matrix bind]; rewrite (Q _ _ H); reflexivity.
  - intros h t H. unfold rnd_dense_likelihood. rewrite Hp. destruct h as [n w sh|x|k r c' a| |l| |]; cbn [read_array bind]; try reflexivity.
    + rewrite (Q n n) by congruence. reflexivity.
    + rewrite (Q _ _) by (destruct (matrix_shape x); exact H). reflexivity.
Qed.
Print Assumptions C92_random_rejected.

(** A list, an array of another size, an object without a parameter. *)
Example C92_rejected_case : rnd_arg_likelihood (GList []) None (half false) = Raise ValueError /\
  rnd_arg_likelihood (GMatrix (MArray 2 3 (fun _ _ => 1))) None (half false) = Raise ValueError /\
  rnd_dense_likelihood true HOther None (mkRnd 2 false None None None None) = Raise GenericException /\
  dense_likelihood (FitnessModelDense 2 (Fin 1) (fun _ => Fin 1) (fun _ => Fin 1) (fun _ _ => Fin 1)) (HMatrix (MArray 3 3 (fun _ _ => 1))) None
    (new_ens (Some (Fin 1)) false) = Raise ValueError.
Proof. repeat split. Qed.
