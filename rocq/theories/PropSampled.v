(** Properties C75 and C76: the graph objects returned by [sample]. *)
From Verif Require Import Base Num Spec Kernels KernelFacts MultiKernels MultiFacts Prob Ensemble EnsembleFacts
  EnsembleProps EnsembleState Models ModelFacts StateFacts StateProps Ids Lib IdFacts Graphs GraphFacts
  DenseGraphs DenseFacts Sampled PropEnsemble.
Import Num Spec.

(** * C75: a sample is a graph with the drawn links *)

(** What the measures of an unweighted directed graph with links [L] on [N] vertices must be. *)
Definition counts (N : nat) (L : list (nat * nat * R)) (edges total : res R) (deg out inn : res (nat -> R)) : Prop :=
  edges = Ok (INR (length L)) /\ total = Ok (INR (length L)) /\
  (exists d, deg = Ok d /\ forall v, (v < N)%nat ->
     d v = INR (length (filter (fun j => mem (v, j) (map fst L) || mem (j, v) (map fst L)) (seq 0 N)))) /\
  (exists d, out = Ok d /\ forall v, (v < N)%nat -> d v = INR (length (filter (fun t => Nat.eqb (fst (fst t)) v) L))) /\
  (exists d, inn = Ok d /\ forall v, (v < N)%nat -> d v = INR (length (filter (fun t => Nat.eqb (snd (fst t)) v) L))).

(** Every graph drawn by a library model, sparse or dense, counts its links. *)
Theorem C75_measures : forall m q s p us L rest ID G (ref : option (reference ID G)), library_model m q ->
  a_param s = Some (m_param m) -> o_sample m NoWeights None s = Ok p -> (forall u, In u us -> 0 <= u < 1) ->
  run_draws p us = Some (L, rest) ->
  let N := m_N m in
  (let o := sparse_sample ref false N L in let g := of_sparse o in
   s_vertices o = N /\ counts N L (num_edges N g) (total_weight N g) (degree N g) (out_degree N g) (in_degree N g)) /\
  (let o := dense_sample ref N L in let g := of_dense o in
   s_vertices o = N /\ counts N L (Ok (d_num_edges N false g)) (Ok (d_total_weight N false g)) (Ok (d_degree N false g))
     (d_out_degree N false g) (d_in_degree N false g)).
Proof.
  intros m q s p us L rest ID G ref Hm Hs Hp Hu H N.
  unfold o_sample, sample in Hp. rewrite Hs in Hp. injection Hp as <-.
  assert (X : exists D, L = ones D /\ run_draws (m_sample m (a_selfloops s)) us = Some (D, rest)).
  { revert H. unfold m_sample. generalize (binary_sample (m_p_ij m) (m_param m) (m_out m) (m_in m) (m_dyad m) (m_N m) (a_selfloops s)) as pr. clear. intros pr. revert us.
    change (forall us, run_draws (pbind pr (fun G => Ret (ones G))) us = Some (L, rest) ->
      exists D, L = ones D /\ run_draws pr us = Some (D, rest)).
    induction pr as [D|x k IH]; intros us H; cbn in *.
    - injection H as <- <-. eauto.
    - destruct us as [|u us]; [discriminate|]. eapply IH. exact H. }
  destruct X as (D & -> & Hd). destruct (lib_sample_admissible m q Hm _ _ _ _ Hu Hd) as (ND & RG & _).
  destruct (g_counts N D ND) as [GE GV]; [intros i j Hij; destruct (RG i j Hij) as (A & B & _); auto|].
  assert (F : map fst (ones D) = D) by (unfold ones; rewrite map_map, map_id; reflexivity).
  assert (Len : length (ones D) = length D) by apply map_length.
  assert (FL : forall b : nat * nat -> bool, length (filter (fun t : nat * nat * R => b (fst t)) (ones D)) = length (filter b D)).
  { intros b. unfold ones. clear. induction D as [|e D IH]; [reflexivity|]. cbn [map filter fst]. destruct (b e); cbn; congruence. }
  assert (DG : forall v, g_deg N D v = INR (length (filter (fun j => mem (v, j) D || mem (j, v) D) (seq 0 N)))).
  { intros v. rewrite count_filter, suml_seq. apply sumn_ext; intros j _. destruct (_ || _); reflexivity. }
  assert (C : forall e t d o i, e = Ok (g_edges N D) -> t = Ok (g_edges N D) ->
    (exists f, d = Ok f /\ forall v, (v < N)%nat -> f v = g_deg N D v) ->
    (exists f, o = Ok f /\ forall v, (v < N)%nat -> f v = g_out N D v) ->
    (exists f, i = Ok f /\ forall v, (v < N)%nat -> f v = g_in N D v) -> counts N (ones D) e t d o i).
  { intros e t d o i -> -> (fd & -> & Fd) (fo & -> & Fo) (fi & -> & Fi). unfold counts. rewrite F, Len, <- GE.
    repeat split; eexists; (split; [reflexivity|]); intros v Hv.
    - rewrite Fd by exact Hv. apply DG.
    - rewrite Fo, (proj1 (GV v Hv)) by exact Hv. rewrite <- (FL (fun e => Nat.eqb (fst e) v)). reflexivity.
    - rewrite Fi, (proj2 (GV v Hv)) by exact Hv. rewrite <- (FL (fun e => Nat.eqb (snd e) v)). reflexivity. }
  split; cbv zeta.
  - split; [destruct ref; reflexivity|].
    replace (of_sparse (sparse_sample ref false N (ones D))) with (SDiGraph (coo_tocsr true N (ones D))) by (destruct ref; reflexivity).
    destruct (sparse_measures N D) as (A1 & A2 & A3 & A4 & A5). apply C; assumption.
  - split; [destruct ref; reflexivity|].
    replace (of_dense (dense_sample ref N (ones D))) with (DDiGraph (assign_all (ones D))) by (destruct ref; reflexivity).
    destruct (dense_measures N D) as (A1 & A2 & A3 & A4 & A5). apply C; try assumption; try (f_equal; assumption).
    eexists. split; [reflexivity | exact A3].
Qed.
Print Assumptions C75_measures.

(** Mean of a measure over the draws; the measures are defined on every draw by [C75_measures]. *)
Definition mean_of (p : prog (list (nat * nat * R))) (f : list (nat * nat * R) -> res R) : R :=
  expect p (fun L => match f L with Ok x => x | Raise _ => 0 end).
Definition mean_at (p : prog (list (nat * nat * R))) (f : list (nat * nat * R) -> res (nat -> R)) (v : nat) : R :=
  expect p (fun L => match f L with Ok x => x v | Raise _ => 0 end).

(** The degree methods by direction. *)
Definition sparse_degree (nd : dir) (N : nat) (g : shape) : res (nat -> R) :=
  match nd with Dout => out_degree N g | Din => in_degree N g | Doutin => degree N g | Dother => Raise ValueError end.
Definition dense_degree (nd : dir) (N : nat) (w : bool) (g : dshape) : res (nat -> R) :=
  match nd with Dout => d_out_degree N w g | Din => d_in_degree N w g | Doutin => Ok (d_degree N w g) | Dother => Raise ValueError end.

Lemma sparse_degree_val : forall nd N D, nd <> Dother ->
  exists d, sparse_degree nd N (SDiGraph (coo_tocsr true N (ones D))) = Ok d /\ forall v, (v < N)%nat -> d v = sumn N (g_link nd D v).
Proof.
  intros nd N D Hd. destruct (sparse_measures N D) as (_ & _ & A3 & A4 & A5). destruct nd; [exact A4 | exact A5 | exact A3 | congruence].
Qed.

Lemma dense_degree_val : forall nd N D, nd <> Dother ->
  exists d, dense_degree nd N false (DDiGraph (assign_all (ones D))) = Ok d /\ forall v, (v < N)%nat -> d v = sumn N (g_link nd D v).
Proof.
  intros nd N D Hd. destruct (dense_measures N D) as (_ & _ & A3 & A4 & A5). destruct nd; [exact A4 | exact A5 | | congruence].
  eexists. split; [reflexivity | exact A3].
Qed.

(** The model's expected numbers of edges and expected degrees are the means over its samples. *)
Theorem C75_means : forall m q s ID G (ref : option (reference ID G)), library_model m q -> a_param s = Some (m_param m) ->
  let N := m_N m in
  exists p e, o_sample m NoWeights None s = Ok p /\ fst (o_num_edges m true s) = Ok e /\
  mean_of p (fun L => num_edges N (of_sparse (sparse_sample ref false N L))) = e /\
  mean_of p (fun L => Ok (d_num_edges N false (of_dense (dense_sample ref N L)))) = e /\
  forall nd, nd <> Dother -> exists a, fst (o_degree m nd true s) = Ok a /\
    forall v, (v < N)%nat ->
      mean_at p (fun L => sparse_degree nd N (of_sparse (sparse_sample ref false N L))) v = a v /\
      mean_at p (fun L => dense_degree nd N false (of_dense (dense_sample ref N L))) v = a v.
Proof.
  intros m q s ID G ref Hm Hs N.
  destruct (sample_mean m q Hm s (fun _ => 0) Hs) as (p & Hp & _).
  assert (M : forall f, expect p f = ensemble_mean N (a_selfloops s) (graph_weight N (a_selfloops s) q) (fun G => f (ones G))).
  { intros f. destruct (sample_mean m q Hm s f Hs) as (p' & Hp' & E). rewrite Hp in Hp'. injection Hp' as <-. exact E. }
  destruct (lib_recompute m q Hm s Hs) as [E D]. fold N in E, D.
  assert (S : forall L, of_sparse (sparse_sample ref false N L) = SDiGraph (coo_tocsr true N L)) by (destruct ref; reflexivity).
  assert (T : forall L, of_dense (dense_sample ref N L) = DDiGraph (assign_all L)) by (destruct ref; reflexivity).
  exists p, (pair_sum N (a_selfloops s) q). split; [exact Hp|]. split; [exact E|]. split; [|split].
  - unfold mean_of. rewrite M, <- mean_edges. apply mean_ext. intros H _. rewrite S, (proj1 (sparse_measures N H)). reflexivity.
  - unfold mean_of. rewrite M, <- mean_edges. apply mean_ext. intros H _. rewrite T, (proj1 (dense_measures N H)). reflexivity.
  - intros nd Hd. destruct (D nd Hd) as (a & Ea & A). exists a. split; [exact Ea|]. intros v Hv.
    rewrite A by exact Hv. rewrite <- (mean_degree N (a_selfloops s) q nd v Hd Hv). unfold mean_at. rewrite !M.
    split; apply mean_ext; intros H _.
    + rewrite S. destruct (sparse_degree_val nd N H Hd) as (d & -> & V). apply V, Hv.
    + rewrite T. destruct (dense_degree_val nd N H Hd) as (d & -> & V). apply V, Hv.
Qed.
Print Assumptions C75_means.

Example C75_case : library_model ex_model ex_q /\ a_param (new_ens (Some (m_param ex_model)) false) = Some (m_param ex_model) /\
  fst (o_num_edges ex_model true (new_ens (Some (m_param ex_model)) false)) = Ok 2.
Proof.
  split; [exact ex_lib|]. split; [reflexivity|].
  rewrite (proj1 (lib_recompute ex_model ex_q ex_lib (new_ens (Some (m_param ex_model)) false) eq_refl)). f_equal.
  unfold pair_sum; simpl. rewrite !ex_q_val. simpl. field.
Qed.

(** Weighted samples: mean strengths and mean total weight are the given ones. *)
Theorem C75_strengths : forall m q s s_out s_in ID G (ref : option (reference ID G)), library_model m q ->
  a_param s = Some (m_param m) -> a_selfloops s = true ->
  let N := m_N m in
  sumn N s_in = sumn N s_out -> sumn N s_out <> 0 ->
  (forall i j, (i < N)%nat -> (j < N)%nat -> s_out i * s_in j <> 0 -> q i j <> 0) ->
  exists p, o_sample m (CrembWeights s_out s_in) None s = Ok p /\
  mean_of p (fun L => total_weight N (of_sparse (sparse_sample ref true N L))) = sumn N s_out /\
  forall v, (v < N)%nat ->
    mean_at p (fun L => out_strength N (of_sparse (sparse_sample ref true N L))) v = s_out v /\
    mean_at p (fun L => in_strength N (of_sparse (sparse_sample ref true N L))) v = s_in v.
Proof.
  intros m q s s_out s_in ID G ref Hm Hs Hl N He Hn Hp.
  destruct (lib_cremb m q Hm s_out s_in He Hn Hp) as (p & Ep & _ & PO & PI).
  assert (S : forall L, of_sparse (sparse_sample ref true N L) = SDiGraph (coo_tocsr false N L)) by (destruct ref; reflexivity).
  exists p. split; [|split].
  - unfold o_sample, sample. rewrite Hs, Hl. exact Ep.
  - unfold mean_of. rewrite <- (sumn_ext N (fun i => expect p (fun L => sumn N (fun j => w_pair i j L))) s_out PO).
    rewrite <- expect_sumn. apply expect_ext. intros L. rewrite S, (proj1 (sparse_strengths N L)). reflexivity.
  - intros v Hv. rewrite <- (PO v Hv) at 1. rewrite <- (PI v Hv) at 1. unfold mean_at.
    split; apply expect_ext; intros L; rewrite S; destruct (sparse_strengths N L) as (_ & (o & Eo & O) & (i & Ei & I)).
    + rewrite Eo. apply O, Hv.
    + rewrite Ei. apply I, Hv.
Qed.
Print Assumptions C75_strengths.

Example C75_strengths_case : library_model ex_model ex_q /\
  a_selfloops (new_ens (Some (m_param ex_model)) true) = true /\
  sumn 3 (fun i => if Nat.ltb i 2 then 3 else 0) = sumn 3 (fun _ => 2) /\ sumn 3 (fun _ => 2) <> 0 /\
  (forall i j, (i < 3)%nat -> (j < 3)%nat -> 2 * (if Nat.ltb j 2 then 3 else 0) <> 0 -> ex_q i j <> 0).
Proof.
  split; [exact ex_lib|]. split; [reflexivity|]. split; [simpl; lra|]. split; [simpl; lra|].
  intros i j _ _ H. rewrite ex_q_val. destruct (Nat.ltb j 2); lra.
Qed.

(** The dense version needs that no pair is drawn twice; it holds for every draw ([C42_weighted]). *)
Theorem C75_dense_strengths : forall m q s s_out s_in p us L rest ID G (ref : option (reference ID G)), library_model m q ->
  a_param s = Some (m_param m) -> o_sample m (CrembWeights s_out s_in) None s = Ok p ->
  (forall u, In u us -> 0 <= u < 1) -> run_draws p us = Some (L, rest) ->
  let N := m_N m in
  let g := of_sparse (sparse_sample ref true N L) in let g' := of_dense (dense_sample ref N L) in
  total_weight N g = Ok (suml snd L) /\ d_total_weight N true g' = suml snd L /\
  (exists d d', out_strength N g = Ok d /\ d_out_strength N true g' = Ok d' /\ forall v, (v < N)%nat ->
     d v = suml (fun t => if Nat.eqb (fst (fst t)) v then snd t else 0) L /\ d' v = d v) /\
  (exists d d', in_strength N g = Ok d /\ d_in_strength N true g' = Ok d' /\ forall v, (v < N)%nat ->
     d v = suml (fun t => if Nat.eqb (snd (fst t)) v then snd t else 0) L /\ d' v = d v).
Proof.
  intros m q s s_out s_in p us L rest ID G ref Hm Hs Hp Hu H N g g'.
  assert (Ep : m_cremb m s_out s_in (a_selfloops s) = Ok p) by (unfold o_sample, sample in Hp; rewrite Hs in Hp; exact Hp).
  destruct (lib_cremb_admissible m q Hm _ _ _ _ _ _ _ Ep Hu H) as (ND & RG & _).
  assert (R0 : forall t, In t L -> (fst (fst t) < N)%nat /\ (snd (fst t) < N)%nat).
  { intros [[i j] w] Ht. destruct (RG i j w Ht) as (A & B & _). auto. }
  assert (Eg : g = SDiGraph (coo_tocsr false N L)) by (unfold g; destruct ref; reflexivity).
  assert (Eg' : g' = DDiGraph (assign_all L)) by (unfold g'; destruct ref; reflexivity).
  destruct (sparse_strengths N L) as (A1 & (o & A2 & O) & (i & A3 & I)). rewrite <- Eg in A1, A2, A3.
  destruct (dense_strengths N L ND) as (B1 & (o' & B2 & O') & (i' & B3 & I')). rewrite <- Eg' in B1, B2, B3.
  assert (SO : forall v, sumn N (fun j => w_pair v j L) = suml (fun t => if Nat.eqb (fst (fst t)) v then snd t else 0) L).
  { intros v. unfold w_pair. rewrite <- suml_sumn_swap. apply suml_ext. intros [[a b] w] Ht. unfold pair_eqb; cbn [fst snd].
    destruct (R0 _ Ht) as [_ Hb]. cbn in Hb. destruct (Nat.eqb a v); cbn [andb]; [|apply sumn_zero; reflexivity].
    rewrite (sumn_ext N _ (fun j => if Nat.eqb j b then w else 0)) by (intros j _; rewrite Nat.eqb_sym; reflexivity).
    rewrite (sumn_delta N b (fun _ => w)). apply Nat.ltb_lt in Hb. rewrite Hb. reflexivity. }
  assert (SI : forall v, sumn N (fun i => w_pair i v L) = suml (fun t => if Nat.eqb (snd (fst t)) v then snd t else 0) L).
  { intros v. unfold w_pair. rewrite <- suml_sumn_swap. apply suml_ext. intros [[a b] w] Ht. unfold pair_eqb; cbn [fst snd].
    destruct (R0 _ Ht) as [Ha _]. cbn in Ha.
    rewrite (sumn_ext N _ (fun i => if Nat.eqb i a then (if Nat.eqb b v then w else 0) else 0)).
    2:{ intros k _. rewrite (Nat.eqb_sym a k). destruct (Nat.eqb k a); reflexivity. }
    rewrite (sumn_delta N a (fun _ => if Nat.eqb b v then w else 0)). apply Nat.ltb_lt in Ha. rewrite Ha. reflexivity. }
  assert (ST : sumn N (fun i => sumn N (fun j => w_pair i j L)) = suml snd L).
  { rewrite (sumn_ext N _ (fun v => suml (fun t => if Nat.eqb (fst (fst t)) v then snd t else 0) L)) by (intros; apply SO).
    rewrite <- suml_sumn_swap. apply suml_ext. intros [[a b] w] Ht. cbn [fst snd]. destruct (R0 _ Ht) as [Ha _]. cbn in Ha.
    rewrite (sumn_ext N _ (fun i => if Nat.eqb i a then w else 0)) by (intros k _; rewrite Nat.eqb_sym; reflexivity).
    rewrite (sumn_delta N a (fun _ => w)). apply Nat.ltb_lt in Ha. rewrite Ha. reflexivity. }
  rewrite ST in A1, B1. split; [exact A1|]. split; [exact B1|]. split.
  - exists o, o'. split; [exact A2|]. split; [exact B2|]. intros v Hv. rewrite (O v Hv), (O' v Hv), SO. auto.
  - exists i, i'. split; [exact A3|]. split; [exact B3|]. intros v Hv. rewrite (I v Hv), (I' v Hv), SI. auto.
Qed.
Print Assumptions C75_dense_strengths.

Example C75_dense_case : exists p w, library_model (two_model 1) (two_q 1) /\
  o_sample (two_model 1) (CrembWeights (fun _ => 1) (fun _ => 1)) None (new_ens (Some (m_param (two_model 1))) false) = Ok p /\
  run_draws p [1 / 4; 3 / 4] = Some ([(0%nat, 1%nat, w)], []).
Proof.
  assert (L : library_model (two_model 1) (two_q 1)) by (apply two_lib; lra).
  eexists _, _. split; [exact L|]. split.
  - apply (cremb_sample_bern _ _ _ _ (m_p_ij (two_model 1))).
    + cbn. lra.
    + change (m_N (two_model 1)) with 2%nat. cbn [sumn]. replace (1 - (0 + 1 + 1) / (0 + 1 + 1)) with 0 by field. rewrite Rabs_R0. lra.
  - assert (K : forall i j, (i < 2)%nat -> (j < 2)%nat ->
       m_p_ij (two_model 1) (m_param (two_model 1)) (m_out (two_model 1) i) (m_in (two_model 1) j) (m_dyad (two_model 1) i j) = 1 / 2).
    { intros i j Hi Hj. rewrite (proj1 (library_kernel _ _ L i j Hi Hj)), two_q_val by lra. field. }
    unfold bern. change (pairs (m_N (two_model 1)) (a_selfloops (new_ens (Some (m_param (two_model 1))) false)))
      with [(0%nat, 1%nat); (1%nat, 0%nat)].
    cbn [for_prog pbind run_draws fst snd]. rewrite (K 0%nat 1%nat) by lia. rewrite (Rltb_true (1 / 4) (1 / 2)) by lra.
    cbn [pbind run_draws]. rewrite (K 1%nat 0%nat) by lia. rewrite (Rltb_false (3 / 4) (1 / 2)) by lra. reflexivity.
Qed.

(** Names: without [ref_g] every vertex is named by its index; with one its names and groups are copied. *)
Theorem C75_names : forall M ID G N (adj : M),
  (let o := new_sample (None : option (reference ID G)) N adj in
   s_vertices o = N /\ NoDup (map fst (s_ids o)) /\
   (forall k i, In (k, i) (s_ids o) <-> k = inl i /\ (i < N)%nat) /\ s_groups o = None) /\
  forall r : reference ID G, let o := new_sample (Some r) N adj in
   s_vertices o = N /\ (forall k i, In (k, i) (s_ids o) <-> exists x, k = inr x /\ In (x, i) (ref_ids r)) /\
   s_groups o = ref_groups r.
Proof.
  intros M ID G N adj. split; cbv zeta.
  - unfold new_sample. rewrite identity_dict. cbn [s_vertices s_ids s_groups].
    split; [reflexivity|]. split; [|split; [|reflexivity]].
    + rewrite map_map. cbn [fst]. apply FinFun.Injective_map_NoDup; [|apply seq_NoDup]. intros a b E. congruence.
    + intros k i. rewrite in_map_iff. split.
      * intros (x & E & Hx). injection E as <- <-. apply in_seq in Hx. split; [reflexivity | lia].
      * intros [-> Hi]. exists i. split; [reflexivity|]. apply in_seq. lia.
  - intros r. cbn [new_sample s_vertices s_ids s_groups]. split; [reflexivity|]. split; [|reflexivity].
    intros k i. rewrite in_map_iff. split.
    + intros ([x j] & E & Hx). cbn in E. injection E as <- <-. eauto.
    + intros (x & -> & Hx). exists (x, i). auto.
Qed.
Print Assumptions C75_names.

(** The reference graph is not compared with the model: a reference with one vertex is accepted for a
    model with two, and vertex 1 of the sample has no name and no group. *)
Theorem C75_reference_refuted : exists (r : reference nat nat) m q p us L, library_model m q /\
  o_sample m NoWeights None (new_ens (Some (m_param m)) false) = Ok p /\ run_draws p us = Some (L, []) /\
  let o := sparse_sample (Some r) false (m_N m) L in
  s_vertices o = 2%nat /\ ~ (exists k, In (k, 1%nat) (s_ids o)) /\
  exists d g, s_groups o = Some (d, g) /\ nth_error g 1 = None.
Proof.
  exists (mkReference [(7%nat, 0%nat)] (Some ([(5%nat, 0%nat)], [0%nat]))), (two_model 1), (two_q 1).
  destruct C42_case as [Hm H].
  eexists _, [1 / 4; 3 / 4], [((0%nat, 1%nat), 1)]. split; [exact Hm|]. split; [reflexivity|].
  split; [|split; [reflexivity|split]].
  - assert (X : forall (pr : prog (list (nat * nat))) us D rest, run_draws pr us = Some (D, rest) ->
      run_draws (pbind pr (fun G => Ret (map (fun e => (e, 1)) G))) us = Some (map (fun e => (e, 1)) D, rest)).
    { induction pr as [D0|x k IH]; intros us D rest E; cbn in *.
      - injection E as <- <-. reflexivity.
      - destruct us as [|u us]; [discriminate|]. apply IH, E. }
    apply (X _ _ _ _ H).
  - intros [k Hk]. cbn in Hk. destruct Hk as [E|[]]. congruence.
  - eexists _, _. split; [reflexivity|]. reflexivity.
Qed.
Print Assumptions C75_reference_refuted.

(** A sampled graph has no attribute [weighted], which the constructor of RandomDiGraph reads. *)
Lemma random_raises : forall ID G (ref : option (reference ID G)) w N L,
  let o := sparse_sample ref w N L in let o' := dense_sample ref N L in
  random_of_graph (num_edges N (of_sparse o)) (total_weight N (of_sparse o)) o = Raise AttributeError /\
  random_of_graph (Ok (d_num_edges N w (of_dense o'))) (Ok (d_total_weight N w (of_dense o'))) o' = Raise AttributeError.
Proof. intros ID G ref w N L. cbv zeta. destruct ref; split; reflexivity. Qed.

Theorem C75_random_refuted : exists N L, let o := sparse_sample (None : option (reference nat nat)) false N L in
  num_edges N (of_sparse o) = Ok 1 /\
  random_of_graph (num_edges N (of_sparse o)) (total_weight N (of_sparse o)) o = Raise AttributeError.
Proof.
  exists 2%nat, (ones [(0%nat, 1%nat)]). cbv zeta. split; [|apply random_raises].
  eapply eq_trans; [exact (proj1 (sparse_measures 2 [(0%nat, 1%nat)]))|]. f_equal. cbn. lra.
Qed.
Print Assumptions C75_random_refuted.

(** Once the caller has set the attribute, the model is that of the drawn links: as many vertices and edges
    as the sample, and a total weight exactly when the attribute is true.  Full property: the same for the
    object as returned by [sample] (refuted above). *)
Definition mark {M ID G} (b : bool) (o : sampled M ID G) : sampled M ID G :=
  mkSampled (s_vertices o) (s_ids o) (s_groups o) (Some b) (s_adj o).

Theorem C75_random_partial : forall m q s p us L rest ID G (ref : option (reference ID G)) b, library_model m q ->
  a_param s = Some (m_param m) -> o_sample m NoWeights None s = Ok p -> (forall u, In u us -> 0 <= u < 1) ->
  run_draws p us = Some (L, rest) ->
  let N := m_N m in let E := INR (length L) in
  (let o := mark b (sparse_sample ref false N L) in
   random_of_graph (num_edges N (of_sparse o)) (total_weight N (of_sparse o)) o = Ok (N, E, if b then Some E else None)) /\
  (let o := mark b (dense_sample ref N L) in
   random_of_graph (Ok (d_num_edges N false (of_dense o))) (Ok (d_total_weight N false (of_dense o))) o
   = Ok (N, E, if b then Some E else None)).
Proof.
  intros m q s p us L rest ID G ref b Hm Hs Hp Hu H N E.
  destruct (C75_measures m q s p us L rest ID G ref Hm Hs Hp Hu H) as [(V & A1 & A2 & _) (V' & B1 & B2 & _)].
  split; cbv zeta.
  - change (of_sparse (mark b (sparse_sample ref false N L))) with (of_sparse (sparse_sample ref false N L)).
    unfold N. rewrite A1, A2. unfold random_of_graph. cbn [bind mark s_weighted s_vertices]. rewrite V. destruct b; reflexivity.
  - change (of_dense (mark b (dense_sample ref N L))) with (of_dense (dense_sample ref N L)).
    unfold N. rewrite B1, B2. unfold random_of_graph. cbn [bind mark s_weighted s_vertices]. rewrite V'. destruct b; reflexivity.
Qed.
Print Assumptions C75_random_partial.

Lemma present_entry : forall w N L i j, (forall t, In t L -> 0 < snd t) -> (j < N)%nat ->
  present (W (coo_tocsr (negb w) N L) i j) = b2r (mem (i, j) (map fst L)).
Proof.
  intros w N L i j P Hj.
  assert (E : existsb (Graphs.hits i j) L = mem (i, j) (map fst L)).
  { apply Bool.eq_iff_eq_true. rewrite mem_spec, existsb_exists. split.
    - intros ([[a b] v] & Ht & H). apply in_map_iff. exists (a, b, v). split; [|exact Ht]. unfold Graphs.hits in H. cbn in *.
      apply andb_true_iff in H as [H1 H2]. apply Nat.eqb_eq in H1, H2. congruence.
    - intros H. apply in_map_iff in H as (t & E & Ht). exists t. split; [exact Ht|]. rewrite hits_pair, E. unfold pair_eqb. cbn. rewrite !Nat.eqb_refl. reflexivity. }
  rewrite <- E. destruct w; cbn [negb].
  - rewrite coo_entry by exact Hj. destruct (existsb (Graphs.hits i j) L) eqn:H.
    + pose proof (coo_pos L i j (proj2 (Forall_forall _ _) P) H). unfold present. cbn [b2r]. destruct Req_EM_T; lra.
    + rewrite (coo_zero L i j H). unfold present. cbn [b2r]. destruct Req_EM_T; lra.
  - rewrite coo_bool_entry by exact Hj. apply b2r_present.
Qed.
(** The same for weighted samples: the edges are the drawn links, the total weight the sum of their weights. *)
Theorem C75_random_weighted_partial : forall N L ID G (ref : option (reference ID G)), NoDup (map fst L) -> in_range N L ->
  let o := mark true (sparse_sample ref true N L) in
  random_of_graph (num_edges N (of_sparse o)) (total_weight N (of_sparse o)) o = Ok (N, INR (length L), Some (suml snd L)).
Proof.
  intros N L ID G ref ND R o.
  assert (P : forall t, In t L -> 0 < snd t) by (intros t Ht; apply (proj1 (Forall_forall _ _) R t Ht)).
  assert (V : valid true N (SDiGraph (coo_tocsr false N L))).
  { unfold valid. cbn [layers]. constructor; [|constructor]. split; [apply coo_wf, Forall_forall; exact P | reflexivity]. }
  assert (O : of_sparse o = SDiGraph (coo_tocsr false N L)) by (unfold o; destruct ref; reflexivity).
  assert (Vo : s_vertices o = N /\ s_weighted o = Some true) by (unfold o; destruct ref; split; reflexivity). destruct Vo as [Vo Wo].
  rewrite O. unfold random_of_graph. rewrite Vo, Wo. cbn [num_edges total_weight is_directed].
  destruct (adjacency_matrix N (SDiGraph (coo_tocsr false N L)) true false) as [A|e] eqn:EA; [|discriminate].
  destruct (adjacency_matrix N (SDiGraph (coo_tocsr false N L)) true true) as [B|e] eqn:EB; [|discriminate]. cbn [bind].
  destruct (adjacency_spec _ _ _ _ _ _ V EA) as [FA KA]. destruct (adjacency_spec _ _ _ _ _ _ V EB) as [FB KB].
  rewrite (all_sum _ _ FA), (all_sum _ _ FB).
  assert (EE : sumn N (fun i => sumn N (fun j => W A i j)) = INR (length L)).
  { destruct (g_counts N (map fst L) ND) as [GE _].
    - intros i j Hij. apply in_map_iff in Hij as (t & E & Ht). pose proof (proj1 (Forall_forall _ _) R t Ht) as (H1 & H2 & _). rewrite E in H1, H2. auto.
    - rewrite map_length in GE. rewrite <- GE. unfold g_edges. apply sumn_ext; intros i Hi. apply sumn_ext; intros j Hj. rewrite KA by assumption.
      unfold view. cbn [andb is_directed link]. apply (present_entry true N L i j P Hj). }
  assert (EW : sumn N (fun i => sumn N (fun j => W B i j)) = suml snd L).
  { rewrite <- (coo_total N L R). apply sumn_ext; intros i Hi. apply sumn_ext; intros j Hj. rewrite KB by assumption. reflexivity. }
  rewrite EE, EW. reflexivity.
Qed.
Print Assumptions C75_random_weighted_partial.

Example C75_random_weighted_case : NoDup (map fst [(0%nat, 1%nat, 2); (1%nat, 0%nat, 3)]) /\ in_range 2 [(0%nat, 1%nat, 2); (1%nat, 0%nat, 3)] /\
  suml snd [(0%nat, 1%nat, 2); (1%nat, 0%nat, 3)] = 5.
Proof.
  split; [repeat constructor; cbn; intuition congruence|]. split; [unfold in_range; repeat constructor; cbn; try lia; lra | cbn; lra].
Qed.

(** The nearest-neighbour averages of a sparse sample exist, those of the same sample made by a Spark
    model raise. *)
Theorem C75_spark_refuted : exists N L, let o := sparse_sample (None : option (reference nat nat)) false N L in
  (exists f, average_nn_property N (of_sparse o) N (fun _ => 1) Dout (Some false) = Ok f /\ f 0%nat = 1) /\
  spark_average_nn_property o N Dout (Some false) = Raise IndexError.
Proof.
  exists 2%nat, (ones [(0%nat, 1%nat)]). cbv zeta. split; [|reflexivity].
  destruct (sample_nn 2 [(0%nat, 1%nat)] (fun _ => 1) Dout false) as (f & Hf & F); [discriminate | vm_compute; tauto |].
  exists f. split; [exact Hf|]. destruct (F 0%nat ltac:(lia)) as [E _]. cbn in E. lra.
Qed.
Print Assumptions C75_spark_refuted.

(** They raise for every sample and every argument: a property of the wrong length is a ValueError as in the sparse module,
    a valid direction an IndexError. *)
Theorem C75_spark_raises : forall ID G (ref : option (reference ID G)) w N L len nd sl, exists e,
  spark_average_nn_property (sparse_sample ref w N L) len nd sl = Raise e /\
  (len <> N -> e = ValueError) /\ (len = N -> sl <> None -> nd = Dother -> e = ValueError) /\ (len = N -> sl <> None -> nd <> Dother -> e = IndexError).
Proof.
  intros ID G ref w N L len nd sl. assert (V : s_vertices (sparse_sample ref w N L) = N) by (destruct ref; reflexivity).
  unfold spark_average_nn_property. rewrite V. destruct (Nat.eqb_spec len N) as [E|E]; cbn [guard].
  - destruct sl as [b|]; [|exists AttributeError; split; [reflexivity | split; [congruence | split; congruence]]].
    destruct nd; eexists; (split; [reflexivity|]); (split; [congruence|]); split; congruence.
  - exists ValueError. split; [reflexivity|]. split; [reflexivity|]. split; congruence.
Qed.
Print Assumptions C75_spark_raises.

(** * C76: expected nearest-neighbour averages and the averages of samples *)

(** What the model computes is the ratio of the mean total to the mean degree: it is the mean over the
    samples of the sample's average, weighted by the degree.  Full property: it is the mean over the
    samples of the sample's average. *)
Theorem C76_ratio_partial : forall m q s prop nd ID G (ref : option (reference ID G)), library_model m q ->
  a_param s = Some (m_param m) -> constant_dyad m -> nd <> Dother -> (a_selfloops s = true -> (2 <= m_N m)%nat) ->
  let N := m_N m in let sl := a_selfloops s in
  exists p a s', o_sample m NoWeights None s = Ok p /\ o_av_nn_property m N prop nd None true s = (Ok a, s') /\
  forall v, (v < N)%nat ->
    let avg L := match average_nn_property N (of_sparse (sparse_sample ref false N L)) N prop nd (Some sl) with Ok f => f v | Raise _ => 0 end in
    let deg L := match sparse_degree nd N (of_sparse (sparse_sample ref false N L)) with Ok d => d v | Raise _ => 0 end in
    expect p (fun L => avg L * deg L) = a v * expect p deg.
Proof.
  intros m q s prop nd ID G ref Hm Hs Hc Hd Hl N sl.
  destruct (sample_mean m q Hm s (fun _ => 0) Hs) as (p & Hp & _).
  assert (M : forall f, expect p f = ensemble_mean N sl (graph_weight N sl q) (fun G => f (ones G))).
  { intros f. destruct (sample_mean m q Hm s f Hs) as (p' & Hp' & E). rewrite Hp in Hp'. injection Hp' as <-. exact E. }
  destruct (lib_av_nn m q Hm s prop nd None true Hs Hc Hd Hl (or_introl eq_refl)) as (a & s' & Ea & A).
  exists p, a, s'. split; [exact Hp|]. split; [exact Ea|]. intros v Hv. cbv zeta.
  assert (S : forall L, of_sparse (sparse_sample ref false N L) = SDiGraph (coo_tocsr true N L)) by (destruct ref; reflexivity).
  specialize (A v Hv). cbv zeta in A. cbn [effective] in A. fold N sl in A.
  rewrite !M.
  rewrite (mean_ext N sl q _ (fun G => nb_total N sl (g_link nd G) prop v)).
  2:{ intros H HH. rewrite !S. destruct (sample_nn N H prop nd sl Hd HH) as (f & -> & F).
      destruct (sparse_degree_val nd N H Hd) as (d & -> & D). rewrite D by exact Hv. apply F, Hv. }
  rewrite (mean_ext N sl q (fun G => match _ with Ok d => d v | Raise _ => 0 end) (fun G => sumn N (g_link nd G v))).
  2:{ intros H HH. rewrite !S. destruct (sparse_degree_val nd N H Hd) as (d & -> & D). apply D, Hv. }
  rewrite mean_total, mean_degree by assumption. rewrite A.
  destruct (Reqb_spec (nb_degree N sl (dir_link nd q) v) 0) as [Z|Z]; [|field; exact Z].
  rewrite Z, Rmult_0_r. unfold nb_total, nb_degree in *. apply sumn_zero. intros j Hj.
  assert (Q : (if allowed sl v j then dir_link nd q v j else 0) = 0).
  { apply (sumn_zero_inv N (fun j => if allowed sl v j then dir_link nd q v j else 0)); [|exact Z|exact Hj].
    intros k Hk. destruct allowed; [|lra].
    pose proof (lib_prob m q Hm v k Hv Hk). pose proof (lib_prob m q Hm k v Hk Hv). pose proof (lib_prob m q Hm v v Hv Hv).
    destruct nd; cbn [dir_link]; unfold out_link, in_link, either_link; try lra. destruct (Nat.eqb v k); nra. }
  destruct allowed; [rewrite Q; ring | reflexivity].
Qed.
Print Assumptions C76_ratio_partial.

(** The full property is false: with a property equal to one everywhere and two vertices linked with
    probability 1/2, the expected average is 1 but the samples average to 1/2, the probability of
    having a neighbour. *)
Theorem C76_mean_refuted : exists m q s p a s', library_model m q /\ a_param s = Some (m_param m) /\
  o_sample m NoWeights None s = Ok p /\ o_av_nn_property m (m_N m) (fun _ => 1) Dout None true s = (Ok a, s') /\
  a 0%nat = 1 /\
  mean_at p (fun L => average_nn_property (m_N m) (of_sparse (sparse_sample (None : option (reference nat nat)) false (m_N m) L))
    (m_N m) (fun _ => 1) Dout (Some false)) 0 = 1 / 2.
Proof.
  assert (Hm : library_model (two_model 1) (two_q 1)) by (apply two_lib; lra).
  set (m := two_model 1) in *. set (s := new_ens (Some (m_param m)) false : ens (mP m)).
  destruct (sample_mean m (two_q 1) Hm s (fun _ => 0) eq_refl) as (p & Hp & _).
  assert (M : forall f, expect p f = ensemble_mean 2 false (graph_weight 2 false (two_q 1)) (fun G => f (ones G))).
  { intros f. destruct (sample_mean m _ Hm s f eq_refl) as (p' & Hp' & E). rewrite Hp in Hp'. injection Hp' as <-. exact E. }
  destruct (lib_av_nn m _ Hm s (fun _ => 1) Dout None true eq_refl) as (a & s' & Ea & A).
  { intros i j k. reflexivity. } { discriminate. } { cbn. discriminate. } { left; reflexivity. }
  assert (Q : forall i j, two_q 1 i j = 1 / 2) by (intros; rewrite two_q_val by lra; field).
  exists m, (two_q 1), s, p, a, s'. split; [exact Hm|]. split; [reflexivity|]. split; [exact Hp|]. split; [exact Ea|]. split.
  - rewrite (A 0%nat) by (cbn; lia). change (m_N m) with 2%nat. unfold nb_degree, nb_total, dir_link, out_link.
    cbn [effective a_selfloops s new_ens sumn allowed Nat.eqb negb orb]. rewrite !Q. rewrite Reqb_false by lra. field.
  - unfold mean_at. rewrite M. change (m_N m) with 2%nat.
    rewrite (mean_ext 2 false (two_q 1) _ (fun G => b2r (mem (0%nat, 1%nat) G))).
    + rewrite mean_link by lia. cbn. apply Q.
    + intros H HH. change (of_sparse (sparse_sample None false 2 (ones H))) with (SDiGraph (coo_tocsr true 2 (ones H))).
      destruct (sample_nn 2 H (fun _ => 1) Dout false) as (f & -> & F); [discriminate | exact HH |].
      destruct (F 0%nat ltac:(lia)) as [E Z]. unfold nb_total in E. cbn [sumn g_link allowed Nat.eqb negb orb] in E, Z.
      assert (D : mem (0%nat, 0%nat) H = false).
      { apply mem_false. intros I. apply (sublists_incl _ _ _ _ HH) in I. apply in_pairs in I. destruct I as (_ & _ & I). discriminate. }
      rewrite D in E, Z. destruct (mem (0%nat, 1%nat) H); cbn [b2r] in *; [|apply Z]; lra.
Qed.
Print Assumptions C76_mean_refuted.

Example C76_case : library_model ex_model ex_q /\ constant_dyad ex_model /\ Doutin <> Dother /\
  0 < nb_degree 3 true (dir_link Doutin ex_q) 0.
Proof.
  split; [exact ex_lib|]. split; [intros i j k; reflexivity|]. split; [discriminate|].
  unfold nb_degree, dir_link, either_link. cbn [sumn allowed Nat.eqb negb orb]. rewrite !ex_q_val. simpl. lra.
Qed.
