(** The graph objects returned by [sample]: models the assembly of the DiGraph object around the drawn
    links in sparse/models/ensembles.py:328-403, models.py:333-406 and spark/models.py:448-534.

    Simplifications: [id_dtype] and [group_dtype] are left out (they are never read by the measures);
    a weight is its expected value, as in Ensemble.v. *)
From Verif Require Import Base Num Ids Ensemble Lib Graphs DenseGraphs.

(** The keys of a sample's [id_dict] are the indices themselves or the names used by [ref_g]. *)
(** sparse/models/ensembles.py:328-403 (DiGraphEnsemble.sample) *)
Record reference (ID G : Type) := mkReference {
  ref_ids : dict ID;
  ref_groups : option (dict G * list nat)
}.
Arguments mkReference {ID G}. Arguments ref_ids {ID G}. Arguments ref_groups {ID G}.

(** [weighted] is an attribute of the objects made by the constructors of the graph classes
    (sparse/graphs.py:131-157, graphs.py:129-150); [__new__] does not set it and neither does [sample]. *)
Record sampled (M ID G : Type) := mkSampled {
  s_vertices : nat;
  s_ids : dict (nat + ID);
  s_groups : option (dict G * list nat);
  s_weighted : option bool;
  s_adj : M
}.
Arguments mkSampled {M ID G}. Arguments s_vertices {M ID G}. Arguments s_ids {M ID G}.
Arguments s_groups {M ID G}. Arguments s_weighted {M ID G}. Arguments s_adj {M ID G}.

(** sparse/models/ensembles.py:350-369, models.py:353-372, spark/models.py:468-487: the attributes of
    the object, with the matrix made of the drawn links. *)
Definition new_sample {M ID G} (ref : option (reference ID G)) (N : nat) (adj : M) : sampled M ID G :=
  match ref with
  | Some r => mkSampled N (map (fun kv => (inr (fst kv), snd kv)) (ref_ids r)) (ref_groups r) None adj
  | None => mkSampled N (for_range N (fun i d => d ++ [(inl i, i)]) []) None None adj
  end.

(** sparse/models/ensembles.py:372-401: boolean ones, or the weights, in CSR format.  [weights] tells
    the two branches apart. *)
Definition sparse_sample {ID G} (ref : option (reference ID G)) (weights : bool) (N : nat)
    (links : list (nat * nat * R)) : sampled spm ID G :=
  new_sample ref N (coo_tocsr (negb weights) N links).
(** models.py:376-404: assignment to a matrix of zeros (or of False). *)
Definition dense_sample {ID G} (ref : option (reference ID G)) (N : nat)
    (links : list (nat * nat * R)) : sampled mat ID G :=
  new_sample ref N (assign_all links).

(** The measures of the sampled DiGraph. *)
(** sparse/models/ensembles.py:328-403 (DiGraphEnsemble.sample) *)
Definition of_sparse {ID G} (o : sampled spm ID G) : shape := SDiGraph (s_adj o).
(** models.py:333-406 (DiGraphEnsemble.sample) *)
Definition of_dense {ID G} (o : sampled mat ID G) : dshape := DDiGraph (s_adj o).

(** RandomDiGraph(g), sparse/models/random.py:43-48, models.py:583-588, spark/models.py:875-880: the
    numbers of vertices and edges, then the total weight if [g.weighted]. *)
Definition random_of_graph {M ID G} (num_edges total_weight : res R) (o : sampled M ID G)
    : res (nat * R * option R) :=
  do E <- num_edges ;
  match s_weighted o with
  | None => Raise AttributeError
  | Some true => do W <- total_weight ; Ok (s_vertices o, E, Some W)
  | Some false => Ok (s_vertices o, E, None)
  end.

(** Spark objects hold a [sp.csr_matrix], whose sums over an axis are two-dimensional [np.matrix]; the
    mask [ind] of sparse/graphs.py:708-713 is then two-dimensional and [av_nn[~ind]], with [av_nn]
    one-dimensional, is an IndexError.  [len] is [prop.shape[0]]. *)
Definition spark_average_nn_property {ID G} (o : sampled spm ID G) (len : nat) (ndir : dir)
    (selfloops : option bool) : res (nat -> R) :=
  guard (Nat.eqb len (s_vertices o)) ValueError
  (match selfloops, ndir with
   | None, _ => Raise AttributeError
   | Some _, Dother => Raise ValueError
   | Some _, _ => Raise IndexError
   end).

(** * Facts *)
From Verif Require Import Spec Kernels KernelFacts MultiKernels MultiFacts Prob EnsembleFacts EnsembleProps
  EnsembleState Models ModelFacts StateFacts StateProps IdFacts GraphFacts DenseFacts.
Import Num Spec.

Lemma identity_dict : forall (ID : Type) N,
  for_range N (fun i d => d ++ [(@inl nat ID i, i)]) [] = map (fun i => (inl i, i)) (seq 0 N).
Proof.
  intros ID. induction N as [|n IH]; [reflexivity|]. cbn [for_range]. rewrite IH, seq_S, map_app. reflexivity.
Qed.

Definition ones (G : list (nat * nat)) : list (nat * nat * R) := map (fun e => (e, 1)) G.

Lemma hits_ones : forall G i j, existsb (hits i j) (ones G) = mem (i, j) G.
Proof.
  induction G as [|[a b] G IH]; intros i j; [reflexivity|]. unfold mem in *. cbn [ones map existsb]. fold (ones G).
  rewrite IH. f_equal. unfold hits, pair_eqb. cbn. rewrite (Nat.eqb_sym a i), (Nat.eqb_sym b j). reflexivity.
Qed.

Lemma ones_pos : forall G, Forall (fun t : nat * nat * R => 0 < snd t) (ones G).
Proof. intros G. unfold ones. apply Forall_map, Forall_forall. intros e _. cbn. lra. Qed.

Lemma hits_pair : forall i j (t : nat * nat * R), hits i j t = pair_eqb (fst t) (i, j).
Proof. reflexivity. Qed.

Lemma coo_row_sum : forall N l i, sum_axis1 (coo_tocsr false N l) i = sumn N (fun j => w_pair i j l).
Proof.
  intros N l i. unfold sum_axis1, row_total.
  rewrite (for_each_sum _ _ (fun x => x) _ _ snd) by (intros; reflexivity). rewrite Rplus_0_l.
  cbn [coo_tocsr sp_row]. rewrite suml_map. cbn [snd]. rewrite suml_filter, suml_seq.
  apply sumn_ext; intros j _. rewrite coo_value. destruct (existsb (hits i j) l) eqn:E; [reflexivity|].
  symmetry. exact (coo_zero l i j E).
Qed.

Lemma sample_views : forall N G,
  let A := coo_tocsr true N (ones G) in
  valid false N (SDiGraph A) /\ forall i j, (j < N)%nat -> W A i j = b2r (mem (i, j) G).
Proof.
  intros N G A. split.
  - constructor; [|constructor]. split; [apply coo_wf, ones_pos|reflexivity].
  - intros i j Hj. unfold A. rewrite coo_bool_entry by exact Hj. rewrite hits_ones. reflexivity.
Qed.

Lemma b2r_present : forall b, present (b2r b) = b2r b.
Proof. intros [|]; unfold present, b2r; destruct Req_EM_T; lra. Qed.

Lemma neighbours_mem : forall G i j,
  neighbours (fun i j => b2r (mem (i, j) G)) i j = b2r (mem (i, j) G || mem (j, i) G).
Proof.
  intros G i j. unfold neighbours, both_ways. destruct (Nat.eqb_spec i j) as [->|H].
  - rewrite b2r_present. destruct (mem (j, j) G); reflexivity.
  - unfold present. destruct (mem (i, j) G), (mem (j, i) G); cbn; destruct Req_EM_T; lra.
Qed.

Lemma neighbours_ext : forall (w w' : nat -> nat -> R) i j, w i j = w' i j -> w j i = w' j i -> w i i = w' i i ->
  neighbours w i j = neighbours w' i j.
Proof. intros. unfold neighbours, both_ways. destruct (Nat.eqb i j); congruence. Qed.

(** The measures of an unweighted sample. *)
Lemma sparse_measures : forall N G, let s := SDiGraph (coo_tocsr true N (ones G)) in
  num_edges N s = Ok (g_edges N G) /\ total_weight N s = Ok (g_edges N G) /\
  (exists d, degree N s = Ok d /\ forall v, (v < N)%nat -> d v = g_deg N G v) /\
  (exists d, out_degree N s = Ok d /\ forall v, (v < N)%nat -> d v = g_out N G v) /\
  (exists d, in_degree N s = Ok d /\ forall v, (v < N)%nat -> d v = g_in N G v).
Proof.
  intros N G s. destruct (sample_views N G) as [V E]. fold s in V.
  assert (S : forall dr w A, adjacency_matrix N s dr w = Ok A -> wf N A /\ forall i j, (i < N)%nat -> (j < N)%nat ->
    W A i j = view false true (fun i j => b2r (mem (i, j) G)) dr w i j).
  { intros dr w A H. destruct (adjacency_spec _ _ _ _ _ _ V H) as [F K]. split; [exact F|].
    intros i j Hi Hj. rewrite K by assumption. change (is_directed s) with true. unfold view.
    assert (E' : forall i j, (j < N)%nat -> link s i j = b2r (mem (i, j) G)) by exact E.
    rewrite (neighbours_ext (link s) (fun i j => b2r (mem (i, j) G)) i j) by (apply E'; assumption).
    rewrite (E' i j) by assumption. reflexivity. }
  repeat split.
  - cbn [num_edges is_directed s adjacency_matrix bind]. destruct (S true false _ eq_refl) as [F K].
    f_equal. rewrite all_sum by exact F. apply sumn_ext; intros i Hi. apply sumn_ext; intros j Hj.
    rewrite K by assumption. apply b2r_present.
  - cbn [total_weight is_directed s adjacency_matrix bind]. destruct (S true true _ eq_refl) as [F K].
    f_equal. rewrite all_sum by exact F. apply sumn_ext; intros i Hi. apply sumn_ext; intros j Hj.
    rewrite K by assumption. apply b2r_present.
  - eexists. split; [reflexivity|]. intros v Hv. destruct (S false false _ eq_refl) as [F K].
    rewrite axis0_sum. apply sumn_ext; intros j Hj. rewrite K by assumption.
    cbn [view andb]. rewrite neighbours_mem, orb_comm. reflexivity.
  - eexists. split; [reflexivity|]. intros v Hv. destruct (S true false _ eq_refl) as [F K].
    rewrite (axis1_sum _ _ F) by exact Hv. apply sumn_ext; intros j Hj. rewrite K by assumption. apply b2r_present.
  - eexists. split; [reflexivity|]. intros v Hv. destruct (S true false _ eq_refl) as [F K].
    rewrite axis0_sum. apply sumn_ext; intros j Hj. rewrite K by assumption. apply b2r_present.
Qed.

Lemma assign_ones : forall G i j, assign_all (ones G) i j = b2r (mem (i, j) G).
Proof.
  intros G i j. rewrite (assign_const _ 1).
  - rewrite hits_ones. destruct (mem (i, j) G); reflexivity.
  - intros t Ht _. unfold ones in Ht. apply in_map_iff in Ht. destruct Ht as (e & <- & _). reflexivity.
Qed.

Lemma dense_measures : forall N G, let s := DDiGraph (assign_all (ones G)) in
  d_num_edges N false s = g_edges N G /\ d_total_weight N false s = g_edges N G /\
  (forall v, (v < N)%nat -> d_degree N false s v = g_deg N G v) /\
  (exists d, d_out_degree N false s = Ok d /\ forall v, (v < N)%nat -> d v = g_out N G v) /\
  (exists d, d_in_degree N false s = Ok d /\ forall v, (v < N)%nat -> d v = g_in N G v).
Proof.
  intros N G s.
  assert (V : dvalid false s).
  { split; [intros i j; rewrite assign_ones; destruct mem; cbn; lra|]. intros _ i j. rewrite assign_ones, b2r_present. reflexivity. }
  assert (S : forall dr w i j, d_adjacency false s dr w i j =
    if dr then b2r (mem (i, j) G) else b2r (mem (i, j) G || mem (j, i) G)).
  { intros dr w i j. rewrite d_view by exact V. cbn [d_directed d_multi s dlink].
    rewrite (neighbours_ext _ (fun i j => b2r (mem (i, j) G)) i j), neighbours_mem by apply assign_ones.
    rewrite !assign_ones, !b2r_present. destruct dr, w; reflexivity. }
  assert (D : forall dr w v, d_sum1 N (d_adjacency false s dr w) v = sumn N (fun j => if dr then b2r (mem (v, j) G) else b2r (mem (v, j) G || mem (j, v) G))).
  { intros. rewrite d_sum1_eq. apply sumn_ext; intros. apply S. }
  assert (D0 : forall dr w v, d_sum0 N (d_adjacency false s dr w) v = sumn N (fun j => if dr then b2r (mem (j, v) G) else b2r (mem (j, v) G || mem (v, j) G))).
  { intros. rewrite d_sum0_eq. apply sumn_ext; intros. apply S. }
  assert (D2 : forall w, d_sum N (d_adjacency false s true w) = g_edges N G).
  { intros w. rewrite d_sum_eq. apply sumn_ext; intros i _. apply sumn_ext; intros j _. apply S. }
  repeat split.
  - apply D2.
  - apply D2.
  - intros v _. unfold d_degree. rewrite D0. apply sumn_ext; intros j _. rewrite orb_comm. reflexivity.
  - eexists. split; [reflexivity|]. intros v _. apply D.
  - eexists. split; [reflexivity|]. intros v _. apply D0.
Qed.

(** Weighted samples: sums of weights. *)
Lemma sparse_strengths : forall N L, let s := SDiGraph (coo_tocsr false N L) in
  total_weight N s = Ok (sumn N (fun i => sumn N (fun j => w_pair i j L))) /\
  (exists d, out_strength N s = Ok d /\ forall v, (v < N)%nat -> d v = sumn N (fun j => w_pair v j L)) /\
  (exists d, in_strength N s = Ok d /\ forall v, (v < N)%nat -> d v = sumn N (fun i => w_pair i v L)).
Proof.
  intros N L s. repeat split.
  - unfold total_weight. cbn [is_directed s adjacency_matrix bind digraph_adjacency andb]. f_equal. unfold sum_all.
    rewrite (for_range_sum _ (fun x => x) _ _ (fun i => sumn N (fun j => w_pair i j L))); [lra|].
    intros i x Hi. rewrite coo_row_sum. reflexivity.
  - eexists. split; [reflexivity|]. intros v _. apply coo_row_sum.
  - eexists. split; [reflexivity|]. intros v Hv. cbn [digraph_adjacency andb]. rewrite axis0_sum. apply sumn_ext; intros i _.
    rewrite coo_entry by exact Hv. reflexivity.
Qed.

Lemma dense_strengths : forall N L, NoDup (map fst L) -> let s := DDiGraph (assign_all L) in
  d_total_weight N true s = sumn N (fun i => sumn N (fun j => w_pair i j L)) /\
  (exists d, d_out_strength N true s = Ok d /\ forall v, (v < N)%nat -> d v = sumn N (fun j => w_pair v j L)) /\
  (exists d, d_in_strength N true s = Ok d /\ forall v, (v < N)%nat -> d v = sumn N (fun i => w_pair i v L)).
Proof.
  intros N L ND s.
  assert (S : forall i j, d_adjacency true s true true i j = w_pair i j L) by (intros; apply (assign_sum _ _ _ ND)).
  repeat split.
  - unfold d_total_weight. cbn [d_directed s]. rewrite d_sum_eq. apply sumn_ext; intros i _. apply sumn_ext; intros j _. apply S.
  - eexists. split; [reflexivity|]. intros v _. rewrite d_sum1_eq. apply sumn_ext; intros; apply S.
  - eexists. split; [reflexivity|]. intros v _. rewrite d_sum0_eq. apply sumn_ext; intros; apply S.
Qed.

(** ** Averages over the draws *)
Section Average.
Variables (m : model) (q : nat -> nat -> R).
Hypothesis Hm : library_model m q.
Let N := m_N m.

Lemma sample_mean : forall s f, a_param s = Some (m_param m) ->
  exists p, o_sample m NoWeights None s = Ok p /\
    expect p f = ensemble_mean N (a_selfloops s) (graph_weight N (a_selfloops s) q) (fun G => f (ones G)).
Proof.
  intros s f Hs. unfold o_sample, sample. rewrite Hs. eexists. split; [reflexivity|].
  rewrite expect_bind. cbn [expect]. rewrite binary_sample_bern, bern_sublists by apply NoDup_pairs.
  unfold ensemble_mean. apply suml_ext. intros G _. rewrite <- (graph_weight_lweight N (a_selfloops s)
    (fun i j => m_p_ij m (m_param m) (m_out m i) (m_in m j) (m_dyad m i j))).
  rewrite (lib_weight m q Hm). cbn [app]. rewrite map_id. reflexivity.
Qed.
End Average.

(** Counting the links of a list without repetitions. *)
Lemma mem_sum : forall N (h : nat -> nat -> R) G, NoDup G ->
  (forall i j, In (i, j) G -> (i < N)%nat /\ (j < N)%nat) ->
  sumn N (fun i => sumn N (fun j => b2r (mem (i, j) G) * h i j)) = suml (fun e => h (fst e) (snd e)) G.
Proof.
  intros N h. induction G as [|[a b] G IH]; intros ND R.
  - cbn [suml]. rewrite sumn_zero; [reflexivity|]. intros i _. apply sumn_zero. intros j _. cbn. ring.
  - inversion ND as [|? ? Hn ND']; subst. cbn [suml fst snd]. rewrite <- IH by (auto; intros; apply R; right; assumption).
    destruct (R a b (or_introl eq_refl)) as [Ha Hb].
    assert (E : forall i j, b2r (mem (i, j) ((a, b) :: G)) * h i j
      = (if Nat.eqb i a then (if Nat.eqb j b then h i j else 0) else 0) + b2r (mem (i, j) G) * h i j).
    { intros i j. cbn [mem existsb]. fold (mem (i, j) G). unfold pair_eqb; cbn [fst snd].
      destruct (Nat.eqb_spec i a) as [->|]; cbn [andb orb]; [|ring].
      destruct (Nat.eqb_spec j b) as [->|]; cbn [andb orb]; [|ring].
      apply mem_false in Hn. rewrite Hn. cbn. ring. }
    rewrite (sumn_ext N _ (fun i => sumn N (fun j => if Nat.eqb i a then (if Nat.eqb j b then h i j else 0) else 0)
      + sumn N (fun j => b2r (mem (i, j) G) * h i j))).
    2:{ intros i _. rewrite <- sumn_plus. apply sumn_ext; intros j _. apply E. }
    rewrite sumn_plus. f_equal.
    rewrite (sumn_ext N _ (fun i => if Nat.eqb i a then h a b else 0)).
    + rewrite (sumn_delta N a (fun _ => h a b)). apply Nat.ltb_lt in Ha. rewrite Ha. reflexivity.
    + intros i _. destruct (Nat.eqb_spec i a) as [->|]; [|apply sumn_zero; reflexivity].
      rewrite (sumn_delta N b (fun j => h a j)). apply Nat.ltb_lt in Hb. rewrite Hb. reflexivity.
Qed.

Lemma count_filter : forall A (b : A -> bool) l, INR (length (filter b l)) = suml (fun x => if b x then 1 else 0) l.
Proof.
  intros A b. induction l as [|x l IH]; [reflexivity|]. cbn [suml filter].
  destruct (b x); [cbn [length]; rewrite S_INR|]; rewrite IH; ring.
Qed.

Lemma g_counts : forall N G, NoDup G -> (forall i j, In (i, j) G -> (i < N)%nat /\ (j < N)%nat) ->
  g_edges N G = INR (length G) /\
  forall v, (v < N)%nat -> g_out N G v = INR (length (filter (fun e => Nat.eqb (fst e) v) G)) /\
    g_in N G v = INR (length (filter (fun e => Nat.eqb (snd e) v) G)).
Proof.
  intros N G ND R. split; [|intros v Hv; split].
  - rewrite <- (Rmult_1_r (INR _)), <- suml_const. rewrite <- (mem_sum N (fun _ _ => 1) G ND R).
    apply sumn_ext; intros i _. apply sumn_ext; intros j _. ring.
  - rewrite count_filter, <- (mem_sum N (fun i j => if Nat.eqb i v then 1 else 0) G ND R).
    rewrite (sumn_ext N _ (fun i => if Nat.eqb i v then g_out N G i else 0)).
    + rewrite (sumn_delta N v (fun i => g_out N G i)). apply Nat.ltb_lt in Hv. rewrite Hv. reflexivity.
    + intros i _. destruct (Nat.eqb i v); [apply sumn_ext | apply sumn_zero]; intros; ring.
  - rewrite count_filter, <- (mem_sum N (fun i j => if Nat.eqb j v then 1 else 0) G ND R).
    rewrite sumn_swap. rewrite (sumn_ext N _ (fun j => if Nat.eqb j v then g_in N G j else 0)).
    + rewrite (sumn_delta N v (fun i => g_in N G i)). apply Nat.ltb_lt in Hv. rewrite Hv. reflexivity.
    + intros i _. destruct (Nat.eqb i v); [apply sumn_ext | apply sumn_zero]; intros; ring.
Qed.

(** ** Neighbourhoods of a sample *)

Definition g_link (nd : dir) (G : list (nat * nat)) (v j : nat) : R :=
  match nd with
  | Dout => b2r (mem (v, j) G)
  | Din => b2r (mem (j, v) G)
  | Doutin => b2r (mem (v, j) G || mem (j, v) G)
  | Dother => 0
  end.

Lemma sample_nn : forall N G prop nd sl, nd <> Dother -> In G (all_graphs N sl) ->
  exists f, average_nn_property N (SDiGraph (coo_tocsr true N (ones G))) N prop nd (Some sl) = Ok f /\
  forall v, (v < N)%nat -> f v * sumn N (g_link nd G v) = nb_total N sl (g_link nd G) prop v /\
    (sumn N (g_link nd G v) = 0 -> f v = 0).
Proof.
  intros N G prop nd sl Hd _. destruct (sample_views N G) as [V E].
  set (s := SDiGraph (coo_tocsr true N (ones G))) in *.
  destruct (nn_property_val false N s prop nd sl V) as (f & Hf & F); [discriminate | intros _; exact Hd |].
  exists f. split; [exact Hf|]. intros v Hv. rewrite F by exact Hv.
  assert (Q : forall j, (j < N)%nat -> nbr s nd v j = g_link nd G v j).
  { intros j Hj. assert (E' : forall i j, (j < N)%nat -> link s i j = b2r (mem (i, j) G)) by exact E.
    unfold nbr. change (is_directed s) with true. cbv iota.
    destruct nd; cbn [g_link]; [| | |congruence].
    - rewrite E' by exact Hj. apply b2r_present.
    - rewrite E' by exact Hv. apply b2r_present.
    - rewrite (neighbours_ext (link s) (fun i j => b2r (mem (i, j) G)) v j) by (apply E'; assumption). apply neighbours_mem. }
  assert (S : sumn N (fun j => nbr s nd v j) = sumn N (g_link nd G v)) by (apply sumn_ext; exact Q).
  assert (T : nb_total N sl (nbr s nd) prop v = nb_total N sl (g_link nd G) prop v).
  { unfold nb_total. apply sumn_ext; intros j Hj. rewrite Q by exact Hj. reflexivity. }
  rewrite S, T. destruct Req_EM_T as [Z|Z]; split; try reflexivity; try (intros; contradiction).
  - rewrite Rmult_0_l. symmetry. unfold nb_total. apply sumn_zero. intros j Hj.
    rewrite (sumn_zero_inv N (g_link nd G v)); [destruct allowed; ring | | exact Z | exact Hj].
    intros k _. assert (B : forall b, 0 <= b2r b) by (intros [|]; cbn; lra). destruct nd; cbn [g_link]; solve [apply B | lra].
  - field. exact Z.
Qed.

Lemma mean_g_link : forall N sl q nd v j, nd <> Dother -> (v < N)%nat -> (j < N)%nat ->
  ensemble_mean N sl (graph_weight N sl q) (fun G => g_link nd G v j) = if allowed sl v j then dir_link nd q v j else 0.
Proof.
  intros N sl q nd v j Hd Hv Hj. destruct nd; [| | |congruence]; cbn [g_link dir_link].
  - apply mean_link; assumption.
  - rewrite mean_link by assumption. rewrite adm_sym. reflexivity.
  - unfold either_link. destruct (Nat.eqb_spec v j) as [->|H].
    + rewrite (mean_ext N sl q _ (fun G => b2r (mem (j, j) G))) by (intros G _; rewrite orb_diag; reflexivity).
      apply mean_link; assumption.
    + rewrite mean_union by assumption. rewrite adm_neq by exact H. ring.
Qed.

Lemma mean_degree : forall N sl q nd v, nd <> Dother -> (v < N)%nat ->
  ensemble_mean N sl (graph_weight N sl q) (fun G => sumn N (g_link nd G v)) = nb_degree N sl (dir_link nd q) v.
Proof.
  intros N sl q nd v Hd Hv. 
  eapply eq_trans; [exact (mean_sumn N sl q N (fun j G => g_link nd G v j))|]. unfold nb_degree.
  apply sumn_ext; intros j Hj. apply mean_g_link; assumption.
Qed.

Lemma mean_total : forall N sl q nd prop v, nd <> Dother -> (v < N)%nat ->
  ensemble_mean N sl (graph_weight N sl q) (fun G => nb_total N sl (g_link nd G) prop v) = nb_total N sl (dir_link nd q) prop v.
Proof.
  intros N sl q nd prop v Hd Hv. unfold nb_total.
  rewrite (mean_sumn N sl q N (fun j G => if allowed sl v j then g_link nd G v j * prop j else 0)).
  apply sumn_ext; intros j Hj. destruct (allowed sl v j) eqn:E.
  - rewrite (mean_ext N sl q _ (fun G => prop j * g_link nd G v j)) by (intros; ring).
    rewrite mean_scal, mean_g_link, E by assumption. ring.
  - apply mean_const.
Qed.
