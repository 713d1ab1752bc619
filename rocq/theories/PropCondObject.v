(** Property C95: samples of a conditional model object and their conditional likelihood. *)
From Coq Require Import Sorted Sorting.Permutation FunctionalExtensionality.
From Verif Require Import Base Num Spec Kernels KernelFacts MultiKernels MultiFacts Prob Ensemble EnsembleFacts EnsembleProps EnsembleState
  Models ModelFacts StateFacts StateProps Ids IdFacts Graphs GraphFacts DenseGraphs DenseFacts Sampled PropSampled Layers LayerFacts LayerProps LayerLib
  Aggregate CondDist Conditional CondFacts CondModel CondMeasures CondLik CondProps CondState
  MultiState MultiStateFacts MultiLik Pipeline PropPipeline PropLikelihood GraphArgs PropGraphArgs PropConditional PropCondState Repeat PropSampleLik CondObject.
Import Num Spec.

Open Scope R_scope.
Open Scope list_scope.

(** * Conditional weights depend on the set of links only *)

Lemma blocks_linked_in : forall g a b G, blocks_linked g a b G = true <-> exists i j, In (i, j) G /\ g i = a /\ g j = b.
Proof.
  intros g a b G. unfold blocks_linked. rewrite existsb_exists. split.
  - intros ([i j] & H & E). apply andb_prop in E as [E1 E2]. apply Nat.eqb_eq in E1, E2. exists i, j. auto.
  - intros (i & j & H & E1 & E2). exists (i, j). split; [exact H|]. cbn [fst snd]. rewrite E1, E2, !Nat.eqb_refl. reflexivity.
Qed.

Lemma agrees_ext : forall M g A G H, (forall e, In e G <-> In e H) -> agrees M g A G = agrees M g A H.
Proof.
  intros M g A G H E. unfold agrees. apply forallb_ext_in. intros [a b] _. cbn [fst snd]. f_equal. apply Bool.eq_iff_eq_true. rewrite !blocks_linked_in.
  split; intros (i & j & K & ?); exists i, j; (split; [apply E; exact K | assumption]).
Qed.

Lemma weight_ext : forall N sl p G H, (forall e, In e G <-> In e H) -> graph_weight N sl p G = graph_weight N sl p H.
Proof.
  intros N sl p G H E. rewrite !graph_weight_list. apply prodl_ext. intros e _.
  replace (mem e H) with (mem e G); [reflexivity|]. apply Bool.eq_iff_eq_true. rewrite !mem_spec. apply E.
Qed.

Lemma given_ext : forall d x y N g adj sl G H, (forall e, In e G <-> In e H) -> given d x y N g adj sl G = given d x y N g adj sl H.
Proof. intros d x y N g adj sl G H E. unfold given, cond_weight. rewrite (agrees_ext _ _ _ G H E), (weight_ext _ _ _ G H E). reflexivity. Qed.

(** * The aggregate of an argument *)

Lemma row_sum_pos : forall (g : nat -> nat) b (l : list (nat * R)), (forall t, In t l -> 0 < snd t) ->
  0 <= suml (fun t => if Nat.eqb (g (fst t)) b then snd t else 0) l /\
  (0 < suml (fun t => if Nat.eqb (g (fst t)) b then snd t else 0) l <-> exists j, In j (map fst l) /\ g j = b).
Proof.
  intros g b l. induction l as [|t l IH]; intros P.
  - cbn. split; [lra|]. split; [lra | intros (j & [] & _)].
  - destruct (IH (fun u Hu => P u (or_intror Hu))) as [Z E]. pose proof (P t (or_introl eq_refl)) as Pt. cbn [suml map].
    destruct (Nat.eqb_spec (g (fst t)) b) as [Hb | Hb].
    + split; [lra|]. split; [|lra]. intros _. exists (fst t). split; [left; reflexivity | exact Hb].
    + rewrite Rplus_0_l. split; [exact Z|]. rewrite E. split; intros (j & Hj & Ej).
      * exists j. split; [right; exact Hj | exact Ej].
      * destruct Hj as [Ej0 | Hj]; [subst j; contradiction|]. exists j. auto.
Qed.

Lemma sumn_pos_iff : forall n f, (forall i, (i < n)%nat -> 0 <= f i) -> (0 < sumn n f <-> exists i, (i < n)%nat /\ 0 < f i).
Proof.
  induction n as [|n IH]; intros f P; cbn [sumn]; [split; [lra | intros (i & Hi & _); lia]|].
  specialize (IH f (fun i Hi => P i (Nat.lt_lt_succ_r _ _ Hi))). pose proof (P n (Nat.lt_succ_diag_r n)) as Pn.
  assert (Z : 0 <= sumn n f) by (apply sumn_nonneg; intros i Hi; apply P; lia). split.
  - intros H. destruct (Rle_lt_dec (f n) 0) as [H0 | H0]; [|exists n; split; [lia | exact H0]].
    destruct (proj1 IH) as (i & Hi & K); [lra|]. exists i. split; [lia | exact K].
  - intros (i & Hi & K). destruct (Nat.eq_dec i n) as [-> | Hn]; [lra|]. assert (0 < sumn n f) by (apply IH; exists i; split; [lia | exact K]). lra.
Qed.

Lemma agg_weight_pos : forall N g e G a b, MultiLik.in_range N G -> same_rows N (fun i => map fst (e i)) (row_of G) ->
  (forall i t, (i < N)%nat -> In t (e i) -> 0 < snd t) -> Rltb 0 (agg_weight N g e a b) = blocks_linked g a b G.
Proof.
  intros N g e G a b HG Se P. apply Bool.eq_iff_eq_true. rewrite blocks_linked_in. unfold agg_weight.
  assert (Q : 0 < sumn N (fun i => if Nat.eqb (g i) a then suml (fun t => if Nat.eqb (g (fst t)) b then snd t else 0) (e i) else 0) <->
    exists i j, In (i, j) G /\ g i = a /\ g j = b).
  { rewrite sumn_pos_iff.
    - split.
      + intros (i & Hi & K). destruct (Nat.eqb_spec (g i) a) as [Ea | _]; [|lra].
        apply (proj2 (row_sum_pos g b (e i) (fun t Ht => P i t Hi Ht))) in K as (j & Hj & Eb).
        apply (Se i j Hi) in Hj. apply row_of_in in Hj. exists i, j. auto.
      + intros (i & j & H & Ea & Eb). destruct (HG i j H) as [Hi _]. exists i. split; [exact Hi|]. rewrite Ea, Nat.eqb_refl.
        apply (proj2 (row_sum_pos g b (e i) (fun t Ht => P i t Hi Ht))). exists j. split; [|exact Eb]. apply (Se i j Hi), row_of_in, H.
    - intros i Hi. destruct (Nat.eqb (g i) a); [|lra]. apply (row_sum_pos g b (e i) (fun t Ht => P i t Hi Ht)). }
  rewrite <- Q. destruct (Rltb_spec 0 (sumn N (fun i => if Nat.eqb (g i) a then suml (fun t => if Nat.eqb (g (fst t)) b then snd t else 0) (e i) else 0)));
    split; intros; try assumption; try reflexivity; try discriminate; contradiction.
Qed.

(** An argument that is a graph without negative weights is treated as its links. *)
Lemma argument_links : forall d x y N g adj s arg G, a_param s = Some d -> MultiLik.in_range N G -> link_form N arg G -> no_negative N arg ->
  c_log_likelihood x y N g adj arg s = cond_log_likelihood d (F x) (F y) N g adj (a_selfloops s) N N (row_of G).
Proof.
  intros d x y N g adj s arg G Hs HG HF HN. destruct (read_form _ arg G HG HF) as (e & E & Se & _ & P). specialize (P HN).
  unfold c_log_likelihood, cond_log_likelihood. rewrite Hs, E. cbn [bind]. rewrite !Nat.eqb_refl. cbn [andb guard]. cbv zeta.
  assert (A1 : (fun a b => Rltb 0 (agg_weight N g e a b)) = fun a b => blocks_linked g a b G).
  { apply functional_extensionality; intros a. apply functional_extensionality; intros b. apply agg_weight_pos; assumption. }
  assert (A2 : (fun a b => existsb (fun i => Nat.eqb (g i) a && existsb (fun j => Nat.eqb (g j) b) (row_of G i)) (seq 0 N)) = fun a b => blocks_linked g a b G).
  { apply functional_extensionality; intros a. apply functional_extensionality; intros b. apply agg_adj_blocks. intros [i j] K. apply (HG i j K). }
  assert (A3 : (fun a b => Rltb 0 (suml (fun t => if Nat.eqb (fst t) b then snd t else 0) (adj a)))
    = fun a b => Rltb 0 (fold_right (fun e t => (if Nat.eqb (fst e) b then snd e else 0) + t) 0 (adj a))).
  { apply functional_extensionality; intros a. apply functional_extensionality; intros b. f_equal. induction (adj a) as [|t l IH]; [reflexivity|].
    cbn [suml fold_right]. rewrite IH. reflexivity. }
  pose proof (fun a b => f_equal (fun h => h a b) A1) as B1'. pose proof (fun a b => f_equal (fun h => h a b) A2) as B2'.
  pose proof (fun a b => f_equal (fun h => h a b) A3) as B3'. cbv beta in B1', B2', B3'.
  rewrite A1, A2.
  assert (T : forallb (fun c => Bool.eqb (Rltb 0 (agg_weight N g e (fst c) (snd c))) (Rltb 0 (suml (fun t => if Nat.eqb (fst t) (snd c) then snd t else 0) (adj (fst c)))))
      (list_prod (seq 0 (max_group N g)) (seq 0 (max_group N g)))
    = forallb (fun c => Bool.eqb (existsb (fun i => Nat.eqb (g i) (fst c) && existsb (fun j => Nat.eqb (g j) (snd c)) (row_of G i)) (seq 0 N))
        (Rltb 0 (fold_right (fun e t => (if Nat.eqb (fst e) (snd c) then snd e else 0) + t) 0 (adj (fst c)))))
      (list_prod (seq 0 (max_group N g)) (seq 0 (max_group N g)))).
  { apply forallb_ext_in. intros c _. rewrite B1', B2', B3'. reflexivity. }
  rewrite T. rewrite (likelihood_rows _ _ _ _ _ _ _ _ _ _ _ _ _ _ Se). reflexivity.
Qed.

(** * C95: the likelihood of an argument *)

(** The weights of the aggregate graph are positive and, where self-loops are excluded, every group has fitness (otherwise the code
    divides by zero, C61). *)
Definition usable (x y : nat -> R) (N : nat) (g : nat -> nat) (adj : nat -> list (nat * R)) (sl : bool) : Prop :=
  (forall a e, (a < num_groups N g)%nat -> In e (adj a) -> 0 < snd e) /\
  (sl = false -> forall a, (a < num_groups N g)%nat ->
     0 < sumn N (fun i => if Nat.eqb (g i) a then x i else 0) /\ 0 < sumn N (fun i => if Nat.eqb (g i) a then y i else 0)).

Lemma row_same : forall N G H, (forall e, In e G <-> In e H) -> same_rows N (row_of G) (row_of H).
Proof. intros N G H E i j Hi. rewrite !row_of_in. apply E. Qed.

(** In whatever form a graph is passed, the value is the logarithm of its probability given the aggregate graph. *)
Theorem C95_likelihood : forall d x y N g adj s arg G, let sl := a_selfloops s in
  setting d x y N g adj sl -> usable x y N g adj sl -> a_param s = Some d ->
  MultiLik.in_range N G -> (forall i j, In (i, j) G -> allowed sl i j = true) -> link_form N arg G -> no_negative N arg ->
  exists l, c_log_likelihood x y N g adj arg s = Ok l /\ log_of (given d x y N g adj sl G) l.
Proof.
  intros d x y N g adj s arg G sl HS [HV HF] Hs HG HA HL HN. rewrite (argument_links d x y N g adj s arg G Hs HG HL HN). fold sl.
  pose proof (ordered_graph N sl G) as HO. pose proof (ordered_all N sl G HG HA) as HE.
  destruct (C61_log d x y N g adj sl (ordered N sl G) HS HV HF HO) as (l & E & L).
  exists l. rewrite <- (given_ext d x y N g adj sl _ _ HE). split; [|exact L]. rewrite <- E.
  assert (B : forall a b, blocks_linked g a b G = blocks_linked g a b (ordered N sl G)).
  { intros a b. apply Bool.eq_iff_eq_true. rewrite !blocks_linked_in. split; intros (i & j & K & ?); exists i, j; (split; [apply HE; exact K | assumption]). }
  assert (R1 : forall H : list (nat * nat), (forall e, In e H -> In e G) -> forall e, In e H -> (fst e < N)%nat).
  { intros H K [i j] He. apply (HG i j). apply K, He. }
  destruct HS as (_ & _ & _ & _ & _).
  rewrite !(cond_lik_cases d x y N g adj sl HV) by (apply R1; intros e; try apply HE; auto).
  rewrite (agrees_ext _ _ _ _ _ HE).
  replace (fun a b => blocks_linked g a b G) with (fun a b => blocks_linked g a b (ordered N sl G)).
  - rewrite (likelihood_rows _ _ _ _ _ _ _ _ _ _ _ _ _ _ (row_same N _ _ HE)). reflexivity.
  - apply functional_extensionality; intros a. apply functional_extensionality; intros b. symmetry. apply B.
Qed.
Print Assumptions C95_likelihood.

(** A graph that does not agree with the aggregate graph, in whatever form: minus infinity. *)
Theorem C95_incompatible : forall d x y N g adj s arg G a b, a_param s = Some d -> nonneg d -> (forall i, 0 <= x i) -> (forall i, 0 <= y i) ->
  aggregate_graph (num_groups N g) adj -> (forall a e, (a < num_groups N g)%nat -> In e (adj a) -> 0 < snd e) ->
  MultiLik.in_range N G -> link_form N arg G -> no_negative N arg ->
  (a < num_groups N g)%nat -> (b < num_groups N g)%nat -> blocks_linked g a b G <> macro_link adj a b ->
  c_log_likelihood x y N g adj arg s = Ok NInf.
Proof.
  intros d x y N g adj s arg G a b Hs Hd Hx Hy Hadj HV HG HL HN Ha Hb HD. rewrite (argument_links d x y N g adj s arg G Hs HG HL HN).
  apply (C61_incompatible d x y N g adj (a_selfloops s) G a b); try assumption. intros [i j] K. apply (HG i j K).
Qed.
Print Assumptions C95_incompatible.

(** * Samples *)

Lemma outcome_pos : forall A (m : prog A) a b, wf_prog m -> outcome m a -> b a = true -> 0 < prob m b.
Proof.
  intros A m; induction m as [a'|p k IH]; intros a b W O B; unfold prob in *; cbn [expect].
  - cbn in O. subst a'. rewrite B. cbn. lra.
  - destruct W as [Hp Wk]. assert (Z : forall c, 0 <= expect (k c) (fun a => b2r (b a))).
    { intros c. apply expect_nonneg; [apply Wk|]. intros z. destruct (b z); cbn; lra. }
    destruct O as [[Q O] | [Q O]]; pose proof (IH _ _ _ (Wk _) O B) as K; pose proof (Z true); pose proof (Z false); nra.
Qed.

Lemma suml_pos_in' : forall A (l : list (A * R)) u, (forall v, In v l -> 0 < snd v) -> In u l -> 0 < suml snd l.
Proof.
  intros A l u. induction l as [|v l IH]; intros P Hu; [destruct Hu|]. cbn [suml].
  assert (0 <= suml snd l) by (apply suml_nonneg; intros z Hz; left; apply P; right; exact Hz). pose proof (P v (or_introl eq_refl)). lra.
Qed.

(** The strengths are positive wherever a link is possible. *)
Definition able (d : num) (x y : nat -> R) (N : nat) (s_out s_in : nat -> R) : Prop :=
  forall i j, (i < N)%nat -> (j < N)%nat -> 0 < inv_prob d x y i j -> 0 < s_out i * s_in j.

(** The links drawn, whatever the weights. *)
Lemma drawn : forall d x y N g adj sl w s_out s_in m, setting d x y N g adj sl ->
  (forall a e, (a < num_groups N g)%nat -> In e (adj a) -> 0 < snd e) ->
  (w <> None -> able d x y N s_out s_in) -> (w = Some Cremb -> 0 < sumn N s_out) ->
  cond_sample d (F x) (F y) N g adj sl w s_out s_in = Ok m ->
  wf_prog m /\
  (forall r, outcome m r -> exists L, r = Ok L /\ NoDup (map fst L) /\ (forall e, In e (map fst L) -> In e (pairs N sl)) /\
     (forall t, In t L -> 0 < snd t) /\ (w = None -> L = ones (map fst L))) /\
  forall f, (forall S T, Permutation S T -> f S = f T) ->
    expect m (fun r => match r with Ok L => f (map fst L) | Raise _ => 0 end) = ensemble_mean N sl (given d x y N g adj sl) f.
Proof.
  intros d x y N g adj sl w s_out s_in m (Hd & Hx & Hy & Hadj & Hpos) HV Hab Htot Hm.
  destruct w as [[| |]|]; cbn [cond_sample] in Hm; [| |discriminate|].
  - unfold cond_cremb_sample in Hm. destruct (Reqb_spec (sumn N s_out) 0) as [|Hs]; [discriminate|].
    unfold guard in Hm. destruct (Rltb _ _); [|discriminate]. inversion Hm; subst m. clear Hm.
    match goal with |- wf_prog (sample_blocks _ _ _ _ _ _ ?mk _ _ _) /\ _ => set (mark := mk) end.
    assert (FM : forall S, map fst (map (fun e => mark (1 - empty_prob N sl (pm d x y) g (block_of g e)) e) S) = S).
    { intros S. rewrite map_map. unfold mark. cbn [fst]. rewrite <- (map_id S) at 2. apply map_ext. intros [i j]. reflexivity. }
    split; [exact (sampler_wf d x y N g adj sl Hd Hx Hy Hadj Hpos _ mark (fun _ l => Ok l) (fun _ l => l) ltac:(reflexivity))|]. split.
    + intros r H. apply (sampler_outcome d x y N g adj sl Hd Hx Hy Hadj Hpos _ mark (fun _ l => Ok l) (fun _ l => l)) in H; [|reflexivity].
      destruct H as (S & HS & Hag & -> & HP & ND & HI). rewrite (rec_map d x y N g adj sl Hadj _ mark S HS).
      eexists. split; [reflexivity|]. rewrite FM. split; [exact ND|]. split; [exact HI|]. split; [|discriminate].
      intros t Ht. apply in_map_iff in Ht as (e & <- & He). unfold mark. cbn [snd].
      pose proof (HI e He) as I. destruct e as [i j]. pose proof (HP _ He) as Pe. apply in_pairs in I as (Hi & Hj & Hal). cbn [fst snd].
      pose proof (p_pair_pm d x y Hd Hx Hy (i, j)) as E. cbn [fst snd] in E. rewrite E.
      pose proof (inv_prob_pm d x y Hd Hx Hy i j) as E2. pose proof (Hab ltac:(discriminate) i j Hi Hj ltac:(rewrite E2; exact Pe)) as PS.
      pose proof (agrees_all _ _ _ _ Hag (g i) (g j) (group_lt N g i Hi) (group_lt N g j Hj)) as AG.
      assert (BL : blocks_linked g (g i) (g j) S = true) by (apply blocks_linked_in; exists i, j; auto). rewrite BL in AG. symmetry in AG.
      pose proof (linked_pos d x y N g adj sl Hd Hx Hy Hadj Hpos i j Hi AG) as QP.
      pose proof (Q_range d x y N g sl Hd Hx Hy (g i, g j)) as QR. unfold block_of. cbn [fst snd]. specialize (Htot eq_refl).
      apply Rdiv_lt_0_compat; [exact PS|]. apply Rmult_lt_0_compat; [exact Htot|]. apply Rdiv_lt_0_compat; [exact Pe | lra].
    + intros f Hf. apply (sampler_mean d x y N g adj sl Hd Hx Hy Hadj Hpos _ mark (fun _ l => Ok l) (fun _ l => l) ltac:(reflexivity)); [exact Hf|].
      intros S HS _. rewrite (rec_map d x y N g adj sl Hadj _ mark S HS), FM. reflexivity.
  - inversion Hm; subst m. clear Hm. unfold cond_wagg_sample. specialize (Hab ltac:(discriminate)).
    set (mark := fun (_ : R) (e : nat * nat) => (fst e, snd e, s_out (fst e) * s_in (snd e))).
    assert (FI : forall t S, In t (BB N g adj) -> In S (sublists (block N sl g (fst t))) -> S <> [] -> (forall e, In e S -> 0 < pm d x y e) ->
      wagg_finish (snd t) (map (mark (1 - empty_prob N sl (pm d x y) g (fst t))) S) = Ok (wfin (snd t) (map (mark (1 - empty_prob N sl (pm d x y) g (fst t))) S))).
    { intros t S H1 H2 H3 H4. apply (wagg_fin d x y N g adj sl Hd Hx Hy s_out s_in Hab t S H1 H2 H3 H4). }
    split; [exact (sampler_wf d x y N g adj sl Hd Hx Hy Hadj Hpos _ mark wagg_finish wfin FI)|]. split.
    + intros r H. apply (sampler_outcome d x y N g adj sl Hd Hx Hy Hadj Hpos _ mark wagg_finish wfin FI) in H.
      destruct H as (S & HS & Hag & -> & HP & ND & HI). eexists. split; [reflexivity|].
      pose proof (rec_wagg_fst d x y N g adj sl Hadj s_out s_in S HS) as FS. fold mark in FS. rewrite FS. split; [exact ND|]. split; [exact HI|]. split; [|discriminate].
      intros t Ht. apply in_flat_map in Ht as (c & Hc & Ht). unfold recorded, wfin in Ht. apply in_map_iff in Ht as (u & <- & Hu). cbn [snd].
      destruct c as [[a b] wt]. cbn [fst snd] in *. apply in_BB in Hc as [Ha Hc]; [|exact Hadj..].
      pose proof (HV a _ Ha Hc) as PW. cbn [snd] in PW.
      match type of Hu with In u ?l => assert (PA : forall v, In v l -> 0 < snd v) end.
      { intros v Hv. apply in_map_iff in Hv as ([i j] & <- & Hv). unfold mark. cbn [fst snd]. apply filter_In in Hv as [Hv _].
        pose proof (HI _ Hv) as I. apply in_pairs in I as (Hi & Hj & _). apply Hab; try assumption. rewrite (inv_prob_pm d x y Hd Hx Hy). apply HP, Hv. }
      apply Rmult_lt_0_compat; [|exact PW]. apply Rdiv_lt_0_compat; [apply PA; exact Hu|]. exact (suml_pos_in' _ _ u PA Hu).
    + intros f Hf. apply (sampler_mean d x y N g adj sl Hd Hx Hy Hadj Hpos _ mark wagg_finish wfin FI); [exact Hf|].
      intros S HS _. pose proof (rec_wagg_fst d x y N g adj sl Hadj s_out s_in S HS) as FS. fold mark in FS. rewrite FS. reflexivity.
  - inversion Hm; subst m. clear Hm Hab Htot. unfold cond_binary_sample. set (mark := fun (_ : R) (e : nat * nat) => e).
    assert (W : wf_prog (sample_blocks d (F x) (F y) N g sl mark (fun _ l => Ok l) (macro_links N g adj) [])).
    { exact (sampler_wf d x y N g adj sl Hd Hx Hy Hadj Hpos _ mark (fun _ l => Ok l) (fun _ l => l) ltac:(reflexivity)). }
    split; [apply wf_bind; [exact W | intros; exact I]|]. split.
    + intros r H. apply outcome_bind in H as (a & H & Hr).
      apply (sampler_outcome d x y N g adj sl Hd Hx Hy Hadj Hpos _ mark (fun _ l => Ok l) (fun _ l => l)) in H; [|reflexivity].
      destruct H as (S & HS & Hag & -> & HP & ND & HI). rewrite (rec_map d x y N g adj sl Hadj _ mark S HS) in Hr. unfold mark in Hr. rewrite map_id in Hr.
      cbn [outcome] in Hr. subst r. eexists. split; [reflexivity|].
      assert (FS : map fst (map (fun e : nat * nat => (e, 1)) S) = S) by (rewrite map_map; cbn [fst]; apply map_id). rewrite FS.
      split; [exact ND|]. split; [exact HI|]. split; [|reflexivity]. intros t Ht. apply in_map_iff in Ht as (e & <- & _). cbn. lra.
    + intros f Hf. rewrite expect_bind. etransitivity; [|exact (C57_mean d x y N g adj sl f (conj Hd (conj Hx (conj Hy (conj Hadj Hpos)))) Hf)].
      apply expect_ext. intros [S|e]; cbn [expect]; [|reflexivity]. rewrite map_map. cbn [fst]. rewrite map_id. reflexivity.
Qed.

(** ** The object made of the drawn links *)

Definition drawn_graph (w : bool) (N : nat) (L : list (nat * nat * R)) : shape := SDiGraph (coo_tocsr (negb w) N L).

Lemma object_graph : forall ID O (ref : option (reference ID O)) w N L, of_sparse (sparse_sample ref w N L) = drawn_graph w N L.
Proof. intros. destruct ref; reflexivity. Qed.

Lemma drawn_measures : forall w N L, (forall t, In t L -> 0 < snd t) -> let s := drawn_graph w N L in let G := map fst L in
  num_edges N s = Ok (g_edges N G) /\
  (exists d, degree N s = Ok d /\ forall v, (v < N)%nat -> d v = g_deg N G v) /\
  (exists d, out_degree N s = Ok d /\ forall v, (v < N)%nat -> d v = g_out N G v) /\
  (exists d, in_degree N s = Ok d /\ forall v, (v < N)%nat -> d v = g_in N G v).
Proof.
  intros w N L P s G.
  assert (V : valid w N s). { constructor; [|constructor]. split; [apply coo_wf, Forall_forall; exact P | reflexivity]. }
  assert (E : forall i j, (j < N)%nat -> present (GraphFacts.link s i j) = b2r (mem (i, j) G)) by (intros; apply present_entry; assumption).
  assert (NE : forall i j, (i < N)%nat -> (j < N)%nat -> neighbours (GraphFacts.link s) i j = b2r (mem (i, j) G || mem (j, i) G)).
  { intros i j Hi Hj. pose proof (link_nonneg _ _ _ i j V Hi) as P1. pose proof (link_nonneg _ _ _ j i V Hj) as P2.
    pose proof (E i j Hj) as E1. pose proof (E j i Hi) as E2. unfold neighbours, both_ways.
    destruct (Nat.eqb_spec i j) as [-> | D]; [rewrite E1; destruct (mem (j, j) G); reflexivity|].
    unfold present in *. destruct (mem (i, j) G), (mem (j, i) G); cbn [orb b2r] in *;
      destruct (Req_EM_T (GraphFacts.link s i j) 0), (Req_EM_T (GraphFacts.link s j i) 0), (Req_EM_T (GraphFacts.link s i j + GraphFacts.link s j i) 0); lra. }
  assert (S : forall dr A, adjacency_matrix N s dr false = Ok A -> wf N A /\ forall i j, (i < N)%nat -> (j < N)%nat ->
    W A i j = if dr then b2r (mem (i, j) G) else b2r (mem (i, j) G || mem (j, i) G)).
  { intros dr A H. destruct (adjacency_spec _ _ _ _ _ _ V H) as [F K]. split; [exact F|]. intros i j Hi Hj. rewrite K by assumption.
    change (is_directed s) with true. unfold view. rewrite andb_true_r. cbn [andb]. destruct dr; [apply E; exact Hj | apply NE; assumption]. }
  split; [|split; [|split]].
  - cbn [num_edges is_directed s drawn_graph adjacency_matrix bind]. destruct (S true _ eq_refl) as [F K].
    f_equal. rewrite all_sum by exact F. apply sumn_ext; intros i Hi. apply sumn_ext; intros j Hj. apply K; assumption.
  - eexists. split; [reflexivity|]. intros v Hv. destruct (S false _ eq_refl) as [F K].
    rewrite axis0_sum. apply sumn_ext; intros j Hj. rewrite K by assumption. rewrite orb_comm. reflexivity.
  - eexists. split; [reflexivity|]. intros v Hv. destruct (S true _ eq_refl) as [F K].
    rewrite (axis1_sum _ _ F) by exact Hv. apply sumn_ext; intros j Hj. apply K; assumption.
  - eexists. split; [reflexivity|]. intros v Hv. destruct (S true _ eq_refl) as [F K].
    rewrite axis0_sum. apply sumn_ext; intros j Hj. apply K; assumption.
Qed.

Lemma drawn_link : forall ID O (ref : option (reference ID O)) w N L, (forall t, In t L -> 0 < snd t) ->
  link_form N (GGraph N (of_sparse (sparse_sample ref w N L))) (map fst L).
Proof.
  intros ID O ref w N L P. split; [reflexivity|]. split; [|split].
  - right. exists ID, O, ref, w, L. split; [exact P | reflexivity].
  - rewrite object_graph. discriminate.
  - intros i j Hi Hj. rewrite object_graph. cbn [GraphFacts.link is_directed drawn_graph]. pose proof (present_entry w N L i j P Hj) as E.
    assert (V : valid w N (drawn_graph w N L)). { constructor; [|constructor]. split; [apply coo_wf, Forall_forall; exact P | reflexivity]. }
    pose proof (link_nonneg _ _ _ i j V Hi) as Q. change (GraphFacts.link (drawn_graph w N L) i j) with (W (coo_tocsr (negb w) N L) i j) in Q.
    rewrite <- mem_spec. unfold present in E. destruct (mem (i, j) (map fst L)); cbn [b2r] in E; destruct Req_EM_T in E; split; intros H; try reflexivity;
      try (left; lra); try lra; try discriminate; destruct H as [H | [H _]]; try discriminate; lra.
Qed.

(** ** What the sampler of the object returns *)

Definition tells (weights : option weighting) : bool := match weights with None => false | Some _ => true end.
Definition strengths (own : nat -> R) (arg : option (nat -> R)) : nat -> R := match arg with None => own | Some v => v end.

(** The weighted samplers need positive strengths wherever there can be a link.  The default strengths, the fitnesses, always are. *)
Definition ready (d : num) (x y : nat -> R) (N : nat) (weights : option weighting) (s_out s_in : nat -> R) : Prop :=
  (weights <> None -> able d x y N s_out s_in) /\ (weights = Some Cremb -> 0 < sumn N s_out).

Lemma default_able : forall d x y N, nonneg d -> (forall i, 0 <= x i) -> (forall i, 0 <= y i) -> able d x y N x y.
Proof.
  intros d x y N Hd Hx Hy i j _ _ P. rewrite (inv_prob_pm d x y Hd Hx Hy) in P. unfold pm in P. cbn [fst snd] in P.
  pose proof (Hx i). pose proof (Hy j). destruct (Rtotal_order 0 (x i * y j)) as [Z | [Z | Z]]; [exact Z | | nra].
  exfalso. rewrite <- Z, survive_0 in P. lra.
Qed.

Section Object.
Variables (d : num) (x y : nat -> R) (N : nat) (g : nat -> nat) (adj : nat -> list (nat * R)) (s : ens num).
Variables (ID O : Type) (ref : option (reference ID O)).
Variables (weights : option weighting) (os is_ : option (nat -> R)) (sa : option bool) (m : prog (res (sampled spm ID O))).
Let sl := a_selfloops s.
Hypothesis HS : setting d x y N g adj sl.
Hypothesis HV : forall a e, (a < num_groups N g)%nat -> In e (adj a) -> 0 < snd e.
Hypothesis Hs : a_param s = Some d.
Hypothesis HR : ready d x y N weights (strengths x os) (strengths y is_).
Hypothesis Hm : c_sample x y N g adj ref weights os is_ sa s = Ok m.

Definition object_of (r : res (list (nat * nat * R))) : res (sampled spm ID O) :=
  match r with Raise e => Raise e | Ok L => Ok (sparse_sample ref (tells weights) N L) end.

Lemma object_sampler : exists p, m = pbind p (fun r => Ret (object_of r)) /\ wf_prog p /\
  (forall r, outcome p r -> exists L, r = Ok L /\ NoDup (map fst L) /\ (forall e, In e (map fst L) -> In e (pairs N sl)) /\
     (forall t, In t L -> 0 < snd t)) /\
  (forall f, (forall S T, Permutation S T -> f S = f T) ->
    expect p (fun r => match r with Ok L => f (map fst L) | Raise _ => 0 end) = ensemble_mean N sl (given d x y N g adj sl) f).
Proof.
  unfold c_sample in Hm. rewrite Hs in Hm. fold (strengths x os) in Hm. fold (strengths y is_) in Hm. fold sl in Hm.
  destruct (cond_sample d (F x) (F y) N g adj sl weights (strengths x os) (strengths y is_)) as [p|e] eqn:E; [|discriminate].
  cbn [bind] in Hm. inversion Hm; subst m. exists p. split; [reflexivity|]. destruct HR as [R1 R2].
  destruct (drawn d x y N g adj sl weights _ _ p HS HV R1 R2 E) as (W & HO & HE). split; [exact W|]. split; [|exact HE].
  intros r Hr. destruct (HO r Hr) as (L & E1 & E2 & E3 & E4 & _). exists L. tauto.
Qed.

(** Means over the samples of a function of the sampled object that depends on its links only. *)
Lemma object_mean : forall (h : sampled spm ID O -> R) (f : list (nat * nat) -> R),
  (forall L, NoDup (map fst L) -> (forall e, In e (map fst L) -> In e (pairs N sl)) -> (forall t, In t L -> 0 < snd t) ->
     h (sparse_sample ref (tells weights) N L) = f (map fst L)) ->
  (forall S T, Permutation S T -> f S = f T) ->
  expect m (fun r => match r with Ok o => h o | Raise _ => 0 end) = ensemble_mean N sl (given d x y N g adj sl) f.
Proof.
  intros h f H Hf. destruct object_sampler as (p & -> & W & HO & HE). rewrite expect_bind. cbn [expect]. rewrite <- (HE f Hf).
  apply expect_on; [exact W|]. intros r Hr. destruct (HO r Hr) as (L & -> & E2 & E3 & E4). cbn [object_of]. apply H; assumption.
Qed.

Lemma object_wf : wf_prog m.
Proof. destruct object_sampler as (p & -> & W & _). apply wf_bind; [exact W | intros; exact I]. Qed.

Lemma object_outcome : forall r, outcome m r -> exists L, r = Ok (sparse_sample ref (tells weights) N L) /\ NoDup (map fst L) /\
  (forall e, In e (map fst L) -> In e (pairs N sl)) /\ (forall t, In t L -> 0 < snd t) /\ 0 < given d x y N g adj sl (map fst L).
Proof.
  intros r Hr. destruct object_sampler as (p & -> & W & HO & HE). apply outcome_bind in Hr as (r0 & H0 & H1). cbn [outcome] in H1. subst r.
  destruct (HO r0 H0) as (L & -> & E2 & E3 & E4). exists L. split; [reflexivity|]. split; [exact E2|]. split; [exact E3|]. split; [exact E4|].
  set (b := fun r : res (list (nat * nat * R)) => match r with Ok L' => links_eqb (map fst L') (map fst L) | Raise _ => false end).
  assert (B : b (Ok L) = true) by (apply links_eqb_spec; tauto).
  pose proof (outcome_pos _ p (Ok L) b W H0 B) as Q. unfold prob in Q.
  assert (HA : forall i j, In (i, j) (map fst L) -> allowed sl i j = true) by (intros i j K; apply E3, in_pairs in K; tauto).
  assert (HI : MultiLik.in_range N (map fst L)) by (intros i j K; apply E3, in_pairs in K; tauto).
  pose proof (ordered_all N sl _ HI HA) as OA.
  rewrite <- (given_ext d x y N g adj sl _ _ OA). rewrite <- (mean_links_eqb N sl _ _ (ordered_graph N sl (map fst L))).
  rewrite <- (HE (fun H => b2r (links_eqb H (ordered N sl (map fst L)))))
    by (intros S T K; f_equal; apply links_eqb_perm; exact K).
  refine (Rlt_le_trans _ _ _ Q _). right. apply expect_ext. intros [L'|e]; [|reflexivity]. cbn. f_equal. apply Bool.eq_iff_eq_true.
  rewrite !links_eqb_spec. split; intros K e; rewrite K; [symmetry|]; apply OA.
Qed.
End Object.

(** * C95: samples as objects *)

(** Every sample has a finite log-likelihood, at most 0, given the aggregate graph it was drawn for. *)
Theorem C95_own : forall d x y N g adj s ID O (ref : option (reference ID O)) weights os is_ sa m us r rest,
  setting d x y N g adj (a_selfloops s) -> usable x y N g adj (a_selfloops s) -> a_param s = Some d ->
  ready d x y N weights (strengths x os) (strengths y is_) ->
  c_sample x y N g adj ref weights os is_ sa s = Ok m -> (forall u, In u us -> 0 <= u < 1) -> run_draws m us = Some (r, rest) ->
  exists o l, r = Ok o /\ c_log_likelihood x y N g adj (GGraph N (of_sparse o)) s = Ok (Fin l) /\ l <= 0.
Proof.
  intros d x y N g adj s ID O ref weights os is_ sa m us r rest HS HU Hs HR Hm Hus Hr. pose proof (proj1 HU) as HV.
  destruct (object_outcome d x y N g adj s ID O ref weights os is_ sa m HS HV Hs HR Hm r (run_outcome _ _ _ _ _ Hus Hr)) as (L & -> & ND & HI & P & Q).
  set (G := map fst L) in *.
  assert (HA : forall i j, In (i, j) G -> allowed (a_selfloops s) i j = true) by (intros i j K; apply HI, in_pairs in K; tauto).
  assert (HG : MultiLik.in_range N G) by (intros i j K; apply HI, in_pairs in K; tauto).
  destruct (C95_likelihood d x y N g adj s _ G HS HU Hs HG HA (drawn_link ID O ref (tells weights) N L P) I) as (l & E & LO).
  destruct LO as [[_ ->] | [Z _]]; [|lra]. eexists. exists (ln (given d x y N g adj (a_selfloops s) G)). split; [reflexivity|]. split; [exact E|].
  assert (LE : given d x y N g adj (a_selfloops s) G <= 1).
  { rewrite <- (given_ext d x y N g adj (a_selfloops s) _ _ (ordered_all N _ G HG HA)).
    destruct (C57_distribution d x y N g adj (a_selfloops s) _ HS (ordered_graph N (a_selfloops s) G)) as [W <-]. unfold prob.
    rewrite <- (expect_const _ (cond_binary_sample d (F x) (F y) N g adj (a_selfloops s)) 1).
    apply expect_le; [exact W|]. intros z _. match goal with |- b2r ?b <= 1 => destruct b end; cbn; lra. }
  rewrite <- ln_1. destruct LE as [LE | LE]; [left; apply ln_increasing; assumption | right; f_equal; exact LE].
Qed.
Print Assumptions C95_own.

(** The links of a sampled object are exactly [G]. *)
Definition has_links {ID O} (N : nat) (o : sampled spm ID O) (G : list (nat * nat)) : bool :=
  forallb (fun e => Bool.eqb (negb (Reqb (W (s_adj o) (fst e) (snd e)) 0)) (mem e G)) (list_prod (seq 0 N) (seq 0 N)).

Lemma present_nonzero : forall v b, present v = b2r b -> negb (Reqb v 0) = b.
Proof. intros v b H. unfold present in H. destruct (Reqb_spec v 0), (Req_EM_T v 0), b; cbn in *; try reflexivity; try lra. Qed.

Lemma has_links_eqb : forall ID O (ref : option (reference ID O)) w N sl L G, (forall t, In t L -> 0 < snd t) -> (forall e, In e (map fst L) -> In e (pairs N sl)) ->
  In G (all_graphs N sl) -> has_links N (sparse_sample ref w N L) G = links_eqb (map fst L) G.
Proof.
  intros ID O ref w N sl L G P HI HG. apply Bool.eq_iff_eq_true. rewrite links_eqb_spec. unfold has_links. rewrite forallb_forall.
  assert (E : forall i j, (j < N)%nat -> negb (Reqb (W (s_adj (sparse_sample ref w N L)) i j) 0) = mem (i, j) (map fst L)).
  { intros i j Hj. apply present_nonzero. replace (s_adj (sparse_sample ref w N L)) with (coo_tocsr (negb w) N L) by (destruct ref; reflexivity).
    apply present_entry; assumption. }
  split.
  - intros H [i j]. assert (K : (i < N)%nat -> (j < N)%nat -> In (i, j) (map fst L) <-> In (i, j) G).
    { intros Hi Hj. specialize (H (i, j)). rewrite in_prod_iff, !in_seq in H. cbn [fst snd] in H. specialize (H ltac:(lia)).
      apply Bool.eqb_prop in H. rewrite (E i j Hj) in H. rewrite <- !mem_spec, H. tauto. }
    split; intros Q; apply K; try exact Q.
    1, 2: apply HI, in_pairs in Q; tauto. 1, 2: apply (graph_range _ _ _ HG i j Q).
  - intros H [i j] Hij. rewrite in_prod_iff, !in_seq in Hij. cbn [fst snd]. rewrite (E i j) by lia. apply Bool.eqb_true_iff.
    apply Bool.eq_iff_eq_true. rewrite !mem_spec. apply H.
Qed.

(** The log-likelihood of a graph, in whatever form, is the logarithm of the probability that [sample] returns this graph, with
    each of the three kinds of weights. *)
Theorem C95_distribution : forall d x y N g adj s ID O (ref : option (reference ID O)) weights os is_ sa m arg G,
  setting d x y N g adj (a_selfloops s) -> usable x y N g adj (a_selfloops s) -> a_param s = Some d ->
  ready d x y N weights (strengths x os) (strengths y is_) ->
  c_sample x y N g adj ref weights os is_ sa s = Ok m -> In G (all_graphs N (a_selfloops s)) -> link_form N arg G -> no_negative N arg ->
  let q := prob m (fun r => match r with Ok o => has_links N o G | Raise _ => false end) in
  q = given d x y N g adj (a_selfloops s) G /\
  exists l, c_log_likelihood x y N g adj arg s = Ok l /\ log_of q l.
Proof.
  intros d x y N g adj s ID O ref weights os is_ sa m arg G HS HU Hs HR Hm HG HL HN q.
  assert (Q : q = given d x y N g adj (a_selfloops s) G).
  { unfold q, prob. rewrite <- (mean_links_eqb N _ _ G HG).
    rewrite <- (object_mean d x y N g adj s ID O ref weights os is_ sa m HS (proj1 HU) Hs HR Hm (fun o => b2r (has_links N o G)) (fun H => b2r (links_eqb H G))).
    - apply expect_ext. intros [o|e]; reflexivity.
    - intros L _ HI P. f_equal. apply (has_links_eqb ID O ref (tells weights) N (a_selfloops s) L G P HI HG).
    - intros S T K. f_equal. apply links_eqb_perm. exact K. }
  split; [exact Q|]. rewrite Q. apply C95_likelihood; try assumption.
  - exact (graph_range _ _ _ HG).
  - intros i j K. pose proof (sublists_incl _ _ _ _ HG K) as K'. apply in_pairs in K'. tauto.
Qed.
Print Assumptions C95_distribution.

(** ** Measures of the samples *)

Lemma g_perm : forall N S T, Permutation S T -> g_edges N S = g_edges N T /\
  forall v, g_out N S v = g_out N T v /\ g_in N S v = g_in N T v /\ g_deg N S v = g_deg N T v.
Proof.
  intros N S T H. assert (E : forall e, mem e S = mem e T) by (intros e; apply CondPairs.mem_perm; exact H).
  unfold g_edges, g_out, g_in, g_deg. split; [|intros v; split; [|split]]; repeat (apply sumn_ext; intros); rewrite !E; reflexivity.
Qed.

Definition mean_of {ID O} (m : prog (res (sampled spm ID O))) (f : sampled spm ID O -> res R) : R :=
  expect m (fun r => match r with Ok o => match f o with Ok v => v | Raise _ => 0 end | Raise _ => 0 end).
Definition at_ (v : nat) (r : res (nat -> R)) : res R := match r with Ok a => Ok (a v) | Raise e => Raise e end.

(** The number of links of the samples has the mean that the object reports, whatever the weights. *)
Theorem C95_edges : forall d x y N g adj s ID O (ref : option (reference ID O)) weights os is_ sa m,
  setting d x y N g adj (a_selfloops s) -> (forall a e, (a < num_groups N g)%nat -> In e (adj a) -> 0 < snd e) -> a_param s = Some d ->
  ready d x y N weights (strengths x os) (strengths y is_) ->
  c_sample x y N g adj ref weights os is_ sa s = Ok m ->
  fst (c_num_edges (F x) (F y) N g adj true s) = Ok (mean_of m (fun o => num_edges N (of_sparse o))).
Proof.
  intros d x y N g adj s ID O ref weights os is_ sa m HS HV Hs HR Hm. unfold mean_of.
  assert (E : fst (c_num_edges (F x) (F y) N g adj true s) = Ok (ensemble_mean N (a_selfloops s) (given d x y N g adj (a_selfloops s)) (g_edges N))).
  { unfold c_num_edges. rewrite Hs, Bool.orb_true_r, (C68_edges _ _ _ _ _ _ _ HS). reflexivity. }
  rewrite E. f_equal. symmetry.
  apply (object_mean d x y N g adj s ID O ref weights os is_ sa m HS HV Hs HR Hm
    (fun o => match num_edges N (of_sparse o) with Ok v => v | Raise _ => 0 end) (g_edges N)).
  - intros L _ _ P. rewrite object_graph. destruct (drawn_measures (tells weights) N L P) as [-> _]. reflexivity.
  - intros S T K. apply g_perm. exact K.
Qed.
Print Assumptions C95_edges.

(** Likewise the degrees.  The full statement drops the symmetry of the aggregate graph and has equality for the undirected degree;
    it is refuted by C59_asymmetric_refuted and C68_undirected_refuted. *)
Theorem C95_degrees_partial : forall d x y N g adj s ID O (ref : option (reference ID O)) weights os is_ sa m,
  setting d x y N g adj (a_selfloops s) -> (forall a e, (a < num_groups N g)%nat -> In e (adj a) -> 0 < snd e) -> a_param s = Some d ->
  (forall a b, (a < num_groups N g)%nat -> (b < num_groups N g)%nat -> macro_link adj a b = macro_link adj b a) ->
  ready d x y N weights (strengths x os) (strengths y is_) ->
  c_sample x y N g adj ref weights os is_ sa s = Ok m ->
  exists dd o i, fst (c_degree (F x) (F y) N g adj true s) = Ok dd /\ fst (c_out_degree (F x) (F y) N g adj true s) = Ok o /\
    fst (c_in_degree (F x) (F y) N g adj true s) = Ok i /\
    forall v, (v < N)%nat ->
      o v = mean_of m (fun a => at_ v (out_degree N (of_sparse a))) /\ i v = mean_of m (fun a => at_ v (in_degree N (of_sparse a))) /\
      dd v <= mean_of m (fun a => at_ v (degree N (of_sparse a))) /\
      (macro_link adj (g v) (g v) = false -> dd v = mean_of m (fun a => at_ v (degree N (of_sparse a)))).
Proof.
  intros d x y N g adj s ID O ref weights os is_ sa m HS HV Hs Hsym HR Hm.
  destruct (degrees_ok d x y N g adj _ HS Hsym) as (dd & o & i & E & HD). exists dd, o, i.
  assert (C : fst (c_degree (F x) (F y) N g adj true s) = Ok dd /\ fst (c_out_degree (F x) (F y) N g adj true s) = Ok o /\
    fst (c_in_degree (F x) (F y) N g adj true s) = Ok i).
  { unfold c_out_degree, c_in_degree, c_degree. rewrite Hs, !Bool.orb_true_r, E. cbn. auto. }
  destruct C as (C1 & C2 & C3). split; [exact C1|]. split; [exact C2|]. split; [exact C3|]. intros v Hv.
  destruct (HD v Hv) as (D1 & D2 & D3 & D4).
  assert (M : forall (f : nat -> shape -> res (nat -> R)) (h : list (nat * nat) -> R),
    (forall L, (forall t, In t L -> 0 < snd t) -> exists a, f N (drawn_graph (tells weights) N L) = Ok a /\ a v = h (map fst L)) ->
    (forall S T, Permutation S T -> h S = h T) ->
    mean_of m (fun a => at_ v (f N (of_sparse a))) = ensemble_mean N (a_selfloops s) (given d x y N g adj (a_selfloops s)) h).
  { intros f h Hf Hh. unfold mean_of. apply (object_mean d x y N g adj s ID O ref weights os is_ sa m HS HV Hs HR Hm
      (fun o => match at_ v (f N (of_sparse o)) with Ok v => v | Raise _ => 0 end) h); [|exact Hh].
    intros L _ _ P. rewrite object_graph. destruct (Hf L P) as (a & -> & Ea). exact Ea. }
  rewrite (M out_degree (fun G => g_out N G v)), (M in_degree (fun G => g_in N G v)), (M degree (fun G => g_deg N G v)).
  1: auto. all: try (intros S T K; apply (g_perm N S T K)).
  all: intros L P; destruct (drawn_measures (tells weights) N L P) as (_ & (a1 & A1 & A1') & (a2 & A2 & A2') & (a3 & A3 & A3')); eexists; (split; [eassumption|]); auto.
Qed.
Print Assumptions C95_degrees_partial.

(** ** The sample aggregated back *)

Theorem C95_blocks : forall d x y N g adj s ID O (ref : option (reference ID O)) weights os is_ sa m us r rest,
  setting d x y N g adj (a_selfloops s) -> (forall a e, (a < num_groups N g)%nat -> In e (adj a) -> 0 < snd e) -> a_param s = Some d ->
  ready d x y N weights (strengths x os) (strengths y is_) ->
  c_sample x y N g adj ref weights os is_ sa s = Ok m -> (forall u, In u us -> 0 <= u < 1) -> run_draws m us = Some (r, rest) ->
  exists o, r = Ok o /\ s_vertices o = N /\ forall a b, (a < num_groups N g)%nat -> (b < num_groups N g)%nat ->
    ((exists i j, (i < N)%nat /\ (j < N)%nat /\ g i = a /\ g j = b /\ W (s_adj o) i j <> 0) <-> macro_link adj a b = true).
Proof.
  intros d x y N g adj s ID O ref weights os is_ sa m us r rest HS HV Hs HR Hm Hus Hr.
  destruct (object_outcome d x y N g adj s ID O ref weights os is_ sa m HS HV Hs HR Hm r (run_outcome _ _ _ _ _ Hus Hr)) as (L & -> & ND & HI & P & Q).
  eexists. split; [reflexivity|]. split; [destruct ref; reflexivity|]. intros a b Ha Hb.
  replace (s_adj (sparse_sample ref (tells weights) N L)) with (coo_tocsr (negb (tells weights)) N L) by (destruct ref; reflexivity).
  assert (AG : agrees (num_groups N g) g (macro_link adj) (map fst L) = true).
  { unfold given, cond_weight in Q. destruct (agrees _ _ _ _); [reflexivity|]. cbn [b2r] in Q. unfold Rdiv in Q. rewrite Rmult_0_r, Rmult_0_l in Q. lra. }
  rewrite <- (agrees_all _ _ _ _ AG a b Ha Hb), blocks_linked_in.
  assert (E : forall i j, (j < N)%nat -> W (coo_tocsr (negb (tells weights)) N L) i j <> 0 <-> In (i, j) (map fst L)).
  { intros i j Hj. rewrite <- mem_spec, <- (present_nonzero _ _ (present_entry (tells weights) N L i j P Hj)).
    generalize (W (coo_tocsr (negb (tells weights)) N L) i j). intros z. destruct (Reqb_spec z 0); cbn; split; congruence. }
  split.
  - intros (i & j & Hi & Hj & Ga & Gb & Z). exists i, j. split; [apply E; assumption | tauto].
  - intros (i & j & K & Ga & Gb). pose proof (HI _ K) as K'. apply in_pairs in K' as (Hi & Hj & _). exists i, j. repeat split; try assumption. apply E; assumption.
Qed.
Print Assumptions C95_blocks.

(** With the weights "wagg" the sample also gives back the weights of the aggregate graph. *)
Lemma run_ret : forall A B (p : prog A) (f : A -> B) us r rest, run_draws (pbind p (fun a => Ret (f a))) us = Some (r, rest) ->
  exists a, run_draws p us = Some (a, rest) /\ r = f a.
Proof.
  intros A B p f. induction p as [a|q k IH]; intros us r rest H; cbn [pbind run_draws] in *.
  - inversion H. eauto.
  - destruct us as [|u us]; [discriminate|]. exact (IH _ _ _ _ H).
Qed.

Lemma block_entries : forall N g a b L, (forall t, In t L -> (fst (fst t) < N)%nat /\ (snd (fst t) < N)%nat) ->
  sumn N (fun i => if Nat.eqb (g i) a then sumn N (fun j => if Nat.eqb (g j) b then suml (fun t => if Graphs.hits i j t then snd t else 0) L else 0) else 0)
  = block_weight g a b L.
Proof.
  intros N g a b L. unfold block_weight. induction L as [|[[i0 j0] v] L IH]; intros H; cbn [suml].
  - apply sumn_zero. intros i _. destruct (Nat.eqb (g i) a); [|reflexivity]. apply sumn_zero. intros j _. destruct (Nat.eqb (g j) b); reflexivity.
  - rewrite <- IH by (intros t Ht; apply H; right; exact Ht). destruct (H _ (or_introl eq_refl)) as [Hi Hj]. cbn [fst snd] in Hi, Hj |- *.
    transitivity (sumn N (fun i => if Nat.eqb i i0 then (if Nat.eqb (g i) a then sumn N (fun j => if Nat.eqb j j0 then (if Nat.eqb (g j) b then v else 0) else 0) else 0) else 0)
      + sumn N (fun i => if Nat.eqb (g i) a then sumn N (fun j => if Nat.eqb (g j) b then suml (fun t => if Graphs.hits i j t then snd t else 0) L else 0) else 0)).
    + rewrite <- sumn_plus. apply sumn_ext. intros i Hi'. destruct (Nat.eqb (g i) a); [|destruct (Nat.eqb i i0); ring].
      transitivity (sumn N (fun j => if Nat.eqb i i0 then (if Nat.eqb j j0 then (if Nat.eqb (g j) b then v else 0) else 0) else 0)
        + sumn N (fun j => if Nat.eqb (g j) b then suml (fun t => if Graphs.hits i j t then snd t else 0) L else 0)).
      * rewrite <- sumn_plus. apply sumn_ext. intros j _. unfold Graphs.hits at 1. cbn [fst snd]. rewrite (Nat.eqb_sym i0 i), (Nat.eqb_sym j0 j).
        destruct (Nat.eqb i i0), (Nat.eqb j j0), (Nat.eqb (g j) b); cbn [andb]; ring.
      * f_equal. destruct (Nat.eqb i i0); [reflexivity|]. apply sumn_zero. reflexivity.
    + f_equal. rewrite sumn_delta. apply Nat.ltb_lt in Hi. rewrite Hi. destruct (Nat.eqb (g i0) a); [|reflexivity].
      rewrite sumn_delta. apply Nat.ltb_lt in Hj. rewrite Hj. reflexivity.
Qed.

Theorem C95_weights : forall d x y N g adj s ID O (ref : option (reference ID O)) os is_ sa m us r rest,
  setting d x y N g adj (a_selfloops s) -> (forall a e, (a < num_groups N g)%nat -> In e (adj a) -> 0 < snd e) -> a_param s = Some d ->
  able d x y N (strengths x os) (strengths y is_) ->
  c_sample x y N g adj ref (Some Wagg) os is_ sa s = Ok m -> (forall u, In u us -> 0 <= u < 1) -> run_draws m us = Some (r, rest) ->
  exists o, r = Ok o /\ forall a b, (a < num_groups N g)%nat -> (b < num_groups N g)%nat ->
    let total := sumn N (fun i => if Nat.eqb (g i) a then sumn N (fun j => if Nat.eqb (g j) b then W (s_adj o) i j else 0) else 0) in
    (forall w, In (b, w) (adj a) -> total = w) /\ (macro_link adj a b = false -> total = 0).
Proof.
  intros d x y N g adj s ID O ref os is_ sa m us r rest HS HV Hs Hab Hm Hus Hr.
  pose proof Hm as Hm'. unfold c_sample in Hm'. rewrite Hs in Hm'. cbn [cond_sample bind] in Hm'. inversion Hm'; subst m. clear Hm'.
  apply run_ret in Hr as (p & Hp & Er). fold (strengths x os) in Hp. fold (strengths y is_) in Hp.
  destruct (C60_block_weights d x y N g adj (a_selfloops s) _ _ us p rest HS Hab Hus Hp) as (L' & -> & B1 & B2).
  exists (sparse_sample ref true N L'). split; [exact Er|]. intros a b Ha Hb total.
  destruct (wagg_outcome d x y N g adj (a_selfloops s) _ _ us _ rest HS Hab Hus Hp) as (S & ES & HS1 & _ & _ & HI' & _).
  inversion ES as [ES']. destruct HS as (_ & _ & _ & Hadj & _).
  pose proof (rec_wagg_fst d x y N g adj (a_selfloops s) Hadj (strengths x os) (strengths y is_) S HS1) as FS. rewrite <- ES' in FS.
  assert (T : total = block_weight g a b L').
  { rewrite <- (block_entries N g a b L').
    - unfold total. apply sumn_ext. intros i _. destruct (Nat.eqb (g i) a); [|reflexivity]. apply sumn_ext. intros j Hj. destruct (Nat.eqb (g j) b); [|reflexivity].
      replace (s_adj (sparse_sample ref true N L')) with (coo_tocsr false N L') by (destruct ref; reflexivity). apply coo_entry. exact Hj.
    - intros t Ht. assert (K : In (fst t) (pairs N (a_selfloops s))) by (apply HI'; rewrite <- FS; apply in_map; exact Ht).
      destruct (fst t) as [i j]. apply in_pairs in K. cbn. tauto. }
  rewrite T. split; [intros w Hw; apply B1; assumption | apply B2; assumption].
Qed.
Print Assumptions C95_weights.

(** ** Refusals *)

Theorem C95_rejected : forall d x y N g adj sl,
  (forall arg, c_log_likelihood x y N g adj arg (new_ens None sl) = Raise GenericException) /\
  (forall ID O (ref : option (reference ID O)) weights os is_ sa, c_sample x y N g adj ref weights os is_ sa (new_ens None sl) = Raise GenericException) /\
  (forall arg s, a_param s = Some d -> match arg with GGraph n _ => n <> N | GMatrix m => matrix_shape m <> (N, N) | _ => True end ->
     match arg with GGraph _ t => layers t <> [] | _ => True end ->
     c_log_likelihood x y N g adj arg s = Raise ValueError) /\
  (forall ID O (ref : option (reference ID O)) os is_ sa s, a_param s = Some d ->
     c_sample x y N g adj ref (Some OtherWeights) os is_ sa s = Raise ValueError) /\
  (forall ID O (ref : option (reference ID O)) os is_ sa s, a_param s = Some d -> sumn N (strengths x os) <> 0 ->
     1 / 1000000 <= Rabs (1 - sumn N (strengths y is_) / sumn N (strengths x os)) ->
     c_sample x y N g adj ref (Some Cremb) os is_ sa s = Raise AssertionError).
Proof.
  intros d x y N g adj sl. split; [reflexivity|]. split; [reflexivity|]. split; [|split].
  - intros arg s Hs HA HL. unfold c_log_likelihood. rewrite Hs.
    assert (GD : forall r c : nat, (r, c) <> (N, N) -> Nat.eqb r N && Nat.eqb c N = false).
    { intros r c H. destruct (Nat.eqb_spec r N), (Nat.eqb_spec c N); try reflexivity. exfalso. apply H. congruence. }
    destruct arg as [n t|[r c e|r c a]|k r c a| |l|]; cbn [read_matrix bind]; try reflexivity.
    + destruct (adjacency_ok n t true false HL) as [A ->]. cbn [bind]. rewrite GD; [reflexivity | congruence].
    + rewrite GD; [reflexivity | exact HA].
    + rewrite GD; [reflexivity | exact HA].
  - intros ID O ref os is_ sa s Hs. unfold c_sample. rewrite Hs. reflexivity.
  - intros ID O ref os is_ sa s Hs Z T. unfold c_sample. rewrite Hs. fold (strengths x os). fold (strengths y is_). cbn [cond_sample]. unfold cond_cremb_sample.
    destruct (Reqb_spec (sumn N (strengths x os)) 0) as [|_]; [contradiction|].
    destruct (Rltb_spec (Rabs (1 - sumn N (strengths y is_) / sumn N (strengths x os))) (1 / 1000000)); [lra | reflexivity].
Qed.
Print Assumptions C95_rejected.

(** ** The concrete case *)

Lemma four_usable : usable (fun _ => 1) (fun _ => 1) 4 half four_adj false.
Proof.
  split.
  - intros a e _ He. destruct a as [|[|a]]; cbn in He; [destruct He as [<- | [<- | []]] | destruct He as [<- | []] | destruct He]; cbn; lra.
  - intros _ a Ha. change (num_groups 4 half) with 2%nat in Ha. destruct a as [|[|a]]; [| |lia]; cbn; lra.
Qed.

Lemma four_ready : forall weights, ready (Fin 1) (fun _ => 1) (fun _ => 1) 4 weights (fun _ => 1) (fun _ => 1).
Proof.
  intros weights. split.
  - intros _. apply default_able; simpl; intros; lra.
  - intros _. cbn. lra.
Qed.

Example C95_case : let s := new_ens (Some (Fin 1)) false in let x := fun _ : nat => 1 in
  setting (Fin 1) x x 4 half four_adj (a_selfloops s) /\ usable x x 4 half four_adj (a_selfloops s) /\ a_param s = Some (Fin 1) /\
  (forall a b, (a < num_groups 4 half)%nat -> (b < num_groups 4 half)%nat -> macro_link four_adj a b = macro_link four_adj b a) /\
  (forall weights, weights <> Some OtherWeights -> ready (Fin 1) x x 4 weights (strengths x None) (strengths x None) /\
     exists m, c_sample x x 4 half four_adj (None : option (reference nat nat)) weights None None None s = Ok m) /\
  exists arg, In four_graph (all_graphs 4 (a_selfloops s)) /\ link_form 4 arg four_graph /\ no_negative 4 arg /\
    0 < given (Fin 1) x x 4 half four_adj (a_selfloops s) four_graph.
Proof.
  intros s x. split; [exact four_setting|]. split; [exact four_usable|]. split; [reflexivity|]. split; [exact (proj2 C59_symmetric_case)|]. split.
  - intros weights Hw. split; [exact (four_ready weights)|]. destruct weights as [[| |]|]; [| |congruence|]; eexists; unfold c_sample; cbn [s new_ens a_param cond_sample].
    + unfold cond_cremb_sample. destruct (Reqb_spec (sumn 4 x) 0) as [Z|_]; [cbn in Z; unfold x in Z; lra|].
      destruct (Rltb_spec (Rabs (1 - sumn 4 x / sumn 4 x)) (1 / 1000000)) as [_|Z]; [reflexivity|].
      exfalso. apply Z. replace (1 - sumn 4 x / sumn 4 x) with 0 by (cbn; unfold x; field). rewrite Rabs_R0. lra.
    + reflexivity.
    + reflexivity.
  - eexists. split; [exact four_in|]. split; [exact (sampled_link nat nat None 4 four_graph)|]. split; [exact I|]. apply (proj2 (proj2 C57_case)).
Qed.

(** A graph with a link in a block that is not linked in the aggregate graph, as an array. *)
Example C95_incompatible_case : let G := (2, 3)%nat :: four_graph in MultiLik.in_range 4 G /\
  link_form 4 (GMatrix (MArray 4 4 (fun i j => b2r (mem (i, j) G)))) G /\ no_negative 4 (GMatrix (MArray 4 4 (fun i j => b2r (mem (i, j) G)))) /\
  blocks_linked half 1 1 G <> macro_link four_adj 1 1.
Proof.
  intros G. split; [|split; [|split]].
  - intros i j K. cbn in K. repeat (destruct K as [K | K]; [inversion K; lia|]). destruct K.
  - cbn [link_form matrix_form]. split; [reflexivity|]. split; [reflexivity|]. intros i j Hi Hj. rewrite <- mem_spec. destruct (mem (i, j) G); cbn [b2r]; split; intros H; try reflexivity; try lra; try discriminate.
  - intros i j _ _. destruct (mem (i, j) G); cbn; lra.
  - discriminate.
Qed.

(** The argument of wrong shape and the strengths that do not match. *)
Example C95_rejected_case : matrix_shape (MArray 3 4 (fun _ _ => 0)) <> (4, 4)%nat /\
  sumn 4 (strengths (fun _ => 1) None) <> 0 /\ 1 / 1000000 <= Rabs (1 - sumn 4 (strengths (fun _ => 1) (Some (fun _ => 3))) / sumn 4 (strengths (fun _ => 1) None)).
Proof.
  split; [discriminate|]. cbn. split; [lra|]. rewrite Rabs_left1; lra.
Qed.

(** ** Findings *)

(** The argument [selfloops] of [sample] is not used: self-loops are drawn although the call excludes them. *)
Theorem C95_selfloops_refuted : exists d x y N g adj s m, setting d x y N g adj (a_selfloops s) /\ a_param s = Some d /\
  c_sample x y N g adj (None : option (reference nat nat)) None None None (Some false) s = Ok m /\
  prob m (fun r => match r with Ok o => negb (Reqb (W (s_adj o) 0 0) 0) | Raise _ => false end) = 1.
Proof.
  set (x := fun _ : nat => 1). set (g := fun _ : nat => 0%nat). set (s := new_ens (Some (Fin 1)) true).
  assert (HS : setting (Fin 1) x x 1 g self_adj true).
  { repeat split; try (intros; unfold x; simpl; lra).
    - destruct a as [|[|a]]; cbn; repeat constructor; simpl; tauto.
    - change (num_groups 1 g) with 1%nat in *. destruct a as [|[|a]]; cbn; intros e; [intros [<-|[]]; cbn; lia | intros [] | intros []].
    - apply (prob_aggregate_pos _ _ _ _ _ _ [(0, 0)]%nat); [apply unit_prob_range | cbn; tauto | reflexivity]. }
  exists (Fin 1), x, x, 1%nat, g, self_adj, s. eexists. split; [exact HS|]. split; [reflexivity|]. split; [reflexivity|].
  assert (HV : forall a e, (a < num_groups 1 g)%nat -> In e (self_adj a) -> 0 < snd e).
  { intros a e _. destruct a as [|a]; cbn; [intros [<-|[]]; cbn; lra | intros []]. }
  assert (HR : ready (Fin 1) x x 1 None (strengths x None) (strengths x None)) by (split; [congruence | discriminate]).
  unfold prob. etransitivity; [|transitivity (ensemble_mean 1 true (given (Fin 1) x x 1 g self_adj true) (fun G => b2r (mem (0, 0)%nat G)))].
  - etransitivity; [|apply (object_mean (Fin 1) x x 1 g self_adj s nat nat None None None None (Some false) _ HS HV eq_refl HR eq_refl
      (fun o => b2r (negb (Reqb (W (s_adj o) 0 0) 0))) (fun G => b2r (mem (0, 0)%nat G)))].
    + apply expect_ext. intros [o|e]; reflexivity.
    + intros L _ _ P. f_equal. apply present_nonzero. exact (present_entry false 1 L 0 0 P ltac:(lia)).
    + intros S T K. f_equal. apply CondPairs.mem_perm. exact K.
  - reflexivity.
  - destruct HS as (_ & _ & _ & _ & Hpos). unfold given, cond_weight, ensemble_mean. set (Z := prob_aggregate _ _ _ _ _ _) in *.
    assert (EZ : Z = 1 - exp (- (1))). { unfold Z, prob_aggregate, ensemble_mean, graph_weight. cbn. unfold x. rewrite !unit_prob. ring. }
    unfold graph_weight. cbn. unfold x. rewrite !unit_prob. rewrite EZ in *. field. lra.
Qed.
Print Assumptions C95_selfloops_refuted.

(** Weights that cancel within a block hide its links: a graph of positive probability gets minus infinity. *)
Theorem C95_cancel_refuted : exists d x y N g adj s arg G, setting d x y N g adj (a_selfloops s) /\ usable x y N g adj (a_selfloops s) /\ a_param s = Some d /\
  In G (all_graphs N (a_selfloops s)) /\ link_form N arg G /\ 0 < given d x y N g adj (a_selfloops s) G /\
  c_log_likelihood x y N g adj arg s = Ok NInf.
Proof.
  set (x := fun _ : nat => 1). set (g := fun _ : nat => 0%nat). set (s := new_ens (Some (Fin 1)) false).
  exists (Fin 1), x, x, 2%nat, g, self_adj, s, (GMatrix (MStored 2 2 (fun i => match i with 0%nat => [(1%nat, 1)] | _ => [(0%nat, -1)] end))), [(0, 1); (1, 0)]%nat.
  pose proof self_setting as HS. split; [exact HS|]. split.
  { split.
    - intros a e _. destruct a as [|a]; cbn; [intros [<-|[]]; cbn; lra | intros []].
    - intros _ a Ha. change (num_groups 2 g) with 1%nat in Ha. replace a with 0%nat by lia. unfold x, g. cbn. lra. }
  split; [reflexivity|]. split; [cbn; tauto|]. split; [|split].
  - cbn [link_form matrix_form]. split; [reflexivity|]. split; [reflexivity|]. split.
    + intros i t Hi. destruct i as [|[|i]]; [| |lia]; intros [<- | []]; cbn; (split; [lia | lra]).
    + intros i j Hi Hj. destruct i as [|[|i]]; [| |lia]; (destruct j as [|[|j]]; [| |lia]); (split;
        [intros [v [E | []]]; inversion E; cbn; tauto | intros [E | [E | []]]; inversion E; eexists; left; reflexivity]).
  - destruct HS as (_ & _ & _ & _ & Hpos). unfold given, cond_weight. apply Rdiv_lt_0_compat; [|exact Hpos].
    change (agrees _ _ _ _) with true. cbn [b2r]. rewrite Rmult_1_r. unfold graph_weight. cbn. unfold x. rewrite !unit_prob.
    pose proof (unit_prob_range 0 1) as Q. rewrite unit_prob in Q. nra.
  - unfold c_log_likelihood. cbn [s new_ens a_param read_matrix bind Nat.eqb andb guard]. change (max_group 2 g) with 1%nat. cbn [seq list_prod map app forallb fst snd].
    unfold agg_weight. cbn [sumn Nat.eqb g fst snd suml self_adj].
    destruct (Rltb_spec 0 (0 + (1 + 0) + (-1 + 0))) as [Z|_]; [lra|]. destruct (Rltb_spec 0 (1 + 0)) as [_|Z]; [reflexivity | lra].
Qed.
Print Assumptions C95_cancel_refuted.

(** A stored zero counts as a link of the graph but not of its aggregate: the value is the logarithm of a number above one. *)
Theorem C95_zeros_refuted : exists d x y N g adj s e l, setting d x y N g adj (a_selfloops s) /\ usable x y N g adj (a_selfloops s) /\ a_param s = Some d /\
  (forall i t, (i < N)%nat -> In t (e i) -> (fst t < N)%nat /\ 0 <= snd t) /\
  c_log_likelihood x y N g adj (GMatrix (MStored N N e)) s = Ok (Fin l) /\ 0 < l.
Proof.
  set (x := fun _ : nat => 1). set (g := fun i : nat => i). set (s := new_ens (Some (Fin 1)) false).
  pose proof one_setting as HS. pose proof HS as (Hd & Hx & Hy & Hadj & Hpos).
  assert (HU : usable x x 2 g one_adj false).
  { split.
    - intros a e _. destruct a as [|a]; cbn; [intros [<-|[]]; cbn; lra | intros []].
    - intros _ a Ha. change (num_groups 2 g) with 2%nat in Ha. destruct a as [|[|a]]; [| |lia]; unfold x, g; cbn; lra. }
  destruct (agg_likelihood_log (Fin 1) (fun _ => 1) (fun _ => 1) 2 (fun i => i) one_adj false Hd Hx Hy Hadj) as (r & Er & L).
  { change (num_groups 2 (fun i => i)) with 2%nat. intros a Ha _ _. cbn [fst snd]. destruct a as [|[|a]]; [| |lia]; unfold group_sum; cbn; lra. }
  assert (LG : log_of (graph_weight 2 false (fun _ _ => 1 - exp (- (1))) [(0, 1); (1, 0)]%nat)
     (likelihood inv_logp inv_log1mp (Fin 1) (F (fun _ => 1)) (F (fun _ => 1)) (fun _ _ => Fin 1) (row_of [(0, 1); (1, 0)]%nat) 2 false)).
  { replace (fun _ _ : nat => 1 - exp (- (1))) with (fun _ _ : nat => toR (inv_p_ij (Fin 1) (Fin 1) (Fin 1) (Fin 1))).
    - apply (likelihood_graph_spec num num num num (fun a b c e => toR (inv_p_ij a b c e)) inv_logp inv_log1mp (Fin 1) (F (fun _ => 1)) (F (fun _ => 1)) (fun _ _ => Fin 1)).
      + intros i j _ _. apply inv_logp_spec; simpl; lra.
      + intros i j _ _. apply inv_log1mp_spec; simpl; lra.
    - apply functional_extensionality; intros i. apply functional_extensionality; intros j.
      rewrite inv_survive by (simpl; lra). cbn [survive]. replace (1 * (1 * 1 * 1)) with 1 by ring. reflexivity. }
  pose proof (unit_prob_range 0 1) as Hp. rewrite unit_prob in Hp.
  assert (H12 : exp (- (1)) < 1 / 2).
  { rewrite exp_Ropp. pose proof (exp_ineq1 1 ltac:(lra)) as H. apply (Rmult_lt_reg_r (exp 1)); [apply exp_pos|]. rewrite Rinv_l by (pose proof (exp_pos 1); lra). lra. }
  destruct L as [[_ L]|[Z _]]; [|lra].
  assert (EZ : prob_aggregate 2 false (inv_prob (Fin 1) (fun _ => 1) (fun _ => 1)) (num_groups 2 (fun i => i)) (fun i => i) (macro_link one_adj) = (1 - exp (- (1))) * exp (- (1))).
  { unfold prob_aggregate, ensemble_mean, graph_weight. cbn. rewrite !unit_prob. ring. }
  assert (EG : graph_weight 2 false (fun _ _ => 1 - exp (- (1))) [(0, 1); (1, 0)]%nat = (1 - exp (- (1))) * (1 - exp (- (1)))).
  { unfold graph_weight. cbn. ring. }
  rewrite EG in LG. destruct LG as [[_ LG]|[Z _]]; [|nra].
  exists (Fin 1), x, x, 2%nat, g, one_adj, s, (fun i => match i with 0%nat => [(1%nat, 1)] | _ => [(0%nat, 0)] end). eexists.
  split; [exact HS|]. split; [exact HU|]. split; [reflexivity|]. split; [|split].
  - intros i t Hi. destruct i as [|[|i]]; [| |lia]; intros [<- | []]; cbn; (split; [lia | lra]).
  - unfold c_log_likelihood. cbn [s new_ens a_param a_selfloops read_matrix bind Nat.eqb andb guard].
    set (e := fun i : nat => match i with 0%nat => [(1%nat, 1)] | _ => [(0%nat, 0)] end).
    assert (AG : forall a b, Rltb 0 (agg_weight 2 g e a b) = macro_link one_adj a b).
    { intros a b. unfold agg_weight, g, e. cbn [sumn fst snd suml].
      destruct a as [|[|a]], b as [|[|b]]; cbn [Nat.eqb macro_link one_adj existsb fst snd orb];
        match goal with |- Rltb 0 ?v = _ => destruct (Rltb_spec 0 v) as [K|K]; try reflexivity; exfalso; lra end. }
    change (max_group 2 g) with 2%nat.
    match goal with |- (if negb (forallb ?f ?l) then _ else _) = _ => assert (FA : forallb f l = true) end.
    { apply forallb_forall. intros [a b] K. cbn [fst snd]. rewrite AG. apply in_prod_iff in K. rewrite !in_seq in K.
      destruct a as [|[|a]]; [| |lia]; (destruct b as [|[|b]]; [| |lia]); cbn [Nat.eqb macro_link one_adj existsb fst snd orb suml];
        match goal with |- Bool.eqb _ (Rltb 0 ?v) = _ => destruct (Rltb_spec 0 v) as [Z|Z]; try reflexivity; exfalso; lra end. }
    rewrite FA. cbn [negb].
    replace (fun a b => Rltb 0 (agg_weight 2 g e a b)) with (macro_link one_adj)
      by (apply functional_extensionality; intros a; apply functional_extensionality; intros b; symmetry; apply AG).
    assert (Er' : agg_likelihood (Fin 1) (fun i => Fin (x i)) (fun i => Fin (x i)) 2 g false (macro_link one_adj) = Ok r) by exact Er.
    rewrite Er'. cbn [bind].
    assert (SR : same_rows 2 (fun i => map fst (e i)) (row_of [(0, 1); (1, 0)]%nat)).
    { intros i j Hi. destruct i as [|[|i]]; [| |lia]; cbn; tauto. }
    rewrite (likelihood_rows _ _ _ _ _ _ _ _ _ _ _ _ _ _ SR). 
    assert (LG' : likelihood inv_logp inv_log1mp (Fin 1) (fun i => Fin (x i)) (fun i => Fin (x i)) (fun _ _ => Fin 1) (row_of [(0, 1); (1, 0)]%nat) 2 false
      = Fin (ln ((1 - exp (- (1))) * (1 - exp (- (1)))))) by exact LG.
    rewrite LG', L, EZ. reflexivity.
  - assert (Q : exp (- (1)) > 0) by apply exp_pos. rewrite !ln_mult by lra.
    assert (ln (exp (- (1))) < ln (1 - exp (- (1)))) by (apply ln_increasing; lra). lra.
Qed.
Print Assumptions C95_zeros_refuted.

(** A vertex without strength: its links get weight zero, which the graph object drops, and the sample is impossible under the model
    that drew it. *)
Theorem C95_zero_strength_refuted : exists d x y N g adj s os is_ m us o rest, setting d x y N g adj (a_selfloops s) /\ usable x y N g adj (a_selfloops s) /\
  a_param s = Some d /\ (forall i, 0 <= os i) /\ (forall i, 0 <= is_ i) /\ sumn N os = sumn N is_ /\
  c_sample x y N g adj (None : option (reference nat nat)) (Some Cremb) (Some os) (Some is_) None s = Ok m /\
  (forall u, In u us -> 0 <= u < 1) /\ run_draws m us = Some (Ok o, rest) /\
  c_log_likelihood x y N g adj (GGraph N (of_sparse o)) s = Ok NInf.
Proof.
  set (x := fun _ : nat => 1). set (g := fun i : nat => i). set (s := new_ens (Some (Fin 1)) false).
  set (so := fun i : nat => match i with 0%nat => 0 | _ => 1 end). set (si := fun i : nat => match i with 0%nat => 0 | _ => 1 end).
  exists (Fin 1), x, x, 2%nat, g, one_adj, s, so, si. eexists. exists [0], (sparse_sample None true 2 [(0%nat, 1%nat, 0)]), [].
  split; [exact one_setting|]. split.
  { split.
    - intros a e _. destruct a as [|a]; cbn; [intros [<-|[]]; cbn; lra | intros []].
    - intros _ a Ha. change (num_groups 2 g) with 2%nat in Ha. destruct a as [|[|a]]; [| |lia]; unfold x, g; cbn; lra. }
  split; [reflexivity|]. split; [intros [|i]; cbn; lra|]. split; [intros [|i]; cbn; lra|]. split; [reflexivity|]. split; [|split; [|split]].
  - unfold c_sample. cbn [s new_ens a_param cond_sample]. unfold cond_cremb_sample.
    destruct (Reqb_spec (sumn 2 so) 0) as [Z|_]; [cbn in Z; lra|].
    destruct (Rltb_spec (Rabs (1 - sumn 2 si / sumn 2 so)) (1 / 1000000)) as [_|Z]; [reflexivity|].
    exfalso. apply Z. replace (1 - sumn 2 si / sumn 2 so) with 0 by (cbn; field). rewrite Rabs_R0. lra.
  - intros u [<-|[]]; lra.
  - unfold macro_links. change (max_group 2 g) with 2%nat. cbn [seq flat_map map app fst snd sample_blocks one_adj].
    rewrite (p_block_spec (Fin 1) (fun _ => 1) (fun _ => 1) 2 (fun i => i) false); try (intros; simpl; lra).
    + assert (HQ : 0 < 1 - empty_prob 2 false (pm (Fin 1) (fun _ => 1) (fun _ => 1)) (fun i => i) (0%nat, 1%nat)).
      { rewrite Q_survive by (intros; simpl; lra). rewrite rate_value. unfold group_sum. cbn [negb andb Nat.eqb sumn survive].
        match goal with |- 0 < 1 - exp (- ?t) => pose proof (exp_neg_lt1 t ltac:(lra)) end. lra. }
      change (list_prod (members 2 g 0) (members 2 g 1)) with [(0, 1)%nat].
      cbn [sample_block]. change (adm (a_selfloops s) 0 1) with true. cbv iota zeta.
      pose proof (p_pair_pm (Fin 1) (fun _ => 1) (fun _ => 1) ltac:(simpl; lra) ltac:(intros; lra) ltac:(intros; lra) (0, 1)%nat) as Ep.
      assert (Ep' : p_pair (Fin 1) (F x) (F x) 0 1 = pm (Fin 1) (fun _ => 1) (fun _ => 1) (0, 1)%nat) by exact Ep. cbn [fst snd]. rewrite Ep'.
      assert (Hp : 0 < pm (Fin 1) (fun _ => 1) (fun _ => 1) (0, 1)%nat).
      { rewrite <- inv_prob_pm by (simpl; intros; lra). apply unit_prob_range. }
      set (q := 1 - empty_prob _ _ _ _ _) in *. destruct (Reqb_spec q 0); [lra|]. cbn [pbind run_draws].
      destruct (Rltb_spec 0 (pm (Fin 1) (fun _ => 1) (fun _ => 1) (0, 1)%nat / q)) as [_|Hn]; [|exfalso; apply Hn, Rdiv_lt_0_compat; assumption].
      cbn [pbind app run_draws fst snd]. repeat f_equal. cbn [so]. unfold Rdiv. ring.
    + intros _ E. cbn [fst snd] in E. discriminate.
  - unfold c_log_likelihood. cbn [s new_ens a_param a_selfloops read_matrix bind]. rewrite object_graph. cbn [drawn_graph adjacency_matrix bind].
    cbn [Nat.eqb andb guard]. change (max_group 2 g) with 2%nat.
    match goal with |- (if negb (forallb ?f ?l) then _ else _) = _ => assert (FA : forallb f l = false) end.
    { apply Bool.not_true_iff_false. intros K. rewrite forallb_forall in K. specialize (K (0, 1)%nat ltac:(cbn; tauto)). cbn [fst snd] in K.
      apply Bool.eqb_prop in K. cbn [one_adj suml fst snd Nat.eqb] in K. destruct (Rltb_spec 0 (1 + 0)) as [_|Z] in K; [|lra].
      change (digraph_adjacency 2 (coo_tocsr (negb true) 2 [(0%nat, 1%nat, 0)]) true false) with (sp_nonzero (coo_tocsr false 2 [(0%nat, 1%nat, 0)])) in K.
      revert K. unfold agg_weight, g. cbn [sumn Nat.eqb]. match goal with |- Rltb 0 (0 + ?t + 0) = true -> _ => assert (E0 : t = 0) end.
      { unfold sp_nonzero, coo_tocsr. cbn -[Reqb]. rewrite ?Rplus_0_l. destruct (Reqb_spec 0 0); [|lra]. cbn. reflexivity. }
      rewrite E0. destruct (Rltb_spec 0 (0 + 0 + 0)); [lra | discriminate]. }
    rewrite FA. reflexivity.
Qed.
Print Assumptions C95_zero_strength_refuted.
