(** Likelihood of the multi-label objects: the forms in which a graph can be given. *)
From Verif Require Import Base Num Spec Kernels KernelFacts MultiKernels MultiFacts Prob Ensemble EnsembleFacts
  EnsembleProps Lib Ids Graphs GraphFacts DenseGraphs DenseFacts Spark EnsembleState Models ModelFacts StateFacts StateProps SparkFacts
  SparkMeasures SparkConfusion SparkLib Layers LayerFacts LayerProps LayerLib MultiState MultiStateFacts.
Import Num Spec.

(** * Rows with the same links *)

Definition same_rows (N : nat) (r r' : nat -> list nat) : Prop :=
  forall i j, (i < N)%nat -> (In j (r i) <-> In j (r' i)).

Lemma existsb_iff : forall (l l' : list nat) (f : nat -> bool), (forall j, In j l <-> In j l') -> existsb f l = existsb f l'.
Proof.
  intros l l' f H. apply Bool.eq_iff_eq_true. rewrite !existsb_exists. split; intros (x & H1 & H2); exists x; split; auto; apply H, H1.
Qed.
Lemma nonempty_iff : forall l l' : list nat, (forall j, In j l <-> In j l') ->
  negb (Nat.eqb (length l) 0) = negb (Nat.eqb (length l') 0).
Proof.
  intros [|a l] [|b l'] H; try reflexivity; exfalso.
  - apply (proj2 (H b)). left; reflexivity.
  - apply (proj1 (H a)). left; reflexivity.
Qed.
Lemma existsb_in : forall A (f h : A -> bool) l, (forall x, In x l -> f x = h x) -> existsb f l = existsb h l.
Proof.
  intros A f h l; induction l as [|a l IH]; intros H; [reflexivity|]. cbn.
  rewrite (H a (or_introl eq_refl)), IH; [reflexivity|]. intros x Hx. apply H. right; exact Hx.
Qed.
Lemma each_flow_ext : forall X S T (l : list X) (b b' : X -> S -> flow S T), (forall x s, In x l -> b x s = b' x s) ->
  forall s, each_flow l b s = each_flow l b' s.
Proof.
  intros X S T l b b'; induction l as [|x l IH]; intros H s; [reflexivity|]. cbn. rewrite (H x s (or_introl eq_refl)).
  destruct (b' x s); [|reflexivity]. apply IH. intros y s' Hy. apply H. right; exact Hy.
Qed.
Lemma for_flow_ext : forall S T n (b b' : nat -> S -> flow S T), (forall i s, (i < n)%nat -> b i s = b' i s) ->
  forall s, for_flow n b s = for_flow n b' s.
Proof.
  intros S T n b b'; induction n as [|n IH]; intros H s; [reflexivity|]. cbn.
  rewrite IH by (intros i s' Hi; apply H; lia). destruct (for_flow n b' s); [|reflexivity]. apply H. lia.
Qed.

Lemma likelihood_layer_rows : forall lp l1p (z : nat -> nat -> num) d po pin r r' N sl, canonical N po -> same_rows N r r' ->
  likelihood_layer lp l1p z d po pin r N sl = likelihood_layer lp l1p z d po pin r' N sl.
Proof.
  intros lp l1p z d po pin r r' N sl [_ C] H. unfold likelihood_layer.
  replace (impossible_link po pin r' N) with (impossible_link po pin r N).
  - destruct (impossible_link po pin r N); [reflexivity|]. f_equal. apply each_flow_ext. intros [i x] s Hi.
    apply each_flow_ext. intros [j y] s' _. rewrite Forall_forall in C. specialize (C _ Hi). cbn in C.
    rewrite (existsb_iff (r i) (r' i)); [reflexivity|]. intros k. apply H, C.
  - unfold impossible_link. apply existsb_in. intros i Hi. apply in_seq in Hi.
    rewrite (nonempty_iff (r i) (r' i)) by (intros j; apply H; lia).
    rewrite (existsb_iff (r i) (r' i)) by (intros j; apply H; lia). reflexivity.
Qed.

Lemma likelihood_rows : forall P X Y Z (lp l1p : P -> X -> Y -> Z -> num) p po pin z r r' N sl, same_rows N r r' ->
  likelihood lp l1p p po pin z r N sl = likelihood lp l1p p po pin z r' N sl.
Proof.
  intros P X Y Z lp l1p p po pin z r r' N sl H. unfold likelihood. f_equal. apply for_flow_ext. intros i s Hi.
  apply for_flow_ext. intros j s' _. rewrite (existsb_iff (r i) (r' i)); [reflexivity|]. intros k. apply H, Hi.
Qed.

(** * Forms of a graph *)

(** The matrix has size N and its non-zero entries are the links of [G]; a sparse one stores no zeros. *)
Definition matrix_form (N : nat) (m : matrix_arg) (G : list (nat * nat)) : Prop :=
  match m with
  | MStored r c e => r = N /\ c = N /\ (forall i x, (i < N)%nat -> In x (e i) -> (fst x < N)%nat /\ snd x <> 0) /\
      forall i j, (i < N)%nat -> (j < N)%nat -> ((exists v, In (j, v) (e i)) <-> In (i, j) G)
  | MArray r c a => r = N /\ c = N /\ forall i j, (i < N)%nat -> (j < N)%nat -> (a i j <> 0 <-> In (i, j) G)
  end.

(** One set of links for each label. *)
Definition tensor_form (N : nat) (arg : tensor_arg) (Gs : list (list (nat * nat))) : Prop :=
  match arg with
  | GGraph n (SMultiDiGraph L) => n = N /\ (exists w gr, library_graph w N (SMultiDiGraph L) gr) /\
      Forall2 (fun A G => forall i j, (i < N)%nat -> (j < N)%nat -> (0 < W A i j <-> In (i, j) G)) L Gs
  | GGraph n (SMultiGraph L) => n = N /\ (exists w gr, library_graph w N (SMultiGraph L) gr) /\
      Forall2 (fun A G => forall i j, (i < N)%nat -> (j < N)%nat -> (0 < W A i j \/ 0 < W A j i <-> In (i, j) G)) L Gs
  | GArray3 k r c a => k = length Gs /\ forall l, (l < k)%nat -> matrix_form N (MArray r c (a l)) (nth l Gs [])
  | GList l => Forall2 (matrix_form N) l Gs
  | _ => False
  end.

(** One set of links, without labels. *)
Definition flat_form (N : nat) (arg : tensor_arg) (G : list (nat * nat)) : Prop :=
  match arg with
  | GGraph n (SDiGraph A) => n = N /\ (exists w gr, library_graph w N (SDiGraph A) gr) /\
      forall i j, (i < N)%nat -> (j < N)%nat -> (0 < W A i j <-> In (i, j) G)
  | GGraph n (SGraph A) => n = N /\ (exists w gr, library_graph w N (SGraph A) gr) /\
      forall i j, (i < N)%nat -> (j < N)%nat -> (0 < W A i j \/ 0 < W A j i <-> In (i, j) G)
  | GMatrix m => matrix_form N m G
  | _ => False
  end.

Definition good_layer (N : nat) (G : list (nat * nat)) (x : layer) : Prop :=
  l_rows x = N /\ l_cols x = N /\ same_rows N (l_row x) (row_of G).

Lemma row_of_in : forall G i j, In j (row_of G i) <-> In (i, j) G.
Proof.
  intros G i j. unfold row_of. rewrite in_map_iff. split.
  - intros ((a & b) & E & H). apply filter_In in H. destruct H as [H E']. cbn in *. apply Nat.eqb_eq in E'. congruence.
  - intros H. exists (i, j). split; [reflexivity|]. apply filter_In. split; [exact H | apply Nat.eqb_refl].
Qed.

Definition in_range (N : nat) (G : list (nat * nat)) : Prop := forall i j, In (i, j) G -> (i < N)%nat /\ (j < N)%nat.

Lemma good_by : forall N G r, in_range N G -> (forall i j, (i < N)%nat -> In j (r i) -> (j < N)%nat) ->
  (forall i j, (i < N)%nat -> (j < N)%nat -> (In j (r i) <-> In (i, j) G)) -> good_layer N G (mkLayer N N r).
Proof.
  intros N G r HG Hr H. split; [reflexivity|]. split; [reflexivity|]. intros i j Hi. cbn. rewrite row_of_in. split.
  - intros Hj. apply H; try assumption. apply (Hr i); assumption.
  - intros Hj. apply H; try assumption. apply (HG i j Hj).
Qed.

Lemma matrix_form_layer : forall N m G, in_range N G -> matrix_form N m G -> good_layer N G (csr_layer m).
Proof.
  intros N m G HG H. destruct m as [r c e|r c a]; cbn in H.
  - destruct H as (-> & -> & H1 & H2). apply good_by; [exact HG| |].
    + intros i j Hi Hj. apply in_map_iff in Hj. destruct Hj as (x & <- & Hx). apply (H1 i x Hi Hx).
    + intros i j Hi Hj. rewrite <- (H2 i j Hi Hj). rewrite in_map_iff. split.
      * intros ((k & v) & E & Hx). cbn in E. subst k. exists v. exact Hx.
      * intros (v & Hv). exists (j, v). split; [reflexivity | exact Hv].
  - destruct H as (-> & -> & H). apply good_by; [exact HG| |].
    + intros i j Hi Hj. apply filter_In in Hj. destruct Hj as [Hj _]. apply in_seq in Hj. lia.
    + intros i j Hi Hj. rewrite <- (H i j Hi Hj). rewrite filter_In, in_seq. destruct (Reqb_spec (a i j) 0); cbn.
      * split; [intros [_ X]; discriminate | intros X; contradiction].
      * split; [intros _; assumption | intros _; split; [lia | reflexivity]].
Qed.

Lemma spm_good : forall N A G, wf N A -> in_range N G ->
  (forall i j, (i < N)%nat -> (j < N)%nat -> (0 < W A i j <-> In (i, j) G)) -> good_layer N G (spm_layer N A).
Proof.
  intros N A G HA HG H. apply good_by; [exact HG| |].
  - intros i j Hi Hj. destruct (HA i Hi) as [_ F]. rewrite Forall_forall in F. apply in_map_iff in Hj.
    destruct Hj as (x & <- & Hx). apply (F x Hx).
  - intros i j Hi Hj. rewrite <- (wf_pos_in N A HA i j Hi). apply H; assumption.
Qed.

Lemma present_lt : forall x, 0 <= x -> (0 < present x <-> 0 < x).
Proof. intros x Hx. unfold present. destruct (Req_EM_T x 0); split; lra. Qed.
Lemma neighbours_lt : forall f i j, 0 <= f i j -> 0 <= f j i -> (0 < neighbours f i j <-> 0 < f i j \/ 0 < f j i).
Proof.
  intros f i j H1 H2. unfold neighbours, both_ways. destruct (Nat.eqb_spec i j) as [<-|_].
  - rewrite present_lt by assumption. tauto.
  - rewrite present_lt by lra. split; [intros H|]; lra.
Qed.

Lemma tensor_form_layers : forall N arg Gs, Forall (in_range N) Gs -> tensor_form N arg Gs ->
  exists t, read_graph arg = Ok (inl t) /\ Forall2 (good_layer N) Gs t.
Proof.
  intros N arg Gs HG H. destruct arg as [n s|m|k r c a| |l|]; cbn in H; try contradiction.
  - destruct s as [A|A|L|L]; try contradiction; destruct H as (-> & (w & gr & HL) & H);
      apply library_valid in HL; unfold valid in HL; cbn [layers] in HL; cbn [read_graph]; (eexists; split; [reflexivity|]).
    + rewrite multigraph_tensor_map, map_map. induction H as [|A G L Gs H1 H2 IH]; cbn [map]; [constructor|].
      inversion HL as [|? ? [HA HB] HL']; subst. inversion HG as [|? ? HG1 HG2]; subst. constructor; [|apply IH; assumption].
      apply spm_good; [unfold graph_adjacency; apply either_way_wf; exact HA | exact HG1 |].
      intros i j Hi Hj. rewrite (proj2 (layer_view w N A true false i j HA HB Hi Hj)). cbn [view andb].
      rewrite neighbours_lt; [apply H1; assumption | apply (wf_nonneg N); assumption | apply (wf_nonneg N); assumption].
    + rewrite multidigraph_tensor_map, map_map. induction H as [|A G L Gs H1 H2 IH]; cbn [map]; [constructor|].
      inversion HL as [|? ? [HA HB] HL']; subst. inversion HG as [|? ? HG1 HG2]; subst. constructor; [|apply IH; assumption].
      apply spm_good; [unfold digraph_adjacency; cbn; apply nonzero_wf; exact HA | exact HG1 |].
      intros i j Hi Hj. rewrite (proj1 (layer_view w N A true false i j HA HB Hi Hj)). cbn [view andb].
      rewrite present_lt; [apply H1; assumption | apply (wf_nonneg N); assumption].
  - destruct H as [-> H]. cbn [read_graph]. eexists; split; [reflexivity|].
    revert a H. induction HG as [|G Gs HG1 HG2 IH]; intros a H; cbn [length seq map]; [constructor|].
    constructor.
    + apply matrix_form_layer; [exact HG1|]. apply (H 0%nat). cbn; lia.
    + rewrite <- seq_shift, map_map. apply (IH (fun l => a (S l))). intros l Hl. apply (H (S l)). cbn; lia.
  - cbn [read_graph]. eexists; split; [reflexivity|]. induction H as [|m G l Gs H1 H2 IH]; cbn [map]; [constructor|].
    inversion HG; subst. constructor; [apply matrix_form_layer; assumption | apply IH; assumption].
Qed.

Lemma flat_form_layer : forall N arg G, in_range N G -> flat_form N arg G ->
  exists x, read_graph arg = Ok (inr x) /\ good_layer N G x.
Proof.
  intros N arg G HG H. destruct arg as [n s|m|k r c a| |l|]; cbn in H; try contradiction.
  - destruct s as [A|A|L|L]; try contradiction; destruct H as (-> & (w & gr & HL) & H);
      apply library_valid in HL; unfold valid in HL; cbn [layers] in HL; inversion HL as [|? ? [HA HB] _]; subst;
      cbn [read_graph adjacency_matrix bind]; (eexists; split; [reflexivity|]).
    + apply spm_good; [unfold graph_adjacency; apply either_way_wf; exact HA | exact HG |].
      intros i j Hi Hj. rewrite (proj2 (layer_view w N A true false i j HA HB Hi Hj)). cbn [view andb].
      rewrite neighbours_lt; [apply H; assumption | apply (wf_nonneg N); assumption | apply (wf_nonneg N); assumption].
    + apply spm_good; [unfold digraph_adjacency; cbn; apply nonzero_wf; exact HA | exact HG |].
      intros i j Hi Hj. rewrite (proj1 (layer_view w N A true false i j HA HB Hi Hj)). cbn [view andb].
      rewrite present_lt; [apply H; assumption | apply (wf_nonneg N); assumption].
  - cbn [read_graph]. eexists; split; [reflexivity|]. apply matrix_form_layer; assumption.
Qed.

(** * Sparse *)

Lemma each_flow_rel : forall X Y S T (l : list X) (l' : list Y) (b : X -> S -> flow S T) b',
  Forall2 (fun x y => forall s, b x s = b' y s) l l' -> forall s, each_flow l b s = each_flow l' b' s.
Proof.
  intros X Y S T l l' b b' H. induction H as [|x y l l' H1 H2 IH]; intros s; [reflexivity|]. cbn. rewrite H1.
  destruct (b' y s); [apply IH | reflexivity].
Qed.

Lemma Forall2_imp : forall A B (R R' : A -> B -> Prop) l l', (forall x y, R x y -> R' x y) -> Forall2 R l l' -> Forall2 R' l l'.
Proof. intros A B R R' l l' H F. induction F; constructor; auto. Qed.
Lemma Forall2_len : forall A B (R : A -> B -> Prop) l l', Forall2 R l l' -> length l = length l'.
Proof. intros A B R l l' F. induction F; cbn; congruence. Qed.
Lemma Forall2_nth2 : forall A B (R : A -> B -> Prop) l l' a b, Forall2 R l l' -> forall k, (k < length l)%nat -> R (nth k l a) (nth k l' b).
Proof.
  intros A B R l l' a b F. induction F as [|x y l l' H1 H2 IH]; intros k Hk; cbn in *; [lia|].
  destruct k; [exact H1 | apply IH; lia].
Qed.

Lemma combine_rel : forall A B (R : A -> B -> Prop) l l', Forall2 R l l' -> forall n,
  Forall2 (fun x y => fst x = fst y /\ (n <= fst x < n + length l)%nat /\ R (snd x) (snd y))
    (combine (seq n (length l)) l) (combine (seq n (length l)) l').
Proof.
  intros A B R l l' H. induction H as [|x y l l' H1 H2 IH]; intros n; cbn [length seq combine]; [constructor|].
  constructor; [cbn; repeat split; try lia; assumption|].
  eapply Forall2_imp; [|exact (IH (S n))]. intros a b (E1 & E2 & E3). repeat split; try lia; try assumption.
Qed.

Section Sparse.
Variables (u : multi) (g : R -> R).
Hypothesis Hu : library_multi u g.
Variables (d : nat -> num).
Hypothesis Hd : forall k, (k < u_L u)%nat -> nonneg (d k).
Let q := layer_prob g d (u_xs u) (u_ys u).

Lemma u_po_canonical : forall k, canonical (u_N u) (column (map zip (u_xs u)) k).
Proof.
  intros k. destruct (multi_tables u g Hu) as (T1 & T2 & N1 & N2). rewrite <- N1. apply (layer_canonical (u_L u)). exact T1.
Qed.

Lemma good_shape : forall N Gs t, Forall2 (good_layer N) Gs t ->
  forallb (fun x => Nat.eqb (l_rows x) N && Nat.eqb (l_cols x) N) t = true.
Proof.
  intros N Gs t F. induction F as [|G x Gs t (H1 & H2 & _) _ IH]; [reflexivity|]. cbn. rewrite H1, H2, Nat.eqb_refl. exact IH.
Qed.

Lemma tensor_rows : forall sl0 sl Gs t, length Gs = u_L u -> Forall2 (good_layer (u_N u)) Gs t ->
  log_likelihood_tensor (u_logp_ijk u) (u_log1mp_ijk u) (u_dyad u) (u_N u) (u_L u) (u_xs u) (u_ys u) (Some d) sl0 t sl
  = log_likelihood_tensor (u_logp_ijk u) (u_log1mp_ijk u) (u_dyad u) (u_N u) (u_L u) (u_xs u) (u_ys u) (Some d) sl0
      (map (fun G => mkLayer (u_N u) (u_N u) (row_of G)) Gs) sl.
Proof.
  intros sl0 sl Gs t HL F.
  assert (F' : Forall2 (good_layer (u_N u)) Gs (map (fun G => mkLayer (u_N u) (u_N u) (row_of G)) Gs)).
  { clear. induction Gs as [|G Gs IH]; cbn; constructor; [|exact IH]. repeat split; auto. }
  destruct (multi_tables u g Hu) as (T1 & T2 & N1 & N2).
  unfold log_likelihood_tensor. rewrite <- (Forall2_len _ _ _ _ _ F), map_length.
  rewrite (good_shape _ _ _ F), (good_shape _ _ _ F').
  rewrite (table_layers (u_L u) (u_xs u) T1), (table_layers (u_L u) (u_ys u) T2). cbn [bind].
  unfold guard. rewrite HL, Nat.eqb_refl. do 2 f_equal.
  assert (FF : Forall2 (fun x y => same_rows (u_N u) (l_row x) (l_row y)) t (map (fun G => mkLayer (u_N u) (u_N u) (row_of G)) Gs)).
  { clear - F. induction F as [|G x Gs t (_ & _ & H) _ IH]; cbn; constructor; [exact H | exact IH]. }
  apply each_flow_rel.
  pose proof (combine_rel _ _ _ _ _ FF 0) as CR. rewrite <- (Forall2_len _ _ _ _ _ F), HL in CR.
  eapply Forall2_imp; [|exact CR]. intros [k x] [k' y] (E1 & E2 & E3) s. cbn [fst snd] in *. subst k'.
  rewrite (likelihood_layer_rows _ _ _ _ _ _ (l_row x) (l_row y)); [reflexivity| |exact E3].
  rewrite nth_layers by lia. apply u_po_canonical.
Qed.

Lemma u_tensor_spec : forall arg selfloops s Gs, a_param s = Some d -> length Gs = u_L u ->
  let sl := effective_loops selfloops s in
  (forall G i j, In G Gs -> In (i, j) G -> (i < u_N u)%nat /\ (j < u_N u)%nat /\ allowed sl i j = true) ->
  tensor_form (u_N u) arg Gs ->
  exists l, u_log_likelihood u arg selfloops s = Ok l /\
    log_of (prodn (u_L u) (fun k => graph_weight (u_N u) sl (q k) (nth k Gs []))) l.
Proof.
  intros arg selfloops s Gs Hp HL sl HG HF. destruct (multi_tables u g Hu) as (T1 & T2 & N1 & N2).
  destruct (tensor_form_layers (u_N u) arg Gs) as (t & E & F); [|exact HF|].
  { apply Forall_forall. intros G Hin i j Hij. destruct (HG G i j Hin Hij) as (? & ? & _). auto. }
  unfold u_log_likelihood. rewrite Hp, E. cbn [bind]. rewrite (tensor_rows _ _ Gs) by assumption.
  exact (tensor_lik_spec g _ _ _ (multi_kernels u g Hu) (u_dyad u) (u_L u) (u_N u) d (u_xs u) (u_ys u) T1 T2 N1 N2 Hd
    (a_selfloops s) selfloops Gs HL HG).
Qed.

Lemma u_flat_spec : forall arg selfloops s G, a_param s = Some d -> in_range (u_N u) G -> flat_form (u_N u) arg G ->
  exists l, u_log_likelihood u arg selfloops s = Ok l /\
    log_of (graph_weight (u_N u) (effective_loops selfloops s) (some_layer g (u_L u) d (u_xs u) (u_ys u)) G) l.
Proof.
  intros arg selfloops s G Hp HG HF. destruct (flat_form_layer (u_N u) arg G HG HF) as (x & E & E1 & E2 & E3).
  unfold u_log_likelihood. rewrite Hp, E. cbn [bind]. rewrite E1, E2, Nat.eqb_refl. cbn [andb guard].
  eexists. split; [reflexivity|]. rewrite (likelihood_rows _ _ _ _ _ _ _ _ _ _ _ _ _ _ E3).
  exact (lib_likelihood (u_model u d) _ (multi_model u g d Hu Hd) (effective_loops selfloops s) G).
Qed.

(** * Spark *)

Lemma w_tensor_spec : forall B arg selfloops s Gs, a_param s = Some d -> length Gs = u_L u ->
  let sl := effective_loops selfloops s in
  (forall G i j, In G Gs -> In (i, j) G -> (i < u_N u)%nat /\ (j < u_N u)%nat /\ allowed sl i j = true) ->
  tensor_form (u_N u) arg Gs ->
  exists l, w_log_likelihood u B arg selfloops s = Ok l /\
    log_of (prodn (u_L u) (fun k => graph_weight (u_N u) sl (q k) (nth k Gs []))) l.
Proof.
  intros B arg selfloops s Gs Hp HL sl HG HF. destruct (multi_tables u g Hu) as (T1 & T2 & N1 & N2).
  destruct (tensor_form_layers (u_N u) arg Gs) as (t & E & F); [|exact HF|].
  { apply Forall_forall. intros G Hin i j Hij. destruct (HG G i j Hin Hij) as (? & ? & _). auto. }
  unfold w_log_likelihood. rewrite Hp, E. cbn [bind].
  rewrite <- (Forall2_len _ _ _ _ _ F), HL, Nat.eqb_refl, (good_shape _ _ _ F). cbn [guard].
  eexists. split; [reflexivity|].
  rewrite (rdd_fold_msum _ nadd (Fin 0) nadd_assoc nadd_comm nadd_unit). rewrite msum_map.
  rewrite <- prodl_seq. apply nsum_log. intros k Hk. apply in_seq in Hk.
  assert (Hin : In (nth k Gs []) Gs) by (apply nth_In; lia).
  assert (LG : log_of (graph_weight (u_N u) sl (q k) (nth k Gs []))
    (likelihood_layer (u_logp_ijk u) (u_log1mp_ijk u) (u_dyad u) (d k) (spark_column (u_L u) (u_xs u) k)
       (spark_column (u_L u) (u_ys u) k) (l_row (nth k t (mkLayer 0 0 (fun _ => [])))) (u_N u) sl)).
  { destruct (Forall2_nth2 _ _ _ _ _ [] (mkLayer 0 0 (fun _ => [])) F k ltac:(lia)) as (_ & _ & R0).
    rewrite (likelihood_layer_rows _ _ _ _ _ _ _ (row_of (nth k Gs []))); [|apply u_po_canonical | exact R0].
    apply (layer_lik_spec g _ _ _ (multi_kernels u g Hu) (u_dyad u) (u_L u) (u_N u) d (u_xs u) (u_ys u) T1 T2 N1 N2 Hd);
      [lia|]. intros i j Hij. apply (HG (nth k Gs [])); assumption. }
  split; [|exact LG]. destruct LG as [[H _]|[H _]]; [apply Rlt_le; exact H | rewrite H; apply Rle_refl].
Qed.

Lemma w_flat_spec : forall B arg selfloops s G, (1 <= B)%nat -> a_param s = Some d -> in_range (u_N u) G ->
  flat_form (u_N u) arg G ->
  exists l, w_log_likelihood u B arg selfloops s = Ok l /\
    log_of (graph_weight (u_N u) (effective_loops selfloops s) (some_layer g (u_L u) d (u_xs u) (u_ys u)) G) l.
Proof.
  intros B arg selfloops s G HB Hp HG HF. destruct (flat_form_layer (u_N u) arg G HG HF) as (x & E & E1 & E2 & E3).
  unfold w_log_likelihood. rewrite Hp, E. cbn [bind]. rewrite E1, E2, Nat.eqb_refl. cbn [andb guard].
  eexists. split; [reflexivity|].
  set (m := u_model u d). set (sl := effective_loops selfloops s).
  pose proof (multi_spark_model u g d Hu Hd) as Hm.
  pose proof (spark_likelihood_log _ _ _ _ (m_p_ij m) (m_logp m) (m_log1mp m) (m_param m) (m_out m) (m_in m)
    (m_dyad m) (m_N m) B (l_row x) sl HB) as K.
  assert (E0 : forall i j, (i < m_N m)%nat -> (j < m_N m)%nat ->
    m_p_ij m (m_param m) (m_out m i) (m_in m j) (m_dyad m i j) = some_layer g (u_L u) d (u_xs u) (u_ys u) i j)
    by (intros i j Hi Hj; exact (spark_pr _ _ Hm i j Hi Hj)).
  replace (graph_weight (u_N u) sl (some_layer g (u_L u) d (u_xs u) (u_ys u)) G)
    with (prodn (m_N m) (fun i => prodn (m_N m) (fun j =>
      if allowed sl i j then (if existsb (Nat.eqb j) (l_row x i)
        then m_p_ij m (m_param m) (m_out m i) (m_in m j) (m_dyad m i j)
        else 1 - m_p_ij m (m_param m) (m_out m i) (m_in m j) (m_dyad m i j)) else 1))).
  - apply K; try (apply (spark_no_dyad m _ Hm)).
    + intros i j Hi Hj. rewrite E0 by assumption. apply (spark_kernel m _ Hm i j Hi Hj).
    + intros i j Hi Hj. rewrite E0 by assumption. apply (spark_kernel m _ Hm i j Hi Hj).
  - unfold graph_weight. apply prodn_ext; intros i Hi. apply prodn_ext; intros j Hj.
    rewrite E0 by assumption. rewrite (existsb_iff (l_row x i) (row_of G i)) by (intros k; apply E3, Hi).
    rewrite row_of_mem. reflexivity.
Qed.
End Sparse.

(** * Dense *)

Definition dense_tensor_form (N : nat) (arg : dense_arg) (Gs : list (list (nat * nat))) : Prop :=
  match arg with
  | HGraph n w (DMultiDiGraph k a) => n = N /\ k = length Gs /\ (exists gr, library_dense w N (DMultiDiGraph k a) gr) /\
      forall l i j, (l < k)%nat -> (i < N)%nat -> (j < N)%nat -> (0 < a l i j <-> In (i, j) (nth l Gs []))
  | HGraph n w (DMultiGraph k a) => n = N /\ k = length Gs /\ (exists gr, library_dense w N (DMultiGraph k a) gr) /\
      forall l i j, (l < k)%nat -> (i < N)%nat -> (j < N)%nat -> (0 < a l i j \/ 0 < a l j i <-> In (i, j) (nth l Gs []))
  | HArray3 k r c a => k = length Gs /\ r = N /\ c = N /\
      forall l i j, (l < k)%nat -> (i < N)%nat -> (j < N)%nat -> (a l i j <> 0 <-> In (i, j) (nth l Gs []))
  | _ => False
  end.

Definition dense_flat_form (N : nat) (arg : dense_arg) (G : list (nat * nat)) : Prop :=
  match arg with
  | HGraph n w (DDiGraph a) => n = N /\ (exists gr, library_dense w N (DDiGraph a) gr) /\
      forall i j, (i < N)%nat -> (j < N)%nat -> (0 < a i j <-> In (i, j) G)
  | HGraph n w (DGraph a) => n = N /\ (exists gr, library_dense w N (DGraph a) gr) /\
      forall i j, (i < N)%nat -> (j < N)%nat -> (0 < a i j \/ 0 < a j i <-> In (i, j) G)
  | HMatrix m => matrix_form N m G /\
      match m with MStored _ _ e => forall i, (i < N)%nat -> NoDup (map fst (e i)) | MArray _ _ _ => True end
  | _ => False
  end.

Lemma mem_in : forall e G, mem e G = true <-> In e G.
Proof.
  intros [i j] G. unfold mem. rewrite existsb_exists. split.
  - intros ((a & b) & H & E). unfold pair_eqb in E. cbn in E. apply andb_true_iff in E. destruct E as [E1 E2].
    apply Nat.eqb_eq in E1, E2. subst. exact H.
  - intros H. exists (i, j). split; [exact H|]. unfold pair_eqb. cbn. rewrite !Nat.eqb_refl. reflexivity.
Qed.
Lemma mem_nonzero : forall x e G, (x <> 0 <-> In e G) -> negb (Reqb x 0) = mem e G.
Proof.
  intros x e G H. apply Bool.eq_iff_eq_true. rewrite mem_in, <- H. destruct (Reqb_spec x 0); cbn; split; intros; auto; contradiction || discriminate.
Qed.
Lemma pos_nonzero : forall x, 0 <= x -> (x <> 0 <-> 0 < x).
Proof. intros x H. split; intros; lra. Qed.

Lemma first_stored : forall r j, (forall x, In x r -> snd x <> 0) -> (Graphs.stored r j <> 0 <-> exists v, In (j, v) r).
Proof.
  intros r j. induction r as [|[k v] r IH]; intros H; cbn [Graphs.stored].
  - split; [intros X; exfalso; apply X; reflexivity | intros (v & [])].
  - destruct (Nat.eqb_spec k j) as [->|Hk].
    + split; [intros _; exists v; left; reflexivity | intros _; apply (H (j, v)); left; reflexivity].
    + rewrite IH by (intros x Hx; apply H; right; exact Hx). split.
      * intros (v' & Hv). exists v'. right; exact Hv.
      * intros (v' & [E|Hv]); [congruence | exists v'; exact Hv].
Qed.

Section Dense.
Variables (v : multi_dense) (g : R -> R).
Hypothesis Hv : library_dense_multi v g.
Variables (d : nat -> num).
Hypothesis Hd : forall k, (k < v_L v)%nat -> nonneg (d k).
Let q (k i j : nat) : R := link_prob g [d k; v_x v i k; v_y v j k; Fin 1].
Let N := v_N v.

Lemma v_tensor_spec : forall arg selfloops s Gs, a_param s = Some d -> length Gs = v_L v -> dense_tensor_form N arg Gs ->
  exists l, v_log_likelihood v arg selfloops s = Ok l /\
    log_of (prodn (v_L v) (fun k => graph_weight N (effective_loops selfloops s) (q k) (nth k Gs []))) l.
Proof.
  intros arg selfloops s Gs Hp HL HF. unfold v_log_likelihood. rewrite Hp. set (sl := effective_loops selfloops s).
  assert (Core : forall (a : nat -> nat -> nat -> R),
    (forall l i j, (l < v_L v)%nat -> (i < N)%nat -> (j < N)%nat -> negb (Reqb (a l i j) 0) = mem (i, j) (nth l Gs [])) ->
    exists l, guard (Nat.eqb (length Gs) (v_L v) && Nat.eqb N (v_N v) && Nat.eqb N (v_N v)) ValueError
          (Ok (likelihood_tensor_dense (v_logp_ijk v) (v_log1mp_ijk v) (v_dyad v) (v_N v) (length Gs) d (v_x v) (v_y v)
                 (fun k i j => negb (Reqb (a k i j) 0)) sl)) = Ok l /\
      log_of (prodn (v_L v) (fun k => graph_weight N sl (q k) (nth k Gs []))) l).
  { intros a Ha. unfold N. rewrite HL, !Nat.eqb_refl. cbn [andb guard]. eexists; split; [reflexivity|].
    destruct (dense_multi_kernels v g Hv) as [K H].
    pose proof (dense_lik_spec g _ _ _ K (v_dyad v) (v_L v) (v_N v) d (v_x v) (v_y v)
      (fun i k Hi Hk => proj1 (H i k Hi Hk)) (fun i k Hi Hk => proj2 (H i k Hi Hk)) Hd sl (fun k i j => negb (Reqb (a k i j) 0))) as L.
    match type of L with log_of ?x _ => match goal with |- log_of ?y _ => replace y with x; [exact L|] end end.
    apply prodn_ext; intros k Hk. unfold graph_weight. apply prodn_ext; intros i Hi. apply prodn_ext; intros j Hj.
    rewrite Ha by assumption. reflexivity. }
  destruct arg as [n w sh|m|k r c a| |l| |]; cbn in HF; try contradiction.
  - destruct sh as [A|A|k a|k a]; try contradiction; destruct HF as (-> & -> & (gr & HG) & HF);
      apply library_dense_valid in HG; cbn [dvalid] in HG; apply Core; intros l i j Hl Hi Hj;
      rewrite (d_tensor_view _ _ _ _ _ _ _ _ (HG l)); cbn [andb]; apply mem_nonzero;
      destruct (HG l) as [HP _].
    + rewrite <- (HF l i j) by (rewrite ?HL; assumption). rewrite pos_nonzero.
      * apply neighbours_lt; apply HP.
      * unfold neighbours, present. destruct (Req_EM_T (both_ways (a l) i j) 0); lra.
    + rewrite <- (HF l i j) by (rewrite ?HL; assumption). rewrite pos_nonzero.
      * apply present_lt; apply HP.
      * unfold present. destruct (Req_EM_T (a l i j) 0); lra.
  - destruct HF as (-> & -> & -> & HF). apply Core. intros l i j Hl Hi Hj. apply mem_nonzero. apply HF; try assumption. lia.
Qed.

Lemma v_flat_spec : forall arg selfloops s G, a_param s = Some d -> dense_flat_form N arg G ->
  exists l, v_log_likelihood v arg selfloops s = Ok l /\
    log_of (graph_weight N (effective_loops selfloops s) (some_layer_dense g (v_L v) d (v_x v) (v_y v)) G) l.
Proof.
  intros arg selfloops s G Hp HF. unfold v_log_likelihood. rewrite Hp. set (sl := effective_loops selfloops s).
  assert (Core : forall (a : nat -> nat -> R),
    (forall i j, (i < N)%nat -> (j < N)%nat -> negb (Reqb (a i j) 0) = mem (i, j) G) ->
    exists l, guard (Nat.eqb N (v_N v) && Nat.eqb N (v_N v)) ValueError
          (Ok (likelihood_dense (v_logp v) (v_log1mp v) d (v_x v) (v_y v) (fun _ _ => tt)
                 (fun i j => negb (Reqb (a i j) 0)) (v_N v) sl)) = Ok l /\
      log_of (graph_weight N sl (some_layer_dense g (v_L v) d (v_x v) (v_y v)) G) l).
  { intros a Ha. unfold N. rewrite !Nat.eqb_refl. cbn [andb guard]. eexists; split; [reflexivity|].
    pose proof (lib_likelihood (v_model v d) _ (dense_multi_model v g d Hv Hd) sl G) as L.
    unfold m_likelihood in L. rewrite likelihood_sparse_dense in L.
    match type of L with log_of _ ?x => match goal with |- log_of _ ?y => replace y with x; [exact L|] end end.
    unfold likelihood_dense. f_equal. apply for_flow_ext. intros i s0 Hi. apply for_flow_ext. intros j s1 Hj.
    cbn [v_model m_logp m_log1mp m_param m_out m_in m_dyad m_N]. rewrite row_of_mem, Ha by assumption. reflexivity. }
  destruct arg as [n w sh|m|k r c a| |l| |]; cbn in HF; try contradiction.
  - destruct sh as [A|A|k a|k a]; try contradiction; destruct HF as (-> & (gr & HG) & HF);
      apply library_dense_valid in HG; apply Core; intros i j Hi Hj;
      rewrite (d_view _ _ _ _ _ _ HG); cbn [andb d_directed dlink]; cbn [dvalid] in HG; destruct HG as [HP _]; apply mem_nonzero;
      rewrite <- (HF i j) by assumption; rewrite pos_nonzero.
    + apply neighbours_lt; apply HP.
    + unfold neighbours, present. match goal with |- context[Req_EM_T ?x 0] => destruct (Req_EM_T x 0) end; lra.
    + apply present_lt; apply HP.
    + unfold present. match goal with |- context[Req_EM_T ?x 0] => destruct (Req_EM_T x 0) end; lra.
  - destruct HF as [HF HN]. destruct m as [r c e|r c a]; cbn [matrix_form] in HF; cbn [matrix_shape fst snd matrix_at].
    + destruct HF as (-> & -> & H1 & H2). apply Core. intros i j Hi Hj. apply mem_nonzero.
      rewrite first_stored; [apply H2; assumption|]. intros x Hx. apply (H1 i x Hi Hx).
    + destruct HF as (-> & -> & H). apply Core. intros i j Hi Hj. apply mem_nonzero. apply H; assumption.
Qed.
End Dense.
