(** Properties C62, C63 and C70: the distributed computations of the spark module.
    [spark_model m q] (SparkLib.v) says that [m] is one of the four models of the module with admissible
    data and that [q] are its documented link probabilities; [s_edges], [s_degree], ... are its distributed
    measures with [B] blocks per side. *)
From Coq Require Import ZArith Permutation.
From Verif Require Import Base Num Spec Kernels KernelFacts MultiKernels MultiFacts Prob Ensemble EnsembleFacts
  EnsembleProps EnsembleState Models ModelFacts StateFacts StateProps Solver Fit Spark SparkFacts SparkMeasures
  SparkConfusion SparkLib.

(** ** A concrete model: 25 vertices, the odd ones with zero in-fitness. *)
Definition sp_y (i : nat) : num := Fin (if Nat.even i then 1 else 0).
Definition sp_model : model := FitnessModelDense 25 (Fin 1) (fun _ => Fin 1) sp_y (fun _ _ => Fin 1).
Definition sp_q (i j : nat) : R := link_prob logistic [Fin 1; Fin 1; sp_y j; Fin 1].
Lemma sp_lib : spark_model sp_model sp_q.
Proof.
  apply spk_fitness; simpl; try lra. intros i _. unfold sp_y. destruct (Nat.even i); simpl; lra.
Qed.
Lemma sp_q_val : forall i j, sp_q i j = if Nat.even j then 1 / 2 else 0.
Proof.
  intros i j. unfold sp_q, link_prob, sp_y. cbn [existsb is_zero is_infinite prodl toR].
  destruct (Nat.even j); rewrite !(Reqb_false 1 0) by lra; [|rewrite (Reqb_true 0 0) by reflexivity]; cbn.
  - unfold logistic. field.
  - reflexivity.
Qed.

(** * C62: the partitions visit every pair exactly once *)

(** Index [i] is in the range; the block contains the pair; the block's loop visits the pair (diagonal
    blocks are cut at the diagonal by the triangular loops). *)
Definition in_span (s : span) (i : nat) : bool := Nat.leb (fst s) i && Nat.ltb i (snd s).
Definition covers (i j : nat) (b : block) : bool := in_span (fst b) i && in_span (snd b) j.
Definition same_span (s t : span) : bool := Nat.eqb (fst s) (fst t) && Nat.eqb (snd s) (snd t).
Definition visits (i j : nat) (b : block) : bool :=
  covers i j b && (negb (same_span (fst b) (snd b)) || Nat.leb j i).

Lemma count_suml : forall A (f : A -> bool) l, INR (length (filter f l)) = suml (fun x => b2r (f x)) l.
Proof. intros. symmetry. apply suml_b2r_filter. Qed.

Lemma sumn_point : forall n lo i c,
  sumn n (fun a => if Nat.eqb (lo + a) i then c else 0) = if Nat.leb lo i && Nat.ltb i (lo + n) then c else 0.
Proof.
  intros n lo i c. induction n as [|n IH]; cbn [sumn].
  - destruct (Nat.leb_spec lo i), (Nat.ltb_spec i (lo + 0)); try reflexivity; lia.
  - rewrite IH. destruct (Nat.leb_spec lo i), (Nat.ltb_spec i (lo + n)), (Nat.ltb_spec i (lo + S n)), (Nat.eqb_spec (lo + n) i);
      cbn; try ring; lia.
Qed.

Lemma in_span_len : forall s i, in_span s i = Nat.leb (fst s) i && Nat.ltb i (fst s + len s).
Proof.
  intros [lo hi] i. unfold in_span, len. cbn [fst snd].
  destruct (Nat.leb_spec lo i), (Nat.ltb_spec i hi), (Nat.ltb_spec i (lo + (hi - lo))); try reflexivity; lia.
Qed.

Definition here (i j a b : nat) : R := if Nat.eqb a i then (if Nat.eqb b j then 1 else 0) else 0.

Lemma covers_sum : forall i j b, b2r (covers i j b) = suml (fun e => here i j (fst e) (snd e)) (cells b).
Proof.
  intros i j b. rewrite <- (cells_sum b (here i j)).
  transitivity (sumn (len (fst b)) (fun a => if Nat.eqb (fst (fst b) + a) i then b2r (in_span (snd b) j) else 0)).
  - rewrite sumn_point. unfold covers. rewrite (in_span_len (fst b)).
    destruct (Nat.leb (fst (fst b)) i && _); reflexivity.
  - apply sumn_ext. intros a _. unfold here. destruct (Nat.eqb _ i).
    + rewrite sumn_point, in_span_len. destruct (_ && _); reflexivity.
    + symmetry. apply sumn_zero. reflexivity.
Qed.

Lemma visits_sum : forall i j b, b2r (visits i j b) = suml (fun e => here i j (fst e) (snd e)) (tri_cells b).
Proof.
  intros i j b. destruct (span_eqb (fst b) (snd b)) eqn:E.
  - rewrite <- (tri_sum b (here i j)).
    assert (S1 : fst (fst b) = fst (snd b) /\ snd (fst b) = snd (snd b)).
    { unfold span_eqb in E. apply andb_true_iff in E. destruct E as [E1 E2].
      apply Nat.eqb_eq in E1. apply Nat.eqb_eq in E2. auto. }
    destruct S1 as [S1 S2].
    transitivity (sumn (len (fst b)) (fun a => if Nat.eqb (fst (fst b) + a) i
                    then (if Nat.leb (fst (fst b)) j && Nat.leb j i then 1 else 0) else 0)).
    + rewrite sumn_point. unfold visits, covers. unfold same_span. fold (span_eqb (fst b) (snd b)). rewrite E.
      rewrite (in_span_len (fst b)). unfold in_span. rewrite <- S1, <- S2. unfold len. cbn [negb orb].
      destruct (Nat.leb_spec (fst (fst b)) i), (Nat.ltb_spec i (fst (fst b) + (snd (fst b) - fst (fst b)))),
        (Nat.leb_spec (fst (fst b)) j), (Nat.ltb_spec j (snd (fst b))), (Nat.leb_spec j i); cbn; try reflexivity; lia.
    + apply sumn_ext. intros a _. rewrite E. cbn [in_range]. unfold here. destruct (Nat.eqb_spec (fst (fst b) + a) i) as [Ei|_].
      * rewrite <- S1, sumn_point.
        destruct (Nat.leb_spec (fst (fst b)) j), (Nat.ltb_spec j (fst (fst b) + S a)), (Nat.leb_spec j i); cbn; try reflexivity; lia.
      * symmetry. apply sumn_zero. reflexivity.
  - rewrite tri_cells_rect by exact E. rewrite <- covers_sum. unfold visits, same_span.
    fold (span_eqb (fst b) (snd b)). rewrite E. cbn [negb orb]. rewrite andb_true_r. reflexivity.
Qed.

Theorem C62_square : forall N B i j, (1 <= B)%nat ->
  length (filter (covers i j) (square_blocks N B)) = if Nat.ltb i N && Nat.ltb j N then 1%nat else 0%nat.
Proof.
  intros N B i j HB. apply INR_eq. rewrite count_suml.
  rewrite (suml_ext _ _ (fun b => suml (fun e => here i j (fst e) (snd e)) (cells b))) by (intros; apply covers_sum).
  rewrite (square_sum N B (here i j) HB).
  transitivity (sumn N (fun a => if Nat.eqb (0 + a) i then (if Nat.ltb j N then 1 else 0) else 0)).
  - apply sumn_ext. intros a _. unfold here. rewrite Nat.add_0_l. destruct (Nat.eqb a i); [|apply sumn_zero; reflexivity].
    exact (sumn_point N 0 j 1).
  - rewrite sumn_point. rewrite Nat.add_0_l. cbn [Nat.leb andb]. destruct (Nat.ltb i N), (Nat.ltb j N); reflexivity.
Qed.
Print Assumptions C62_square.

Theorem C62_triangle : forall N B i j, (1 <= N)%nat -> (1 <= B)%nat ->
  length (filter (visits i j) (triangle_blocks N B)) = if Nat.ltb i N && Nat.leb j i then 1%nat else 0%nat.
Proof.
  intros N B i j HN HB. apply INR_eq. rewrite count_suml.
  rewrite (suml_ext _ _ (fun b => suml (fun e => here i j (fst e) (snd e)) (tri_cells b))) by (intros; apply visits_sum).
  rewrite (triangle_sum N B (here i j) HN HB).
  transitivity (sumn N (fun a => if Nat.eqb (0 + a) i then (if Nat.leb j i then 1 else 0) else 0)).
  - apply sumn_ext. intros a _. unfold here. rewrite Nat.add_0_l. destruct (Nat.eqb_spec a i) as [->|_]; [|apply sumn_zero; reflexivity].
    etransitivity; [exact (sumn_point (S i) 0 j 1)|]. destruct (Nat.leb_spec j i), (Nat.ltb_spec j (0 + S i)); cbn; try reflexivity; lia.
  - rewrite sumn_point. rewrite Nat.add_0_l. cbn [Nat.leb andb]. destruct (Nat.ltb i N), (Nat.leb j i); reflexivity.
Qed.
Print Assumptions C62_triangle.

(** The number of blocks: at least one for every accepted request, and none or negative is rejected. *)
Theorem C62_blocks : forall N req,
  match req with
  | Some z => (z <= 0)%Z -> p_blocks N req = Raise ValueError
  | None => True
  end /\
  ((forall z, req = Some z -> (0 < z)%Z) -> exists B, p_blocks N req = Ok B /\ (1 <= B)%nat).
Proof.
  intros N req. split.
  - destruct req as [z|]; [|exact I]. intros H. unfold p_blocks. apply Z.leb_le in H. rewrite H. reflexivity.
  - intros H. destruct req as [z|].
    + assert (E : exists B, p_blocks N (Some z) = Ok B).
      { unfold p_blocks. specialize (H z eq_refl). apply Z.leb_gt in H. rewrite H. eexists; reflexivity. }
      destruct E as [B E]. exists B. split; [exact E | exact (p_blocks_pos N (Some z) B E)].
    + exists (if Nat.ltb N (10 * 10) then (if Nat.ltb (N / 10) 2 then 2 else N / 10) else 10)%nat.
      split; [reflexivity | exact (p_blocks_pos N None _ eq_refl)].
Qed.
Print Assumptions C62_blocks.

Example C62_square_case : p_blocks 25 (Some 7%Z) = Ok 2%nat /\ p_blocks 3 None = Ok 2%nat /\ p_blocks 1 (Some 50%Z) = Ok 2%nat /\
  square_blocks 3 2 = [((0, 1), (0, 1)); ((0, 1), (1, 3)); ((1, 3), (0, 1)); ((1, 3), (1, 3))]%nat /\
  length (filter (covers 2 0) (square_blocks 3 2)) = 1%nat /\ p_blocks 3 (Some 0%Z) = Raise ValueError.
Proof. repeat split; vm_compute; reflexivity. Qed.

(** More blocks than vertices: all but the last range are empty. *)
Example C62_triangle_case : triangle_blocks 2 3
    = [((0, 0), (0, 0)); ((0, 0), (0, 0)); ((0, 0), (0, 0)); ((0, 2), (0, 0)); ((0, 2), (0, 0)); ((0, 2), (0, 2))]%nat /\
  length (filter (visits 1 0) (triangle_blocks 2 3)) = 1%nat /\ length (filter (visits 0 1) (triangle_blocks 2 3)) = 0%nat /\
  length (filter (visits 1 1) (triangle_blocks 3 2)) = 1%nat.
Proof. repeat split; vm_compute; reflexivity. Qed.

(** The distributed measures are the sums over the admissible pairs, as in a single process. *)
Theorem C62_edges : forall m q req B sl, spark_model m q -> (1 <= m_N m)%nat -> p_blocks (m_N m) req = Ok B ->
  s_edges m B sl = pair_sum (m_N m) sl q /\ s_edges m B sl = m_edges m sl.
Proof. exact (fun m q req B sl H HN HB => s_edges_spec m q H B (p_blocks_pos _ _ _ HB) sl). Qed.
Print Assumptions C62_edges.

Theorem C62_degrees : forall m q req B nd sl v, spark_model m q -> (1 <= m_N m)%nat -> p_blocks (m_N m) req = Ok B ->
  nd <> Dother -> (v < m_N m)%nat ->
  s_degree m B nd sl v = nb_degree (m_N m) sl (dir_link nd q) v.
Proof. exact (fun m q req B nd sl v H HN HB Hd Hv => s_degree_spec m q H HN B (p_blocks_pos _ _ _ HB) nd sl v Hd Hv). Qed.
Print Assumptions C62_degrees.

Theorem C62_neighbours : forall m q req B prop nd sl v, spark_model m q -> (1 <= m_N m)%nat -> p_blocks (m_N m) req = Ok B ->
  nd <> Dother -> (v < m_N m)%nat ->
  s_av_nn m B prop nd sl v = nb_total (m_N m) sl (dir_link nd q) prop v.
Proof. exact (fun m q req B prop nd sl v H HN HB Hd Hv => s_av_nn_spec m q H HN B (p_blocks_pos _ _ _ HB) prop nd sl v Hd Hv). Qed.
Print Assumptions C62_neighbours.

Theorem C62_likelihood : forall m q req B G sl, spark_model m q -> (1 <= m_N m)%nat -> p_blocks (m_N m) req = Ok B ->
  log_of (graph_weight (m_N m) sl q G) (s_likelihood m B G sl).
Proof. exact (fun m q req B G sl H HN HB => s_likelihood_spec m q H B (p_blocks_pos _ _ _ HB) G sl). Qed.
Print Assumptions C62_likelihood.

(** Fitting: for every kernel the objective, hence the whole fit, is that of a single process. *)
Theorem C62_fit : forall X Y (p_jac : num -> X -> Y -> num * num) (po : nat -> X) (pin : nat -> Y) N req B sl
    ne x0 meth at_ rt mi, p_blocks N req = Ok B ->
  (forall d, spark_f_jac po pin N B p_jac d sl
             = exp_edges_f_jac (fun d x y (_ : unit) => p_jac d x y) d po pin (fun _ _ => tt) N sl) /\
  fitness_fit (fun d => spark_f_jac po pin N B p_jac d sl) ne x0 meth at_ rt mi
  = fitness_fit (fun d => exp_edges_f_jac (fun d x y (_ : unit) => p_jac d x y) d po pin (fun _ _ => tt) N sl)
      ne x0 meth at_ rt mi.
Proof.
  intros X Y p_jac po pin N req B sl ne x0 meth at_ rt mi HB. apply p_blocks_pos in HB.
  assert (E : forall d, spark_f_jac po pin N B p_jac d sl
             = exp_edges_f_jac (fun d x y (_ : unit) => p_jac d x y) d po pin (fun _ _ => tt) N sl).
  { intros d. apply spark_f_jac_eq. exact HB. }
  split; [exact E|]. f_equal. apply FunctionalExtensionality.functional_extensionality. exact E.
Qed.
Print Assumptions C62_fit.

(** Sampling: every graph is drawn with its probability, each link at most once, no impossible link and
    all certain links. *)
Theorem C62_sample : forall m q req B sl, spark_model m q -> (1 <= m_N m)%nat -> p_blocks (m_N m) req = Ok B ->
  (forall G, prob (s_sample m B sl) (fun H => same_links (m_N m) sl H G) = graph_weight (m_N m) sl q G) /\
  (forall us G rest, (forall u, In u us -> 0 <= u < 1) -> run_draws (s_sample m B sl) us = Some (G, rest) ->
    NoDup G /\
    (forall i j, In (i, j) G -> (i < m_N m)%nat /\ (j < m_N m)%nat /\ (sl = false -> i <> j) /\ 0 < q i j) /\
    (forall i j, (i < m_N m)%nat -> (j < m_N m)%nat -> (sl = true \/ i <> j) -> q i j = 1 -> In (i, j) G)).
Proof.
  exact (fun m q req B sl H HN HB => conj (s_sample_prob m q H HN B (p_blocks_pos _ _ _ HB) sl)
    (s_sample_support m q H HN B (p_blocks_pos _ _ _ HB) sl)).
Qed.
Print Assumptions C62_sample.

Theorem C62_weighted_sample : forall m q req B s_out s_in, spark_model m q -> p_blocks (m_N m) req = Ok B ->
  let N := m_N m in
  sumn N s_in = sumn N s_out -> sumn N s_out <> 0 ->
  (forall i j, (i < N)%nat -> (j < N)%nat -> s_out i * s_in j <> 0 -> q i j <> 0) ->
  exists p, s_cremb m B s_out s_in true = Ok p /\
  (forall i j, (i < N)%nat -> (j < N)%nat -> expect p (w_pair i j) = s_out i * s_in j / sumn N s_out) /\
  (forall i, (i < N)%nat -> expect p (fun G => sumn N (fun j => w_pair i j G)) = s_out i) /\
  (forall j, (j < N)%nat -> expect p (fun G => sumn N (fun i => w_pair i j G)) = s_in j).
Proof. exact (fun m q req B s_out s_in H HB => s_cremb_strengths m q H B (p_blocks_pos _ _ _ HB) s_out s_in). Qed.
Print Assumptions C62_weighted_sample.

Example C62_measures_case : spark_model sp_model sp_q /\ (1 <= m_N sp_model)%nat /\ p_blocks (m_N sp_model) None = Ok 2%nat /\
  square_blocks 25 2 <> [] /\ nb_degree 25 false (dir_link Dout sp_q) 3 = 13 / 2 /\ nb_degree 25 false (dir_link Din sp_q) 3 = 0 /\
  sumn 25 (fun i => if Nat.even i then 25 else 0) = sumn 25 (fun _ => 13) /\
  (forall i j, 13 * (if Nat.even j then 25 else 0) <> 0 -> sp_q i j <> 0).
Proof.
  split; [exact sp_lib|]. split; [simpl; lia|]. split; [reflexivity|]. split; [discriminate|].
  split; [|split; [|split]].
  - unfold nb_degree, dir_link, out_link. cbn [sumn allowed Nat.eqb negb orb]. rewrite !sp_q_val. cbn. field.
  - unfold nb_degree, dir_link, in_link. cbn [sumn allowed Nat.eqb negb orb]. rewrite !sp_q_val. cbn. field.
  - cbn. ring.
  - intros i j. rewrite sp_q_val. destruct (Nat.even j); lra.
Qed.

(** False for a subclass with a dyadic property: the blocks evaluate it at indices relative to the block.
    With the probability of i->j given by its dyadic property (0 on the diagonal and 1/2 elsewhere), two
    vertices and two blocks, one expected link becomes none. *)
Theorem C62_dyadic_refuted : exists (z : nat -> nat -> R) B,
  p_blocks 2 None = Ok B /\ (forall i j, 0 <= z i j <= 1) /\
  exp_edges (fun (_ : unit) (_ _ : unit) z => z) tt (fun _ => tt) (fun _ => tt) z 2 false = 1 /\
  spark_edges tt (fun _ => tt) (fun _ => tt) z 2 B (fun _ _ _ z => z) false = 0.
Proof.
  exists (fun i j => if Nat.eqb i j then 0 else 1 / 2), 2%nat. split; [reflexivity|].
  split; [intros i j; destruct (Nat.eqb i j); lra|].
  split; unfold exp_edges, spark_edges, rdd_fold; cbn; lra.
Qed.
Print Assumptions C62_dyadic_refuted.

(** * C63: the confusion matrix *)

Section Confusion.
Variables (m : model) (q : nat -> nat -> R) (B : nat) (th : list num) (G : list (nat * nat)) (sl : bool).
Hypothesis Hm : spark_model m q.
Hypothesis HB : (1 <= B)%nat.
Let c := s_confusion m B th G sl.

Lemma s_confusion_spec : forall k, (k < length th)%nat ->
  let n f := length (filter (fun e => f (mem e G) (ngeb (Fin (q (fst e) (snd e))) (nth k th NaN))) (pairs (m_N m) sl)) in
  tp_of c k = n (fun l g => l && g) /\ fp_of c k = n (fun l g => negb l && g) /\
  tn_of c k = n (fun l g => negb l && negb g) /\ fn_of c k = n (fun l g => l && negb g).
Proof.
  intros k Hk n.
  destruct (confusion_spec _ _ _ _ (m_p_ij m) (m_param m) (m_out m) (m_in m) (m_dyad m) (m_N m) B sl (row_of G) th HB
    (proj1 (spark_no_dyad m q Hm)) k Hk) as (E1 & E2 & E3 & E4).
  assert (F : forall f : bool -> bool -> bool,
    length (filter (fun e => f (existsb (Nat.eqb (snd e)) (row_of G (fst e)))
      (ngeb (Fin (m_p_ij m (m_param m) (m_out m (fst e)) (m_in m (snd e)) (m_dyad m (fst e) (snd e)))) (nth k th NaN)))
      (pairs (m_N m) sl)) = n f).
  { intros f. unfold n. f_equal. apply filter_ext_in. intros [i j] He. cbn [fst snd].
    apply filter_In in He. destruct He as [He _]. apply in_prod_iff in He. destruct He as [Hi Hj].
    apply in_seq in Hi. apply in_seq in Hj. rewrite row_of_mem.
    rewrite (proj1 (spark_kernel m q Hm i j ltac:(lia) ltac:(lia))). reflexivity. }
  unfold c, s_confusion. rewrite E1, E2, E3, E4. repeat split; rewrite <- F; reflexivity.
Qed.

Lemma s_confusion_mono : forall k k', (k < length th)%nat -> (k' < length th)%nat -> nle (nth k th NaN) (nth k' th NaN) ->
  (tp_of c k' <= tp_of c k)%nat /\ (fp_of c k' <= fp_of c k)%nat /\
  (tn_of c k <= tn_of c k')%nat /\ (fn_of c k <= fn_of c k')%nat.
Proof.
  intros k k' Hk Hk' Hle.
  destruct (s_confusion_spec k Hk) as (E1 & E2 & E3 & E4). destruct (s_confusion_spec k' Hk') as (F1 & F2 & F3 & F4).
  rewrite E1, E2, E3, E4, F1, F2, F3, F4.
  assert (M : forall e, ngeb (Fin (q (fst e) (snd e))) (nth k' th NaN) = true ->
                        ngeb (Fin (q (fst e) (snd e))) (nth k th NaN) = true).
  { intros e. apply ngeb_mono. exact Hle. }
  repeat split; apply filter_le; intros e _; specialize (M e);
    destruct (mem e G), (ngeb _ (nth k' th NaN)), (ngeb _ (nth k th NaN)); cbn; auto; intros; discriminate (M eq_refl).
Qed.
End Confusion.

(** What is counted at each threshold. *)
Theorem C63_counts : forall m q req B th G sl k, spark_model m q -> p_blocks (m_N m) req = Ok B -> (k < length th)%nat ->
  let c := s_confusion m B th G sl in
  let n f := length (filter (fun e => f (mem e G) (ngeb (Fin (q (fst e) (snd e))) (nth k th NaN))) (pairs (m_N m) sl)) in
  tp_of c k = n (fun link positive => link && positive) /\ fp_of c k = n (fun link positive => negb link && positive) /\
  tn_of c k = n (fun link positive => negb link && negb positive) /\ fn_of c k = n (fun link positive => link && negb positive).
Proof. exact (fun m q req B th G sl k H HB Hk => s_confusion_spec m q B th G sl H (p_blocks_pos _ _ _ HB) k Hk). Qed.
Print Assumptions C63_counts.

Theorem C63_totals : forall m q req B th G sl k, spark_model m q -> p_blocks (m_N m) req = Ok B -> (k < length th)%nat ->
  let c := s_confusion m B th G sl in
  (tp_of c k + fn_of c k)%nat = length (filter (fun e => mem e G) (pairs (m_N m) sl)) /\
  (fp_of c k + tn_of c k)%nat = length (filter (fun e => negb (mem e G)) (pairs (m_N m) sl)) /\
  (tp_of c k + fp_of c k + tn_of c k + fn_of c k)%nat = length (pairs (m_N m) sl).
Proof.
  intros m q req B th G sl k H HB Hk c.
  destruct (s_confusion_spec m q B th G sl H (p_blocks_pos _ _ _ HB) k Hk) as (E1 & E2 & E3 & E4). fold c in E1, E2, E3, E4.
  rewrite E1, E2, E3, E4.
  set (g := fun e : nat * nat => ngeb (Fin (q (fst e) (snd e))) (nth k th NaN)).
  pose proof (filter_split _ (fun e => mem e G) g (pairs (m_N m) sl)) as S1.
  pose proof (filter_split _ (fun e => negb (mem e G)) g (pairs (m_N m) sl)) as S2.
  pose proof (filter_split _ (fun _ => true) (fun e => mem e G) (pairs (m_N m) sl)) as S3. cbn [andb] in S3.
  assert (T : length (filter (fun _ : nat * nat => true) (pairs (m_N m) sl)) = length (pairs (m_N m) sl)).
  { clear. f_equal. induction (pairs (m_N m) sl) as [|e l IH]; cbn; [reflexivity | rewrite IH; reflexivity]. }
  unfold g in S1, S2. lia.
Qed.
Print Assumptions C63_totals.

Theorem C63_monotone : forall m q req B th G sl k k', spark_model m q -> p_blocks (m_N m) req = Ok B ->
  (k < length th)%nat -> (k' < length th)%nat -> nle (nth k th NaN) (nth k' th NaN) ->
  let c := s_confusion m B th G sl in
  (tp_of c k' <= tp_of c k)%nat /\ (fp_of c k' <= fp_of c k)%nat /\
  (tn_of c k <= tn_of c k')%nat /\ (fn_of c k <= fn_of c k')%nat.
Proof. exact (fun m q req B th G sl k k' H HB => s_confusion_mono m q B th G sl H (p_blocks_pos _ _ _ HB) k k'). Qed.
Print Assumptions C63_monotone.

Example C63_case : spark_model sp_model sp_q /\ p_blocks (m_N sp_model) None = Ok 2%nat /\
  nle (nth 0 [Fin (1/4); Fin (3/4)] NaN) (nth 1 [Fin (1/4); Fin (3/4)] NaN) /\
  (let c := s_confusion sp_model 2 [Fin (1/4); Fin (3/4)] [(0, 2); (0, 3); (5, 5)]%nat false in
   tp_of c 0 = 1%nat /\ fn_of c 0 = 1%nat /\ tp_of c 1 = 0%nat /\ fn_of c 1 = 2%nat).
Proof.
  split; [exact sp_lib|]. split; [reflexivity|]. split; [cbn; lra|].
  assert (Q : forall e x, ngeb (Fin (sp_q (fst e) (snd e))) (Fin x) = if Nat.even (snd e) then Rleb x (1/2) else Rleb x 0).
  { intros e x. rewrite sp_q_val. unfold ngeb. rewrite nleb_fin. destruct (Nat.even (snd e)); reflexivity. }
  destruct (s_confusion_spec sp_model sp_q 2 [Fin (1/4); Fin (3/4)] [(0, 2); (0, 3); (5, 5)]%nat false sp_lib ltac:(lia) 0 ltac:(cbn; lia))
    as (E1 & _ & _ & E4).
  destruct (s_confusion_spec sp_model sp_q 2 [Fin (1/4); Fin (3/4)] [(0, 2); (0, 3); (5, 5)]%nat false sp_lib ltac:(lia) 1 ltac:(cbn; lia))
    as (F1 & _ & _ & F4).
  cbn [nth] in E1, E4, F1, F4. cbv zeta. rewrite E1, E4, F1, F4.
  assert (R1 : Rleb (1/4) (1/2) = true) by (apply Rleb_true; lra).
  assert (R2 : Rleb (1/4) 0 = false) by (apply Rleb_false; lra).
  assert (R3 : Rleb (3/4) (1/2) = false) by (apply Rleb_false; lra).
  assert (R4 : Rleb (3/4) 0 = false) by (apply Rleb_false; lra).
  repeat split; erewrite filter_ext by (intros e; rewrite Q, ?R1, ?R2, ?R3, ?R4; reflexivity); vm_compute; reflexivity.
Qed.

(** The method: what is compared when the graph is a dense array or a matrix without stored zeros. *)
Definition nonzero (g : graph_arg) (i j : nat) : bool :=
  match g with
  | Stored _ _ e => existsb (fun p => Nat.eqb (fst p) j && negb (Reqb (snd p) 0)) (e i)
  | Dense _ _ a => negb (Reqb (a i j) 0)
  | OtherArg => false
  end.
Definition no_stored_zeros (g : graph_arg) : Prop :=
  match g with Stored _ _ e => forall i p, In p (e i) -> snd p <> 0 | _ => True end.
Definition square_arg (N : nat) (g : graph_arg) : Prop :=
  match g with Stored r c _ | Dense r c _ => r = N /\ c = N | OtherArg => False end.

Lemma arg_rows_nonzero : forall N g row, arg_rows N g = Ok row -> no_stored_zeros g ->
  forall i j, (j < N)%nat -> existsb (Nat.eqb j) (row i) = nonzero g i j.
Proof.
  intros N g row E H i j Hj. destruct g as [r c e|r c a|]; cbn in E; [| |discriminate].
  - destruct (Nat.eqb r N && Nat.eqb c N); cbn in E; [|discriminate]. apply ok_inj in E. subst row. cbn [nonzero].
    specialize (H i). induction (e i) as [|p l IH]; [reflexivity|]. cbn [map existsb].
    rewrite IH by (intros p' Hp'; apply H; right; exact Hp').
    rewrite (Reqb_false (snd p) 0) by (apply H; left; reflexivity). cbn [negb]. rewrite andb_true_r, Nat.eqb_sym. reflexivity.
  - destruct (Nat.eqb_spec r N), (Nat.eqb_spec c N); cbn in E; try discriminate. apply ok_inj in E. subst. cbn [nonzero].
    apply Bool.eq_iff_eq_true. rewrite existsb_exists. split.
    + intros (x & Hx & Ex). apply Nat.eqb_eq in Ex. subst x. apply filter_In in Hx. apply Hx.
    + intros Ha. exists j. split; [apply filter_In; split; [apply in_seq; lia | exact Ha] | apply Nat.eqb_refl].
Qed.

Theorem C63_method : forall p_ij N req B x y g l sl, p_blocks N req = Ok B -> square_arg N g -> no_stored_zeros g ->
  exists c, confusion_matrix p_ij N B x y g (ThArray l) sl = Ok (c, length l) /\
  forall k, (k < length l)%nat ->
    (tp_of c k + fn_of c k)%nat = length (filter (fun e => nonzero g (fst e) (snd e)) (pairs N sl)) /\
    (fp_of c k + tn_of c k)%nat = length (filter (fun e => negb (nonzero g (fst e) (snd e))) (pairs N sl)) /\
    (tp_of c k + fp_of c k)%nat = length (filter (fun e => ngeb (Fin (p_ij (x (fst e)) (y (snd e)))) (nth k l NaN)) (pairs N sl)).
Proof.
  intros p_ij N req B x y g l sl HB Hs Hz. apply p_blocks_pos in HB.
  assert (E : exists row, arg_rows N g = Ok row).
  { destruct g as [r c e|r c a|]; cbn in Hs; [| |contradiction]; destruct Hs as [-> ->]; cbn; rewrite Nat.eqb_refl; cbn;
      eexists; reflexivity. }
  destruct E as [row E]. unfold confusion_matrix. cbn [thresholds_of bind]. rewrite E. cbn [bind].
  eexists. split; [reflexivity|]. intros k Hk.
  destruct (confusion_spec unit R R unit (fun _ a b _ => p_ij a b) tt x y (fun _ _ => tt) N B sl row l HB
    ltac:(reflexivity) k Hk) as (E1 & E2 & E3 & E4). cbv beta in E1, E2, E3, E4.
  rewrite E1, E2, E3, E4.
  set (ge := fun e : nat * nat => ngeb (Fin (p_ij (x (fst e)) (y (snd e)))) (nth k l NaN)).
  assert (F : forall f : bool -> bool -> bool,
    length (filter (fun e => f (existsb (Nat.eqb (snd e)) (row (fst e))) (ge e)) (pairs N sl))
    = length (filter (fun e => f (nonzero g (fst e) (snd e)) (ge e)) (pairs N sl))).
  { intros f. f_equal. apply filter_ext_in. intros [i j] He. cbn [fst snd].
    apply filter_In in He. destruct He as [He _]. apply in_prod_iff in He. destruct He as [_ Hj]. apply in_seq in Hj.
    rewrite (arg_rows_nonzero N g row E Hz i j) by lia. reflexivity. }
  pose proof (F (fun a b => a && b)) as F1. pose proof (F (fun a b => negb a && b)) as F2.
  pose proof (F (fun a b => negb a && negb b)) as F3. pose proof (F (fun a b => a && negb b)) as F4.
  cbv beta in F1, F2, F3, F4. unfold ge in F1, F2, F3, F4. cbv beta in F1, F2, F3, F4.
  rewrite F1, F2, F3, F4.
  pose proof (filter_split _ (fun e => nonzero g (fst e) (snd e)) ge (pairs N sl)) as S1.
  pose proof (filter_split _ (fun e => negb (nonzero g (fst e) (snd e))) ge (pairs N sl)) as S2.
  pose proof (filter_split _ ge (fun e => nonzero g (fst e) (snd e)) (pairs N sl)) as S3.
  assert (C1 : filter (fun e => ge e && nonzero g (fst e) (snd e)) (pairs N sl)
             = filter (fun e => nonzero g (fst e) (snd e) && ge e) (pairs N sl))
    by (apply filter_ext; intros; apply andb_comm).
  assert (C2 : filter (fun e => ge e && negb (nonzero g (fst e) (snd e))) (pairs N sl)
             = filter (fun e => negb (nonzero g (fst e) (snd e)) && ge e) (pairs N sl))
    by (apply filter_ext; intros; apply andb_comm).
  unfold ge in *. cbv beta in S1, S2, S3, C1, C2. rewrite C1, C2 in S3. lia.
Qed.
Print Assumptions C63_method.

(** A graph argument of another kind or shape is rejected, and so are thresholds of another kind. *)
Theorem C63_rejected : forall p_ij N B x y g th sl,
  ~ square_arg N g \/ th = ThOther -> exists e, confusion_matrix p_ij N B x y g th sl = Raise e /\ e = ValueError.
Proof.
  intros p_ij N B x y g th sl H. exists ValueError. split; [|reflexivity]. unfold confusion_matrix.
  assert (T : forall r, thresholds_of p_ij N x y th = r -> (exists l, r = Ok l) \/ r = Raise ValueError).
  { intros r <-. unfold thresholds_of. destruct th as [|n|l|]; try (right; reflexivity); try (left; eexists; reflexivity).
    - unfold guard. destruct (_ && _); [left; eexists; reflexivity | right; reflexivity].
    - unfold guard. destruct (n <? 0)%Z, (_ && _); cbn; try (right; reflexivity). left; eexists; reflexivity. }
  destruct (T _ eq_refl) as [[l E]|E]; rewrite E; cbn [bind]; [|reflexivity].
  destruct H as [H| ->]; [|discriminate E].
  replace (arg_rows N g) with (@Raise (nat -> list nat) ValueError); [reflexivity|].
  destruct g as [r c e|r c a|]; cbn in *; try reflexivity;
    destruct (Nat.eqb_spec r N), (Nat.eqb_spec c N); cbn; try reflexivity; exfalso; apply H; auto.
Qed.
Print Assumptions C63_rejected.

Example C63_method_case : p_blocks 3 None = Ok 2%nat /\
  square_arg 3 (Stored 3 3 (fun i => if Nat.eqb i 0 then [(1%nat, 2); (2%nat, -1)] else [])) /\
  no_stored_zeros (Stored 3 3 (fun i => if Nat.eqb i 0 then [(1%nat, 2); (2%nat, -1)] else [])) /\
  ~ square_arg 3 (Dense 2 3 (fun _ _ => 1)).
Proof.
  split; [reflexivity|]. split; [split; reflexivity|]. split.
  - cbn. intros i p. destruct (Nat.eqb i 0); intros H; [|destruct H].
    destruct H as [<-|[<-|[]]]; cbn; lra.
  - cbn. intros [H _]. discriminate.
Qed.

(** False when a sparse matrix stores explicit zeros: they are counted as links. *)
Theorem C63_stored_zero_refuted : exists e B c, p_blocks 2 None = Ok B /\
  confusion_matrix (fun _ _ => 1 / 2) 2 B (fun _ => 1) (fun _ => 1) (Stored 2 2 e) (ThArray [Fin 0]) false = Ok (c, 1%nat) /\
  (forall i j, nonzero (Stored 2 2 e) i j = false) /\ (tp_of c 0 + fn_of c 0)%nat = 1%nat.
Proof.
  exists (fun i => if Nat.eqb i 0 then [(1%nat, 0)] else []), 2%nat. eexists. split; [reflexivity|]. split; [reflexivity|]. split.
  - intros i j. cbn. destruct (Nat.eqb i 0); [|reflexivity]. cbn. rewrite (Reqb_true 0 0) by reflexivity. cbn.
    rewrite andb_false_r. reflexivity.
  - set (e := fun i => if Nat.eqb i 0 then [(1%nat, 0)] else []).
    destruct (confusion_spec unit R R unit (fun _ _ _ _ => 1 / 2) tt (fun _ => 1) (fun _ => 1) (fun _ _ => tt) 2 2 false
      (fun i => map fst (e i)) [Fin 0] ltac:(lia) ltac:(reflexivity) 0 ltac:(cbn; lia)) as (E1 & _ & _ & E4).
    unfold e in E1, E4. cbv beta zeta in E1, E4. rewrite E1, E4. cbn [nth]. unfold ngeb. rewrite nleb_fin.
    assert (R1 : Rleb 0 (1 / 2) = true) by (apply Rleb_true; lra). rewrite R1. reflexivity.
Qed.
Print Assumptions C63_stored_zero_refuted.

(** * C70: automatic thresholds *)

(** Full statement: with no thresholds or a number [n] of thresholds (20 by default), [n] thresholds are
    used, evenly spaced on a logarithmic scale from the smallest to the largest link probability.
    What holds: the number, and the even spacing of the logarithms, when all probabilities are positive. *)
Theorem C70_spacing_partial : forall p N x y th n,
  th = ThNone /\ n = 20%nat \/ th = ThInt (Z.of_nat n) ->
  0 < p (amin N x) (amin N y) -> 0 < p (amax N x) (amax N y) ->
  exists l, thresholds_of p N x y th = Ok (map Fin l) /\ length l = n /\
  (forall k, (k < n)%nat -> 0 < nth k l 0) /\
  (forall k, (S (S k) < n)%nat ->
     ln (nth (S (S k)) l 0) - ln (nth (S k) l 0) = ln (nth (S k) l 0) - ln (nth k l 0)).
Proof.
  intros p N x y th n Hth H1 H2.
  exists (logspace (ln (p (amin N x) (amin N y))) (ln (p (amax N x) (amax N y))) n). split; [|split; [|split]].
  - assert (G : Rltb 0 (p (amin N x) (amin N y)) && Rltb 0 (p (amax N x) (amax N y)) = true).
    { rewrite !Rltb_true by assumption. reflexivity. }
    destruct Hth as [[-> ->]| ->]; unfold thresholds_of; rewrite G; [reflexivity|].
    destruct (Z.ltb_spec (Z.of_nat n) 0) as [K|_]; [lia|]. rewrite Nat2Z.id. reflexivity.
  - unfold logspace. rewrite map_length, seq_length. reflexivity.
  - intros k Hk. unfold logspace. set (f := fun k => Rpower 10 _).
    rewrite (nth_indep _ 0 (f 0%nat)), map_nth, seq_nth by (rewrite ?map_length, ?seq_length; assumption).
    unfold f, Rpower. apply exp_pos.
  - intros k Hk. unfold logspace. set (a := ln (p (amin N x) (amin N y))). set (b := ln (p (amax N x) (amax N y))).
    assert (E : forall j, (j < n)%nat -> ln (nth j (map (fun k0 => Rpower 10 (if Nat.eqb n 1 then a else
        a + INR k0 * ((b - a) / INR (n - 1)))) (seq 0 n)) 0) = (a + INR j * ((b - a) / INR (n - 1))) * ln 10).
    { intros j Hj. set (f := fun k => Rpower 10 _).
      rewrite (nth_indep _ 0 (f 0%nat)), map_nth, seq_nth by (rewrite ?map_length, ?seq_length; assumption).
      unfold f. destruct (Nat.eqb_spec n 1) as [->|_]; [lia|]. rewrite Nat.add_0_l. unfold Rpower. apply ln_exp. }
    rewrite !E by lia. rewrite !S_INR. ring.
Qed.
Print Assumptions C70_spacing_partial.

Lemma ln_10_gt_1 : 1 < ln 10.
Proof.
  apply (Rlt_le_trans _ (ln 3)).
  - rewrite <- (ln_exp 1) at 1. apply ln_increasing; [apply exp_pos|].
    pose proof exp_le_3. destruct (Rle_lt_or_eq_dec _ _ H) as [K|K]; [exact K|].
    exfalso. pose proof (exp_ineq1 (1/2) ltac:(lra)) as A.
    clear A. (* strictness follows from the expansion below *)
    assert (B : exp (1/6) * exp (1/6) * exp (1/6) * exp (1/6) * exp (1/6) * exp (1/6) = exp 1)
      by (rewrite <- !exp_plus; f_equal; lra).
    assert (C : exp (-(1/6)) > 5/6) by (pose proof (exp_ineq1 (-(1/6)) ltac:(lra)); lra).
    assert (D : exp (1/6) * exp (-(1/6)) = 1) by (rewrite <- exp_plus, Rplus_opp_r; apply exp_0).
    assert (F : exp (1/6) < 6/5).
    { assert (0 < exp (1/6)) by apply exp_pos. nra. }
    assert (0 < exp (1/6)) by apply exp_pos.
    assert (exp (1/6) * exp (1/6) < 36/25) by nra.
    assert (exp (1/6) * exp (1/6) * (exp (1/6) * exp (1/6)) < 36/25 * (36/25)) by nra.
    assert (exp (1/6) * exp (1/6) * (exp (1/6) * exp (1/6)) * (exp (1/6) * exp (1/6)) < 36/25 * (36/25) * (36/25)) by nra.
    nra.
  - destruct (Rle_lt_or_eq_dec 3 10 ltac:(lra)) as [K|K]; [left; apply ln_increasing; lra | lra].
Qed.

(** The range: the natural logarithms of the probabilities are given to [np.logspace], which works in base
    ten.  The largest threshold is p_max ^ ln 10, below p_max whenever p_max < 1, so that no threshold
    separates the most probable pairs, and the smallest is below p_min. *)
Theorem C70_range_partial : forall p N x y n l,
  0 < p (amin N x) (amin N y) < 1 -> 0 < p (amax N x) (amax N y) < 1 -> (2 <= n)%nat ->
  thresholds_of p N x y (ThInt (Z.of_nat n)) = Ok (map Fin l) ->
  nth (n - 1) l 0 = exp (ln 10 * ln (p (amax N x) (amax N y))) /\
  nth (n - 1) l 0 < p (amax N x) (amax N y) /\ nth 0 l 0 < p (amin N x) (amin N y).
Proof.
  intros p N x y n l H1 H2 Hn E.
  assert (G : Rltb 0 (p (amin N x) (amin N y)) && Rltb 0 (p (amax N x) (amax N y)) = true)
    by (rewrite !Rltb_true by lra; reflexivity).
  unfold thresholds_of in E. rewrite G in E. destruct (Z.ltb_spec (Z.of_nat n) 0) as [K|_]; [lia|]. rewrite Nat2Z.id in E.
  cbn [guard] in E. apply ok_inj in E.
  assert (El : logspace (ln (p (amin N x) (amin N y))) (ln (p (amax N x) (amax N y))) n = l).
  { revert E. generalize (logspace (ln (p (amin N x) (amin N y))) (ln (p (amax N x) (amax N y))) n). clear.
    intros l1. revert l. induction l1 as [|a l1 IH]; intros [|b l]; cbn; intros E; try discriminate; [reflexivity|].
    injection E as E1 E2. f_equal; [exact E1 | apply IH; exact E2]. }
  subst l. set (a := ln (p (amin N x) (amin N y))). set (b := ln (p (amax N x) (amax N y))).
  assert (V : forall j, (j < n)%nat -> nth j (logspace a b n) 0 = exp ((a + INR j * ((b - a) / INR (n - 1))) * ln 10)).
  { intros j Hj. unfold logspace. set (f := fun k => Rpower 10 _).
    rewrite (nth_indep _ 0 (f 0%nat)), map_nth, seq_nth by (rewrite ?map_length, ?seq_length; assumption).
    unfold f. destruct (Nat.eqb_spec n 1) as [->|_]; [lia|]. rewrite Nat.add_0_l. reflexivity. }
  rewrite !V by lia.
  assert (I0 : INR (n - 1) <> 0) by (apply not_0_INR; lia).
  replace ((a + INR (n - 1) * ((b - a) / INR (n - 1))) * ln 10) with (ln 10 * b) by (field; exact I0).
  replace ((a + INR 0 * ((b - a) / INR (n - 1))) * ln 10) with (ln 10 * a) by (cbn [INR]; ring).
  pose proof ln_10_gt_1 as L.
  assert (Ha : a < 0) by (unfold a; rewrite <- ln_1; apply ln_increasing; lra).
  assert (Hb : b < 0) by (unfold b; rewrite <- ln_1; apply ln_increasing; lra).
  split; [reflexivity|]. split.
  - rewrite <- (exp_ln (p (amax N x) (amax N y))) by lra. fold b. apply exp_increasing. nra.
  - rewrite <- (exp_ln (p (amin N x) (amin N y))) by lra. fold a. apply exp_increasing. nra.
Qed.
Print Assumptions C70_range_partial.

(** Hence the statement is false: fitnesses 1 and 2, fitness model with parameter 1. *)
Theorem C70_range_refuted : exists p N x y l, p = (fun a b => logistic (a * b)) /\ (forall i, 0 < x i /\ 0 < y i) /\
  thresholds_of p N x y ThNone = Ok (map Fin l) /\ length l = 20%nat /\
  (exists i j, (i < N)%nat /\ (j < N)%nat /\ forall t, In t l -> t < p (x i) (y j)) /\
  ~ In (p (amax N x) (amax N y)) l.
Proof.
  set (p := fun a b : R => logistic (a * b)). set (x := fun i => if Nat.eqb i 0 then 1 else 2).
  assert (A : amin 2 x = 1) by (cbn; apply Rmin_left; lra). assert (B : amax 2 x = 2) by (cbn; apply Rmax_right; lra).
  assert (P1 : p 1 1 = 1 / 2) by (unfold p, logistic; field). assert (P2 : p 2 2 = 4 / 5) by (unfold p, logistic; field).
  destruct (C70_spacing_partial p 2 x x ThNone 20 (or_introl (conj eq_refl eq_refl))) as (l & E & El & Hp & _);
    [rewrite A, P1; lra | rewrite B, P2; lra |].
  assert (T : forall t, In t l -> t < p 2 2).
  { assert (E' : l = logspace (ln (p (amin 2 x) (amin 2 x))) (ln (p (amax 2 x) (amax 2 x))) 20).
    { unfold thresholds_of in E. rewrite A, B, P1, P2, !Rltb_true in E by lra. cbn [guard andb] in E. apply ok_inj in E.
      rewrite A, B, P1, P2. revert E. generalize (logspace (ln (1 / 2)) (ln (4 / 5)) 20). clear.
      intros l1. revert l. induction l1 as [|a l1 IH]; intros [|b l]; cbn; intros E; try discriminate; [reflexivity|].
      injection E as E1 E2. f_equal; [symmetry; exact E1 | apply IH; exact E2]. }
    intros t Ht. subst l. unfold logspace in Ht. apply in_map_iff in Ht. destruct Ht as (k & <- & Hk). apply in_seq in Hk.
    rewrite A, B, P1, P2. cbn [Nat.eqb Nat.sub]. pose proof ln_10_gt_1 as L.
    assert (L2 : ln (1 / 2) < ln (4 / 5)) by (apply ln_increasing; lra).
    assert (L3 : ln (4 / 5) < 0) by (rewrite <- ln_1; apply ln_increasing; lra).
    rewrite <- (exp_ln (4 / 5)) at 2 by lra. unfold Rpower. apply exp_increasing.
    assert (Kb : 0 <= INR k <= 19).
    { split; [apply pos_INR|]. replace 19 with (INR 19) by (cbn; ring). apply le_INR. lia. }
    assert (K19 : INR 19 = 19) by (cbn; ring). rewrite K19.
    assert (S1 : INR k * ((ln (4 / 5) - ln (1 / 2)) / 19) <= 19 * ((ln (4 / 5) - ln (1 / 2)) / 19))
      by (apply Rmult_le_compat_r; lra).
    assert (S2 : ln (1 / 2) + INR k * ((ln (4 / 5) - ln (1 / 2)) / 19) <= ln (4 / 5)) by lra.
    nra. }
  exists p, 2%nat, x, x, l. split; [reflexivity|]. split; [intros i; unfold x; destruct (Nat.eqb i 0); lra|].
  split; [exact E|]. split; [exact El|]. split.
  - exists 1%nat, 1%nat. split; [lia|]. split; [lia|]. exact T.
  - rewrite B. intros K. specialize (T _ K). lra.
Qed.
Print Assumptions C70_range_refuted.

(** False: a vertex without fitness in each direction makes the smallest probability zero, and the call
    fails although the model has positive probabilities. *)
Theorem C70_zero_refuted : exists p N x y, (forall a b, 0 <= a -> 0 <= b -> 0 <= p a b < 1) /\
  (forall i, 0 <= x i /\ 0 <= y i) /\ p (x 0%nat) (y 0%nat) = 1 / 2 /\ thresholds_of p N x y ThNone = Raise ValueError.
Proof.
  exists (fun a b => a * b / (1 + a * b)), 2%nat, (fun i => if Nat.eqb i 0 then 1 else 0), (fun i => if Nat.eqb i 0 then 1 else 0).
  split; [|split; [|split]].
  - intros a b Ha Hb. assert (0 <= a * b) by (apply Rmult_le_pos; assumption). split.
    + unfold Rdiv. apply Rmult_le_pos; [assumption | left; apply Rinv_0_lt_compat; lra].
    + apply (Rmult_lt_reg_r (1 + a * b)); [lra|]. field_simplify; lra.
  - intros i. destruct (Nat.eqb i 0); lra.
  - cbn. field.
  - unfold thresholds_of. cbn [amin Nat.eqb]. rewrite Rmin_right by lra.
    replace (0 * 0 / (1 + 0 * 0)) with 0 by field. rewrite Rltb_false by lra. reflexivity.
Qed.
Print Assumptions C70_zero_refuted.

Example C70_case : let p := fun a b : R => a * b / (1 + a * b) in
  amin 2 (fun i => if Nat.eqb i 0 then 1 else 2) = 1 /\ amax 2 (fun i => if Nat.eqb i 0 then 1 else 2) = 2 /\
  0 < p 1 1 < 1 /\ 0 < p 2 2 < 1.
Proof.
  cbn. rewrite Rmin_left, Rmax_right by lra. repeat split; lra.
Qed.
