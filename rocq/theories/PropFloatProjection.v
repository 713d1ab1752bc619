(** Property C111: the projection of the multi-label models in double precision, and the samples. *)
From Verif Require Import Base Num Spec Kernels KernelFacts MultiKernels MultiFacts Prob Ensemble EnsembleFacts ModelFacts Layers LayerFacts LayerProps LayerLib PropLayers Conditional Solver
  Float FloatFacts FloatSample FloatMulti FloatMultiFacts FloatLayers PropFloat PropFloatSample PropFloatSolver PropFloatMulti PropFloatLayers
  FloatRankFacts FloatAccuracy PropFloatAccuracy PropFloatLik PropFloatDraws PropFloatLayerAccuracy PropFloatLayerFit.
Import Num Spec.
From Coq Require Import Lra Lia FunctionalExtensionality.
Open Scope R_scope.
Local Notation drawn := PropFloatDraws.drawn.
Local Notation close := FloatAccuracy.close.

(** * Pairs linked in some layer *)
Lemma tensor_plus : forall N sl p L f g, tensor_mean N sl (fun k => graph_weight N sl (p k)) L (fun Gs => f Gs + g Gs) =
  tensor_mean N sl (fun k => graph_weight N sl (p k)) L f + tensor_mean N sl (fun k => graph_weight N sl (p k)) L g.
Proof.
  intros N sl p L. revert p. induction L as [|L IH]; intros p f g; [reflexivity|]. cbn [tensor_mean]. rewrite <- mean_plus. f_equal. extensionality G. apply (IH (fun k => p (S k))).
Qed.
Lemma tensor_scal : forall N sl p L c f, tensor_mean N sl (fun k => graph_weight N sl (p k)) L (fun Gs => c * f Gs) = c * tensor_mean N sl (fun k => graph_weight N sl (p k)) L f.
Proof.
  intros N sl p L. revert p. induction L as [|L IH]; intros p c f; [reflexivity|]. cbn [tensor_mean]. rewrite <- mean_scal. f_equal. extensionality G. apply (IH (fun k => p (S k))).
Qed.
Lemma tensor_sumn : forall N sl p L n f, tensor_mean N sl (fun k => graph_weight N sl (p k)) L (fun Gs => sumn n (fun i => f i Gs)) =
  sumn n (fun i => tensor_mean N sl (fun k => graph_weight N sl (p k)) L (f i)).
Proof.
  intros N sl p L n f. induction n as [|n IH]; cbn [sumn]; [apply tensor_const|]. rewrite tensor_plus, IH. reflexivity.
Qed.
Lemma prodn_S_l : forall n f, prodn (S n) f = f 0%nat * prodn n (fun k => f (S k)).
Proof. induction n as [|n IH]; intros f; [cbn; ring|]. cbn [prodn] in *. rewrite IH. ring. Qed.
Lemma not_linked : forall N sl p L i j, (i < N)%nat -> (j < N)%nat ->
  tensor_mean N sl (fun k => graph_weight N sl (p k)) L (fun Gs => 1 - b2r (mem (i, j) (concat Gs))) = prodn L (fun k => 1 - (if allowed sl i j then p k i j else 0)).
Proof.
  intros N sl p L i j Hi Hj. revert p. induction L as [|L IH]; intros p; [cbn; ring|]. cbn [tensor_mean]. rewrite prodn_S_l, <- (IH (fun k => p (S k))). set (c := tensor_mean N sl _ L _).
  transitivity (ensemble_mean N sl (graph_weight N sl (p 0%nat)) (fun G => c + - (c * b2r (mem (i, j) G)))).
  - f_equal. extensionality G. replace (c + - (c * b2r (mem (i, j) G))) with ((1 - b2r (mem (i, j) G)) * c) by ring. unfold c.
    rewrite <- (tensor_scal N sl (fun k => p (S k))). f_equal. extensionality Gs. cbn [concat]. replace (mem (i, j) (G ++ concat Gs)) with (mem (i, j) G || mem (i, j) (concat Gs)) by (unfold mem; rewrite existsb_app; reflexivity).
    destruct (mem (i, j) G), (mem (i, j) (concat Gs)); cbn [b2r orb]; ring.
  - transitivity (ensemble_mean N sl (graph_weight N sl (p 0%nat)) (fun G => c + (- c) * b2r (mem (i, j) G))); [f_equal; extensionality G; ring|].
    rewrite mean_plus, mean_scal, mean_const, mean_link by assumption. ring.
Qed.
Definition some_layer (L : nat) (p : nat -> nat -> nat -> R) (i j : nat) : R := 1 - prodn L (fun k => 1 - p k i j).
Lemma union_mean : forall N sl p L, tensor_mean N sl (fun k => graph_weight N sl (p k)) L (fun Gs => g_edges N (concat Gs)) = pair_sum N sl (some_layer L p).
Proof.
  intros N sl p L. unfold g_edges, pair_sum. rewrite tensor_sumn. apply sumn_ext. intros i Hi. rewrite tensor_sumn. apply sumn_ext. intros j Hj.
  transitivity (1 - tensor_mean N sl (fun k => graph_weight N sl (p k)) L (fun Gs => 1 - b2r (mem (i, j) (concat Gs)))).
  - rewrite <- (tensor_const N sl p L 1) at 1. rewrite <- (Rmult_1_l (tensor_mean N sl _ L (fun Gs => 1 - _))). 
    replace (tensor_mean N sl (fun k => graph_weight N sl (p k)) L (fun _ => 1) - 1 * tensor_mean N sl (fun k => graph_weight N sl (p k)) L (fun Gs => 1 - b2r (mem (i, j) (concat Gs))))
      with (tensor_mean N sl (fun k => graph_weight N sl (p k)) L (fun _ => 1) + tensor_mean N sl (fun k => graph_weight N sl (p k)) L (fun Gs => -1 * (1 - b2r (mem (i, j) (concat Gs))))) by (rewrite tensor_scal; ring).
    rewrite <- tensor_plus. f_equal. extensionality Gs. ring.
  - rewrite not_linked by assumption. unfold some_layer. destruct (allowed sl i j); [reflexivity|]. rewrite (prodn_ext _ _ (fun _ => 1)) by (intros; ring). rewrite prodn_1. ring.
Qed.

(** * Expected number of links *)
(** Probability of a link in some layer, in doubles: sparse/models/fitness.py:860-891 (MultiFitnessModel.p_ij), sparse/models/invariant.py:211-242
    (MultiInvariantModel.p_ij), modelled in FloatMulti. *)
Definition float_proj (kd : kind) := match kd with fitness => rmfit_p_ij b64 | invariant => rminv_p_ij b64 end.
(** The row of a vertex: labels and values. *)
Definition row_at (t : list (list nat * list num)) (i : nat) : svec := row_vec (nth i t ([], [])).

Lemma law_0 : forall kd, law kd 0 = 0.
Proof. intros []; [apply logistic_0 | apply poissonian_0]. Qed.
Lemma moderate_law : forall kd d x y, moderate d -> moderate x -> moderate y -> link_prob (law kd) [d; x; y; Fin 1] = law kd (toR d * toR x * toR y).
Proof.
  intros kd d x y Hd Hx Hy. assert (E : link_prob (law kd) [d; x; y; Fin 1] = exact_prob (is_inv kd) d x y (Fin 1)) by (unfold exact_prob; destruct kd; reflexivity). rewrite E.
  destruct (moderate_cases d Hd) as [-> | (a & -> & A & _)]; [rewrite zero_prob by (rewrite is0_0; reflexivity); cbn [toR]; rewrite !Rmult_0_l, law_0; reflexivity|].
  destruct (moderate_cases x Hx) as [-> | (b & -> & B & _)]; [rewrite zero_prob by (rewrite is0_0, ?orb_true_r; reflexivity); cbn [toR]; rewrite Rmult_0_r, Rmult_0_l, law_0; reflexivity|].
  destruct (moderate_cases y Hy) as [-> | (c & -> & C & _)]; [rewrite zero_prob by (rewrite is0_0, ?orb_true_r; reflexivity); cbn [toR]; rewrite Rmult_0_r, law_0; reflexivity|].
  rewrite pos_prob by lra. cbn [toR]. rewrite Rmult_1_r. destruct kd; reflexivity.
Qed.
Lemma bernoulli_minus : forall n, 1 - INR n * uu <= (1 - uu) ^ n.
Proof.
  pose proof uu_pos. pose proof uu_small. induction n as [|n IH]; [cbn; lra|]. rewrite S_INR. cbn [pow]. pose proof (pos_INR n). assert (0 <= INR n * uu * uu) by (repeat apply Rmult_le_pos; lra). nra.
Qed.

Definition proj_k (kd : kind) (L : nat) : R := match kd with fitness => 0 | invariant => 2 * ((INR L + 3) * uu) end.
Definition proj_b (kd : kind) (L : nat) : R := match kd with fitness => (INR L + 1) * two (-50) | invariant => 0 end.
Lemma proj_small : forall kd L, (Z.of_nat L <= 2 ^ 40)%Z -> 0 <= proj_k kd L <= / 64 /\ 0 <= proj_b kd L <= 1 /\ INR (L + 3) * uu <= / 128.
Proof.
  intros kd L HL.
  assert (LB : 0 <= INR L <= two 40) by (split; [apply pos_INR | rewrite two_Z by lia; rewrite INR_IZR_INZ; apply IZR_le; exact HL]).
  pose proof uu_pos as U. assert (T3 : INR (L + 3) = INR L + 3) by (rewrite plus_INR; cbn; ring).
  assert (A : (INR L + 3) * uu <= / 128).
  { apply Rle_trans with (two 42 * two (-53)); [apply Rmult_le_compat_r; [exact (Rlt_le _ _ U)|]; change 42%Z with (2 + 40)%Z; rewrite two_add, (two_Z 2) by lia; assert (two 0 <= two 40) by (apply two_le; lia); rewrite two_0 in *; change (IZR (2 ^ 2)) with 4; lra|].
    rewrite <- two_add. replace (/ 128) with (two (-7)) by (change (-7)%Z with (- (7))%Z; rewrite two_neg, two_Z by lia; reflexivity). apply two_le. lia. }
  assert (B : (INR L + 1) * two (-50) <= 1).
  { replace (two (-50)) with (8 * uu) by (change (-50)%Z with (3 + -53)%Z; rewrite two_add, (two_Z 3) by lia; reflexivity). nra. }
  assert (0 <= (INR L + 3) * uu) by (apply Rmult_le_pos; lra). assert (0 <= (INR L + 1) * two (-50)) by (apply Rmult_le_pos; [lra | left; apply two_pos]).
  rewrite T3. unfold proj_k, proj_b. destruct kd; lra.
Qed.

Section Projection.
Variables (kd : kind) (N L : nat) (xs ys : list (list nat * list num)) (d : nat -> num).
Hypothesis Tx : label_table L xs.
Hypothesis Ty : label_table L ys.
Hypothesis Nx : length xs = N.
Hypothesis Ny : length ys = N.
Hypothesis Mx : moderate_table xs.
Hypothesis My : moderate_table ys.
Hypothesis HL : (Z.of_nat L <= 2 ^ 40)%Z.
Hypothesis Hd : forall k, (k < L)%nat -> moderate (d k).

Lemma row_ok : forall t i, label_table L t -> moderate_table t -> (i < length t)%nat -> canonical L (row_at t i) /\ Forall (fun p => moderate (snd p)) (row_at t i).
Proof.
  intros t i (_ & _ & T3) M Hi. split; [apply (proj1 (Forall_forall _ _) T3); apply nth_In; exact Hi | apply (proj1 (Forall_forall _ _) M); apply nth_In; exact Hi].
Qed.
Lemma proj_close : forall i j, (i < N)%nat -> (j < N)%nat ->
  close (proj_k kd L) (proj_b kd L) (float_proj kd d (row_at xs i) (row_at ys j)) (some_layer L (layer_prob (law kd) d xs ys) i j) /\ 0 <= some_layer L (layer_prob (law kd) d xs ys) i j <= 1.
Proof.
  intros i j Hi Hj. destruct (row_ok xs i Tx Mx ltac:(lia)) as [Cx Rx], (row_ok ys j Ty My ltac:(lia)) as [Cy Ry].
  set (w := fun k => toR (d k) * toR (lookup k (row_at xs i)) * toR (lookup k (row_at ys j))).
  assert (W0 : forall k, (k < L)%nat -> 0 <= w k).
  { intros k Hk. unfold w. assert (M : forall a, moderate a -> 0 <= toR a) by (intros a [-> | (v & -> & _ & H)]; cbn; [lra | pose proof (two_pos (-130)); lra]).
    repeat apply Rmult_le_pos; apply M; [apply Hd; exact Hk | apply lookup_moderate; exact Rx | apply lookup_moderate; exact Ry]. }
  assert (EQ : some_layer L (layer_prob (law kd) d xs ys) i j = 1 - prodn L (fun k => 1 - law kd (w k))).
  { unfold some_layer. f_equal. apply prodn_ext. intros k Hk. f_equal. unfold layer_prob. apply moderate_law; [apply Hd; exact Hk | apply label_value_moderate, Mx | apply label_value_moderate, My]. }
  assert (Q : 0 <= some_layer L (layer_prob (law kd) d xs ys) i j <= 1).
  { rewrite EQ. destruct (prodn_close L (fun k => 1 - law kd (w k)) (fun k => 1 - law kd (w k)) 0) as [P _]; [|lra | lra].
    intros k Hk. assert (0 <= law kd (w k) < 1) by (specialize (W0 k Hk); destruct kd; cbn [law]; [apply logistic_range | apply poissonian_range]; assumption). replace (1 - law kd (w k) - (1 - law kd (w k))) with 0 by ring. rewrite Rabs_R0. lra. }
  split; [|exact Q]. rewrite EQ in *. clear EQ.
  assert (HL53 : (Z.of_nat L <= 2 ^ 53)%Z) by (eapply Z.le_trans; [exact HL | lia]).
  destruct (C100_error L d _ _ Cx Cy HL53 Hd Rx Ry) as [(p1 & E1 & A1) (p2 & E2 & A2)].
  change (Rabs (p1 - (1 - prodn L (fun k => 1 - logistic (w k)))) <= (INR L + 1) * two (-50)) in A1.
  change ((1 - two (-53)) ^ (L + 3) * (1 - prodn L (fun k => 1 - poissonian (w k))) <= p2 <= (1 + two (-53)) ^ (L + 3) * (1 - prodn L (fun k => 1 - poissonian (w k)))) in A2.
  destruct (C100_probabilities L d _ _ Cx Cy (fun k Hk => moderate_datum _ (Hd k Hk)) (moderate_row _ Rx) (moderate_row _ Ry)) as [(q1 & F1 & B1 & D1 & _) (q2 & F2 & B2 & D2 & _)].
  rewrite E1 in F1. injection F1 as <-. rewrite E2 in F2. injection F2 as <-. destruct (proj_small kd L HL) as (_ & _ & S3).
  unfold proj_k, proj_b, float_proj. destruct kd; cbn [law] in *.
  - exists p1. split; [exact E1|]. split; [split; [lra | exact D1]|]. split; [lra|]. unfold ap. lra.
  - exists p2. split; [exact E2|]. split; [split; [lra | exact D2]|]. split; [lra|]. unfold ap. set (q := 1 - prodn L _) in *. fold uu in A2.
    pose proof (bernoulli_minus (L + 3)) as BM. pose proof (pow_uu (L + 3) (/ 128) S3 ltac:(lra)) as BP. replace (INR (L + 3)) with (INR L + 3) in * by (rewrite plus_INR; cbn; ring).
    pose proof uu_pos. pose proof (pos_INR L). assert (0 <= (INR L + 3) * uu) by (apply Rmult_le_pos; lra). set (t := (INR L + 3) * uu) in *.
    assert ((1 - t) * q <= (1 - uu) ^ (L + 3) * q) by (apply Rmult_le_compat_r; lra). assert ((1 + uu) ^ (L + 3) * q <= (1 + 2 * t) * q) by (apply Rmult_le_compat_r; lra).
    assert (0 <= t * q) by (apply Rmult_le_pos; lra). rewrite Rplus_0_r. apply Rabs_le. lra.
Qed.
End Projection.

(** The expected number of links computed in doubles by a multi-label model, against the mean number of pairs that are linked in at
    least one of the independent layers.  The error is relative in the scale-invariant model; in the fitness model, where the
    probability is computed as a difference from 1, part of it is absolute, 2^-49 for each pair and label. *)
Theorem C111_edges : forall kd N L xs ys d sl, label_table L xs -> label_table L ys -> length xs = N -> length ys = N -> moderate_table xs -> moderate_table ys ->
  (Z.of_nat L <= 2 ^ 40)%Z -> (Z.of_nat (N * N) <= 2 ^ 52)%Z -> (forall k, (k < L)%nat -> moderate (d k)) ->
  let mean := tensor_mean N sl (fun k => graph_weight N sl (layer_prob (law kd) d xs ys k)) L (fun Gs => g_edges N (concat Gs)) in
  exists e, rexp_edges b64 (fun i j => float_proj kd d (row_at xs i) (row_at ys j)) N sl = Fin e /\
    Rabs (e - mean) <= match kd with
      | fitness => two (-52) * INR (N * N) * mean + two (-49) * (INR L + 1) * INR (N * N)
      | invariant => two (-52) * (INR (N * N) + 2 * INR L + 6) * mean
      end.
Proof.
  intros kd N L xs ys d sl Tx Ty Nx Ny Mx My HL HN Hd mean. pose proof (count_uu _ _ HN ltac:(lia)) as C. rewrite half_52 in C.
  destruct (proj_small kd L HL) as (K & B & _).
  pose proof (edges_summed _ _ _ _ N sl K B C (proj_close kd N L xs ys d Tx Ty Nx Ny Mx My HL Hd)) as S.
  destruct (summed_error _ _ _ _ _ K (proj1 B) C S) as (v & E & _ & R & A). exists v. split; [exact E|]. unfold mean. rewrite union_mean. unfold ap in A. eapply Rle_trans; [exact A|].
  set (m := pair_sum N sl _) in *. unfold proj_k, proj_b. rewrite <- uu_52. replace (two (-49)) with (2 * two (-50)) by (change (-49)%Z with (1 + -50)%Z; rewrite two_add, two_1; reflexivity).
  right. destruct kd; ring.
Qed.
Print Assumptions C111_edges.

(** Two vertices and two labels, with self-loops: the first vertex is linked to itself with probability 1/2 in the first layer
    and 4/5 in the second, the other pairs only in the first. *)
Lemma two_labels_union : tensor_mean 2 true (fun k => graph_weight 2 true (layer_prob (law fitness) (fun _ => Fin 1) two_labels two_labels k)) 2 (fun Gs => g_edges 2 (concat Gs)) = 12 / 5.
Proof.
  rewrite union_mean. unfold pair_sum, sumn, allowed, some_layer, prodn. cbn [Nat.eqb negb orb].
  assert (E : forall k i j, layer_prob (law fitness) (fun _ => Fin 1) two_labels two_labels k i j = logistic (toR (Fin 1) * toR (label_value two_labels i k) * toR (label_value two_labels j k))).
  { intros k i j. destruct two_labels_ok as [_ M]. apply (moderate_law fitness); [apply moderate_1 | apply label_value_moderate, M | apply label_value_moderate, M]. }
  rewrite !E. unfold label_value, two_labels, logistic. cbn [nth row_vec combine fst snd lookup Nat.eqb toR]. field.
Qed.
Example C111_edges_case : label_table 2 two_labels /\ length two_labels = 2%nat /\ moderate_table two_labels /\ (Z.of_nat 2 <= 2 ^ 40)%Z /\ (Z.of_nat (2 * 2) <= 2 ^ 52)%Z /\ moderate (Fin 1) /\
  tensor_mean 2 true (fun k => graph_weight 2 true (layer_prob (law fitness) (fun _ => Fin 1) two_labels two_labels k)) 2 (fun Gs => g_edges 2 (concat Gs)) = 12 / 5.
Proof. destruct two_labels_ok as [T1 T2]. split; [exact T1|]. split; [reflexivity|]. split; [exact T2|]. split; [lia|]. split; [lia|]. split; [apply moderate_1 | apply two_labels_union]. Qed.

(** * Samples *)
Lemma prodn_gap : forall n f g e, (forall k, (k < n)%nat -> 0 <= f k <= 1 /\ 0 <= g k <= 1 /\ Rabs (f k - g k) <= e k) ->
  0 <= prodn n f <= 1 /\ Rabs (prodn n f - prodn n g) <= sumn n e.
Proof.
  intros n f g e H. induction n as [|n IH].
  - cbn. rewrite Rminus_diag_eq, Rabs_R0 by reflexivity. lra.
  - destruct IH as [If IH]; [intros k Hk; apply H; lia|]. destruct (H n ltac:(lia)) as (Hf & Hg & E). cbn [prodn sumn]. split; [nra|].
    replace (prodn n f * f n - prodn n g * g n) with (prodn n f * (f n - g n) + (prodn n f - prodn n g) * g n) by ring.
    eapply Rle_trans; [apply Rabs_triang|]. rewrite !Rabs_mult, (Rabs_right (prodn n f)), (Rabs_right (g n)) by lra.
    pose proof (Rabs_pos (f n - g n)). pose proof (Rabs_pos (prodn n f - prodn n g)). nra.
Qed.
Lemma pair_sum_gap : forall N sl f g e, (forall i j, (i < N)%nat -> (j < N)%nat -> Rabs (f i j - g i j) <= e i j) -> Rabs (pair_sum N sl f - pair_sum N sl g) <= pair_sum N sl e.
Proof.
  intros N sl f g e H. unfold pair_sum. rewrite <- sumn_minus. eapply Rle_trans; [apply sumn_abs|]. apply sumn_le. intros i Hi. rewrite <- sumn_minus. eapply Rle_trans; [apply sumn_abs|]. apply sumn_le. intros j Hj.
  destruct (allowed sl i j); [apply H; assumption | rewrite Rminus_0_r, Rabs_R0; lra].
Qed.
Lemma pair_sum_layers : forall N sl L (f : nat -> nat -> nat -> R) c, 0 <= c -> pair_sum N sl (fun i j => sumn L (fun k => f k i j + c)) <= sumn L (fun k => pair_sum N sl (f k)) + INR (L * (N * N)) * c.
Proof.
  intros N sl L f c Hc. induction L as [|L IH].
  - cbn [sumn]. unfold pair_sum. rewrite (sumn_ext _ _ (fun _ => 0)); [rewrite sumn_const; cbn; lra|]. intros i Hi. rewrite (sumn_ext _ _ (fun _ => 0)); [rewrite sumn_const; lra | intros j Hj; destruct (allowed sl i j); reflexivity].
  - cbn [sumn]. replace (S L * (N * N))%nat with (L * (N * N) + N * N)%nat by lia. rewrite plus_INR.
    assert (E : pair_sum N sl (fun i j => sumn L (fun k => f k i j + c) + (f L i j + c)) = pair_sum N sl (fun i j => sumn L (fun k => f k i j + c)) + (pair_sum N sl (f L) + pair_sum N sl (fun _ _ => c))).
    { unfold pair_sum. rewrite <- !sumn_plus. apply sumn_ext. intros i Hi. rewrite <- !sumn_plus. apply sumn_ext. intros j Hj. destruct (allowed sl i j); ring. }
    assert (B : pair_sum N sl (fun _ _ => c) <= INR (N * N) * c).
    { unfold pair_sum. apply Rle_trans with (sumn N (fun _ => INR N * c)); [|rewrite sumn_const, mult_INR; lra]. apply sumn_le. intros i Hi. rewrite <- sumn_const. apply sumn_le. intros j Hj. destruct (allowed sl i j); lra. }
    rewrite E. lra.
Qed.

(** The mean number of pairs linked in some layer of the samples drawn in doubles. *)
Theorem C111_sample : forall kd z N L xs ys d sl arg m, label_table L xs -> label_table L ys -> length xs = N -> length ys = N ->
  moderate_table xs -> moderate_table ys -> (forall k, (k < L)%nat -> amount (d k)) ->
  sample_layers (fun d x y (_ : num) => toR (m_p kd d x y)) z L xs ys (Some d) sl arg = Ok m ->
  let w k := graph_weight N sl (layer_prob (law kd) d xs ys k) in
  Rabs (drawn m (fun Gs => g_edges N (concat Gs)) - tensor_mean N sl w L (fun Gs => g_edges N (concat Gs))) <=
  two (-49) * sumn L (fun k => ensemble_mean N sl (w k) (g_edges N)) + INR (L * (N * N)) * two (-52).
Proof.
  intros kd z N L xs ys d sl arg m Tx Ty Nx Ny Mx My Hd E w.
  unfold sample_layers in E. rewrite (table_layers L xs Tx), (table_layers L ys Ty) in E. cbn [bind] in E. injection E as <-.
  set (b := fun k => binary_sample_layer (fun d x y (_ : num) => toR (m_p kd d x y)) z (d k) (column (map zip xs) k) (column (map zip ys) k) sl).
  match goal with |- context[for_prog (seq 0 L) ?c []] => replace (for_prog (seq 0 L) c []) with (layers_prog b (seq 0 L) []) end.
  2: { symmetry. apply for_prog_ext_in. intros k acc Hk. apply in_seq in Hk. unfold b. rewrite !nth_layers by lia. reflexivity. }
  set (p := fun k i j => hit (toR (float_p (is_inv kd) (d k) (label_value xs i k) (label_value ys j k) (Fin 1)))).
  set (q := fun k i j => exact_prob (is_inv kd) (d k) (label_value xs i k) (label_value ys j k) (Fin 1)).
  assert (Dr : forall k g, (k < 0 + L)%nat -> drawn (b k) g = ensemble_mean N sl (graph_weight N sl (p k)) g).
  { intros k g Hk. unfold b. rewrite (label_drawn kd N L xs ys sl Tx Ty Nx Ny Mx My k (d k) z g (Hd k Hk)). apply sample_mean. }
  rewrite (drawn_layers N sl b (fun k => graph_weight N sl (p k)) L 0 [] _ Dr). cbn [app plus].
  assert (Ew : w = fun k => graph_weight N sl (q k)) by (extensionality k; unfold w; rewrite layer_exact; reflexivity). rewrite Ew.
  rewrite (union_mean N sl p L), (union_mean N sl q L).
  assert (LE : forall k i j, (k < L)%nat -> (i < N)%nat -> (j < N)%nat -> 0 <= p k i j <= 1 /\ 0 <= q k i j <= 1 /\ Rabs (p k i j - q k i j) <= two (-49) * q k i j + two (-52)).
  { intros k i j Hk Hi Hj. exact (link_error (is_inv kd) (d k) (fun i => label_value xs i k) (fun j => label_value ys j k) (fun _ _ => Fin 1) N (Hd k Hk) (label_moderate N xs ys Mx My k) i j Hi Hj). }
  eapply Rle_trans; [apply (pair_sum_gap N sl _ _ (fun i j => sumn L (fun k => two (-49) * q k i j + two (-52))))|].
  - intros i j Hi Hj. unfold some_layer.
    destruct (prodn_gap L (fun k => 1 - p k i j) (fun k => 1 - q k i j) (fun k => two (-49) * q k i j + two (-52))) as [_ G].
    + intros k Hk. destruct (LE k i j Hk Hi Hj) as (A & B & C). split; [lra|]. split; [lra|]. replace (1 - p k i j - (1 - q k i j)) with (- (p k i j - q k i j)) by ring. rewrite Rabs_Ropp. exact C.
    + set (A := prodn L _) in *. set (B := prodn L (fun k => 1 - q k i j)) in *. replace (1 - A - (1 - B)) with (- (A - B)) by ring. rewrite Rabs_Ropp. exact G.
  - eapply Rle_trans; [apply (pair_sum_layers N sl L (fun k i j => two (-49) * q k i j)); left; apply two_pos|]. apply Rplus_le_compat_r. right. rewrite <- sumn_scal_l. apply sumn_ext. intros k Hk.
    rewrite mean_edges. unfold pair_sum. rewrite <- sumn_scal_l. apply sumn_ext. intros i Hi. rewrite <- sumn_scal_l. apply sumn_ext. intros j Hj. destruct (allowed sl i j); ring.
Qed.
Print Assumptions C111_sample.
Example C111_sample_case : exists m, label_table 2 two_labels /\ length two_labels = 2%nat /\ moderate_table two_labels /\ amount (Fin 1) /\
  sample_layers (fun d x y (_ : num) => toR (m_p fitness d x y)) (fun _ _ => Fin 1) 2 two_labels two_labels (Some (fun _ => Fin 1)) true None = Ok m /\
  tensor_mean 2 true (fun k => graph_weight 2 true (layer_prob (law fitness) (fun _ => Fin 1) two_labels two_labels k)) 2 (fun Gs => g_edges 2 (concat Gs)) = 12 / 5.
Proof. destruct two_labels_ok as [T1 T2]. eexists. split; [exact T1|]. split; [reflexivity|]. split; [exact T2|]. split; [right; apply datum_1|]. split; [reflexivity | apply two_labels_union]. Qed.
