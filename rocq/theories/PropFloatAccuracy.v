(** Property C106: accuracy of probabilities, expected values and density fits in double precision. *)
From Verif Require Import Base Num Spec Kernels Prob Ensemble EnsembleFacts ModelFacts Conditional Solver Float FloatFacts FloatSolver FloatSolverFacts
  PropFloat PropFloatSolver FloatRankFacts FloatAccuracy.
Import Num Spec.
From Coq Require Import Lra Lia.

Open Scope R_scope.
Local Notation close := FloatAccuracy.close.

(** * Probabilities *)

(** The exact probability of a link, in the fitness model or the scale-invariant model. *)
Definition exact_prob (inv : bool) (d x y z : num) : R := link_prob (if inv then poissonian else logistic) [d; x; y; z].
(** The two functions of the library that compute it: [p_ij], and the first component of [p_jac_ij], used by the fit. *)
Definition float_p (inv : bool) (d x y z : num) : num := if inv then rinv_p_ij b64 d x y z else rfit_p_ij b64 d x y z.
Definition float_jac (inv : bool) (d x y z : num) : num * num := if inv then rinv_p_jac b64 d x y z else rfit_p_jac b64 d x y z.

Lemma amount_cases : forall d, amount d -> d = PInf \/ d = Fin 0 \/ exists w, d = Fin w /\ 0 < w /\ double w.
Proof.
  intros d [-> | (w & -> & H & D)]; [left; reflexivity|]. right. destruct (Req_dec w 0) as [-> | NE]; [left; reflexivity|]. right. exists w. repeat split; auto; lra.
Qed.
Lemma moderate_cases : forall x, moderate x -> x = Fin 0 \/ exists w, x = Fin w /\ 0 < w /\ mid w.
Proof. intros x [-> | (w & -> & D & H)]; [left; reflexivity|]. right. exists w. pose proof (two_pos (-130)). repeat split; auto; lra. Qed.

Lemma is0_0 : is0 (Fin 0) = true. Proof. change (is0 (Fin 0)) with (Reqb 0 0). apply Reqb_true. reflexivity. Qed.
Lemma zero_prob : forall inv d x y z, is0 d || is0 x || is0 y || is0 z = true -> exact_prob inv d x y z = 0.
Proof.
  intros inv d x y z H. unfold exact_prob, link_prob. cbn [existsb]. assert (E : forall a, is_zero a = is0 a) by (intros []; reflexivity). rewrite (E d), (E x), (E y), (E z). destruct (is0 d), (is0 x), (is0 y), (is0 z); try reflexivity; discriminate H.
Qed.
Lemma pos_prob : forall inv d x y z, 0 < d -> 0 < x -> 0 < y -> 0 < z -> exact_prob inv (Fin d) (Fin x) (Fin y) (Fin z) = prob_of_product inv (d * x * y * z).
Proof.
  intros inv d x y z Hd Hx Hy Hz. unfold exact_prob, link_prob. cbn [existsb is_zero is_infinite prodl toR]. rewrite !Reqb_false by lra. cbn [orb].
  replace (d * (x * (y * (z * 1)))) with (d * x * y * z) by ring. destruct inv; reflexivity.
Qed.
Lemma inf_prob : forall inv x y z, 0 < x -> 0 < y -> 0 < z -> exact_prob inv PInf (Fin x) (Fin y) (Fin z) = 1.
Proof. intros inv x y z Hx Hy Hz. unfold exact_prob, link_prob. cbn [existsb is_zero is_infinite]. rewrite !Reqb_false by lra. reflexivity. Qed.

Lemma exact_range : forall inv d x y z, amount d -> moderate x -> moderate y -> moderate z -> 0 <= exact_prob inv d x y z <= 1.
Proof.
  intros inv d x y z Hd Hx Hy Hz.
  destruct (amount_cases d Hd) as [-> | [-> | (w & -> & W & _)]]; destruct (moderate_cases x Hx) as [-> | (a & -> & A & _)]; destruct (moderate_cases y Hy) as [-> | (b & -> & B & _)];
    destruct (moderate_cases z Hz) as [-> | (c & -> & C & _)]; try (rewrite zero_prob by (rewrite ?is0_0, ?orb_true_r; reflexivity); lra).
  - rewrite inf_prob by assumption. lra.
  - rewrite pos_prob by assumption. apply pp_range. repeat apply Rmult_le_pos; lra.
Qed.

Lemma close_zero : close kk bb (Fin 0) 0.
Proof. exists 0. split; [reflexivity|]. split; [split; [lra | apply double_0]|]. split; [lra|]. unfold ap. rewrite Rminus_0_r, Rabs_R0. pose proof bb_pos. lra. Qed.
Lemma close_exact_one : close kk bb (Fin 1) 1.
Proof. exists 1. split; [reflexivity|]. split; [split; [lra | apply double_1]|]. split; [lra|]. unfold ap. rewrite Rminus_diag_eq by reflexivity. rewrite Rabs_R0. pose proof bb_pos. pose proof kk_small. lra. Qed.
Lemma inf_mul : forall w, 0 < w -> rmul b64 PInf (Fin w) = PInf.
Proof. intros w H. unfold rmul. cbn. unfold inf_times. rewrite ?Rltb_true, ?Reqb_false by lra. reflexivity. Qed.

Lemma tracked_weaken : forall e k b k' b' a r, 0 <= r -> k <= k' -> b <= b' -> tracked e k b a r -> tracked e k' b' a r.
Proof. intros e k b k' b' a r Hr Hk Hb [(v & E & F & A) | H]; [left | right; exact H]. exists v. split; [exact E|]. split; [exact F|]. apply (ap_le k b); assumption. Qed.

Lemma p_close : forall inv d x y z, amount d -> moderate x -> moderate y -> moderate z -> close kk bb (float_p inv d x y z) (exact_prob inv d x y z).
Proof.
  intros inv d x y z Hd Hx Hy Hz. assert (Z0 : is0 d || is0 x || is0 y || is0 z = true -> close kk bb (float_p inv d x y z) (exact_prob inv d x y z)).
  { intros H. rewrite zero_prob by exact H. assert (H' : is0 x || is0 y || is0 z || is0 d = true) by (destruct (is0 d), (is0 x), (is0 y), (is0 z); auto).
    unfold float_p, rinv_p_ij, rfit_p_ij. rewrite H'. destruct inv; apply close_zero. }
  destruct (amount_cases d Hd) as [-> | [-> | (w & -> & W & Dw)]]; destruct (moderate_cases x Hx) as [-> | (a & -> & A & Ma)]; destruct (moderate_cases y Hy) as [-> | (b & -> & B & Mb)];
    destruct (moderate_cases z Hz) as [-> | (c & -> & C & Mc)]; try (apply Z0; rewrite ?is0_0, ?orb_true_r; reflexivity); clear Z0.
  - rewrite inf_prob by assumption. unfold float_p, rinv_p_ij, rfit_p_ij. rewrite !is0_fin_pos by assumption. cbn [orb is0]. change (is0 PInf) with false. cbv iota. rewrite !inf_mul by assumption.
    cbn [isinf]. destruct inv; apply close_exact_one.
  - rewrite pos_prob by assumption. pose proof (product_forward w a b c ltac:(lra) Dw Ma Mb Mc) as T. assert (R0 : 0 <= w * a * b * c) by (repeat apply Rmult_le_pos; lra).
    apply (tracked_weaken _ _ _ (8 * uu) (two (-800))) in T; [|exact R0 | pose proof uu_pos; lra | lra].
    unfold float_p, rinv_p_ij, rfit_p_ij. rewrite !is0_fin_pos by assumption. cbn [orb]. destruct inv; [apply exponential_close | apply logistic_close]; assumption.
Qed.

Lemma jac_close : forall inv d x y z, amount d -> moderate x -> moderate y -> moderate z -> close kk bb (fst (float_jac inv d x y z)) (exact_prob inv d x y z).
Proof.
  intros inv d x y z Hd Hx Hy Hz. assert (Z0 : is0 x || is0 y || is0 z = true -> close kk bb (fst (float_jac inv d x y z)) (exact_prob inv d x y z)).
  { intros H. rewrite zero_prob by (destruct (is0 d), (is0 x), (is0 y), (is0 z); auto). unfold float_jac, rinv_p_jac, rfit_p_jac. rewrite H. destruct inv; apply close_zero. }
  destruct (moderate_cases x Hx) as [-> | (a & -> & A & Ma)]; destruct (moderate_cases y Hy) as [-> | (b & -> & B & Mb)];
    destruct (moderate_cases z Hz) as [-> | (c & -> & C & Mc)]; try (apply Z0; rewrite ?is0_0, ?orb_true_r; reflexivity); clear Z0.
  destruct (amount_cases d Hd) as [-> | [-> | (w & -> & W & Dw)]].
  - rewrite inf_prob by assumption. destruct (tmp_between (Fin a) (Fin b) (Fin c) Hx Hy Hz) as (t & E & Dt & Ht); [rewrite !is0_fin_pos by assumption; reflexivity|]. pose proof (two_pos (-390)).
    unfold float_jac, rinv_p_jac, rfit_p_jac. rewrite !is0_fin_pos by assumption. cbn [orb]. change (is0 PInf) with false. cbv iota zeta. rewrite E, inf_mul by lra. cbn [isinf].
    destruct inv; apply close_exact_one.
  - rewrite zero_prob by (rewrite is0_0; reflexivity). unfold float_jac, rinv_p_jac, rfit_p_jac. rewrite !is0_fin_pos by assumption. rewrite is0_0. destruct inv; apply close_zero.
  - rewrite pos_prob by assumption. destruct (product_backward w a b c W Dw Ma Mb Mc) as (t & E & Dt & Ht & T). assert (R0 : 0 <= w * a * b * c) by (repeat apply Rmult_le_pos; lra).
    pose proof (exponential_close _ _ R0 T) as X. pose proof (logistic_close _ _ R0 T) as L.
    unfold float_jac, rinv_p_jac, rfit_p_jac. rewrite !is0_fin_pos by assumption. cbn [orb]. cbv zeta. rewrite E. destruct inv; [revert X | revert L]; destruct (isinf _); intros Q; exact Q.
Qed.

(** For fitnesses and dyadic terms that are zero or between 2^-130 and 2^130, and every parameter of the format or
    infinite, both computed probabilities have a relative error of at most 2^-49. *)
Theorem C106_probability : forall inv d x y z, amount d -> moderate x -> moderate y -> moderate z ->
  let q := exact_prob inv d x y z in
  exists p p', float_p inv d x y z = Fin p /\ fst (float_jac inv d x y z) = Fin p' /\
    Rabs (p - q) <= two (-49) * q + two (-790) /\ Rabs (p' - q) <= two (-49) * q + two (-790).
Proof.
  intros inv d x y z Hd Hx Hy Hz q. destruct (p_close inv d x y z Hd Hx Hy Hz) as (p & E & _ & _ & A). destruct (jac_close inv d x y z Hd Hx Hy Hz) as (p' & E' & _ & _ & A').
  exists p, p'. auto.
Qed.
Print Assumptions C106_probability.

Example C106_probability_case : amount (Fin (two 100)) /\ moderate (Fin (two (-60))) /\ moderate (Fin (two (-40))) /\ moderate (Fin 1) /\
  exact_prob false (Fin (two 100)) (Fin (two (-60))) (Fin (two (-40))) (Fin 1) = 1 / 2.
Proof.
  assert (M : forall e, (-130 <= e <= 130)%Z -> moderate (Fin (two e))) by (intros e He; right; exists (two e); split; [reflexivity|]; split; [apply double_two; lia | split; apply two_le; lia]).
  split; [right; apply datum_fin; [left; apply two_pos | apply double_two; lia]|]. split; [apply M; lia|]. split; [apply M; lia|]. split; [apply moderate_1|].
  rewrite pos_prob by (try apply two_pos; lra). rewrite Rmult_1_r, <- !two_add. change (100 + -60 + -40)%Z with 0%Z. rewrite two_0. unfold prob_of_product. lra.
Qed.

(** Without the bounds on the data it fails: the product of parameter and first fitness underflows. *)
Theorem C106_underflow_refuted : exists d x y z, datum d /\ datum x /\ datum y /\ datum z /\
  exact_prob false d x y z = 1 / 2 /\ exact_prob true d x y z = 1 - exp (- (1)) /\ float_p false d x y z = Fin 0 /\ float_p true d x y z = Fin 0.
Proof.
  exists (Fin (two (-600))), (Fin (two (-600))), (Fin (two 600)), (Fin (two 600)).
  assert (P : forall e, 0 < two e) by apply two_pos. pose proof (two_datum (-600) ltac:(lia)). pose proof (two_datum 600 ltac:(lia)).
  assert (E : two (-600) * two (-600) * two 600 * two 600 = 1) by (rewrite <- !two_add; apply two_0).
  repeat (split; [assumption|]). rewrite !pos_prob by apply P. rewrite E. unfold prob_of_product. split; [lra|]. split; [reflexivity|].
  unfold float_p, rinv_p_ij, rfit_p_ij. rewrite !is0_fin_pos by apply P. cbn [orb]. rewrite mul_two. change (-600 + -600)%Z with (-1200)%Z. rewrite (b64_under (-1200)) by lia.
  assert (Z : rmul b64 (rmul b64 (Fin 0) (Fin (two 600))) (Fin (two 600)) = Fin 0) by (unfold rmul; cbn [nmul rnd_num]; rewrite Rmult_0_l, b64_0; cbn [nmul rnd_num]; rewrite Rmult_0_l, b64_0; reflexivity).
  rewrite Z. cbn [isinf]. split.
  - unfold radd. cbn [nadd rnd_num]. rewrite Rplus_0_r, (b64_fixed 1 double_1), rdiv_fin by lra. replace (0 / 1) with 0 by field. apply b64_0.
  - destruct (exponential_unit 0 ltac:(lra)) as (p & Ep & Eb & _). rewrite Ep. rewrite Ropp_0, exp_0 in Eb. replace (1 - 1) with 0 in Eb by ring. rewrite b64_0 in Eb. symmetry. exact Eb.
Qed.
Print Assumptions C106_underflow_refuted.

(** * Expected numbers of links and expected degrees *)
Section Measures.
Variables (inv : bool) (d : num) (x y : nat -> num) (z : nat -> nat -> num) (N : nat) (sl : bool).
Hypothesis Hd : amount d.
Hypothesis Hm : forall i, (i < N)%nat -> moderate (x i) /\ moderate (y i) /\ forall j, (j < N)%nat -> moderate (z i j).
Let q i j := exact_prob inv d (x i) (y j) (z i j).

Lemma q_range : forall i j, (i < N)%nat -> (j < N)%nat -> 0 <= q i j <= 1.
Proof. intros i j Hi Hj. destruct (Hm i Hi) as (A & _ & C). destruct (Hm j Hj) as (_ & B & _). apply exact_range; auto. Qed.
Lemma all_p : forall i j, (i < N)%nat -> (j < N)%nat -> close kk bb (float_p inv d (x i) (y j) (z i j)) (q i j) /\ 0 <= q i j <= 1.
Proof. intros i j Hi Hj. split; [|apply q_range; assumption]. destruct (Hm i Hi) as (A & _ & C). destruct (Hm j Hj) as (_ & B & _). apply p_close; auto. Qed.
Lemma all_jac : forall i j, (i < N)%nat -> (j < N)%nat -> close kk bb (fst (float_jac inv d (x i) (y j) (z i j))) (q i j) /\ 0 <= q i j <= 1.
Proof. intros i j Hi Hj. split; [|apply q_range; assumption]. destruct (Hm i Hi) as (A & _ & C). destruct (Hm j Hj) as (_ & B & _). apply jac_close; auto. Qed.
End Measures.

Lemma count_uu : forall c n, (Z.of_nat c <= 2 ^ n)%Z -> (0 <= n)%Z -> INR c * uu <= two (n - 53).
Proof.
  intros c n H Hn. change (n - 53)%Z with (n + -53)%Z. rewrite two_add. apply Rmult_le_compat_r; [left; apply uu_pos|]. rewrite INR_IZR_INZ, two_Z by exact Hn. apply IZR_le, H.
Qed.
Lemma half_52 : two (52 - 53) = 1 / 2. Proof. change (52 - 53)%Z with (-1)%Z. apply two_m1. Qed.
Lemma uu_52 : 2 * uu = two (-52). Proof. change (-52)%Z with (1 + -53)%Z. rewrite two_add, two_1. reflexivity. Qed.
Lemma kk_52 : 2 * kk = two (-52) * 16. Proof. rewrite kk_uu, <- uu_52. ring. Qed.
Lemma k2_52 : 2 * k2 = two (-52) * 128. Proof. rewrite k2_kk, kk_uu, <- uu_52. ring. Qed.
Lemma count_tiny : forall c n e, (Z.of_nat c <= 2 ^ n)%Z -> (0 <= n)%Z -> 2 * (INR c * two e) <= two (n + 1 + e).
Proof.
  intros c n e H Hn. rewrite two_add, two_add, two_1. rewrite <- Rmult_assoc. apply Rmult_le_compat_r; [left; apply two_pos|]. rewrite Rmult_comm. apply Rmult_le_compat_r; [lra|].
  rewrite INR_IZR_INZ, two_Z by exact Hn. apply IZR_le, H.
Qed.

(** The expected number of links computed in doubles, against its mean over the ensemble of graphs, in exact
    arithmetic.  The relative error is 2^-52 for each pair. *)
Theorem C106_edges : forall inv d x y z N sl, amount d ->
  (forall i, (i < N)%nat -> moderate (x i) /\ moderate (y i) /\ forall j, (j < N)%nat -> moderate (z i j)) -> (Z.of_nat (N * N) <= 2 ^ 52)%Z ->
  let q i j := exact_prob inv d (x i) (y j) (z i j) in
  let mean := ensemble_mean N sl (graph_weight N sl q) (g_edges N) in
  exists e, rexp_edges b64 (fun i j => float_p inv d (x i) (y j) (z i j)) N sl = Fin e /\
    Rabs (e - mean) <= two (-52) * (INR (N * N) + 16) * mean + two (-730).
Proof.
  intros inv d x y z N sl Hd Hm HN q mean. pose proof (count_uu _ _ HN ltac:(lia)) as C. rewrite half_52 in C. pose proof bb_parts as [_ BU]. pose proof uu_small. pose proof bb_pos. pose proof kk_small.
  pose proof (edges_summed kk bb _ q N sl ltac:(lra) ltac:(lra) C (all_p inv d x y z N Hd Hm)) as S.
  destruct (summed_error kk bb _ _ _ ltac:(lra) ltac:(lra) C S) as (v & E & _ & R & A). exists v. split; [exact E|]. unfold mean. rewrite mean_edges. unfold ap in A. eapply Rle_trans; [exact A|].
  apply Rplus_le_compat.
  - right. f_equal. rewrite kk_52. replace (2 * (INR (N * N) * uu)) with (2 * uu * INR (N * N)) by ring. rewrite uu_52. ring.
  - eapply Rle_trans; [apply (count_tiny _ 52); [exact HN | lia]|]. apply two_le. lia.
Qed.
Print Assumptions C106_edges.

Lemma nb_out : forall N sl q v, nb_degree N sl (out_link q) v = sumn N (fun j => if allowed sl v j then q v j else 0).
Proof. reflexivity. Qed.
Lemma nb_in : forall N sl q v, nb_degree N sl (in_link q) v = sumn N (fun j => if allowed sl j v then q j v else 0).
Proof. intros N sl q v. unfold nb_degree, in_link. apply sumn_ext. intros j Hj. unfold allowed. rewrite (Nat.eqb_sym v j). reflexivity. Qed.
Lemma nb_either : forall N sl q v, nb_degree N sl (either_link q) v = sumn N (fun j => if Nat.eqb v j then (if sl then q v v else 0) else q v j + q j v - q v j * q j v).
Proof.
  intros N sl q v. unfold nb_degree, either_link, allowed. apply sumn_ext. intros j Hj. destruct (Nat.eqb_spec v j) as [<- | NE]; cbn [negb orb]; [destruct sl; reflexivity | ring].
Qed.

(** The same for the expected degrees. *)
Theorem C106_degrees : forall inv d x y z N sl v, amount d ->
  (forall i, (i < N)%nat -> moderate (x i) /\ moderate (y i) /\ forall j, (j < N)%nat -> moderate (z i j)) -> (Z.of_nat N <= 2 ^ 52)%Z -> (v < N)%nat ->
  let q i j := exact_prob inv d (x i) (y j) (z i j) in
  let mean f := ensemble_mean N sl (graph_weight N sl q) (fun G => f N G v) in
  let accurate a m := exists e, a = Fin e /\ Rabs (e - m) <= two (-52) * (INR N + 128) * m + two (-720) in
  let '(degree, out_degree, in_degree) := rexp_degrees b64 (fun i j => float_p inv d (x i) (y j) (z i j)) N sl in
  accurate (degree v) (mean g_deg) /\ accurate (out_degree v) (mean g_out) /\ accurate (in_degree v) (mean g_in).
Proof.
  intros inv d x y z N sl v Hd Hm HN Hv q mean accurate. pose proof (count_uu _ _ HN ltac:(lia)) as C. rewrite half_52 in C.
  destruct (degrees_summed _ q N sl C (all_p inv d x y z N Hd Hm) v Hv) as (D & O & I).
  destruct (rexp_degrees b64 (fun i j => float_p inv d (x i) (y j) (z i j)) N sl) as [[degree out_degree] in_degree]. cbn [fst snd] in *.
  assert (G : forall a s, summed k2 b2 N s a -> accurate a s).
  { intros a s S. pose proof (two_pos (-780)) as B0. destruct (summed_error k2 b2 N s a k2_small ltac:(unfold b2; lra) C S) as (e & E & _ & R & A). exists e. split; [exact E|]. unfold ap in A. eapply Rle_trans; [exact A|].
    apply Rplus_le_compat.
    - right. f_equal. rewrite k2_52. replace (2 * (INR N * uu)) with (2 * uu * INR N) by ring. rewrite uu_52. ring.
    - eapply Rle_trans; [apply (count_tiny _ 52); [exact HN | lia]|]. apply two_le. lia. }
  unfold mean. rewrite (mean_deg N sl q v Hv), (mean_out N sl q v Hv), (mean_in N sl q v Hv), <- nb_either, <- nb_in. auto.
Qed.
Print Assumptions C106_degrees.

Example C106_measures_case : let x := fun i : nat => Fin (two (Z.of_nat i)) in
  (forall i, (i < 3)%nat -> moderate (x i) /\ moderate (x i) /\ forall j, (j < 3)%nat -> moderate ((fun _ _ => Fin 1) i j)) /\
  (Z.of_nat (3 * 3) <= 2 ^ 52)%Z /\ amount (Fin (1 / 2)) /\
  ensemble_mean 3 false (graph_weight 3 false (fun i j => exact_prob false (Fin (1 / 2)) (x i) (x j) (Fin 1))) (fun G => g_out 3 G 1%nat) = 1 / 2 + 4 / 5.
Proof.
  intros x. split. { intros i Hi. assert (M : moderate (x i)) by (right; exists (two (Z.of_nat i)); split; [reflexivity|]; split; [apply double_two; lia | split; apply two_le; lia]). repeat split; auto. intros. apply moderate_1. }
  split; [lia|]. split. { right. apply datum_fin; [lra|]. rewrite <- two_m1. apply double_two. lia. }
  rewrite mean_out by lia. unfold sumn, allowed, x. cbn [Nat.eqb negb orb Z.of_nat Pos.of_succ_nat Pos.succ]. rewrite !pos_prob by (try apply two_pos; lra).
  rewrite two_0, two_1. replace (two 2) with 4 by (rewrite two_Z by lia; reflexivity). unfold prob_of_product. field.
Qed.

(** * The density fit *)

(** A density fit in doubles, on data and with tolerances as in C98_fit.  If it reports convergence, the exact mean
    number of links at the returned parameter is within the tolerance, up to a relative error of 2^-50 for each pair; and
    it reports convergence whenever the exact mean is within the tolerance by that margin.  The number of links that the
    object computes with [p_ij] after the fit is as near to the target. *)
Theorem C106_fit : forall inv x y z N sl T a rho x0 max_iter,
  (forall i, (i < N)%nat -> moderate (x i) /\ moderate (y i) /\ forall j, (j < N)%nat -> moderate (z i j)) ->
  (1 <= N)%nat -> (Z.of_nat (N * N) <= 2 ^ 50)%Z ->
  double T -> T <= pair_sum N sl (fun i j => if connectable (x i) (y j) (z i j) then 1 else 0) ->
  two (-50) * INR (N * N) <= rho * T -> rho <= 1 / 8 -> two (-900) <= a <= T / 8 -> amount x0 ->
  let p d i j := float_jac inv d (x i) (y j) (z i j) in
  exists sol, rsolver b64 (fun d => rexp_edges_f_jac b64 (p d) N sl) x0 (Fin T) (Fin a) (Fin rho) max_iter (Fin 0) PInf None None = Ok sol /\
  let mean := ensemble_mean N sl (graph_weight N sl (fun i j => exact_prob inv (sol_x sol) (x i) (y j) (z i j))) (g_edges N) in
  let margin := two (-50) * (INR (N * N) + 16) * T in
  (sol_converged sol = true -> Rabs (mean - T) <= (1 + two (-50)) * (a + rho * T) + margin) /\
  (Rabs (mean - T) + margin <= (1 - two (-50)) * (a + rho * T) -> sol_converged sol = true) /\
  exists e, rexp_edges b64 (fun i j => float_p inv (sol_x sol) (x i) (y j) (z i j)) N sl = Fin e /\
    (sol_converged sol = true -> Rabs (e - T) <= (1 + two (-50)) * (a + rho * T) + 2 * margin).
Proof.
  intros inv x y z N sl T a rho x0 max_iter Hm N1 HN DT HT Hr1 Hr2 Ha Hx0 p.
  assert (HN53 : (Z.of_nat (N * N) <= 2 ^ 53)%Z) by (eapply Z.le_trans; [exact HN | lia]).
  assert (Fit : exists sol, rsolver b64 (fun d => rexp_edges_f_jac b64 (p d) N sl) x0 (Fin T) (Fin a) (Fin rho) max_iter (Fin 0) PInf None None = Ok sol /\
    Forall amount (sol_x_seq sol) /\ exists v tol, rexp_edges b64 (fun i j => fst (p (sol_x sol) i j)) N sl = Fin v /\
    radd b64 (Fin a) (rmul b64 (Fin rho) (Fin T)) = Fin tol /\ (sol_converged sol = true <-> Rabs (v - T) <= tol)).
  { unfold p, float_jac. destruct inv; [apply (C98_fit (rinv_p_jac b64)) | apply (C98_fit (rfit_p_jac b64))]; auto. }
  destruct Fit as (sol & ES & FA & v & tol & Ev & Et & Conv). exists sol. split; [exact ES|]. intros mean margin.
  assert (Ax : amount (sol_x sol)).
  { destruct (C98_report _ _ _ _ _ _ _ _ _ _ _ ES) as (_ & _ & _ & _ & _ & _ & LX & _ & _ & Last & _). rewrite <- Last. rewrite Forall_forall in FA. apply FA.
    destruct (sol_x_seq sol) as [|h t] eqn:Q; [cbn in LX; lia|]. rewrite <- Q. destruct (exists_last (l := sol_x_seq sol) ltac:(rewrite Q; discriminate)) as (l' & lst & El). rewrite El, last_last. apply in_or_app. right. left. reflexivity. }
  pose proof (count_uu _ _ HN ltac:(lia)) as C50. assert (C : INR (N * N) * uu <= 1 / 2) by (rewrite <- half_52; eapply Rle_trans; [exact C50 | apply two_le; lia]).
  assert (E8 : two (50 - 53) = 1 / 8) by (change (50 - 53)%Z with (- (3))%Z; rewrite two_neg, two_Z by lia; change (2 ^ 3)%Z with 8%Z; lra). rewrite E8 in C50.
  pose proof bb_parts as [_ BU]. pose proof uu_small as US. pose proof uu_pos as UP. pose proof bb_pos as BP. pose proof kk_small as KS.
  set (q := fun i j => exact_prob inv (sol_x sol) (x i) (y j) (z i j)) in *.
  assert (Em : mean = pair_sum N sl q) by (unfold mean; apply mean_edges).
  pose proof (edges_summed kk bb _ q N sl ltac:(lra) ltac:(lra) C (all_jac inv (sol_x sol) x y z N Ax Hm)) as S.
  destruct (summed_error kk bb _ _ _ ltac:(lra) ltac:(lra) C S) as (v' & E' & Fv & R & A). fold (p (sol_x sol)) in E'. change (fun i j => fst (float_jac inv (sol_x sol) (x i) (y j) (z i j))) with (fun i j => fst (p (sol_x sol) i j)) in E'.
  rewrite Ev in E'. injection E' as <-.
  pose proof (edges_summed kk bb _ q N sl ltac:(lra) ltac:(lra) C (all_p inv (sol_x sol) x y z N Ax Hm)) as S2.
  destruct (summed_error kk bb _ _ _ ltac:(lra) ltac:(lra) C S2) as (e & Ee & Fe & _ & Ae). rewrite <- Em in *. clear S S2.
  unfold ap in A, Ae.
  (* the size of the target *)
  set (c := INR (N * N)) in *. assert (C1 : 1 <= c) by (apply (le_INR 1 (N * N)); nia).
  assert (T50 : two (-50) * c <= T / 8). { apply Rle_trans with (rho * T); [exact Hr1|]. assert (0 <= T) by (pose proof (two_pos (-900)); lra). nra. }
  pose proof (two_pos (-50)) as P50. assert (T0 : 0 < T) by nra.
  assert (U50 : 8 * uu = two (-50)) by (change (-50)%Z with (3 + -53)%Z; rewrite two_add, (two_Z 3) by lia; reflexivity).
  (* the absolute part of the errors *)
  assert (Tiny : 2 * (c * bb) <= uu * T).
  { assert (BB : bb <= uu * two (-53)) by (unfold bb, uu; rewrite <- two_add; apply two_le; lia).
    assert (c * bb <= c * (uu * two (-53))) by (apply Rmult_le_compat_l; lra). assert (two (-50) = 8 * two (-53)) by (rewrite <- U50; reflexivity). nra. }
  set (kap := 2 * kk + 2 * (c * uu)) in *. assert (K0 : 0 <= kap <= 3 / 8). { unfold kap. split; [nra|]. assert (2 * kk <= 1 / 32) by lra. lra. }
  assert (Km : 3 * (kap * T) + 3 * (uu * T) <= margin).
  { unfold margin, kap. rewrite <- U50, kk_uu. assert (0 <= uu * T) by nra. assert (0 <= c * (uu * T)) by nra. nra. }
  (* the computed tolerance *)
  set (tau := a + rho * T) in *. assert (A0 : 0 < a) by (pose proof (two_pos (-900)); lra). assert (RT : two (-50) <= rho * T) by nra.
  assert (TB : T <= two 54). { assert (CB : c <= two 50) by (unfold c; rewrite INR_IZR_INZ, two_Z by lia; apply IZR_le, HN). 
    assert (pair_sum N sl (fun i j => if connectable (x i) (y j) (z i j) then 1 else 0) <= c).
    { unfold c. rewrite mult_INR. unfold pair_sum. apply Rle_trans with (sumn N (fun _ => INR N)).
      - apply sumn_le. intros i Hi. apply Rle_trans with (sumn N (fun _ => 1)); [|rewrite sumn_const; lra]. apply sumn_le. intros j Hj. destruct (allowed sl i j), (connectable (x i) (y j) (z i j)); lra.
      - rewrite sumn_const. lra. }
    assert (two 50 <= two 54) by (apply two_le; lia). lra. }
  assert (RTB : rho * T <= T / 8) by nra.
  assert (B54 : two 54 <= two 1022) by (apply two_le; lia).
  assert (Etol : Rabs (tol - tau) <= two (-50) * tau).
  { destruct (rv_spec (rho * T) ltac:(lra)) as (E1 & D1 & P1 & B1). unfold rmul in Et. cbn [nmul rnd_num] in Et. rewrite E1 in Et. unfold radd in Et. cbn [nadd rnd_num] in Et.
    set (m := rv (rho * T)) in *. apply Rabs_def2_le in B1. pose proof eta_pos. assert (EU : eta <= uu * two (-50)) by (unfold eta, uu; rewrite <- two_add; apply two_le; lia).
    assert (EU2 : eta <= uu * (rho * T)) by (apply Rle_trans with (uu * two (-50)); [exact EU | apply Rmult_le_compat_l; lra]).
    assert (M1 : m <= 2 * (rho * T)) by nra. assert (two 54 = 4 * two 52) by (change 54%Z with (2 + 52)%Z; rewrite two_add, (two_Z 2) by lia; reflexivity).
    destruct (rv_spec (a + m) ltac:(lra)) as (E2 & _ & _ & B2). rewrite E2 in Et. injection Et as Et. rewrite Et in B2. apply Rabs_def2_le in B2.
    assert (UM : uu * (a + m) <= uu * (2 * tau)) by (apply Rmult_le_compat_l; unfold tau; lra). assert (UT : uu * (rho * T) <= uu * tau) by (apply Rmult_le_compat_l; unfold tau; lra).
    rewrite <- U50. apply Rabs_le. unfold tau in *. nra. }
  apply Rabs_def2_le in Etol. assert (P50s : two (-50) <= / 64) by (rewrite <- U50; assert (uu <= / 1024) by exact US; lra).
  assert (Tau : tau <= T / 4) by (unfold tau; lra). assert (Tau0 : 0 < tau) by (unfold tau; lra).
  assert (Tol : tol <= T / 2) by nra.
  assert (M0 : 0 <= mean) by exact (proj1 R).
  assert (Near : mean <= 3 * T -> Rabs (v - mean) <= margin /\ Rabs (e - mean) <= margin).
  { intros L. assert (kap * mean <= kap * (3 * T)) by (apply Rmult_le_compat_l; lra). assert (0 <= uu * T) by nra. split; lra. }
  assert (Back : Rabs (v - T) <= tol -> mean <= 3 * T).
  { intros L. apply Rabs_def2_le in L. apply Rabs_def2_le in A. assert (kap * mean <= 3 / 8 * mean) by (apply Rmult_le_compat_r; lra). assert (uu * T <= / 1024 * T) by (apply Rmult_le_compat_r; lra). lra. }
  split; [|split].
  - intros Cv. apply Conv in Cv. destruct (Near (Back Cv)) as [Nv _]. apply Rabs_def2_le in Cv, Nv. apply Rabs_le. nra.
  - intros L. apply Conv. pose proof (Rabs_pos (mean - T)). assert (MT : mean <= 3 * T). { assert (Rabs (mean - T) <= T) by (assert (0 <= margin) by (unfold margin; apply Rmult_le_pos; [apply Rmult_le_pos|]; lra); nra). apply Rabs_def2_le in H0. lra. }
    destruct (Near MT) as [Nv _]. pose proof (Rabs_triang (v - mean) (mean - T)) as Tr. replace (v - mean + (mean - T)) with (v - T) in Tr by ring. nra.
  - exists e. split; [exact Ee|]. intros Cv. apply Conv in Cv. destruct (Near (Back Cv)) as [Nv Ne]. apply Rabs_def2_le in Cv, Nv, Ne. apply Rabs_le. nra.
Qed.
Print Assumptions C106_fit.

(** The data of C98_fit_case, with fitnesses 1, 2 and 4: three vertices, a target of 2 links, tolerances 2^-80 and 2^-30.
    The margin is below the tolerance. *)
Example C106_fit_case : let x := fun i : nat => Fin (two (Z.of_nat i)) in
  (forall i, (i < 3)%nat -> moderate (x i) /\ moderate (x i) /\ forall j, (j < 3)%nat -> moderate ((fun _ _ => Fin 1) i j)) /\
  (Z.of_nat (3 * 3) <= 2 ^ 50)%Z /\ double 2 /\ 2 <= pair_sum 3 false (fun i j => if connectable (x i) (x j) (Fin 1) then 1 else 0) /\
  two (-50) * INR (3 * 3) <= two (-30) * 2 /\ two (-30) <= 1 / 8 /\ two (-900) <= two (-80) <= 2 / 8 /\ amount (Fin 0) /\
  two (-50) * (INR (3 * 3) + 16) * 2 <= (two (-80) + two (-30) * 2) / 1024.
Proof.
  intros x. split; [exact (proj1 C106_measures_case)|]. split; [lia|]. split; [apply (double_Z 2); lia|].
  split. { unfold connectable, x, pair_sum, sumn, allowed. rewrite !is0_fin_pos by (try apply two_pos; lra). cbn. lra. }
  split; [tw; cbn; lra|]. split; [tw; lra|]. split; [split; [apply two_le; lia | tw; lra]|]. split; [right; apply datum_fin; [lra | apply double_0]|].
  tw. cbn [Nat.mul Nat.add INR]. lra.
Qed.
