(** Property C107: accuracy of the log-likelihood in double precision. *)
From Verif Require Import Base Num Spec Kernels Prob Ensemble EnsembleFacts ModelFacts Conditional Solver Float FloatFacts FloatSolver FloatSolverFacts
  PropFloat FloatSample PropFloatSample PropFloatSolver FloatRankFacts FloatAccuracy PropFloatAccuracy.
Import Num Spec.
From Coq Require Import Lra Lia.

Open Scope R_scope.
Local Notation close := FloatAccuracy.close.

Definition float_logp (inv : bool) (d x y z : num) : num := if inv then rinv_logp b64 d x y z else rfit_logp b64 d x y z.
Definition float_log1mp (inv : bool) (d x y z : num) : num := if inv then rinv_log1mp b64 d x y z else rfit_log1mp b64 d x y z.

(** * Logarithms *)
Lemma ln_upper : forall x, 0 < x -> ln x <= x - 1.
Proof. intros x H. pose proof (exp_tangent 0 (ln x)) as E. rewrite exp_0, exp_ln in E by exact H. lra. Qed.
Lemma ln_quot : forall x y, 0 < x -> 0 < y -> ln (x / y) = ln x - ln y.
Proof. intros x y Hx Hy. unfold Rdiv. rewrite ln_mult, ln_Rinv by (try apply Rinv_0_lt_compat; assumption). ring. Qed.
Lemma ln_ratio : forall g v p, 0 < p -> 0 <= g <= 1 / 4 -> Rabs (v - p) <= g * p -> 0 < v /\ Rabs (ln v - ln p) <= 2 * g.
Proof.
  intros g v p Hp Hg H. apply Rabs_def2_le in H. assert (V : 0 < v) by nra. split; [exact V|]. apply Rabs_le.
  assert (A : ln v - ln p <= 2 * g).
  { rewrite <- ln_quot by assumption. assert (V' : 0 < v / p) by (apply Rdiv_lt_0_compat; assumption). pose proof (ln_upper _ V').
    assert (v / p <= 1 + g) by (apply Rmult_le_reg_r with p; [exact Hp|]; unfold Rdiv; rewrite Rmult_assoc, Rinv_l by lra; lra). lra. }
  assert (B : ln p - ln v <= 2 * g).
  { rewrite <- ln_quot by assumption. assert (V' : 0 < p / v) by (apply Rdiv_lt_0_compat; assumption). pose proof (ln_upper _ V').
    assert (p / v <= 1 + 2 * g) by (apply Rmult_le_reg_r with v; [exact V|]; unfold Rdiv; rewrite Rmult_assoc, Rinv_l by lra; nra). lra. }
  lra.
Qed.
Lemma ln_le_0 : forall x, 0 < x <= 1 -> ln x <= 0.
Proof. intros x [H [L | ->]]; [rewrite <- ln_1; left; apply ln_increasing; assumption | rewrite ln_1; lra]. Qed.

(** A computed term and the exact one it stands for. *)
Definition term (e : R) (a : num) (t : R) : Prop := exists v, a = Fin (- v) /\ fine v /\ - two 530 <= t <= 0 /\ Rabs (v + t) <= 8 * uu * (- t) + e.

Lemma log_term : forall g v p, 0 < p <= 1 -> v <= 1 -> 0 <= g <= 1 / 4 -> Rabs (v - p) <= g * p -> - two 530 <= ln p -> term (2 * g + uu * (2 * g) + eta) (rlog b64 (Fin v)) (ln p).
Proof.
  intros g v p Hp Hv Hg H Hl. destruct (ln_ratio g v p (proj1 Hp) Hg H) as [V B]. pose proof (ln_le_0 v (conj V Hv)) as L1. pose proof (ln_le_0 p Hp) as L2. apply Rabs_def2_le in B.
  assert (T : two 530 + 1 <= two 1022). { assert (two 531 <= two 1022) by (apply two_le; lia). assert (1 <= two 530) by (rewrite <- two_0; apply two_le; lia). assert (two 531 = 2 * two 530) by (change 531%Z with (1 + 530)%Z; rewrite two_add, two_1; reflexivity). lra. }
  destruct (rv_spec (- ln v) ltac:(lra)) as (E & D & P & A). exists (rv (- ln v)). split.
  { unfold rlog. cbn [nlog rnd_num]. rewrite Rltb_true by exact V. cbn [rnd_num]. replace (ln v) with (- - ln v) at 1 by ring. rewrite b64_opp, E. reflexivity. }
  split; [split; assumption|]. split; [lra|]. apply Rabs_def2_le in A. pose proof uu_pos. pose proof eta_pos. apply Rabs_le. nra.
Qed.

(** * The terms of the log-likelihood *)
Section Terms.
Variables (inv : bool) (M : R) (w a b c : R).
Hypothesis HM : 1 <= M <= two 30.
Hypothesis Mw : mid w. Hypothesis Ma : mid a. Hypothesis Mb : mid b. Hypothesis Mc : mid c.
Hypothesis HP : w * a * b * c <= M.
Let r := w * a * b * c.
Let q := prob_of_product inv r.

Lemma mid_pos : forall v, mid v -> 0 < v. Proof. intros v [_ [H _]]. pose proof (two_pos (-130)). lra. Qed.
Lemma r_low : two (-520) <= r.
Proof.
  pose proof (two_pos (-130)) as P. pose proof (mid_pos _ Mw). pose proof (mid_pos _ Ma). pose proof (mid_pos _ Mb). destruct Mw as [_ [W _]], Ma as [_ [A _]], Mb as [_ [B _]], Mc as [_ [C _]].
  replace (two (-520)) with (two (-130) * two (-130) * two (-130) * two (-130)) by (rewrite <- !two_add; reflexivity). unfold r.
  repeat (apply Rmult_le_compat; [| | |]); try lra; repeat apply Rmult_le_pos; lra.
Qed.
Lemma r_pos : 0 < r. Proof. pose proof r_low. pose proof (two_pos (-520)). lra. Qed.
Lemma big_30 : two 30 < two 610. Proof. apply two_lt. lia. Qed.
Lemma q_low : two (-521) <= q.
Proof.
  pose proof r_low. pose proof (two_pos (-520)) as P. apply Rle_trans with (prob_of_product inv (two (-520))); [|apply pp_mono; lra].
  assert (H1 : two (-520) <= 1) by (rewrite <- two_0; apply two_le; lia). assert (E : two (-520) = 2 * two (-521)) by (change (-520)%Z with (1 + -521)%Z; rewrite two_add, two_1; reflexivity).
  set (s := two (-520)) in *. assert (L : two (-521) <= s / (1 + s)) by (apply Rmult_le_reg_r with (1 + s); [lra|]; unfold Rdiv; rewrite Rmult_assoc, Rinv_l by lra; nra).
  destruct inv; unfold prob_of_product; [|exact L].
  assert (X : exp (- s) <= / (1 + s)). { rewrite exp_Ropp. apply Rinv_le_contravar; [lra|]. pose proof (exp_tangent 0 s) as T. rewrite exp_0 in T. lra. }
  assert (s / (1 + s) = 1 - / (1 + s)) by (field; lra). lra.
Qed.
Lemma q_one : q < 1.
Proof. pose proof r_pos. unfold q, prob_of_product. destruct inv; [pose proof (exp_pos (- r)); lra|]. apply Rmult_lt_reg_r with (1 + r); [lra|]. unfold Rdiv. rewrite Rmult_assoc, Rinv_l by lra. lra. Qed.

Lemma tmp_finite : exists t, rmul b64 (rmul b64 (rmul b64 (Fin w) (Fin a)) (Fin b)) (Fin c) = Fin t /\ fine t /\ ap (8 * uu) (two (-800)) t r.
Proof.
  pose proof (mid_pos _ Mw) as W. destruct (product_forward w a b c ltac:(lra) (proj1 Mw) Ma Mb Mc) as [(t & E & F & A) | [_ L]].
  - exists t. split; [exact E|]. split; [exact F|]. apply (ap_le (6 * uu) (two (-800))); [pose proof r_pos; lra | pose proof uu_pos; lra | lra | exact A].
  - pose proof big_30. fold r in L. unfold r in L. lra.
Qed.

Definition slack : R := 5 * kk * M.
Lemma kk_30 : kk * M <= / 1024.
Proof. apply Rle_trans with (kk * two 30); [apply Rmult_le_compat_l; [pose proof kk_small; lra | lra]|]. unfold kk. rewrite <- two_add. change (-49 + 30)%Z with (-19)%Z. tw. lra. Qed.
Lemma eta_kk : eta + two (-800) <= uu * kk.
Proof.
  assert (eta <= two (-800)) by (apply two_le; lia). assert (2 * two (-800) = two (-799)) by (change (-799)%Z with (1 + -800)%Z; rewrite two_add, two_1; reflexivity).
  assert (two (-799) <= uu * kk) by (unfold uu, kk; rewrite <- two_add; apply two_le; lia). lra.
Qed.

Lemma computed_p : exists v, float_p inv (Fin w) (Fin a) (Fin b) (Fin c) = Fin v /\ fine v /\ v <= 1 /\ Rabs (v - q) <= 2 * kk * q.
Proof.
  assert (Am : amount (Fin w)) by (right; apply datum_fin; [pose proof (mid_pos _ Mw); lra | exact (proj1 Mw)]).
  assert (Mo : forall v, mid v -> moderate (Fin v)) by (intros v [D H]; right; exists v; auto).
  destruct (p_close inv (Fin w) (Fin a) (Fin b) (Fin c) Am (Mo _ Ma) (Mo _ Mb) (Mo _ Mc)) as (v & E & F & L & A). exists v. split; [exact E|]. split; [exact F|]. split; [exact L|].
  rewrite pos_prob in A by (apply mid_pos; assumption). fold r in A. fold q in A. unfold ap in A. assert (bb <= kk * q); [|lra].
  apply Rle_trans with (kk * two (-521)); [|apply Rmult_le_compat_l; [pose proof kk_small; lra | apply q_low]]. unfold bb, kk. rewrite <- two_add. apply two_le. lia.
Qed.

Lemma logp_term : term slack (float_logp inv (Fin w) (Fin a) (Fin b) (Fin c)) (ln q).
Proof.
  destruct computed_p as (v & E & F & L & A). destruct tmp_finite as (t & Et & Ft & At). pose proof kk_small as K. pose proof q_low as QL. pose proof (two_pos (-521)) as P. pose proof q_one as Q1.
  assert (EQ : float_logp inv (Fin w) (Fin a) (Fin b) (Fin c) = rlog b64 (Fin v)).
  { unfold float_p, rinv_p_ij, rfit_p_ij in E. unfold float_logp, rinv_logp, rfit_logp. rewrite !is0_fin_pos in * by (apply mid_pos; assumption). cbn [orb] in *. cbv zeta in *. rewrite Et in *. cbn [isinf] in *. destruct inv; rewrite E; reflexivity. }
  rewrite EQ. assert (LB : - two 530 <= ln q).
  { pose proof (ln_upper (/ q) ltac:(apply Rinv_0_lt_compat; lra)) as U. rewrite ln_Rinv in U by lra. assert (/ q <= two 521) by (change 521%Z with (- -521)%Z; rewrite two_neg; apply Rinv_le_contravar; lra). assert (two 521 <= two 530) by (apply two_le; lia). lra. }
  assert (K4 : 2 * kk <= 1 / 4) by lra.
  destruct (log_term (2 * kk) v q ltac:(lra) L ltac:(lra) A LB) as (x & Ex & Fx & Tx & Ax). exists x. split; [exact Ex|]. split; [exact Fx|]. split; [exact Tx|].
  eapply Rle_trans; [exact Ax|]. apply Rplus_le_compat_l. unfold slack. pose proof eta_kk. pose proof uu_small. pose proof uu_pos. pose proof (two_pos (-800)). assert (kk <= kk * M) by nra. assert (uu * kk <= / 1024 * kk) by nra. nra.
Qed.

Lemma log1mp_term : term slack (float_log1mp inv (Fin w) (Fin a) (Fin b) (Fin c)) (ln (1 - q)).
Proof.
  destruct computed_p as (v & E & F & L & A). destruct tmp_finite as (t & Et & Ft & At). pose proof kk_small as K. pose proof q_low as QL. pose proof (two_pos (-521)) as P. pose proof q_one as Q1.
  pose proof r_pos as R0. assert (RM : r <= M) by exact HP. assert (T530 : two 30 <= two 530) by (apply two_le; lia). pose proof eta_kk as EK. pose proof uu_pos as U0. pose proof uu_small as U1. pose proof (two_pos (-800)) as P8. pose proof eta_pos as E0.
  assert (KM : kk <= kk * M) by nra. unfold float_log1mp. destruct inv eqn:EI.
  - assert (EQ : ln (1 - q) = - r) by (unfold q, prob_of_product; replace (1 - (1 - exp (- r))) with (exp (- r)) by ring; apply ln_exp).
    rewrite EQ. exists t. split; [|split; [exact Ft|split; [lra|]]].
    + unfold rinv_log1mp. rewrite !is0_fin_pos by (apply mid_pos; assumption). cbn [orb]. cbv zeta. rewrite Et. reflexivity.
    + unfold ap in At. replace (t + - r) with (t - r) by ring. eapply Rle_trans; [exact At|]. unfold slack. assert (uu * kk <= / 1024 * kk) by nra. lra.
  - assert (EQ : 1 - q = / (1 + r)) by (unfold q, prob_of_product; field; lra). assert (Q0 : 0 < 1 - q) by lra.
    assert (LB : - two 530 <= ln (1 - q)). { rewrite EQ, ln_Rinv by lra. pose proof (ln_upper (1 + r) ltac:(lra)). lra. }
    assert (G : Rabs ((1 - v) - (1 - q)) <= 2 * kk * M * (1 - q)).
    { replace ((1 - v) - (1 - q)) with (- (v - q)) by ring. rewrite Rabs_Ropp. eapply Rle_trans; [exact A|]. assert (q = r * (1 - q)) by (rewrite EQ; unfold q, prob_of_product; field; lra). 
      rewrite H at 1. rewrite <- Rmult_assoc. apply Rmult_le_compat_r; [lra|]. apply Rmult_le_compat_l; lra. }
    pose proof kk_30 as K30. assert (GB : 0 <= 2 * kk * M <= 1 / 4) by (split; [repeat apply Rmult_le_pos; lra | lra]).
    destruct (log_term (2 * kk * M) (1 - v) (1 - q) ltac:(lra) ltac:(destruct F; lra) GB G LB) as (x & Ex & Fx & Tx & Ax).
    exists x. split; [|split; [exact Fx|split; [exact Tx|]]].
    + rewrite <- Ex. unfold rfit_log1mp. unfold float_p, rfit_p_ij in E. rewrite !is0_fin_pos in * by (apply mid_pos; assumption). cbn [orb] in *. cbv zeta in *. rewrite Et in *. cbn [isinf] in *.
      destruct (logistic_unit t (proj1 Ft) (proj2 Ft)) as (p & E1 & E2 & _). rewrite E1 in E. injection E as ->. rewrite E2. unfold rlog1p, rlog, nlog1p. cbn [nadd]. reflexivity.
    + eapply Rle_trans; [exact Ax|]. apply Rplus_le_compat_l. unfold slack. assert (uu * (2 * (2 * kk * M)) <= / 1024 * (4 * (kk * M))) by nra. assert (uu * kk <= / 1024 * kk) by nra. lra.
Qed.
End Terms.

(** * The sum *)
Definition logged (e : R) (n : nat) (W : R) (a : num) : Prop := 0 < W /\ exists v, a = Fin (- v) /\ fine v /\ 0 <= - ln W <= INR n * two 530 /\
  Rabs (v + ln W) <= ((1 + 8 * uu) * (1 + uu) ^ n - 1) * - ln W + INR n * e * (1 + uu) ^ n.

Lemma logged_1 : forall e, logged e 0 1 (Fin 0).
Proof.
  intros e. split; [lra|]. exists 0. rewrite ln_1, !Ropp_0. split; [reflexivity|]. split; [split; [lra | apply double_0]|]. cbn [INR pow]. split; [lra|]. rewrite Rplus_0_r, Rabs_R0. lra.
Qed.
Lemma logged_skip : forall e n W a, 0 <= e -> logged e n W a -> logged e (S n) W a.
Proof.
  intros e n W a He (W0 & v & E & F & B & A). split; [exact W0|]. exists v. split; [exact E|]. split; [exact F|]. pose proof (two_pos 530). pose proof (pos_INR n). split; [rewrite S_INR; nra|].
  eapply Rle_trans; [exact A|]. pose proof (pow_ge1 n) as P. pose proof uu_pos. rewrite S_INR. cbn [pow]. set (k := (1 + uu) ^ n) in *.
  apply Rplus_le_compat.
  - apply Rmult_le_compat_r; [lra|]. apply Rplus_le_compat_r. apply Rmult_le_compat_l; [lra|]. nra.
  - apply Rmult_le_compat; [apply Rmult_le_pos; lra | lra | nra | nra].
Qed.
Lemma logged_add : forall e n W a f b, 0 <= e <= 1 -> INR (S n) * uu <= 1 / 8 -> logged e n W a -> 0 < f -> term e b (ln f) -> logged e (S n) (W * f) (radd b64 a b).
Proof.
  intros e n W a f b He Hn (W0 & v & -> & [F0 FD] & B & A) f0 (u & -> & [G0 GD] & T & C). split; [apply Rmult_lt_0_compat; assumption|]. rewrite ln_mult by assumption.
  set (s := - ln W) in *. set (t := - ln f) in *. replace (v + ln W) with (v - s) in A by (unfold s; ring). replace (u + ln f) with (u - t) in C by (unfold t; ring). replace (- (ln W + ln f)) with (s + t) by (unfold s, t; ring).
  assert (T' : 0 <= t <= two 530) by (unfold t; lra). clear T. fold t in C. pose proof (two_pos 530) as P530. pose proof uu_pos as U0. pose proof uu_small as U1. pose proof (pos_INR n) as N0. rewrite S_INR in *.
  pose proof (pow_ge1 n) as P1. assert (P2 : (1 + uu) ^ n <= 2) by (pose proof (pow_uu n (1 / 8) ltac:(lra) ltac:(lra)); lra). cbn [pow]. set (k := (1 + uu) ^ n) in *.
  (* sizes *)
  assert (NB : INR n <= two 50). { apply Rmult_le_reg_r with uu; [exact U0|]. unfold uu at 2. rewrite <- two_add. change (50 + -53)%Z with (-3)%Z. replace (two (-3)) with (1 / 8) by (tw; lra). lra. }
  assert (K3 : (1 + 8 * uu) * k <= 3) by nra. apply Rabs_def2_le in A, C.
  assert (Big : v + u <= two 1022).
  { assert (S1 : s <= two 580) by (replace 580%Z with (50 + 530)%Z by lia; rewrite two_add; apply Rle_trans with (INR n * two 530); [lra | apply Rmult_le_compat_r; lra]).
    assert (INR n * e * k <= two 50 * 2). { apply Rle_trans with (two 50 * 1 * 2); [|lra]. apply Rmult_le_compat; [apply Rmult_le_pos; lra | lra | apply Rmult_le_compat; lra | lra]. }
    assert (v <= 3 * two 580 + two 50 * 2) by nra. assert (u <= 2 * two 530 + 1) by nra. assert (two 50 <= two 580) by (apply two_le; lia). assert (two 530 <= two 580) by (apply two_le; lia). assert (1 <= two 580) by (rewrite <- two_0; apply two_le; lia).
    assert (16 * two 580 <= two 1022) by (replace 16 with (two 4) by (rewrite two_Z by lia; reflexivity); rewrite <- two_add; apply two_le; lia). lra. }
  destruct (rv_add v u FD GD F0 G0 Big) as (E & D & V0 & R1). exists (rv (v + u)). split.
  { unfold radd. cbn [nadd rnd_num]. replace (- v + - u) with (- (v + u)) by ring. rewrite b64_opp, E. reflexivity. }
  split; [split; assumption|]. split; [nra|]. replace (rv (v + u) + (ln W + ln f)) with (rv (v + u) - (s + t)) by (unfold s, t; ring). apply Rabs_def2_le in R1.
  set (A1 := (1 + 8 * uu) * k) in *. assert (A1g : 1 + 8 * uu <= A1) by (unfold A1; nra). set (m := INR n * e * k) in *.
  assert (Sum : Rabs (v + u - (s + t)) <= (A1 - 1) * (s + t) + (m + e)). { apply Rabs_le. assert (8 * uu * t <= (A1 - 1) * t) by (apply Rmult_le_compat_r; lra). lra. }
  apply Rabs_def2_le in Sum. replace ((1 + 8 * uu) * ((1 + uu) * k)) with ((1 + uu) * A1) by (unfold A1; ring). set (x := s + t) in *. assert (X0 : 0 <= x) by (unfold x; lra).
  assert (M1 : (1 + uu) * (m + e) <= (INR n + 1) * e * ((1 + uu) * k)). { unfold m. replace ((INR n + 1) * e * ((1 + uu) * k)) with ((1 + uu) * (INR n * e * k + e * k)) by ring. apply Rmult_le_compat_l; [lra|]. assert (e * 1 <= e * k) by (apply Rmult_le_compat_l; lra). lra. }
  assert (M0 : 0 <= m + e) by (unfold m; assert (0 <= INR n * e * k) by (repeat apply Rmult_le_pos; lra); lra).
  set (mm := m + e) in *. set (y := v + u) in *. assert (Y0 : 0 <= y) by (unfold y; lra).
  clear - R1 Sum M1 X0 A1g U0 U1 M0 Y0. apply Rabs_le. split.
  - assert (H : (1 - uu) * y <= rv y) by lra. assert (y >= (2 - A1) * x - mm) by lra. assert ((1 - uu) * ((2 - A1) * x - mm) <= (1 - uu) * y) by (apply Rmult_le_compat_l; lra).
    assert (0 <= uu * (A1 - 1) * x) by (repeat apply Rmult_le_pos; lra). assert (0 <= uu * mm) by (apply Rmult_le_pos; lra). nra.
  - assert (H : rv y <= (1 + uu) * y) by lra. assert ((1 + uu) * y <= (1 + uu) * (A1 * x + mm)) by (apply Rmult_le_compat_l; lra). nra.
Qed.

Lemma logged_error : forall e n W a, 0 <= e -> INR n * uu <= 1 / 8 -> logged e n W a -> exists v, a = Fin v /\ Rabs (v - ln W) <= two (-51) * (INR n + 4) * Rabs (ln W) + 2 * (INR n * e).
Proof.
  intros e n W a He Hn (W0 & v & -> & _ & B & A). exists (- v). split; [reflexivity|]. replace (- v - ln W) with (- (v + ln W)) by ring. rewrite Rabs_Ropp. rewrite <- (Rabs_Ropp (ln W)), (Rabs_right (- ln W)) by lra.
  eapply Rle_trans; [exact A|]. pose proof (pow_uu n (1 / 8) Hn ltac:(lra)) as P. pose proof (pow_ge1 n) as P1. pose proof (pos_INR n) as N0. pose proof uu_pos as U0. pose proof uu_small as U1.
  assert (E4 : two (-51) = 4 * uu) by (change (-51)%Z with (2 + -53)%Z; rewrite two_add, (two_Z 2) by lia; reflexivity). rewrite E4. set (k := (1 + uu) ^ n) in *. set (h := INR n * uu) in *.
  apply Rplus_le_compat.
  - apply Rmult_le_compat_r; [lra|]. replace (4 * uu * (INR n + 4)) with (4 * h + 16 * uu) by (unfold h; ring). assert (0 <= h) by (unfold h; apply Rmult_le_pos; lra). nra.
  - rewrite (Rmult_comm 2). apply Rmult_le_compat_l; [apply Rmult_le_pos; lra | lra].
Qed.

Section Loop.
Variables (lp l1 : nat -> nat -> num) (q : nat -> nat -> R) (G : list (nat * nat)) (N : nat) (sl : bool) (e : R).
Hypothesis He : 0 <= e <= 1.
Hypothesis HN : INR (N * N) * uu <= 1 / 8.
Hypothesis Hlp : forall i j, (i < N)%nat -> (j < N)%nat -> (q i j = 0 /\ lp i j = NInf) \/ (0 < q i j /\ term e (lp i j) (ln (q i j))).
Hypothesis Hl1 : forall i j, (i < N)%nat -> (j < N)%nat -> 0 < 1 - q i j /\ term e (l1 i j) (ln (1 - q i j)).
Let f i j := if allowed sl i j then (if mem (i, j) G then q i j else 1 - q i j) else 1.
Let body i j := rlik_body b64 lp l1 sl (existsb (Nat.eqb j) (row_of G i)) i j.

Lemma term_fin : forall b t, term e b t -> isinf b = false. Proof. intros b t (v & -> & _). reflexivity. Qed.

Lemma one_pair : forall i j n W a, (i < N)%nat -> (j < N)%nat -> (S n <= N * N)%nat -> logged e n W a ->
  (body i j a = Return NInf /\ f i j = 0) \/ exists a', body i j a = Next a' /\ logged e (S n) (W * f i j) a'.
Proof.
  intros i j n W a Hi Hj Hn L. unfold body, rlik_body, f. change (adm sl i j) with (allowed sl i j). destruct (allowed sl i j); [|right; exists a; split; [reflexivity|]; rewrite Rmult_1_r; apply logged_skip; [lra | exact L]].
  assert (Hu : INR (S n) * uu <= 1 / 8). { eapply Rle_trans; [|exact HN]. apply Rmult_le_compat_r; [left; apply uu_pos | apply le_INR, Hn]. }
  rewrite row_of_mem. cbv zeta. destruct (mem (i, j) G).
  - destruct (Hlp i j Hi Hj) as [[Z ->] | [Q T]]; [left; split; [reflexivity | exact Z]|]. right. rewrite (term_fin _ _ T). eexists. split; [reflexivity|]. apply logged_add; assumption.
  - destruct (Hl1 i j Hi Hj) as [Q T]. right. rewrite (term_fin _ _ T). eexists. split; [reflexivity|]. apply logged_add; assumption.
Qed.
Lemma one_row : forall i n W a m, (i < N)%nat -> (m <= N)%nat -> (n + m <= N * N)%nat -> logged e n W a ->
  (for_flow m (body i) a = Return NInf /\ prodn m (f i) = 0) \/ exists a', for_flow m (body i) a = Next a' /\ logged e (n + m) (W * prodn m (f i)) a'.
Proof.
  intros i n W a m Hi. induction m as [|m IH]; intros Hm Hn L; cbn [for_flow prodn].
  - right. exists a. split; [reflexivity|]. rewrite Rmult_1_r, Nat.add_0_r. exact L.
  - destruct (IH ltac:(lia) ltac:(lia) L) as [[-> ->] | (a' & -> & L')]; [left; split; [reflexivity | ring]|].
    destruct (one_pair i m (n + m)%nat _ a' Hi ltac:(lia) ltac:(lia) L') as [[-> ->] | (a2 & -> & L2)]; [left; split; [reflexivity | ring]|].
    right. exists a2. split; [reflexivity|]. rewrite <- Rmult_assoc, Nat.add_succ_r. exact L2.
Qed.
Lemma all_rows : forall m, (m <= N)%nat ->
  (for_flow m (fun i => for_flow N (body i)) (Fin 0) = Return NInf /\ prodn m (fun i => prodn N (f i)) = 0) \/
  exists a, for_flow m (fun i => for_flow N (body i)) (Fin 0) = Next a /\ logged e (m * N) (prodn m (fun i => prodn N (f i))) a.
Proof.
  induction m as [|m IH]; intros Hm; cbn [for_flow prodn].
  - right. exists (Fin 0). split; [reflexivity | apply logged_1].
  - destruct (IH ltac:(lia)) as [[-> ->] | (a & -> & L)]; [left; split; [reflexivity | ring]|].
    destruct (one_row m (m * N)%nat _ a N ltac:(lia) (le_n _) ltac:(nia) L) as [[-> ->] | (a' & -> & L')]; [left; split; [reflexivity | ring]|].
    right. exists a'. split; [reflexivity|]. cbn [Nat.mul]. rewrite Nat.add_comm. exact L'.
Qed.
Lemma whole : (rlikelihood b64 lp l1 (row_of G) N sl = NInf /\ graph_weight N sl q G = 0) \/
  logged e (N * N) (graph_weight N sl q G) (rlikelihood b64 lp l1 (row_of G) N sl).
Proof.
  unfold rlikelihood, graph_weight. fold f. destruct (all_rows N (le_n _)) as [[E Z] | (a & E & L)]; [left | right]; unfold body in E; rewrite E; [split; [reflexivity | exact Z] | exact L].
Qed.
End Loop.

Lemma lik_logged : forall inv d x y z N sl G M, moderate d ->
  (forall i, (i < N)%nat -> moderate (x i) /\ moderate (y i) /\ forall j, (j < N)%nat -> moderate (z i j)) -> (Z.of_nat (N * N) <= 2 ^ 50)%Z ->
  1 <= M <= two 30 -> (forall i j, (i < N)%nat -> (j < N)%nat -> toR d * toR (x i) * toR (y j) * toR (z i j) <= M) ->
  let W := graph_weight N sl (fun i j => exact_prob inv d (x i) (y j) (z i j)) G in
  let a := rlikelihood b64 (fun i j => float_logp inv d (x i) (y j) (z i j)) (fun i j => float_log1mp inv d (x i) (y j) (z i j)) (row_of G) N sl in
  INR (N * N) * uu <= 1 / 8 /\ 0 <= slack M <= 1 /\ ((a = NInf /\ W = 0) \/ logged (slack M) (N * N) W a).
Proof.
  intros inv d x y z N sl G M Hd Hm HN HM HP wt a. pose proof (count_uu _ _ HN ltac:(lia)) as C.
  assert (E8 : two (50 - 53) = 1 / 8) by (change (50 - 53)%Z with (-3)%Z; tw; lra). rewrite E8 in C. pose proof kk_small as K.
  assert (K30 : kk * M <= / 1024) by (apply kk_30; exact HM). assert (KM0 : 0 <= kk * M) by (apply Rmult_le_pos; lra).
  assert (SL : 0 <= slack M <= 1) by (unfold slack; lra).
  assert (T0 : term (slack M) (Fin 0) (ln (1 - 0))).
  { rewrite Rminus_0_r, ln_1. exists 0. rewrite Ropp_0. split; [reflexivity|]. split; [split; [lra | apply double_0]|]. pose proof (two_pos 530). split; [lra|]. rewrite Rplus_0_r, Rabs_R0. lra. }
  assert (Pair : forall i j, (i < N)%nat -> (j < N)%nat -> let q := exact_prob inv d (x i) (y j) (z i j) in
     ((q = 0 /\ float_logp inv d (x i) (y j) (z i j) = NInf) \/ (0 < q /\ term (slack M) (float_logp inv d (x i) (y j) (z i j)) (ln q))) /\
     0 < 1 - q /\ term (slack M) (float_log1mp inv d (x i) (y j) (z i j)) (ln (1 - q))).
  { intros i j Hi Hj q. unfold q. specialize (HP i j Hi Hj). destruct (Hm i Hi) as (Hx & _ & Hz). destruct (Hm j Hj) as (_ & Hy & _). specialize (Hz j Hj).
    assert (Z0 : is0 d || is0 (x i) || is0 (y j) || is0 (z i j) = true -> ((exact_prob inv d (x i) (y j) (z i j) = 0 /\ float_logp inv d (x i) (y j) (z i j) = NInf) \/
        (0 < exact_prob inv d (x i) (y j) (z i j) /\ term (slack M) (float_logp inv d (x i) (y j) (z i j)) (ln (exact_prob inv d (x i) (y j) (z i j))))) /\
        0 < 1 - exact_prob inv d (x i) (y j) (z i j) /\ term (slack M) (float_log1mp inv d (x i) (y j) (z i j)) (ln (1 - exact_prob inv d (x i) (y j) (z i j)))).
    { intros H. rewrite zero_prob by exact H. assert (H' : is0 (x i) || is0 (y j) || is0 (z i j) || is0 d = true) by (destruct (is0 d), (is0 (x i)), (is0 (y j)), (is0 (z i j)); auto).
      unfold float_logp, float_log1mp, rinv_logp, rfit_logp, rinv_log1mp, rfit_log1mp. rewrite H'. split; [left; split; [reflexivity | destruct inv; reflexivity]|]. split; [lra|]. destruct inv; exact T0. }
    destruct (moderate_cases d Hd) as [E | (w & E & W & Mw)]; [apply Z0; rewrite E, is0_0; reflexivity|].
    destruct (moderate_cases _ Hx) as [E1 | (u & E1 & U & Mu)]; [apply Z0; rewrite E1, is0_0, ?orb_true_r; reflexivity|].
    destruct (moderate_cases _ Hy) as [E2 | (v & E2 & V & Mv)]; [apply Z0; rewrite E2, is0_0, ?orb_true_r; reflexivity|].
    destruct (moderate_cases _ Hz) as [E3 | (c & E3 & C3 & Mc)]; [apply Z0; rewrite E3, is0_0, ?orb_true_r; reflexivity|].
    clear Z0 q. rewrite E, E1, E2, E3 in *. cbn [toR] in HP. rewrite pos_prob by assumption.
    assert (Q1 : prob_of_product inv (w * u * v * c) < 1) by (apply q_one; assumption). assert (Q0 : two (-521) <= prob_of_product inv (w * u * v * c)) by (apply q_low; assumption). pose proof (two_pos (-521)).
    split; [right; split; [lra | apply logp_term; assumption]|]. split; [lra | apply log1mp_term; assumption]. }
  split; [exact C|]. split; [exact SL|].
  exact (whole (fun i j => float_logp inv d (x i) (y j) (z i j)) (fun i j => float_log1mp inv d (x i) (y j) (z i j)) (fun i j => exact_prob inv d (x i) (y j) (z i j)) G N sl (slack M) SL C
    (fun i j Hi Hj => proj1 (Pair i j Hi Hj)) (fun i j Hi Hj => proj2 (Pair i j Hi Hj))).
Qed.

(** For data that are zero or between 2^-130 and 2^130, the log-likelihood of every graph computed in doubles is minus
    infinity if the graph is impossible, and the logarithm of its exact probability with a relative error of 2^-51 and an
    absolute one of 2^-45 M for each pair otherwise, where M is a bound on the products of parameter and data. *)
Theorem C107_likelihood : forall inv d x y z N sl G M l, moderate d ->
  (forall i, (i < N)%nat -> moderate (x i) /\ moderate (y i) /\ forall j, (j < N)%nat -> moderate (z i j)) -> (Z.of_nat (N * N) <= 2 ^ 50)%Z ->
  1 <= M <= two 30 -> (forall i j, (i < N)%nat -> (j < N)%nat -> toR d * toR (x i) * toR (y j) * toR (z i j) <= M) ->
  log_of (graph_weight N sl (fun i j => exact_prob inv d (x i) (y j) (z i j)) G) l ->
  let a := rlikelihood b64 (fun i j => float_logp inv d (x i) (y j) (z i j)) (fun i j => float_log1mp inv d (x i) (y j) (z i j)) (row_of G) N sl in
  match l with
  | Fin L => exists v, a = Fin v /\ Rabs (v - L) <= two (-51) * (INR (N * N) + 4) * Rabs L + two (-45) * INR (N * N) * M
  | _ => a = NInf
  end.
Proof.
  intros inv d x y z N sl G M l Hd Hm HN HM HP HL a. destruct (lik_logged inv d x y z N sl G M Hd Hm HN HM HP) as (C & SL & [[EA EW] | L]).
  - destruct HL as [[H _] | [_ ->]]; [lra | exact EA].
  - destruct HL as [[H ->] | [H _]]; [|destruct L; lra]. destruct (logged_error _ _ _ _ (proj1 SL) C L) as (v & Ev & B). exists v. split; [exact Ev|]. eapply Rle_trans; [exact B|]. apply Rplus_le_compat_l.
    assert (E16 : two (-45) = 16 * kk) by (change (-45)%Z with (4 + -49)%Z; rewrite two_add, (two_Z 4) by lia; reflexivity). rewrite E16. unfold slack. pose proof (pos_INR (N * N)). pose proof kk_small.
    assert (0 <= INR (N * N) * (kk * M)) by (apply Rmult_le_pos; [lra | apply Rmult_le_pos; lra]).
    assert (0 <= INR (N * N) * kk) by (apply Rmult_le_pos; lra). assert (INR (N * N) * kk * 1 <= INR (N * N) * kk * M) by (apply Rmult_le_compat_l; lra). lra.
Qed.
Print Assumptions C107_likelihood.

(** Three vertices of fitness 1, 2 and 4 and two links: the products are at most 8. *)
Example C107_likelihood_case : let x := fun i : nat => Fin (two (Z.of_nat i)) in
  moderate (Fin 1) /\ (forall i, (i < 3)%nat -> moderate (x i) /\ moderate (x i) /\ forall j, (j < 3)%nat -> moderate ((fun _ _ => Fin 1) i j)) /\
  (Z.of_nat (3 * 3) <= 2 ^ 50)%Z /\ 1 <= 16 <= two 30 /\
  (forall i j, (i < 3)%nat -> (j < 3)%nat -> toR (Fin 1) * toR (x i) * toR (x j) * toR (Fin 1) <= 16) /\
  log_of (graph_weight 3 false (fun i j => exact_prob false (Fin 1) (x i) (x j) (Fin 1)) [(0, 1); (2, 1)]%nat)
    (Fin (ln (2 / 3 * (1 - 4 / 5) * ((1 - 2 / 3) * (1 - 8 / 9)) * ((1 - 4 / 5) * (8 / 9))))).
Proof.
  intros x. split; [apply moderate_1|]. split; [exact (proj1 C106_measures_case)|]. split; [lia|].
  assert (T : two 0 = 1 /\ two 1 = 2 /\ two 2 = 4) by (rewrite two_0, two_1, (two_Z 2) by lia; repeat split). destruct T as (T0 & T1 & T2).
  split; [split; [lra | tw; lra]|]. split.
  { intros i j Hi Hj. unfold x. cbn [toR]. assert (B : forall k, (k < 3)%nat -> 0 < two (Z.of_nat k) <= 4) by (intros k Hk; split; [apply two_pos | rewrite <- T2; apply two_le; lia]). pose proof (B i Hi). pose proof (B j Hj). nra. }
  match goal with |- log_of ?w _ => assert (E : w = 2 / 3 * (1 - 4 / 5) * ((1 - 2 / 3) * (1 - 8 / 9)) * ((1 - 4 / 5) * (8 / 9))) end.
  { unfold graph_weight, prodn, allowed, x, mem, pair_eqb. cbn [Nat.eqb negb orb mem existsb pair_eqb fst snd andb Z.of_nat Pos.of_succ_nat Pos.succ]. rewrite ?pos_prob by (try apply two_pos; lra). rewrite T0, T1, T2. unfold prob_of_product. field. }
  rewrite E. left. split; [lra | reflexivity].
Qed.

(** So a comparison of two graphs is right whenever their exact log-probabilities differ by more than the errors. *)
Theorem C107_compare : forall inv d x y z N sl G G' M, moderate d ->
  (forall i, (i < N)%nat -> moderate (x i) /\ moderate (y i) /\ forall j, (j < N)%nat -> moderate (z i j)) -> (Z.of_nat (N * N) <= 2 ^ 50)%Z ->
  1 <= M <= two 30 -> (forall i j, (i < N)%nat -> (j < N)%nat -> toR d * toR (x i) * toR (y j) * toR (z i j) <= M) ->
  let weight := graph_weight N sl (fun i j => exact_prob inv d (x i) (y j) (z i j)) in
  let computed G := rlikelihood b64 (fun i j => float_logp inv d (x i) (y j) (z i j)) (fun i j => float_log1mp inv d (x i) (y j) (z i j)) (row_of G) N sl in
  let error L := two (-51) * (INR (N * N) + 4) * Rabs L + two (-45) * INR (N * N) * M in
  0 < weight G' -> (weight G = 0 \/ 0 < weight G /\ ln (weight G) + error (ln (weight G)) + error (ln (weight G')) < ln (weight G')) ->
  nltb (computed G) (computed G') = true.
Proof.
  intros inv d x y z N sl G G' M Hd Hm HN HM HP weight computed error W' W.
  destruct (C107_likelihood inv d x y z N sl G' M _ Hd Hm HN HM HP (or_introl (conj W' eq_refl))) as (v' & E' & B'). unfold computed. rewrite E'.
  fold weight in B'. destruct W as [W | [W L]].
  - pose proof (C107_likelihood inv d x y z N sl G M NInf Hd Hm HN HM HP (or_intror (conj W eq_refl))) as E. cbn beta iota in E. rewrite E. reflexivity.
  - destruct (C107_likelihood inv d x y z N sl G M _ Hd Hm HN HM HP (or_introl (conj W eq_refl))) as (v & E & B). fold weight in B. rewrite E. cbn [nltb]. apply Rltb_true.
    change (Rabs (v - ln (weight G)) <= error (ln (weight G))) in B. change (Rabs (v' - ln (weight G')) <= error (ln (weight G'))) in B'. apply Rabs_def2_le in B, B'. lra.
Qed.
Print Assumptions C107_compare.

(** Without a bound on the products it is false of the fitness model.  Two vertices of fitness 2^27 are not linked with
    probability above exp(-55), but the computed log-likelihood of the empty graph is minus infinity. *)
Theorem C107_saturated_refuted : exists x L, moderate x /\ moderate (Fin 1) /\
  log_of (graph_weight 2 false (fun i j => exact_prob false (Fin 1) x x (Fin 1)) []) (Fin L) /\ -110 <= L /\
  rlikelihood b64 (fun i j => float_logp false (Fin 1) x x (Fin 1)) (fun i j => float_log1mp false (Fin 1) x x (Fin 1)) (row_of []) 2 false = NInf.
Proof.
  pose proof (two_pos 27) as P. pose proof (two_pos 54) as P54. destruct C96_saturation_case as (D1 & D2 & E).
  exists (Fin (two 27)), (- ln (1 + two 54) + - ln (1 + two 54)). split; [right; exists (two 27); split; [reflexivity|]; split; [apply double_two; lia | split; apply two_le; lia]|]. split; [apply moderate_1|].
  assert (X : 1 * two 27 * two 27 * 1 = two 54) by (rewrite Rmult_1_l, Rmult_1_r, <- two_add; reflexivity).
  assert (Pi : 0 < / (1 + two 54)) by (apply Rinv_0_lt_compat; lra).
  assert (W : graph_weight 2 false (fun i j => exact_prob false (Fin 1) (Fin (two 27)) (Fin (two 27)) (Fin 1)) [] = / (1 + two 54) * / (1 + two 54)).
  { unfold graph_weight, prodn, allowed. cbn [Nat.eqb negb orb mem existsb]. rewrite pos_prob by lra. rewrite X. unfold prob_of_product. field. lra. }
  split; [left; rewrite W; split; [apply Rmult_lt_0_compat; exact Pi | rewrite ln_mult, ln_Rinv by (try exact Pi; lra); reflexivity]|]. split.
  - assert (ln (1 + two 54) <= ln (two 55)).
    { left. apply ln_increasing; [lra|]. change 55%Z with (1 + 54)%Z. rewrite two_add, two_1. assert (1 < two 54) by (rewrite <- two_0; apply two_lt; lia). lra. }
    rewrite two_ln in H. pose proof ln2_lt. lra.
  - assert (S : rfit_log1mp b64 (Fin 1) (Fin (two 27)) (Fin (two 27)) (Fin 1) = NInf).
    { apply (C96_saturation (Fin 1) (Fin (two 27)) (Fin (two 27)) (Fin 1)); try assumption. rewrite E, nleb_fin. apply Rleb_true. lra. }
    unfold rlikelihood. cbn [for_flow]. unfold rlik_body. cbn [adm Nat.eqb negb orb row_of filter map existsb float_log1mp]. rewrite S. reflexivity.
Qed.
Print Assumptions C107_saturated_refuted.

(** The graphs of [C107_likelihood_case]: the graph with the two links above against the graph with the links 0 -> 2 and 2 -> 1. *)
Example C107_compare_case : let x := fun i : nat => Fin (two (Z.of_nat i)) in
  let weight := graph_weight 3 false (fun i j => exact_prob false (Fin 1) (x i) (x j) (Fin 1)) in
  let error L := two (-51) * (INR (3 * 3) + 4) * Rabs L + two (-45) * INR (3 * 3) * 16 in
  0 < weight [(0, 1); (2, 1)]%nat /\ weight [(0, 1); (2, 1)]%nat < weight [(0, 2); (2, 1)]%nat /\ error 7 + error 7 < / 1000000.
Proof.
  cbv zeta. assert (T : two 0 = 1 /\ two 1 = 2 /\ two 2 = 4) by (rewrite two_0, two_1, (two_Z 2) by lia; repeat split). destruct T as (T0 & T1 & T2).
  set (w := graph_weight 3 false _).
  assert (E : w [(0, 1); (2, 1)]%nat = 2 / 3 * (1 / 5) * (1 / 3 * (1 / 9)) * (1 / 5 * (8 / 9)) /\ w [(0, 2); (2, 1)]%nat = 1 / 3 * (4 / 5) * (1 / 3 * (1 / 9)) * (1 / 5 * (8 / 9))).
  { unfold w, graph_weight, prodn, allowed, mem, pair_eqb. cbn [Nat.eqb negb orb mem existsb pair_eqb fst snd andb Z.of_nat Pos.of_succ_nat Pos.succ]. rewrite ?pos_prob by (try apply two_pos; lra). rewrite T0, T1, T2. unfold prob_of_product. split; field. }
  destruct E as [E1 E2]. rewrite E1, E2. split; [lra | split; [lra|]].
  rewrite Rabs_right by lra. cbn [Nat.mul Nat.add INR]. tw. lra.
Qed.
