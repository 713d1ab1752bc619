(** Facts about the accuracy of the kernels and sums in double precision. *)
From Verif Require Import Base Num Spec Kernels Prob Ensemble Conditional Float FloatFacts FloatSolver FloatSolverFacts PropFloat PropFloatSolver
  FloatRankFacts.
Import Num Spec.
From Coq Require Import Lra Lia.

Open Scope R_scope.

(** * Probabilities as functions of the product *)
Definition prob_of_product (inv : bool) (t : R) : R := if inv then 1 - exp (- t) else t / (1 + t).

Lemma logistic_mono : forall s t, 0 <= s -> s <= t -> s / (1 + s) <= t / (1 + t).
Proof.
  intros s t Hs H. apply Rmult_le_reg_r with ((1 + s) * (1 + t)); [nra|].
  replace (s / (1 + s) * ((1 + s) * (1 + t))) with (s * (1 + t)) by (field; lra).
  replace (t / (1 + t) * ((1 + s) * (1 + t))) with (t * (1 + s)) by (field; lra). lra.
Qed.
Lemma exp_neg_mono : forall s t, s <= t -> exp (- t) <= exp (- s).
Proof. intros s t [H | ->]; [left; apply exp_increasing; lra | right; reflexivity]. Qed.

Lemma pp_0 : forall inv, prob_of_product inv 0 = 0.
Proof. intros []; unfold prob_of_product; [rewrite Ropp_0, exp_0; lra | field]. Qed.
Lemma pp_mono : forall inv s t, 0 <= s -> s <= t -> prob_of_product inv s <= prob_of_product inv t.
Proof. intros [] s t Hs H; unfold prob_of_product; [pose proof (exp_neg_mono s t H); lra | apply logistic_mono; assumption]. Qed.
Lemma pp_range : forall inv t, 0 <= t -> 0 <= prob_of_product inv t <= 1.
Proof.
  intros inv t Ht. split; [rewrite <- (pp_0 inv); apply pp_mono; lra|]. destruct inv; unfold prob_of_product; [pose proof (exp_pos (- t)); lra|].
  apply Rmult_le_reg_r with (1 + t); [lra|]. unfold Rdiv. rewrite Rmult_assoc, Rinv_l by lra. lra.
Qed.
Lemma exp_tangent : forall a b, exp a * (1 + (b - a)) <= exp b.
Proof.
  intros a b. replace (exp b) with (exp a * exp (b - a)) by (rewrite <- exp_plus; f_equal; ring).
  apply Rmult_le_compat_l; [left; apply exp_pos|]. destruct (Req_dec (b - a) 0) as [-> | N]; [rewrite exp_0; lra|]. left. apply exp_ineq1. exact N.
Qed.
(** The slope is at most 1, and at most the ratio of value and argument. *)
Lemma pp_lipschitz : forall inv s b, 0 <= s -> 0 <= b -> prob_of_product inv (s + b) <= prob_of_product inv s + b.
Proof.
  intros inv s b Hs Hb. destruct inv; unfold prob_of_product.
  - pose proof (exp_tangent (- s) (- (s + b))) as H. replace (- (s + b) - - s) with (- b) in H by ring.
    assert (exp (- s) <= 1) by (pose proof (exp_neg_mono 0 s Hs) as E0; rewrite Ropp_0, exp_0 in E0; exact E0). pose proof (exp_pos (- s)). nra.
  - assert (E : (s + b) / (1 + (s + b)) - s / (1 + s) = b / ((1 + (s + b)) * (1 + s))) by (field; split; lra).
    assert (b / ((1 + (s + b)) * (1 + s)) <= b); [|lra]. unfold Rdiv. rewrite <- (Rmult_1_r b) at 3. apply Rmult_le_compat_l; [exact Hb|].
    rewrite <- Rinv_1. apply Rinv_le_contravar; [lra | nra].
Qed.
Lemma pp_grow : forall inv t k, 0 <= t -> 0 <= k -> prob_of_product inv ((1 + k) * t) <= (1 + k) * prob_of_product inv t.
Proof.
  intros inv t k Ht Hk. destruct inv; unfold prob_of_product.
  - pose proof (exp_tangent (- t) (- ((1 + k) * t))) as H. replace (- ((1 + k) * t) - - t) with (- (k * t)) in H by ring.
    pose proof (exp_tangent (- t) 0) as H0. rewrite exp_0 in H0. replace (0 - - t) with t in H0 by ring. nra.
  - assert (0 <= k * t) by nra. unfold Rdiv. rewrite Rmult_assoc. rewrite <- Rmult_assoc, (Rmult_assoc (1 + k)). apply Rmult_le_compat_l; [lra|].
    apply Rmult_le_compat_l; [exact Ht|]. apply Rinv_le_contravar; lra.
Qed.
Lemma pp_shrink : forall inv t k, 0 <= t -> 0 <= k <= 1 -> (1 - k) * prob_of_product inv t <= prob_of_product inv ((1 - k) * t).
Proof.
  intros inv t k Ht Hk. destruct inv; unfold prob_of_product.
  - pose proof (exp_tangent (- ((1 - k) * t)) (- t)) as H. replace (- t - - ((1 - k) * t)) with (- (k * t)) in H by ring.
    pose proof (exp_tangent (- ((1 - k) * t)) 0) as H0. rewrite exp_0 in H0. replace (0 - - ((1 - k) * t)) with ((1 - k) * t) in H0 by ring.
    set (e := exp (- ((1 - k) * t))) in *. nra.
  - unfold Rdiv. rewrite <- (Rmult_assoc (1 - k)). assert (0 <= k * t) by nra. apply Rmult_le_compat_l; [nra|]. apply Rinv_le_contravar; nra.
Qed.

Lemma pp_ap : forall inv k b s t, 0 <= k <= 1 -> 0 <= b -> 0 <= s -> 0 <= t -> ap k b s t -> ap k b (prob_of_product inv s) (prob_of_product inv t).
Proof.
  intros inv k b s t Hk Hb Hs Ht H. unfold ap in *. apply Rabs_def2_le in H. apply Rabs_le. split.
  - pose proof (pp_shrink inv t k Ht Hk) as S1. assert (prob_of_product inv ((1 - k) * t) <= prob_of_product inv s + b); [|lra].
    eapply Rle_trans; [apply (pp_mono inv _ (s + b)); nra|]. apply pp_lipschitz; assumption.
  - pose proof (pp_grow inv t k Ht ltac:(lra)) as S1. assert (prob_of_product inv s <= prob_of_product inv ((1 + k) * t) + b); [|lra].
    eapply Rle_trans; [apply (pp_mono inv s ((1 + k) * t + b)); nra|]. apply pp_lipschitz; [nra | assumption].
Qed.

(** * Products *)
(** Very large numbers, or infinity. *)
Definition huge (e : Z) (a : num) : Prop := a = PInf \/ exists v, a = Fin v /\ double v /\ two e <= v.

Lemma round_case : forall r, 0 <= r -> (b64 r = Fin (rv r) /\ fine (rv r) /\ rv r <= two 1022 /\ ap uu eta (rv r) r) \/ (two 1022 <= r /\ huge 1022 (b64 r)).
Proof.
  intros r Hr. destruct (Rle_or_lt r (two 1022)) as [L | L].
  - left. destruct (rv_spec r (conj Hr L)) as (E & D & P & B). split; [exact E|]. split; [split; assumption|]. split; [|exact B].
    destruct (b64_between 0 (two 1022) r double_0 (double_two 1022 ltac:(lia)) (conj Hr L)) as (v & E' & Hv & _). rewrite E in E'. injection E' as ->. lra.
  - right. split; [lra|]. assert (M : le_num (b64 (two 1022)) (b64 r)) by (apply b64_mono; lra).
    rewrite (b64_fixed (two 1022)) in M by (apply double_two; lia). destruct (b64_nonneg r Hr) as [E | (v & E & _ & D)]; rewrite E in *; [left; reflexivity|].
    right. exists v. auto.
Qed.

Lemma huge_mul : forall e f a w, huge e a -> two f <= w -> (-1000 <= e + f <= 1000)%Z -> (e <= 1022)%Z -> (f <= 1000)%Z -> (0 <= e)%Z -> huge (e + f) (rmul b64 a (Fin w)).
Proof.
  intros e f a w H Hw Hef He Hf Hz. pose proof (two_pos f). destruct H as [-> | (v & -> & D & Hv)].
  - left. unfold rmul. cbn. unfold inf_times. rewrite ?Rltb_true, ?Reqb_false by lra. reflexivity.
  - unfold rmul. cbn [nmul rnd_num]. assert (P : two (e + f) <= v * w) by (rewrite two_add; pose proof (two_pos e); apply Rmult_le_compat; lra).
    assert (M : le_num (b64 (two (e + f))) (b64 (v * w))) by (apply b64_mono; exact P). rewrite (b64_fixed (two (e + f))) in M by (apply double_two; lia).
    pose proof (two_pos (e + f)). destruct (b64_nonneg (v * w) ltac:(lra)) as [E | (u & E & _ & Du)]; rewrite E in *; [left; reflexivity|]. right. exists u. auto.
Qed.

Lemma huge_le : forall e f a, (f <= e)%Z -> huge e a -> huge f a.
Proof. intros e f a H [-> | (v & -> & D & Hv)]; [left; reflexivity | right]. exists v. pose proof (two_le f e H). repeat split; auto; lra. Qed.

(** [a] approximates [r], or both are very large. *)
Definition tracked (e : Z) (k b : R) (a : num) (r : R) : Prop :=
  (exists v, a = Fin v /\ fine v /\ ap k b v r) \/ (huge e a /\ two e <= r).

Lemma tracked_mul : forall e k b a r w, tracked e k b a r -> 0 <= r -> two (-130) <= w <= two 130 -> (130 <= e <= 1000)%Z -> 0 <= k <= 1 -> 0 <= b <= 1 ->
  tracked (e - 130) (k + 2 * uu) (two 131 * b + eta) (rmul b64 a (Fin w)) (r * w).
Proof.
  intros e k b a r w H Hr Hw He Hk Hb. pose proof (two_pos (-130)). pose proof uu_pos. pose proof uu_small. destruct H as [(v & -> & [V0 Dv] & A) | [A B]].
  - assert (A' : ap k (two 130 * b) (v * w) (r * w)) by (apply ap_scale; [lra | lra | exact A]). unfold rmul. cbn [nmul rnd_num].
    assert (T : two 131 = 2 * two 130) by (change 131%Z with (1 + 130)%Z; rewrite two_add, two_1; reflexivity). pose proof (two_pos 130).
    destruct (round_case (v * w) ltac:(apply Rmult_le_pos; lra)) as [(E & F & _ & Q) | [L U]].
    + left. exists (rv (v * w)). split; [exact E|]. split; [exact F|]. rewrite T. replace (2 * two 130 * b) with (2 * (two 130 * b)) by ring.
      apply (ap_trans k (two 130 * b) uu eta _ (v * w) (r * w)); auto; try lra; apply Rmult_le_pos; lra.
    + right. split; [apply (huge_le 1022); [lia | exact U]|]. unfold ap in A'. apply Rabs_def2_le in A'.
      assert (two 1022 = 2 * (2 * two 1020)) by (change 1022%Z with (1 + (1 + 1020))%Z; rewrite !two_add, two_1; reflexivity).
      assert (two (e - 130) <= two 1020) by (apply two_le; lia). assert (two 131 <= two 1020) by (apply two_le; lia).
      assert (two 130 * b <= two 130 * 1) by (apply Rmult_le_compat_l; lra). assert (0 <= r * w) by (apply Rmult_le_pos; lra).
      assert (k * (r * w) <= 1 * (r * w)) by (apply Rmult_le_compat_r; lra). lra.
  - right. split; [apply (huge_mul e (-130)); [exact A | lra | lia | lia | lia | lia]|]. change (e - 130)%Z with (e + -130)%Z. rewrite two_add.
    pose proof (two_pos e). apply Rmult_le_compat; lra.
Qed.

Lemma eta_two : forall c e, (e = c - 1074)%Z -> two c * eta = two e.
Proof. intros c e ->. unfold eta. rewrite <- two_add. f_equal. Qed.

Definition mid (w : R) : Prop := double w /\ two (-130) <= w <= two 130.

Lemma product_forward : forall d x y z, 0 <= d -> double d -> mid x -> mid y -> mid z ->
  tracked 610 (6 * uu) (two (-800)) (rmul b64 (rmul b64 (rmul b64 (Fin d) (Fin x)) (Fin y)) (Fin z)) (d * x * y * z).
Proof.
  intros d x y z Hd Dd [Dx Hx] [Dy Hy] [Dz Hz]. pose proof (two_pos (-130)). pose proof uu_pos. pose proof uu_small. pose proof eta_pos.
  assert (T0 : tracked 1000 0 0 (Fin d) d). { left. exists d. split; [reflexivity|]. split; [split; assumption|]. unfold ap. rewrite Rminus_diag_eq by reflexivity. rewrite Rabs_R0. lra. }
  assert (e1 : eta <= two (-900)) by (apply two_le; lia). assert (o900 : two (-900) <= two (-1)) by (apply two_le; lia). rewrite two_m1 in o900.
  pose proof (tracked_mul 1000 0 0 _ d x T0 Hd Hx ltac:(lia) ltac:(lra) ltac:(lra)) as T1. change (1000 - 130)%Z with 870%Z in T1. rewrite Rmult_0_r, !Rplus_0_l in T1.
  assert (R1 : 0 <= d * x) by (apply Rmult_le_pos; lra).
  pose proof (tracked_mul 870 (2 * uu) eta _ (d * x) y T1 R1 Hy ltac:(lia) ltac:(lra) ltac:(lra)) as T2. change (870 - 130)%Z with 740%Z in T2.
  assert (e2 : two 131 * eta + eta <= two (-940)).
  { rewrite (eta_two 131 (-943)) by lia. assert (eta <= two (-943)) by (apply two_le; lia). assert (two (-942) = 2 * two (-943)) by (change (-942)%Z with (1 + -943)%Z; rewrite two_add, two_1; reflexivity).
    assert (two (-942) <= two (-940)) by (apply two_le; lia). lra. }
  assert (e2' : 0 <= two 131 * eta + eta) by (pose proof (two_pos 131); nra). assert (two (-940) <= two (-900)) by (apply two_le; lia).
  assert (R2 : 0 <= d * x * y) by (apply Rmult_le_pos; lra).
  pose proof (tracked_mul 740 (2 * uu + 2 * uu) _ _ (d * x * y) z T2 R2 Hz ltac:(lia) ltac:(lra) ltac:(lra)) as T3. change (740 - 130)%Z with 610%Z in T3.
  destruct T3 as [(v & E & F & A) | T3]; [left | right; exact T3]. exists v. split; [exact E|]. split; [exact F|]. eapply ap_le; [| | | exact A].
  - apply Rmult_le_pos; lra.
  - lra.
  - assert (two 131 * (two 131 * eta + eta) <= two 131 * two (-940)) by (apply Rmult_le_compat_l; [left; apply two_pos | exact e2]).
    rewrite <- two_add in *. change (131 + -940)%Z with (-809)%Z in *. assert (eta <= two (-809)) by (apply two_le; lia).
    assert (two (-808) = 2 * two (-809)) by (change (-808)%Z with (1 + -809)%Z; rewrite two_add, two_1; reflexivity). assert (two (-808) <= two (-800)) by (apply two_le; lia). lra.
Qed.

Lemma product_backward : forall d x y z, 0 < d -> double d -> mid x -> mid y -> mid z ->
  exists t, rmul b64 (rmul b64 (Fin x) (Fin y)) (Fin z) = Fin t /\ double t /\ two (-390) <= t <= two 390 /\
  tracked 610 (8 * uu) (two (-800)) (rmul b64 (Fin d) (Fin t)) (d * x * y * z).
Proof.
  intros d x y z Hd Dd Mx My Mz. pose proof Mx as [Dx Hx]. pose proof My as [Dy Hy]. pose proof Mz as [Dz Hz]. pose proof (two_pos (-130)). pose proof uu_pos. pose proof uu_small. pose proof eta_pos.
  destruct (tmp_between (Fin x) (Fin y) (Fin z)) as (t & E & Dt & Ht); try (right; eexists; split; [reflexivity | split; assumption]).
  { rewrite !is0_fin_pos by lra. reflexivity. }
  exists t. split; [exact E|]. split; [exact Dt|]. split; [exact Ht|].
  assert (T0 : tracked 1000 0 0 (Fin x) x). { left. exists x. split; [reflexivity|]. split; [split; [lra | assumption]|]. unfold ap. rewrite Rminus_diag_eq by reflexivity. rewrite Rabs_R0. lra. }
  assert (e1 : eta <= two (-900)) by (apply two_le; lia). assert (o900 : two (-900) <= two (-1)) by (apply two_le; lia). rewrite two_m1 in o900.
  pose proof (tracked_mul 1000 0 0 _ x y T0 ltac:(lra) Hy ltac:(lia) ltac:(lra) ltac:(lra)) as T1. change (1000 - 130)%Z with 870%Z in T1. rewrite Rmult_0_r, !Rplus_0_l in T1.
  assert (R1 : 0 <= x * y) by (apply Rmult_le_pos; lra).
  pose proof (tracked_mul 870 (2 * uu) eta _ (x * y) z T1 R1 Hz ltac:(lia) ltac:(lra) ltac:(lra)) as T2. change (870 - 130)%Z with 740%Z in T2. rewrite E in T2.
  assert (XYZ : two (-390) <= x * y * z).
  { change (-390)%Z with (-130 + -130 + -130)%Z. rewrite !two_add. apply Rmult_le_compat; [nra | lra | apply Rmult_le_compat; lra | lra]. }
  pose proof (two_pos (-390)) as P390.
  assert (A : ap (5 * uu) 0 t (x * y * z)).
  { destruct T2 as [(v & Ev & _ & A) | [[C | (v & Ev & _ & Hv)] _]]; [| discriminate |].
    - injection Ev as <-. unfold ap in *. assert (two 131 * eta + eta <= uu * (x * y * z)); [|lra].
      apply Rle_trans with (uu * two (-390)); [|apply Rmult_le_compat_l; lra]. unfold uu. rewrite <- two_add. change (-53 + -390)%Z with (-443)%Z.
      rewrite (eta_two 131 (-943)) by lia. assert (eta <= two (-943)) by (apply two_le; lia). assert (two (-942) = 2 * two (-943)) by (change (-942)%Z with (1 + -943)%Z; rewrite two_add, two_1; reflexivity).
      assert (two (-942) <= two (-443)) by (apply two_le; lia). lra.
    - exfalso. injection Ev as <-. assert (two 390 < two 740) by (apply two_lt; lia). lra. }
  assert (A' : ap (5 * uu) 0 (d * t) (d * x * y * z)).
  { unfold ap in *. replace (d * t - d * x * y * z) with (d * (t - x * y * z)) by ring. rewrite Rabs_mult, (Rabs_right d) by lra.
    apply Rmult_le_compat_l with (r := d) in A; [|lra]. lra. }
  assert (R0 : 0 <= d * x * y * z). { replace (d * x * y * z) with (d * (x * y * z)) by ring. apply Rmult_le_pos; lra. }
  unfold rmul. cbn [nmul rnd_num]. destruct (round_case (d * t) ltac:(apply Rmult_le_pos; lra)) as [(Er & F & _ & Q) | [L U]].
  - left. exists (rv (d * t)). split; [exact Er|]. split; [exact F|]. pose proof (ap_trans (5 * uu) 0 uu eta _ (d * t) (d * x * y * z) ltac:(lra) ltac:(lra) ltac:(lra) R0 A' Q) as B.
    eapply ap_le; [exact R0 | | | exact B]; [lra|]. assert (two (-900) <= two (-800)) by (apply two_le; lia). lra.
  - right. split; [apply (huge_le 1022); [lia | exact U]|]. unfold ap in A'. apply Rabs_def2_le in A'.
    assert (two 1022 = 2 * two 1021) by (change 1022%Z with (1 + 1021)%Z; rewrite !two_add, two_1; reflexivity). assert (two 610 <= two 1021) by (apply two_le; lia).
    assert (5 * uu * (d * x * y * z) <= 1 * (d * x * y * z)) by (apply Rmult_le_compat_r; lra). lra.
Qed.

(** * Kernels *)
Definition kk : R := two (-49).
Definition bb : R := two (-790).
Lemma kk_uu : kk = 16 * uu.
Proof. unfold kk, uu. change (-49)%Z with (4 + -53)%Z. rewrite two_add, (two_Z 4) by lia. change (2 ^ 4)%Z with 16%Z. reflexivity. Qed.
Lemma kk_small : 0 < kk <= / 64. Proof. pose proof uu_pos. pose proof uu_small. rewrite kk_uu. lra. Qed.
Lemma bb_pos : 0 < bb. Proof. apply two_pos. Qed.
Lemma bb_parts : eta + 2 * two (-800) <= bb /\ bb <= uu.
Proof.
  unfold eta, bb, uu. split; [|apply two_le; lia]. assert (two (-1074) <= two (-800)) by (apply two_le; lia).
  assert (two (-790) = two 10 * two (-800)) by (rewrite <- two_add; reflexivity). assert (4 <= two 10) by (rewrite two_Z by lia; apply IZR_le; lia). pose proof (two_pos (-800)). nra.
Qed.

(** A computed probability: a number of the format in [0,1] with relative error [k] and absolute error [b]. *)
Definition close (k b : R) (a : num) (p : R) : Prop := exists v, a = Fin v /\ fine v /\ v <= 1 /\ ap k b v p.

Lemma large_prob : forall inv t, two 53 <= t -> 1 - uu <= prob_of_product inv t <= 1.
Proof.
  intros inv t H. pose proof (two_pos 53). assert (P : / (1 + t) <= uu).
  { unfold uu. change (-53)%Z with (- (53))%Z. rewrite two_neg. apply Rinv_le_contravar; lra. }
  split; [|apply pp_range; lra]. destruct inv; unfold prob_of_product.
  - assert (exp (- t) <= / (1 + t)); [|lra]. pose proof (exp_tangent 0 t) as E. rewrite exp_0 in E. rewrite exp_Ropp. apply Rinv_le_contravar; lra.
  - replace (t / (1 + t)) with (1 - / (1 + t)) by (field; lra). lra.
Qed.

Lemma close_one : forall inv t, two 53 <= t -> close kk bb (Fin 1) (prob_of_product inv t).
Proof.
  intros inv t H. exists 1. split; [reflexivity|]. split; [split; [lra | apply double_1]|]. split; [lra|]. pose proof (large_prob inv t H). pose proof uu_pos. pose proof uu_small. pose proof bb_pos.
  unfold ap. rewrite kk_uu. apply Rabs_le. nra.
Qed.
Lemma two_53_half : two 54 = 2 * two 53. Proof. change 54%Z with (1 + 53)%Z. rewrite two_add, two_1. reflexivity. Qed.
Lemma approx_large : forall k b v r, 0 <= k <= / 64 -> 0 <= b <= 1 -> 0 <= r -> two 54 <= v -> ap k b v r -> two 53 <= r.
Proof.
  intros k b v r Hk Hb Hr Hv H. unfold ap in H. apply Rabs_def2_le in H. rewrite two_53_half in Hv. assert (k * r <= / 64 * r) by (apply Rmult_le_compat_r; lra).
  assert (1024 <= two 53) by (apply Rle_trans with (two 10); [rewrite two_Z by lia; apply IZR_le; lia | apply two_le; lia]). lra.
Qed.

Lemma small_parts : 0 <= 8 * uu <= / 64 /\ 0 <= two (-800) <= 1.
Proof.
  pose proof uu_pos. pose proof uu_small. pose proof (two_pos (-800)). assert (two (-800) <= two 0) by (apply two_le; lia). rewrite two_0 in *. lra.
Qed.

Lemma logistic_close : forall a r, 0 <= r -> tracked 610 (8 * uu) (two (-800)) a r ->
  close kk bb (if isinf a then Fin 1 else rdiv b64 a (radd b64 (Fin 1) a)) (prob_of_product false r).
Proof.
  intros a r Hr H. destruct small_parts as [SK SB]. pose proof bb_parts as [BP _]. pose proof uu_pos. pose proof uu_small. pose proof eta_pos.
  assert (Sat : forall v, double v -> two 54 <= v -> two 53 <= r -> close kk bb (rdiv b64 (Fin v) (radd b64 (Fin 1) (Fin v))) (prob_of_product false r)).
  { intros v D V R. pose proof (two_pos 54). assert (E : radd b64 (Fin 1) (Fin v) = Fin v) by (unfold radd; cbn; apply add_one_large; assumption). rewrite E.
    rewrite rdiv_fin by lra. replace (v / v) with 1 by (field; lra). rewrite (b64_fixed 1 double_1). apply close_one, R. }
  destruct H as [(v & -> & [V0 Dv] & A) | [[-> | (v & -> & Dv & Hv)] R]]; cbn [isinf].
  - destruct (Rle_or_lt (two 54) v) as [L | L]; [apply Sat; auto; apply (approx_large (8 * uu) (two (-800)) v r); auto|].
    assert (T54 : two 54 + 1 <= two 1022). { assert (two 55 <= two 1022) by (apply two_le; lia). assert (two 55 = 2 * two 54) by (change 55%Z with (1 + 54)%Z; rewrite two_add, two_1; reflexivity). pose proof (two_ge1 54 ltac:(lia)). lra. }
    destruct (rv_add 1 v double_1 Dv ltac:(lra) V0 ltac:(lra)) as (E & D & _ & Er). unfold radd. cbn [nadd rnd_num]. rewrite E. set (q := rv (1 + v)) in *. apply Rabs_def2_le in Er.
    assert (Q : 0 < q) by nra. destruct (logistic_unit v V0 Dv) as (p & Ep & _ & Hp & Dp). unfold radd in Ep. cbn [nadd rnd_num] in Ep. rewrite E in Ep. fold q in Ep. rewrite Ep.
    exists p. split; [reflexivity|]. split; [split; [lra | exact Dp]|]. split; [lra|]. rewrite rdiv_fin in Ep by lra.
    assert (B : ap (2 * uu) 0 (v / q) (prob_of_product false v)).
    { unfold ap, prob_of_product. pose proof (pp_range false v V0) as PR. unfold prob_of_product in PR. replace (v / q - v / (1 + v)) with (v / (1 + v) * ((1 + v - q) / q)) by (field; split; lra).
      rewrite Rabs_mult, (Rabs_right (v / (1 + v))) by lra. rewrite Rplus_0_r, Rmult_comm. apply Rmult_le_compat_r; [lra|].
      unfold Rdiv. rewrite Rabs_mult, (Rabs_right (/ q)) by (left; apply Rinv_0_lt_compat, Q). apply Rmult_le_reg_r with q; [exact Q|]. rewrite Rmult_assoc, Rinv_l, Rmult_1_r by lra. apply Rabs_le. nra. }
    assert (V2 : 0 <= v / q <= 2).
    { split; [apply Rmult_le_pos; [lra | left; apply Rinv_0_lt_compat, Q]|]. pose proof (pp_range false v V0). unfold ap in B. apply Rabs_def2_le in B. nra. }
    assert (two 1 <= two 1022) by (apply two_le; lia). rewrite two_1 in *.
    pose proof (ap_round (2 * uu) 0 (v / q) (prob_of_product false v) ltac:(lra) ltac:(lra) ltac:(apply pp_range, V0) ltac:(lra) B) as B2.
    assert (Rp : rv (v / q) = p) by (unfold rv; rewrite Ep; reflexivity). rewrite Rp in B2.
    pose proof (pp_ap false (8 * uu) (two (-800)) v r ltac:(lra) ltac:(lra) V0 Hr A) as B3.
    pose proof (ap_trans (8 * uu) (two (-800)) (2 * uu + 2 * uu) (2 * 0 + eta) p _ _ ltac:(lra) ltac:(lra) ltac:(lra) ltac:(apply pp_range, Hr) B3 B2) as B4.
    eapply ap_le; [apply pp_range, Hr | | | exact B4]; [rewrite kk_uu; lra | lra].
  - apply close_one. assert (two 53 <= two 610) by (apply two_le; lia). lra.
  - apply Sat; auto; [assert (two 54 <= two 610) by (apply two_le; lia); lra | assert (two 53 <= two 610) by (apply two_le; lia); lra].
Qed.

Lemma exponential_close : forall a r, 0 <= r -> tracked 610 (8 * uu) (two (-800)) a r ->
  close kk bb (if isinf a then Fin 1 else nopp (rexpm1 b64 (nopp a))) (prob_of_product true r).
Proof.
  intros a r Hr H. destruct small_parts as [SK SB]. pose proof bb_parts as [BP BU]. pose proof uu_pos. pose proof uu_small. pose proof eta_pos.
  assert (G : forall v, 0 <= v -> exists p, nopp (rexpm1 b64 (nopp (Fin v))) = Fin p /\ fine p /\ p <= 1 /\ ap uu eta p (prob_of_product true v)).
  { intros v V0. destruct (exponential_unit v V0) as (p & E & Eb & Hp & Dp). exists p. split; [exact E|]. split; [split; [lra | exact Dp]|]. split; [lra|].
    pose proof (pp_range true v V0) as PR. assert (two 0 <= two 1022) by (apply two_le; lia). rewrite two_0 in *. destruct (rv_spec (1 - exp (- v)) ltac:(unfold prob_of_product in PR; lra)) as (E2 & _ & _ & B).
    rewrite Eb in E2. injection E2 as E2. rewrite <- E2 in B. exact B. }
  destruct H as [(v & -> & [V0 Dv] & A) | [[-> | (v & -> & Dv & Hv)] R]]; cbn [isinf].
  - destruct (G v V0) as (p & E & F & P1 & B). exists p. split; [exact E|]. split; [exact F|]. split; [exact P1|].
    pose proof (pp_ap true (8 * uu) (two (-800)) v r ltac:(lra) ltac:(lra) V0 Hr A) as B3.
    pose proof (ap_trans (8 * uu) (two (-800)) uu eta p _ _ ltac:(lra) ltac:(lra) ltac:(lra) ltac:(apply pp_range, Hr) B3 B) as B4.
    eapply ap_le; [apply pp_range, Hr | | | exact B4]; [rewrite kk_uu; lra | lra].
  - apply close_one. assert (two 53 <= two 610) by (apply two_le; lia). lra.
  - assert (two 53 <= two 610) by (apply two_le; lia). pose proof (two_pos 610).
    destruct (G v ltac:(lra)) as (p & E & F & P1 & B). exists p. split; [exact E|]. split; [exact F|]. split; [exact P1|].
    pose proof (large_prob true v ltac:(lra)). pose proof (large_prob true r ltac:(lra)). unfold ap in *. apply Rabs_def2_le in B. pose proof bb_pos. apply Rabs_le. rewrite kk_uu.
    assert (eta <= uu) by (pose proof (two_pos (-800)); lra). nra.
Qed.

(** * Sums *)

(** A computed sum of at most [c] probabilities. *)
Definition summed (k b : R) (c : nat) (s : R) (a : num) : Prop := exists v, a = Fin v /\ fine v /\ 0 <= s <= INR c /\
  Rabs (v - s) <= ((1 + k) * (1 + uu) ^ c - 1) * s + INR c * b * (1 + uu) ^ c.

Lemma pow_ge1 : forall c, 1 <= (1 + uu) ^ c. Proof. intros c. apply pow_R1_Rle. pose proof uu_pos. lra. Qed.

Lemma summed_0 : forall k b, summed k b 0 0 (Fin 0).
Proof. intros k b. exists 0. split; [reflexivity|]. split; [split; [lra | apply double_0]|]. cbn. split; [lra|]. rewrite Rminus_0_r, Rabs_R0. lra. Qed.

Lemma summed_le : forall k b c c' s a, 0 <= k -> 0 <= b -> (c <= c')%nat -> summed k b c s a -> summed k b c' s a.
Proof.
  intros k b c c' s a Hk Hb L (v & E & F & S & A). pose proof (le_INR c c' L) as LI. exists v. split; [exact E|]. split; [exact F|]. split; [lra|].
  assert (P : (1 + uu) ^ c <= (1 + uu) ^ c') by (apply Rle_pow; [pose proof uu_pos; lra | exact L]). pose proof (pow_ge1 c). pose proof (pos_INR c).
  eapply Rle_trans; [exact A|]. apply Rplus_le_compat.
  - apply Rmult_le_compat_r; [lra|]. assert ((1 + k) * (1 + uu) ^ c <= (1 + k) * (1 + uu) ^ c') by (apply Rmult_le_compat_l; lra). lra.
  - apply Rmult_le_compat; [apply Rmult_le_pos; lra | lra | apply Rmult_le_compat_r; lra | exact P].
Qed.

(** As long as the count is far below 2^53 the error stays small. *)
Lemma summed_error : forall k b c s a, 0 <= k <= / 64 -> 0 <= b -> INR c * uu <= 1 / 2 -> summed k b c s a ->
  exists v, a = Fin v /\ fine v /\ 0 <= s <= INR c /\ ap (2 * k + 2 * (INR c * uu)) (2 * (INR c * b)) v s.
Proof.
  intros k b c s a Hk Hb Hc (v & E & F & S & A). exists v. split; [exact E|]. split; [exact F|]. split; [exact S|]. unfold ap.
  pose proof (pow_uu c (1 / 2) Hc ltac:(lra)) as P. pose proof (pow_ge1 c). pose proof (pos_INR c). pose proof uu_pos. assert (U0 : 0 <= INR c * uu) by (apply Rmult_le_pos; lra).
  eapply Rle_trans; [exact A|]. apply Rplus_le_compat.
  - apply Rmult_le_compat_r; [lra|]. assert ((1 + k) * (1 + uu) ^ c <= (1 + k) * (1 + 2 * (INR c * uu))) by (apply Rmult_le_compat_l; lra). nra.
  - rewrite (Rmult_comm 2). apply Rmult_le_compat_l; [apply Rmult_le_pos; lra | lra].
Qed.

Lemma summed_add : forall k b c s a q p, 0 <= k <= / 64 -> 0 <= b <= 1 -> INR (S c) * uu <= 1 / 2 -> summed k b c s a -> 0 <= p <= 1 -> close k b q p ->
  summed k b (S c) (s + p) (radd b64 a q).
Proof.
  intros k b c s a q p Hk Hb Hc H Hp (w & -> & [W0 Dw] & W1 & Aw). pose proof uu_pos as U. pose proof uu_small as US. pose proof (pos_INR c) as C0.
  rewrite S_INR in Hc. destruct (summed_error k b c s a Hk ltac:(lra) ltac:(nra) H) as (v' & E' & _ & _ & Big). destruct H as (v & -> & [V0 Dv] & S & A). injection E' as <-.
  assert (Vb : v + w <= two 1022).
  { unfold ap in Big. apply Rabs_def2_le in Big. assert (CB : INR c <= two 53). { apply Rmult_le_reg_r with uu; [exact U|]. unfold uu at 2. rewrite <- two_add. change (53 + -53)%Z with 0%Z. rewrite two_0. nra. }
    assert (two 60 <= two 1022) by (apply two_le; lia). assert (two 60 = 128 * two 53) by (change 60%Z with (7 + 53)%Z; rewrite two_add, (two_Z 7) by lia; reflexivity).
    pose proof (two_ge1 53 ltac:(lia)). nra. }
  destruct (rv_add v w Dv Dw V0 W0 Vb) as (E & D & P0 & Er). unfold radd. cbn [nadd rnd_num]. rewrite E. exists (rv (v + w)). split; [reflexivity|]. split; [split; assumption|].
  rewrite S_INR. split; [lra|]. unfold ap in Aw. cbn [pow]. set (P := (1 + uu) ^ c) in *. assert (P1 : 1 <= P) by apply pow_ge1.
  set (M := (1 + k) * P - 1) in *. assert (M0 : k <= M) by (unfold M; nra).
  pose proof (Rabs_triang (rv (v + w) - (v + w)) ((v - s) + (w - p))) as T1. pose proof (Rabs_triang (v - s) (w - p)) as T2.
  replace (rv (v + w) - (v + w) + (v - s + (w - p))) with (rv (v + w) - (s + p)) in T1 by ring.
  assert (VW : v + w <= s + p + (M * s + INR c * b * P) + (k * p + b)). { apply Rabs_def2_le in A, Aw. lra. }
  assert (KP : k * p <= M * p) by (apply Rmult_le_compat_r; lra).
  assert (X : uu * (v + w) <= uu * (s + p + M * (s + p) + (INR c * b * P + b))) by (apply Rmult_le_compat_l; lra).
  assert (Y : b <= b * P) by nra.
  replace (((1 + k) * ((1 + uu) * P) - 1) * (s + p)) with (uu * (s + p + M * (s + p)) + M * (s + p)) by (unfold M; ring).
  assert (Z : (1 + uu) * (INR c * b * P + b) <= (INR c + 1) * b * ((1 + uu) * P)). { replace ((INR c + 1) * b * ((1 + uu) * P)) with ((1 + uu) * (INR c * b * P + b * P)) by ring. apply Rmult_le_compat_l; lra. }
  lra.
Qed.

(** The expected number of links. *)
Lemma edges_summed : forall k b (p : nat -> nat -> num) (q : nat -> nat -> R) N sl, 0 <= k <= / 64 -> 0 <= b <= 1 -> INR (N * N) * uu <= 1 / 2 ->
  (forall i j, (i < N)%nat -> (j < N)%nat -> close k b (p i j) (q i j) /\ 0 <= q i j <= 1) ->
  summed k b (N * N) (pair_sum N sl q) (rexp_edges b64 p N sl).
Proof.
  intros k b p q N sl Hk Hb HN Hp. unfold rexp_edges, pair_sum. pose proof uu_pos as U.
  apply (for_range_count _ (fun i e => summed k b (i * N) (sumn i (fun i => sumn N (fun j => if allowed sl i j then q i j else 0))) e)); [apply summed_0|].
  intros i e Hi He. cbn [sumn]. replace (S i * N)%nat with (i * N + N)%nat by lia. set (s0 := sumn i (fun i => sumn N (fun j => if allowed sl i j then q i j else 0))) in *.
  apply (for_range_count _ (fun j e => summed k b (i * N + j) (s0 + sumn j (fun j => if allowed sl i j then q i j else 0)) e)).
  { cbn [sumn]. rewrite Rplus_0_r, Nat.add_0_r. exact He. }
  intros j e' Hj He'. cbn [sumn]. replace (i * N + S j)%nat with (S (i * N + j)) by lia. destruct (Hp i j Hi Hj) as [C R].
  assert (L : (S (i * N + j) <= N * N)%nat) by nia. change (adm sl i j) with (allowed sl i j). destruct (allowed sl i j).
  - rewrite <- Rplus_assoc. apply summed_add; auto. apply Rle_trans with (INR (N * N) * uu); [apply Rmult_le_compat_r; [lra | apply le_INR, L] | exact HN].
  - rewrite Rplus_0_r. apply (summed_le k b (i * N + j)); try lra; [lia | exact He'].
Qed.

(** The probability of a link in either direction. *)
Definition k2 : R := two (-46).
Definition b2 : R := two (-780).
Lemma k2_kk : k2 = 8 * kk.
Proof. unfold k2, kk. change (-46)%Z with (3 + -49)%Z. rewrite two_add, (two_Z 3) by lia. reflexivity. Qed.
Lemma k2_small : 0 <= k2 <= / 64.
Proof.
  split; [left; apply two_pos|]. replace (/ 64) with (two (-6)) by (change (-6)%Z with (- (6))%Z; rewrite two_neg, two_Z by lia; reflexivity). apply two_le. lia.
Qed.
Lemma b2_bb : 16 * bb <= b2 /\ b2 <= 1.
Proof.
  unfold b2, bb. split; [|rewrite <- two_0; apply two_le; lia]. replace (two (-780)) with (two 10 * two (-790)) by (rewrite <- two_add; reflexivity).
  apply Rmult_le_compat_r; [left; apply two_pos|]. rewrite two_Z by lia. apply IZR_le. lia.
Qed.

Lemma close_weaken : forall k b k' b' a p, 0 <= p -> k <= k' -> b <= b' -> close k b a p -> close k' b' a p.
Proof. intros k b k' b' a p Hp Hk Hb (v & E & F & V & A). exists v. repeat split; auto; try apply F. apply (ap_le k b); auto. Qed.

Lemma either_close : forall a a' p p', close kk bb a p -> close kk bb a' p' -> 0 <= p <= 1 -> 0 <= p' <= 1 ->
  close k2 b2 (rsub b64 (radd b64 a a') (rmul b64 a a')) (p + p' - p * p').
Proof.
  intros a a' p p' (v & -> & [V0 Dv] & V1 & A) (v' & -> & [V0' Dv'] & V1' & A') Hp Hp'. unfold ap in A, A'.
  pose proof uu_pos. pose proof uu_small. pose proof eta_pos. pose proof bb_pos. pose proof bb_parts as [BP _]. pose proof b2_bb as [BB _]. pose proof (two_pos (-800)).
  assert (EB : eta <= bb) by lra. pose proof kk_uu as KU. assert (K0 : 0 < kk <= / 64) by apply kk_small.
  assert (D2 : double 2) by (apply (double_Z 2); lia). assert (T2 : two 1 <= two 1022) by (apply two_le; lia). rewrite two_1 in T2.
  assert (M0 : 0 <= v * v' <= v) by nra.
  destruct (b64_between 0 v (v * v') double_0 Dv M0) as (m & Em & Hm & Dm). destruct (b64_between v 2 (v + v') Dv D2 ltac:(lra)) as (s & Es & Hs & Ds).
  destruct (rv_add v v' Dv Dv' V0 V0' ltac:(lra)) as (Es' & _ & _ & Bs). rewrite Es in Es'. injection Es' as Es'. rewrite <- Es' in Bs.
  destruct (rv_spec (v * v') ltac:(lra)) as (Em' & _ & _ & Bm). rewrite Em in Em'. injection Em' as Em'. rewrite <- Em' in Bm.
  destruct (rv_spec (s - m) ltac:(lra)) as (Er & Dr & Pr & Br).
  destruct (either_unit (Fin v) (Fin v')) as (w & Ew & Hw); [exists v; auto | exists v'; auto|]. rewrite Ew. exists w. split; [reflexivity|].
  unfold rsub, radd, rmul, nsub in Ew. cbn [nadd nmul rnd_num nopp] in Ew. rewrite Es, Em in Ew. cbn [nopp nadd rnd_num] in Ew. change (s + - m) with (s - m) in Ew. rewrite Er in Ew. injection Ew as <-.
  split; [split; [lra | exact Dr]|]. split; [lra|]. unfold ap. set (q := p + p' - p * p') in *.
  assert (Q1 : p <= q) by (unfold q; nra). assert (Q2 : p' <= q) by (unfold q; nra). assert (Q3 : p * p' <= q) by (unfold q; nra). assert (Q0 : 0 <= p * p') by nra.
  apply Rabs_def2_le in A, A', Bs, Bm, Br.
  assert (KP : kk * p <= kk * q) by (apply Rmult_le_compat_l; lra). assert (KP' : kk * p' <= kk * q) by (apply Rmult_le_compat_l; lra).
  assert (KQ : kk * q <= q) by nra.
  assert (VP : Rabs (v * v' - p * p') <= 2 * kk * q + 2 * bb).
  { replace (v * v' - p * p') with ((v - p) * v' + p * (v' - p')) by ring. eapply Rle_trans; [apply Rabs_triang|]. rewrite !Rabs_mult, (Rabs_right v'), (Rabs_right p) by lra.
    assert (Rabs (v - p) <= kk * q + bb) by (apply Rabs_le; lra). assert (Rabs (v' - p') <= kk * q + bb) by (apply Rabs_le; lra).
    pose proof (Rabs_pos (v - p)). pose proof (Rabs_pos (v' - p')). assert (Rabs (v - p) * v' <= (kk * q + bb) * 1) by (apply Rmult_le_compat; lra).
    assert (p * Rabs (v' - p') <= 1 * (kk * q + bb)) by (apply Rmult_le_compat; lra). lra. }
  apply Rabs_def2_le in VP.
  assert (S1 : uu * (v + v') <= uu * (4 * q + 2 * bb)) by (apply Rmult_le_compat_l; lra).
  assert (S2 : uu * (v * v') <= uu * (2 * q + bb)) by (apply Rmult_le_compat_l; lra).
  assert (S3 : uu * bb <= / 1024 * bb) by (apply Rmult_le_compat_r; lra).
  assert (SM : Rabs (s - m - q) <= (4 * kk + 6 * uu) * q + 8 * bb). { unfold q in *. apply Rabs_le. lra. } apply Rabs_def2_le in SM.
  assert (S4 : uu * (s - m) <= uu * (3 * q + 8 * bb)). { apply Rmult_le_compat_l; [lra|]. assert ((4 * kk + 6 * uu) * q <= 1 * q) by (apply Rmult_le_compat_r; lra). lra. }
  assert (UQ : 0 <= uu * q) by (apply Rmult_le_pos; lra). rewrite k2_kk. replace (8 * kk * q) with (128 * (uu * q)) by (rewrite KU; ring).
  replace ((4 * kk + 6 * uu) * q) with (70 * (uu * q)) in SM by (rewrite KU; ring). replace (uu * (3 * q + 8 * bb)) with (3 * (uu * q) + 8 * (uu * bb)) in S4 by ring.
  clear - SM S4 S3 Br UQ EB BB H1 H2. apply Rabs_le. lra.
Qed.

(** The expected degrees. *)
Lemma degrees_summed : forall (p : nat -> nat -> num) (q : nat -> nat -> R) N sl, INR N * uu <= 1 / 2 ->
  (forall i j, (i < N)%nat -> (j < N)%nat -> close kk bb (p i j) (q i j) /\ 0 <= q i j <= 1) ->
  forall n, (n < N)%nat ->
  summed k2 b2 N (nb_degree N sl (either_link q) n) (fst (fst (rexp_degrees b64 p N sl)) n) /\
  summed k2 b2 N (nb_degree N sl (out_link q) n) (snd (fst (rexp_degrees b64 p N sl)) n) /\
  summed k2 b2 N (nb_degree N sl (in_link q) n) (snd (rexp_degrees b64 p N sl) n).
Proof.
  intros p q N sl HN Hp. pose proof uu_pos as U. pose proof b2_bb as [_ B1]. assert (B0 : 0 <= b2 <= 1) by (pose proof (two_pos (-780)); unfold b2 in *; lra).
  assert (K0 : 0 <= k2 <= / 64) by (apply k2_small).
  assert (WK : forall i j, (i < N)%nat -> (j < N)%nat -> close k2 b2 (p i j) (q i j)).
  { intros i j Hi Hj. destruct (Hp i j Hi Hj) as [C R]. apply (close_weaken kk bb); [lra | rewrite k2_kk; pose proof kk_small; lra | pose proof b2_bb; pose proof bb_pos; lra | exact C]. }
  set (term := fun (l : nat -> nat -> R) n m => if allowed sl n m then l n m else 0).
  set (Q := fun (c : nat -> nat) (r : (nat -> nat -> R) -> nat -> R) (st : (nat -> num) * (nat -> num) * (nat -> num)) =>
    forall n, (n < N)%nat -> summed k2 b2 (c n) (r (either_link q) n) (fst (fst st) n) /\ summed k2 b2 (c n) (r (out_link q) n) (snd (fst st) n) /\ summed k2 b2 (c n) (r (in_link q) n) (snd st n)).
  assert (Q_le : forall c c' r r' st, Q c r st -> (forall n, (n < N)%nat -> (c n <= c' n)%nat) -> (forall l n, (n < N)%nat -> r l n = r' l n) -> Q c' r' st).
  { intros c c' r r' st H L E n Hn. destruct (H n Hn) as (A & B & C). rewrite <- !E by exact Hn. specialize (L n Hn). repeat split; apply (summed_le k2 b2 (c n)); auto; lra. }
  assert (F : Q (fun n => if Nat.ltb n N then N else 0%nat) (fun l n => if Nat.ltb n N then sumn N (term l n) else 0) (rexp_degrees b64 p N sl)).
  { unfold rexp_degrees. apply (for_range_count _ (fun i st => Q (fun n => if Nat.ltb n i then i else 0%nat) (fun l n => if Nat.ltb n i then sumn i (term l n) else 0) st)).
    - intros n Hn. cbn. repeat split; apply summed_0.
    - intros i st Hi H.
      apply (Q_le (fun n => if Nat.ltb n i then (i + (if Nat.ltb n (S i) then 1 else 0))%nat else if Nat.eqb n i then (S i) else 0%nat) _
                  (fun l n => if Nat.ltb n i then sumn i (term l n) + (if Nat.ltb n (S i) then term l n i else 0) else if Nat.eqb n i then sumn (S i) (term l n) else 0)).
      2:{ intros n Hn. destruct (Nat.ltb_spec n i), (Nat.ltb_spec n (S i)), (Nat.eqb_spec n i); lia. }
      2:{ intros l n Hn. destruct (Nat.ltb_spec n i), (Nat.ltb_spec n (S i)), (Nat.eqb_spec n i); try lia; cbn [sumn]; reflexivity. }
      apply (for_range_count _ (fun j st => Q (fun n => if Nat.ltb n i then (i + (if Nat.ltb n j then 1 else 0))%nat else if Nat.eqb n i then j else 0%nat)
        (fun l n => if Nat.ltb n i then sumn i (term l n) + (if Nat.ltb n j then term l n i else 0) else if Nat.eqb n i then sumn j (term l n) else 0) st)).
      + eapply Q_le; [exact H| |]; intros; cbv beta.
        * destruct (Nat.ltb_spec n i), (Nat.ltb_spec n 0), (Nat.eqb_spec n i); lia.
        * destruct (Nat.ltb_spec n i), (Nat.ltb_spec n 0), (Nat.eqb_spec n i); try lia; cbn [sumn]; lra.
      + intros j [[d o] e] Hj H'.
        assert (CU : forall c, (c < N)%nat -> INR (S c) * uu <= 1 / 2) by (intros c Hc; apply Rle_trans with (INR N * uu); [apply Rmult_le_compat_r; [lra | apply le_INR; lia] | exact HN]).
        destruct (Nat.eqb_spec i j) as [<- | NE]; cbn [negb].
        * destruct (Hp i i Hi Hi) as [_ R]. specialize (WK i i Hi Hi). destruct sl.
          -- intros n Hn. destruct (H' n Hn) as (A & B & C). cbn [fst snd] in *. unfold radd_at, upd.
             destruct (Nat.eqb_spec n i) as [-> | Ni]; [|destruct (Nat.ltb_spec n i), (Nat.ltb_spec n (S i)); try lia; auto].
             rewrite Nat.ltb_irrefl in *. cbn [sumn]. assert (T : forall l, term l i i = l i i) by (intros l; unfold term, allowed; rewrite orb_true_r; reflexivity). rewrite !T.
             assert (E1 : either_link q i i = q i i) by (unfold either_link; rewrite Nat.eqb_refl; reflexivity). rewrite E1. unfold out_link, in_link.
             repeat split; apply summed_add; auto.
          -- eapply Q_le; [exact H'| |]; intros; cbv beta.
             ++ destruct (Nat.ltb_spec n i), (Nat.ltb_spec n (S i)), (Nat.eqb_spec n i); lia.
             ++ destruct (Nat.ltb_spec n i), (Nat.ltb_spec n (S i)), (Nat.eqb_spec n i); try lia; try reflexivity. subst n. cbn [sumn].
                assert (Z : term l i i = 0) by (unfold term, allowed; rewrite Nat.eqb_refl; reflexivity). rewrite Z. lra.
        * assert (Jn : (j < N)%nat) by lia. destruct (Hp i j Hi Jn) as [Ci Ri]. destruct (Hp j i Jn Hi) as [Cj Rj]. pose proof (WK i j Hi Jn) as Wi. pose proof (WK j i Jn Hi) as Wj.
          pose proof (either_close _ _ _ _ Ci Cj Ri Rj) as Ce. cbv zeta. set (qq := rsub b64 (radd b64 (p i j) (p j i)) (rmul b64 (p i j) (p j i))) in *.
          assert (Re : 0 <= q i j + q j i - q i j * q j i <= 1) by nra.
          assert (Tij : forall l, term l i j = l i j) by (intros l; unfold term, allowed; replace (Nat.eqb i j) with false by (symmetry; apply Nat.eqb_neq; exact NE); reflexivity).
          assert (Tji : forall l, term l j i = l j i) by (intros l; unfold term, allowed; replace (Nat.eqb j i) with false by (symmetry; apply Nat.eqb_neq; lia); reflexivity).
          assert (Eij : either_link q i j = q i j + q j i - q i j * q j i) by (unfold either_link; replace (Nat.eqb i j) with false by (symmetry; apply Nat.eqb_neq; exact NE); ring).
          assert (Eji : either_link q j i = q i j + q j i - q i j * q j i) by (unfold either_link; replace (Nat.eqb j i) with false by (symmetry; apply Nat.eqb_neq; lia); ring).
          intros n Hn. destruct (H' n Hn) as (A & B & C). cbn [fst snd] in *. unfold radd_at, upd.
          destruct (Nat.eqb_spec n i) as [-> | Ni].
          -- assert (J : Nat.eqb i j = false) by (apply Nat.eqb_neq; exact NE). assert (J2 : Nat.eqb j i = false) by (apply Nat.eqb_neq; lia). rewrite J, ?J2.
             rewrite Nat.ltb_irrefl in *. cbn [sumn]. rewrite !Tij, Eij. unfold out_link, in_link. repeat split; apply summed_add; auto.
          -- destruct (Nat.eqb_spec n j) as [-> | Nj].
             ++ assert (J : Nat.ltb j i = true) by (apply Nat.ltb_lt; lia). rewrite J in *.
                assert (J2 : Nat.eqb j i = false) by (apply Nat.eqb_neq; exact Ni). rewrite ?J2.
                rewrite Nat.ltb_irrefl in *. assert (J' : Nat.ltb j (S j) = true) by (apply Nat.ltb_lt; lia). rewrite J'.
                rewrite Nat.add_0_r, Rplus_0_r in *. rewrite Nat.add_1_r. rewrite !Tji, Eji. unfold out_link, in_link in *.
                repeat split; apply summed_add; auto.
             ++ assert (G : (if Nat.ltb n (S j) then 1%nat else 0%nat) = (if Nat.ltb n j then 1%nat else 0%nat)) by (destruct (Nat.ltb_spec n (S j)), (Nat.ltb_spec n j); lia).
                assert (G' : forall x : R, (if Nat.ltb n (S j) then x else 0) = (if Nat.ltb n j then x else 0)) by (intros x; destruct (Nat.ltb_spec n (S j)), (Nat.ltb_spec n j); try lia; reflexivity).
                rewrite G, !G'. destruct (Nat.ltb_spec n i); [auto|]. destruct (Nat.eqb_spec n i); [contradiction|]. auto. }
  intros n Hn. destruct (F n Hn) as (A & B & C). apply Nat.ltb_lt in Hn. rewrite Hn in *. auto.
Qed.
