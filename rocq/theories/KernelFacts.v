(** Facts about the single-layer kernels of Kernels.v. *)
From Verif Require Import Base Num.
From Verif Require Export Spec.
From Verif Require Import Kernels.
From Coq Require Import Ranalysis.

(** ** The three cases of a non-negative argument list *)

Lemma nonneg_cases : forall a, nonneg a -> a = Fin 0 \/ (exists x, a = Fin x /\ 0 < x) \/ a = PInf.
Proof.
  intros [x| | |] H; simpl in H; try contradiction; auto.
  destruct (Req_dec x 0) as [->|Hn]; [left; reflexivity | right; left; exists x; split; [reflexivity | lra]].
Qed.

Ltac is0_simpl :=
  repeat match goal with
  | |- context [is0 (Fin 0)] => change (is0 (Fin 0)) with (Reqb 0 0); rewrite (Reqb_true 0 0 eq_refl)
  | H : 0 < ?x |- context [is0 (Fin ?x)] =>
      change (is0 (Fin x)) with (Reqb x 0); rewrite (Reqb_false x 0) by lra
  | |- context [is0 PInf] => change (is0 PInf) with false
  end; simpl orb; cbv iota.

Ltac pos3 x y z := assert (0 < x * y) by (apply Rmult_lt_0_compat; assumption);
  assert (0 < x * y * z) by (apply Rmult_lt_0_compat; assumption).

Lemma prod4_view : forall d x y z, posnum d -> posnum x -> posnum y -> posnum z ->
  (exists d' x' y' z', d = Fin d' /\ x = Fin x' /\ y = Fin y' /\ z = Fin z' /\
     0 < d' /\ 0 < x' /\ 0 < y' /\ 0 < z' /\
     nmul (nmul (nmul d x) y) z = Fin (d' * x' * y' * z') /\
     nmul d (nmul (nmul x y) z) = Fin (d' * (x' * y' * z')))
  \/ (some_inf [d; x; y; z] /\ nmul (nmul (nmul d x) y) z = PInf /\
      nmul d (nmul (nmul x y) z) = PInf).
Proof.
  intros d x y z Hd Hx Hy Hz.
  rewrite !nmul_pos; try (repeat apply nmul_posnum; assumption).
  destruct d as [d| | |], x as [x| | |], y as [y| | |], z as [z| | |];
    simpl in *; try contradiction;
    try (right; split; [unfold some_inf; simpl; tauto | split; reflexivity]).
  left; exists d, x, y, z; repeat split; auto.
Qed.

Lemma four_cases : forall d x y z, nonneg d -> nonneg x -> nonneg y -> nonneg z ->
  (is0 x || is0 y || is0 z || is0 d = true /\ some_zero [d; x; y; z]) \/
  (is0 x || is0 y || is0 z || is0 d = false /\ ~ some_zero [d; x; y; z] /\
   posnum d /\ posnum x /\ posnum y /\ posnum z).
Proof.
  intros d x y z Hd Hx Hy Hz.
  destruct (is0 x) eqn:Ex.
  { left; split; [reflexivity|]. apply is0_true_iff in Ex; subst; unfold some_zero; simpl; auto. }
  destruct (is0 y) eqn:Ey.
  { left; split; [reflexivity|]. apply is0_true_iff in Ey; subst; unfold some_zero; simpl; auto. }
  destruct (is0 z) eqn:Ez.
  { left; split; [reflexivity|]. apply is0_true_iff in Ez; subst; unfold some_zero; simpl; auto. }
  destruct (is0 d) eqn:Ed.
  { left; split; [reflexivity|]. apply is0_true_iff in Ed; subst; unfold some_zero; simpl; auto. }
  right; split; [reflexivity|].
  split.
  { apply is0_false_iff in Ex, Ey, Ez, Ed. unfold some_zero; simpl; intuition. }
  repeat split; apply nonneg_not0; assumption.
Qed.

(** ** Values *)

Lemma isinf_false_fin : forall x, isinf (Fin x) = false.
Proof. reflexivity. Qed.

Lemma ndiv_logistic : forall t, 0 < t -> ndiv (Fin t) (nadd (Fin 1) (Fin t)) = Fin (logistic t).
Proof. intros t H; simpl; rewrite Reqb_false by lra; reflexivity. Qed.

Lemma nopp_expm1 : forall t, nopp (nexpm1 (nopp (Fin t))) = Fin (poissonian t).
Proof. intros t; simpl nopp at 2; rewrite nexpm1_fin; simpl; unfold poissonian; f_equal; lra. Qed.

Lemma logistic_0 : logistic 0 = 0.
Proof. unfold logistic; lra. Qed.
Lemma poissonian_0 : poissonian 0 = 0.
Proof. unfold poissonian; rewrite Ropp_0, exp_0; lra. Qed.

Lemma logistic_alt : forall t, 0 <= t -> logistic t = 1 - / (1 + t).
Proof. intros t H; unfold logistic; field; lra. Qed.

Lemma logistic_range : forall t, 0 <= t -> 0 <= logistic t < 1.
Proof.
  intros t H; rewrite logistic_alt by lra.
  assert (0 < / (1 + t)) by (apply Rinv_0_lt_compat; lra).
  assert (/ (1 + t) <= 1) by (rewrite <- Rinv_1; apply Rinv_le_contravar; lra). lra.
Qed.

Lemma logistic_pos : forall t, 0 < t -> 0 < logistic t.
Proof. intros t H; unfold logistic; apply Rdiv_lt_0_compat; lra. Qed.

Lemma poissonian_range : forall t, 0 <= t -> 0 <= poissonian t < 1.
Proof.
  intros t H; unfold poissonian.
  pose proof (exp_pos (- t)).
  assert (exp (- t) <= 1).
  { rewrite <- exp_0. destruct (Req_dec t 0) as [->|Hn]; [rewrite Ropp_0; lra|].
    apply Rlt_le, exp_increasing; lra. }
  lra.
Qed.

Lemma poissonian_pos : forall t, 0 < t -> 0 < poissonian t.
Proof.
  intros t H; unfold poissonian.
  assert (exp (- t) < 1) by (rewrite <- exp_0; apply exp_increasing; lra). lra.
Qed.

Lemma logistic_incr : forall s t, 0 <= s -> s < t -> logistic s < logistic t.
Proof.
  intros s t Hs Hst; rewrite !logistic_alt by lra.
  assert (/ (1 + t) < / (1 + s)) by (apply Rinv_lt_contravar; [apply Rmult_lt_0_compat; lra | lra]).
  lra.
Qed.

Lemma poissonian_incr : forall s t, s < t -> poissonian s < poissonian t.
Proof.
  intros s t H; unfold poissonian.
  assert (exp (- t) < exp (- s)) by (apply exp_increasing; lra). lra.
Qed.

(** Generic view of a kernel in the style of this package: 0 when a factor is 0, [g]
    of the product when everything is finite and positive, [1] when infinite. *)
Definition kernel_view (k : num -> num -> num -> num -> num) (g : R -> R) : Prop :=
  (forall d x y z, nonneg d -> nonneg x -> nonneg y -> nonneg z ->
     some_zero [d; x; y; z] -> k d x y z = Fin 0) /\
  (forall d x y z, 0 < d -> 0 < x -> 0 < y -> 0 < z ->
     k (Fin d) (Fin x) (Fin y) (Fin z) = Fin (g (d * x * y * z))) /\
  (forall d x y z, posnum d -> posnum x -> posnum y -> posnum z ->
     some_inf [d; x; y; z] -> k d x y z = Fin 1).

Lemma fit_view : kernel_view fit_p_ij logistic.
Proof.
  split; [|split].
  - intros d x y z Hd Hx Hy Hz H0. unfold fit_p_ij.
    destruct (four_cases d x y z Hd Hx Hy Hz) as [[-> _]|[_ [Hn _]]]; [reflexivity | contradiction].
  - intros d x y z Hd Hx Hy Hz. unfold fit_p_ij. is0_simpl.
    simpl nmul. rewrite isinf_false_fin. apply ndiv_logistic.
    repeat apply Rmult_lt_0_compat; assumption.
  - intros d x y z Hd Hx Hy Hz Hi. unfold fit_p_ij.
    rewrite !posnum_is0 by assumption. simpl orb; cbv iota.
    destruct (prod4_view d x y z Hd Hx Hy Hz) as [(d'&x'&y'&z'&->&->&->&->&_)|[_ [-> _]]].
    + exfalso; unfold some_inf in Hi; simpl in Hi; intuition discriminate.
    + reflexivity.
Qed.

Lemma inv_view : kernel_view inv_p_ij poissonian.
Proof.
  split; [|split].
  - intros d x y z Hd Hx Hy Hz H0. unfold inv_p_ij.
    destruct (four_cases d x y z Hd Hx Hy Hz) as [[-> _]|[_ [Hn _]]]; [reflexivity | contradiction].
  - intros d x y z Hd Hx Hy Hz. unfold inv_p_ij. is0_simpl.
    simpl nmul. rewrite isinf_false_fin. apply nopp_expm1.
  - intros d x y z Hd Hx Hy Hz Hi. unfold inv_p_ij.
    rewrite !posnum_is0 by assumption. simpl orb; cbv iota.
    destruct (prod4_view d x y z Hd Hx Hy Hz) as [(d'&x'&y'&z'&->&->&->&->&_)|[_ [-> _]]].
    + exfalso; unfold some_inf in Hi; simpl in Hi; intuition discriminate.
    + reflexivity.
Qed.

(** Three exclusive cases of the arguments. *)
Lemma arg_cases : forall d x y z, nonneg d -> nonneg x -> nonneg y -> nonneg z ->
  some_zero [d; x; y; z]
  \/ (exists d' x' y' z', d = Fin d' /\ x = Fin x' /\ y = Fin y' /\ z = Fin z' /\
        0 < d' /\ 0 < x' /\ 0 < y' /\ 0 < z')
  \/ (posnum d /\ posnum x /\ posnum y /\ posnum z /\ some_inf [d; x; y; z]).
Proof.
  intros d x y z Hd Hx Hy Hz.
  destruct (four_cases d x y z Hd Hx Hy Hz) as [[_ H]|[_ [Hn (H1&H2&H3&H4)]]]; [left; exact H|].
  right. destruct (prod4_view d x y z H1 H2 H3 H4)
    as [(d'&x'&y'&z'&E1&E2&E3&E4&P1&P2&P3&P4&_)|[Hi _]].
  - left; exists d', x', y', z'; repeat split; assumption.
  - right; repeat split; assumption.
Qed.

Lemma view_finite : forall k g d x y z, kernel_view k g -> g 0 = 0 ->
  0 <= d -> 0 <= x -> 0 <= y -> 0 <= z ->
  k (Fin d) (Fin x) (Fin y) (Fin z) = Fin (g (d * x * y * z)).
Proof.
  intros k g d x y z [V0 [V1 V2]] G0 Hd Hx Hy Hz.
  destruct (arg_cases (Fin d) (Fin x) (Fin y) (Fin z) Hd Hx Hy Hz)
    as [H0|[(d'&x'&y'&z'&E1&E2&E3&E4&P)|(_&_&_&_&Hi)]].
  - rewrite V0 by assumption. f_equal. symmetry.
    replace (d * x * y * z) with 0; [exact G0|].
    unfold some_zero in H0; simpl in H0.
    destruct H0 as [H0|[H0|[H0|[H0|[]]]]]; inversion H0; subst; ring.
  - inversion E1; inversion E2; inversion E3; inversion E4; subst. apply V1; tauto.
  - exfalso; unfold some_inf in Hi; simpl in Hi; intuition discriminate.
Qed.

Definition range_spec (g : R -> R) : Prop := forall t, 0 < t -> 0 < g t < 1.

Lemma view_probability : forall k g, kernel_view k g -> range_spec g ->
  forall d x y z, nonneg d -> nonneg x -> nonneg y -> nonneg z ->
  exists p, k d x y z = Fin p /\ 0 <= p <= 1 /\
    (p = 0 <-> some_zero [d; x; y; z]) /\
    (p = 1 <-> some_inf [d; x; y; z] /\ ~ some_zero [d; x; y; z]).
Proof.
  intros k g [V0 [V1 V2]] G d x y z Hd Hx Hy Hz.
  destruct (arg_cases d x y z Hd Hx Hy Hz)
    as [H0|[(d'&x'&y'&z'&->&->&->&->&P1&P2&P3&P4)|(Pd&Px&Py&Pz&Hi)]].
  - exists 0. rewrite V0 by assumption. repeat split; try lra; try tauto.
  - exists (g (d' * x' * y' * z')). rewrite V1 by assumption.
    assert (Hp : 0 < d' * x' * y' * z') by (repeat apply Rmult_lt_0_compat; assumption).
    pose proof (G _ Hp).
    split; [reflexivity|]. split; [lra|]. split; split; intros H1; try lra.
    + exfalso; unfold some_zero in H1; simpl in H1.
      destruct H1 as [H1|[H1|[H1|[H1|[]]]]]; inversion H1; lra.
    + exfalso; destruct H1 as [H1 _]; unfold some_inf in H1; simpl in H1; intuition discriminate.
  - exists 1. rewrite V2 by assumption.
    assert (Hn : ~ some_zero [d; x; y; z]).
    { unfold some_zero; simpl. intros [E|[E|[E|[E|[]]]]]; subst; simpl in *; lra. }
    repeat split; try lra; try tauto.
Qed.

Lemma logistic_range_spec : range_spec logistic.
Proof. intros t H; split; [apply logistic_pos; exact H | apply logistic_range; lra]. Qed.
Lemma poissonian_range_spec : range_spec poissonian.
Proof. intros t H; split; [apply poissonian_pos; exact H | apply poissonian_range; lra]. Qed.

(** ** Logarithms *)

Lemma nlog_log_of : forall p, 0 <= p -> log_of p (nlog (Fin p)).
Proof.
  intros p H; unfold log_of, nlog.
  destruct (Rltb_spec 0 p); [left; auto|].
  rewrite Reqb_true by lra. right; split; [lra | reflexivity].
Qed.

Lemma fit_logp_spec : forall d x y z, nonneg d -> nonneg x -> nonneg y -> nonneg z ->
  log_of (toR (fit_p_ij d x y z)) (fit_logp d x y z).
Proof.
  intros d x y z Hd Hx Hy Hz. unfold fit_p_ij, fit_logp.
  destruct (four_cases d x y z Hd Hx Hy Hz) as [[-> _]|[-> [_ (P1&P2&P3&P4)]]].
  - right; split; reflexivity.
  - destruct (prod4_view d x y z P1 P2 P3 P4) as [(d'&x'&y'&z'&E1&E2&E3&E4&Q1&Q2&Q3&Q4&-> & _)|[_ [-> _]]].
    + rewrite isinf_false_fin, ndiv_logistic by (repeat apply Rmult_lt_0_compat; assumption).
      simpl toR. apply nlog_log_of. apply logistic_range.
      apply Rlt_le; repeat apply Rmult_lt_0_compat; assumption.
    + left; simpl; split; [lra | rewrite ln_1; reflexivity].
Qed.

Lemma fit_log1mp_spec : forall d x y z, nonneg d -> nonneg x -> nonneg y -> nonneg z ->
  log_of (1 - toR (fit_p_ij d x y z)) (fit_log1mp d x y z).
Proof.
  intros d x y z Hd Hx Hy Hz. unfold fit_p_ij, fit_log1mp.
  destruct (four_cases d x y z Hd Hx Hy Hz) as [[-> _]|[-> [_ (P1&P2&P3&P4)]]].
  - left; simpl; split; [lra | replace (1 - 0) with 1 by lra; rewrite ln_1; reflexivity].
  - destruct (prod4_view d x y z P1 P2 P3 P4) as [(d'&x'&y'&z'&E1&E2&E3&E4&Q1&Q2&Q3&Q4&-> & _)|[_ [-> _]]].
    + assert (Hp : 0 < d' * x' * y' * z') by (repeat apply Rmult_lt_0_compat; assumption).
      rewrite isinf_false_fin, ndiv_logistic by exact Hp.
      set (t := d' * x' * y' * z') in *. simpl toR.
      unfold nlog1p. replace (ndiv (nopp (Fin t)) (nadd (Fin 1) (Fin t))) with (Fin (- logistic t)).
      * simpl nadd. replace (1 + - logistic t) with (1 - logistic t) by lra.
        apply nlog_log_of. pose proof (logistic_range t). lra.
      * simpl. rewrite Reqb_false by lra. f_equal. unfold logistic. field. lra.
    + right; simpl; split; [lra | reflexivity].
Qed.

Lemma inv_logp_spec : forall d x y z, nonneg d -> nonneg x -> nonneg y -> nonneg z ->
  log_of (toR (inv_p_ij d x y z)) (inv_logp d x y z).
Proof.
  intros d x y z Hd Hx Hy Hz. unfold inv_p_ij, inv_logp.
  destruct (four_cases d x y z Hd Hx Hy Hz) as [[-> _]|[-> [_ (P1&P2&P3&P4)]]].
  - right; split; reflexivity.
  - destruct (prod4_view d x y z P1 P2 P3 P4) as [(d'&x'&y'&z'&E1&E2&E3&E4&Q1&Q2&Q3&Q4&-> & _)|[_ [-> _]]].
    + rewrite isinf_false_fin, nopp_expm1.
      simpl toR. apply nlog_log_of. apply poissonian_range.
      apply Rlt_le; repeat apply Rmult_lt_0_compat; assumption.
    + left; simpl; split; [lra | rewrite ln_1; reflexivity].
Qed.

Lemma inv_log1mp_spec : forall d x y z, nonneg d -> nonneg x -> nonneg y -> nonneg z ->
  log_of (1 - toR (inv_p_ij d x y z)) (inv_log1mp d x y z).
Proof.
  intros d x y z Hd Hx Hy Hz. unfold inv_p_ij, inv_log1mp.
  destruct (four_cases d x y z Hd Hx Hy Hz) as [[-> _]|[-> [_ (P1&P2&P3&P4)]]].
  - left; simpl; split; [lra | replace (1 - 0) with 1 by lra; rewrite ln_1; reflexivity].
  - destruct (prod4_view d x y z P1 P2 P3 P4) as [(d'&x'&y'&z'&E1&E2&E3&E4&Q1&Q2&Q3&Q4&-> & _)|[_ [-> _]]].
    + rewrite isinf_false_fin, nopp_expm1.
      simpl. unfold poissonian.
      replace (1 - (1 - exp (- (d' * x' * y' * z')))) with (exp (- (d' * x' * y' * z'))) by lra.
      left; split; [apply exp_pos | rewrite ln_exp; reflexivity].
    + right; simpl; split; [lra | reflexivity].
Qed.

(** ** Dense and spark versions coincide with the sparse one at z = 1 *)

Lemma is0_one : is0 (Fin 1) = false.
Proof. unfold is0; simpl; apply Reqb_false; lra. Qed.

Lemma fit_p_ij_dense_eq : forall d x y z, fit_p_ij_dense d x y z = fit_p_ij d x y (Fin 1).
Proof. intros; unfold fit_p_ij_dense, fit_p_ij; rewrite is0_one, orb_false_r, nmul_1_r; reflexivity. Qed.
Lemma fit_logp_dense_eq : forall d x y z, fit_logp_dense d x y z = fit_logp d x y (Fin 1).
Proof. intros; unfold fit_logp_dense, fit_logp; rewrite is0_one, orb_false_r, nmul_1_r; reflexivity. Qed.
Lemma fit_log1mp_dense_eq : forall d x y z, fit_log1mp_dense d x y z = fit_log1mp d x y (Fin 1).
Proof. intros; unfold fit_log1mp_dense, fit_log1mp; rewrite is0_one, orb_false_r, nmul_1_r; reflexivity. Qed.
Lemma fit_p_jac_dense_eq : forall d x y, fit_p_jac_dense d x y = fit_p_jac d x y (Fin 1).
Proof. intros; unfold fit_p_jac_dense, fit_p_jac; rewrite is0_one, orb_false_r, nmul_1_r; reflexivity. Qed.
Lemma inv_p_ij_dense_eq : forall d x y z, inv_p_ij_dense d x y z = inv_p_ij d x y (Fin 1).
Proof. intros; unfold inv_p_ij_dense, inv_p_ij; rewrite is0_one, orb_false_r, nmul_1_r; reflexivity. Qed.
Lemma inv_logp_dense_eq : forall d x y z, inv_logp_dense d x y z = inv_logp d x y (Fin 1).
Proof. intros; unfold inv_logp_dense, inv_logp; rewrite is0_one, orb_false_r, nmul_1_r; reflexivity. Qed.
Lemma inv_log1mp_spark_eq : forall d x y z, inv_log1mp_spark d x y z = inv_log1mp d x y (Fin 1).
Proof. intros; unfold inv_log1mp_spark, inv_log1mp; rewrite is0_one, orb_false_r, nmul_1_r; reflexivity. Qed.
Lemma inv_p_jac_dense_eq : forall d x y, inv_p_jac_dense d x y = inv_p_jac d x y (Fin 1).
Proof. intros; unfold inv_p_jac_dense, inv_p_jac; rewrite is0_one, orb_false_r, nmul_1_r; reflexivity. Qed.

Lemma nopp_nmul_l : forall a b, nmul (nopp a) b = nopp (nmul a b).
Proof.
  intros [x| | |] [y| | |]; simpl; try reflexivity; try (f_equal; lra);
    unfold inf_times.
  - destruct (Reqb_spec x 0) as [->|Hx].
    + rewrite Ropp_0, Reqb_true by reflexivity; reflexivity.
    + rewrite (Reqb_false (- x) 0) by lra.
      destruct (Rltb_spec 0 x), (Rltb_spec 0 (- x)); simpl; try reflexivity; lra.
  - destruct (Reqb_spec x 0) as [->|Hx].
    + rewrite Ropp_0, Reqb_true by reflexivity; reflexivity.
    + rewrite (Reqb_false (- x) 0) by lra.
      destruct (Rltb_spec 0 x), (Rltb_spec 0 (- x)); simpl; try reflexivity; lra.
  - destruct (Reqb_spec y 0); [reflexivity|]. destruct (Rltb_spec 0 y); reflexivity.
  - destruct (Reqb_spec y 0); [reflexivity|]. destruct (Rltb_spec 0 y); reflexivity.
Qed.

Lemma inv_log1mp_dense_eq : forall d x y z, nonneg d -> nonneg x -> nonneg y ->
  inv_log1mp_dense d x y z = inv_log1mp d x y (Fin 1).
Proof.
  intros d x y z Hd Hx Hy. unfold inv_log1mp_dense, inv_log1mp.
  rewrite is0_one, orb_false_r, nmul_1_r, !nopp_nmul_l.
  destruct (is0 x || is0 y || is0 d) eqn:E; [reflexivity|].
  apply orb_false_elim in E; destruct E as [E E3]; apply orb_false_elim in E; destruct E as [E1 E2].
  rewrite !nmul_pos; try apply nmul_posnum; try (apply nonneg_not0; assumption).
  pose proof (nonneg_not0 _ Hd E3); pose proof (nonneg_not0 _ Hx E1); pose proof (nonneg_not0 _ Hy E2).
  destruct d, x, y; simpl in *; try contradiction; reflexivity.
Qed.

(** The layer kernels are the dense ones. *)
Lemma mfit_p_ijk_eq : forall d x y z, mfit_p_ijk d x y z = fit_p_ij d x y (Fin 1).
Proof. exact fit_p_ij_dense_eq. Qed.
Lemma mfit_logp_ijk_eq : forall d x y z, mfit_logp_ijk d x y z = fit_logp d x y (Fin 1).
Proof. exact fit_logp_dense_eq. Qed.
Lemma mfit_log1mp_ijk_eq : forall d x y z, mfit_log1mp_ijk d x y z = fit_log1mp d x y (Fin 1).
Proof. exact fit_log1mp_dense_eq. Qed.
Lemma minv_p_ijk_eq : forall d x y z, minv_p_ijk d x y z = inv_p_ij d x y (Fin 1).
Proof. exact inv_p_ij_dense_eq. Qed.
Lemma minv_logp_ijk_eq : forall d x y z, minv_logp_ijk d x y z = inv_logp d x y (Fin 1).
Proof. exact inv_logp_dense_eq. Qed.
Lemma minv_log1mp_ijk_eq : forall d x y z, nonneg d -> nonneg x -> nonneg y ->
  minv_log1mp_ijk d x y z = inv_log1mp d x y (Fin 1).
Proof. exact inv_log1mp_dense_eq. Qed.

(** ** Jacobian *)

Definition g_deriv (g g' : R -> R) : Prop := forall t, 0 <= t -> derivable_pt_lim g t (g' t).

Definition logistic' (t : R) : R := 1 / (1 + t) ^ 2.
Definition poissonian' (t : R) : R := exp (- t).

Lemma deriv_ext_loc : forall (f g : R -> R) x l e, 0 < e ->
  (forall t, Rabs (t - x) < e -> f t = g t) -> derivable_pt_lim f x l -> derivable_pt_lim g x l.
Proof.
  intros f g x l e He Heq Hd eps Heps.
  destruct (Hd eps Heps) as [dl Hdl].
  assert (Hm : 0 < Rmin e dl) by (apply Rmin_glb_lt; [exact He | apply cond_pos]).
  exists (mkposreal _ Hm). intros h Hh0 Hh. simpl in Hh.
  rewrite <- !Heq.
  - apply Hdl; [exact Hh0 | eapply Rlt_le_trans; [exact Hh | apply Rmin_r]].
  - rewrite Rminus_diag_eq by reflexivity. rewrite Rabs_R0; exact He.
  - replace (x + h - x) with h by ring. eapply Rlt_le_trans; [exact Hh | apply Rmin_l].
Qed.

Lemma logistic_deriv : g_deriv logistic logistic'.
Proof.
  intros t Ht. unfold logistic, logistic'.
  replace (1 / (1 + t) ^ 2) with ((1 * (1 + t) - (0 + 1) * t) / Rsqr (1 + t)).
  - change (derivable_pt_lim (div_fct (fun t => t) (fun t => 1 + t)) t
       ((1 * (1 + t) - (0 + 1) * t) / Rsqr (1 + t))).
    apply derivable_pt_lim_div.
    + apply derivable_pt_lim_id.
    + apply derivable_pt_lim_plus; [apply derivable_pt_lim_const | apply derivable_pt_lim_id].
    + lra.
  - unfold Rsqr; field; lra.
Qed.

Lemma poissonian_deriv : g_deriv poissonian poissonian'.
Proof.
  intros t _. unfold poissonian, poissonian'.
  replace (exp (- t)) with (0 - exp (- t) * (- 1)) by ring.
  apply derivable_pt_lim_minus; [apply derivable_pt_lim_const|].
  apply (derivable_pt_lim_comp (fun t => - t) exp).
  - apply derivable_pt_lim_opp. apply derivable_pt_lim_id.
  - apply derivable_pt_lim_exp.
Qed.

Lemma g_deriv_scale : forall g g' d a, g_deriv g g' -> 0 <= d -> 0 <= a ->
  derivable_pt_lim (fun t => g (t * a)) d (g' (d * a) * a).
Proof.
  intros g g' d a G Hd Ha.
  apply (derivable_pt_lim_comp (fun t => t * a) g).
  - replace a with (1 * a + d * 0) at 1 by ring.
    change (derivable_pt_lim (mult_fct (fun t => t) (fun _ => a)) d (1 * a + d * 0)).
    apply derivable_pt_lim_mult; [apply derivable_pt_lim_id | apply derivable_pt_lim_const].
  - apply G. apply Rmult_le_pos; assumption.
Qed.

Lemma fit_p_jac_fin : forall d x y z, 0 <= d -> 0 <= x -> 0 <= y -> 0 <= z ->
  fit_p_jac (Fin d) (Fin x) (Fin y) (Fin z)
  = (Fin (logistic (d * (x * y * z))), Fin (logistic' (d * (x * y * z)) * (x * y * z))).
Proof.
  intros d x y z Hd Hx Hy Hz. unfold fit_p_jac. rewrite !is0_fin.
  assert (Hzero : forall d', x * y * z = 0 ->
     (Fin 0, Fin 0) = (Fin (logistic (d' * (x * y * z))), Fin (logistic' (d' * (x * y * z)) * (x * y * z)))).
  { intros d' H0; rewrite H0, Rmult_0_r, logistic_0, Rmult_0_r; reflexivity. }
  destruct (Reqb_spec x 0) as [->|Hx0]; [apply Hzero; ring|].
  destruct (Reqb_spec y 0) as [->|Hy0]; [apply Hzero; ring|].
  destruct (Reqb_spec z 0) as [->|Hz0]; [apply Hzero; ring|].
  simpl orb; cbv iota.
  assert (Hp : 0 < x * y * z) by (repeat apply Rmult_lt_0_compat; lra).
  destruct (Reqb_spec d 0) as [->|Hd0].
  - rewrite Rmult_0_l, logistic_0. unfold logistic'. simpl. do 2 f_equal. field.
  - simpl. assert (0 < d * (x * y * z)) by (apply Rmult_lt_0_compat; lra).
    rewrite Reqb_false by lra. rewrite Reqb_false.
    + unfold logistic, logistic'. do 2 f_equal. field. lra.
    + apply Rgt_not_eq, Rmult_lt_0_compat; lra.
Qed.

Lemma inv_p_jac_fin : forall d x y z, 0 <= d -> 0 <= x -> 0 <= y -> 0 <= z ->
  inv_p_jac (Fin d) (Fin x) (Fin y) (Fin z)
  = (Fin (poissonian (d * (x * y * z))), Fin (poissonian' (d * (x * y * z)) * (x * y * z))).
Proof.
  intros d x y z Hd Hx Hy Hz. unfold inv_p_jac. rewrite !is0_fin.
  assert (Hzero : forall d', x * y * z = 0 ->
     (Fin 0, Fin 0) = (Fin (poissonian (d' * (x * y * z))), Fin (poissonian' (d' * (x * y * z)) * (x * y * z)))).
  { intros d' H0; rewrite H0, Rmult_0_r, poissonian_0, Rmult_0_r; reflexivity. }
  destruct (Reqb_spec x 0) as [->|Hx0]; [apply Hzero; ring|].
  destruct (Reqb_spec y 0) as [->|Hy0]; [apply Hzero; ring|].
  destruct (Reqb_spec z 0) as [->|Hz0]; [apply Hzero; ring|].
  simpl orb; cbv iota.
  assert (Hp : 0 < x * y * z) by (repeat apply Rmult_lt_0_compat; lra).
  destruct (Reqb_spec d 0) as [->|Hd0].
  - rewrite Rmult_0_l, poissonian_0. unfold poissonian'. rewrite Ropp_0, exp_0. simpl. do 2 f_equal. ring.
  - replace (nmul (nmul (Fin x) (Fin y)) (Fin z)) with (Fin (x * y * z)) by reflexivity.
    replace (nmul (Fin d) (Fin (x * y * z))) with (Fin (d * (x * y * z))) by reflexivity.
    rewrite isinf_false_fin, nopp_expm1. simpl. unfold poissonian'. do 2 f_equal. ring.
Qed.

Lemma fit_p_ij_fin : forall d x y z, 0 <= d -> 0 <= x -> 0 <= y -> 0 <= z ->
  fit_p_ij (Fin d) (Fin x) (Fin y) (Fin z) = Fin (logistic (d * (x * y * z))).
Proof.
  intros; rewrite (view_finite _ logistic) by (try apply fit_view; try apply logistic_0; assumption).
  do 2 f_equal; ring.
Qed.

Lemma inv_p_ij_fin : forall d x y z, 0 <= d -> 0 <= x -> 0 <= y -> 0 <= z ->
  inv_p_ij (Fin d) (Fin x) (Fin y) (Fin z) = Fin (poissonian (d * (x * y * z))).
Proof.
  intros; rewrite (view_finite _ poissonian) by (try apply inv_view; try apply poissonian_0; assumption).
  do 2 f_equal; ring.
Qed.

(** The kernels as functions of a possibly slightly negative parameter (needed for the
    two-sided derivative at parameter 0). *)
Lemma fit_p_ij_near : forall t x y z, 0 <= x -> 0 <= y -> 0 <= z -> 1 + t * (x * y * z) <> 0 ->
  toR (fit_p_ij (Fin t) (Fin x) (Fin y) (Fin z)) = logistic (t * (x * y * z)).
Proof.
  intros t x y z Hx Hy Hz H1. unfold fit_p_ij. rewrite !is0_fin.
  destruct (Reqb_spec x 0) as [->|Hx0]; [simpl; replace (t * (0 * y * z)) with 0 by ring; rewrite logistic_0; reflexivity|].
  destruct (Reqb_spec y 0) as [->|Hy0]; [simpl; replace (t * (x * 0 * z)) with 0 by ring; rewrite logistic_0; reflexivity|].
  destruct (Reqb_spec z 0) as [->|Hz0]; [simpl; replace (t * (x * y * 0)) with 0 by ring; rewrite logistic_0; reflexivity|].
  destruct (Reqb_spec t 0) as [->|Ht0]; [simpl; rewrite Rmult_0_l, logistic_0; reflexivity|].
  simpl. rewrite Reqb_false.
  - simpl; unfold logistic. replace (t * x * y * z) with (t * (x * y * z)) by ring. reflexivity.
  - replace (t * x * y * z) with (t * (x * y * z)) by ring. exact H1.
Qed.

Lemma inv_p_ij_near : forall t x y z,
  toR (inv_p_ij (Fin t) (Fin x) (Fin y) (Fin z)) = poissonian (t * (x * y * z)).
Proof.
  intros t x y z. unfold inv_p_ij. rewrite !is0_fin.
  destruct (Reqb_spec x 0) as [->|Hx0]; [simpl; replace (t * (0 * y * z)) with 0 by ring; rewrite poissonian_0; reflexivity|].
  destruct (Reqb_spec y 0) as [->|Hy0]; [simpl; replace (t * (x * 0 * z)) with 0 by ring; rewrite poissonian_0; reflexivity|].
  destruct (Reqb_spec z 0) as [->|Hz0]; [simpl; replace (t * (x * y * 0)) with 0 by ring; rewrite poissonian_0; reflexivity|].
  destruct (Reqb_spec t 0) as [->|Ht0]; [simpl; rewrite Rmult_0_l, poissonian_0; reflexivity|].
  simpl orb; cbv iota. simpl nmul. rewrite isinf_false_fin, nopp_expm1. simpl.
  f_equal; ring.
Qed.

Lemma fit_jac_derivative : forall d x y z, 0 <= d -> 0 <= x -> 0 <= y -> 0 <= z ->
  exists p j, fit_p_jac (Fin d) (Fin x) (Fin y) (Fin z) = (Fin p, Fin j) /\
    fit_p_ij (Fin d) (Fin x) (Fin y) (Fin z) = Fin p /\
    derivable_pt_lim (fun t => toR (fit_p_ij (Fin t) (Fin x) (Fin y) (Fin z))) d j.
Proof.
  intros d x y z Hd Hx Hy Hz.
  exists (logistic (d * (x * y * z))), (logistic' (d * (x * y * z)) * (x * y * z)).
  split; [apply fit_p_jac_fin; assumption|]. split; [apply fit_p_ij_fin; assumption|].
  assert (Ha : 0 <= x * y * z) by (repeat apply Rmult_le_pos; assumption).
  apply (deriv_ext_loc (fun t => logistic (t * (x * y * z)))
           _ d _ (/ (1 + x * y * z))).
  - apply Rinv_0_lt_compat; lra.
  - intros t Ht. symmetry; apply fit_p_ij_near; try assumption.
    apply Rabs_def2 in Ht; destruct Ht as [_ Ht].
    assert (- / (1 + x * y * z) < t) by lra.
    assert (- / (1 + x * y * z) * (x * y * z) <= t * (x * y * z)) by (apply Rmult_le_compat_r; lra).
    assert (- / (1 + x * y * z) * (x * y * z) > -1).
    { replace (- / (1 + x * y * z) * (x * y * z)) with (- logistic (x * y * z)) by (unfold logistic; field; lra).
      pose proof (logistic_range (x * y * z) Ha). lra. }
    lra.
  - apply g_deriv_scale; [apply logistic_deriv | exact Hd | exact Ha].
Qed.

Lemma inv_jac_derivative : forall d x y z, 0 <= d -> 0 <= x -> 0 <= y -> 0 <= z ->
  exists p j, inv_p_jac (Fin d) (Fin x) (Fin y) (Fin z) = (Fin p, Fin j) /\
    inv_p_ij (Fin d) (Fin x) (Fin y) (Fin z) = Fin p /\
    derivable_pt_lim (fun t => toR (inv_p_ij (Fin t) (Fin x) (Fin y) (Fin z))) d j.
Proof.
  intros d x y z Hd Hx Hy Hz.
  exists (poissonian (d * (x * y * z))), (poissonian' (d * (x * y * z)) * (x * y * z)).
  split; [apply inv_p_jac_fin; assumption|]. split; [apply inv_p_ij_fin; assumption|].
  assert (Ha : 0 <= x * y * z) by (repeat apply Rmult_le_pos; assumption).
  apply (deriv_ext_loc (fun t => poissonian (t * (x * y * z))) _ d _ 1); [lra| |].
  - intros t _; symmetry; apply inv_p_ij_near.
  - apply g_deriv_scale; [apply poissonian_deriv | exact Hd | exact Ha].
Qed.

(** At an infinite parameter (or infinite product) the two kernels agree as well. *)
Lemma fit_jac_prob_any : forall d x y z, nonneg d -> nonneg x -> nonneg y -> nonneg z ->
  fst (fit_p_jac d x y z) = fit_p_ij d x y z.
Proof.
  intros d x y z Hd Hx Hy Hz.
  unfold fit_p_jac.
  destruct (four_cases d x y z Hd Hx Hy Hz) as [[E H0]|[E [Hn (P1&P2&P3&P4)]]].
  - rewrite (proj1 fit_view) by assumption.
    destruct (is0 x || is0 y || is0 z); [reflexivity|]. simpl in E; rewrite E; reflexivity.
  - unfold fit_p_ij; rewrite E. apply orb_false_elim in E; destruct E as [-> ->].
    destruct (prod4_view d x y z P1 P2 P3 P4) as [(d'&x'&y'&z'&->&->&->&->&Q1&Q2&Q3&Q4&->&->)|[_ [-> ->]]].
    + rewrite !isinf_false_fin. cbn [fst]. replace (d' * (x' * y' * z')) with (d' * x' * y' * z') by ring. reflexivity.
    + reflexivity.
Qed.

Lemma inv_jac_prob_any : forall d x y z, nonneg d -> nonneg x -> nonneg y -> nonneg z ->
  fst (inv_p_jac d x y z) = inv_p_ij d x y z.
Proof.
  intros d x y z Hd Hx Hy Hz.
  unfold inv_p_jac.
  destruct (four_cases d x y z Hd Hx Hy Hz) as [[E H0]|[E [Hn (P1&P2&P3&P4)]]].
  - rewrite (proj1 inv_view) by assumption.
    destruct (is0 x || is0 y || is0 z); [reflexivity|]. simpl in E; rewrite E; reflexivity.
  - unfold inv_p_ij; rewrite E. apply orb_false_elim in E; destruct E as [-> ->].
    destruct (prod4_view d x y z P1 P2 P3 P4) as [(d'&x'&y'&z'&->&->&->&->&Q1&Q2&Q3&Q4&->&->)|[_ [-> ->]]].
    + rewrite !isinf_false_fin, !nopp_expm1. cbn [fst]. replace (d' * (x' * y' * z')) with (d' * x' * y' * z') by ring. reflexivity.
    + reflexivity.
Qed.

(** ** Monotonicity *)

Definition nondecr_pos (g : R -> R) : Prop := forall s t, 0 < s -> s <= t -> g s <= g t.

Lemma nle_nonneg_fin : forall a b, nonneg a -> nle a b -> nonneg b.
Proof. intros [x| | |] [y| | |]; simpl; try tauto; lra. Qed.

Lemma nle_zero : forall a b, nonneg a -> nle a b -> b = Fin 0 -> a = Fin 0.
Proof. intros [x| | |] b Ha H E; subst; simpl in *; try contradiction. f_equal; lra. Qed.

Lemma view_monotone : forall k g, kernel_view k g -> range_spec g -> nondecr_pos g ->
  forall d x y z d' x' y' z',
  nonneg d -> nonneg x -> nonneg y -> nonneg z ->
  nle d d' -> nle x x' -> nle y y' -> nle z z' ->
  toR (k d x y z) <= toR (k d' x' y' z').
Proof.
  intros k g V G M d x y z d' x' y' z' Hd Hx Hy Hz Ld Lx Ly Lz.
  assert (Hd' := nle_nonneg_fin _ _ Hd Ld). assert (Hx' := nle_nonneg_fin _ _ Hx Lx).
  assert (Hy' := nle_nonneg_fin _ _ Hy Ly). assert (Hz' := nle_nonneg_fin _ _ Hz Lz).
  destruct (view_probability k g V G d x y z) as (p & Ep & Rp & Zp & _); try assumption.
  destruct (view_probability k g V G d' x' y' z') as (p' & Ep' & Rp' & Zp' & _); try assumption.
  destruct V as [V0 [V1 V2]].
  destruct (arg_cases d x y z Hd Hx Hy Hz) as [H0|[H1|H1]].
  - rewrite Ep, Ep'; simpl. apply Zp in H0; lra.
  - destruct H1 as (a & b & c & e & -> & -> & -> & -> & P1 & P2 & P3 & P4).
    destruct (arg_cases d' x' y' z' Hd' Hx' Hy' Hz') as [H0|[H1|(Q1&Q2&Q3&Q4&Q5)]].
    + exfalso. unfold some_zero in H0; simpl in H0.
      destruct H0 as [H0|[H0|[H0|[H0|[]]]]]; subst; simpl in *; lra.
    + destruct H1 as (a' & b' & c' & e' & -> & -> & -> & -> & P1' & P2' & P3' & P4').
      rewrite !V1 by assumption. simpl in *. apply M.
      * repeat apply Rmult_lt_0_compat; assumption.
      * repeat apply Rmult_le_compat; try assumption; try lra;
          repeat apply Rmult_le_pos; lra.
    + rewrite (V2 d' x' y' z') by assumption. rewrite Ep; simpl; lra.
  - destruct H1 as (Q1&Q2&Q3&Q4&Q5).
    rewrite (V2 d x y z) by assumption.
    rewrite (V2 d' x' y' z'); [lra| | | | |].
    + destruct d as [a| | |], d' as [b| | |]; simpl in *; try contradiction; try exact I; lra.
    + destruct x as [a| | |], x' as [b| | |]; simpl in *; try contradiction; try exact I; lra.
    + destruct y as [a| | |], y' as [b| | |]; simpl in *; try contradiction; try exact I; lra.
    + destruct z as [a| | |], z' as [b| | |]; simpl in *; try contradiction; try exact I; lra.
    + unfold some_inf in *; simpl in *.
      destruct Q5 as [E|[E|[E|[E|[]]]]]; subst;
        [destruct d' | destruct x' | destruct y' | destruct z']; simpl in *; try contradiction; auto.
Qed.

Lemma logistic_mono : nondecr_pos logistic.
Proof. intros s t Hs H; destruct (Req_dec s t) as [->|Hn]; [lra | apply Rlt_le, logistic_incr; lra]. Qed.
Lemma poissonian_mono : nondecr_pos poissonian.
Proof. intros s t Hs H; destruct (Req_dec s t) as [->|Hn]; [lra | apply Rlt_le, poissonian_incr; lra]. Qed.

(** ** Gauge freedom and transposition *)

Lemma kernel_finite_prod : forall k g, kernel_view k g -> g 0 = 0 ->
  forall d x y z d' x' y' z',
  0 <= d -> 0 <= x -> 0 <= y -> 0 <= z -> 0 <= d' -> 0 <= x' -> 0 <= y' -> 0 <= z' ->
  d * x * y * z = d' * x' * y' * z' ->
  k (Fin d) (Fin x) (Fin y) (Fin z) = k (Fin d') (Fin x') (Fin y') (Fin z').
Proof.
  intros k g V G0 d x y z d' x' y' z' H1 H2 H3 H4 H5 H6 H7 H8 E.
  rewrite !(view_finite k g) by assumption. rewrite E; reflexivity.
Qed.

Lemma kernel_swap : forall k g, kernel_view k g -> range_spec g ->
  forall d x y z, nonneg d -> nonneg x -> nonneg y -> nonneg z -> k d x y z = k d y x z.
Proof.
  intros k g [V0 [V1 V2]] G d x y z Hd Hx Hy Hz.
  destruct (arg_cases d x y z Hd Hx Hy Hz)
    as [H0|[(a&b&c&e&->&->&->&->&P1&P2&P3&P4)|(Q1&Q2&Q3&Q4&Q5)]].
  - rewrite (V0 d x y z), (V0 d y x z); try assumption; try reflexivity. unfold some_zero in *; simpl in *; tauto.
  - rewrite !V1 by assumption. do 2 f_equal; ring.
  - rewrite (V2 d x y z), (V2 d y x z); try assumption; try reflexivity. unfold some_inf in *; simpl in *; tauto.
Qed.

(** ** The kernels compute [link_prob] *)

Lemma is_zero_spec : forall l, existsb is_zero l = true <-> some_zero l.
Proof.
  intros l. rewrite existsb_exists. unfold some_zero. split.
  - intros (a & Ha & Hz). destruct a as [x| | |]; simpl in Hz; try discriminate.
    destruct (Reqb_spec x 0) as [->|]; [exact Ha | discriminate].
  - intros H. exists (Fin 0). split; [exact H|]. simpl. apply Reqb_true; reflexivity.
Qed.

Lemma is_infinite_spec : forall l, existsb is_infinite l = true <-> some_inf l.
Proof.
  intros l. rewrite existsb_exists. unfold some_inf. split.
  - intros (a & Ha & Hz). destruct a; simpl in Hz; try discriminate. exact Ha.
  - intros H. exists PInf. split; [exact H | reflexivity].
Qed.

Lemma view_link_prob : forall k g, kernel_view k g ->
  forall d x y z, nonneg d -> nonneg x -> nonneg y -> nonneg z ->
  k d x y z = Fin (link_prob g [d; x; y; z]).
Proof.
  intros k g (V0 & V1 & V2) d x y z Hd Hx Hy Hz. unfold link_prob.
  destruct (existsb is_zero [d; x; y; z]) eqn:E0.
  { apply is_zero_spec in E0. apply V0; assumption. }
  assert (N0 : ~ some_zero [d; x; y; z]) by (intros H; apply is_zero_spec in H; congruence).
  destruct (arg_cases d x y z Hd Hx Hy Hz) as [H|[H|H]]; [contradiction| |].
  - destruct H as (d' & x' & y' & z' & -> & -> & -> & -> & H1 & H2 & H3 & H4).
    rewrite V1 by assumption. simpl. do 2 f_equal. ring.
  - destruct H as (H1 & H2 & H3 & H4 & H5). rewrite (V2 d x y z) by assumption.
    apply is_infinite_spec in H5. rewrite H5. reflexivity.
Qed.

Lemma gauge : forall k g, kernel_view k g -> g 0 = 0 ->
  forall c d x y z, 0 < c -> 0 <= d -> 0 <= x -> 0 <= y -> 0 <= z ->
  k (Fin (d / c)) (Fin (c * x)) (Fin y) (Fin z) = k (Fin d) (Fin x) (Fin y) (Fin z).
Proof.
  intros k g Hv Hg c d x y z Hc Hd Hx Hy Hz. apply (kernel_finite_prod k g Hv Hg); try assumption.
  - apply Rmult_le_pos; [exact Hd | apply Rlt_le, Rinv_0_lt_compat, Hc].
  - apply Rmult_le_pos; lra.
  - field. lra.
Qed.
