(** Calculus of the conditional probability (1 - exp(-t a)) / (1 - exp(-t b)). *)
From Verif Require Import Base Num Spec Kernels KernelFacts MultiKernels Prob Ensemble EnsembleFacts
  CondDist Conditional CondFacts CondModel CondMeasures.

Lemma nonneg_from_deriv : forall f f' u, (forall t, derivable_pt_lim f t (f' t)) -> f 0 = 0 -> 0 <= u ->
  (forall t, 0 <= t <= u -> 0 <= f' t) -> 0 <= f u.
Proof.
  intros f f' u HD H0 Hu HP. destruct (Req_dec u 0) as [->|n]; [lra|].
  destruct (MVT_cor2 f f' 0 u) as (c & E & Hc); [lra | intros; apply HD|].
  rewrite H0, !Rminus_0_r in E. rewrite E. apply Rmult_le_pos; [apply HP; lra | lra].
Qed.

Lemma deriv_exp_neg : forall t, derivable_pt_lim (fun u => exp (- u)) t (- exp (- t)).
Proof.
  intros t. replace (- exp (- t)) with (exp (- t) * - (1)) by ring.
  apply (derivable_pt_lim_comp (fun u => - u) exp); [|apply derivable_pt_lim_exp].
  apply (derivable_pt_lim_opp id). apply derivable_pt_lim_id.
Qed.

Lemma one_minus_exp_le : forall u, 1 - exp (- u) <= u.
Proof. intros u. pose proof (exp_ineq1_le (- u)). lra. Qed.

Lemma one_minus_exp_ge : forall u, 0 <= u -> u - u * u / 2 <= 1 - exp (- u).
Proof.
  intros u Hu. assert (0 <= 1 - exp (- u) - u + u * u / 2); [|lra].
  apply (nonneg_from_deriv (fun t => 1 - exp (- t) - t + t * t / 2) (fun t => exp (- t) - 1 + t)); [| |exact Hu|].
  - intros t. replace (exp (- t) - 1 + t) with (0 - - exp (- t) - 1 + (1 * t + t * 1) * / 2) by field.
    apply derivable_pt_lim_plus; [apply derivable_pt_lim_minus; [apply derivable_pt_lim_minus; [apply derivable_pt_lim_const | apply deriv_exp_neg] | apply derivable_pt_lim_id]|].
    apply (derivable_pt_lim_ext (fun t => t * t * / 2)); [intros; reflexivity|].
    replace ((1 * t + t * 1) * / 2) with ((1 * t + t * 1) * / 2 + (t * t) * 0) by ring.
    apply (derivable_pt_lim_mult (fun t => t * t) (fun _ => / 2)); [|apply derivable_pt_lim_const].
    apply (derivable_pt_lim_mult id id); apply derivable_pt_lim_id.
  - rewrite Ropp_0, exp_0. field.
  - intros t Ht. pose proof (one_minus_exp_le t). lra.
Qed.

Lemma one_minus_exp_le3 : forall u, 0 <= u -> 1 - exp (- u) <= u - u * u / 2 + u * u * u / 6.
Proof.
  intros u Hu. assert (0 <= u - u * u / 2 + u * u * u / 6 - 1 + exp (- u)); [|lra].
  apply (nonneg_from_deriv (fun t => t - t * t / 2 + t * t * t / 6 - 1 + exp (- t)) (fun t => 1 - t + t * t / 2 - exp (- t))); [| |exact Hu|].
  - intros t. replace (1 - t + t * t / 2 - exp (- t))
      with (1 - (1 * t + t * 1) * / 2 + ((1 * t + t * 1) * t + t * t * 1) * / 6 - 0 + - exp (- t)) by field.
    apply derivable_pt_lim_plus; [|apply deriv_exp_neg]. apply derivable_pt_lim_minus; [|apply derivable_pt_lim_const].
    assert (S2 : derivable_pt_lim (fun t => t * t) t (1 * t + t * 1)) by (apply (derivable_pt_lim_mult id id); apply derivable_pt_lim_id).
    apply derivable_pt_lim_plus; [apply derivable_pt_lim_minus; [apply derivable_pt_lim_id|]|].
    + replace ((1 * t + t * 1) * / 2) with ((1 * t + t * 1) * / 2 + (t * t) * 0) by ring.
      apply (derivable_pt_lim_mult (fun t => t * t) (fun _ => / 2)); [exact S2 | apply derivable_pt_lim_const].
    + replace (((1 * t + t * 1) * t + t * t * 1) * / 6) with (((1 * t + t * 1) * t + t * t * 1) * / 6 + (t * t * t) * 0) by ring.
      apply (derivable_pt_lim_mult (fun t => t * t * t) (fun _ => / 6)); [|apply derivable_pt_lim_const].
      apply (derivable_pt_lim_mult (fun t => t * t) id); [exact S2 | apply derivable_pt_lim_id].
  - rewrite Ropp_0, exp_0. field.
  - intros t Ht. pose proof (one_minus_exp_ge t ltac:(lra)). lra.
Qed.

(** The ratio. *)
Definition ratio (a b t : R) : R := (1 - exp (- (t * a))) / (1 - exp (- (t * b))).

Lemma ratio_second : forall a b t, 0 <= a <= b -> 0 < b -> 0 < t -> t * b <= 1 ->
  Rabs (ratio a b t - a / b - t * ((1 / 2 - a / (2 * b)) * a)) <= 2 * (t * b) * (t * b).
Proof.
  intros a b t Ha Hb Ht H1. unfold ratio.
  set (al := t * a). set (be := t * b) in *.
  assert (A0 : 0 <= al) by (apply Rmult_le_pos; lra). assert (B0 : 0 < be) by (apply Rmult_lt_0_compat; lra).
  assert (AB : al <= be) by (apply Rmult_le_compat_l; lra).
  set (Nn := 1 - exp (- al)). set (D := 1 - exp (- be)).
  pose proof (one_minus_exp_ge al A0) as N1. pose proof (one_minus_exp_le3 al A0) as N2. fold Nn in N1, N2.
  pose proof (one_minus_exp_ge be ltac:(lra)) as D1. pose proof (one_minus_exp_le3 be ltac:(lra)) as D2. fold D in D1, D2.
  assert (D0 : be / 2 <= D) by nra.
  replace (a / b) with (al / be) by (unfold al, be; field; lra).
  replace (t * ((1 / 2 - a / (2 * b)) * a)) with (al / be * ((be - al) / 2)) by (unfold al, be; field; lra).
  set (k := (be - al) / 2). set (r := al / be).
  assert (Er : al = r * be) by (unfold r; field; lra).
  assert (R0 : 0 <= r <= 1).
  { split; [apply Rmult_le_pos; [exact A0 | left; apply Rinv_0_lt_compat; exact B0]|].
    apply (Rmult_le_reg_r be); [exact B0|]. rewrite <- Er. lra. }
  assert (K0 : 0 <= k <= 1 / 2) by (unfold k; lra).
  assert (E : Nn / D - r - r * k = (Nn - r * (1 + k) * D) / D) by (field; lra).
  rewrite E. unfold Rdiv at 1. rewrite Rabs_mult, (Rabs_right (/ D)) by (apply Rle_ge; left; apply Rinv_0_lt_compat; lra).
  assert (B : Rabs (Nn - r * (1 + k) * D) <= be * be * be).
  { set (m := D - be + be * be / 2). set (n := Nn - al + al * al / 2).
    assert (M0 : 0 <= m <= be * be * be / 6) by (unfold m; lra).
    assert (N0 : 0 <= n <= al * al * al / 6) by (unfold n; lra).
    replace (Nn - r * (1 + k) * D) with (n + al * (k * be / 2) - r * ((1 + k) * m)).
    - assert (al * al * al <= be * be * be).
      { assert (al * al <= be * be) by nra. nra. }
      assert (Hk : 0 <= k * be / 2 <= be * be / 4) by (unfold k; nra).
      assert (Hak : 0 <= al * (k * be / 2) <= be * (be * be / 4)).
      { split; [apply Rmult_le_pos; lra|]. apply Rmult_le_compat; lra. }
      assert (Hm : 0 <= (1 + k) * m <= 3 / 2 * (be * be * be / 6)).
      { split; [apply Rmult_le_pos; lra|]. apply Rmult_le_compat; lra. }
      assert (Hrm : 0 <= r * ((1 + k) * m) <= 3 / 2 * (be * be * be / 6)).
      { split; [apply Rmult_le_pos; lra|]. rewrite <- (Rmult_1_l (3 / 2 * _)). apply Rmult_le_compat; lra. }
      assert (P : 0 <= be * be * be) by (repeat apply Rmult_le_pos; lra).
      apply Rabs_le. lra.
    - unfold n, m, k. rewrite Er. field. }
  apply Rle_trans with (be * be * be * / (be / 2)).
  - apply Rmult_le_compat; [apply Rabs_pos | left; apply Rinv_0_lt_compat; lra | exact B|].
    apply Rinv_le_contravar; lra.
  - right. field. lra.
Qed.

Lemma ratio_first : forall a b t, 0 <= a <= b -> 0 < b -> 0 < t -> t * b <= 1 ->
  Rabs (ratio a b t - a / b) <= t * b.
Proof.
  intros a b t Ha Hb Ht H1. unfold ratio.
  set (al := t * a). set (be := t * b) in *.
  assert (A0 : 0 <= al) by (apply Rmult_le_pos; lra). assert (B0 : 0 < be) by (apply Rmult_lt_0_compat; lra).
  assert (AB : al <= be) by (apply Rmult_le_compat_l; lra).
  set (Nn := 1 - exp (- al)). set (D := 1 - exp (- be)).
  pose proof (one_minus_exp_ge al A0) as N1. pose proof (one_minus_exp_le al) as N2. fold Nn in N1, N2.
  pose proof (one_minus_exp_ge be ltac:(lra)) as D1. pose proof (one_minus_exp_le be) as D2. fold D in D1, D2.
  assert (D0 : be / 2 <= D) by nra.
  replace (a / b) with (al / be) by (unfold al, be; field; lra).
  assert (E : Nn / D - al / be = (Nn * be - al * D) / (be * D)) by (field; lra). rewrite E.
  assert (P : 0 < be * D) by (apply Rmult_lt_0_compat; lra).
  unfold Rdiv. rewrite Rabs_mult, (Rabs_right (/ (be * D))) by (apply Rle_ge; left; apply Rinv_0_lt_compat; exact P).
  apply (Rmult_le_reg_r (be * D)); [exact P|]. rewrite Rmult_assoc, Rinv_l, Rmult_1_r by lra.
  assert (Rabs (Nn * be - al * D) <= be * be * be / 2).
  { assert (H1a : al * D <= al * be) by (apply Rmult_le_compat_l; lra).
    assert (H2 : al * (be - be * be / 2) <= al * D) by (apply Rmult_le_compat_l; lra).
    assert (H3 : Nn * be <= al * be) by (apply Rmult_le_compat_r; lra).
    assert (H4 : (al - al * al / 2) * be <= Nn * be) by (apply Rmult_le_compat_r; lra).
    assert (H5 : al * be * be <= be * be * be) by (apply Rmult_le_compat_r; [lra|]; apply Rmult_le_compat_r; lra).
    assert (H6 : al * al * be <= be * be * be).
    { apply Rmult_le_compat_r; [lra|]. apply Rmult_le_compat; lra. }
    apply Rabs_le. lra. }
  assert (be * be * (be / 2) <= be * be * D) by (apply Rmult_le_compat_l; [apply Rmult_le_pos; lra | exact D0]). lra.
Qed.

(** Value of the kernel at any non-zero parameter. *)
Lemma cond_p_near : forall t x y z X Y Z, 0 < x -> 0 < y -> 0 < z -> 0 < X -> 0 < Y -> 0 < Z -> t <> 0 ->
  cond_p_ij (Fin t) (Fin x) (Fin y) (Fin z) (Fin X) (Fin Y) (Fin Z) = Fin (ratio (x * y * z) (X * Y * Z) t).
Proof.
  intros t x y z X Y Z Hx Hy Hz HX HY HZ Ht. unfold cond_p_ij. rewrite !is0_fin.
  destruct (Reqb_spec X 0) as [|_]; [lra|]. destruct (Reqb_spec Y 0) as [|_]; [lra|]. destruct (Reqb_spec Z 0) as [|_]; [lra|].
  destruct (Reqb_spec x 0) as [|_]; [lra|]. destruct (Reqb_spec y 0) as [|_]; [lra|]. destruct (Reqb_spec z 0) as [|_]; [lra|].
  cbn [orb]. destruct (Reqb_spec t 0) as [|_]; [contradiction|].
  cbn [nmul isinf nopp]. unfold nexpm1. cbn [nexp nsub nopp ndiv nadd].
  assert (P : X * Y * Z <> 0) by (assert (0 < X * Y * Z) by (repeat apply Rmult_lt_0_compat; assumption); lra).
  match goal with |- context[Reqb ?u 0] => destruct (Reqb_spec u 0) as [W|W] end.
  - exfalso. assert (E : exp (- (t * X * Y * Z)) = exp 0) by (rewrite exp_0; lra). apply exp_inv in E.
    assert (E' : t * (X * Y * Z) = 0) by lra. apply Rmult_integral in E'. tauto.
  - f_equal. unfold ratio. replace (t * (x * y * z)) with (t * x * y * z) by ring.
    replace (t * (X * Y * Z)) with (t * X * Y * Z) by ring. field. lra.
Qed.

Definition ratio' (a b t : R) : R :=
  a * exp (- (t * a)) / (1 - exp (- (t * b)))
  - b * exp (- (t * b)) * (1 - exp (- (t * a))) / ((1 - exp (- (t * b))) * (1 - exp (- (t * b)))).

Lemma deriv_one_minus_exp : forall a t, derivable_pt_lim (fun u => 1 - exp (- (u * a))) t (a * exp (- (t * a))).
Proof.
  intros a t. replace (a * exp (- (t * a))) with (0 - (- exp (- (t * a))) * a) by ring.
  apply derivable_pt_lim_minus; [apply derivable_pt_lim_const|].
  apply (derivable_pt_lim_comp (fun u => u * a) (fun v => exp (- v))); [|apply deriv_exp_neg].
  pose proof (derivable_pt_lim_mult id (fun _ => a) t 1 0 (derivable_pt_lim_id t) (derivable_pt_lim_const a t)) as D.
  assert (E : 1 * a + id t * 0 = a) by ring. cbv beta in D. rewrite E in D. exact D.
Qed.

Lemma ratio_deriv : forall a b t, 1 - exp (- (t * b)) <> 0 -> derivable_pt_lim (ratio a b) t (ratio' a b t).
Proof.
  intros a b t H. unfold ratio.
  replace (ratio' a b t) with ((a * exp (- (t * a)) * (1 - exp (- (t * b))) - b * exp (- (t * b)) * (1 - exp (- (t * a))))
     / Rsqr (1 - exp (- (t * b)))) by (unfold ratio', Rsqr; field; exact H).
  apply (derivable_pt_lim_div (fun t => 1 - exp (- (t * a))) (fun t => 1 - exp (- (t * b)))); [apply deriv_one_minus_exp | apply deriv_one_minus_exp | exact H].
Qed.

Lemma tenpow_pos : 0 < / 10 ^ 12.
Proof. apply Rinv_0_lt_compat. apply pow_lt. lra. Qed.

Lemma cond_p_jac_fin : forall d x y z X Y Z, 0 < x -> 0 < y -> 0 < z -> 0 < X -> 0 < Y -> 0 < Z ->
  / 10 ^ 12 <= 1 - exp (- (d * (X * Y * Z))) ->
  cond_p_jac (Fin d) (Fin x) (Fin y) (Fin z) (Fin X) (Fin Y) (Fin Z)
  = (Fin (ratio (x * y * z) (X * Y * Z) d), Fin (ratio' (x * y * z) (X * Y * Z) d)).
Proof.
  intros d x y z X Y Z Hx Hy Hz HX HY HZ H. pose proof tenpow_pos as T. unfold cond_p_jac. rewrite !is0_fin.
  destruct (Reqb_spec X 0) as [|_]; [lra|]. destruct (Reqb_spec Y 0) as [|_]; [lra|]. destruct (Reqb_spec Z 0) as [|_]; [lra|].
  destruct (Reqb_spec x 0) as [|_]; [lra|]. destruct (Reqb_spec y 0) as [|_]; [lra|]. destruct (Reqb_spec z 0) as [|_]; [lra|].
  cbn [orb]. cbn [nmul nopp]. unfold nexpm1. cbn [nexp nsub nopp nadd isinf].
  replace (- (exp (- (d * (X * Y * Z))) + - (1))) with (1 - exp (- (d * (X * Y * Z)))) by ring.
  replace (- (exp (- (d * (x * y * z))) + - (1))) with (1 - exp (- (d * (x * y * z)))) by ring.
  unfold nltb. destruct (Rltb_spec (1 - exp (- (d * (X * Y * Z)))) (/ 10 ^ 12)) as [|_]; [lra|].
  cbn [ndiv nmul]. assert (D : 1 - exp (- (d * (X * Y * Z))) <> 0) by lra.
  destruct (Reqb_spec (1 - exp (- (d * (X * Y * Z)))) 0) as [|_]; [contradiction|].
  destruct (Reqb_spec ((1 - exp (- (d * (X * Y * Z)))) * (1 - exp (- (d * (X * Y * Z))))) 0) as [E|_].
  - exfalso. apply Rmult_integral in E. tauto.
  - reflexivity.
Qed.

Lemma cond_p_jac_small : forall d x y z X Y Z, 0 < x -> 0 < y -> 0 < z -> 0 < X -> 0 < Y -> 0 < Z ->
  1 - exp (- (d * (X * Y * Z))) < / 10 ^ 12 ->
  cond_p_jac (Fin d) (Fin x) (Fin y) (Fin z) (Fin X) (Fin Y) (Fin Z)
  = (Fin (x * y * z / (X * Y * Z)), Fin ((1 / 2 - x * y * z / (2 * (X * Y * Z))) * (x * y * z))).
Proof.
  intros d x y z X Y Z Hx Hy Hz HX HY HZ H. unfold cond_p_jac. rewrite !is0_fin.
  destruct (Reqb_spec X 0) as [|_]; [lra|]. destruct (Reqb_spec Y 0) as [|_]; [lra|]. destruct (Reqb_spec Z 0) as [|_]; [lra|].
  destruct (Reqb_spec x 0) as [|_]; [lra|]. destruct (Reqb_spec y 0) as [|_]; [lra|]. destruct (Reqb_spec z 0) as [|_]; [lra|].
  cbn [orb]. cbn [nmul nopp]. unfold nexpm1. cbn [nexp nsub nopp nadd isinf].
  replace (- (exp (- (d * (X * Y * Z))) + - (1))) with (1 - exp (- (d * (X * Y * Z)))) by ring.
  unfold nltb. destruct (Rltb_spec (1 - exp (- (d * (X * Y * Z)))) (/ 10 ^ 12)) as [_|]; [|lra].
  assert (P : 0 < X * Y * Z) by (repeat apply Rmult_lt_0_compat; assumption).
  unfold ndiv. destruct (Reqb_spec X 0) as [|_]; [lra|]. destruct (Reqb_spec Y 0) as [|_]; [lra|]. destruct (Reqb_spec Z 0) as [|_]; [lra|].
  destruct (Reqb_spec (2 * (X * Y * Z)) 0) as [|_]; [lra|]. cbn [nmul nsub nadd nopp].
  f_equal; f_equal; field; lra.
Qed.
