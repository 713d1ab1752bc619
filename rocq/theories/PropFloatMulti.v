(** Property C100: the kernels and density fits of the multi-label models in double precision. *)
From Verif Require Import Base Num Spec Kernels KernelFacts MultiKernels MultiFacts FitFacts Ensemble EnsembleFacts Float FloatFacts Solver FloatSolver FloatSolverFacts FloatMulti FloatMultiFacts PropFloat PropFloatSample PropFloatSolver.

(** * Without rounding *)
Lemma walk_ext : forall S T (f g : nat -> num -> num -> S -> flow S T) xs ys s, (forall k x y s, f k x y s = g k x y s) -> walk f xs ys s = walk g xs ys s.
Proof.
  intros S T f g xs ys s H. revert ys s. induction xs as [|[lx vx] xs IH]; intros ys; [intros s; destruct ys; reflexivity|].
  induction ys as [|[ly vy] ys IHy]; intros s; [reflexivity|]. cbn [walk]. rewrite H.
  destruct (Nat.eqb lx ly); [destruct (g lx vx vy s); [apply IH | reflexivity]|]. destruct (Nat.ltb lx ly); [apply IH | apply IHy].
Qed.

(** Without rounding the definitions are those of the exact model. *)
Theorem C100_exact :
  (forall d xs ys, rmfit_p_ij Fin d xs ys = mfit_p_ij d xs ys /\ rmfit_logp Fin d xs ys = mfit_logp d xs ys /\
     rmfit_log1mp Fin d xs ys = mfit_log1mp d xs ys /\ rminv_p_ij Fin d xs ys = minv_p_ij d xs ys /\
     rminv_logp Fin d xs ys = minv_logp d xs ys /\ rminv_log1mp Fin d xs ys = minv_log1mp d xs ys) /\
  (forall d xs ys, rmfit_p_jac Fin d xs ys = mfit_p_jac d xs ys /\ rminv_p_jac Fin d xs ys = minv_p_jac d xs ys) /\
  (forall d x y z, rmfit_p_ijk Fin d x y = mfit_p_ijk d x y z /\ rmfit_logp_ijk Fin d x y = mfit_logp_ijk d x y z /\
     rmfit_log1mp_ijk Fin d x y = mfit_log1mp_ijk d x y z /\ rminv_p_ijk Fin d x y = minv_p_ijk d x y z /\
     rminv_logp_ijk Fin d x y = minv_logp_ijk d x y z /\ rminv_log1mp_ijk Fin d x y = minv_log1mp_ijk d x y z /\
     rmfit_p_jac_ijk Fin d x y = fit_p_jac_dense d x y /\ rminv_p_jac_ijk Fin d x y = inv_p_jac_dense d x y).
Proof.
  assert (A : forall r d k x y s, rmfit_step Fin r d k x y s = mfit_step r d k x y s) by (intros; unfold rmfit_step, mfit_step; exact_ops; reflexivity).
  assert (B : forall r d k x y s, rminv_step Fin r d k x y s = minv_step r d k x y s) by (intros; unfold rminv_step, minv_step; exact_ops; reflexivity).
  assert (C : forall d k x y s, rmfit_jac_step Fin d k x y s = mfit_jac_step d k x y s) by (intros d k x y [v j]; unfold rmfit_jac_step, mfit_jac_step; exact_ops; reflexivity).
  assert (D : forall k x y s, rminv_jac_step Fin k x y s = minv_jac_step k x y s) by (intros; unfold rminv_jac_step, minv_jac_step; exact_ops; reflexivity).
  split; [|split].
  - intros d xs ys. unfold rmfit_p_ij, rmfit_logp, rmfit_log1mp, rminv_p_ij, rminv_logp, rminv_log1mp.
    rewrite !(walk_ext _ _ _ _ xs ys _ (A _ d)), !(walk_ext _ _ _ _ xs ys _ (B _ d)).
    unfold mfit_p_ij, mfit_logp, mfit_log1mp, minv_p_ij, minv_logp, minv_log1mp.
    repeat split; destruct (walk _ _ _ _); exact_ops; reflexivity.
  - intros d xs ys. unfold rmfit_p_jac, rminv_p_jac. rewrite (walk_ext _ _ _ _ xs ys _ (C d)), (walk_ext _ _ _ _ xs ys _ D).
    unfold mfit_p_jac, minv_p_jac. split; [destruct (walk _ _ _ _) as [[v j]|]; exact_ops; reflexivity|].
    destruct (isinf d); [reflexivity|]. destruct (walk _ _ _ _); cbv zeta; exact_ops; reflexivity.
  - intros d x y z. unfold rmfit_p_ijk, rmfit_logp_ijk, rmfit_log1mp_ijk, rminv_p_ijk, rminv_logp_ijk, rminv_log1mp_ijk, rmfit_p_jac_ijk, rminv_p_jac_ijk.
    exact_ops. repeat split; reflexivity.
Qed.
Print Assumptions C100_exact.

(** * Layers *)
Lemma rmul_1 : forall a, amount a -> rmul b64 a (Fin 1) = a.
Proof.
  intros a [-> | (w & -> & Hw & Dw)].
  - unfold rmul. cbn. unfold inf_times. rewrite Reqb_false, Rltb_true by lra. reflexivity.
  - unfold rmul. cbn [nmul rnd_num]. rewrite Rmult_1_r. apply b64_fixed. exact Dw.
Qed.

(** The layer kernels are those of the single-label models with dyadic term 1, in double precision as well, so that
    C96 and C97 hold for them. *)
Theorem C100_layers : forall d x y, datum d -> datum x -> datum y ->
  rmfit_p_ijk b64 d x y = rfit_p_ij b64 d x y (Fin 1) /\ rmfit_logp_ijk b64 d x y = rfit_logp b64 d x y (Fin 1) /\
  rmfit_log1mp_ijk b64 d x y = rfit_log1mp b64 d x y (Fin 1) /\ rmfit_p_jac_ijk b64 d x y = rfit_p_jac b64 d x y (Fin 1) /\
  rminv_p_ijk b64 d x y = rinv_p_ij b64 d x y (Fin 1) /\ rminv_logp_ijk b64 d x y = rinv_logp b64 d x y (Fin 1) /\
  rminv_log1mp_ijk b64 d x y = rinv_log1mp b64 d x y (Fin 1) /\ rminv_p_jac_ijk b64 d x y = rinv_p_jac b64 d x y (Fin 1).
Proof.
  intros d x y Hd Hx Hy.
  unfold rmfit_p_ijk, rmfit_logp_ijk, rmfit_log1mp_ijk, rminv_p_ijk, rminv_logp_ijk, rminv_log1mp_ijk, rmfit_p_jac_ijk, rminv_p_jac_ijk,
    rfit_p_ij, rfit_logp, rfit_log1mp, rfit_p_jac, rinv_p_ij, rinv_logp, rinv_log1mp, rinv_p_jac.
  assert (Z1 : is0 (Fin 1) = false) by (apply is0_fin_pos; lra). rewrite !Z1, !orb_false_r.
  destruct (is0 x) eqn:Zx; [repeat split; reflexivity|]. destruct (is0 y) eqn:Zy; [repeat split; reflexivity|]. cbn [orb].
  destruct (datum_pos x Hx Zx) as (wx & -> & Px & Dx), (datum_pos y Hy Zy) as (wy & -> & Py & Dy).
  assert (A : amount (rmul b64 (Fin wx) (Fin wy))) by (apply rmul_amount; [right; exact Hx | exact Py]). rewrite (rmul_1 _ A).
  destruct (is0 d) eqn:Zd; [repeat split; reflexivity|]. destruct (datum_pos d Hd Zd) as (wd & -> & Pd & Dd).
  assert (B : amount (rmul b64 (rmul b64 (Fin wd) (Fin wx)) (Fin wy))) by (apply rmul_amount; [apply rmul_amount; [right; exact Hd | exact Px] | exact Py]).
  rewrite (rmul_1 _ B). repeat split; try reflexivity.
  cbv zeta. unfold rmul at 1 2. cbn [nopp nmul rnd_num]. replace (- wd * wx) with (- (wd * wx)) by ring. rewrite b64_opp.
  unfold rmul at 1 2 3 4. cbn [nmul rnd_num]. destruct (b64_nonneg (wd * wx) ltac:(apply Rmult_le_pos; lra)) as [-> | (v & -> & Hv & Dv)]; cbn [nopp nmul rnd_num].
  - unfold inf_times. rewrite Reqb_false, Rltb_true by lra. reflexivity.
  - replace (- v * wy) with (- (v * wy)) by ring. rewrite b64_opp. destruct (b64_nonneg (v * wy) ltac:(apply Rmult_le_pos; lra)) as [-> | (u & -> & Hu & Du)]; reflexivity.
Qed.
Print Assumptions C100_layers.

Example C100_layers_case : datum (Fin (two 3)) /\ rmfit_p_ijk b64 (Fin (two 3)) (Fin (two 600)) (Fin (two 600)) = Fin 1.
Proof.
  split; [apply two_datum; lia|]. unfold rmfit_p_ijk. rewrite !is0_fin_pos by apply two_pos. cbn [orb]. cbv zeta.
  rewrite mul_two, b64_two by lia. rewrite mul_two, b64_over by lia. reflexivity.
Qed.

(** * Probabilities *)
Lemma expm1_inf : nopp (rexpm1 b64 (nopp PInf)) = Fin 1.
Proof.
  unfold rexpm1. cbn [nopp]. assert (E : nexpm1 NInf = Fin (Ropp 1)) by (unfold nexpm1; cbn; f_equal; lra). rewrite E. cbn [rnd_num].
  rewrite b64_opp, (b64_fixed 1 double_1). cbn. f_equal. lra.
Qed.
Lemma exponential_pos : forall t, 0 < t -> double t -> exists p, b64 (1 - exp (- t)) = Fin p /\ 0 < p.
Proof.
  intros t Ht Dt. destruct (exponential_unit t ltac:(lra)) as (p & _ & E & Hp & Dp). exists p. split; [exact E|].
  assert (T : two (-1074) <= t) by (apply double_above_0; assumption).
  assert (G : two (-1074) * (3 / 4) <= 1 - exp (- t)).
  { pose proof (two_pos (-1074)) as P. assert (S : two (-1074) <= 1 / 4) by (replace (1 / 4) with (two (-2)) by (tw; lra); apply two_le; lia).
    set (u := two (-1074)) in *. apply Rle_trans with (1 - exp (- u)).
    - assert (exp (- u) * (1 + u) <= 1).
      { pose proof (exp_ineq1_le u). pose proof (exp_pos (- u)). assert (exp (- u) * exp u = 1) by (rewrite <- exp_plus; replace (- u + u) with 0 by ring; apply exp_0). nra. }
      pose proof (exp_pos (- u)). assert (exp (- u) <= 1 - u * (3 / 4)); [|lra].
      apply Rmult_le_reg_r with (1 + u); [lra|]. nra.
    - destruct T as [T | T]; [|rewrite <- T; lra]. pose proof (exp_increasing (- t) (- u) ltac:(lra)). lra. }
  assert (R : b64 (two (-1074) * (3 / 4)) = Fin (two (-1074))).
  { pose proof (two_pos (-1074)) as P. rewrite b64_pos by lra. unfold round_pos.
    assert (Lp : last_place (two (-1074) * (3 / 4)) = (-1074)%Z).
    { unfold last_place. rewrite (log_unique _ (-1075)); [reflexivity|]. change (-1075 + 1)%Z with (-1074)%Z.
      replace (two (-1074)) with (2 * two (-1075)) by (rewrite <- two_1, <- two_add; reflexivity). pose proof (two_pos (-1075)). lra. }
    rewrite Lp. rewrite (near_eval _ 1).
    - rewrite Rmult_1_l, Rleb_false; [reflexivity | apply two_lt; lia].
    - replace (two (-1074) * (3 / 4) / two (-1074) - 1) with (- (1 / 4)) by (field; lra). rewrite Rabs_Ropp, Rabs_right by lra. lra. }
  pose proof (b64_mono _ _ G) as M. rewrite R, E in M. cbn in M. pose proof (two_pos (-1074)). lra.
Qed.

(** The two final steps of the fitness kernel, for a product [v] of the loop *)
Lemma complement : forall v, 0 <= v <= 1 -> double v -> exists p, rsub b64 (Fin 1) (Fin v) = Fin p /\ double p /\ 0 <= p <= 1 /\
  (p = 0 <-> v = 1) /\ (v = 0 -> p = 1) /\ Rabs (p - (1 - v)) <= two (-53).
Proof.
  intros v Hv Dv. unfold rsub. cbn [nsub nopp nadd rnd_num]. replace (1 + - v) with (1 - v) by ring.
  destruct (near_unit (1 - v) ltac:(lra)) as (p & E & D & Hp & R). exists p. split; [exact E|]. split; [exact D|]. split; [exact Hp|].
  split; [|split; [intros ->; rewrite Rminus_0_r, (b64_fixed 1 double_1) in E; congruence | exact R]]. split.
  - intros ->. destruct (Req_dec v 1) as [|N]; [assumption|]. exfalso. pose proof (double_below_1 v Dv ltac:(lra)) as B.
    pose proof (b64_mono (two (-53)) (1 - v) ltac:(lra)) as M. rewrite (b64_two (-53)), E in M by lia. cbn in M. pose proof (two_pos (-53)). lra.
  - intros ->. replace (1 - 1) with 0 in E by ring. rewrite b64_0 in E. congruence.
Qed.

Lemma label_probability : forall d x y, datum d -> datum x -> datum y ->
  rminv_p_ijk b64 d x y = match label_tmp d x y with PInf => Fin 1 | t => nopp (rexpm1 b64 (nopp t)) end.
Proof.
  intros d x y Hd Hx Hy. unfold rminv_p_ijk. pose proof (label_amount d x y Hd Hx Hy) as A. unfold label_tmp in *.
  assert (E0 : nopp (rexpm1 b64 (nopp (Fin 0))) = Fin 0).
  { unfold rexpm1. cbn [nopp]. rewrite nexpm1_fin. cbn [rnd_num]. rewrite Ropp_0, exp_0. replace (1 - 1) with 0 by ring. rewrite b64_0. cbn. f_equal. lra. }
  destruct (is0 d), (is0 x), (is0 y); cbn [orb] in *; rewrite ?E0; try reflexivity.
  destruct A as [-> | (t & -> & _)]; reflexivity.
Qed.

(** The probabilities of both multi-label models are doubles in [0,1].  In the fitness model the probability is computed as 0
    exactly if the product of the parameter and the fitnesses is at most 2^-53 in every label; in the scale-invariant model it
    is never below the probability in a layer, and 0 exactly if all of them are. *)
Theorem C100_probabilities : forall L d xs ys, canonical L xs -> canonical L ys -> (forall k, (k < L)%nat -> datum (d k)) ->
  Forall (fun p => datum (snd p)) xs -> Forall (fun p => datum (snd p)) ys ->
  let x k := lookup k xs in let y k := lookup k ys in
  (exists p, rmfit_p_ij b64 d xs ys = Fin p /\ 0 <= p <= 1 /\ double p /\
     (p = 0 <-> forall k, (k < L)%nat -> is0 (d k) || is0 (x k) || is0 (y k) = true \/
        exists t, rmul b64 (rmul b64 (d k) (x k)) (y k) = Fin t /\ t <= two (-53))) /\
  (exists p, rminv_p_ij b64 d xs ys = Fin p /\ 0 <= p <= 1 /\ double p /\
     (forall k, (k < L)%nat -> nleb (rminv_p_ijk b64 (d k) (x k) (y k)) (Fin p) = true) /\
     (p = 0 <-> forall k, (k < L)%nat -> rminv_p_ijk b64 (d k) (x k) (y k) = Fin 0)).
Proof.
  intros L d xs ys Cx Cy Hd Hx Hy x y.
  assert (Dx : forall k, datum (x k)) by (intros; apply lookup_datum; exact Hx). assert (Dy : forall k, datum (y k)) by (intros; apply lookup_datum; exact Hy).
  split.
  - assert (T : forall k, (k < L)%nat -> (tmp_at d xs ys k <> PInf /\ toR (tmp_at d xs ys k) <= two (-53)) <->
      (is0 (d k) || is0 (x k) || is0 (y k) = true \/ exists t, rmul b64 (rmul b64 (d k) (x k)) (y k) = Fin t /\ t <= two (-53))).
    { intros k Hk. pose proof (tmp_at_amount L d xs ys Hd Hx Hy k Hk) as A. unfold tmp_at, label_tmp in *. fold (x k) (y k) in *.
      destruct (is0 (d k) || is0 (x k) || is0 (y k)).
      - split; [left; reflexivity|]. intros _. split; [discriminate | cbn; left; apply two_pos].
      - split.
        + intros [N H]. right. destruct A as [A | (t & A & _)]; [contradiction|]. exists t. rewrite A in H. auto.
        + intros [H | (t & H & B)]; [discriminate|]. rewrite H. split; [discriminate | exact B]. }
    unfold rmfit_p_ij. destruct (fit_walk L d xs ys Cx Cy Hd Hx Hy (Fin 1)) as [[(k & Hk & K) ->] | (N & v & -> & Dv & Hv & Z & _)].
    + exists 1. split; [reflexivity|]. split; [lra|]. split; [apply double_1|]. split; [lra|]. intros H. exfalso.
      destruct (proj2 (T k Hk) (H k Hk)) as [C _]. contradiction.
    + destruct (complement v Hv Dv) as (p & E & Dp & Hp & Zp & _). exists p. split; [exact E|]. split; [exact Hp|]. split; [exact Dp|].
      rewrite Zp, Z. split; intros H k Hk; [apply T; [exact Hk|]; split; [apply N; exact Hk | apply H; exact Hk] | apply T; [exact Hk | apply H; exact Hk]].
  - assert (LP : forall k, (k < L)%nat -> rminv_p_ijk b64 (d k) (x k) (y k) = match tmp_at d xs ys k with PInf => Fin 1 | t => nopp (rexpm1 b64 (nopp t)) end)
      by (intros k Hk; apply label_probability; auto).
    unfold rminv_p_ij. destruct (inv_walk L d xs ys Cx Cy Hd Hx Hy (Fin 1)) as [[(k & Hk & K) ->] | (N & s & -> & As & Le & Z)].
    + exists 1. split; [reflexivity|]. split; [lra|]. split; [apply double_1|]. split.
      * intros i Hi. rewrite (LP i Hi). apply le_num_nleb. destruct (tmp_at_amount L d xs ys Hd Hx Hy i Hi) as [-> | (t & -> & Ht & _)]; [cbn; lra|].
        destruct (exponential_unit t Ht) as (p & -> & _ & Hp & _). cbn. lra.
      * split; [lra|]. intros H. specialize (H k Hk). rewrite (LP k Hk), K in H. injection H as H. lra.
    + assert (PS : exists p, nopp (rexpm1 b64 (nopp s)) = Fin p /\ 0 <= p <= 1 /\ double p /\ (p = 0 <-> s = Fin 0) /\
        (forall t, 0 <= t -> le_num (Fin t) s -> forall q, b64 (1 - exp (- t)) = Fin q -> q <= p)).
      { destruct As as [-> | (v & -> & Hv & Dv)].
        - exists 1. split; [apply expm1_inf|]. split; [lra|]. split; [apply double_1|]. split; [split; [lra | discriminate]|].
          intros t Ht _ q Eq. destruct (exponential_unit t Ht) as (q' & _ & Eq' & Hq & _). rewrite Eq in Eq'. injection Eq' as <-. lra.
        - destruct (exponential_unit v Hv) as (p & E & E' & Hp & Dp). exists p. split; [exact E|]. split; [exact Hp|]. split; [exact Dp|]. split.
          + split.
            * intros ->. destruct (Req_dec v 0) as [->|NZ]; [reflexivity|]. destruct (exponential_pos v ltac:(lra) Dv) as (q & Eq & Pq). rewrite E' in Eq. injection Eq as <-. lra.
            * intros V. injection V as ->. rewrite Ropp_0, exp_0 in E'. replace (1 - 1) with 0 in E' by ring. rewrite b64_0 in E'. congruence.
          + intros t Ht Lt q Eq. cbn in Lt. assert (M : 1 - exp (- t) <= 1 - exp (- v)).
            { destruct Lt as [Lt | ->]; [pose proof (exp_increasing (- v) (- t) ltac:(lra)); lra | lra]. }
            apply b64_mono in M. rewrite Eq, E' in M. exact M. }
      destruct PS as (p & E & Hp & Dp & Zp & Mp). exists p. split; [exact E|]. split; [exact Hp|]. split; [exact Dp|]. split.
      * intros k Hk. rewrite (LP k Hk). apply le_num_nleb. specialize (Le k Hk). specialize (N k Hk).
        destruct (tmp_at_amount L d xs ys Hd Hx Hy k Hk) as [K | (t & K & Ht & _)]; [contradiction|]. rewrite K in *.
        destruct (exponential_unit t Ht) as (q & Eq & Eq' & _). rewrite Eq. cbn. exact (Mp t Ht Le q Eq').
      * rewrite Zp, Z. split; intros H k Hk; specialize (H k Hk); specialize (N k Hk).
        -- rewrite (LP k Hk), H. destruct (exponential_unit 0 ltac:(lra)) as (q & Eq & Eq' & _). rewrite Eq. rewrite Ropp_0, exp_0 in Eq'.
           replace (1 - 1) with 0 in Eq' by ring. rewrite b64_0 in Eq'. congruence.
        -- rewrite (LP k Hk) in H. destruct (tmp_at_amount L d xs ys Hd Hx Hy k Hk) as [K | (t & K & Ht & Dt)]; [contradiction|]. rewrite K in *.
           destruct (Req_dec t 0) as [->|NZ]; [reflexivity|]. exfalso. destruct (exponential_unit t Ht) as (q & Eq & Eq' & _).
           destruct (exponential_pos t ltac:(lra) Dt) as (q' & Eq'' & Pq). rewrite Eq in H. injection H as ->. rewrite Eq' in Eq''. injection Eq'' as <-. lra.
Qed.
Print Assumptions C100_probabilities.

(** The logarithms of both models agree with the probabilities: that of the probability is -inf exactly where the probability is
    computed as 0 and otherwise a finite number in [-53,0], respectively [-1074,0]; that of the complement is never positive or
    NaN, and -inf only where the probability is computed as 1. *)
Theorem C100_logs : forall L d xs ys, canonical L xs -> canonical L ys -> (forall k, (k < L)%nat -> datum (d k)) ->
  Forall (fun p => datum (snd p)) xs -> Forall (fun p => datum (snd p)) ys ->
  ((rmfit_logp b64 d xs ys = NInf <-> rmfit_p_ij b64 d xs ys = Fin 0) /\
   (rmfit_p_ij b64 d xs ys <> Fin 0 -> exists l, rmfit_logp b64 d xs ys = Fin l /\ - 53 <= l <= 0) /\
   (rmfit_log1mp b64 d xs ys = NInf /\ rmfit_p_ij b64 d xs ys = Fin 1 \/ exists l, rmfit_log1mp b64 d xs ys = Fin l /\ - 1074 <= l <= 0)) /\
  ((rminv_logp b64 d xs ys = NInf <-> rminv_p_ij b64 d xs ys = Fin 0) /\
   (rminv_p_ij b64 d xs ys <> Fin 0 -> exists l, rminv_logp b64 d xs ys = Fin l /\ - 1074 <= l <= 0) /\
   (rminv_log1mp b64 d xs ys = NInf /\ rminv_p_ij b64 d xs ys = Fin 1 \/ exists l, rminv_log1mp b64 d xs ys = Fin l /\ l <= 0)).
Proof.
  intros L d xs ys Cx Cy Hd Hx Hy. split.
  - unfold rmfit_logp, rmfit_log1mp, rmfit_p_ij.
    destruct (fit_walk L d xs ys Cx Cy Hd Hx Hy (Fin 1)) as [[K ->] | (N & v & E1 & Dv & Hv & Z & _)].
    + destruct (fit_walk L d xs ys Cx Cy Hd Hx Hy (Fin 0)) as [[_ ->] | (N & _)]; [|destruct K as (k & Hk & K); exfalso; exact (N k Hk K)].
      destruct (fit_walk L d xs ys Cx Cy Hd Hx Hy NInf) as [[_ ->] | (N & _)]; [|destruct K as (k & Hk & K); exfalso; exact (N k Hk K)].
      split; [split; [discriminate | intros E; injection E as E; lra]|]. split; [intros _; exists 0; split; [reflexivity | lra] | left; split; reflexivity].
    + assert (S : forall r, walk (rmfit_step b64 r d) xs ys (Fin 1) = Next (Fin v)).
      { intros r. rewrite (walk_dense _ _ _ L) by (assumption || apply rmfit_neutral). rewrite (walk_dense _ _ _ L) in E1 by (assumption || apply rmfit_neutral).
        assert (G : forall n a, (n <= L)%nat ->
          for_flow n (fun k s => rmfit_step b64 (Fin 1) d k (lookup k xs) (lookup k ys) s) (Fin 1) = Next a ->
          for_flow n (fun k s => rmfit_step b64 r d k (lookup k xs) (lookup k ys) s) (Fin 1) = Next a).
        { induction n as [|n IH]; intros a Hn H; [exact H|]. cbn [for_flow] in *.
          destruct (for_flow n _ (Fin 1)) as [b | r0] eqn:F; [|discriminate]. rewrite (IH b ltac:(lia) eq_refl).
          unfold rmfit_step in *. destruct (negb _ && negb _ && negb _); [|exact H]. cbv zeta in *. destruct (isinf _); [discriminate | exact H]. }
        apply G; [lia | exact E1]. }
      rewrite !S. destruct (complement v Hv Dv) as (p & E & Dp & Hp & Zp & Z1 & _). rewrite E.
      change (neqb (Fin v) (Fin 1)) with (Reqb v 1).
      destruct (Req_dec v 1) as [V|V].
      * rewrite Reqb_true by exact V. apply Zp in V. subst p. split; [split; reflexivity|]. split; [intros C; contradiction|].
        right. exists 0. split; [reflexivity | lra].
      * rewrite Reqb_false by exact V. pose proof (double_below_1 v Dv ltac:(lra)) as B.
        destruct (log_of (1 + - v) 53) as (l & El & Hl); [pose proof (two_pos (-53)); lra | lia | change (- (53))%Z with (-53)%Z; lra |].
        assert (L1 : rlog1p b64 (nopp (Fin v)) = Fin l) by exact El.
        split; [rewrite L1; split; [discriminate | intros C; injection C as C; apply Zp in C; contradiction]|].
        split; [intros _; exists l; auto|].
        destruct (Req_dec v 0) as [->|V0].
        -- left. split; [|rewrite Z1 by reflexivity; reflexivity]. unfold rlog. cbn [nlog]. rewrite Rltb_false, Reqb_true by lra. reflexivity.
        -- right. destruct (log_of v 1074) as (m & Em & Hm); [lra | lia | apply double_above_0; [exact Dv | lra] | exists m; auto].
  - unfold rminv_logp, rminv_log1mp, rminv_p_ij.
    destruct (inv_walk L d xs ys Cx Cy Hd Hx Hy (Fin 1)) as [[K ->] | (N & s & E1 & As & Le & Z)].
    + destruct (inv_walk L d xs ys Cx Cy Hd Hx Hy (Fin 0)) as [[_ ->] | (N & _)]; [|destruct K as (k & Hk & K); exfalso; exact (N k Hk K)].
      destruct (inv_walk L d xs ys Cx Cy Hd Hx Hy NInf) as [[_ ->] | (N & _)]; [|destruct K as (k & Hk & K); exfalso; exact (N k Hk K)].
      split; [split; [discriminate | intros E; injection E as E; lra]|]. split; [intros _; exists 0; split; [reflexivity | lra] | left; split; reflexivity].
    + assert (S : forall r, walk (rminv_step b64 r d) xs ys (Fin 0) = Next s).
      { intros r. rewrite (walk_dense _ _ _ L) by (assumption || apply rminv_neutral). rewrite (walk_dense _ _ _ L) in E1 by (assumption || apply rminv_neutral).
        assert (G : forall n a, (n <= L)%nat ->
          for_flow n (fun k s => rminv_step b64 (Fin 1) d k (lookup k xs) (lookup k ys) s) (Fin 0) = Next a ->
          for_flow n (fun k s => rminv_step b64 r d k (lookup k xs) (lookup k ys) s) (Fin 0) = Next a).
        { induction n as [|n IH]; intros a Hn H; [exact H|]. cbn [for_flow] in *.
          destruct (for_flow n _ (Fin 0)) as [b | r0] eqn:F; [|discriminate]. rewrite (IH b ltac:(lia) eq_refl).
          unfold rminv_step in *. destruct (negb _ && negb _ && negb _); [|exact H]. cbv zeta in *. destruct (isinf _); [discriminate | exact H]. }
        apply G; [lia | exact E1]. }
      rewrite !S. destruct As as [-> | (v & -> & Hv & Dv)].
      * rewrite expm1_inf. change (is0 PInf) with false. cbv iota.
        destruct (log_of 1 0) as (l & El & Hl); [lra | lia | change (- 0)%Z with 0%Z; rewrite two_0; lra |]. rewrite El.
        split; [split; [discriminate | intros C; injection C as C; lra]|]. split; [intros _; exists l; split; [reflexivity | lra] | left; split; reflexivity].
      * destruct (exponential_unit v Hv) as (p & E & E' & Hp & Dp). rewrite E. change (is0 (Fin v)) with (Reqb v 0).
        destruct (Req_dec v 0) as [->|V].
        -- rewrite Reqb_true by reflexivity. rewrite Ropp_0, exp_0 in E'. replace (1 - 1) with 0 in E' by ring. rewrite b64_0 in E'. injection E' as <-.
           split; [split; reflexivity|]. split; [intros C; contradiction|]. right. exists (- 0). split; [reflexivity | lra].
        -- rewrite Reqb_false by exact V. destruct (exponential_pos v ltac:(lra) Dv) as (q & Eq & Pq). rewrite E' in Eq. injection Eq as <-.
           destruct (log_of p 1074) as (l & El & Hl); [lra | lia | apply double_above_0; [exact Dp | lra] |]. rewrite El.
           split; [split; [discriminate | intros C; injection C as C; lra]|]. split; [intros _; exists l; auto|]. right. exists (- v). split; [reflexivity | lra].
Qed.
Print Assumptions C100_logs.

(** * Error *)
Lemma is0_fin0 : forall a, is0 a = true -> a = Fin 0.
Proof. intros [x| | |] H; try discriminate H. change (is0 (Fin x)) with (Reqb x 0) in H. destruct (Reqb_spec x 0) as [E|]; [rewrite E; reflexivity | discriminate]. Qed.
Lemma label_rel : forall a b c, moderate a -> moderate b -> moderate c -> exists t, label_tmp a b c = Fin t /\ double t /\
  (t = 0 /\ toR a * toR b * toR c = 0 \/ two (-390) <= t <= two 390) /\
  (1 - two (-53)) ^ 2 * (toR a * toR b * toR c) <= t <= (1 + two (-53)) ^ 2 * (toR a * toR b * toR c).
Proof.
  intros a b c Ha Hb Hc. unfold label_tmp. destruct (is0 a || is0 b || is0 c) eqn:Z.
  - assert (P : toR a * toR b * toR c = 0).
    { apply orb_true_iff in Z as [Z|Z]; [apply orb_true_iff in Z as [Z|Z]|]; apply is0_fin0 in Z; rewrite Z; cbn [toR]; ring. }
    exists 0. split; [reflexivity|]. split; [apply double_0|]. rewrite P. split; [left; split; reflexivity | lra].
  - destruct (tmp_between a b c Ha Hb Hc Z) as (t & E & D & B). exists t. split; [exact E|]. split; [exact D|]. split; [right; exact B|].
    apply orb_false_iff in Z as [Z Zc]. apply orb_false_iff in Z as [Za Zb].
    destruct (moderate_pos a Ha Za) as (wa & -> & _ & Ba), (moderate_pos b Hb Zb) as (wb & -> & _ & Bb), (moderate_pos c Hc Zc) as (wc & -> & _ & Bc).
    cbn [toR]. pose proof (two_pos (-130)) as P1.
    assert (R1 : two (-260) <= wa * wb <= two 260).
    { split; [change (-260)%Z with (-130 + -130)%Z | change 260%Z with (130 + 130)%Z]; rewrite two_add; apply Rmult_le_compat; lra. }
    destruct (b64_rel (wa * wb)) as (v & Ev & Dv & Hv); [split; [apply Rle_trans with (two (-260)) | apply Rle_trans with (two 260)]; try lra; apply two_le; lia|].
    unfold rmul in E. cbn [nmul rnd_num] in E. rewrite Ev in E. cbn [nmul rnd_num] in E.
    destruct (mul_between wa wb (-130) 130 (-130) 130 Ba Bb) as (v' & Ev' & _ & Hv'); [lia | lia|].
    unfold rmul in Ev'. cbn [nmul rnd_num] in Ev'. rewrite Ev in Ev'. injection Ev' as <-.
    change (-130 + -130)%Z with (-260)%Z in Hv'. change (130 + 130)%Z with 260%Z in Hv'.
    assert (R2 : two (-390) <= v * wc <= two 390).
    { pose proof (two_pos (-260)). split; [change (-390)%Z with (-260 + -130)%Z | change 390%Z with (260 + 130)%Z]; rewrite two_add; apply Rmult_le_compat; lra. }
    destruct (b64_rel (v * wc)) as (t' & Et & _ & Ht); [split; [apply Rle_trans with (two (-390)) | apply Rle_trans with (two 390)]; try lra; apply two_le; lia|].
    rewrite Et in E. injection E as ->. clear Et Ev. set (u := two (-53)) in *.
    assert (U : 0 < u < 1) by (split; [apply two_pos | rewrite <- two_0; apply two_lt; lia]). clearbody u.
    assert (wcp : 0 < wc) by lra. assert (0 < wa * wb) by (pose proof (two_pos (-260)); lra). cbn [pow]. split.
    + apply Rle_trans with (v * wc * (1 - u)); [|lra].
      replace ((1 - u) * ((1 - u) * 1) * (wa * wb * wc)) with (wa * wb * (1 - u) * wc * (1 - u)) by ring.
      apply Rmult_le_compat_r; [lra|]. apply Rmult_le_compat_r; lra.
    + apply Rle_trans with (v * wc * (1 + u)); [lra|].
      replace ((1 + u) * ((1 + u) * 1) * (wa * wb * wc)) with (wa * wb * (1 + u) * wc * (1 + u)) by ring.
      apply Rmult_le_compat_r; [lra|]. apply Rmult_le_compat_r; lra.
Qed.

Lemma lookup_moderate : forall k xs, Forall (fun p => moderate (snd p)) xs -> moderate (lookup k xs).
Proof.
  intros k xs H. induction H as [|[l v] t Hv Ht IH]; cbn [lookup]; [left; reflexivity|]. destruct (Nat.eqb l k); [exact Hv | exact IH].
Qed.
Lemma moderate_row : forall xs, Forall (fun p => moderate (snd p)) xs -> row_data xs.
Proof. intros xs H. eapply Forall_impl; [|exact H]. intros p. apply moderate_datum. Qed.
Lemma prodn_close : forall n f g e, (forall k, (k < n)%nat -> 0 <= f k <= 1 /\ 0 <= g k <= 1 /\ Rabs (f k - g k) <= e) -> 0 <= e ->
  0 <= prodn n f <= 1 /\ Rabs (prodn n f - prodn n g) <= INR n * e.
Proof.
  intros n f g e H He. induction n as [|n IH].
  - cbn. rewrite Rminus_diag_eq, Rabs_R0 by reflexivity. lra.
  - destruct IH as [If IH]; [intros k Hk; apply H; lia|]. destruct (H n ltac:(lia)) as (Hf & Hg & E). cbn [prodn]. rewrite S_INR. split; [nra|].
    replace (prodn n f * f n - prodn n g * g n) with (prodn n f * (f n - g n) + (prodn n f - prodn n g) * g n) by ring.
    eapply Rle_trans; [apply Rabs_triang|]. rewrite !Rabs_mult, (Rabs_right (prodn n f)), (Rabs_right (g n)) by lra.
    pose proof (Rabs_pos (f n - g n)). pose proof (Rabs_pos (prodn n f - prodn n g)). nra.
Qed.

(** 1 - exp(-s) changes by at most the factor by which s changes *)
Lemma poissonian_scale_up : forall c s, 1 <= c -> 0 <= s -> poissonian (c * s) <= c * poissonian s.
Proof.
  intros c s Hc Hs. destruct (Req_dec s 0) as [->|N]; [unfold poissonian; rewrite Rmult_0_r, Ropp_0, exp_0; lra|].
  unfold poissonian.
  (* exp (-s) <= (1/c) exp (-c s) + (1 - 1/c) by convexity; here by the derivative at -s *)
  assert (T : forall a b, exp a * (1 + (b - a)) <= exp b).
  { intros a b. replace b with (a + (b - a)) at 2 by ring. rewrite exp_plus. pose proof (exp_pos a). pose proof (exp_ineq1_le (b - a)). nra. }
  pose proof (T (- s) (- (c * s))) as T1. pose proof (T (- s) 0) as T2. rewrite exp_0 in T2. pose proof (exp_pos (- s)). nra.
Qed.
Lemma poissonian_scale_down : forall c s, 0 < c <= 1 -> 0 <= s -> c * poissonian s <= poissonian (c * s).
Proof.
  intros c s Hc Hs. assert (I : 1 <= / c) by (rewrite <- Rinv_1; apply Rinv_le_contravar; lra).
  assert (P : 0 <= c * s) by (apply Rmult_le_pos; lra). pose proof (poissonian_scale_up (/ c) (c * s) I P) as U.
  replace (/ c * (c * s)) with s in U by (field; lra).
  apply Rmult_le_reg_l with (/ c); [lra|]. replace (/ c * (c * poissonian s)) with (poissonian s) by (field; lra). exact U.
Qed.
Lemma poissonian_mono : forall s t, s <= t -> poissonian s <= poissonian t.
Proof. intros s t [H | ->]; [|lra]. unfold poissonian. pose proof (exp_increasing (- t) (- s) ltac:(lra)). lra. Qed.

Lemma scaled_up : forall c e, (Z.of_nat c <= 2 ^ 53)%Z -> (0 <= e <= 900)%Z -> double (INR c * two e).
Proof.
  intros c e H He. rewrite INR_IZR_INZ. destruct (Z.eq_dec (Z.of_nat c) (2 ^ 53)) as [->|N].
  - rewrite <- two_Z, <- two_add by lia. apply double_two. lia.
  - exists (Z.of_nat c), e. split; [reflexivity|]. lia.
Qed.

(** The rounded sum of the scale-invariant model stays within a relative error *)
Lemma inv_sum : forall r L d xs ys, canonical L xs -> canonical L ys -> (Z.of_nat L <= 2 ^ 53)%Z -> (forall k, (k < L)%nat -> moderate (d k)) ->
  Forall (fun p => moderate (snd p)) xs -> Forall (fun p => moderate (snd p)) ys ->
  let w k := toR (d k) * toR (lookup k xs) * toR (lookup k ys) in
  exists s, walk (rminv_step b64 r d) xs ys (Fin 0) = Next (Fin s) /\ double s /\ (s = 0 /\ sumn L w = 0 \/ two (-390) <= s <= two 1000) /\
  (1 - two (-53)) ^ (L + 2) * sumn L w <= s <= (1 + two (-53)) ^ (L + 2) * sumn L w.
Proof.
  intros r L d xs ys Cx Cy HL Hd Hx Hy w. rewrite (walk_dense _ _ _ L) by (assumption || apply rminv_neutral).
  set (u := two (-53)). assert (U : 0 < u < 1) by (split; [apply two_pos | unfold u; rewrite <- two_0; apply two_lt; lia]).
  assert (W0 : forall k, (k < L)%nat -> 0 <= w k).
  { intros k Hk. unfold w. assert (M : forall a, moderate a -> 0 <= toR a) by (intros a [-> | (v & -> & _ & H)]; cbn; [lra | pose proof (two_pos (-130)); lra]).
    repeat apply Rmult_le_pos; apply M; [apply Hd; exact Hk | apply lookup_moderate; exact Hx | apply lookup_moderate; exact Hy]. }
  set (Q := fun (n : nat) (s : num) => exists v, s = Fin v /\ double v /\ (v = 0 /\ sumn n w = 0 \/ two (-390) <= v <= INR n * two 391) /\
    (1 - u) ^ (n + 2) * sumn n w <= v <= (1 + u) ^ (n + 2) * sumn n w).
  assert (F : match for_flow L (fun k => rminv_step b64 r d k (lookup k xs) (lookup k ys)) (Fin 0) with Next s => Q L s | Return t => False end).
  { apply flow_rule.
    - exists 0. split; [reflexivity|]. split; [apply double_0|]. cbn [sumn]. split; [left; split; reflexivity | lra].
    - intros k s Hk (v & -> & Dv & Bv & Rv).
      destruct (label_rel (d k) (lookup k xs) (lookup k ys)) as (t & E & Dt & Bt & Rt); [apply Hd; exact Hk | apply lookup_moderate; exact Hx | apply lookup_moderate; exact Hy|].
      fold (w k) in Bt, Rt. fold u in Rt.
      assert (V0 : 0 <= v) by (destruct Bv as [[-> _] | Bv]; [lra | pose proof (two_pos (-390)); lra]).
      rewrite rminv_step_eq by (first [apply moderate_datum; first [apply Hd; exact Hk | apply lookup_moderate; assumption] | right; apply datum_fin; assumption]). rewrite E.
      assert (S0 : 0 <= sumn k w) by (apply sumn_nonneg; intros i Hi; apply W0; lia). specialize (W0 k Hk).
      assert (Pm : 0 < (1 - u) ^ k <= 1) by (split; [apply pow_lt; lra | rewrite <- (pow1 k) at 2; apply pow_incr; lra]).
      assert (Pp : 1 <= (1 + u) ^ k) by (apply pow_R1_Rle; lra).
      rewrite (pow_add (1 - u) k 2), (pow_add (1 + u) k 2) in Rv.
      unfold Q. cbn [sumn]. change (S k + 2)%nat with (S (k + 2)). rewrite <- !tech_pow_Rmult, (pow_add (1 - u) k 2), (pow_add (1 + u) k 2).
      assert (Lo : (1 - u) ^ k * (1 - u) ^ 2 * (sumn k w + w k) <= v + t).
      { assert (A : (1 - u) ^ k * ((1 - u) ^ 2 * w k) <= 1 * ((1 - u) ^ 2 * w k)) by (apply Rmult_le_compat_r; [apply Rmult_le_pos; [apply pow_le; lra | exact W0] | lra]). lra. }
      assert (Up : v + t <= (1 + u) ^ k * (1 + u) ^ 2 * (sumn k w + w k)).
      { assert (A : 1 * ((1 + u) ^ 2 * w k) <= (1 + u) ^ k * ((1 + u) ^ 2 * w k)) by (apply Rmult_le_compat_r; [apply Rmult_le_pos; [apply pow_le; lra | exact W0] | lra]). lra. }
      set (lo := (1 - u) ^ k * (1 - u) ^ 2) in *. set (up := (1 + u) ^ k * (1 + u) ^ 2) in *.
      assert (Hlo : 0 <= lo) by (unfold lo; apply Rmult_le_pos; [lra | apply pow_le; lra]).
      assert (Hup : 0 <= up) by (unfold up; apply Rmult_le_pos; [lra | apply pow_le; lra]).
      unfold radd. cbn [nadd rnd_num].
      assert (T390 : 0 < two 390) by apply two_pos. assert (T391 : two 391 = 2 * two 390) by (change 391%Z with (1 + 390)%Z; rewrite two_add, two_1; reflexivity).
      assert (N0 : 0 <= INR k) by apply pos_INR. rewrite S_INR.
      destruct (Req_dec t 0) as [->|Nt].
      + rewrite Rplus_0_r, (b64_fixed v Dv). exists v. split; [reflexivity|]. split; [exact Dv|].
        assert (Wk : w k = 0) by (destruct Bt as [[_ Bt] | Bt]; [exact Bt | pose proof (two_pos (-390)); lra]). rewrite Wk, !Rplus_0_r in *. split.
        * destruct Bv as [Bv | Bv]; [left; exact Bv | right; lra].
        * assert (0 <= lo * sumn k w) by (apply Rmult_le_pos; lra). assert (0 <= up * sumn k w) by (apply Rmult_le_pos; lra). split; nra.
      + assert (Bt' : two (-390) <= t <= two 390) by (destruct Bt as [[Bt _] | Bt]; [contradiction | exact Bt]).
        assert (G : two (-390) <= v + t <= INR k * two 391 + two 390) by (destruct Bv as [[-> _] | Bv]; [split; [lra|]; assert (0 <= INR k * two 391) by (apply Rmult_le_pos; lra); lra | lra]).
        assert (K53 : INR k <= two 53).
        { rewrite two_Z by lia. rewrite INR_IZR_INZ. apply IZR_le. lia. }
        assert (C : INR k * two 391 + two 390 <= two 1000).
        { apply Rle_trans with (two 53 * two 391 + two 391); [assert (INR k * two 391 <= two 53 * two 391) by (apply Rmult_le_compat_r; lra); lra|].
          apply Rle_trans with (two 53 * two 391 + two 53 * two 391).
          - assert (two 0 <= two 53) by (apply two_le; lia). rewrite two_0 in *. assert (1 * two 391 <= two 53 * two 391) by (apply Rmult_le_compat_r; lra). lra.
          - rewrite <- two_add. replace (two (53 + 391) + two (53 + 391)) with (two (1 + (53 + 391))) by (rewrite (two_add 1), two_1; ring). apply two_le. lia. }
        destruct (b64_rel (v + t)) as (v' & Ev & Dv' & Rv').
        { split; [apply Rle_trans with (two (-390)); [apply two_le; lia | lra] | apply Rle_trans with (two 1000); [lra | apply two_le; lia]]. }
        fold u in Rv'. exists v'. split; [exact Ev|]. split; [exact Dv'|]. split.
        * right. split.
          -- pose proof (b64_mono (two (-390)) (v + t) ltac:(lra)) as M. rewrite (b64_two (-390)), Ev in M by lia. exact M.
          -- pose proof (b64_mono (v + t) (INR (S k) * two 391)) as M. rewrite Ev, (b64_fixed (INR (S k) * two 391)) in M by (apply scaled_up; lia).
             rewrite S_INR in M. apply M. lra.
        * split; [apply Rle_trans with ((v + t) * (1 - u)); [|lra]; rewrite (Rmult_comm (v + t)), Rmult_assoc; apply Rmult_le_compat_l; lra
                 |apply Rle_trans with ((v + t) * (1 + u)); [lra|]; rewrite (Rmult_comm (v + t)), Rmult_assoc; apply Rmult_le_compat_l; lra]. }
  destruct (for_flow L _ _) as [s|t]; [|contradiction]. destruct F as (v & -> & Dv & Bv & Rv). exists v. split; [reflexivity|]. split; [exact Dv|]. split; [|exact Rv].
  destruct Bv as [Bv | Bv]; [left; exact Bv | right]. split; [lra|]. eapply Rle_trans; [apply Bv|].
  apply Rle_trans with (two 53 * two 391); [apply Rmult_le_compat_r; [left; apply two_pos|]; rewrite two_Z by lia; rewrite INR_IZR_INZ; apply IZR_le; lia|].
  rewrite <- two_add. apply two_le. lia.
Qed.

(** With parameters and fitnesses that are 0 or between 2^-130 and 2^130 the error of the probability is absolute, and of one
    unit in 2^50 per label, in the fitness model; it is relative in the scale-invariant model. *)
Theorem C100_error : forall L d xs ys, canonical L xs -> canonical L ys -> (Z.of_nat L <= 2 ^ 53)%Z -> (forall k, (k < L)%nat -> moderate (d k)) ->
  Forall (fun p => moderate (snd p)) xs -> Forall (fun p => moderate (snd p)) ys ->
  let w k := toR (d k) * toR (lookup k xs) * toR (lookup k ys) in
  (exists p, rmfit_p_ij b64 d xs ys = Fin p /\ Rabs (p - (1 - prodn L (fun k => 1 - logistic (w k)))) <= (INR L + 1) * two (-50)) /\
  (exists p, rminv_p_ij b64 d xs ys = Fin p /\
     (1 - two (-53)) ^ (L + 3) * (1 - prodn L (fun k => 1 - poissonian (w k))) <= p <= (1 + two (-53)) ^ (L + 3) * (1 - prodn L (fun k => 1 - poissonian (w k)))).
Proof.
  intros L d xs ys Cx Cy HL Hd Hx Hy w.
  assert (LR : forall k, (k < L)%nat -> exists t, tmp_at d xs ys k = Fin t /\ double t /\ (t = 0 /\ w k = 0 \/ two (-390) <= t <= two 390) /\
    (1 - two (-53)) ^ 2 * w k <= t <= (1 + two (-53)) ^ 2 * w k).
  { intros k Hk. apply label_rel; [apply Hd; exact Hk | apply lookup_moderate; exact Hx | apply lookup_moderate; exact Hy]. }
  assert (W0 : forall k, (k < L)%nat -> 0 <= w k).
  { intros k Hk. unfold w. assert (M : forall a, moderate a -> 0 <= toR a) by (intros a [-> | (v & -> & _ & H)]; cbn; [lra | pose proof (two_pos (-130)); lra]).
    repeat apply Rmult_le_pos; apply M; [apply Hd; exact Hk | apply lookup_moderate; exact Hx | apply lookup_moderate; exact Hy]. }
  assert (Hd' : forall k, (k < L)%nat -> datum (d k)) by (intros k Hk; apply moderate_datum, Hd; exact Hk).
  assert (E50 : two (-50) = 8 * two (-53)) by (change (-50)%Z with (3 + -53)%Z; rewrite two_add, (two_Z 3) by lia; reflexivity).
  assert (E51 : two (-51) = 4 * two (-53)) by (change (-51)%Z with (2 + -53)%Z; rewrite two_add, (two_Z 2) by lia; reflexivity).
  assert (U : 0 < two (-53) < 1) by (split; [apply two_pos | rewrite <- two_0; apply two_lt; lia]).
  split.
  - unfold rmfit_p_ij. destruct (fit_walk L d xs ys Cx Cy Hd' (moderate_row _ Hx) (moderate_row _ Hy) (Fin 1)) as [[(k & Hk & K) _] | (N & v & -> & Dv & Hv & _ & Er)].
    { destruct (LR k Hk) as (t & E & _). rewrite K in E. discriminate. }
    destruct (complement v Hv Dv) as (p & E & _ & _ & _ & _ & Rp). exists p. split; [exact E|].
    destruct (prodn_close L (fun k => / (1 + toR (tmp_at d xs ys k))) (fun k => 1 - logistic (w k)) (two (-51))) as [_ C]; [|lra|].
    + intros k Hk. destruct (LR k Hk) as (t & -> & Dt & Bt & Rt). cbn [toR]. specialize (W0 k Hk). unfold logistic.
      assert (T0 : 0 <= t) by (destruct Bt as [[-> _] | Bt]; [lra | pose proof (two_pos (-390)); lra]).
      assert (Inv : forall s, 0 <= s -> 0 < / (1 + s) <= 1).
      { intros s Hs. split; [apply Rinv_0_lt_compat; lra | rewrite <- Rinv_1 at 2; apply Rinv_le_contravar; lra]. }
      replace (1 - w k / (1 + w k)) with (/ (1 + w k)) by (field; lra). pose proof (Inv t T0). pose proof (Inv (w k) W0). split; [lra|]. split; [lra|].
      replace (/ (1 + t) - / (1 + w k)) with ((w k - t) * / (1 + w k) * / (1 + t)) by (field; lra).
      rewrite !Rabs_mult, (Rabs_right (/ (1 + w k))), (Rabs_right (/ (1 + t))) by lra.
      assert (Q : Rabs (w k - t) <= two (-51) * w k).
      { rewrite E51. set (u := two (-53)) in *. clearbody u. cbn [pow] in Rt. apply Rabs_le. nra. }
      assert (F : w k * / (1 + w k) <= 1) by (apply Rmult_le_reg_r with (1 + w k); [lra|]; rewrite Rmult_assoc, Rinv_l by lra; lra).
      apply Rle_trans with (two (-51) * w k * / (1 + w k) * 1).
      * apply Rmult_le_compat; [apply Rmult_le_pos; [apply Rabs_pos | lra] | lra | apply Rmult_le_compat_r; lra | lra].
      * rewrite Rmult_1_r, Rmult_assoc. rewrite <- (Rmult_1_r (two (-51))) at 2. apply Rmult_le_compat_l; lra.
    + set (A := prodn L _) in *. set (B := prodn L (fun k => 1 - _)) in *.
      replace (p - (1 - B)) with ((p - (1 - v)) + (- (v - A) + - (A - B))) by ring.
      eapply Rle_trans; [apply Rabs_triang|]. apply Rle_trans with (two (-53) + (INR L * two (-51) + INR L * two (-51))).
      * apply Rplus_le_compat; [exact Rp|]. eapply Rle_trans; [apply Rabs_triang|]. rewrite !Rabs_Ropp. lra.
      * rewrite E50, E51. lra.
  - assert (PS : 1 - prodn L (fun k => 1 - poissonian (w k)) = poissonian (sumn L w)).
    { unfold poissonian. f_equal. rewrite <- sumn_opp, <- prodn_exp. apply prodn_ext. intros k _. ring. }
    rewrite PS. clear PS. unfold rminv_p_ij. destruct (inv_sum (Fin 1) L d xs ys Cx Cy HL Hd Hx Hy) as (s & -> & Ds & Bs & Rs). fold w in Bs, Rs. set (S := sumn L w) in *.
    assert (S0 : 0 <= S) by (apply sumn_nonneg; exact W0).
    assert (s0 : 0 <= s) by (destruct Bs as [[-> _] | Bs]; [lra | pose proof (two_pos (-390)); lra]).
    destruct (exponential_unit s s0) as (p & E & E' & Hp & _). exists p. split; [exact E|].
    set (u := two (-53)) in *. set (lo := (1 - u) ^ (L + 2)) in *. set (up := (1 + u) ^ (L + 2)) in *.
    assert (Hlo : 0 < lo <= 1) by (split; [apply pow_lt; lra | unfold lo; apply Rle_trans with (1 ^ (L + 2)); [apply pow_incr; lra | rewrite pow1; lra]]).
    assert (Hup : 1 <= up) by (apply pow_R1_Rle; lra).
    assert (A : lo * poissonian S <= 1 - exp (- s)) by (eapply Rle_trans; [apply poissonian_scale_down; assumption | apply poissonian_mono; lra]).
    assert (B : 1 - exp (- s) <= up * poissonian S) by (eapply Rle_trans; [apply poissonian_mono, Rs | apply poissonian_scale_up; assumption]).
    replace (L + 3)%nat with (Datatypes.S (L + 2)) by lia. rewrite <- !tech_pow_Rmult. fold lo up.
    destruct Bs as [[-> Z] | Bs].
    + rewrite Ropp_0, exp_0 in E'. replace (1 - 1) with 0 in E' by ring. rewrite b64_0 in E'. injection E' as <-. rewrite Z. unfold poissonian. rewrite Ropp_0, exp_0. lra.
    + destruct (b64_rel (1 - exp (- s))) as (p' & Ep & _ & Rp).
      { split; [|pose proof (exp_pos (- s)); assert (two 0 <= two 1022) by (apply two_le; lia); rewrite two_0 in *; lra].
        apply Rle_trans with (1 - exp (- two (-390))).
        - assert (X : two (-391) <= 1 - exp (- two (-390))).
          { assert (P : 0 < two (-390) <= 1) by (split; [apply two_pos | rewrite <- two_0; apply two_le; lia]).
            assert (H2 : two (-390) = 2 * two (-391)) by (change (-390)%Z with (1 + -391)%Z; rewrite two_add, two_1; reflexivity).
            pose proof (poissonian_scale_down (two (-390)) 1 P ltac:(lra)) as Y. unfold poissonian in Y. rewrite Rmult_1_r in Y.
            assert (exp (- (1)) <= / 2). { rewrite exp_Ropp. apply Rinv_le_contravar; [lra|]. pose proof (exp_ineq1_le 1). lra. }
            nra. }
          apply Rle_trans with (two (-391)); [apply two_le; lia | exact X].
        - destruct (proj1 Bs) as [H | H]; [pose proof (exp_increasing (- s) (- two (-390)) ltac:(lra)); lra | rewrite H; lra]. }
      rewrite E' in Ep. injection Ep as <-. fold u in Rp.
      set (x := 1 - exp (- s)) in *. set (q := poissonian S) in *. clearbody x q lo up u. split.
      * apply Rle_trans with (x * (1 - u)); [rewrite Rmult_assoc, (Rmult_comm x); apply Rmult_le_compat_l; lra | lra].
      * apply Rle_trans with (x * (1 + u)); [lra | rewrite Rmult_assoc, (Rmult_comm x); apply Rmult_le_compat_l; lra].
Qed.
Print Assumptions C100_error.

(** * Density fit *)
Lemma pair_between : forall x y, moderate x -> moderate y -> is0 x = false -> is0 y = false ->
  exists t, rmul b64 x y = Fin t /\ double t /\ two (-260) <= t <= two 260.
Proof.
  intros x y Hx Hy Zx Zy. destruct (moderate_pos x Hx Zx) as (wx & -> & _ & Bx), (moderate_pos y Hy Zy) as (wy & -> & _ & By).
  destruct (mul_between wx wy (-130) 130 (-130) 130 Bx By) as (v & E & D & Hv); [lia | lia|]. exists v. auto.
Qed.
Lemma double_scaled : forall c e, (Z.of_nat c <= 2 ^ 53)%Z -> (-900 <= e <= 900)%Z -> double (INR c * two e).
Proof. intros c e H He. destruct (Z_le_gt_dec e 0); [apply scaled_double | apply scaled_up]; lia. Qed.
Lemma acc_le : forall n e j t, (Z.of_nat (S n) <= 2 ^ 53)%Z -> (-900 <= e <= 900)%Z -> 0 <= j <= INR n * two e -> 0 <= t <= two e ->
  exists j', radd b64 (Fin j) (Fin t) = Fin j' /\ 0 <= j' <= INR (S n) * two e.
Proof.
  intros n e j t Hn He Hj Ht. unfold radd. cbn [nadd rnd_num].
  destruct (b64_between 0 (INR (S n) * two e) (j + t)) as (v & E & Hv & _); [apply double_0 | apply double_scaled; lia | | exists v; auto].
  rewrite S_INR. lra.
Qed.
(** [rdiv b64 (Fin a) (radd b64 (Fin 1) (Fin t1))] where the divisor is at least [b >= 1] *)
Lemma div_by : forall a t1 b c, 0 <= a -> 0 <= t1 -> 1 <= b -> double b -> b <= 1 + t1 -> double c -> a <= c * b ->
  exists q, rdiv b64 (Fin a) (radd b64 (Fin 1) (Fin t1)) = Fin q /\ 0 <= q <= c.
Proof.
  intros a t1 b c Ha Ht Hb Db H Dc C. unfold radd. cbn [nadd rnd_num].
  assert (C0 : 0 <= c) by nra.
  pose proof (b64_mono b (1 + t1) H) as M. rewrite (b64_fixed b Db) in M.
  destruct (b64_nonneg (1 + t1) ltac:(lra)) as [E | (q & E & Hq & _)]; rewrite E in *.
  - exists 0. split; [unfold rdiv; cbn; apply b64_0 | lra].
  - cbn in M. unfold rdiv. cbn [ndiv]. rewrite Reqb_false by lra. cbn [rnd_num].
    destruct (b64_between 0 c (a / q)) as (v & Ev & Hv & _); [apply double_0 | exact Dc | | exists v; auto].
    split; [apply Rmult_le_pos; [exact Ha | left; apply Rinv_0_lt_compat; lra]|].
    apply Rmult_le_reg_r with q; [lra|]. unfold Rdiv. rewrite Rmult_assoc, Rinv_l, Rmult_1_r by lra.
    apply Rle_trans with (c * b); [exact C | apply Rmult_le_compat_l; lra].
Qed.

(** Whether two rows have a label in which both are nonzero *)
Definition share_label (L : nat) (xs ys : svec) : bool := existsb (fun k => negb (is0 (lookup k xs)) && negb (is0 (lookup k ys))) (seq 0 L).

Lemma mfit_kernel : forall L xs ys, canonical L xs -> canonical L ys -> (Z.of_nat L <= 2 ^ 53)%Z ->
  Forall (fun p => moderate (snd p)) xs -> Forall (fun p => moderate (snd p)) ys -> kernel_ok (share_label L xs ys) (fun d => rmfit_p_jac b64 d xs ys).
Proof.
  intros L xs ys Cx Cy HL Hx Hy.
  assert (Mx : forall k, moderate (lookup k xs)) by (intros k; apply lookup_moderate; exact Hx).
  assert (My : forall k, moderate (lookup k ys)) by (intros k; apply lookup_moderate; exact Hy).
  assert (D : forall d, rmfit_p_jac b64 d xs ys = match for_flow L (fun k => rmfit_jac_step b64 d k (lookup k xs) (lookup k ys)) (Fin 1, Fin 0) with
    | Return r => r | Next (val, jac) => (rsub b64 (Fin 1) val, rmul b64 val jac) end).
  { intros d. unfold rmfit_p_jac. rewrite (walk_dense _ _ _ L) by (assumption || apply rmfit_jac_neutral). reflexivity. }
  assert (C1 : rsub b64 (Fin 1) (Fin 1) = Fin 0) by (unfold rsub; cbn; replace (1 + - (1)) with 0 by ring; apply b64_0).
  pose proof (two_pos (-260)) as P260. pose proof (two_pos 260) as P260'.
  assert (PI : rmfit_p_jac b64 PInf xs ys = (Fin (if share_label L xs ys then 1 else 0), Fin 0)).
  { rewrite D.
    assert (F : match for_flow L (fun k => rmfit_jac_step b64 PInf k (lookup k xs) (lookup k ys)) (Fin 1, Fin 0) with
      | Next s => s = (Fin 1, Fin 0) /\ forall k, (k < L)%nat -> negb (is0 (lookup k xs)) && negb (is0 (lookup k ys)) = false
      | Return r => r = (Fin 1, Fin 0) /\ exists k, (k < L)%nat /\ negb (is0 (lookup k xs)) && negb (is0 (lookup k ys)) = true end).
    { apply (flow_rule (num * num) (num * num) L (fun n s => s = (Fin 1, Fin 0) /\ forall k, (k < n)%nat -> negb (is0 (lookup k xs)) && negb (is0 (lookup k ys)) = false)).
      - split; [reflexivity | intros k Hk; lia].
      - intros k s Hk [-> A]. unfold rmfit_jac_step. destruct (negb (is0 (lookup k xs)) && negb (is0 (lookup k ys))) eqn:Z.
        + pose proof Z as Z'. apply andb_true_iff in Z' as [Zx Zy]. apply negb_true_iff in Zx, Zy. change (is0 PInf) with false. cbv iota zeta.
          destruct (pair_between _ _ (Mx k) (My k) Zx Zy) as (t & -> & _ & B).
          assert (I : rmul b64 PInf (Fin t) = PInf) by (unfold rmul; cbn; unfold inf_times; rewrite Reqb_false, Rltb_true by lra; reflexivity).
          rewrite I. cbn [isinf]. split; [reflexivity | exists k; auto].
        + split; [reflexivity|]. intros i Hi. destruct (Nat.eq_dec i k) as [->|]; [exact Z | apply A; lia]. }
    destruct (for_flow L _ _) as [[v j]|r].
    - destruct F as [E A]. injection E as -> ->. assert (S : share_label L xs ys = false).
      { apply not_true_iff_false. intros H. apply existsb_exists in H as (k & Hk & H). apply in_seq in Hk. rewrite A in H by lia. discriminate. }
      rewrite S, C1. f_equal. unfold rmul. cbn [nmul rnd_num]. rewrite Rmult_1_l. apply b64_0.
    - destruct F as [-> (k & Hk & Z)]. assert (S : share_label L xs ys = true) by (apply existsb_exists; exists k; split; [apply in_seq; lia | exact Z]). rewrite S. reflexivity. }
  split; [|split; [|split; [|exact PI]]].
  - intros d [-> | (w & -> & Hw & Dw)].
    { rewrite PI. exists (if share_label L xs ys then 1 else 0), (Fin 0). split; [reflexivity|]. split; [destruct (share_label L xs ys); lra | cbn; lra]. }
    rewrite D.
    assert (F : match for_flow L (fun k => rmfit_jac_step b64 (Fin w) k (lookup k xs) (lookup k ys)) (Fin 1, Fin 0) with
      | Next s => exists v j, s = (Fin v, Fin j) /\ double v /\ 0 <= v <= 1 /\ 0 <= j <= INR L * two 260 | Return r => r = (Fin 1, Fin 0) end).
    { apply (flow_rule (num * num) (num * num) L (fun n s => exists v j, s = (Fin v, Fin j) /\ double v /\ 0 <= v <= 1 /\ 0 <= j <= INR n * two 260)).
      - exists 1, 0. split; [reflexivity|]. split; [apply double_1|]. split; [lra|]. cbn [INR]. lra.
      - intros k s Hk (v & j & -> & Dv & Hv & Hj). unfold rmfit_jac_step. destruct (negb (is0 (lookup k xs)) && negb (is0 (lookup k ys))) eqn:Z.
        + apply andb_true_iff in Z as [Zx Zy]. apply negb_true_iff in Zx, Zy. cbv zeta.
          destruct (pair_between _ _ (Mx k) (My k) Zx Zy) as (t & -> & Dt & B). destruct (is0 (Fin w)) eqn:Zw.
          * destruct (acc_le k 260 j t) as (j' & -> & Hj'); [lia | lia | exact Hj | lra|]. exists v, j'. auto.
          * assert (A : amount (rmul b64 (Fin w) (Fin t))) by (apply rmul_amount; [right; apply datum_fin; assumption | lra]).
            destruct A as [-> | (t1 & -> & H1 & D1)]; [reflexivity|]. cbn [isinf].
            destruct (div_step v t1 Hv Dv H1 D1) as (v' & -> & Dv' & Hv' & _).
            destruct (div_by t t1 1 t) as (q & -> & Hq); [lra | exact H1 | lra | apply double_1 | lra | exact Dt | lra|].
            destruct (acc_le k 260 j q) as (j' & -> & Hj'); [lia | lia | exact Hj | lra|]. exists v', j'. split; [reflexivity|]. split; [exact Dv'|]. split; [lra | exact Hj'].
        + exists v, j. split; [reflexivity|]. split; [exact Dv|]. split; [exact Hv|]. rewrite S_INR. lra. }
    destruct (for_flow L _ _) as [s|r].
    + destruct F as (v & j & -> & Dv & Hv & Hj). destruct (complement v Hv Dv) as (p & -> & _ & Hp & _). exists p. eexists. split; [reflexivity|]. split; [exact Hp|].
      unfold rmul. cbn [nmul rnd_num]. destruct (b64_nonneg (v * j) ltac:(apply Rmult_le_pos; lra)) as [-> | (z & -> & Hz & _)]; cbn; [exact I | exact Hz].
    + subst r. exists 1, (Fin 0). split; [reflexivity|]. split; [lra | cbn; lra].
  - intros w p j Hw Dw E. rewrite D in E.
    assert (F : match for_flow L (fun k => rmfit_jac_step b64 (Fin w) k (lookup k xs) (lookup k ys)) (Fin 1, Fin 0) with
      | Next s => fst s = Fin 1 | Return r => False end).
    { apply (flow_rule (num * num) (num * num) L (fun n s => fst s = Fin 1)); [reflexivity|].
      intros k [v jj] Hk A. cbn [fst] in A. subst v. unfold rmfit_jac_step. destruct (negb (is0 (lookup k xs)) && negb (is0 (lookup k ys))) eqn:Z; [|reflexivity].
      apply andb_true_iff in Z as [Zx Zy]. apply negb_true_iff in Zx, Zy. cbv zeta.
      destruct (pair_between _ _ (Mx k) (My k) Zx Zy) as (t & -> & Dt & B). destruct (is0 (Fin w)) eqn:Zw; [reflexivity|].
      assert (T : exists t1, rmul b64 (Fin w) (Fin t) = Fin t1 /\ 0 <= t1 <= two (-53) /\ double t1).
      { unfold rmul. cbn [nmul rnd_num]. destruct (b64_between 0 (two (-53)) (w * t)) as (t1 & E1 & H1 & D1); [apply double_0 | apply double_two; lia | | exists t1; auto].
        split; [apply Rmult_le_pos; lra|]. apply Rle_trans with (two (-900) * two 260); [apply Rmult_le_compat; lra|]. rewrite <- two_add. apply two_le. lia. }
      destruct T as (t1 & -> & H1 & D1). cbn [isinf]. destruct (div_step 1 t1 ltac:(lra) double_1 (proj1 H1) D1) as (v' & -> & _ & _ & S & _). rewrite S by lra. reflexivity. }
    destruct (for_flow L _ _) as [[v jj]|r]; [|contradiction]. cbn [fst] in F. subst v. rewrite C1 in E. injection E as <- _. left. apply two_pos.
  - intros w p j Hw Dw E. rewrite D in E. pose proof (two_pos 960) as P960.
    assert (F : match for_flow L (fun k => rmfit_jac_step b64 (Fin w) k (lookup k xs) (lookup k ys)) (Fin 1, Fin 0) with
      | Next s => s = (Fin 1, Fin 0) \/ exists v j, s = (Fin v, Fin j) /\ 0 <= v <= two (-690) /\ 0 <= j <= INR L * two (-760) | Return r => snd r = Fin 0 end).
    { apply (flow_rule (num * num) (num * num) L (fun n s => s = (Fin 1, Fin 0) \/ exists v j, s = (Fin v, Fin j) /\ 0 <= v <= two (-690) /\ 0 <= j <= INR n * two (-760)));
        [left; reflexivity|].
      intros k s Hk A. assert (T760 : 0 < two (-760)) by apply two_pos.
      assert (Q : exists v j, s = (Fin v, Fin j) /\ 0 <= v <= 1 /\ 0 <= j <= INR k * two (-760)).
      { destruct A as [-> | (v & j1 & -> & Hv & Hj)].
        - exists 1, 0. split; [reflexivity|]. split; [lra|]. pose proof (pos_INR k). split; [lra | apply Rmult_le_pos; lra].
        - exists v, j1. split; [reflexivity|]. split; [|exact Hj]. assert (two (-690) <= two 0) by (apply two_le; lia). rewrite two_0 in *. lra. }
      unfold rmfit_jac_step. destruct (negb (is0 (lookup k xs)) && negb (is0 (lookup k ys))) eqn:Z.
      - apply andb_true_iff in Z as [Zx Zy]. apply negb_true_iff in Zx, Zy. cbv zeta. rewrite is0_fin_pos by lra. destruct Q as (v & j1 & -> & Hv & Hj).
        destruct (pair_between _ _ (Mx k) (My k) Zx Zy) as (t & -> & Dt & B).
        assert (G : two 700 <= w * t) by (change 700%Z with (960 + -260)%Z; rewrite two_add; apply Rmult_le_compat; lra).
        assert (P700 : 0 < two 700) by apply two_pos.
        assert (T : rmul b64 (Fin w) (Fin t) = PInf \/ exists t1, rmul b64 (Fin w) (Fin t) = Fin t1 /\ double t1 /\ two 700 <= t1 /\ t <= two (-760) * t1).
        { unfold rmul. cbn [nmul rnd_num]. pose proof (b64_mono _ _ G) as M. rewrite (b64_two 700) in M by lia.
          assert (R : t <= two (-760) * (w * t / 2)).
          { replace (two (-760) * (w * t / 2)) with (two (-760) * w / 2 * t) by field. rewrite <- (Rmult_1_l t) at 1. apply Rmult_le_compat_r; [lra|].
            assert (two 1 <= two (-760) * w).
            { apply Rle_trans with (two (-760) * two 960); [rewrite <- two_add; apply two_le; lia | apply Rmult_le_compat_l; lra]. }
            rewrite two_1 in *. lra. }
          destruct (Rle_lt_dec (w * t) (two 1022)) as [S|S].
          - destruct (b64_rel (w * t)) as (t1 & E1 & D1 & R1); [split; [apply Rle_trans with (two 700); [apply two_le; lia | exact G] | exact S]|].
            right. exists t1. rewrite E1 in M. split; [exact E1|]. split; [exact D1|]. split; [exact M|].
            apply Rle_trans with (two (-760) * (w * t / 2)); [exact R|]. apply Rmult_le_compat_l; [lra|].
            assert (two (-53) <= two (-1)) by (apply two_le; lia). rewrite two_m1 in *. nra.
          - pose proof (b64_mono (two 1022) (w * t) ltac:(lra)) as M'. rewrite (b64_two 1022) in M' by lia.
            destruct (b64_nonneg (w * t) ltac:(lra)) as [E1 | (t1 & E1 & H1 & D1)]; [left; exact E1|]. right. exists t1. rewrite E1 in *. cbn in M, M'.
            split; [reflexivity|]. split; [exact D1|]. split; [exact M|]. apply Rle_trans with (two (-760) * two 1022); [|apply Rmult_le_compat_l; lra].
            rewrite <- two_add. apply Rle_trans with (two 260); [lra | apply two_le; lia]. }
        destruct T as [-> | (t1 & -> & D1 & H1 & Ht)]; [reflexivity|]. cbn [isinf].
        assert (O700 : 1 <= two 700) by (rewrite <- two_0; apply two_le; lia).
        destruct (div_by v t1 (two 700) (two (-690))) as (v' & -> & Hv'); [lra | lra | exact O700 | apply double_two; lia | lra | apply double_two; lia | | ].
        { rewrite <- two_add. apply Rle_trans with (two 0); [rewrite two_0; lra | apply two_le; lia]. }
        destruct (div_by t t1 t1 (two (-760))) as (q & -> & Hq); [lra | lra | lra | exact D1 | lra | apply double_two; lia | exact Ht|].
        destruct (acc_le k (-760) j1 q) as (j' & -> & Hj'); [lia | lia | exact Hj | exact Hq|]. right. exists v', j'. auto.
      - destruct A as [-> | (v & j1 & -> & Hv & Hj)]; [left; reflexivity | right; exists v, j1; split; [reflexivity|]; split; [exact Hv | rewrite S_INR; lra]]. }
    destruct (for_flow L _ _) as [s|r]; [|subst r; exact F].
    destruct F as [-> | (v & j1 & -> & Hv & Hj)]; injection E as _ <-; unfold rmul; cbn [nmul rnd_num]; [rewrite Rmult_1_l; apply b64_0|].
    assert (S : v * j1 <= two (-1100)).
    { apply Rle_trans with (two (-690) * (two 53 * two (-760))).
      - apply Rmult_le_compat; try lra. apply Rle_trans with (INR L * two (-760)); [lra|]. apply Rmult_le_compat_r; [left; apply two_pos|].
        rewrite two_Z by lia. rewrite INR_IZR_INZ. apply IZR_le. lia.
      - rewrite <- !two_add. apply two_le. lia. }
    pose proof (b64_mono _ _ S) as M. rewrite b64_under in M by lia.
    destruct (b64_nonneg (v * j1) ltac:(apply Rmult_le_pos; lra)) as [Q | (z & Q & Hz & _)]; rewrite Q in *; cbn in M; [contradiction|]. f_equal. lra.
Qed.

Lemma minv_kernel : forall L xs ys, canonical L xs -> canonical L ys -> (Z.of_nat L <= 2 ^ 53)%Z ->
  Forall (fun p => moderate (snd p)) xs -> Forall (fun p => moderate (snd p)) ys -> kernel_ok true (fun d => rminv_p_jac b64 d xs ys).
Proof.
  intros L xs ys Cx Cy HL Hx Hy.
  assert (Mx : forall k, moderate (lookup k xs)) by (intros k; apply lookup_moderate; exact Hx).
  assert (My : forall k, moderate (lookup k ys)) by (intros k; apply lookup_moderate; exact Hy).
  pose proof (two_pos (-260)) as P260. pose proof (two_pos 260) as P260'.
  assert (W : exists v, walk (rminv_jac_step b64) xs ys (Fin 0) = Next (Fin v) /\ (v = 0 \/ two (-260) <= v <= two 320)).
  { rewrite (walk_dense _ _ _ L) by (assumption || apply rminv_jac_neutral).
    assert (F : match for_flow L (fun k => rminv_jac_step b64 k (lookup k xs) (lookup k ys)) (Fin 0) with
      | Next s => exists v, s = Fin v /\ (v = 0 \/ two (-260) <= v) /\ 0 <= v <= INR L * two 260 | Return r => False end).
    { apply (flow_rule num (num * num) L (fun n s => exists v, s = Fin v /\ (v = 0 \/ two (-260) <= v) /\ 0 <= v <= INR n * two 260)).
      - exists 0. split; [reflexivity|]. split; [left; reflexivity|]. cbn [INR]. lra.
      - intros k s Hk (v & -> & Bv & Hv). unfold rminv_jac_step. destruct (negb (is0 (lookup k xs)) && negb (is0 (lookup k ys))) eqn:Z.
        + apply andb_true_iff in Z as [Zx Zy]. apply negb_true_iff in Zx, Zy. cbv zeta.
          destruct (pair_between _ _ (Mx k) (My k) Zx Zy) as (t & -> & Dt & B). cbn [isinf].
          destruct (acc_le k 260 v t) as (j & E & Hj); [lia | lia | exact Hv | lra|]. rewrite E. exists j. split; [reflexivity|]. split; [right | exact Hj].
          pose proof (b64_mono (two (-260)) (v + t) ltac:(lra)) as M. unfold radd in E. cbn [nadd rnd_num] in E. rewrite E, (b64_two (-260)) in M by lia. exact M.
        + exists v. split; [reflexivity|]. split; [exact Bv|]. rewrite S_INR. lra. }
    destruct (for_flow L _ _) as [s|r]; [|contradiction]. destruct F as (v & -> & Bv & Hv). exists v. split; [reflexivity|].
    destruct Bv as [Bv | Bv]; [left; exact Bv | right]. split; [exact Bv|]. apply Rle_trans with (two 53 * two 260).
    - apply Rle_trans with (INR L * two 260); [lra|]. apply Rmult_le_compat_r; [lra|]. rewrite two_Z by lia. rewrite INR_IZR_INZ. apply IZR_le. lia.
    - rewrite <- two_add. apply two_le. lia. }
  destruct W as (v & W & Bv). assert (V0 : 0 <= v) by (destruct Bv as [-> | Bv]; lra).
  assert (D : forall w, rminv_p_jac b64 (Fin w) xs ys = let val1 := rmul b64 (Fin w) (Fin v) in
    if is0 val1 then (Fin 0, Fin v) else (nopp (rexpm1 b64 (nopp val1)), rmul b64 (Fin v) (rexp b64 (nopp val1)))).
  { intros w. unfold rminv_p_jac. cbn [isinf]. rewrite W. reflexivity. }
  split; [|split; [|split; [|reflexivity]]].
  - intros d [-> | (w & -> & Hw & Dw)]; [exists 1, (Fin 0); split; [reflexivity|]; split; [lra | cbn; lra]|].
    rewrite D. cbv zeta. unfold rmul at 1 2 4. cbn [nmul rnd_num].
    destruct (b64_nonneg (w * v) ltac:(apply Rmult_le_pos; lra)) as [E | (t & E & Ht & Dt)].
    + rewrite E. change (is0 PInf) with false. cbv iota. rewrite expm1_inf. exists 1. eexists. split; [reflexivity|]. split; [lra|].
      unfold rexp. cbn [nopp nexp rnd_num]. rewrite b64_0. unfold rmul. cbn [nmul rnd_num]. rewrite Rmult_0_r, b64_0. cbn. lra.
    + rewrite E. destruct (is0 (Fin t)); [exists 0, (Fin v); split; [reflexivity|]; split; [lra | exact V0]|].
      destruct (exponential_unit t Ht) as (p & -> & _ & Hp & _). exists p. eexists. split; [reflexivity|]. split; [exact Hp|].
      unfold rexp. cbn [nopp nexp rnd_num].
      destruct (b64_between 0 1 (exp (- t))) as (z & -> & Hz & _); [apply double_0 | apply double_1 | |].
      { split; [left; apply exp_pos|]. destruct Ht as [Ht | <-]; [left; rewrite <- exp_0; apply exp_increasing; lra | rewrite Ropp_0, exp_0; lra]. }
      unfold rmul. cbn [nmul rnd_num]. destruct (b64_nonneg (v * z) ltac:(apply Rmult_le_pos; lra)) as [-> | (y & -> & Hy' & _)]; cbn; [exact I | exact Hy'].
  - intros w p j Hw Dw E. rewrite D in E. cbv zeta in E. pose proof (two_pos (-510)) as P510.
    assert (T : exists t1, rmul b64 (Fin w) (Fin v) = Fin t1 /\ double t1 /\ 0 <= t1 <= two (-510)).
    { unfold rmul. cbn [nmul rnd_num]. destruct (b64_between 0 (two (-510)) (w * v)) as (t1 & E1 & H1 & D1); [apply double_0 | apply double_two; lia | | exists t1; auto].
      split; [apply Rmult_le_pos; lra|]. assert (V : v <= two 320) by (destruct Bv as [-> | Bv]; [left; apply two_pos | lra]).
      apply Rle_trans with (two (-900) * two 320); [apply Rmult_le_compat; lra|]. rewrite <- two_add. apply two_le. lia. }
    destruct T as (t1 & Et & D1 & H1). rewrite Et in E. destruct (is0 (Fin t1)); [injection E as <- _; lra|].
    destruct (exponential_unit t1 (proj1 H1)) as (p1 & Ep & Eb & _). rewrite Ep in E. injection E as <- _.
    apply (exponential_le t1) in Eb; [lra | lra | exact D1].
  - intros w p j Hw Dw E. rewrite D in E. cbv zeta in E. pose proof (two_pos 960) as P960.
    destruct Bv as [-> | Bv].
    + assert (Z : rmul b64 (Fin w) (Fin 0) = Fin 0) by (unfold rmul; cbn [nmul rnd_num]; rewrite Rmult_0_r; apply b64_0). rewrite Z in E.
      change (is0 (Fin 0)) with (Reqb 0 0) in E. rewrite Reqb_true in E by reflexivity. injection E as _ <-. reflexivity.
    + assert (G : two 700 <= w * v) by (change 700%Z with (960 + -260)%Z; rewrite two_add; apply Rmult_le_compat; lra).
      assert (P700 : 0 < two 700) by apply two_pos. pose proof (b64_mono _ _ G) as M. rewrite (b64_two 700) in M by lia.
      unfold rmul at 1 2 4 in E. cbn [nmul rnd_num] in E.
      assert (X : rexp b64 (nopp (b64 (w * v))) = Fin 0 /\ is0 (b64 (w * v)) = false).
      { destruct (b64_nonneg (w * v) ltac:(lra)) as [Q | (t1 & Q & H1 & D1)]; rewrite Q in *; [split; [unfold rexp; cbn; apply b64_0 | reflexivity]|].
        cbn in M. split; [|apply is0_fin_pos; lra]. unfold rexp. cbn [nopp nexp rnd_num].
        assert (Le : exp (- t1) <= two (-1138)).
        { change (-1138)%Z with (- (1138))%Z. rewrite two_neg, exp_Ropp. apply Rinv_le_contravar; [apply two_pos|].
          replace t1 with (t1 / 2 + t1 / 2) by lra. rewrite exp_plus. replace 1138%Z with (569 + 569)%Z by lia. rewrite two_add.
          assert (H2 : two 569 <= t1 / 2) by (assert (two (1 + 569) <= two 700) by (apply two_le; lia); rewrite two_add, two_1 in *; lra).
          pose proof (exp_ineq1_le (t1 / 2)). pose proof (two_pos 569). apply Rmult_le_compat; lra. }
        pose proof (b64_mono _ _ Le) as Mo. rewrite b64_under in Mo by lia. pose proof (exp_pos (- t1)).
        destruct (b64_nonneg (exp (- t1)) ltac:(lra)) as [Q' | (z & Q' & Hz & _)]; rewrite Q' in *; cbn in Mo; [contradiction|]. f_equal. lra. }
      destruct X as [X Z]. rewrite Z, X in E. injection E as _ <-. unfold rmul. cbn [nmul rnd_num]. rewrite Rmult_0_r. apply b64_0.
Qed.

(** With rows that are 0 or between 2^-130 and 2^130 in every label, the density fit of both multi-label models ends with a
    report for every starting point, and the report says whether the target was met. *)
Theorem C100_fit : forall K c L xs ys N sl T a rho x0 max_iter,
  K = (fun d i j => rmfit_p_jac b64 d (xs i) (ys j)) /\ c = (fun i j => share_label L (xs i) (ys j)) \/
  K = (fun d i j => rminv_p_jac b64 d (xs i) (ys j)) /\ c = (fun _ _ => true) ->
  (forall i, (i < N)%nat -> canonical L (xs i) /\ Forall (fun p => moderate (snd p)) (xs i) /\ canonical L (ys i) /\ Forall (fun p => moderate (snd p)) (ys i)) ->
  (Z.of_nat L <= 2 ^ 53)%Z -> (1 <= N)%nat -> (Z.of_nat (N * N) <= 2 ^ 53)%Z ->
  double T -> T <= pair_sum N sl (fun i j => if c i j then 1 else 0) ->
  two (-50) * INR (N * N) <= rho * T -> rho <= 1 / 8 -> two (-900) <= a <= T / 8 -> amount x0 ->
  exists sol, rsolver b64 (fun d => rexp_edges_f_jac b64 (K d) N sl) x0 (Fin T) (Fin a) (Fin rho) max_iter (Fin 0) PInf None None = Ok sol /\
  Forall amount (sol_x_seq sol) /\
  exists v tol, rexp_edges b64 (fun i j => fst (K (sol_x sol) i j)) N sl = Fin v /\
    radd b64 (Fin a) (rmul b64 (Fin rho) (Fin T)) = Fin tol /\ (sol_converged sol = true <-> Rabs (v - T) <= tol).
Proof.
  intros K c L xs ys N sl T a rho x0 max_iter HK HD HL HN HZ DT HT Hr Hr8 Ha P.
  apply (fit_generic K c); try assumption.
  intros i j Hi Hj. destruct (HD i Hi) as (Cx & Mx & _), (HD j Hj) as (_ & _ & Cy & My).
  destruct HK as [[-> ->] | [-> ->]]; [apply mfit_kernel | apply (minv_kernel L)]; assumption.
Qed.
Print Assumptions C100_fit.

(** The same of the fit of one label *)
Lemma kernel_ok_eq : forall c q q', (forall d, q d = q' d) -> kernel_ok c q -> kernel_ok c q'.
Proof.
  intros c q q' E (A & B & C & D). unfold kernel_ok. split; [|split; [|split]].
  - intros d Hd. rewrite <- E. apply A. exact Hd.
  - intros w p j Hw Dw H. rewrite <- E in H. exact (B w p j Hw Dw H).
  - intros w p j Hw Dw H. rewrite <- E in H. exact (C w p j Hw Dw H).
  - rewrite <- E. exact D.
Qed.
Theorem C100_layer_fit : forall K x y N sl T a rho x0 max_iter,
  K = rmfit_p_jac_ijk b64 \/ K = rminv_p_jac_ijk b64 ->
  (forall i, (i < N)%nat -> moderate (x i) /\ moderate (y i)) -> (1 <= N)%nat -> (Z.of_nat (N * N) <= 2 ^ 53)%Z ->
  double T -> T <= pair_sum N sl (fun i j => if negb (is0 (x i) || is0 (y j)) then 1 else 0) ->
  two (-50) * INR (N * N) <= rho * T -> rho <= 1 / 8 -> two (-900) <= a <= T / 8 -> amount x0 ->
  let p d i j := K d (x i) (y j) in
  exists sol, rsolver b64 (fun d => rexp_edges_f_jac b64 (p d) N sl) x0 (Fin T) (Fin a) (Fin rho) max_iter (Fin 0) PInf None None = Ok sol /\
  Forall amount (sol_x_seq sol) /\
  exists v tol, rexp_edges b64 (fun i j => fst (p (sol_x sol) i j)) N sl = Fin v /\
    radd b64 (Fin a) (rmul b64 (Fin rho) (Fin T)) = Fin tol /\ (sol_converged sol = true <-> Rabs (v - T) <= tol).
Proof.
  intros K x y N sl T a rho x0 max_iter HK HD HN HZ DT HT Hr Hr8 Ha P p.
  apply (fit_generic p (fun i j => negb (is0 (x i) || is0 (y j)))); try assumption.
  intros i j Hi Hj. destruct (HD i Hi) as (Mx & _), (HD j Hj) as (_ & My). unfold p.
  assert (Z1 : is0 (Fin 1) = false) by (apply is0_fin_pos; lra).
  assert (C : negb (is0 (x i) || is0 (y j)) = connectable (x i) (y j) (Fin 1)) by (unfold connectable; rewrite Z1, orb_false_r; reflexivity). rewrite C.
  assert (A : is0 (x i) || is0 (y j) = false -> rmul b64 (rmul b64 (x i) (y j)) (Fin 1) = rmul b64 (x i) (y j)).
  { intros Z. apply orb_false_iff in Z as [Zx Zy]. destruct (datum_pos _ (moderate_datum _ My) Zy) as (wy & -> & Py & _).
    apply rmul_1, rmul_amount; [right; apply moderate_datum; exact Mx | exact Py]. }
  destruct HK as [-> | ->].
  - apply (kernel_ok_eq _ (fun d => rfit_p_jac b64 d (x i) (y j) (Fin 1))); [|apply fit_kernel; [exact Mx | exact My | apply moderate_1]].
    intros d. unfold rfit_p_jac, rmfit_p_jac_ijk. rewrite Z1, orb_false_r. destruct (is0 (x i) || is0 (y j)); [reflexivity|]. rewrite A by reflexivity. reflexivity.
  - apply (kernel_ok_eq _ (fun d => rinv_p_jac b64 d (x i) (y j) (Fin 1))); [|apply inv_kernel; [exact Mx | exact My | apply moderate_1]].
    intros d. unfold rinv_p_jac, rminv_p_jac_ijk. rewrite Z1, orb_false_r. destruct (is0 (x i) || is0 (y j)); [reflexivity|]. rewrite A by reflexivity. reflexivity.
Qed.
Print Assumptions C100_layer_fit.

(** * Cases *)
(** Two nodes with the labels 0 and 1, fitness one in both, linked in each label with odds one *)
Definition ones : svec := [(0%nat, Fin 1); (1%nat, Fin 1)].
Lemma ones_canonical : canonical 2 ones.
Proof. split; [repeat constructor | repeat constructor; cbn; lia]. Qed.
Lemma ones_moderate : Forall (fun p => moderate (snd p)) ones.
Proof. repeat apply Forall_cons; try apply Forall_nil; apply moderate_1. Qed.
Lemma rmul_11 : rmul b64 (Fin 1) (Fin 1) = Fin 1.
Proof. unfold rmul. cbn [nmul rnd_num]. rewrite Rmult_1_r. apply b64_fixed, double_1. Qed.
Example C100_probabilities_case : canonical 2 ones /\ (forall k, (k < 2)%nat -> datum ((fun _ : nat => Fin 1) k)) /\ Forall (fun p => datum (snd p)) ones /\
  rmfit_p_ij b64 (fun _ => Fin 1) ones ones = Fin (3 / 4) /\ rminv_log1mp b64 (fun _ => Fin 1) ones ones = Fin (- (2)).
Proof.
  assert (Z1 : is0 (Fin 1) = false) by (apply is0_fin_pos; lra).
  split; [apply ones_canonical|]. split; [intros k _; apply datum_fin; [lra | apply double_1]|]. split; [apply moderate_row, ones_moderate|]. split.
  - assert (W : walk (rmfit_step b64 (Fin 1) (fun _ => Fin 1)) ones ones (Fin 1) = Next (Fin (1 / 4))).
    { unfold ones. cbn [walk Nat.eqb]. unfold rmfit_step. rewrite !Z1. cbn [negb andb]. rewrite !rmul_11. cbn [isinf].
      assert (A : radd b64 (Fin 1) (Fin 1) = Fin 2) by (unfold radd; cbn [nadd rnd_num]; replace (1 + 1) with 2 by ring; apply b64_fixed; apply (double_Z 2); lia).
      assert (H : forall x y, double y -> y = x / 2 -> rdiv b64 (Fin x) (Fin 2) = Fin y).
      { intros x y Dy ->. unfold rdiv. cbn [ndiv]. rewrite Reqb_false by lra. cbn [rnd_num]. apply b64_fixed. exact Dy. }
      rewrite A, (H 1 (1 / 2)), (H (1 / 2) (1 / 4)); try lra; [reflexivity | |].
      - replace (1 / 4) with (two (-2)) by (tw; lra). apply double_two. lia.
      - replace (1 / 2) with (two (-1)) by (tw; lra). apply double_two. lia. }
    unfold rmfit_p_ij. rewrite W. unfold rsub. cbn [nsub nadd nopp rnd_num]. replace (1 + - (1 / 4)) with (3 / 4) by lra. dbl 3%Z (-2)%Z.
  - assert (W : walk (rminv_step b64 NInf (fun _ => Fin 1)) ones ones (Fin 0) = Next (Fin 2)).
    { unfold ones. cbn [walk Nat.eqb]. unfold rminv_step. rewrite !Z1. cbn [negb andb]. rewrite !rmul_11. cbn [isinf].
      assert (A : radd b64 (Fin 0) (Fin 1) = Fin 1) by (unfold radd; cbn [nadd rnd_num]; rewrite Rplus_0_l; apply b64_fixed, double_1).
      assert (B : radd b64 (Fin 1) (Fin 1) = Fin 2) by (unfold radd; cbn [nadd rnd_num]; replace (1 + 1) with 2 by ring; apply b64_fixed; apply (double_Z 2); lia).
      rewrite A, B. reflexivity. }
    unfold rminv_log1mp. rewrite W. reflexivity.
Qed.
(** C100_logs has the hypotheses of C100_probabilities; here the link cannot exist *)
Example C100_logs_case : canonical 2 [(0%nat, Fin 1)] /\ canonical 2 [(1%nat, Fin 1)] /\
  rmfit_p_ij b64 (fun _ => Fin 1) [(0%nat, Fin 1)] [(1%nat, Fin 1)] = Fin 0 /\ rmfit_logp b64 (fun _ => Fin 1) [(0%nat, Fin 1)] [(1%nat, Fin 1)] = NInf /\
  rmfit_log1mp b64 (fun _ => Fin 1) [(0%nat, Fin 1)] [(1%nat, Fin 1)] = Fin 0.
Proof.
  split; [split; [repeat constructor | repeat constructor; cbn; lia]|]. split; [split; [repeat constructor | repeat constructor; cbn; lia]|].
  unfold rmfit_p_ij, rmfit_logp, rmfit_log1mp. cbn [walk Nat.eqb Nat.ltb Nat.leb]. unfold rsub. cbn [nsub nadd nopp rnd_num]. change (neqb (Fin 1) (Fin 1)) with (Reqb 1 1). rewrite Reqb_true by reflexivity.
  split; [replace (1 + - (1)) with 0 by ring; apply b64_0 | split; reflexivity].
Qed.
Example C100_error_case : canonical 2 ones /\ (Z.of_nat 2 <= 2 ^ 53)%Z /\ (forall k, (k < 2)%nat -> moderate ((fun _ : nat => Fin 1) k)) /\ Forall (fun p => moderate (snd p)) ones /\
  1 - prodn 2 (fun k => 1 - logistic (toR (Fin 1) * toR (lookup k ones) * toR (lookup k ones))) = 3 / 4.
Proof.
  split; [apply ones_canonical|]. split; [lia|]. split; [intros k _; apply moderate_1|]. split; [apply ones_moderate|].
  unfold logistic. cbn [prodn lookup ones Nat.eqb toR]. lra.
Qed.
Example C100_fit_case : (forall i, (i < 3)%nat -> canonical 2 ((fun _ => ones) i) /\ Forall (fun p => moderate (snd p)) ((fun _ => ones) i)) /\
  1 <= pair_sum 3 false (fun i j => if share_label 2 ones ones then 1 else 0) /\
  two (-50) * INR (3 * 3) <= two (-30) * 1 /\ two (-30) <= 1 / 8 /\ two (-900) <= two (-80) <= 1 / 8 /\ amount PInf.
Proof.
  split; [intros i _; split; [apply ones_canonical | apply ones_moderate]|].
  assert (S : share_label 2 ones ones = true) by (unfold share_label; cbn [seq existsb lookup ones Nat.eqb]; rewrite is0_fin_pos by lra; reflexivity).
  split. { rewrite S. unfold pair_sum, sumn, allowed. cbn. lra. }
  split; [tw; cbn; lra|]. split; [tw; lra|]. split; [split; [apply two_le; lia | tw; lra]|]. left. reflexivity.
Qed.
Example C100_layer_fit_case : (forall i, (i < 3)%nat -> moderate ((fun _ => Fin 1) i)) /\
  1 <= pair_sum 3 false (fun i j => if negb (is0 (Fin 1) || is0 (Fin 1)) then 1 else 0).
Proof.
  split; [intros i _; apply moderate_1|]. rewrite is0_fin_pos by lra. unfold pair_sum, sumn, allowed. cbn. lra.
Qed.

(** * Lost guarantees *)
(** Fitness model: a link with a positive probability in its layer has probability 0, and log-probability -inf, in the projection. *)
Theorem C100_projection_refuted : exists d x y, datum d /\ datum x /\ datum y /\
  rmfit_p_ijk b64 d x y = Fin (two (-60)) /\ rmfit_p_ij b64 (fun _ => d) [(0%nat, x)] [(0%nat, y)] = Fin 0 /\
  rmfit_logp b64 (fun _ => d) [(0%nat, x)] [(0%nat, y)] = NInf.
Proof.
  exists (Fin (two 0)), (Fin (two (-30))), (Fin (two (-30))). split; [apply two_datum; lia|]. split; [apply two_datum; lia|]. split; [apply two_datum; lia|].
  assert (T : rmul b64 (rmul b64 (Fin (two 0)) (Fin (two (-30)))) (Fin (two (-30))) = Fin (two (-60))) by (rewrite mul_two, b64_two by lia; rewrite mul_two, b64_two by lia; reflexivity).
  assert (A : radd b64 (Fin 1) (Fin (two (-60))) = Fin 1).
  { unfold radd. cbn [nadd rnd_num]. apply one_plus_small. split; [left; apply two_pos | apply two_le; lia]. }
  assert (Q : forall v, double v -> rdiv b64 (Fin v) (Fin 1) = Fin v).
  { intros v Dv. unfold rdiv. cbn [ndiv]. rewrite Reqb_false by lra. cbn [rnd_num]. replace (v / 1) with v by field. apply b64_fixed. exact Dv. }
  assert (W : forall r, walk (rmfit_step b64 r (fun _ => Fin (two 0))) [(0%nat, Fin (two (-30)))] [(0%nat, Fin (two (-30)))] (Fin 1) = Next (Fin 1)).
  { intros r. cbn [walk Nat.eqb]. unfold rmfit_step. rewrite !is0_fin_pos by apply two_pos. cbn [negb andb]. rewrite T. cbn [isinf]. rewrite A, Q by apply double_1. reflexivity. }
  split; [|split].
  - unfold rmfit_p_ijk. rewrite !is0_fin_pos by apply two_pos. cbn [orb]. cbv zeta. rewrite T. cbn [isinf]. rewrite A. apply Q, double_two. lia.
  - unfold rmfit_p_ij. rewrite W. unfold rsub. cbn [nsub nadd nopp rnd_num]. replace (1 + - (1)) with 0 by ring. apply b64_0.
  - unfold rmfit_logp. rewrite W. change (neqb (Fin 1) (Fin 1)) with (Reqb 1 1). rewrite Reqb_true by reflexivity. reflexivity.
Qed.
Print Assumptions C100_projection_refuted.

(** Scale-invariant model: the objective of the fit is NaN at its own starting value 0, where the probability of the link is 0, and
    its derivative is NaN at 1, where the probability is 1. *)
Theorem C100_objective_refuted : exists xs ys, canonical 2 xs /\ canonical 2 ys /\ Forall (fun p => datum (snd p)) xs /\ Forall (fun p => datum (snd p)) ys /\
  rminv_p_ij b64 (fun _ => Fin 0) xs ys = Fin 0 /\ rminv_p_jac b64 (Fin 0) xs ys = (NaN, NaN) /\
  rminv_p_ij b64 (fun _ => Fin 1) xs ys = Fin 1 /\ rminv_p_jac b64 (Fin 1) xs ys = (Fin 1, NaN).
Proof.
  set (x := Fin (two 511)). set (y := Fin (two 512)).
  exists [(0%nat, x); (1%nat, x)], [(0%nat, y); (1%nat, y)].
  assert (D : datum x /\ datum y) by (split; apply two_datum; lia). destruct D as [Dx Dy].
  split; [split; [repeat constructor | repeat constructor; cbn; lia]|]. split; [split; [repeat constructor | repeat constructor; cbn; lia]|].
  split; [repeat apply Forall_cons; try apply Forall_nil; assumption|]. split; [repeat apply Forall_cons; try apply Forall_nil; assumption|].
  assert (Zx : is0 x = false) by (apply is0_fin_pos, two_pos). assert (Zy : is0 y = false) by (apply is0_fin_pos, two_pos).
  assert (T : rmul b64 x y = Fin (two 1023)) by (unfold x, y; rewrite mul_two, b64_two by lia; reflexivity).
  assert (A0 : radd b64 (Fin 0) (Fin (two 1023)) = Fin (two 1023)) by (unfold radd; cbn [nadd rnd_num]; rewrite Rplus_0_l; apply b64_two; lia).
  assert (A1 : radd b64 (Fin (two 1023)) (Fin (two 1023)) = PInf).
  { unfold radd. cbn [nadd rnd_num]. replace (two 1023 + two 1023) with (two 1024); [apply b64_over; lia|]. change 1024%Z with (1 + 1023)%Z. rewrite two_add, two_1. ring. }
  assert (W : walk (rminv_jac_step b64) [(0%nat, x); (1%nat, x)] [(0%nat, y); (1%nat, y)] (Fin 0) = Next PInf).
  { cbn [walk Nat.eqb]. unfold rminv_jac_step. rewrite Zx, Zy. cbn [negb andb]. rewrite T. cbn [isinf]. rewrite A0, A1. reflexivity. }
  assert (Z0 : is0 (Fin 0) = true) by (change (is0 (Fin 0)) with (Reqb 0 0); apply Reqb_true; reflexivity).
  assert (Z1 : is0 (Fin 1) = false) by (apply is0_fin_pos; lra).
  split; [|split; [|split]].
  - unfold rminv_p_ij. cbn [walk Nat.eqb]. unfold rminv_step. rewrite Z0. cbn [negb andb]. destruct (exponential_unit 0 ltac:(lra)) as (q & Eq & Eq' & _). rewrite Eq.
    rewrite Ropp_0, exp_0 in Eq'. replace (1 - 1) with 0 in Eq' by ring. rewrite b64_0 in Eq'. congruence.
  - unfold rminv_p_jac. cbn [isinf]. rewrite W. unfold rmul at 1 2 4. cbn [nmul rnd_num]. unfold inf_times. rewrite !Reqb_true by reflexivity. reflexivity.
  - assert (P1 : rmul b64 (Fin 1) x = x) by (unfold x, rmul; cbn [nmul rnd_num]; rewrite Rmult_1_l; apply b64_two; lia).
    unfold rminv_p_ij. cbn [walk Nat.eqb]. unfold rminv_step. rewrite Z1, Zx, Zy. cbn [negb andb]. rewrite P1, T. cbn [isinf]. rewrite A0, A1. apply expm1_inf.
  - unfold rminv_p_jac. cbn [isinf]. rewrite W. assert (P : rmul b64 (Fin 1) PInf = PInf) by (unfold rmul; cbn; unfold inf_times; rewrite Reqb_false, Rltb_true by lra; reflexivity).
    rewrite P. change (is0 PInf) with false. cbv zeta iota. rewrite expm1_inf. f_equal. unfold rexp. cbn [nopp nexp rnd_num]. rewrite b64_0. unfold rmul. cbn [nmul rnd_num].
    unfold inf_times. rewrite Reqb_true by reflexivity. reflexivity.
Qed.
Print Assumptions C100_objective_refuted.
