(** Property C112: density fit of one parameter for all labels, then sampling, in double precision. *)
From Verif Require Import Base Num Spec Kernels KernelFacts MultiKernels MultiFacts Prob Ensemble EnsembleFacts ModelFacts Layers LayerFacts LayerProps LayerLib PropLayers Conditional Solver
  Float FloatFacts FloatSample FloatSolver FloatSolverFacts FloatMulti FloatMultiFacts FloatLayers Fit FloatSharedFit PropFloat PropFloatSample PropFloatSolver PropFloatMulti PropFloatLayers
  FloatRankFacts FloatAccuracy PropFloatAccuracy PropFloatLik PropFloatDraws PropFloatLayerAccuracy PropFloatLayerFit PropFloatProjection.
Import Num Spec.
From Coq Require Import Lra Lia FunctionalExtensionality.
Open Scope R_scope.
Local Notation drawn := PropFloatDraws.drawn.
Local Notation close := FloatAccuracy.close.
Local Notation walk := MultiKernels.walk.

(** Without rounding the model is that of Fit.v. *)
Theorem C112_exact : forall p_jac N L xs ys sl target (x0 : option (list num)) atol rtol maxiter layer targets,
  rfit_shared Fin p_jac N L xs ys sl target x0 atol rtol maxiter =
  multi_fit L false (fun delta => exp_edges_f_jac (fun d x y (_ : unit) => p_jac d x y) delta (fun i => zip (nth i xs ([], []))) (fun j => zip (nth j ys ([], []))) (fun _ _ => Datatypes.tt) N sl)
    layer target targets (match x0 with None => None | Some l => Some (Numeric l) end) Density atol rtol maxiter.
Proof.
  intros p_jac N L xs ys sl target x0 atol rtol maxiter layer targets. unfold rfit_shared, multi_fit.
  assert (E : rdensity_fit_fun Fin p_jac N xs ys sl = fun delta => exp_edges_f_jac (fun d x y (_ : unit) => p_jac d x y) delta (fun i => zip (nth i xs ([], []))) (fun j => zip (nth j ys ([], []))) (fun _ _ => Datatypes.tt) N sl).
  { extensionality delta. exact (proj2 C98_exact _ _ _ (fun d x y (_ : unit) => p_jac d x y) delta (fun i => zip (nth i xs ([], []))) (fun j => zip (nth j ys ([], []))) (fun _ _ => Datatypes.tt) N sl). }
  rewrite E. destruct x0 as [l|]; cbn [arr_len]; destruct target as [t|]; rewrite ?(proj1 C98_exact); reflexivity.
Qed.
Print Assumptions C112_exact.
Example C112_exact_case : rfit_shared Fin mfit_p_jac 2 1 (ex_table 2) (ex_table 2) false (Some (Fin 1)) (Some [Fin 1; Fin 1]) (Fin 1) (Fin 1) 3 = Raise ValueError /\
  rfit_shared Fin mfit_p_jac 2 1 (ex_table 2) (ex_table 2) false None (Some [Fin 1]) (Fin 1) (Fin 1) 3 = Raise ValueError.
Proof. split; [reflexivity|]. unfold rfit_shared. cbn [length Nat.eqb guard]. destruct (negb (any_neg [Fin 1])); reflexivity. Qed.

(** * The probabilities of the objective *)
Lemma inv_unit : forall s, 0 <= s -> 0 < / (1 + s) <= 1.
Proof. intros s Hs. split; [apply Rinv_0_lt_compat; lra | rewrite <- Rinv_1 at 2; apply Rinv_le_contravar; lra]. Qed.
Lemma inv_large : forall s, two 610 <= s -> / (1 + s) <= two (-52).
Proof. intros s H. change (-52)%Z with (- (52))%Z. rewrite two_neg. pose proof (two_pos 610). assert (two 52 <= two 610) by (apply two_le; lia). pose proof (two_pos 52). apply Rinv_le_contravar; lra. Qed.

(** The product d (x y) of the loop of p_jac_ij, for any parameter. *)
Lemma shared_tmp : forall w x y, 0 <= w -> double w -> mid x -> mid y ->
  match rmul b64 (Fin w) (rmul b64 (Fin x) (Fin y)) with
  | Fin t => 0 <= t /\ double t /\ Rabs (/ (1 + t) - / (1 + w * x * y)) <= two (-51)
  | PInf => / (1 + w * x * y) <= two (-51)
  | _ => False
  end.
Proof.
  intros w x y Hw Dw [Dx Bx] [Dy By]. pose proof (two_pos (-130)). pose proof uu_pos as UP. pose proof uu_small as US.
  assert (Rg : two (-260) <= x * y <= two 260).
  { split; [change (-260)%Z with (-130 + -130)%Z | change 260%Z with (130 + 130)%Z]; rewrite two_add; apply Rmult_le_compat; lra. }
  destruct (b64_rel (x * y)) as (m & Em & Dm & Rm); [split; [apply Rle_trans with (two (-260)) | apply Rle_trans with (two 260)]; try lra; apply two_le; lia|].
  unfold rmul at 2. cbn [nmul rnd_num]. rewrite Em. unfold rmul. cbn [nmul rnd_num]. fold uu in Rm. pose proof (two_pos (-260)).
  assert (M0 : 0 < m) by nra. assert (P0 : 0 <= w * m) by (apply Rmult_le_pos; lra). set (r := w * x * y).
  assert (R0 : 0 <= r) by (unfold r; repeat apply Rmult_le_pos; lra).
  assert (Rr : r * (1 - uu) <= w * m <= r * (1 + uu)).
  { unfold r. rewrite !Rmult_assoc. rewrite <- (Rmult_assoc x y), <- (Rmult_assoc x y). split; apply Rmult_le_compat_l; lra. }
  assert (E51 : two (-51) = 4 * uu) by (change (-51)%Z with (2 + -53)%Z; rewrite two_add, (two_Z 2) by lia; reflexivity).
  assert (E52 : two (-52) = 2 * uu) by (symmetry; apply uu_52).
  assert (Big : two 1022 <= w * m -> / (1 + r) <= two (-52)).
  { intros B. apply inv_large. assert (two 1022 = 2 * two 1021) by (change 1022%Z with (1 + 1021)%Z; rewrite two_add, two_1; reflexivity). assert (two 610 <= two 1021) by (apply two_le; lia). pose proof (two_pos 610). nra. }
  destruct (round_case (w * m) P0) as [(E & [F0 FD] & _ & A) | (B & [E | (t & E & Dt & Ht)])]; rewrite E.
  - set (t := rv (w * m)) in *. split; [exact F0|]. split; [exact FD|]. unfold ap in A. apply Rabs_def2_le in A.
    assert (EU : eta <= uu * / 1024) by (unfold eta, uu; replace (/ 1024) with (two (-10)) by (change (-10)%Z with (- (10))%Z; rewrite two_neg, two_Z by lia; reflexivity); rewrite <- two_add; apply two_le; lia).
    pose proof (inv_unit t F0) as It. pose proof (inv_unit r R0) as Ir.
    replace (/ (1 + t) - / (1 + r)) with ((r - t) * / (1 + r) * / (1 + t)) by (field; lra).
    rewrite !Rabs_mult, (Rabs_right (/ (1 + r))), (Rabs_right (/ (1 + t))) by lra.
    assert (Q : Rabs (r - t) <= 4 * uu * (1 + r)) by (apply Rabs_le; nra).
    apply Rle_trans with (4 * uu * (1 + r) * / (1 + r) * 1).
    + apply Rmult_le_compat; [apply Rmult_le_pos; [apply Rabs_pos | lra] | lra | apply Rmult_le_compat_r; lra | lra].
    + rewrite Rmult_1_r, Rmult_assoc, Rinv_r, Rmult_1_r by lra. lra.
  - specialize (Big B). lra.
  - pose proof (two_pos 1022). split; [lra|]. split; [exact Dt|]. specialize (Big B). pose proof (inv_unit r R0). pose proof (inv_unit t ltac:(lra)).
    assert (/ (1 + t) <= two (-52)) by (apply inv_large; assert (two 610 <= two 1022) by (apply two_le; lia); lra). apply Rabs_le. lra.
Qed.

Definition shared_k (kd : kind) (L : nat) : R := match kd with fitness => 0 | invariant => (2 * INR L + 36) * uu end.
Definition shared_b (kd : kind) (L : nat) : R := match kd with fitness => (INR L + 1) * two (-50) | invariant => bb end.

Section Pair.
Variables (L : nat) (xs ys : svec) (w : R).
Hypothesis Cx : canonical L xs.
Hypothesis Cy : canonical L ys.
Hypothesis HL : (Z.of_nat L <= 2 ^ 40)%Z.
Hypothesis Hx : Forall (fun p => moderate (snd p)) xs.
Hypothesis Hy : Forall (fun p => moderate (snd p)) ys.
Hypothesis Hw : 0 <= w.
Hypothesis Dw : double w.
Let ww k := w * toR (lookup k xs) * toR (lookup k ys).

Lemma toR_moderate : forall a, moderate a -> 0 <= toR a.
Proof. intros a [-> | (v & -> & _ & H)]; cbn; [lra | pose proof (two_pos (-130)); lra]. Qed.
Lemma ww_nonneg : forall k, 0 <= ww k.
Proof. intros k. unfold ww. repeat apply Rmult_le_pos; [exact Hw | |]; apply toR_moderate, lookup_moderate; assumption. Qed.

Lemma shared_fit_close : close 0 ((INR L + 1) * two (-50)) (fst (rmfit_p_jac b64 (Fin w) xs ys)) (1 - prodn L (fun k => 1 - logistic (ww k))).
Proof.
  assert (EP : forall n, prodn n (fun k => 1 - logistic (ww k)) = prodn n (fun k => / (1 + ww k))).
  { intros n. apply prodn_ext. intros k _. unfold logistic. pose proof (ww_nonneg k). field. lra. }
  rewrite EP. unfold rmfit_p_jac. rewrite (walk_dense _ _ _ L) by (assumption || apply rmfit_jac_neutral).
  pose proof (two_pos (-51)) as P51. assert (E50 : two (-50) = 2 * two (-51)) by (change (-50)%Z with (1 + -51)%Z; rewrite two_add, two_1; reflexivity).
  assert (U53 : two (-53) <= two (-50)) by (apply two_le; lia).
  assert (PR : forall n, 0 <= prodn n (fun k => / (1 + ww k)) <= 1).
  { intros n. induction n as [|n IH]; [cbn; lra|]. cbn [prodn]. pose proof (inv_unit _ (ww_nonneg n)). nra. }
  assert (F : match for_flow L (fun k => rmfit_jac_step b64 (Fin w) k (lookup k xs) (lookup k ys)) (Fin 1, Fin 0) with
    | Next s => exists v, fst s = Fin v /\ double v /\ 0 <= v <= 1 /\ Rabs (v - prodn L (fun k => / (1 + ww k))) <= INR L * two (-50)
    | Return r => fst r = Fin 1 /\ prodn L (fun k => / (1 + ww k)) <= two (-51) end).
  { apply (flow_rule (num * num) (num * num) L (fun n s => exists v, fst s = Fin v /\ double v /\ 0 <= v <= 1 /\ Rabs (v - prodn n (fun k => / (1 + ww k))) <= INR n * two (-50))
      (fun r => fst r = Fin 1 /\ prodn L (fun k => / (1 + ww k)) <= two (-51))).
    - exists 1. split; [reflexivity|]. split; [apply double_1|]. split; [lra|]. cbn. replace (1 - 1) with 0 by ring. rewrite Rabs_R0. lra.
    - intros k [v0 j] Hk (v & E & Dv & Hv & Er). cbn [fst] in E. subst v0. unfold rmfit_jac_step.
      assert (Skip : ww k = 0 -> exists v1, Fin v = Fin v1 /\ double v1 /\ 0 <= v1 <= 1 /\ Rabs (v1 - prodn (S k) (fun k => / (1 + ww k))) <= INR (S k) * two (-50)).
      { intros Z. exists v. split; [reflexivity|]. split; [exact Dv|]. split; [exact Hv|]. cbn [prodn]. rewrite Z. replace (/ (1 + 0)) with 1 by field. rewrite Rmult_1_r, S_INR. lra. }
      pose proof (lookup_moderate k xs Hx) as Mx. pose proof (lookup_moderate k ys Hy) as My.
      destruct (is0 (lookup k xs)) eqn:Zx; cbn [negb andb].
      { cbn [fst]. apply Skip. unfold ww. rewrite (is0_fin0 _ Zx). cbn [toR]. ring. }
      destruct (is0 (lookup k ys)) eqn:Zy; cbn [negb].
      { cbn [fst]. apply Skip. unfold ww. rewrite (is0_fin0 _ Zy). cbn [toR]. ring. }
      destruct (is0 (Fin w)) eqn:Zw.
      { cbn [fst]. apply Skip. unfold ww. apply is0_fin0 in Zw. injection Zw as ->. ring. }
      cbv zeta. destruct (moderate_pos _ Mx Zx) as (x & Ex & X), (moderate_pos _ My Zy) as (y & Ey & Y).
      assert (Ew : ww k = w * x * y) by (unfold ww; rewrite Ex, Ey; reflexivity). rewrite Ex, Ey.
      pose proof (shared_tmp w x y Hw Dw X Y) as St. rewrite <- Ew in St. destruct (rmul b64 (Fin w) (rmul b64 (Fin x) (Fin y))) as [t| | |] eqn:Et; try contradiction; cbn [isinf].
      + destruct St as (T0 & Dt & Cl). destruct (div_step v t Hv Dv T0 Dt) as (q & -> & Dq & Hq & _ & _ & Rq). cbn [fst]. exists q. split; [reflexivity|]. split; [exact Dq|]. split; [lra|].
        cbn [prodn]. rewrite S_INR. set (p := prodn k _) in *. pose proof (inv_unit t T0) as It. pose proof (inv_unit _ (ww_nonneg k)) as Iw. specialize (PR k). fold p in PR.
        replace (q - p * / (1 + ww k)) with ((q - v / (1 + t)) + (v * (/ (1 + t) - / (1 + ww k)) + (v - p) * / (1 + ww k))) by (unfold Rdiv; ring).
        eapply Rle_trans; [apply Rabs_triang|]. apply Rle_trans with (two (-51) + (two (-51) + INR k * two (-50))); [|lra]. apply Rplus_le_compat; [exact Rq|].
        eapply Rle_trans; [apply Rabs_triang|]. rewrite !Rabs_mult, (Rabs_right v), (Rabs_right (/ (1 + ww k))) by lra. pose proof (Rabs_pos (v - p)). pose proof (Rabs_pos (/ (1 + t) - / (1 + ww k))). nra.
      + split; [reflexivity|]. clear - St Hk PR Hw Hx Hy. assert (G : forall n, (k < n)%nat -> prodn n (fun k => / (1 + ww k)) <= / (1 + ww k)).
        { induction n as [|n IH]; intros H; [lia|]. cbn [prodn]. pose proof (inv_unit _ (ww_nonneg n)) as In. specialize (PR n). destruct (Nat.eq_dec n k) as [->|N]; [nra | specialize (IH ltac:(lia)); nra]. }
        specialize (G L Hk). lra. }
  pose proof (PR L) as PL. pose proof (pos_INR L) as L0. assert (P50 : 0 < two (-50)) by apply two_pos. assert (0 <= INR L * two (-50)) by (apply Rmult_le_pos; lra).
  destruct (for_flow L _ _) as [[v0 j]|r].
  - destruct F as (v & E & Dv & Hv & Er). cbn [fst] in E. subst v0. destruct (complement v Hv Dv) as (p & Ep & Dp & Hp & _ & _ & Rp). cbn [fst]. exists p. split; [exact Ep|]. split; [split; [lra | exact Dp]|]. split; [lra|].
    unfold ap. set (A := prodn L _) in *. replace (p - (1 - A)) with ((p - (1 - v)) + - (v - A)) by ring. eapply Rle_trans; [apply Rabs_triang|]. rewrite Rabs_Ropp. lra.
  - destruct F as [E F]. rewrite E. exists 1. split; [reflexivity|]. split; [split; [lra | apply double_1]|]. split; [lra|]. unfold ap. apply Rabs_le. lra.
Qed.

Lemma jac_walk : forall s, walk (rminv_step b64 (Fin 1) (fun _ => Fin 1)) xs ys (Fin 0) = Next s -> walk (rminv_jac_step b64) xs ys (Fin 0) = Next s.
Proof.
  rewrite (walk_dense _ _ _ L) by (assumption || apply rminv_neutral). rewrite (walk_dense _ _ _ L) by (assumption || apply rminv_jac_neutral).
  clear Cx Cy HL. induction L as [|n IH]; intros s E; [injection E as <-; reflexivity|]. cbn [for_flow] in *.
  destruct (for_flow n (fun k => rminv_step b64 _ _ k _ _) _) as [a|]; [|discriminate]. rewrite (IH a eq_refl).
  unfold rminv_step in E. unfold rminv_jac_step. rewrite is0_fin_pos in E by lra. cbn [negb andb] in E. destruct (negb (is0 (lookup n xs)) && negb (is0 (lookup n ys))) eqn:Z; [|injection E as ->; reflexivity].
  apply andb_true_iff in Z as [Zx _]. apply negb_true_iff in Zx. destruct (moderate_pos _ (lookup_moderate n xs Hx) Zx) as (x & Ex & Dx & _). rewrite Ex in *.
  assert (M1 : rmul b64 (Fin 1) (Fin x) = Fin x) by (unfold rmul; cbn [nmul rnd_num]; rewrite Rmult_1_l; apply b64_fixed, Dx). rewrite M1 in E. cbv zeta in *.
  destruct (isinf _); [discriminate | injection E as <-; reflexivity].
Qed.

Lemma shared_inv_close : close ((2 * INR L + 36) * uu) bb (fst (rminv_p_jac b64 (Fin w) xs ys)) (1 - prodn L (fun k => 1 - poissonian (ww k))).
Proof.
  assert (PS : 1 - prodn L (fun k => 1 - poissonian (ww k)) = poissonian (sumn L ww)).
  { unfold poissonian. f_equal. rewrite <- sumn_opp, <- prodn_exp. apply prodn_ext. intros k _. ring. }
  rewrite PS. clear PS. assert (HL53 : (Z.of_nat L <= 2 ^ 53)%Z) by (eapply Z.le_trans; [exact HL | lia]).
  destruct (inv_sum (Fin 1) L (fun _ => Fin 1) xs ys Cx Cy HL53 (fun k _ => moderate_1) Hx Hy) as (s & Es & Ds & Bs & Rs). apply jac_walk in Es.
  set (S := sumn L (fun k => toR (Fin 1) * toR (lookup k xs) * toR (lookup k ys))) in *.
  assert (ES : sumn L ww = w * S) by (unfold S; rewrite <- sumn_scal_l; apply sumn_ext; intros k _; unfold ww; cbn [toR]; ring). rewrite ES.
  assert (S0 : 0 <= S) by (apply sumn_nonneg; intros k _; cbn [toR]; repeat apply Rmult_le_pos; [lra | |]; apply toR_moderate, lookup_moderate; assumption).
  assert (s0 : 0 <= s) by (destruct Bs as [[-> _] | Bs]; [lra | pose proof (two_pos (-390)); lra]).
  unfold rminv_p_jac. cbn [isinf]. rewrite Es. cbv zeta. unfold rmul at 1 2 3. cbn [nmul rnd_num].
  assert (ws : 0 <= w * s) by (apply Rmult_le_pos; lra). pose proof uu_pos as UP. pose proof uu_small as US. pose proof eta_pos.
  assert (Tr : tracked 610 (8 * uu) (two (-800)) (b64 (w * s)) (w * s)).
  { destruct (round_case (w * s) ws) as [(E & F & _ & A) | (B & Hg)].
    - left. exists (rv (w * s)). split; [exact E|]. split; [exact F|]. eapply ap_le; [exact ws | | | exact A]; [lra | unfold eta; apply two_le; lia].
    - right. split; [apply (huge_le 1022); [lia | exact Hg] | eapply Rle_trans; [apply two_le | exact B]; lia]. }
  assert (Cl : close kk bb (fst (if is0 (b64 (w * s)) then (Fin 0, Fin s) else (nopp (rexpm1 b64 (nopp (b64 (w * s)))), rmul b64 (Fin s) (rexp b64 (nopp (b64 (w * s))))))) (poissonian (w * s))).
  { pose proof (exponential_close _ _ ws Tr) as C. change (prob_of_product true (w * s)) with (poissonian (w * s)) in C. destruct (is0 (b64 (w * s))) eqn:Z; cbn [fst].
    - apply is0_fin0 in Z. rewrite Z in C. cbn [isinf] in C. assert (E0 : nopp (rexpm1 b64 (nopp (Fin 0))) = Fin 0).
      { unfold rexpm1. cbn [nopp]. rewrite nexpm1_fin. cbn [rnd_num]. rewrite Ropp_0, exp_0. replace (1 - 1) with 0 by ring. rewrite b64_0. cbn. f_equal. lra. }
      rewrite E0 in C. exact C.
    - destruct (b64_nonneg (w * s) ws) as [E | (t & E & _)]; rewrite E in *; cbn [isinf] in C; [rewrite expm1_inf; exact C | exact C]. }
  match type of Cl with close _ _ ?a _ => match goal with |- close _ _ ?b _ => change b with a end end.
  destruct Cl as (v & E & F & V1 & A). exists v. split; [exact E|]. split; [exact F|]. split; [exact V1|].
  assert (wS : 0 <= w * S) by (apply Rmult_le_pos; lra).
  assert (P0 : 0 <= poissonian (w * S) <= 1) by (destruct (poissonian_range (w * S) wS); lra).
  set (t := INR (L + 2) * uu). assert (T1 : 0 <= t <= / 128).
  { destruct (proj_small fitness L HL) as (_ & _ & Q). unfold t. pose proof (pos_INR (L + 2)). split; [apply Rmult_le_pos; lra|]. eapply Rle_trans; [|exact Q]. apply Rmult_le_compat_r; [lra | apply le_INR; lia]. }
  pose proof (bernoulli_minus (L + 2)) as BM. pose proof (pow_uu (L + 2) (/ 128) (proj2 T1) ltac:(lra)) as BP. fold t in BM, BP. fold uu in Rs.
  assert (Up : poissonian (w * s) <= (1 + 2 * t) * poissonian (w * S)).
  { eapply Rle_trans; [|apply poissonian_scale_up; lra]. apply poissonian_mono. rewrite <- Rmult_assoc, (Rmult_comm _ w), Rmult_assoc. apply Rmult_le_compat_l; [exact Hw|]. eapply Rle_trans; [apply Rs|]. apply Rmult_le_compat_r; lra. }
  assert (Lo : (1 - t) * poissonian (w * S) <= poissonian (w * s)).
  { eapply Rle_trans; [apply poissonian_scale_down; lra|]. apply poissonian_mono. rewrite <- Rmult_assoc, (Rmult_comm _ w), Rmult_assoc. apply Rmult_le_compat_l; [exact Hw|]. eapply Rle_trans; [|apply Rs]. apply Rmult_le_compat_r; lra. }
  assert (A2 : ap (2 * t) 0 (poissonian (w * s)) (poissonian (w * S))) by (unfold ap; apply Rabs_le; assert (0 <= t * poissonian (w * S)) by (apply Rmult_le_pos; lra); lra).
  pose proof kk_small. pose proof (ap_trans (2 * t) 0 kk bb v (poissonian (w * s)) (poissonian (w * S)) ltac:(lra) ltac:(lra) ltac:(lra) ltac:(lra) A2 A) as A3.
  eapply ap_le; [lra | | | exact A3]; [|lra]. unfold t. rewrite plus_INR, kk_uu. cbn [INR]. lra.
Qed.
End Pair.

(** The kernels of the objective of the two models. *)
Definition s_jac (kd : kind) := match kd with fitness => rmfit_p_jac b64 | invariant => rminv_p_jac b64 end.

Lemma finite_law : forall kd w x y, 0 <= w -> moderate x -> moderate y -> link_prob (law kd) [Fin w; x; y; Fin 1] = law kd (w * toR x * toR y).
Proof.
  intros kd w x y Hd Hx Hy. assert (E : link_prob (law kd) [Fin w; x; y; Fin 1] = exact_prob (is_inv kd) (Fin w) x y (Fin 1)) by (unfold exact_prob; destruct kd; reflexivity). rewrite E.
  destruct (Req_dec w 0) as [-> | A]; [rewrite zero_prob by (rewrite is0_0; reflexivity); rewrite !Rmult_0_l, law_0; reflexivity|].
  destruct (moderate_cases x Hx) as [-> | (b & -> & B & _)]; [rewrite zero_prob by (rewrite is0_0, ?orb_true_r; reflexivity); cbn [toR]; rewrite Rmult_0_r, Rmult_0_l, law_0; reflexivity|].
  destruct (moderate_cases y Hy) as [-> | (c & -> & C & _)]; [rewrite zero_prob by (rewrite is0_0, ?orb_true_r; reflexivity); cbn [toR]; rewrite Rmult_0_r, law_0; reflexivity|].
  rewrite pos_prob by lra. cbn [toR]. rewrite Rmult_1_r. destruct kd; reflexivity.
Qed.

Lemma shared_small : forall kd L, (Z.of_nat L <= 2 ^ 40)%Z -> 0 <= shared_k kd L <= / 64 /\ 0 <= shared_b kd L <= 1.
Proof.
  intros kd L HL. destruct (proj_small fitness L HL) as (_ & B & T). unfold proj_b in B. rewrite plus_INR in T. cbn [INR] in T. pose proof uu_pos. pose proof (pos_INR L). pose proof bb_parts as [_ BU]. pose proof bb_pos.
  assert (US : uu <= / 4096) by (unfold uu; replace (/ 4096) with (two (-12)) by (change (-12)%Z with (- (12))%Z; rewrite two_neg, two_Z by lia; reflexivity); apply two_le; lia).
  assert (LB : INR L * uu <= / 8192).
  { apply Rle_trans with (two 40 * two (-53)); [apply Rmult_le_compat_r; [left; apply two_pos|]; rewrite two_Z by lia; rewrite INR_IZR_INZ; apply IZR_le; exact HL|]. rewrite <- two_add.
    replace (/ 8192) with (two (-13)) by (change (-13)%Z with (- (13))%Z; rewrite two_neg, two_Z by lia; reflexivity). apply two_le. lia. }
  assert (0 <= INR L * uu) by (apply Rmult_le_pos; lra).
  unfold shared_k, shared_b. destruct kd; [split; [lra | exact B]|]. split; lra.
Qed.

(** * The fit *)
(** From the computed value and tolerance to the exact ones. *)
Lemma report_margin : forall v tol T tau mean kap c e, 0 < T -> 0 < tau <= T / 4 -> 0 <= e <= / 64 -> Rabs (tol - tau) <= e * tau -> 0 <= kap <= 3 / 8 -> 0 <= c -> 0 <= mean ->
  Rabs (v - mean) <= kap * mean + c ->
  (Rabs (v - T) <= tol -> Rabs (mean - T) <= (1 + e) * tau + (3 * (kap * T) + 2 * c)) /\
  (Rabs (mean - T) + (3 * (kap * T) + 2 * c) <= (1 - e) * tau -> Rabs (v - T) <= tol).
Proof.
  intros v tol T tau mean kap c e T0 Tau He Et Hk Hc M0 A. apply Rabs_def2_le in Et, A. assert (0 <= kap * T) by (apply Rmult_le_pos; lra). assert (Te : e * tau <= / 64 * tau) by (apply Rmult_le_compat_r; lra). assert (0 <= e * tau) by (apply Rmult_le_pos; lra).
  split.
  - intros C. apply Rabs_def2_le in C. assert (kap * mean <= 3 / 8 * mean) by (apply Rmult_le_compat_r; lra).
    assert (MB : mean <= 8 / 5 * (v + c)) by lra. assert (MB2 : mean <= 3 * T + 8 / 5 * c) by lra.
    assert (KM : kap * mean <= kap * (3 * T + 8 / 5 * c)) by (apply Rmult_le_compat_l; lra). assert (KC : kap * c <= 3 / 8 * c) by (apply Rmult_le_compat_r; lra). apply Rabs_le. lra.
  - intros C. pose proof (Rabs_pos (mean - T)). assert (D : Rabs (mean - T) <= T) by lra. apply Rabs_def2_le in D. assert (KM : kap * mean <= kap * (3 * T)) by (apply Rmult_le_compat_l; lra).
    pose proof (Rabs_triang (v - mean) (mean - T)) as Tr. replace (v - mean + (mean - T)) with (v - T) in Tr by ring.
    assert (Rabs (v - mean) <= kap * mean + c) by (apply Rabs_le; lra). lra.
Qed.
Lemma tolerance_error : forall a rho T tol, two (-900) <= a <= T / 8 -> two (-50) <= rho * T <= T / 8 -> T <= two 54 ->
  radd b64 (Fin a) (rmul b64 (Fin rho) (Fin T)) = Fin tol -> Rabs (tol - (a + rho * T)) <= two (-50) * (a + rho * T).
Proof.
  intros a rho T tol Ha RT TB Et. set (tau := a + rho * T). pose proof uu_pos. pose proof uu_small. pose proof (two_pos (-900)).
  assert (U50 : 8 * uu = two (-50)) by (change (-50)%Z with (3 + -53)%Z; rewrite two_add, (two_Z 3) by lia; reflexivity). assert (B54 : two 54 <= two 1022) by (apply two_le; lia). pose proof (two_pos (-50)).
  destruct (rv_spec (rho * T) ltac:(lra)) as (E1 & D1 & P1 & B1). unfold rmul in Et. cbn [nmul rnd_num] in Et. rewrite E1 in Et. unfold radd in Et. cbn [nadd rnd_num] in Et.
  set (m := rv (rho * T)) in *. apply Rabs_def2_le in B1. pose proof eta_pos. assert (EU : eta <= uu * two (-50)) by (unfold eta, uu; rewrite <- two_add; apply two_le; lia).
  assert (EU2 : eta <= uu * (rho * T)) by (apply Rle_trans with (uu * two (-50)); [exact EU | apply Rmult_le_compat_l; lra]).
  assert (M1 : m <= 2 * (rho * T)) by nra.
  destruct (rv_spec (a + m) ltac:(lra)) as (E2 & _ & _ & B2). rewrite E2 in Et. injection Et as Et. rewrite Et in B2. apply Rabs_def2_le in B2.
  assert (UM : uu * (a + m) <= uu * (2 * tau)) by (apply Rmult_le_compat_l; unfold tau; lra). assert (UT : uu * (rho * T) <= uu * tau) by (apply Rmult_le_compat_l; unfold tau; lra).
  rewrite <- U50. apply Rabs_le. unfold tau in *. nra.
Qed.
Lemma share_count : forall N sl (f : nat -> nat -> bool), pair_sum N sl (fun i j => if f i j then 1 else 0) <= INR (N * N).
Proof.
  intros N sl f. rewrite mult_INR. unfold pair_sum. apply Rle_trans with (sumn N (fun _ => INR N)).
  - apply sumn_le. intros i Hi. apply Rle_trans with (sumn N (fun _ => 1)); [|rewrite sumn_const; lra]. apply sumn_le. intros j Hj. destruct (allowed sl i j), (f i j); lra.
  - rewrite sumn_const. lra.
Qed.

Lemma prodn_flags : forall n (f : nat -> bool), prodn n (fun k => 1 - if f k then 1 else 0) = if existsb f (seq 0 n) then 0 else 1.
Proof.
  intros n f. induction n as [|n IH]; [reflexivity|]. rewrite seq_S, existsb_app. cbn [prodn existsb plus]. rewrite IH, orb_false_r. destruct (existsb f (seq 0 n)), (f n); cbn [orb]; ring.
Qed.

(** Fit of one parameter for all labels in doubles.  For fitnesses that are zero or between 2^-130 and 2^130 and a target that the pairs
    of vertices with a common label can reach, the fit does not raise, and the report is right: if it says converged, the exact mean number of pairs
    linked in some layer at the fitted parameter is the target within the tolerance, and if the exact value is within the tolerance less
    the rounding errors, it says converged.  The latter fails of the scale-invariant model at an infinite parameter, where the objective
    also counts the pairs without a common label (C35_multi_invariant_infinite_refuted). *)
Definition share (xs ys : list (list nat * list num)) (L i j : nat) : bool :=
  existsb (fun k => negb (is0 (label_value xs i k) || is0 (label_value ys j k))) (seq 0 L).
Definition shared_margin (kd : kind) (N L : nat) (T : R) : R :=
  match kd with
  | fitness => two (-50) * INR (N * N) * T + two (-48) * (INR L + 1) * INR (N * N)
  | invariant => two (-50) * (INR (N * N) + 2 * INR L + 36) * T
  end.
Theorem C112_fit : forall kd N L xs ys sl T a rho x0 maxiter,
  label_table L xs -> label_table L ys -> length xs = N -> length ys = N -> moderate_table xs -> moderate_table ys -> (Z.of_nat L <= 2 ^ 40)%Z -> (Z.of_nat (N * N) <= 2 ^ 50)%Z ->
  double T -> T <= pair_sum N sl (fun i j => if share xs ys L i j then 1 else 0) -> two (-50) * INR (N * N) <= rho * T -> rho <= 1 / 8 -> two (-900) <= a <= T / 8 ->
  match x0 with None => True | Some l => length l = L /\ Forall amount l end ->
  exists sol, rfit_shared b64 (s_jac kd) N L xs ys sl (Some (Fin T)) x0 (Fin a) (Fin rho) maxiter = Ok (repeat (sol_x sol) L, [sol]) /\ amount (sol_x sol) /\
  let mean := tensor_mean N sl (fun k => graph_weight N sl (layer_prob (law kd) (fun k => nth k (repeat (sol_x sol) L) NaN) xs ys k)) L (fun Gs => g_edges N (concat Gs)) in
  (sol_converged sol = true -> Rabs (mean - T) <= (1 + two (-50)) * (a + rho * T) + shared_margin kd N L T) /\
  (kd = fitness \/ sol_x sol <> PInf -> Rabs (mean - T) + shared_margin kd N L T <= (1 - two (-50)) * (a + rho * T) -> sol_converged sol = true).
Proof.
  intros kd N L xs ys sl T a rho x0 maxiter Tx Ty Nx Ny Mx My HL HN DT HT Hr1 Hr2 Ha Hx0.
  assert (N1 : (1 <= N)%nat) by (destruct Tx as (NE & _); destruct xs; [contradiction | cbn in Nx; lia]).
  set (c := INR (N * N)) in *. assert (C1 : 1 <= c) by (apply (le_INR 1 (N * N)); nia).
  pose proof (two_pos (-900)) as P900. pose proof (two_pos (-50)) as P50. assert (T0 : 0 < T) by lra.
  assert (L1 : (1 <= L)%nat).
  { destruct L; [|lia]. exfalso. unfold share in HT. cbn [seq existsb] in HT. unfold pair_sum in HT. rewrite (sumn_ext _ _ (fun _ => 0)) in HT; [rewrite sumn_const in HT; lra|].
    intros i Hi. rewrite (sumn_ext _ _ (fun _ => 0)); [rewrite sumn_const; lra | intros j Hj; destruct (allowed sl i j); reflexivity]. }
  set (l := match x0 with None => repeat (Fin 0) L | Some l => l end).
  assert (Hl : length l = L /\ Forall amount l).
  { unfold l. destruct x0 as [l0|]; [exact Hx0|]. split; [apply repeat_length|]. apply Forall_forall. intros v Hv. apply repeat_spec in Hv as ->. right. apply datum_fin; [lra | apply double_0]. }
  assert (X0 : amount (nth 0 l NaN)) by (apply (proj1 (Forall_forall _ _) (proj2 Hl)); apply nth_In; lia).
  set (K := fun d i j => s_jac kd d (row_at xs i) (row_at ys j)).
  assert (HT2 : T <= pair_sum N sl (fun i j => if match kd with fitness => share_label L (row_at xs i) (row_at ys j) | invariant => true end then 1 else 0)).
  { eapply Rle_trans; [exact HT|]. unfold pair_sum. apply sumn_le. intros i Hi. apply sumn_le. intros j Hj. destruct (allowed sl i j); [|lra].
    assert (E : share xs ys L i j = share_label L (row_at xs i) (row_at ys j)).
    { unfold share, share_label, label_value, row_at. f_equal. extensionality k. apply negb_orb. }
    rewrite E. destruct kd; [lra|]. destruct (share_label L _ _); lra. }
  destruct (C100_fit K (fun i j => match kd with fitness => share_label L (row_at xs i) (row_at ys j) | invariant => true end) L (row_at xs) (row_at ys) N sl T a rho (nth 0 l NaN) maxiter) as (sol & ES & FA & v & tol & Ev & Et & Conv); try assumption.
  { unfold K. destruct kd; [left | right]; split; reflexivity. }
  { intros i Hi. destruct (row_ok L xs i Tx Mx ltac:(lia)), (row_ok L ys i Ty My ltac:(lia)). auto. }
  { eapply Z.le_trans; [exact HL | lia]. }
  { eapply Z.le_trans; [exact HN | lia]. }
  assert (Ax : amount (sol_x sol)).
  { destruct (C98_report _ _ _ _ _ _ _ _ _ _ _ ES) as (_ & _ & _ & _ & _ & _ & LX & _ & _ & Last & _). rewrite <- Last. rewrite Forall_forall in FA. apply FA.
    destruct (exists_last (l := sol_x_seq sol)) as (l' & lst & El); [intros Q; rewrite Q in LX; cbn in LX; lia|]. rewrite El, last_last. apply in_or_app. right. left. reflexivity. }
  exists sol. split; [|split; [exact Ax|]].
  { unfold rfit_shared. fold l. rewrite (proj1 Hl), Nat.eqb_refl, (no_negative l (proj2 Hl)). cbn [negb guard].
    change (rdensity_fit_fun b64 (s_jac kd) N xs ys sl) with (fun d => rexp_edges_f_jac b64 (K d) N sl). rewrite ES. reflexivity. }
  cbv zeta. rewrite union_mean.
  pose proof (count_uu _ _ HN ltac:(lia)) as C50. fold c in C50. assert (E8 : two (50 - 53) = 1 / 8) by (change (50 - 53)%Z with (- (3))%Z; rewrite two_neg, two_Z by lia; change (2 ^ 3)%Z with 8%Z; lra). rewrite E8 in C50.
  assert (C : INR (N * N) * uu <= 1 / 2) by (fold c; lra).
  destruct (shared_small kd L HL) as [SK SB].
  pose proof uu_pos as UP. pose proof uu_small as US. assert (U50 : 8 * uu = two (-50)) by (change (-50)%Z with (3 + -53)%Z; rewrite two_add, (two_Z 3) by lia; reflexivity).
  assert (RTB : rho * T <= T / 8) by nra. assert (RT : two (-50) <= rho * T) by nra.
  assert (TB : T <= two 54). { assert (CB : c <= two 50) by (unfold c; rewrite INR_IZR_INZ, two_Z by lia; apply IZR_le, HN). pose proof (share_count N sl (share xs ys L)). fold c in H. assert (two 50 <= two 54) by (apply two_le; lia). lra. }
  pose proof (tolerance_error a rho T tol Ha (conj RT RTB) TB Et) as TE.
  assert (Kap : 0 <= 2 * shared_k kd L + 2 * (c * uu) <= 3 / 8) by (assert (0 <= c * uu) by (apply Rmult_le_pos; lra); lra).
  assert (Cc : 0 <= 2 * (c * shared_b kd L)) by (assert (0 <= c * shared_b kd L) by (apply Rmult_le_pos; lra); lra).
  assert (Mg : 3 * ((2 * shared_k kd L + 2 * (c * uu)) * T) + 2 * (2 * (c * shared_b kd L)) <= shared_margin kd N L T).
  { unfold shared_margin, shared_k, shared_b. fold c. pose proof (pos_INR L). assert (0 <= c * uu * T) by (repeat apply Rmult_le_pos; lra). destruct kd.
    - rewrite <- U50. assert (E48 : two (-48) = 32 * uu) by (change (-48)%Z with (5 + -53)%Z; rewrite two_add, (two_Z 5) by lia; reflexivity). rewrite E48. nra.
    - assert (BB : bb <= uu * two (-53)) by (unfold bb, uu; rewrite <- two_add; apply two_le; lia). assert (c * bb <= c * (uu * two (-53))) by (apply Rmult_le_compat_l; lra).
      assert (T50 : two (-50) * c <= T / 8) by lra. assert (two (-50) = 8 * two (-53)) by (rewrite <- U50; reflexivity). assert (c * (uu * two (-53)) <= uu * T / 64) by nra.
      assert (0 <= INR L * (uu * T)) by (repeat apply Rmult_le_pos; lra). assert (0 <= uu * T) by (apply Rmult_le_pos; lra). rewrite <- U50. nra. }
  (* the report, for probabilities close to the computed ones *)
  assert (Rep : forall q : nat -> nat -> R, (forall i j, (i < N)%nat -> (j < N)%nat -> close (shared_k kd L) (shared_b kd L) (fst (K (sol_x sol) i j)) (q i j) /\ 0 <= q i j <= 1) ->
    (sol_converged sol = true -> Rabs (pair_sum N sl q - T) <= (1 + two (-50)) * (a + rho * T) + shared_margin kd N L T) /\
    (Rabs (pair_sum N sl q - T) + shared_margin kd N L T <= (1 - two (-50)) * (a + rho * T) -> sol_converged sol = true)).
  { intros q Cl. pose proof (edges_summed _ _ _ _ N sl SK SB C Cl) as S. destruct (summed_error _ _ _ _ _ SK (proj1 SB) C S) as (v' & E' & _ & R & A). fold c in A. unfold ap in A.
    rewrite Ev in E'. injection E' as <-.
    destruct (report_margin v tol T (a + rho * T) (pair_sum N sl q) _ _ (two (-50)) T0 ltac:(lra) ltac:(lra) TE Kap Cc (proj1 R) A) as [F B].
    split; [intros Cv; apply Conv in Cv; specialize (F Cv); lra | intros H; apply Conv, B; lra]. }
  destruct Ax as [Ax | (w & Ax & Hw & Dw)]; rewrite Ax in *.
  - set (p := layer_prob (law kd) (fun k => nth k (repeat PInf L) NaN) xs ys).
    assert (EQ : forall i j, some_layer L p i j = if share xs ys L i j then 1 else 0).
    { intros i j. unfold some_layer. rewrite (prodn_ext L _ (fun k => 1 - if negb (is0 (label_value xs i k) || is0 (label_value ys j k)) then 1 else 0)); [rewrite prodn_flags; unfold share; destruct (existsb _ _); ring|].
      intros k Hk. f_equal. unfold p, layer_prob. rewrite (nth_indep _ NaN PInf) by (rewrite repeat_length; exact Hk). rewrite nth_repeat. unfold link_prob. cbn [existsb is_zero is_infinite].
      assert (Ez : forall a, is_zero a = is0 a) by (intros []; reflexivity). rewrite (Ez (label_value xs i k)), (Ez (label_value ys j k)), Reqb_false by lra. cbn [orb]. rewrite orb_false_r. destruct (is0 (label_value xs i k)), (is0 (label_value ys j k)); reflexivity. }
    set (cc := fun i j => match kd with fitness => share_label L (row_at xs i) (row_at ys j) | invariant => true end) in *.
    destruct (Rep (fun i j => if cc i j then 1 else 0)) as [F B].
    { intros i j Hi Hj. destruct (row_ok L xs i Tx Mx ltac:(lia)) as [Cx Rx], (row_ok L ys j Ty My ltac:(lia)) as [Cy Ry].
      assert (HL53 : (Z.of_nat L <= 2 ^ 53)%Z) by (eapply Z.le_trans; [exact HL | lia]).
      assert (EK : K PInf i j = (Fin (if cc i j then 1 else 0), Fin 0)).
      { unfold K, s_jac, cc. destruct kd; [apply (mfit_kernel L (row_at xs i) (row_at ys j)) | apply (minv_kernel L (row_at xs i) (row_at ys j))]; assumption. }
      rewrite EK. cbn [fst]. split; [|destruct (cc i j); lra]. exists (if cc i j then 1 else 0). split; [reflexivity|]. split; [split; destruct (cc i j); first [lra | apply double_1 | apply double_0]|]. split; [destruct (cc i j); lra|].
      unfold ap. replace ((if cc i j then 1 else 0) - (if cc i j then 1 else 0)) with 0 by ring. rewrite Rabs_R0. assert (0 <= shared_k kd L * (if cc i j then 1 else 0)) by (apply Rmult_le_pos; [lra | destruct (cc i j); lra]). lra. }
    assert (ES2 : forall i j, share xs ys L i j = share_label L (row_at xs i) (row_at ys j)).
    { intros i j. unfold share, share_label, label_value, row_at. f_equal. extensionality k. apply negb_orb. }
    assert (EM : pair_sum N sl (some_layer L p) = pair_sum N sl (fun i j => if share xs ys L i j then 1 else 0)).
    { unfold pair_sum. apply sumn_ext. intros i Hi. apply sumn_ext. intros j Hj. rewrite EQ. reflexivity. }
    rewrite EM. split.
    + intros Cv. specialize (F Cv). set (V := pair_sum N sl (fun i j => if cc i j then 1 else 0)) in *. set (M := pair_sum N sl (fun i j => if share xs ys L i j then 1 else 0)) in *.
      assert (MV : M <= V). { unfold M, V, pair_sum. apply sumn_le. intros i Hi. apply sumn_le. intros j Hj. destruct (allowed sl i j); [|lra]. rewrite ES2. unfold cc. destruct kd; [lra|]. destruct (share_label L _ _); lra. }
      rewrite Rabs_right in F by lra. rewrite Rabs_right by lra. lra.
    + intros [Ek | Ek]; [|contradiction]. replace (pair_sum N sl (fun i j => if share xs ys L i j then 1 else 0)) with (pair_sum N sl (fun i j => if cc i j then 1 else 0)); [exact B|].
      unfold pair_sum, cc. rewrite Ek. apply sumn_ext. intros i Hi. apply sumn_ext. intros j Hj. rewrite ES2. reflexivity.
  - cut ((sol_converged sol = true -> Rabs (pair_sum N sl (some_layer L (layer_prob (law kd) (fun k => nth k (repeat (Fin w) L) NaN) xs ys)) - T) <= (1 + two (-50)) * (a + rho * T) + shared_margin kd N L T) /\
         (Rabs (pair_sum N sl (some_layer L (layer_prob (law kd) (fun k => nth k (repeat (Fin w) L) NaN) xs ys)) - T) + shared_margin kd N L T <= (1 - two (-50)) * (a + rho * T) -> sol_converged sol = true)); [intros [H1 H2]; split; [exact H1 | intros _; exact H2]|].
    set (p := layer_prob (law kd) (fun k => nth k (repeat (Fin w) L) NaN) xs ys).
    assert (Cl : forall i j, (i < N)%nat -> (j < N)%nat -> close (shared_k kd L) (shared_b kd L) (fst (K (Fin w) i j)) (some_layer L p i j) /\ 0 <= some_layer L p i j <= 1).
    { intros i j Hi Hj. destruct (row_ok L xs i Tx Mx ltac:(lia)) as [Cx Rx], (row_ok L ys j Ty My ltac:(lia)) as [Cy Ry].
      set (ww := fun k => w * toR (lookup k (row_at xs i)) * toR (lookup k (row_at ys j))).
      assert (E : some_layer L p i j = 1 - prodn L (fun k => 1 - law kd (ww k))).
      { unfold some_layer. f_equal. apply prodn_ext. intros k Hk. f_equal. unfold p, layer_prob. rewrite (nth_indep _ NaN (Fin w)) by (rewrite repeat_length; exact Hk). rewrite nth_repeat. apply finite_law; [exact Hw | apply label_value_moderate, Mx | apply label_value_moderate, My]. }
      rewrite E. split.
      - unfold K, s_jac, shared_k, shared_b. destruct kd; [apply shared_fit_close | apply shared_inv_close]; assumption.
      - destruct (prodn_close L (fun k => 1 - law kd (ww k)) (fun k => 1 - law kd (ww k)) 0) as [P _]; [|lra | lra].
        intros k Hk. pose proof (ww_nonneg (row_at xs i) (row_at ys j) w Rx Ry Hw k) as W0. assert (0 <= law kd (ww k) < 1) by (destruct kd; cbn [law]; [apply logistic_range | apply poissonian_range]; exact W0). replace (1 - law kd (ww k) - (1 - law kd (ww k))) with 0 by ring. rewrite Rabs_R0. lra. }
    exact (Rep _ Cl).
Qed.
Print Assumptions C112_fit.

(** Two vertices and two labels, with self-loops, and a target of 2 of the 4 pairs; the margin is below the tolerance. *)
Lemma shared_case : label_table 2 two_labels /\ length two_labels = 2%nat /\ moderate_table two_labels /\ (Z.of_nat 2 <= 2 ^ 40)%Z /\ (Z.of_nat (2 * 2) <= 2 ^ 50)%Z /\
  double 2 /\ 2 <= pair_sum 2 true (fun i j => if share two_labels two_labels 2 i j then 1 else 0) /\ two (-50) * INR (2 * 2) <= two (-30) * 2 /\ two (-30) <= 1 / 8 /\ two (-900) <= two (-80) <= 2 / 8 /\
  (length [Fin 0; PInf] = 2%nat /\ Forall amount [Fin 0; PInf]) /\
  shared_margin fitness 2 2 2 <= (two (-80) + two (-30) * 2) / 1024 /\ shared_margin invariant 2 2 2 <= (two (-80) + two (-30) * 2) / 1024.
Proof.
  destruct two_labels_ok as [T1 T2]. split; [exact T1|]. split; [reflexivity|]. split; [exact T2|]. split; [lia|]. split; [lia|]. split; [rewrite <- two_1; apply double_two; lia|].
  assert (S : forall i j, (i < 2)%nat -> (j < 2)%nat -> share two_labels two_labels 2 i j = true).
  { intros i j Hi Hj. apply existsb_exists. exists 0%nat. split; [apply in_seq; lia|]. destruct i as [|[|i]], j as [|[|j]]; try lia; unfold label_value, two_labels; cbn [nth row_vec combine fst snd lookup Nat.eqb]; rewrite is0_fin_pos by lra; reflexivity. }
  split.
  { unfold pair_sum, sumn, allowed. rewrite !S by lia. cbn [Nat.eqb negb orb]. lra. }
  assert (I4 : INR (2 * 2) = 4) by (cbn; lra). rewrite I4. assert (E30 : two (-30) = 1048576 * two (-50)) by (change (-30)%Z with (20 + -50)%Z; rewrite two_add, (two_Z 20) by lia; reflexivity).
  pose proof (two_pos (-50)) as P50. pose proof (two_pos (-80)) as P80. split; [lra|].
  split; [apply Rle_trans with (two (-3)); [apply two_le; lia | change (-3)%Z with (- (3))%Z; rewrite two_neg, two_Z by lia; change (2 ^ 3)%Z with 8%Z; lra]|].
  split; [split; [apply two_le; lia|]; apply Rle_trans with (two (-2)); [apply two_le; lia | change (-2)%Z with (- (2))%Z; rewrite two_neg, two_Z by lia; change (2 ^ 2)%Z with 4%Z; lra]|].
  split; [split; [reflexivity|]; apply Forall_cons; [right; apply datum_fin; [lra | apply double_0]|]; apply Forall_cons; [left; reflexivity | apply Forall_nil]|].
  assert (E48 : two (-48) = 4 * two (-50)) by (change (-48)%Z with (2 + -50)%Z; rewrite two_add, (two_Z 2) by lia; reflexivity).
  unfold shared_margin. rewrite I4, E48. change (INR 2) with (1 + 1). split; lra.
Qed.
Example C112_fit_case : label_table 2 two_labels /\ length two_labels = 2%nat /\ moderate_table two_labels /\ (Z.of_nat 2 <= 2 ^ 40)%Z /\ (Z.of_nat (2 * 2) <= 2 ^ 50)%Z /\
  double 2 /\ 2 <= pair_sum 2 true (fun i j => if share two_labels two_labels 2 i j then 1 else 0) /\ two (-50) * INR (2 * 2) <= two (-30) * 2 /\ two (-30) <= 1 / 8 /\ two (-900) <= two (-80) <= 2 / 8 /\
  (length [Fin 0; PInf] = 2%nat /\ Forall amount [Fin 0; PInf]) /\
  shared_margin fitness 2 2 2 <= (two (-80) + two (-30) * 2) / 1024 /\ shared_margin invariant 2 2 2 <= (two (-80) + two (-30) * 2) / 1024.
Proof. exact shared_case. Qed.

(** The samples of the fitted object: the mean number of pairs linked in some layer is the target within the tolerance and the errors. *)
Theorem C112_sample : forall kd N L xs ys sl T a rho x0 maxiter,
  label_table L xs -> label_table L ys -> length xs = N -> length ys = N -> moderate_table xs -> moderate_table ys -> (Z.of_nat L <= 2 ^ 40)%Z -> (Z.of_nat (N * N) <= 2 ^ 50)%Z ->
  double T -> T <= pair_sum N sl (fun i j => if share xs ys L i j then 1 else 0) -> two (-50) * INR (N * N) <= rho * T -> rho <= 1 / 8 -> two (-900) <= a <= T / 8 ->
  match x0 with None => True | Some l => length l = L /\ Forall amount l end ->
  exists sol, rfit_shared b64 (s_jac kd) N L xs ys sl (Some (Fin T)) x0 (Fin a) (Fin rho) maxiter = Ok (repeat (sol_x sol) L, [sol]) /\
  let param k := nth k (repeat (sol_x sol) L) NaN in
  (sol_converged sol = true -> forall z arg, exists m, sample_layers (fun d x y (_ : num) => toR (m_p kd d x y)) z L xs ys (Some param) sl arg = Ok m /\
   Rabs (drawn m (fun Gs => g_edges N (concat Gs)) - T) <= (1 + two (-50)) * (a + rho * T) + shared_margin kd N L T +
     (two (-49) * sumn L (fun k => ensemble_mean N sl (graph_weight N sl (layer_prob (law kd) param xs ys k)) (g_edges N)) + INR (L * (N * N)) * two (-52))).
Proof.
  intros kd N L xs ys sl T a rho x0 maxiter Tx Ty Nx Ny Mx My HL HN DT HT Hr1 Hr2 Ha Hx0.
  destruct (C112_fit kd N L xs ys sl T a rho x0 maxiter Tx Ty Nx Ny Mx My HL HN DT HT Hr1 Hr2 Ha Hx0) as (sol & E & Ax & F & _). exists sol. split; [exact E|]. intros param Cv z arg. specialize (F Cv).
  assert (Hd : forall k, (k < L)%nat -> amount (param k)) by (intros k Hk; unfold param; rewrite (nth_indep _ NaN (sol_x sol)) by (rewrite repeat_length; exact Hk); rewrite nth_repeat; exact Ax).
  assert (Sm : exists m, sample_layers (fun d x y (_ : num) => toR (m_p kd d x y)) z L xs ys (Some param) sl arg = Ok m).
  { unfold sample_layers. rewrite (table_layers L xs Tx), (table_layers L ys Ty). eexists. reflexivity. }
  destruct Sm as (m & Em). exists m. split; [exact Em|].
  pose proof (C111_sample kd z N L xs ys param sl arg m Tx Ty Nx Ny Mx My Hd Em) as S. cbv zeta in S.
  match type of S with Rabs (?D - ?M) <= _ => replace (D - T) with ((D - M) + (M - T)) by ring end. eapply Rle_trans; [apply Rabs_triang|]. rewrite Rplus_comm. apply Rplus_le_compat; [exact F | exact S].
Qed.
Print Assumptions C112_sample.
Example C112_sample_case : label_table 2 two_labels /\ length two_labels = 2%nat /\ moderate_table two_labels /\ (Z.of_nat 2 <= 2 ^ 40)%Z /\ (Z.of_nat (2 * 2) <= 2 ^ 50)%Z /\
  double 2 /\ 2 <= pair_sum 2 true (fun i j => if share two_labels two_labels 2 i j then 1 else 0) /\ two (-50) * INR (2 * 2) <= two (-30) * 2 /\ two (-30) <= 1 / 8 /\ two (-900) <= two (-80) <= 2 / 8 /\
  (length [Fin 0; PInf] = 2%nat /\ Forall amount [Fin 0; PInf]) /\
  shared_margin fitness 2 2 2 <= (two (-80) + two (-30) * 2) / 1024 /\ shared_margin invariant 2 2 2 <= (two (-80) + two (-30) * 2) / 1024.
Proof. exact shared_case. Qed.
