(** Property C96: the kernels and loops of the single-label models in double precision. *)
From Verif Require Import Base Num Kernels Prob Ensemble Conditional Float FloatFacts.

(** * Without rounding *)
Lemma rnd_exact : forall a, rnd_num Fin a = a.
Proof. intros [r| | |]; reflexivity. Qed.
Ltac exact_ops := unfold rsub, radd, rmul, rdiv, rexp, rexpm1, rlog, rlog1p; rewrite ?rnd_exact.

Lemma for_range_rel : forall A B (Q : A -> B -> Prop) n f g a b, Q a b ->
  (forall i x y, (i < n)%nat -> Q x y -> Q (f i x) (g i y)) -> Q (for_range n f a) (for_range n g b).
Proof.
  intros A B Q n f g a b H0; induction n as [|n IH]; intros H; [exact H0|].
  cbn [for_range]. apply H; [lia|]. apply IH. intros i x y Hi. apply H. lia.
Qed.

Definition same (a : nat -> num) (b : nat -> R) : Prop := forall k, a k = Fin (b k).
Lemma same_add : forall a b i v, same a b -> same (radd_at Fin a i (Fin v)) (add_at b i v).
Proof.
  intros a b i v H k. unfold radd_at, add_at, upd. destruct (Nat.eqb k i); [|apply H]. unfold radd. rewrite rnd_exact, H. reflexivity.
Qed.

Definition same3 (a : (nat -> num) * (nat -> num) * (nat -> num)) (b : degs) : Prop :=
  same (fst (fst a)) (fst (fst b)) /\ same (snd (fst a)) (snd (fst b)) /\ same (snd a) (snd b).
Lemma degrees_exact : forall P X Z (p_ij : P -> X -> X -> Z -> R) param po pin z N sl,
  same3 (rexp_degrees Fin (fun i j => Fin (p_ij param (po i) (pin j) (z i j))) N sl) (exp_degrees p_ij param po pin z N sl).
Proof.
  intros P X Z p_ij param po pin z N sl. unfold rexp_degrees, exp_degrees.
  apply (for_range_rel _ _ same3); [repeat split|]. intros i a b _ H. apply (for_range_rel _ _ same3); [exact H|].
  intros j [[a1 a2] a3] [[b1 b2] b3] _ (H1 & H2 & H3). cbn [fst snd] in H1, H2, H3. unfold exp_degrees_body.
  destruct (negb (Nat.eqb i j)); [|destruct sl].
  - exact_ops. cbn [nsub nadd nopp nmul].
    set (q := p_ij param (po i) (pin j) (z i j) + p_ij param (po j) (pin i) (z j i) + - (p_ij param (po i) (pin j) (z i j) * p_ij param (po j) (pin i) (z j i))).
    change (p_ij param (po i) (pin j) (z i j) + p_ij param (po j) (pin i) (z j i) - p_ij param (po i) (pin j) (z i j) * p_ij param (po j) (pin i) (z j i)) with q.
    repeat split; cbn [fst snd]; auto using same_add.
  - repeat split; cbn [fst snd]; auto using same_add.
  - repeat split; auto.
Qed.

(** Without rounding the definitions are those of the exact model. *)
Theorem C96_exact :
  (forall d x y z, rfit_p_ij Fin d x y z = fit_p_ij d x y z /\ rfit_logp Fin d x y z = fit_logp d x y z /\
     rfit_log1mp Fin d x y z = fit_log1mp d x y z /\ rfit_p_jac Fin d x y z = fit_p_jac d x y z /\
     rinv_p_ij Fin d x y z = inv_p_ij d x y z /\ rinv_logp Fin d x y z = inv_logp d x y z /\
     rinv_log1mp Fin d x y z = inv_log1mp d x y z /\ rinv_p_jac Fin d x y z = inv_p_jac d x y z) /\
  (forall P X Z (p_ij : P -> X -> X -> Z -> R) param po pin z N sl prop,
     let p := fun i j => Fin (p_ij param (po i) (pin j) (z i j)) in
     rexp_edges Fin p N sl = Fin (exp_edges p_ij param po pin z N sl) /\
     same (fst (fst (rexp_degrees Fin p N sl))) (fst (fst (exp_degrees p_ij param po pin z N sl))) /\
     same (snd (fst (rexp_degrees Fin p N sl))) (snd (fst (exp_degrees p_ij param po pin z N sl))) /\
     same (snd (rexp_degrees Fin p N sl)) (snd (exp_degrees p_ij param po pin z N sl)) /\
     exists a, exp_av_nn_prop p_ij param po pin z prop Doutin N false = Ok a /\ same (rexp_av_nn Fin p N (fun i => Fin (prop i))) a).
Proof.
  split.
  - intros d x y z. unfold rfit_p_ij, rfit_logp, rfit_log1mp, rfit_p_jac, rinv_p_ij, rinv_logp, rinv_log1mp, rinv_p_jac.
    exact_ops. repeat split; reflexivity.
  - intros P X Z p_ij param po pin z N sl prop p.
    destruct (degrees_exact P X Z p_ij param po pin z N sl) as (D1 & D2 & D3).
    split; [|split; [|split; [|split]]].
    + unfold rexp_edges, exp_edges. apply (for_range_rel num R (fun a b => a = Fin b)); [reflexivity|].
      intros i a b _ ->. apply (for_range_rel num R (fun a b => a = Fin b)); [reflexivity|]. intros j a c _ ->.
      destruct (adm sl i j); [|reflexivity]. unfold radd. rewrite rnd_exact. reflexivity.
    + exact D1.
    + exact D2.
    + exact D3.
    + unfold exp_av_nn_prop. cbn [bad_dir andb]. eexists. split; [reflexivity|].
      unfold rexp_av_nn. apply (for_range_rel (nat -> num) (nat -> R) same); [intros k; reflexivity|].
      intros i a b _ H. apply (for_range_rel (nat -> num) (nat -> R) same); [exact H|]. intros j a' b' _ H'.
      unfold nn_body, p. exact_ops. cbn [nsub nadd nopp nmul].
      set (q := 1 + - ((1 + - _) * (1 + - _))).
      assert (E : q = 1 - (1 - p_ij param (po i) (pin j) (z i j)) * (1 - p_ij param (po j) (pin i) (z j i))) by (unfold q; ring).
      rewrite <- E. apply same_add, same_add. exact H'.
Qed.
Print Assumptions C96_exact.

(** * Rounding *)

(** [b64] rounds to a nearest number of the format (53 binary digits, exponents from -1074 to 971), to an infinity
    from the middle between the largest number and 2^1024 on, and preserves the order. *)
Lemma b64_finite_pos : forall r, 0 < r -> r < two 1024 - two 970 -> round_pos r < two 1024.
Proof.
  intros r H L. set (M := two 1024 - two 971).
  assert (HM : M = IZR (2 ^ 53 - 1) * two 971).
  { unfold M. replace 1024%Z with (53 + 971)%Z by reflexivity. rewrite two_add, two_Z by lia. rewrite minus_IZR. ring. }
  assert (G : on_grid M) by (exists (2 ^ 53 - 1)%Z, 971%Z; split; [exact HM | split; lia]).
  assert (E : two 971 = 2 * two 970) by (replace 971%Z with (1 + 970)%Z by reflexivity; rewrite two_add, two_1; reflexivity).
  pose proof (two_pos 970). destruct (Rle_dec r M) as [K|K].
  - pose proof (round_le r M H G K). unfold M in *. lra.
  - pose proof (round_nearest r M H G) as Q. rewrite (Rabs_right (r - M)) in Q by lra.
    pose proof (Rle_abs (- (r - round_pos r))). rewrite Rabs_Ropp in H1. unfold M in *. lra.
Qed.

Theorem C96_rounding : forall r,
  match b64 r with
  | Fin v => double v /\ (forall w, double w -> Rabs (r - v) <= Rabs (r - w))
  | PInf => two 1024 - two 970 <= r
  | NInf => r <= - (two 1024 - two 970)
  | NaN => False
  end /\
  (double r -> b64 r = Fin r) /\ (forall r', r <= r' -> nleb (b64 r) (b64 r') = true).
Proof.
  assert (P : forall r, 0 < r -> match b64 r with
    | Fin v => double v /\ (forall w, double w -> Rabs (r - v) <= Rabs (r - w)) | PInf => two 1024 - two 970 <= r | _ => False end).
  { intros r H. destruct (b64_nonneg r ltac:(lra)) as [E | (v & E & Hv & D)].
    - rewrite E. rewrite b64_pos in E by exact H. destruct (Rleb_spec (two 1024) (round_pos r)) as [L|L]; [|discriminate].
      apply Rnot_lt_le. intros K. pose proof (b64_finite_pos r H K). lra.
    - rewrite E. split; [exact D|]. rewrite b64_pos in E by exact H. destruct (Rleb (two 1024) (round_pos r)); [discriminate|]. injection E as <-.
      intros w Dw. apply round_nearest; [exact H | apply double_grid; exact Dw]. }
  intros r. split; [|split; [apply b64_fixed | intros r' L; apply le_num_nleb, b64_mono; exact L]].
  destruct (Rtotal_order r 0) as [H|[->|H]].
  - specialize (P (- r) ltac:(lra)). rewrite b64_opp in P. destruct (b64 r) as [v| | |]; cbn [nopp] in P; try contradiction; [|lra].
    destruct P as [D N]. split; [apply double_opp in D; rewrite Ropp_involutive in D; exact D|]. intros w Dw.
    specialize (N (- w) (double_opp w Dw)). replace (r - v) with (- (- r - - v)) by ring. replace (r - w) with (- (- r - - w)) by ring.
    rewrite !Rabs_Ropp. exact N.
  - rewrite b64_0. split; [apply double_0|]. intros w _. rewrite Rminus_0_r, Rabs_R0. apply Rabs_pos.
  - specialize (P r H). destruct (b64 r); try contradiction; exact P.
Qed.
Print Assumptions C96_rounding.

Lemma pow2_3 : forall n m, (3 * m)%Z <> (2 ^ Z.of_nat n)%Z.
Proof.
  induction n as [|n IH]; intros m; [intros H; change (3 * m = 1)%Z in H; lia|]. rewrite Nat2Z.inj_succ, Z.pow_succ_r by lia. intros H.
  apply (IH (2 * m - 2 ^ Z.of_nat n)%Z). lia.
Qed.

(** One third lies between two numbers of the format and its rounding is one of them. *)
Example C96_rounding_case : double (1 / 4) /\ ~ double (1 / 3) /\ b64 (1 / 4) = Fin (1 / 4).
Proof.
  assert (E : 1 / 4 = two (-2)) by (replace (-2)%Z with (- (2))%Z by reflexivity; rewrite two_neg, two_Z by lia; simpl; lra).
  split; [rewrite E; apply double_two; lia|]. split; [|rewrite E; apply b64_fixed, double_two; lia].
  intros (m & e & Em & _ & He). assert (X : 3 * (IZR m * two e) = 1) by lra.
  destruct (Z.le_gt_cases 0 e) as [L|L].
  - rewrite two_Z, <- !mult_IZR in X by exact L. apply eq_IZR in X. lia.
  - replace e with (- - e)%Z in X by lia. rewrite two_neg, two_Z in X by lia.
    assert (Y : IZR (3 * m) = IZR (2 ^ (- e))).
    { rewrite mult_IZR. assert (0 < IZR (2 ^ (- e))) by (rewrite <- two_Z by lia; apply two_pos).
      apply Rmult_eq_reg_r with (/ IZR (2 ^ (- e))); [|apply Rinv_neq_0_compat; lra]. rewrite Rinv_r by lra. lra. }
    apply eq_IZR in Y. rewrite <- (Z2Nat.id (- e)) in Y by lia. exact (pow2_3 _ _ Y).
Qed.

(** * Probabilities *)

(** A finite non-negative number of the format. *)
Definition datum (a : num) : Prop := exists w, a = Fin w /\ 0 <= w /\ double w.
(** The same, or infinity: what products of data can be. *)
Definition amount (a : num) : Prop := a = PInf \/ datum a.

Lemma datum_fin : forall w, 0 <= w -> double w -> datum (Fin w).
Proof. intros w H D. exists w. auto. Qed.
Lemma amount_b64 : forall r, 0 <= r -> amount (b64 r).
Proof. intros r H. destruct (b64_nonneg r H) as [-> | (v & -> & Hv & D)]; [left; reflexivity | right; exists v; auto]. Qed.
Lemma datum_pos : forall a, datum a -> is0 a = false -> exists w, a = Fin w /\ 0 < w /\ double w.
Proof.
  intros a (w & -> & H & D) Z. exists w. split; [reflexivity|]. split; [|exact D]. unfold is0 in Z. cbn in Z.
  destruct (Reqb_spec w 0); [discriminate | lra].
Qed.
Lemma rmul_amount : forall a w, amount a -> 0 < w -> amount (rmul b64 a (Fin w)).
Proof.
  intros a w [-> | (v & -> & Hv & Dv)] H.
  - left. unfold rmul. cbn. unfold inf_times. rewrite Reqb_false, Rltb_true by lra. reflexivity.
  - unfold rmul. cbn. apply amount_b64. apply Rmult_le_pos; lra.
Qed.
Lemma rmul_le : forall a a' w w', amount a -> amount a' -> le_num a a' -> 0 < w -> w <= w' ->
  le_num (rmul b64 a (Fin w)) (rmul b64 a' (Fin w')).
Proof.
  intros a a' w w' [-> | (v & -> & Hv & Dv)] [-> | (v' & -> & Hv' & Dv')] H Hw Hww'; unfold rmul; cbn in *;
    unfold inf_times; try rewrite Reqb_false, Rltb_true by lra; cbn; auto; try contradiction.
  - rewrite Reqb_false, Rltb_true by lra. exact I.
  - destruct (amount_b64 (v * w)) as [-> | (u & -> & _)]; [apply Rmult_le_pos; lra | exact I | exact I].
  - apply b64_mono. apply Rmult_le_compat; lra.
Qed.

(** [tmp] of the kernels: the product of the data in the order of the code. *)
Definition product (d x y z : num) : num := rmul b64 (rmul b64 (rmul b64 d x) y) z.
Lemma product_amount : forall d x y z, datum d -> datum x -> datum y -> datum z ->
  is0 x || is0 y || is0 z || is0 d = false -> amount (product d x y z).
Proof.
  intros d x y z Hd Hx Hy Hz H. apply orb_false_iff in H as [H Zd]. apply orb_false_iff in H as [H Zz]. apply orb_false_iff in H as [Zx Zy].
  destruct (datum_pos x Hx Zx) as (wx & -> & Px & _), (datum_pos y Hy Zy) as (wy & -> & Py & _), (datum_pos z Hz Zz) as (wz & -> & Pz & _).
  unfold product. apply rmul_amount; [|exact Pz]. apply rmul_amount; [|exact Py]. apply rmul_amount; [|exact Px]. right. exact Hd.
Qed.

(** The logistic function and its complement in double precision. *)
Lemma logistic_unit : forall t, 0 <= t -> double t -> exists p,
  rdiv b64 (Fin t) (radd b64 (Fin 1) (Fin t)) = Fin p /\ rdiv b64 (nopp (Fin t)) (radd b64 (Fin 1) (Fin t)) = Fin (- p) /\
  0 <= p <= 1 /\ double p.
Proof.
  intros t Ht Dt. unfold radd. cbn [nadd rnd_num].
  assert (G : le_num (Fin t) (b64 (1 + t))) by (rewrite <- (b64_fixed t Dt); apply b64_mono; lra).
  assert (G1 : le_num (Fin 1) (b64 (1 + t))) by (rewrite <- (b64_fixed 1 double_1); apply b64_mono; lra).
  destruct (b64_nonneg (1 + t) ltac:(lra)) as [E | (q & E & Hq & Dq)]; rewrite E in *.
  - exists 0. unfold rdiv. cbn. rewrite b64_0. split; [reflexivity|]. split; [f_equal; lra|]. split; [lra | apply double_0].
  - cbn in G, G1. destruct (b64_between 0 1 (t / q) double_0 double_1) as (p & Ep & Hp & Dp).
    { split; [apply Rmult_le_pos; [lra | left; apply Rinv_0_lt_compat; lra]|].
      apply Rmult_le_reg_r with q; [lra|]. unfold Rdiv. rewrite Rmult_assoc, Rinv_l by lra. lra. }
    exists p. unfold rdiv. cbn [nopp ndiv]. rewrite Reqb_false by lra. cbn [rnd_num]. split; [exact Ep|].
    split; [|split; assumption]. replace (- t / q) with (- (t / q)) by (unfold Rdiv; ring). rewrite b64_opp, Ep. reflexivity.
Qed.
Lemma exponential_unit : forall t, 0 <= t -> exists p, nopp (rexpm1 b64 (nopp (Fin t))) = Fin p /\ b64 (1 - exp (- t)) = Fin p /\ 0 <= p <= 1 /\ double p.
Proof.
  intros t Ht. assert (E : 0 <= 1 - exp (- t) <= 1).
  { pose proof (exp_pos (- t)). assert (exp (- t) <= 1) by (rewrite <- exp_0; destruct Ht as [Ht | <-];
      [left; apply exp_increasing; lra | rewrite Ropp_0; lra]). lra. }
  destruct (b64_between 0 1 (1 - exp (- t)) double_0 double_1 E) as (p & Ep & Hp & Dp). exists p.
  split; [|auto]. unfold rexpm1. cbn [nopp]. rewrite nexpm1_fin. cbn [rnd_num].
  replace (exp (- t) - 1) with (- (1 - exp (- t))) by ring. rewrite b64_opp, Ep. cbn. f_equal. lra.
Qed.

(** In double precision the probabilities of both models are numbers in [0,1] for all data, also where products
    overflow or underflow; the first components of the functions used by the fit are too, and the derivatives are
    not negative. *)
Theorem C96_probabilities : forall d x y z, datum d -> datum x -> datum y -> datum z ->
  (exists p, rfit_p_ij b64 d x y z = Fin p /\ 0 <= p <= 1 /\ double p) /\
  (exists p, rinv_p_ij b64 d x y z = Fin p /\ 0 <= p <= 1 /\ double p) /\
  (exists p j, rfit_p_jac b64 d x y z = (Fin p, j) /\ 0 <= p <= 1 /\ nonneg j) /\
  (exists p j, rinv_p_jac b64 d x y z = (Fin p, j) /\ 0 <= p <= 1 /\ nonneg j).
Proof.
  intros d x y z Hd Hx Hy Hz.
  assert (A0 : forall a, amount a -> nonneg a) by (intros a [-> | (w & -> & H & _)]; [exact I | exact H]).
  split; [|split; [|split]].
  - unfold rfit_p_ij. destruct (is0 x || is0 y || is0 z || is0 d) eqn:Z; [exists 0; split; [reflexivity | split; [lra | apply double_0]]|].
    pose proof (product_amount d x y z Hd Hx Hy Hz Z) as P. unfold product in P. cbv zeta.
    destruct P as [-> | (t & -> & Ht & Dt)]; [exists 1; split; [reflexivity | split; [lra | apply double_1]]|]. cbn [isinf].
    destruct (logistic_unit t Ht Dt) as (p & E & _ & Hp & Dp). exists p. auto.
  - unfold rinv_p_ij. destruct (is0 x || is0 y || is0 z || is0 d) eqn:Z; [exists 0; split; [reflexivity | split; [lra | apply double_0]]|].
    pose proof (product_amount d x y z Hd Hx Hy Hz Z) as P. unfold product in P. cbv zeta.
    destruct P as [-> | (t & -> & Ht & Dt)]; [exists 1; split; [reflexivity | split; [lra | apply double_1]]|]. cbn [isinf].
    destruct (exponential_unit t Ht) as (p & E & _ & Hp & Dp). exists p. auto.
  - unfold rfit_p_jac. destruct (is0 x || is0 y || is0 z) eqn:Z; [exists 0, (Fin 0); split; [reflexivity | split; [lra | cbn; lra]]|].
    apply orb_false_iff in Z as [Z Zz]. apply orb_false_iff in Z as [Zx Zy].
    destruct (datum_pos x Hx Zx) as (wx & -> & Px & Dx), (datum_pos y Hy Zy) as (wy & -> & Py & _), (datum_pos z Hz Zz) as (wz & -> & Pz & _).
    assert (A : amount (rmul b64 (rmul b64 (Fin wx) (Fin wy)) (Fin wz))).
    { apply rmul_amount; [|exact Pz]. apply rmul_amount; [|exact Py]. right. apply datum_fin; [lra | exact Dx]. }
    destruct (is0 d) eqn:Zd; [exists 0; eexists; split; [reflexivity | split; [lra | apply A0; exact A]]|]. cbv zeta.
    destruct (datum_pos d Hd Zd) as (wd & -> & Pd & Dd). destruct A as [-> | (t & -> & Ht & Dt)].
    + replace (rmul b64 (Fin wd) PInf) with PInf by (unfold rmul; cbn; unfold inf_times; rewrite Reqb_false, Rltb_true by lra; reflexivity).
      exists 1, (Fin 0). split; [reflexivity | split; [lra | cbn; lra]].
    + assert (A1 : amount (rmul b64 (Fin wd) (Fin t))) by (apply amount_b64, Rmult_le_pos; lra). revert A1.
      generalize (rmul b64 (Fin wd) (Fin t)). intros t1' A1.
      destruct A1 as [-> | (t1 & -> & Ht1 & Dt1)];
        [exists 1, (Fin 0); split; [reflexivity | split; [lra | cbn; lra]]|]. cbn [isinf].
      destruct (logistic_unit t1 Ht1 Dt1) as (p & E & _ & Hp & _). exists p. eexists. split; [rewrite E; reflexivity|]. split; [exact Hp|].
      assert (G1 : le_num (Fin 1) (b64 (1 + t1))) by (rewrite <- (b64_fixed 1 double_1); apply b64_mono; lra).
      unfold radd. cbn [nadd rnd_num]. destruct (b64_nonneg (1 + t1) ltac:(lra)) as [E1 | (q & E1 & Hq & Dq)]; rewrite E1 in *.
      * cbn. rewrite b64_0. cbn. lra.
      * unfold rdiv, rmul. cbn [nmul rnd_num]. destruct (b64_nonneg (q * q) ltac:(nra)) as [E2 | (q2 & E2 & Hq2 & Dq2)]; rewrite E2.
        -- cbn. rewrite b64_0. cbn. lra.
        -- cbn in G1. assert (G2 : le_num (b64 1) (b64 (q * q))) by (apply b64_mono; nra). rewrite (b64_fixed 1 double_1), E2 in G2. cbn in G2.
           cbn. rewrite Reqb_false by lra. cbn [rnd_num]. apply A0, amount_b64. apply Rmult_le_pos; [lra | left; apply Rinv_0_lt_compat; lra].
  - unfold rinv_p_jac. destruct (is0 x || is0 y || is0 z) eqn:Z; [exists 0, (Fin 0); split; [reflexivity | split; [lra | cbn; lra]]|].
    apply orb_false_iff in Z as [Z Zz]. apply orb_false_iff in Z as [Zx Zy].
    destruct (datum_pos x Hx Zx) as (wx & -> & Px & Dx), (datum_pos y Hy Zy) as (wy & -> & Py & _), (datum_pos z Hz Zz) as (wz & -> & Pz & _).
    assert (A : amount (rmul b64 (rmul b64 (Fin wx) (Fin wy)) (Fin wz))).
    { apply rmul_amount; [|exact Pz]. apply rmul_amount; [|exact Py]. right. apply datum_fin; [lra | exact Dx]. }
    destruct (is0 d) eqn:Zd; [exists 0; eexists; split; [reflexivity | split; [lra | apply A0; exact A]]|]. cbv zeta.
    destruct (datum_pos d Hd Zd) as (wd & -> & Pd & Dd). destruct A as [-> | (t & -> & Ht & Dt)].
    + replace (rmul b64 (Fin wd) PInf) with PInf by (unfold rmul; cbn; unfold inf_times; rewrite Reqb_false, Rltb_true by lra; reflexivity).
      exists 1, (Fin 0). split; [reflexivity | split; [lra | cbn; lra]].
    + assert (A1 : amount (rmul b64 (Fin wd) (Fin t))) by (apply amount_b64, Rmult_le_pos; lra). revert A1.
      generalize (rmul b64 (Fin wd) (Fin t)). intros t1' A1.
      destruct A1 as [-> | (t1 & -> & Ht1 & Dt1)];
        [exists 1, (Fin 0); split; [reflexivity | split; [lra | cbn; lra]]|]. cbn [isinf].
      destruct (exponential_unit t1 Ht1) as (p & E & _ & Hp & _). exists p. eexists. split; [rewrite E; reflexivity|]. split; [exact Hp|].
      unfold rexp. cbn [nopp nexp rnd_num].
      destruct (b64_between 0 1 (exp (- t1)) double_0 double_1) as (v & Ev & Hv & _).
      { pose proof (exp_pos (- t1)). assert (exp (- t1) <= 1) by (rewrite <- exp_0; destruct Ht1 as [Ht1 | <-];
          [left; apply exp_increasing; lra | rewrite Ropp_0; lra]). lra. }
      rewrite Ev. unfold rmul. cbn [nmul rnd_num]. apply A0, amount_b64. apply Rmult_le_pos; lra.
Qed.
Print Assumptions C96_probabilities.

(** Data for which the product overflows, and data for which it underflows: both are covered. *)
Lemma two_datum : forall e, (-1074 <= e <= 1023)%Z -> datum (Fin (two e)).
Proof. intros e He. apply datum_fin; [left; apply two_pos | apply double_two; exact He]. Qed.
Lemma b64_two : forall e, (-1074 <= e <= 1023)%Z -> b64 (two e) = Fin (two e).
Proof. intros e He. apply b64_fixed, double_two. exact He. Qed.
Lemma b64_over : forall e, (1024 <= e)%Z -> b64 (two e) = PInf.
Proof.
  intros e He. rewrite b64_pos by apply two_pos. rewrite round_fixed; [|apply two_pos | apply two_grid; lia].
  rewrite Rleb_true; [reflexivity | apply two_le; exact He].
Qed.
Lemma b64_under : forall e, (e < -1075)%Z -> b64 (two e) = Fin 0.
Proof.
  intros e He. rewrite b64_pos by apply two_pos.
  assert (E : round_pos (two e) = 0).
  { unfold round_pos. assert (L : last_place (two e) = (-1074)%Z).
    { unfold last_place. rewrite (log_unique (two e) e); [lia|]. split; [lra | apply two_lt; lia]. }
    rewrite L. assert (K : nearest_even (two e / two (-1074)) = 0%Z).
    { apply near_eval. rewrite <- two_m1. unfold Rdiv. rewrite <- two_neg, <- two_add, Rminus_0_r, Rabs_right by (left; apply two_pos).
      apply two_lt. lia. }
    rewrite K. ring. }
  rewrite E, Rleb_false by apply two_pos. reflexivity.
Qed.
Lemma mul_two : forall a b, rmul b64 (Fin (two a)) (Fin (two b)) = b64 (two (a + b)).
Proof. intros a b. unfold rmul. cbn [nmul rnd_num]. rewrite two_add. reflexivity. Qed.
Example C96_probabilities_case :
  datum (Fin (two 1000)) /\ datum (Fin (two (-1000))) /\
  rmul b64 (Fin (two 1000)) (Fin (two 1000)) = PInf /\ rmul b64 (Fin (two (-1000))) (Fin (two (-1000))) = Fin 0.
Proof.
  split; [apply two_datum; lia|]. split; [apply two_datum; lia|]. rewrite !mul_two. split; [apply b64_over; lia | apply b64_under; lia].
Qed.

(** * Log-probabilities *)
Lemma double_below_1 : forall p, double p -> p < 1 -> p <= 1 - two (-53).
Proof.
  intros p D H. destruct (Rle_dec p (1 - two (-53))) as [|K]; [assumption|]. exfalso.
  assert (T : two (-53) <= 1 / 2).
  { rewrite <- two_m1. apply two_le. lia. }
  assert (L : Int_part (ln p / ln 2) = (-1)%Z).
  { apply log_unique. rewrite two_m1.
    change (-1 + 1)%Z with 0%Z. rewrite two_0. lra. }
  destruct (grid_multiple p p) as [k Ek]; [lra | apply double_grid; exact D | rewrite L |].
  { rewrite two_m1. lra. }
  assert (Lp : last_place p = (-53)%Z) by (unfold last_place; rewrite L; reflexivity). rewrite Lp in Ek.
  assert (E1 : 1 = IZR (2 ^ 53) * two (-53)) by (rewrite <- two_Z, <- two_add by lia; change (53 + -53)%Z with 0%Z; rewrite two_0; reflexivity).
  pose proof (two_pos (-53)) as P.
  assert (k < 2 ^ 53)%Z by (apply lt_IZR; apply Rmult_lt_reg_r with (two (-53)); lra).
  assert (2 ^ 53 - 1 < k)%Z by (apply lt_IZR; rewrite minus_IZR; apply Rmult_lt_reg_r with (two (-53)); lra). lia.
Qed.
Lemma double_above_0 : forall p, double p -> 0 < p -> two (-1074) <= p.
Proof.
  intros p (m & e & -> & Hm & He) H. assert (0 < m)%Z.
  { apply lt_IZR. pose proof (two_pos e). destruct (Rle_dec (IZR m) 0); [nra | lra]. }
  apply Rle_trans with (1 * two e); [rewrite Rmult_1_l; apply two_le; lia|]. apply Rmult_le_compat_r; [left; apply two_pos|].
  apply (IZR_le 1). lia.
Qed.
Lemma ln2_lt : 0 < ln 2 < 1.
Proof.
  split; [rewrite <- ln_1; apply ln_increasing; lra|]. apply exp_lt_inv. rewrite exp_ln by lra. pose proof (exp_ineq1 1 ltac:(lra)). lra.
Qed.
Lemma log_of : forall p k, 0 < p <= 1 -> (0 <= k <= 1074)%Z -> two (- k) <= p -> exists l, rlog b64 (Fin p) = Fin l /\ - IZR k <= l <= 0.
Proof.
  intros p k Hp Hk H. unfold rlog. cbn [nlog]. rewrite Rltb_true by lra. cbn [rnd_num].
  destruct (b64_between (- IZR k) 0 (ln p)) as (l & E & Hl & _).
  - apply double_opp, double_Z. lia.
  - apply double_0.
  - split.
    + assert (X : ln (two (- k)) <= ln p) by (destruct H as [H | ->]; [left; apply ln_increasing; [apply two_pos | exact H] | right; reflexivity]).
      rewrite two_ln, opp_IZR in X. pose proof ln2_lt. assert (0 <= IZR k) by (apply (IZR_le 0); lia). nra.
    + destruct (proj2 Hp) as [L | ->]; [left; rewrite <- ln_1; apply ln_increasing; lra | rewrite ln_1; lra].
  - exists l. auto.
Qed.

(** In the fitness model the log-probability of a missing link is minus infinity exactly where the computed
    probability is 1, and is at least -53 elsewhere; the log-probability of a link is minus infinity exactly where the
    computed probability is 0.  So no graph with finite log-likelihood is one that the sampler cannot draw, and
    conversely.  In the scale-invariant model this holds for the links. *)
Theorem C96_log_probabilities : forall d x y z, datum d -> datum x -> datum y -> datum z ->
  (rfit_log1mp b64 d x y z = NInf <-> rfit_p_ij b64 d x y z = Fin 1) /\
  (rfit_log1mp b64 d x y z <> NInf -> exists l, rfit_log1mp b64 d x y z = Fin l /\ -53 <= l <= 0) /\
  (rfit_logp b64 d x y z = NInf <-> rfit_p_ij b64 d x y z = Fin 0) /\
  (rfit_logp b64 d x y z <> NInf -> exists l, rfit_logp b64 d x y z = Fin l /\ -1074 <= l <= 0) /\
  (rinv_logp b64 d x y z = NInf <-> rinv_p_ij b64 d x y z = Fin 0) /\
  (rinv_logp b64 d x y z <> NInf -> exists l, rinv_logp b64 d x y z = Fin l /\ -1074 <= l <= 0).
Proof.
  intros d x y z Hd Hx Hy Hz.
  assert (LP : forall p, 0 <= p <= 1 -> double p ->
    (rlog b64 (Fin p) = NInf <-> Fin p = Fin 0) /\ (rlog b64 (Fin p) <> NInf -> exists l, rlog b64 (Fin p) = Fin l /\ -1074 <= l <= 0)).
  { intros p Hp Dp. destruct (Req_dec p 0) as [-> | Hn].
    - assert (E : rlog b64 (Fin 0) = NInf) by (unfold rlog; cbn; rewrite Rltb_false, Reqb_true by lra; reflexivity).
      rewrite E. split; [tauto | intros C; contradiction].
    - destruct (log_of p 1074) as (l & E & Hl); [lra | lia | apply double_above_0; [exact Dp | lra] |]. rewrite E.
      split; [split; [discriminate | intros C; injection C as C; contradiction]|]. intros _. exists l. split; [reflexivity | exact Hl]. }
  assert (LQ : forall p, 0 <= p <= 1 -> double p ->
    (rlog1p b64 (Fin (- p)) = NInf <-> Fin p = Fin 1) /\ (rlog1p b64 (Fin (- p)) <> NInf -> exists l, rlog1p b64 (Fin (- p)) = Fin l /\ -53 <= l <= 0)).
  { intros p Hp Dp. unfold rlog1p, nlog1p. cbn [nadd]. fold (rlog b64 (Fin (1 + - p))). destruct (Req_dec p 1) as [-> | Hn].
    - assert (E : rlog b64 (Fin (1 + Ropp 1)) = NInf) by (unfold rlog; cbn; rewrite Rltb_false, Reqb_true by lra; reflexivity).
      rewrite E. split; [tauto | intros C; contradiction].
    - destruct (log_of (1 + - p) 53) as (l & E & Hl); [lra | lia | change (- (53))%Z with (-53)%Z; pose proof (double_below_1 p Dp ltac:(lra)); lra |]. rewrite E.
      split; [split; [discriminate | intros C; injection C as C; contradiction]|]. intros _. exists l. split; [reflexivity | exact Hl]. }
  unfold rfit_log1mp, rfit_p_ij, rfit_logp, rinv_logp, rinv_p_ij.
  destruct (is0 x || is0 y || is0 z || is0 d) eqn:Z.
  { repeat split; try discriminate; try reflexivity; try (intros C; injection C as C; lra); try (intros C; contradiction).
    intros _. exists 0. split; [reflexivity | lra]. }
  pose proof (product_amount d x y z Hd Hx Hy Hz Z) as P. unfold product in P. cbv zeta.
  destruct P as [-> | (t & -> & Ht & Dt)]; cbn [isinf].
  { repeat split; try discriminate; try reflexivity; try (intros C; injection C as C; lra); try (intros C; contradiction);
      intros _; exists 0; (split; [reflexivity | lra]). }
  destruct (logistic_unit t Ht Dt) as (p & E & E' & Hp & Dp). rewrite E, E'.
  destruct (exponential_unit t Ht) as (q & F & _ & Hq & Dq). rewrite F.
  destruct (LP p Hp Dp) as [A1 A2], (LP q Hq Dq) as [B1 B2], (LQ p Hp Dp) as [C1 C2]. auto 10.
Qed.
Print Assumptions C96_log_probabilities.

Example C96_log_probabilities_case : datum (Fin 1) /\ rfit_p_ij b64 (Fin 1) (Fin 1) (Fin 1) (Fin 1) = Fin (1 / 2) /\
  rfit_p_ij b64 (Fin 1) (Fin 0) (Fin 1) (Fin 1) = Fin 0.
Proof.
  split; [apply datum_fin; [lra | apply double_1]|]. unfold rfit_p_ij, is0. cbn [neqb]. rewrite !(Reqb_false 1) by lra. cbn [orb]. cbv zeta.
  split; [|rewrite Reqb_true by reflexivity; reflexivity].
  assert (M : rmul b64 (Fin 1) (Fin 1) = Fin 1) by (unfold rmul; cbn; rewrite Rmult_1_r; apply b64_fixed, double_1). rewrite !M. cbn [isinf].
  unfold radd, rdiv. cbn [nadd rnd_num]. replace (1 + 1) with 2 by lra. rewrite (b64_fixed 2) by (apply (double_Z 2); lia).
  cbn [ndiv]. rewrite Reqb_false by lra. cbn [rnd_num]. rewrite <- two_m1. apply b64_two. lia.
Qed.

(** * Saturation *)
Lemma add_one_large : forall t, double t -> two 54 <= t -> b64 (1 + t) = Fin t.
Proof.
  intros t D H. assert (Pt : 0 < t) by (pose proof (two_pos 54); lra).
  destruct (log_spec t Pt) as [A B]. set (e := Int_part (ln t / ln 2)) in *.
  assert (He : (54 <= e)%Z).
  { destruct (Z.lt_ge_cases e 54) as [L|]; [|lia]. pose proof (two_le (e + 1) 54 ltac:(lia)). lra. }
  assert (Lt : last_place t = (e - 52)%Z) by (apply place_eval; [split; assumption | lia]).
  destruct (grid_multiple t t Pt (double_grid t D) A) as [k Ek]. rewrite Lt in Ek.
  pose proof (two_pos (e - 52)) as Pe. assert (G4 : 4 <= two (e - 52)).
  { replace 4 with (two 2) by (rewrite two_Z by lia; reflexivity). apply two_le. lia. }
  assert (Eb : two (e + 1) = IZR (2 ^ 53) * two (e - 52)) by (rewrite <- two_Z, <- two_add by lia; f_equal; lia).
  assert (Kb : (k < 2 ^ 53)%Z) by (apply lt_IZR; apply Rmult_lt_reg_r with (two (e - 52)); [exact Pe | lra]).
  assert (B1 : 1 + t < two (e + 1)).
  { assert (IZR k <= IZR (2 ^ 53) - 1) by (rewrite <- minus_IZR; apply IZR_le; lia).
    assert (IZR k * two (e - 52) <= (IZR (2 ^ 53) - 1) * two (e - 52)) by (apply Rmult_le_compat_r; lra). lra. }
  rewrite b64_pos by lra.
  assert (E : round_pos (1 + t) = t).
  { unfold round_pos. rewrite (place_eval (1 + t) e) by (first [lia | split; lra]). rewrite (near_eval _ k); [symmetry; exact Ek|].
    replace ((1 + t) / two (e - 52) - IZR k) with (/ two (e - 52)) by (rewrite Ek; field; lra).
    rewrite Rabs_right by (left; apply Rinv_0_lt_compat; exact Pe).
    apply Rle_lt_trans with (/ 4); [apply Rinv_le_contravar; lra | lra]. }
  rewrite E. apply double_bound in D. rewrite Rabs_right in D by lra. rewrite Rleb_false by exact D. reflexivity.
Qed.

(** From [tmp] = 2^54 on the computed probability of the fitness model is 1 and a missing link has log-probability
    minus infinity. *)
Theorem C96_saturation : forall d x y z, datum d -> datum x -> datum y -> datum z ->
  nleb (Fin (2 ^ 54)) (rmul b64 (rmul b64 (rmul b64 d x) y) z) = true ->
  rfit_p_ij b64 d x y z = Fin 1 /\ rfit_log1mp b64 d x y z = NInf /\ rfit_logp b64 d x y z = Fin 0.
Proof.
  intros d x y z Hd Hx Hy Hz H. apply le_num_nleb in H.
  replace (2 ^ 54) with (two 54) in H by (rewrite two_Z by lia; rewrite pow_IZR; reflexivity).
  assert (Z : is0 x || is0 y || is0 z || is0 d = false).
  { assert (N0 : forall a, amount a -> forall w, w = 0 -> le_num (Fin (two 54)) (rmul b64 a (Fin w)) -> False).
    { intros a Ha w -> C. pose proof (two_pos 54). destruct Ha as [-> | (v & -> & _)]; unfold rmul in C; cbn in C.
      - unfold inf_times in C. rewrite Reqb_true in C by reflexivity. exact C.
      - rewrite Rmult_0_r, b64_0 in C. lra. }
    assert (NN : forall b, le_num (Fin (two 54)) (rmul b64 NaN b) -> False) by (intros [w| | |] C; exact C).
    destruct Hd as (wd & -> & Pd & Dd), Hx as (wx & -> & Px & Dx), Hy as (wy & -> & Py & Dy), Hz as (wz & -> & Pz & Dz).
    unfold is0; cbn [neqb].
    assert (M0 : forall a w, amount a -> 0 <= w -> rmul b64 a (Fin w) = NaN \/ amount (rmul b64 a (Fin w))).
    { intros a w Ha Hw. destruct Hw as [Hw | <-]; [right; apply rmul_amount; assumption|]. destruct Ha as [-> | (v & -> & _)]; unfold rmul; cbn.
      - unfold inf_times. rewrite Reqb_true by reflexivity. left. reflexivity.
      - rewrite Rmult_0_r, b64_0. right. right. apply datum_fin; [lra | apply double_0]. }
    assert (A0 : amount (Fin wd)) by (right; apply datum_fin; assumption).
    destruct (M0 _ wx A0 Px) as [E1 | A1].
    { rewrite E1 in H. replace (rmul b64 NaN (Fin wy)) with NaN in H by reflexivity. destruct (NN _ H). }
    destruct (M0 _ wy A1 Py) as [E2 | A2].
    { rewrite E2 in H. destruct (NN _ H). }
    assert (S0 : forall w : num, amount w -> le_num (Fin (two 54)) w -> w <> Fin 0) by (intros w _ C ->; cbn in C; pose proof (two_pos 54); lra).
    assert (M1 : forall w, rmul b64 (Fin 0) (Fin w) = Fin 0) by (intros w; unfold rmul; cbn; rewrite Rmult_0_l, b64_0; reflexivity).
    assert (M2 : forall a, amount a -> rmul b64 a (Fin 0) = NaN \/ rmul b64 a (Fin 0) = Fin 0).
    { intros a [-> | (v & -> & _)]; unfold rmul; cbn.
      - unfold inf_times. rewrite Reqb_true by reflexivity. auto.
      - rewrite Rmult_0_r, b64_0. auto. }
    destruct (Reqb_spec wx 0) as [-> |]; [exfalso; destruct (M2 _ A0) as [E|E]; rewrite E in H|].
    { replace (rmul b64 NaN (Fin wy)) with NaN in H by reflexivity. exact (NN _ H). }
    { rewrite !M1 in H. pose proof (two_pos 54). cbn in H. lra. }
    destruct (Reqb_spec wy 0) as [-> |]; [exfalso; destruct (M2 _ A1) as [E|E]; rewrite E in H|].
    { exact (NN _ H). }
    { rewrite !M1 in H. pose proof (two_pos 54). cbn in H. lra. }
    destruct (Reqb_spec wz 0) as [-> |]; [exfalso; exact (N0 _ A2 0 eq_refl H)|].
    destruct (Reqb_spec wd 0) as [-> |]; [exfalso; rewrite !M1 in H; pose proof (two_pos 54); cbn in H; lra|]. reflexivity. }
  pose proof (product_amount d x y z Hd Hx Hy Hz Z) as P. unfold product in P.
  unfold rfit_p_ij, rfit_log1mp, rfit_logp. rewrite Z. cbv zeta. destruct P as [-> | (t & E & Ht & Dt)]; [repeat split; reflexivity|].
  rewrite E in *. cbn in H. cbn [isinf]. pose proof (two_pos 54) as P54.
  assert (Ea : radd b64 (Fin 1) (Fin t) = Fin t) by (unfold radd; cbn; apply add_one_large; assumption).
  rewrite Ea.
  assert (E1 : rdiv b64 (Fin t) (Fin t) = Fin 1).
  { unfold rdiv. cbn. rewrite Reqb_false by lra. cbn. replace (t / t) with 1 by (field; lra). apply b64_fixed, double_1. }
  assert (E2 : rdiv b64 (nopp (Fin t)) (Fin t) = Fin (Ropp 1)).
  { unfold rdiv. cbn. rewrite Reqb_false by lra. cbn. replace (- t / t) with (Ropp 1) by (field; lra). rewrite b64_opp, b64_fixed by apply double_1. reflexivity. }
  rewrite E1, E2. split; [reflexivity|]. unfold rlog1p, nlog1p, rlog. cbn. rewrite Rltb_false, Reqb_true, Rltb_true by lra. cbn.
  rewrite ln_1, b64_0. auto.
Qed.
Print Assumptions C96_saturation.

(** Two vertices of fitness 2^27 (about 1.3e8): in exact arithmetic their link is absent with positive probability and
    the log-probability is above -55.  In double precision the log-likelihood of every graph without the link is minus
    infinity. *)
Lemma mul_one : forall a, (exists r, a = Fin r /\ double r) -> rmul b64 (Fin 1) a = a /\ rmul b64 a (Fin 1) = a.
Proof.
  intros a (r & -> & D). unfold rmul. cbn. rewrite Rmult_1_l, Rmult_1_r, b64_fixed by exact D. auto.
Qed.
Lemma two_fin : forall e, (-1074 <= e <= 1023)%Z -> exists r, Fin (two e) = Fin r /\ double r.
Proof. intros e He. exists (two e). split; [reflexivity | apply double_two; exact He]. Qed.
Example C96_saturation_case : datum (Fin 1) /\ datum (Fin (two 27)) /\
  rmul b64 (rmul b64 (rmul b64 (Fin 1) (Fin (two 27))) (Fin (two 27))) (Fin 1) = Fin (2 ^ 54).
Proof.
  split; [apply datum_fin; [lra | apply double_1]|]. split; [apply two_datum; lia|].
  rewrite (proj1 (mul_one _ (two_fin 27 ltac:(lia)))), mul_two. change (27 + 27)%Z with 54%Z. rewrite b64_two by lia.
  rewrite (proj2 (mul_one _ (two_fin 54 ltac:(lia)))). rewrite two_Z by lia. rewrite pow_IZR. reflexivity.
Qed.
Theorem C96_log1mp_refuted : exists d x y z l, datum d /\ datum x /\ datum y /\ datum z /\
  fit_log1mp d x y z = Fin l /\ -55 <= l /\ rfit_log1mp b64 d x y z = NInf.
Proof.
  destruct C96_saturation_case as (D1 & D2 & E). exists (Fin 1), (Fin (two 27)), (Fin (two 27)), (Fin 1), (ln (1 + - (two 54 / (1 + two 54)))).
  pose proof (two_pos 27) as P. pose proof (two_pos 54) as P54.
  repeat (split; [assumption|]).
  assert (X : 1 * two 27 * two 27 * 1 = two 54) by (rewrite Rmult_1_l, Rmult_1_r, <- two_add; reflexivity).
  assert (Y : 1 + - (two 54 / (1 + two 54)) = / (1 + two 54)) by (field; lra).
  assert (Pi : 0 < / (1 + two 54)) by (apply Rinv_0_lt_compat; lra).
  split; [|split].
  - unfold fit_log1mp, is0. cbn [neqb]. rewrite !Reqb_false by lra. cbn [orb nmul isinf nadd nopp ndiv]. rewrite X.
    rewrite Reqb_false by lra. unfold nlog1p. cbn [nadd nlog].
    replace (- two 54 / (1 + two 54)) with (- (two 54 / (1 + two 54))) by (unfold Rdiv; ring). rewrite Rltb_true by lra. reflexivity.
  - rewrite Y, ln_Rinv by lra. assert (ln (1 + two 54) <= ln (two 55)).
    { left. apply ln_increasing; [lra|]. change 55%Z with (1 + 54)%Z. rewrite two_add, two_1. assert (1 < two 54) by (rewrite <- two_0; apply two_lt; lia). lra. }
    rewrite two_ln in H. pose proof ln2_lt. lra.
  - apply (C96_saturation (Fin 1) (Fin (two 27)) (Fin (two 27)) (Fin 1)); try assumption. rewrite E, nleb_fin. apply Rleb_true. lra.
Qed.
Print Assumptions C96_log1mp_refuted.

(** * Monotonicity *)
Lemma product_le : forall d x y z d' x' y' z', datum d -> datum x -> datum y -> datum z ->
  datum d' -> datum x' -> datum y' -> datum z' ->
  nleb d d' = true -> nleb x x' = true -> nleb y y' = true -> nleb z z' = true ->
  is0 x || is0 y || is0 z || is0 d = false ->
  is0 x' || is0 y' || is0 z' || is0 d' = false /\ le_num (product d x y z) (product d' x' y' z').
Proof.
  intros d x y z d' x' y' z' Hd Hx Hy Hz Hd' Hx' Hy' Hz' Ld Lx Ly Lz Z.
  apply le_num_nleb in Ld, Lx, Ly, Lz.
  apply orb_false_iff in Z as [Z Zd]. apply orb_false_iff in Z as [Z Zz]. apply orb_false_iff in Z as [Zx Zy].
  assert (G : forall a a', datum a -> datum a' -> is0 a = false -> le_num a a' ->
    exists w w', a = Fin w /\ a' = Fin w' /\ 0 < w <= w' /\ is0 a' = false).
  { intros a a' Ha (w' & -> & _ & _) Za L. destruct (datum_pos a Ha Za) as (w & -> & P & _). cbn in L. exists w, w'.
    split; [reflexivity|]. split; [reflexivity|]. split; [lra|]. unfold is0. cbn. apply Reqb_false. lra. }
  destruct (G x x' Hx Hx' Zx Lx) as (wx & wx' & -> & -> & Px & ->), (G y y' Hy Hy' Zy Ly) as (wy & wy' & -> & -> & Py & ->),
    (G z z' Hz Hz' Zz Lz) as (wz & wz' & -> & -> & Pz & ->), (G d d' Hd Hd' Zd Ld) as (wd & wd' & -> & -> & Pd & ->).
  split; [reflexivity|]. unfold product.
  assert (A : amount (Fin wd)) by (right; exact Hd). assert (A' : amount (Fin wd')) by (right; exact Hd').
  apply rmul_le; [| | |lra|lra].
  - apply rmul_amount; [apply rmul_amount; [exact A | lra] | lra].
  - apply rmul_amount; [apply rmul_amount; [exact A' | lra] | lra].
  - apply rmul_le; [apply rmul_amount; [exact A | lra] | apply rmul_amount; [exact A' | lra] | | lra | lra].
    apply rmul_le; [exact A | exact A' | cbn; lra | lra | lra].
Qed.

(** In the scale-invariant model the computed probability never decreases when the parameter or a fitness grows. *)
Theorem C96_monotone : forall d x y z d' x' y' z', datum d -> datum x -> datum y -> datum z ->
  datum d' -> datum x' -> datum y' -> datum z' ->
  nleb d d' = true -> nleb x x' = true -> nleb y y' = true -> nleb z z' = true ->
  nleb (rinv_p_ij b64 d x y z) (rinv_p_ij b64 d' x' y' z') = true.
Proof.
  intros d x y z d' x' y' z' Hd Hx Hy Hz Hd' Hx' Hy' Hz' Ld Lx Ly Lz. apply le_num_nleb.
  destruct (C96_probabilities d' x' y' z' Hd' Hx' Hy' Hz') as (_ & (p' & E' & Hp' & _) & _).
  destruct (is0 x || is0 y || is0 z || is0 d) eqn:Z.
  { unfold rinv_p_ij at 1. rewrite Z, E'. cbn. lra. }
  destruct (product_le d x y z d' x' y' z') as [Z' L]; try assumption.
  pose proof (product_amount d x y z Hd Hx Hy Hz Z) as P. pose proof (product_amount d' x' y' z' Hd' Hx' Hy' Hz' Z') as P'.
  unfold product in *. rewrite E'. unfold rinv_p_ij in *. rewrite Z. rewrite Z' in E'. cbv zeta in *.
  destruct P as [E | (t & E & Ht & Dt)]; rewrite E in *; cbn [isinf].
  - destruct P' as [F | (t' & F & _)]; rewrite F in *; cbn in L; [|contradiction]. injection E' as <-. cbn. lra.
  - destruct (exponential_unit t Ht) as (p & Ep & Eb & Hp & _). rewrite Ep.
    destruct P' as [F | (t' & F & Ht' & _)]; rewrite F in *; cbn [isinf] in E'.
    + injection E' as <-. cbn. lra.
    + destruct (exponential_unit t' Ht') as (q & Eq & Fb & Hq & _). rewrite Eq in E'. injection E' as <-.
      rewrite <- Eb, <- Fb. apply b64_mono. cbn in L.
      assert (exp (- t') <= exp (- t)) by (destruct L as [L | ->]; [left; apply exp_increasing; lra | lra]). lra.
Qed.
Print Assumptions C96_monotone.

Example C96_monotone_case : datum (Fin (two 3)) /\ datum (Fin (two 4)) /\ nleb (Fin (two 3)) (Fin (two 4)) = true.
Proof. split; [apply two_datum; lia|]. split; [apply two_datum; lia|]. rewrite nleb_fin. apply Rleb_true, two_le. lia. Qed.

(** In the fitness model it does: with fitnesses 2^53 and 1 the computed probability is 1, and with the next larger
    fitness 2^53 + 2 it is less. *)
Lemma two_53 : two 53 = IZR (2 ^ 53). Proof. apply two_Z. lia. Qed.
Theorem C96_monotone_refuted : exists d x x' y z p, datum d /\ datum x /\ datum x' /\ datum y /\ datum z /\ nleb x x' = true /\
  rfit_p_ij b64 d x y z = Fin 1 /\ rfit_p_ij b64 d x' y z = Fin p /\ p < 1.
Proof.
  assert (D1 : datum (Fin 1)) by (apply datum_fin; [lra | apply double_1]).
  assert (D2 : datum (Fin (two 53))) by (apply two_datum; lia).
  pose proof (two_pos 53) as P. pose proof (two_pos 1) as P1.
  assert (T54 : two 54 = 2 * two 53) by (change 54%Z with (1 + 53)%Z; rewrite two_add, two_1; reflexivity).
  assert (T53 : two 53 = 2 * two 52) by (change 53%Z with (1 + 52)%Z; rewrite two_add, two_1; reflexivity).
  assert (B : 4 < two 53) by (replace 4 with (two 2) by (rewrite two_Z by lia; reflexivity); apply two_lt; lia).
  assert (Dx : double (two 53 + 2)).
  { exists (2 ^ 52 + 1)%Z, 1%Z. split; [rewrite plus_IZR, <- two_Z, two_1 by lia; lra | split; lia]. }
  assert (D3 : datum (Fin (two 53 + 2))) by (apply datum_fin; [lra | exact Dx]).
  assert (Ad1 : b64 (1 + two 53) = Fin (two 53)).
  { rewrite (b64_eval _ 53 (2 ^ 52)); [f_equal; rewrite <- two_Z, <- two_add by lia; reflexivity | change (53 + 1)%Z with 54%Z; lra | lia |].
    change (52 - 53)%Z with (-1)%Z. rewrite two_m1. rewrite (near_tie _ (2 ^ 52)); [reflexivity|]. rewrite <- two_Z by lia. lra. }
  assert (Ad2 : b64 (1 + (two 53 + 2)) = Fin (two 53 + 4)).
  { rewrite (b64_eval _ 53 (2 ^ 52 + 2)); [f_equal; change (53 - 52)%Z with 1%Z; rewrite plus_IZR, <- two_Z, two_1 by lia; lra
      | change (53 + 1)%Z with 54%Z; lra | lia |].
    change (52 - 53)%Z with (-1)%Z. rewrite two_m1. rewrite (near_tie _ (2 ^ 52 + 1)); [reflexivity|]. rewrite plus_IZR, <- two_Z by lia. lra. }
  assert (M : forall w, double w -> rmul b64 (rmul b64 (rmul b64 (Fin 1) (Fin w)) (Fin 1)) (Fin 1) = Fin w).
  { intros w D. destruct (mul_one (Fin w)) as [A1 A2]; [exists w; auto|]. rewrite A1, !A2. reflexivity. }
  assert (K : forall w, double w -> 0 < w -> rfit_p_ij b64 (Fin 1) (Fin w) (Fin 1) (Fin 1) = rdiv b64 (Fin w) (radd b64 (Fin 1) (Fin w))).
  { intros w D Hw. unfold rfit_p_ij, is0. cbn [neqb]. rewrite !Reqb_false by lra. cbn [orb]. cbv zeta. rewrite M by exact D. reflexivity. }
  destruct (b64_between 0 (1 - two (-53)) ((two 53 + 2) / (two 53 + 4))) as (p & Ep & Hp & _).
  - apply double_0.
  - exists (2 ^ 53 - 1)%Z, (-53)%Z. split; [|split; lia]. rewrite minus_IZR, <- two_Z by lia.
    rewrite Rmult_minus_distr_r, <- two_add. change (53 + -53)%Z with 0%Z. rewrite two_0. lra.
  - split; [apply Rmult_le_pos; [lra | left; apply Rinv_0_lt_compat; lra]|].
    change (-53)%Z with (- (53))%Z. rewrite two_neg. apply Rmult_le_reg_r with (two 53 + 4); [lra|].
    unfold Rdiv. rewrite Rmult_assoc, Rinv_l, Rmult_1_r by lra.
    assert (X : / two 53 * (two 53 + 4) = 1 + 4 * / two 53) by (field; lra).
    assert (Y : / two 53 < / 4) by (apply Rinv_lt_contravar; nra). nra.
  - exists (Fin 1), (Fin (two 53)), (Fin (two 53 + 2)), (Fin 1), (Fin 1), p.
    repeat (split; [assumption|]). split; [rewrite nleb_fin; apply Rleb_true; lra|]. rewrite !K by (first [assumption | apply double_two; lia | lra]).
    unfold radd, rdiv. cbn [nadd rnd_num]. rewrite Ad1, Ad2. cbn [ndiv]. rewrite !Reqb_false by lra. cbn [rnd_num]. rewrite Ep.
    split; [replace (two 53 / two 53) with 1 by (field; lra); apply b64_fixed, double_1|]. split; [reflexivity|]. pose proof (two_pos (-53)). lra.
Qed.
Print Assumptions C96_monotone_refuted.

(** In the scale-invariant model a computed probability of 1 leaves the log-probability of a missing link finite: the
    sampler always draws the link of two vertices with fitnesses 8 and 8, the log-likelihood of graphs without it is
    only lowered by 64. *)
Theorem C96_always_drawn_refuted : exists d x y z, datum d /\ datum x /\ datum y /\ datum z /\
  rinv_p_ij b64 d x y z = Fin 1 /\ rinv_log1mp b64 d x y z = Fin (-64).
Proof.
  assert (D1 : datum (Fin 1)) by (apply datum_fin; [lra | apply double_1]).
  assert (D8 : datum (Fin 8)) by (apply datum_fin; [lra | apply (double_Z 8); lia]).
  assert (M : rmul b64 (rmul b64 (rmul b64 (Fin 1) (Fin 8)) (Fin 8)) (Fin 1) = Fin 64).
  { rewrite (proj1 (mul_one (Fin 8) ltac:(exists 8; split; [reflexivity | apply (double_Z 8); lia]))).
    replace (rmul b64 (Fin 8) (Fin 8)) with (Fin 64).
    - apply mul_one. exists 64. split; [reflexivity | apply (double_Z 64); lia].
    - unfold rmul. cbn [nmul rnd_num]. replace (8 * 8) with 64 by lra. symmetry. apply b64_fixed, (double_Z 64). lia. }
  exists (Fin 1), (Fin 8), (Fin 8), (Fin 1). repeat (split; [assumption|]).
  unfold rinv_p_ij, rinv_log1mp, is0. cbn [neqb]. rewrite !Reqb_false by lra. cbn [orb]. cbv zeta. rewrite M. cbn [isinf].
  split; [|reflexivity].
  destruct (exponential_unit 64 ltac:(lra)) as (p & Ep & Eb & _). rewrite Ep.
  assert (S : 1 - two (-64) <= 1 - exp (Ropp 64) < 1).
  { split; [|pose proof (exp_pos (Ropp 64)); lra].
    change (-64)%Z with (- (64))%Z. rewrite two_neg, exp_Ropp. pose proof (two_pos 64). pose proof (exp_pos 64).
    assert (two 64 <= exp 64).
    { rewrite <- (exp_ln (two 64)) by apply two_pos. rewrite two_ln. pose proof ln2_lt. left. apply exp_increasing. lra. }
    assert (/ exp 64 <= / two 64) by (apply Rinv_le_contravar; assumption). lra. }
  assert (T : two (-64) < two (-54)) by (apply two_lt; lia). pose proof (two_pos (-64)) as P64.
  assert (E1 : b64 (1 - exp (Ropp 64)) = Fin 1).
  { rewrite (b64_eval _ (-1) (2 ^ 53)).
    - f_equal. rewrite <- two_Z, <- two_add by lia. change (53 + (-1 - 52))%Z with 0%Z. rewrite two_0. reflexivity.
    - change (-1 + 1)%Z with 0%Z. rewrite two_m1, two_0. assert (two (-54) < 1 / 2) by (rewrite <- two_m1; apply two_lt; lia). lra.
    - lia.
    - change (52 - -1)%Z with 53%Z. apply near_eval. rewrite <- two_Z by lia. pose proof (two_pos 53).
      replace ((1 - exp (Ropp 64)) * two 53 - two 53) with (- (exp (Ropp 64) * two 53)) by ring. rewrite Rabs_Ropp, Rabs_right.
      + apply Rlt_le_trans with (two (-54) * two 53); [apply Rmult_lt_compat_r; lra|]. rewrite <- two_add. change (-54 + 53)%Z with (-1)%Z. rewrite two_m1. lra.
      + pose proof (exp_pos (Ropp 64)). nra. }
  rewrite Eb in E1. exact E1.
Qed.
Print Assumptions C96_always_drawn_refuted.

(** The fit does not evaluate the probabilities that the model has: with fitnesses 2^515 and parameter 2^-1030 the
    probability is one half for [p_ij] and one, with derivative zero, for [p_jac_ij], whose product overflows. *)
Theorem C96_fit_probability_refuted : exists d x y z, datum d /\ datum x /\ datum y /\ datum z /\
  rfit_p_ij b64 d x y z = Fin (1 / 2) /\ fit_p_ij d x y z = Fin (1 / 2) /\ rfit_p_jac b64 d x y z = (Fin 1, Fin 0).
Proof.
  exists (Fin (two (-1030))), (Fin (two 515)), (Fin (two 515)), (Fin (two 0)).
  split; [apply two_datum; lia|]. split; [apply two_datum; lia|]. split; [apply two_datum; lia|]. split; [apply two_datum; lia|].
  assert (N0 : forall e, is0 (Fin (two e)) = false) by (intros e; unfold is0; cbn; apply Reqb_false; pose proof (two_pos e); lra).
  assert (A : radd b64 (Fin 1) (Fin (two 0)) = Fin 2).
  { unfold radd. cbn. rewrite two_0. replace (1 + 1) with 2 by lra. apply b64_fixed, (double_Z 2). lia. }
  assert (Q : rdiv b64 (Fin (two 0)) (Fin 2) = Fin (1 / 2)).
  { unfold rdiv. cbn. rewrite Reqb_false by lra. cbn. rewrite two_0, <- two_m1. apply b64_two. lia. }
  split; [|split].
  - unfold rfit_p_ij. rewrite !N0. cbn [orb]. cbv zeta. rewrite mul_two. change (-1030 + 515)%Z with (-515)%Z. rewrite b64_two, mul_two by lia.
    change (-515 + 515)%Z with 0%Z. rewrite b64_two, mul_two by lia. change (0 + 0)%Z with 0%Z. rewrite b64_two by lia. cbn [isinf].
    rewrite A. exact Q.
  - unfold fit_p_ij. rewrite !N0. cbn [orb nmul isinf nadd ndiv]. rewrite <- !two_add. change (-1030 + 515 + 515 + 0)%Z with 0%Z. rewrite two_0.
    rewrite Reqb_false by lra. f_equal.
  - unfold rfit_p_jac. rewrite !N0. cbn [orb]. cbv zeta. rewrite mul_two. change (515 + 515)%Z with 1030%Z. rewrite b64_over by lia.
    replace (rmul b64 PInf (Fin (two 0))) with PInf by (unfold rmul; cbn; unfold inf_times; rewrite two_0, Reqb_false, Rltb_true by lra; reflexivity).
    replace (rmul b64 (Fin (two (-1030))) PInf) with PInf; [reflexivity|].
    unfold rmul. cbn. unfold inf_times. pose proof (two_pos (-1030)). rewrite Reqb_false, Rltb_true by lra. reflexivity.
Qed.
Print Assumptions C96_fit_probability_refuted.

(** * The expected number of links and the expected degrees *)

(** A probability in doubles *)
Definition unit_double (a : num) : Prop := exists p, a = Fin p /\ 0 <= p <= 1 /\ double p.
(** A sum of at most [c] probabilities *)
Definition within (c : nat) (a : num) : Prop := exists v, a = Fin v /\ 0 <= v <= INR c.
Lemma count_double : forall c, (Z.of_nat c <= 2 ^ 53)%Z -> double (INR c).
Proof. intros c H. rewrite INR_IZR_INZ. apply double_Z. lia. Qed.
Lemma add_within : forall c a q, within c a -> unit_double q -> (Z.of_nat (S c) <= 2 ^ 53)%Z -> within (S c) (radd b64 a q).
Proof.
  intros c a q (v & -> & Hv) (w & -> & Hw & _) H. unfold radd. cbn [nadd rnd_num]. rewrite <- (Rplus_comm w).
  destruct (b64_between 0 (INR (S c)) (w + v)) as (s & E & Hs & _).
  - apply double_0.
  - apply count_double, H.
  - rewrite S_INR. lra.
  - exists s. rewrite <- E. split; [f_equal; ring | exact Hs].
Qed.
Lemma within_le : forall c c' a, (c <= c')%nat -> within c a -> within c' a.
Proof. intros c c' a H (v & -> & Hv). apply le_INR in H. exists v. split; [reflexivity | lra]. Qed.
Lemma for_range_count : forall A (Q : nat -> A -> Prop) n f a, Q 0%nat a ->
  (forall i a, (i < n)%nat -> Q i a -> Q (S i) (f i a)) -> Q n (for_range n f a).
Proof.
  intros A Q n f a H. induction n as [|n IH]; intros S; [exact H|]. cbn [for_range]. apply S; [lia|]. apply IH. intros i b Hi. apply S. lia.
Qed.

(** The expected number of links computed in doubles is a number between 0 and the number of pairs, if there are at
    most 2^53 pairs: no sum overflows and no rounding carries it above the bound. *)
Theorem C96_edges : forall p N sl, (Z.of_nat (N * N) <= 2 ^ 53)%Z ->
  (forall i j, (i < N)%nat -> (j < N)%nat -> unit_double (p i j)) ->
  exists e, rexp_edges b64 p N sl = Fin e /\ 0 <= e <= INR (if sl then N * N else N * (N - 1)).
Proof.
  intros p N sl HN Hp.
  set (c := fun i j => if sl then j else if Nat.ltb i j then (j - 1)%nat else j).
  assert (C : forall i j, (i < N)%nat -> (j <= N)%nat -> (c i j <= N)%nat).
  { intros i j Hi Hj. unfold c. destruct sl; [exact Hj|]. destruct (Nat.ltb i j); lia. }
  set (full := if sl then N else (N - 1)%nat).
  assert (T : within (N * full) (rexp_edges b64 p N sl)).
  { unfold rexp_edges. apply (for_range_count num (fun i e => within (i * full) e)).
    - exists 0. split; [reflexivity|]. cbn. lra.
    - intros i e Hi H.
      assert (G : within (i * full + c i N) (for_range N (fun j e0 => if adm sl i j then radd b64 e0 (p i j) else e0) e)).
      { apply (for_range_count num (fun j e => within (i * full + c i j) e)).
        - replace (i * full + c i 0)%nat with (i * full)%nat; [exact H|]. unfold c. destruct sl; [lia|]. destruct (Nat.ltb_spec i 0); lia.
        - intros j e' Hj H'. unfold adm. rewrite orb_comm.
          assert (B : (i * full + c i (S j) <= N * N)%nat).
          { specialize (C i (S j) Hi ltac:(lia)). assert (full <= N)%nat by (unfold full; destruct sl; lia). nia. }
          destruct (sl || negb (Nat.eqb i j)) eqn:A.
          + assert (E : c i (S j) = S (c i j)).
            { unfold c. destruct sl; [lia|]. cbn [orb] in A. apply negb_true_iff, Nat.eqb_neq in A.
              destruct (Nat.ltb_spec i (S j)), (Nat.ltb_spec i j); lia. }
            rewrite E, Nat.add_succ_r. apply add_within; [exact H' | apply Hp; assumption|].
            rewrite E in B. lia.
          + apply orb_false_iff in A as [-> A]. apply negb_false_iff, Nat.eqb_eq in A. subst j.
            apply (within_le (i * full + c i i)); [|exact H']. unfold c.
            destruct (Nat.ltb_spec i (S i)), (Nat.ltb_spec i i); lia. }
      apply (within_le (i * full + c i N)); [|exact G]. unfold c, full. destruct sl; [lia|]. destruct (Nat.ltb_spec i N); lia. }
  destruct T as (e & E & He). exists e. split; [exact E|]. unfold full in He. destruct sl; exact He.
Qed.
Print Assumptions C96_edges.

Example C96_edges_case : let p := fun _ _ : nat => Fin (1 / 2) in
  (Z.of_nat (2 * 2) <= 2 ^ 53)%Z /\ unit_double (p 0%nat 1%nat) /\ rexp_edges b64 p 2 false = Fin 1.
Proof.
  assert (D : double (1 / 2)) by (rewrite <- two_m1; apply double_two; lia).
  cbv zeta. split; [lia|]. split; [exists (1 / 2); split; [reflexivity|]; split; [lra | exact D]|].
  unfold rexp_edges. cbn [for_range adm orb negb Nat.eqb]. unfold radd. cbn [nadd rnd_num].
  replace (0 + 1 / 2) with (1 / 2) by lra. rewrite (b64_fixed _ D). cbn [nadd rnd_num]. replace (1 / 2 + 1 / 2) with 1 by lra.
  apply b64_fixed, double_1.
Qed.

Lemma Rabs_def2_le : forall a b, Rabs a <= b -> - b <= a <= b.
Proof. intros a b H. unfold Rabs in H. destruct (Rcase_abs a); lra. Qed.
(** The probability p + q - p q of at least one of two links, computed in doubles as the library does, is at most 1
    although each of its three operations may round up. *)
Lemma either_unit : forall a b, unit_double a -> unit_double b ->
  exists v, rsub b64 (radd b64 a b) (rmul b64 a b) = Fin v /\ 0 <= v <= 1.
Proof.
  intros a b (p & -> & Hp & Dp) (q & -> & Hq & Dq). unfold rsub, radd, rmul. cbn [nadd nmul rnd_num].
  assert (M0 : exists m, b64 (p * q) = Fin m /\ 0 <= m /\ m <= p /\ m <= q /\ double m).
  { destruct (b64_between 0 p (p * q) double_0 Dp ltac:(nra)) as (m & E & Hm & Dm).
    destruct (b64_between 0 q (p * q) double_0 Dq ltac:(nra)) as (m' & E' & Hm' & _). rewrite E in E'. injection E' as <-.
    exists m. repeat split; try assumption; lra. }
  destruct M0 as (m & Em & M0 & Mp & Mq & Dm). rewrite Em.
  destruct (Rle_or_lt (p + q) 1) as [L | L].
  - destruct (b64_between p 1 (p + q) Dp double_1 ltac:(lra)) as (s & Es & Hs & _). rewrite Es. unfold nsub. cbn [nadd nopp rnd_num].
    destruct (b64_between 0 1 (s + - m) double_0 double_1 ltac:(lra)) as (v & Ev & Hv & _). exists v. auto.
  - assert (D2 : double 2) by (apply (double_Z 2); lia).
    assert (S : exists k, b64 (p + q) = Fin (IZR k * two (-52)) /\ (2 ^ 52 <= k <= 2 ^ 53)%Z /\ IZR k * two (-52) <= p + q + two (-53)).
    { assert (P52 : two 52 * two (-52) = 1) by (rewrite <- two_add; reflexivity). pose proof (two_pos 52) as Q52. pose proof (two_pos (-52)) as Q52'.
      pose proof (two_pos (-53)) as Q53.
      destruct (Rlt_or_le (p + q) 2) as [L2 | L2].
      - exists (nearest_even ((p + q) * two 52)). split.
        + rewrite (b64_eval (p + q) 0 (nearest_even ((p + q) * two 52))); [reflexivity | rewrite two_0; change (0 + 1)%Z with 1%Z; rewrite two_1; lra | lia | reflexivity].
        + split.
          * split; [apply near_ge; rewrite <- two_Z by lia; nra | apply near_le; rewrite <- two_Z by lia].
            change 53%Z with (1 + 52)%Z. rewrite two_add, two_1. nra.
          * pose proof (near_dist ((p + q) * two 52)) as D. apply Rabs_def2_le in D.
            apply Rmult_le_reg_r with (two 52); [exact Q52|]. rewrite Rmult_assoc, (Rmult_comm (two (-52))), P52.
            assert (two (-53) * two 52 = 1 / 2) by (rewrite <- two_add; apply two_m1). lra.
      - exists (2 ^ 53)%Z. rewrite <- two_Z by lia. rewrite <- two_add. change (53 + -52)%Z with 1%Z. rewrite two_1.
        split; [replace (p + q) with 2 by lra; apply b64_fixed, D2|]. split; [lia | lra]. }
    destruct S as (k & Es & Hk & Hs). rewrite Es. unfold nsub. cbn [nadd nopp rnd_num].
    set (s := IZR k * two (-52)) in *.
    assert (W : two (-52) = 2 * two (-53)) by (change (-52)%Z with (1 + -53)%Z; rewrite two_add, two_1; reflexivity).
    pose proof (two_pos (-53)) as P53.
    assert (U : two 53 * two (-53) = 1) by (rewrite <- two_add; reflexivity).
    assert (V : 1 = IZR (2 ^ 52) * two (-52)) by (rewrite <- two_Z, <- two_add by lia; reflexivity).
    assert (Lm : s - 1 - two (-53) <= m).
    { destruct (Z.eq_dec k (2 ^ 52)) as [-> | NE].
      - assert (s = 1) by (unfold s; lra). lra.
      - set (w := IZR (2 * (k - 2 ^ 52) - 1) * two (-53)).
        assert (Ew : w = s - 1 - two (-53)).
        { unfold w, s. rewrite minus_IZR, mult_IZR, minus_IZR. rewrite V at 2. rewrite W. ring. }
        assert (Dw : double w) by (exists (2 * (k - 2 ^ 52) - 1)%Z, (-53)%Z; split; [reflexivity | split; lia]).
        destruct (b64_between w p (p * q) Dw Dp ltac:(nra)) as (m' & E' & Hm' & _). rewrite Em in E'. injection E' as <-. lra. }
    assert (S1 : 1 <= s). { unfold s. rewrite V. apply Rmult_le_compat_r; [pose proof (two_pos (-52)); lra | apply IZR_le; lia]. }
    assert (X : b64 (1 + two (-53)) = Fin 1).
    { assert (two (-53) < 1) by (rewrite <- two_0; apply two_lt; lia).
      rewrite (b64_eval _ 0 (2 ^ 52)); [f_equal; symmetry; exact V | rewrite two_0; change (0 + 1)%Z with 1%Z; rewrite two_1; lra | lia |].
      rewrite (near_tie _ (2 ^ 52)); [reflexivity|]. rewrite <- two_Z by lia. change (52 - 0)%Z with 52%Z.
      rewrite Rmult_plus_distr_r, <- two_add. change (-53 + 52)%Z with (-1)%Z. rewrite two_m1. lra. }
    pose proof (b64_mono (s + - m) (1 + two (-53)) ltac:(lra)) as U1. pose proof (b64_mono 0 (s + - m) ltac:(lra)) as L1.
    rewrite X in U1. rewrite b64_0 in L1. destruct (b64 (s + - m)) as [v| | |]; cbn in U1, L1; try contradiction. exists v. split; [reflexivity | lra].
Qed.
Lemma add_within' : forall c a v, within c a -> 0 <= v <= 1 -> (Z.of_nat (S c) <= 2 ^ 53)%Z -> within (S c) (radd b64 a (Fin v)).
Proof.
  intros c a w (v & -> & Hv) Hw H. unfold radd. cbn [nadd rnd_num].
  destruct (b64_between 0 (INR (S c)) (v + w)) as (s & E & Hs & _).
  - apply double_0.
  - apply count_double, H.
  - rewrite S_INR. lra.
  - exists s. split; [exact E | exact Hs].
Qed.

(** The same for the expected degrees: out, in and undirected, each at most the number of vertices. *)
Theorem C96_degrees : forall p N sl k, (Z.of_nat N <= 2 ^ 53)%Z -> (k < N)%nat ->
  (forall i j, (i < N)%nat -> (j < N)%nat -> unit_double (p i j)) ->
  let '(exp_d, exp_d_out, exp_d_in) := rexp_degrees b64 p N sl in
  exists d o i, exp_d k = Fin d /\ exp_d_out k = Fin o /\ exp_d_in k = Fin i /\
    0 <= d <= INR N /\ 0 <= o <= INR N /\ 0 <= i <= INR N.
Proof.
  intros p N sl k HN Hk Hp.
  set (Q := fun (c : nat -> nat) (st : (nat -> num) * (nat -> num) * (nat -> num)) =>
    forall k, (k < N)%nat -> within (c k) (fst (fst st) k) /\ within (c k) (snd (fst st) k) /\ within (c k) (snd st k)).
  assert (Q_le : forall c c' st, Q c st -> (forall k, c k <= c' k)%nat -> Q c' st).
  { intros c c' st H L n Hn. destruct (H n Hn) as (A & B & C). repeat split; eapply within_le; eauto. }
  assert (F : Q (fun n => if Nat.ltb n N then N else 0%nat) (rexp_degrees b64 p N sl)).
  { unfold rexp_degrees. apply (for_range_count _ (fun i st => Q (fun n => if Nat.ltb n i then i else 0%nat) st)).
    - intros n Hn. cbn. repeat split; exists 0; split; try reflexivity; cbn; lra.
    - intros i st Hi H.
      apply (Q_le (fun n => if Nat.ltb n i then (i + (if Nat.ltb n (S i) then 1 else 0))%nat else if Nat.eqb n i then (S i) else 0%nat)).
      2:{ intros n. destruct (Nat.ltb_spec n i), (Nat.ltb_spec n (S i)), (Nat.eqb_spec n i); lia. }
      apply (for_range_count _ (fun j st => Q (fun n => if Nat.ltb n i then (i + (if Nat.ltb n j then 1 else 0))%nat else if Nat.eqb n i then j else 0%nat) st)).
      + eapply Q_le; [exact H|]. intros n. cbv beta. destruct (Nat.ltb_spec n i), (Nat.ltb_spec n 0), (Nat.eqb_spec n i); lia.
      + intros j [[d o] e] Hj H'.
        destruct (Nat.eqb_spec i j) as [<- | NE]; cbn [negb].
        * destruct sl.
          -- intros n Hn. destruct (H' n Hn) as (A & B & C). cbn [fst snd] in *. unfold radd_at, upd.
             destruct (Nat.eqb_spec n i) as [-> | NE]; [|destruct (Nat.ltb_spec n i), (Nat.ltb_spec n (S i)); try lia; auto].
             rewrite Nat.ltb_irrefl in *. repeat split; apply add_within; auto; lia.
          -- eapply Q_le; [exact H'|]. intros n. cbv beta. destruct (Nat.ltb_spec n i), (Nat.ltb_spec n (S i)), (Nat.eqb_spec n i); lia.
        * assert (Ui : unit_double (p i j)) by (apply Hp; lia). assert (Uj : unit_double (p j i)) by (apply Hp; lia).
          destruct (either_unit _ _ Ui Uj) as (q & Eq & Hq). cbv zeta. rewrite Eq.
          intros n Hn. destruct (H' n Hn) as (A & B & C). cbn [fst snd] in *. unfold radd_at, upd.
          destruct (Nat.eqb_spec n i) as [-> | Ni].
          -- assert (J : Nat.eqb i j = false) by (apply Nat.eqb_neq; exact NE). assert (J2 : Nat.eqb j i = false) by (apply Nat.eqb_neq; lia). rewrite J, ?J2.
             rewrite Nat.ltb_irrefl in *. repeat split; first [apply add_within'; [assumption | exact Hq | lia] | apply add_within; [assumption | assumption | lia]].
          -- destruct (Nat.eqb_spec n j) as [-> | Nj].
             ++ assert (J : Nat.ltb j i = true) by (apply Nat.ltb_lt; lia). rewrite J in *.
                assert (J2 : Nat.eqb j i = false) by (apply Nat.eqb_neq; exact Ni). rewrite ?J2.
                rewrite Nat.ltb_irrefl in *. assert (J' : Nat.ltb j (S j) = true) by (apply Nat.ltb_lt; lia). rewrite J'.
                rewrite Nat.add_0_r in *. rewrite Nat.add_1_r.
                repeat split; first [apply add_within'; [assumption | exact Hq | lia] | apply add_within; [assumption | assumption | lia]].
             ++ assert (G : (if Nat.ltb n (S j) then 1%nat else 0%nat) = (if Nat.ltb n j then 1%nat else 0%nat)) by (destruct (Nat.ltb_spec n (S j)), (Nat.ltb_spec n j); lia).
                rewrite G. auto. }
  destruct (F k Hk) as ((d & Ed & Hd) & (o & Eo & Ho) & (i & Ei & Hi)). apply Nat.ltb_lt in Hk. rewrite Hk in *.
  destruct (rexp_degrees b64 p N sl) as [[exp_d exp_d_out] exp_d_in]. exists d, o, i. repeat split; (assumption || lra).
Qed.
Print Assumptions C96_degrees.

Example C96_degrees_case : let p := fun _ _ : nat => Fin (1 / 2) in
  (Z.of_nat 2 <= 2 ^ 53)%Z /\ unit_double (p 0%nat 1%nat) /\ fst (fst (rexp_degrees b64 p 2 false)) 0%nat = Fin (3 / 4).
Proof.
  assert (D : double (1 / 2)) by (rewrite <- two_m1; apply double_two; lia).
  assert (D4 : double (1 / 4)) by (replace (1 / 4) with (two (-2)) by (change (-2)%Z with (-1 + -1)%Z; rewrite two_add, two_m1; lra); apply double_two; lia).
  assert (D3 : double (3 / 4)).
  { exists 3%Z, (-2)%Z. split; [change (-2)%Z with (-1 + -1)%Z; rewrite two_add, two_m1; lra | split; lia]. }
  cbv zeta. split; [lia|]. split; [exists (1 / 2); split; [reflexivity|]; split; [lra | exact D]|].
  unfold rexp_degrees. cbn [for_range negb Nat.eqb fst snd]. unfold radd_at, upd. cbn [Nat.eqb]. unfold radd, rsub, rmul, nsub. cbn [nadd nmul rnd_num].
  replace (1 / 2 + 1 / 2) with 1 by lra. replace (1 / 2 * (1 / 2)) with (1 / 4) by lra. rewrite (b64_fixed _ double_1), (b64_fixed _ D4).
  cbn [nopp nadd rnd_num]. replace (1 + - (1 / 4)) with (3 / 4) by lra. rewrite (b64_fixed _ D3). cbn [nadd rnd_num]. replace (0 + 3 / 4) with (3 / 4) by lra.
  apply b64_fixed, D3.
Qed.

(** * Neighbour averages of rare links *)

Lemma b64_one_minus : forall e, (-1000 <= e < -53)%Z -> b64 (1 + - two e) = Fin 1.
Proof.
  intros e He. pose proof (two_pos e) as P. assert (L : two e <= two (-54)) by (apply two_le; lia).
  assert (H : two (-54) < 1 / 2) by (rewrite <- two_m1; apply two_lt; lia).
  assert (T : two (-54) * two 53 = 1 / 2) by (rewrite <- two_add; apply two_m1). pose proof (two_pos 53) as P53.
  rewrite (b64_eval _ (-1) (2 ^ 53)).
  - f_equal. rewrite <- two_Z, <- two_add by lia. change (53 + (-1 - 52))%Z with 0%Z. apply two_0.
  - change (-1 + 1)%Z with 0%Z. rewrite two_m1, two_0. lra.
  - lia.
  - change (52 - -1)%Z with 53%Z.
    destruct L as [L | L].
    + apply near_eval. rewrite <- two_Z by lia. replace ((1 + - two e) * two 53 - two 53) with (- (two e * two 53)) by ring.
      rewrite Rabs_Ropp, Rabs_right by nra. nra.
    + rewrite (near_tie _ (2 ^ 53 - 1)); [reflexivity|]. rewrite minus_IZR, <- two_Z by lia. rewrite L. lra.
Qed.
Lemma b64_one_plus : forall e, (-1000 <= e < -53)%Z -> b64 (1 + two e) = Fin 1.
Proof.
  intros e He. pose proof (two_pos e) as P. assert (L : two e <= two (-54)) by (apply two_le; lia).
  assert (H : two (-54) < 1 / 2) by (rewrite <- two_m1; apply two_lt; lia).
  assert (T : two (-54) * two 52 = 1 / 2 * (1 / 2)) by (rewrite <- two_add, <- two_m1, <- two_add; reflexivity). pose proof (two_pos 52) as P52.
  rewrite (b64_eval _ 0 (2 ^ 52)).
  - f_equal. rewrite <- two_Z, <- two_add by lia. change (52 + (0 - 52))%Z with 0%Z. apply two_0.
  - change (0 + 1)%Z with 1%Z. rewrite two_1, two_0. lra.
  - lia.
  - change (52 - 0)%Z with 52%Z. apply near_eval. rewrite <- two_Z by lia. replace ((1 + two e) * two 52 - two 52) with (two e * two 52) by ring.
    rewrite Rabs_right by nra. nra.
Qed.

(** The expected out-in average of a property over the neighbours is 1 for the property 1, whenever the vertex has a
    positive expected degree: so it is without rounding, also for the two vertices with fitness 2^-30 below.  In
    doubles 1 - (1 - p) (1 - p) is 0 for p = 2^-60 while the degree, computed as p + p - p p, is 2^-59: the average
    is 0, and no assertion fails. *)
Theorem C96_neighbours_refuted : exists d x, datum d /\ datum x /\
  let p rn := fun _ _ : nat => rfit_p_ij rn d x x (Fin 1) in
  let prop := fun _ : nat => Fin 1 in
  exists a b, rav_nn Fin (p Fin) 2 false prop = Ok a /\ a 0%nat = Fin 1 /\ a 1%nat = Fin 1 /\
    rav_nn b64 (p b64) 2 false prop = Ok b /\ b 0%nat = Fin 0 /\ b 1%nat = Fin 0 /\
    fst (fst (rexp_degrees b64 (p b64) 2 false)) 0%nat = Fin (two (-59)).
Proof.
  exists (Fin (two 0)), (Fin (two (-30))). split; [apply two_datum; lia|]. split; [apply two_datum; lia|]. cbv beta zeta.
  set (prop := fun _ : nat => Fin 1).
  assert (N0 : forall e, is0 (Fin (two e)) = false) by (intros e; unfold is0; cbn; apply Reqb_false; pose proof (two_pos e); lra).
  assert (Pb : rfit_p_ij b64 (Fin (two 0)) (Fin (two (-30))) (Fin (two (-30))) (Fin 1) = Fin (two (-60))).
  { replace (Fin 1) with (Fin (two 0)) by (rewrite two_0; reflexivity). unfold rfit_p_ij. rewrite !N0. cbn [orb]. cbv zeta. rewrite mul_two. change (0 + -30)%Z with (-30)%Z. rewrite b64_two, mul_two by lia.
    change (-30 + -30)%Z with (-60)%Z. rewrite b64_two, mul_two by lia. change (-60 + 0)%Z with (-60)%Z. rewrite b64_two by lia. cbn [isinf].
    unfold radd, rdiv. cbn [nadd rnd_num]. rewrite b64_one_plus by lia. cbn [ndiv]. rewrite Reqb_false by lra. cbn [rnd_num].
    replace (two (-60) / 1) with (two (-60)) by field. apply b64_two. lia. }
  assert (Pe : exists t, 0 < t < 1 /\ rfit_p_ij Fin (Fin (two 0)) (Fin (two (-30))) (Fin (two (-30))) (Fin 1) = Fin t).
  { replace (Fin 1) with (Fin (two 0)) by (rewrite two_0; reflexivity). unfold rfit_p_ij. rewrite !N0. cbn [orb]. cbv zeta. unfold rmul, radd, rdiv. rewrite !rnd_exact. cbn [nmul isinf nadd ndiv].
    rewrite <- !two_add. change (0 + -30 + -30 + 0)%Z with (-60)%Z. pose proof (two_pos (-60)) as P. rewrite Reqb_false by lra.
    eexists. split; [|reflexivity]. split; [apply Rdiv_lt_0_compat; lra|]. apply Rmult_lt_reg_r with (1 + two (-60)); [lra|]. unfold Rdiv.
    rewrite Rmult_assoc, Rinv_l by lra. lra. }
  destruct Pe as (t & Ht & Pe). rewrite Pb, Pe. clear Pb Pe.
  set (pb := fun _ _ : nat => Fin (two (-60))). set (pe := fun _ _ : nat => Fin t).
  assert (De : forall k, (k < 2)%nat -> fst (fst (rexp_degrees Fin pe 2 false)) k = Fin (t + t - t * t)).
  { intros k Hk. assert (k = 0 \/ k = 1)%nat as [-> | ->] by lia; unfold rexp_degrees, pe; cbn [for_range negb Nat.eqb fst snd]; unfold radd_at, upd; cbn [Nat.eqb];
    unfold radd, rsub, rmul, nsub; rewrite !rnd_exact; cbn; f_equal; ring. }
  assert (Ae : forall k, (k < 2)%nat -> rexp_av_nn Fin pe 2 prop k = Fin (t + t - t * t)).
  { intros k Hk. assert (k = 0 \/ k = 1)%nat as [-> | ->] by lia; unfold rexp_av_nn, pe, prop; cbn [for_range]; unfold radd_at, upd; cbn [Nat.eqb];
    unfold radd, rsub, rmul, nsub; rewrite !rnd_exact; cbn; f_equal; ring. }
  assert (Db : forall k, (k < 2)%nat -> fst (fst (rexp_degrees b64 pb 2 false)) k = Fin (two (-59))).
  { assert (Q : rsub b64 (radd b64 (Fin (two (-60))) (Fin (two (-60)))) (rmul b64 (Fin (two (-60))) (Fin (two (-60)))) = Fin (two (-59))).
    { rewrite mul_two. change (-60 + -60)%Z with (-120)%Z. rewrite b64_two by lia. unfold radd. cbn [nadd rnd_num].
      replace (two (-60) + two (-60)) with (two (-59)) by (change (-59)%Z with (1 + -60)%Z; rewrite two_add, two_1; ring).
      rewrite b64_two by lia. unfold rsub, nsub. cbn [nopp nadd rnd_num].
      pose proof (two_pos (-120)). assert (two (-120) < two (-60)) by (apply two_lt; lia).
      assert (two (-59) = 2 * two (-60)) by (change (-59)%Z with (1 + -60)%Z; rewrite two_add, two_1; ring).
      rewrite (b64_eval _ (-60) (2 ^ 53)); [f_equal; rewrite <- two_Z, <- two_add by lia; reflexivity | change (-60 + 1)%Z with (-59)%Z; lra | lia |].
      change (52 - -60)%Z with 112%Z. apply near_eval. rewrite <- two_Z by lia. rewrite Rmult_plus_distr_r, <- two_add. change (-59 + 112)%Z with 53%Z.
      replace (two 53 + - two (-120) * two 112 - two 53) with (- (two (-120) * two 112)) by ring. rewrite <- two_add, Rabs_Ropp, Rabs_right by (left; apply two_pos).
      change (-120 + 112)%Z with (-8)%Z. rewrite <- two_m1. apply two_lt. lia. }
    intros k Hk. unfold rexp_degrees, pb. cbn [for_range negb Nat.eqb fst snd]. rewrite Q. unfold radd_at, upd.
    assert (k = 0 \/ k = 1)%nat as [-> | ->] by lia; cbn [Nat.eqb]; unfold radd; cbn [nadd rnd_num]; rewrite Rplus_0_l; apply b64_two; lia. }
  assert (Ab : forall k, (k < 2)%nat -> rexp_av_nn b64 pb 2 prop k = Fin 0).
  { assert (Q : rsub b64 (Fin 1) (rmul b64 (rsub b64 (Fin 1) (Fin (two (-60)))) (rsub b64 (Fin 1) (Fin (two (-60))))) = Fin 0).
    { unfold rsub, nsub. cbn [nopp nadd rnd_num]. rewrite b64_one_minus by lia. unfold rmul. cbn [nmul rnd_num]. rewrite Rmult_1_r, (b64_fixed _ double_1).
      cbn [nopp nadd rnd_num]. rewrite Rplus_opp_r. apply b64_0. }
    intros k Hk. unfold rexp_av_nn, pb, prop. cbn [for_range]. rewrite Q. unfold radd_at, upd, rmul. cbn [nmul rnd_num]. rewrite Rmult_0_l, b64_0.
    assert (k = 0 \/ k = 1)%nat as [-> | ->] by lia; cbn [Nat.eqb]; unfold radd; cbn [nadd rnd_num]; rewrite Rplus_0_l; apply b64_0. }
  assert (Z : 0 < t + t - t * t) by nra.
  unfold rav_nn. cbv zeta. cbn [seq forallb]. rewrite !De, !Ae, !Db, !Ab by lia.
  assert (E0 : is0 (Fin (t + t - t * t)) = false) by (unfold is0; cbn; apply Reqb_false; lra). rewrite E0, !N0. cbn [negb orb andb guard].
  refine (ex_intro _ _ (ex_intro _ _ (conj eq_refl (conj _ (conj _ (conj eq_refl _)))))); cbv beta; rewrite ?De, ?Ae, ?Db, ?Ab, ?E0, ?N0 by lia.
  - unfold rdiv. rewrite rnd_exact. cbn. rewrite Reqb_false by lra. f_equal. field. lra.
  - unfold rdiv. rewrite rnd_exact. cbn. rewrite Reqb_false by lra. f_equal. field. lra.
  - assert (Q2 : rdiv b64 (Fin 0) (Fin (two (-59))) = Fin 0).
    { unfold rdiv. cbn. pose proof (two_pos (-59)). rewrite Reqb_false by lra. cbn. unfold Rdiv. rewrite Rmult_0_l. apply b64_0. }
    auto.
Qed.
Print Assumptions C96_neighbours_refuted.

(** * The sampler of the conditional model *)

(** Without rounding the loop over a block is the one of the exact model (Conditional.v). *)
Theorem C96_exact_block : forall param prop_out prop_in selfloops l k acc alo pnorm u,
  forallb (fun e => adm selfloops (fst e) (snd e)) l = true -> (length l <= length u)%nat ->
  exists rest, run_draws (sample_block param prop_out prop_in selfloops (fun e => e) l acc alo pnorm) u =
    Some (match rsample_block Fin (map (fun e => Fin (p_pair param prop_out prop_in (fst e) (snd e))) l) k alo (Fin pnorm) u with
          | Ok ks => Ok (acc ++ map (fun m => nth (m - k) l (0, 0)%nat) ks)
          | Raise e => Raise e
          end, rest).
Proof.
  intros param po pi sl l. induction l as [|[i j] t IH]; intros k acc alo pnorm u A L.
  - exists u. cbn. rewrite app_nil_r. reflexivity.
  - cbn [forallb fst snd] in A. apply andb_true_iff in A as [A1 A2]. destruct u as [|v u]; [cbn in L; lia|]. cbn in L.
    cbn [sample_block map fst snd rsample_block hd tl]. rewrite A1. set (p := p_pair param po pi i j). cbv zeta.
    assert (S : forall ks, Forall (fun m => k < m)%nat ks ->
      map (fun m => nth (m - S k) t (0, 0)%nat) ks = map (fun m => nth (m - k) ((i, j) :: t) (0, 0)%nat) ks).
    { intros ks F. apply map_ext_in. intros m Hm. rewrite Forall_forall in F. specialize (F m Hm). replace (m - k)%nat with (Datatypes.S (m - S k)) by lia. reflexivity. }
    assert (G : forall ps k0 a pn us ks, rsample_block Fin ps k0 a pn us = Ok ks -> Forall (fun m => k0 <= m)%nat ks).
    { intros ps. induction ps as [|q ps IHp]; intros k0 a pn us ks; cbn [rsample_block].
      - intros E. injection E as <-. constructor.
      - destruct (if a then Ok q else if is0 pn then Raise ZeroDivisionError else Ok (rdiv Fin q pn)) as [w|]; cbn [bind]; [|discriminate].
        destruct (nltb (Fin (hd 0 us)) w).
        + destruct (rsample_block Fin ps (Datatypes.S k0) true pn (tl us)) as [l'|] eqn:E; cbn [bind]; [|discriminate]. intros X. injection X as <-.
          constructor; [lia|]. apply IHp in E. eapply Forall_impl; [|exact E]. cbn. lia.
        + destruct (is0 (rsub Fin (Fin 1) q)); [discriminate|]. intros E. apply IHp in E. eapply Forall_impl; [|exact E]. cbn. lia. }
    assert (Step : forall ps,
      exists rest, (if Rltb v ps then run_draws (sample_block param po pi sl (fun e => e) t (acc ++ [(i, j)]) true pnorm) u
        else run_draws (if Reqb (1 - p) 0 then Ret (Raise ZeroDivisionError) else sample_block param po pi sl (fun e => e) t acc alo (1 - (1 - pnorm) / (1 - p))) u) =
      Some (match (if nltb (Fin v) (Fin ps) then
          do l <- rsample_block Fin (map (fun e => Fin (p_pair param po pi (fst e) (snd e))) t) (Datatypes.S k) true (Fin pnorm) u ; Ok (k :: l)
        else if is0 (rsub Fin (Fin 1) (Fin p)) then Raise ZeroDivisionError
        else rsample_block Fin (map (fun e => Fin (p_pair param po pi (fst e) (snd e))) t) (Datatypes.S k) alo
               (rsub Fin (Fin 1) (rdiv Fin (rsub Fin (Fin 1) (Fin pnorm)) (rsub Fin (Fin 1) (Fin p)))) u) with
        | Ok ks => Ok (acc ++ map (fun m => nth (m - k) ((i, j) :: t) (0, 0)%nat) ks)
        | Raise e => Raise e end, rest)).
    { intros ps. cbn [nltb]. destruct (Rltb v ps).
      - destruct (IH (Datatypes.S k) (acc ++ [(i, j)]) true pnorm u A2 ltac:(lia)) as (rest & ->). exists rest. f_equal. f_equal.
        destruct (rsample_block Fin _ (Datatypes.S k) true (Fin pnorm) u) as [ks|] eqn:E; cbn [bind]; [|reflexivity].
        apply G in E. rewrite S by exact E. cbn [map]. rewrite Nat.sub_diag. cbn [nth]. rewrite <- app_assoc. reflexivity.
      - unfold rsub, rdiv. rewrite !rnd_exact. unfold nsub. cbn [nadd nopp]. unfold is0. cbn [neqb]. change (1 + - p) with (1 - p).
        destruct (Reqb (1 - p) 0) eqn:E0; [exists u; reflexivity|].
        cbn [ndiv]. change (1 + - pnorm) with (1 - pnorm). rewrite E0. cbn [nopp nadd]. change (1 + - ((1 - pnorm) / (1 - p))) with (1 - (1 - pnorm) / (1 - p)).
        destruct (IH (Datatypes.S k) acc alo (1 - (1 - pnorm) / (1 - p)) u A2 ltac:(lia)) as (rest & ->). exists rest. f_equal. f_equal.
        destruct (rsample_block Fin _ (Datatypes.S k) alo _ u) as [ks|] eqn:E; [|reflexivity]. apply G in E. rewrite S by exact E. reflexivity. }
    destruct alo.
    + cbn [bind]. destruct (Step p) as (rest & E). exists rest. rewrite <- E. cbn [run_draws]. destruct (Rltb v p); reflexivity.
    + unfold is0 at 1. cbn [neqb]. destruct (Reqb pnorm 0) eqn:E0; [exists (v :: u); reflexivity|]. cbn [bind].
      unfold rdiv at 1. rewrite rnd_exact. cbn [ndiv]. rewrite E0.
      destruct (Step (p / pnorm)) as (rest & E). exists rest. rewrite <- E. cbn [run_draws]. destruct (Rltb v (p / pnorm)); reflexivity.
Qed.
Print Assumptions C96_exact_block.

Example C96_exact_block_case : let l := [(0, 2); (1, 2)]%nat in
  forallb (fun e => adm false (fst e) (snd e)) l = true /\ (length l <= length [3 / 4; 3 / 4])%nat.
Proof. split; [reflexivity | cbn; lia]. Qed.

(** ** Rare links *)
Lemma exp_neg_upper : forall t, 0 < t -> exp (- t) < 1 - t + t * t / 2.
Proof.
  intros t Ht. set (f := fun s => 1 - s + s * s / 2 - exp (- s)). set (f' := fun s => -1 + s + exp (- s)).
  assert (D : forall c, 0 <= c <= t -> derivable_pt_lim f c (f' c)).
  { intros c _. unfold f, f'.
    replace (-1 + c + exp (- c)) with ((0 - 1 + (1 * c + c * 1) * / 2) - exp (- c) * (- 1)) by lra.
    apply derivable_pt_lim_minus.
    - apply derivable_pt_lim_plus.
      + apply derivable_pt_lim_minus; [apply derivable_pt_lim_const | apply derivable_pt_lim_id].
      + replace ((1 * c + c * 1) * / 2) with ((1 * c + c * 1) * / 2 + (c * c) * 0) by ring.
        apply (derivable_pt_lim_mult (fun s => s * s) (fun _ => / 2)); [|apply derivable_pt_lim_const].
        apply (derivable_pt_lim_mult id id); apply derivable_pt_lim_id.
    - apply (derivable_pt_lim_comp (fun s => - s) exp); [|apply derivable_pt_lim_exp]. apply (derivable_pt_lim_opp id), derivable_pt_lim_id. }
  destruct (MVT_cor2 f f' 0 t Ht D) as (c & E & Hc). unfold f in E at 2. unfold f' in E.
  rewrite Ropp_0, exp_0 in E. assert (P : 1 + (- c) < exp (- c)) by (apply exp_ineq1; lra).
  assert (0 < (-1 + c + exp (- c)) * (t - 0)) by (apply Rmult_lt_0_compat; lra). unfold f in E. lra.
Qed.
Lemma expm1_small : forall k, (53 <= k <= 1000)%Z -> b64 (1 - exp (- two (- k))) = Fin (two (- k)).
Proof.
  intros k Hk. set (t := two (- k)). assert (P : 0 < t) by apply two_pos.
  pose proof (exp_neg_upper t P) as U. pose proof (exp_ineq1 (- t) ltac:(lra)) as L.
  assert (T1 : t < 1 / 2) by (rewrite <- two_m1; apply two_lt; lia).
  assert (H : two (- k - 1) = t / 2) by (replace (- k - 1)%Z with (- k + -1)%Z by lia; rewrite two_add, two_m1; unfold t; lra).
  assert (K : t * two (53 + k) = two 53) by (unfold t; rewrite <- two_add; f_equal; lia).
  rewrite (b64_eval _ (- k - 1) (2 ^ 53)).
  - f_equal. rewrite <- two_Z, <- two_add by lia. unfold t. f_equal. lia.
  - replace (- k - 1 + 1)%Z with (- k)%Z by lia. rewrite H. fold t. split; nra.
  - lia.
  - replace (52 - (- k - 1))%Z with (53 + k)%Z by lia. apply near_eval. rewrite <- two_Z by lia. rewrite <- K.
    pose proof (two_pos (53 + k)) as Q.
    replace ((1 - exp (- t)) * two (53 + k) - t * two (53 + k)) with (- ((t - (1 - exp (- t))) * two (53 + k))) by ring.
    rewrite Rabs_Ropp, Rabs_right by nra.
    apply Rlt_le_trans with (t * t / 2 * two (53 + k)); [apply Rmult_lt_compat_r; lra|].
    replace (t * t / 2 * two (53 + k)) with (t / 2 * (t * two (53 + k))) by field. rewrite K, <- H, <- two_add, <- two_m1. apply two_le. lia.
Qed.
Lemma rinv_small : forall a b, (53 <= a + b <= 1000)%Z -> (0 <= a)%Z -> (0 <= b)%Z ->
  rinv_p_ij b64 (Fin 1) (Fin (two (- a))) (Fin (two (- b))) (Fin 1) = Fin (two (- (a + b))).
Proof.
  intros a b H Ha Hb. replace (Fin 1) with (Fin (two 0)) by (rewrite two_0; reflexivity).
  assert (N0 : forall e, is0 (Fin (two e)) = false) by (intros e; unfold is0; cbn; apply Reqb_false; pose proof (two_pos e); lra).
  unfold rinv_p_ij. rewrite !N0. cbn [orb]. cbv zeta. rewrite mul_two, Z.add_0_l, b64_two, mul_two by lia.
  rewrite b64_two, mul_two, Z.add_0_r, b64_two by lia. cbn [isinf].
  destruct (exponential_unit (two (- a + - b)) ltac:(left; apply two_pos)) as (p & Ep & Eb & _). rewrite Ep, <- Eb.
  replace (- a + - b)%Z with (- (a + b))%Z by lia. apply expm1_small. exact H.
Qed.
Lemma rinv_fin_small : forall a b, rinv_p_ij Fin (Fin 1) (Fin (two a)) (Fin (two b)) (Fin 1) = Fin (1 - exp (- two (a + b))).
Proof.
  intros a b. replace (Fin 1) with (Fin (two 0)) by (rewrite two_0; reflexivity).
  assert (N0 : forall e, is0 (Fin (two e)) = false) by (intros e; unfold is0; cbn; apply Reqb_false; pose proof (two_pos e); lra).
  unfold rinv_p_ij. rewrite !N0. cbn [orb]. cbv zeta. unfold rmul, rexpm1. rewrite !rnd_exact. cbn [nmul isinf nopp nexpm1].
  unfold nexpm1. cbn. rewrite <- !two_add, Z.add_0_l, Z.add_0_r. f_equal. ring.
Qed.

(** Given that a macro link is present, the conditional model draws at least one of the links it stands for.  In
    doubles it may draw none: for two pairs with probability 2^-54 each, the updated probability that one of the
    remaining pairs is linked stays at 2^-53 when the first is not, instead of falling to 2^-54, and the second pair
    is drawn with probability 1/2 instead of 1.  For yet smaller probabilities the update gives 0 and the next
    division by it raises an error. *)
Theorem C96_block_refuted : exists x y xs ys u, datum x /\ datum y /\ Forall (fun v => 0 <= v < 1) u /\
  xs = [x; x] /\ ys = [y] /\ rblock Fin (Fin 1) xs ys u = Ok [1%nat] /\ rblock b64 (Fin 1) xs ys u = Ok [].
Proof.
  exists (Fin (two (-27))), (Fin (two (-27))), [Fin (two (-27)); Fin (two (-27))], [Fin (two (-27))], [3 / 4; 3 / 4].
  split; [apply two_datum; lia|]. split; [apply two_datum; lia|]. split; [repeat constructor; lra|]. split; [reflexivity|]. split; [reflexivity|].
  assert (S : forall rn, rn (two (-27)) = Fin (two (-27)) -> rn (two (-26)) = Fin (two (-26)) ->
    rblock rn (Fin 1) [Fin (two (-27)); Fin (two (-27))] [Fin (two (-27))] [3 / 4; 3 / 4] =
    rsample_block rn [rinv_p_ij rn (Fin 1) (Fin (two (-27))) (Fin (two (-27))) (Fin 1); rinv_p_ij rn (Fin 1) (Fin (two (-27))) (Fin (two (-27))) (Fin 1)] 0 false
      (rinv_p_ij rn (Fin 1) (Fin (two (-26))) (Fin (two (-27))) (Fin 1)) [3 / 4; 3 / 4]).
  { intros rn E1 E2. unfold rblock. cbv zeta. cbn [fold_left list_prod map app fst snd]. unfold radd. cbn [nadd rnd_num]. rewrite !Rplus_0_l, E1. cbn [nadd rnd_num].
    replace (two (-27) + two (-27)) with (two (-26)) by (change (-26)%Z with (1 + -27)%Z; rewrite two_add, two_1; ring). rewrite E2. reflexivity. }
  split.
  - rewrite S by reflexivity. rewrite !rinv_fin_small. change (-27 + -27)%Z with (-54)%Z. change (-26 + -27)%Z with (-53)%Z.
    set (t := two (-54)). assert (P : 0 < t) by apply two_pos.
    assert (T : two (-53) = 2 * t) by (change (-53)%Z with (1 + -54)%Z; unfold t; rewrite two_add, two_1; ring). rewrite T.
    set (w := exp (- t)). assert (W2 : exp (- (2 * t)) = w * w) by (unfold w; rewrite <- exp_plus; f_equal; ring). rewrite W2.
    assert (Wp : 0 < w) by apply exp_pos. assert (W1 : w < 1) by (unfold w; rewrite <- exp_0; apply exp_increasing; lra).
    assert (Wh : 1 / 2 < w).
    { assert (t < 1 / 2) by (unfold t; rewrite <- two_m1; apply two_lt; lia). pose proof (exp_ineq1 (- t) ltac:(lra)). unfold w. lra. }
    cbn [rsample_block hd tl]. unfold is0, rsub, rdiv, nsub. rewrite !rnd_exact. cbn [neqb nadd nopp ndiv].
    rewrite (Reqb_false (1 - w * w)) by nra. cbn [bind nltb].
    rewrite Rltb_false. 2:{ apply Rmult_le_reg_r with (1 - w * w); [nra|]. unfold Rdiv. rewrite Rmult_assoc, Rinv_l by nra. nra. }
    rewrite (Reqb_false (1 + - (1 - w))) by lra. cbn [nopp nadd neqb].
    assert (E : 1 + - ((1 + - (1 - w * w)) / (1 + - (1 - w))) = 1 - w) by (field; lra). rewrite E.
    rewrite (Reqb_false (1 - w)) by lra. cbn [bind nltb].
    replace ((1 - w) / (1 - w)) with 1 by (field; lra). rewrite Rltb_true by lra. reflexivity.
  - rewrite S by (apply b64_two; lia).
    change (two (-27)) with (two (- (27))). change (two (-26)) with (two (- (26))). rewrite (rinv_small 27 27), (rinv_small 26 27) by lia. change (- (27 + 27))%Z with (-54)%Z. change (- (26 + 27))%Z with (-53)%Z.
    pose proof (two_pos (-54)) as P54. pose proof (two_pos (-53)) as P53.
    assert (D : b64 (1 + - two (-53)) = Fin (1 + - two (-53))).
    { apply b64_fixed. exists (2 ^ 53 - 1)%Z, (-53)%Z. split; [|split; lia]. rewrite minus_IZR, <- two_Z by lia.
      rewrite Rmult_minus_distr_r, <- two_add. change (53 + -53)%Z with 0%Z. rewrite two_0. ring. }
    assert (Q : rdiv b64 (Fin (two (-54))) (Fin (two (-53))) = Fin (1 / 2)).
    { unfold rdiv. cbn [ndiv]. rewrite Reqb_false by lra. cbn [rnd_num]. replace (two (-54) / two (-53)) with (two (-1)).
      - rewrite b64_two by lia. rewrite two_m1. reflexivity.
      - change (-54)%Z with (-1 + -53)%Z. rewrite two_add. field. lra. }
    assert (N0 : is0 (Fin (two (-53))) = false) by (unfold is0; cbn; apply Reqb_false; lra).
    assert (V : rsub b64 (Fin 1) (rdiv b64 (rsub b64 (Fin 1) (Fin (two (-53)))) (Fin 1)) = Fin (two (-53))).
    { unfold rsub, rdiv, nsub. cbn [nopp nadd rnd_num]. rewrite D. cbn [ndiv]. rewrite Reqb_false by lra. cbn [rnd_num].
      replace ((1 + - two (-53)) / 1) with (1 + - two (-53)) by field. rewrite D. cbn [nopp nadd rnd_num].
      replace (1 + - (1 + - two (-53))) with (two (-53)) by ring. apply b64_two. lia. }
    assert (One : rsub b64 (Fin 1) (Fin (two (-54))) = Fin 1) by (unfold rsub, nsub; cbn [nopp nadd rnd_num]; apply b64_one_minus; lia).
    assert (N1 : is0 (Fin 1) = false) by (unfold is0; cbn; apply Reqb_false; lra).
    cbn [rsample_block hd tl]. rewrite N0, Q. cbn [bind nltb]. rewrite Rltb_false by lra. cbv zeta. rewrite One, N1, V, N0, Q. cbn [bind nltb].
    rewrite Rltb_false by lra. reflexivity.
Qed.
Print Assumptions C96_block_refuted.

Theorem C96_block_error_refuted : exists x y xs ys u, datum x /\ datum y /\ Forall (fun v => 0 <= v < 1) u /\
  xs = [x; x] /\ ys = [y] /\ rblock Fin (Fin 1) xs ys u = Ok [1%nat] /\ rblock b64 (Fin 1) xs ys u = Raise ZeroDivisionError.
Proof.
  exists (Fin (two (-28))), (Fin (two (-28))), [Fin (two (-28)); Fin (two (-28))], [Fin (two (-28))], [3 / 4; 3 / 4].
  split; [apply two_datum; lia|]. split; [apply two_datum; lia|]. split; [repeat constructor; lra|]. split; [reflexivity|]. split; [reflexivity|].
  assert (S : forall rn, rn (two (-28)) = Fin (two (-28)) -> rn (two (-27)) = Fin (two (-27)) ->
    rblock rn (Fin 1) [Fin (two (-28)); Fin (two (-28))] [Fin (two (-28))] [3 / 4; 3 / 4] =
    rsample_block rn [rinv_p_ij rn (Fin 1) (Fin (two (-28))) (Fin (two (-28))) (Fin 1); rinv_p_ij rn (Fin 1) (Fin (two (-28))) (Fin (two (-28))) (Fin 1)] 0 false
      (rinv_p_ij rn (Fin 1) (Fin (two (-27))) (Fin (two (-28))) (Fin 1)) [3 / 4; 3 / 4]).
  { intros rn E1 E2. unfold rblock. cbv zeta. cbn [fold_left list_prod map app fst snd]. unfold radd. cbn [nadd rnd_num]. rewrite !Rplus_0_l, E1. cbn [nadd rnd_num].
    replace (two (-28) + two (-28)) with (two (-27)) by (change (-27)%Z with (1 + -28)%Z; rewrite two_add, two_1; ring). rewrite E2. reflexivity. }
  split.
  - rewrite S by reflexivity. rewrite !rinv_fin_small. change (-28 + -28)%Z with (-56)%Z. change (-27 + -28)%Z with (-55)%Z.
    set (t := two (-56)). assert (P : 0 < t) by apply two_pos.
    assert (T : two (-55) = 2 * t) by (change (-55)%Z with (1 + -56)%Z; unfold t; rewrite two_add, two_1; ring). rewrite T.
    set (w := exp (- t)). assert (W2 : exp (- (2 * t)) = w * w) by (unfold w; rewrite <- exp_plus; f_equal; ring). rewrite W2.
    assert (Wp : 0 < w) by apply exp_pos. assert (W1 : w < 1) by (unfold w; rewrite <- exp_0; apply exp_increasing; lra).
    assert (Wh : 1 / 2 < w).
    { assert (t < 1 / 2) by (unfold t; rewrite <- two_m1; apply two_lt; lia). pose proof (exp_ineq1 (- t) ltac:(lra)). unfold w. lra. }
    cbn [rsample_block hd tl]. unfold is0, rsub, rdiv, nsub. rewrite !rnd_exact. cbn [neqb nadd nopp ndiv].
    rewrite (Reqb_false (1 - w * w)) by nra. cbn [bind nltb].
    rewrite Rltb_false. 2:{ apply Rmult_le_reg_r with (1 - w * w); [nra|]. unfold Rdiv. rewrite Rmult_assoc, Rinv_l by nra. nra. }
    rewrite (Reqb_false (1 + - (1 - w))) by lra. cbn [nopp nadd neqb].
    assert (E : 1 + - ((1 + - (1 - w * w)) / (1 + - (1 - w))) = 1 - w) by (field; lra). rewrite E.
    rewrite (Reqb_false (1 - w)) by lra. cbn [bind nltb].
    replace ((1 - w) / (1 - w)) with 1 by (field; lra). rewrite Rltb_true by lra. reflexivity.
  - rewrite S by (apply b64_two; lia).
    change (two (-28)) with (two (- (28))). change (two (-27)) with (two (- (27))). rewrite (rinv_small 28 28), (rinv_small 27 28) by lia. change (- (28 + 28))%Z with (-56)%Z. change (- (27 + 28))%Z with (-55)%Z.
    pose proof (two_pos (-55)) as P55.
    assert (Q : rdiv b64 (Fin (two (-56))) (Fin (two (-55))) = Fin (1 / 2)).
    { unfold rdiv. cbn [ndiv]. rewrite Reqb_false by lra. cbn [rnd_num]. replace (two (-56) / two (-55)) with (two (-1)).
      - rewrite b64_two by lia. rewrite two_m1. reflexivity.
      - change (-56)%Z with (-1 + -55)%Z. rewrite two_add. field. lra. }
    assert (N0 : is0 (Fin (two (-55))) = false) by (unfold is0; cbn; apply Reqb_false; lra).
    assert (One : forall e, (-1000 <= e < -53)%Z -> rsub b64 (Fin 1) (Fin (two e)) = Fin 1) by (intros e He; unfold rsub, nsub; cbn [nopp nadd rnd_num]; apply b64_one_minus; exact He).
    assert (N1 : is0 (Fin 1) = false) by (unfold is0; cbn; apply Reqb_false; lra).
    assert (V : rsub b64 (Fin 1) (rdiv b64 (Fin 1) (Fin 1)) = Fin 0).
    { unfold rdiv. cbn [ndiv]. rewrite Reqb_false by lra. cbn [rnd_num]. replace (1 / 1) with 1 by field. rewrite (b64_fixed _ double_1).
      unfold rsub, nsub. cbn [nopp nadd rnd_num]. rewrite Rplus_opp_r. apply b64_0. }
    assert (Z0 : is0 (Fin 0) = true) by (unfold is0; cbn; apply Reqb_true; reflexivity).
    cbn [rsample_block hd tl]. rewrite N0, Q. cbn [bind nltb]. rewrite Rltb_false by lra. cbv zeta. rewrite !One, N1, V, Z0 by lia. reflexivity.
Qed.
Print Assumptions C96_block_error_refuted.
