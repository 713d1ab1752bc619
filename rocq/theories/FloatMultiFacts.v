(** Facts about the multi-label kernels in double precision. *)
From Verif Require Import Base Num Spec Kernels KernelFacts MultiKernels MultiFacts FitFacts Ensemble EnsembleFacts Float FloatFacts FloatSolver FloatSolverFacts FloatMulti PropFloat PropFloatSample PropFloatSolver.

(** * One plus a small number *)
Lemma half_even : b64 (1 + two (-53)) = Fin 1.
Proof.
  pose proof (two_pos (-53)) as P. assert (H : two (-53) < 1) by (rewrite <- two_0; apply two_lt; lia).
  rewrite b64_pos by lra. assert (E : round_pos (1 + two (-53)) = 1).
  { unfold round_pos. rewrite (place_eval _ 0) by (first [lia | rewrite two_0; change (0 + 1)%Z with 1%Z; rewrite two_1; lra]). change (0 - 52)%Z with (-52)%Z.
    pose proof (two_pos (-52)) as P'. rewrite (near_tie _ (2 ^ 52)).
    - change (Z.even (2 ^ 52)) with true. cbv iota. rewrite <- two_Z, <- two_add by lia. change (52 + -52)%Z with 0%Z. apply two_0.
    - rewrite <- two_Z by lia. apply Rmult_eq_reg_r with (two (-52)); [|lra]. unfold Rdiv at 1. rewrite Rmult_assoc, Rinv_l by lra.
      rewrite Rmult_1_r, (Rmult_plus_distr_r (two 52)), <- two_add. change (52 + -52)%Z with 0%Z. rewrite two_0.
      replace (two (-52)) with (2 * two (-53)) by (rewrite <- two_1, <- two_add; reflexivity). lra. }
  rewrite E, Rleb_false; [reflexivity|]. rewrite <- two_0. apply two_lt. lia.
Qed.
Lemma one_plus_small : forall t, 0 <= t <= two (-53) -> b64 (1 + t) = Fin 1.
Proof.
  intros t H. pose proof (b64_mono 1 (1 + t) ltac:(lra)) as A. pose proof (b64_mono (1 + t) (1 + two (-53)) ltac:(lra)) as B.
  rewrite half_even in B. rewrite (b64_fixed 1 double_1) in A. destruct (b64 (1 + t)) as [v| | |]; cbn in A, B; try contradiction. f_equal. lra.
Qed.
Lemma one_plus_big : forall t, two (-53) < t -> le_num (Fin (1 + two (-52))) (b64 (1 + t)).
Proof.
  intros t H. pose proof (two_pos (-53)) as P. pose proof (two_pos (-52)) as P'.
  destruct (Rle_dec 1 t) as [L|L].
  - pose proof (b64_mono 2 (1 + t) ltac:(lra)) as A. rewrite (b64_fixed 2) in A by (apply (double_Z 2); lia).
    assert (two (-52) <= 1) by (rewrite <- two_0; apply two_le; lia). destruct (b64 (1 + t)); cbn in *; try contradiction; try exact I. lra.
  - rewrite b64_pos by lra. assert (E : 1 + two (-52) <= round_pos (1 + t)).
    { unfold round_pos. rewrite (place_eval _ 0) by (first [lia | rewrite two_0; change (0 + 1)%Z with 1%Z; rewrite two_1; lra]). change (0 - 52)%Z with (-52)%Z.
      set (s := (1 + t) / two (-52)). pose proof (near_dist s) as N. pose proof (Rle_abs (s - IZR (nearest_even s))) as N'.
      assert (S : IZR (2 ^ 52) + 1 / 2 < s).
      { unfold s. apply Rmult_lt_reg_r with (two (-52)); [exact P'|]. unfold Rdiv at 2. rewrite Rmult_assoc, Rinv_l by lra.
        rewrite <- two_Z, Rmult_plus_distr_r, <- two_add by lia. change (52 + -52)%Z with 0%Z. rewrite two_0.
        replace (two (-52)) with (2 * two (-53)) by (rewrite <- two_1, <- two_add; reflexivity). lra. }
      assert (K : (2 ^ 52 < nearest_even s)%Z) by (apply lt_IZR; lra).
      assert (K' : IZR (2 ^ 52 + 1) <= IZR (nearest_even s)) by (apply IZR_le; lia).
      apply Rle_trans with (IZR (2 ^ 52 + 1) * two (-52)); [|apply Rmult_le_compat_r; lra].
      rewrite plus_IZR, <- two_Z, Rmult_plus_distr_r, <- two_add by lia. change (52 + -52)%Z with 0%Z. rewrite two_0. lra. }
    destruct (Rleb (two 1024) (round_pos (1 + t))); cbn; [exact I | exact E].
Qed.

(** Rounding in [0,1] *)
Lemma near_unit : forall r, 0 <= r <= 1 -> exists v, b64 r = Fin v /\ double v /\ 0 <= v <= 1 /\ Rabs (v - r) <= two (-53).
Proof.
  intros r H. destruct (b64_between 0 1 r double_0 double_1 H) as (v & E & Hv & D). exists v. split; [exact E|]. split; [exact D|]. split; [exact Hv|].
  destruct (Rle_dec (two (-1022)) r) as [L|L].
  - assert (U : 1 <= two 1022) by (rewrite <- two_0; apply two_le; lia).
    destruct (b64_rel r ltac:(lra)) as (w & E' & _ & B). rewrite E in E'. injection E' as <-. pose proof (two_pos (-53)). apply Rabs_le. nra.
  - destruct (b64_between 0 (two (-1022)) r double_0 (double_two (-1022) ltac:(lia)) ltac:(lra)) as (w & E' & B & _). rewrite E in E'. injection E' as <-.
    pose proof (two_lt (-1022) (-53) ltac:(lia)). apply Rabs_le. lra.
Qed.

(** One step of the product of the multi-label fitness model *)
Lemma div_step : forall v t, 0 <= v <= 1 -> double v -> 0 <= t -> double t -> exists w,
  rdiv b64 (Fin v) (radd b64 (Fin 1) (Fin t)) = Fin w /\ double w /\ 0 <= w <= v /\
  (t <= two (-53) -> w = v) /\ (two (-53) < t -> w < 1) /\ Rabs (w - v / (1 + t)) <= two (-51).
Proof.
  intros v t Hv Dv Ht Dt. unfold radd. cbn [nadd rnd_num]. pose proof (two_pos (-53)) as P.
  assert (G1 : le_num (Fin 1) (b64 (1 + t))) by (rewrite <- (b64_fixed 1 double_1); apply b64_mono; lra).
  assert (E51 : two (-51) = 4 * two (-53)) by (change (-51)%Z with (2 + -53)%Z; rewrite two_add, (two_Z 2) by lia; reflexivity).
  assert (P3 : two (-53) <= 1 / 8) by (replace (1 / 8) with (two (-3)) by (tw; lra); apply two_le; lia).
  assert (Q : exists q, b64 (1 + t) = Fin q /\ 1 <= q /\ Rabs (v / q - v / (1 + t)) <= 2 * two (-53)).
  { destruct (Rle_dec (two 54) t) as [L|L].
    - exists t. pose proof (two_pos 54). assert (1 <= two 54) by (rewrite <- two_0; apply two_le; lia).
      split; [apply add_one_large; assumption|]. split; [lra|].
      assert (I : / t <= two (-54)) by (change (-54)%Z with (- (54))%Z; rewrite two_neg; apply Rinv_le_contravar; lra).
      assert (J : two (-54) <= two (-53)) by (apply two_le; lia). assert (T0 : 0 < / t) by (apply Rinv_0_lt_compat; lra).
      assert (T1 : 0 < / (1 + t)) by (apply Rinv_0_lt_compat; lra). assert (T2 : / (1 + t) <= / t) by (apply Rinv_le_contravar; lra).
      unfold Rdiv. apply Rabs_le. split; nra.
    - assert (B : 1 + t <= two 1022). { assert (two 54 + two 54 <= two 1022) by (replace (two 54 + two 54) with (two (1 + 54)) by (rewrite two_add, two_1; ring); apply two_le; lia).
        assert (1 <= two 54) by (rewrite <- two_0; apply two_le; lia). lra. }
      assert (B' : two (-1022) <= 1 + t) by (assert (two (-1022) <= 1) by (rewrite <- two_0; apply two_le; lia); lra).
      destruct (b64_rel (1 + t) (conj B' B)) as (q & E & _ & R). rewrite E in G1. cbn in G1. exists q. split; [exact E|]. split; [exact G1|].
      assert (D : v / q - v / (1 + t) = v * ((1 + t - q) * (/ (1 + t) * / q))) by (field; lra). rewrite D.
      set (a := / (1 + t)). set (b := / q). assert (Ha : (1 + t) * a = 1) by (unfold a; field; lra). assert (Hb : q * b = 1) by (unfold b; field; lra).
      assert (A0 : 0 < a) by (unfold a; apply Rinv_0_lt_compat; lra). assert (B0 : 0 < b) by (unfold b; apply Rinv_0_lt_compat; lra).
      assert (B1 : b <= 1) by (unfold b; rewrite <- Rinv_1; apply Rinv_le_contravar; lra).
      assert (X : Rabs ((1 + t - q) * (a * b)) <= two (-53)).
      { rewrite Rabs_mult, (Rabs_right (a * b)) by (apply Rle_ge, Rmult_le_pos; lra).
        apply Rle_trans with (two (-53) * (1 + t) * (a * b)); [apply Rmult_le_compat_r; [apply Rmult_le_pos; lra | apply Rabs_le; lra]|].
        replace (two (-53) * (1 + t) * (a * b)) with (two (-53) * ((1 + t) * a) * b) by ring. rewrite Ha. nra. }
      rewrite Rabs_mult, (Rabs_right v) by lra. pose proof (Rabs_pos ((1 + t - q) * (a * b))). nra. }
  destruct Q as (q & E & Hq & Eq). rewrite E. unfold rdiv. cbn [ndiv]. rewrite Reqb_false by lra. cbn [rnd_num].
  assert (V : 0 <= v / q <= v).
  { split; [apply Rmult_le_pos; [lra | left; apply Rinv_0_lt_compat; lra]|]. apply Rmult_le_reg_r with q; [lra|]. unfold Rdiv. rewrite Rmult_assoc, Rinv_l by lra. nra. }
  destruct (near_unit (v / q) ltac:(lra)) as (w & Ew & Dw & Hw & Rw). exists w. split; [exact Ew|]. split; [exact Dw|].
  assert (W : w <= v). { pose proof (b64_mono _ _ (proj2 V)) as M. rewrite Ew, (b64_fixed v Dv) in M. exact M. }
  split; [lra|]. split; [|split].
  - intros S. rewrite one_plus_small in E by lra. injection E as <-. unfold Rdiv in Ew. rewrite Rinv_1, Rmult_1_r, (b64_fixed v Dv) in Ew. congruence.
  - intros S. pose proof (one_plus_big t S) as O. rewrite E in O. cbn in O.
    assert (L : v / q <= 1 - two (-53)).
    { apply Rmult_le_reg_r with q; [lra|]. unfold Rdiv. rewrite Rmult_assoc, Rinv_l by lra. rewrite Rmult_1_r.
      replace (two (-52)) with (2 * two (-53)) in O by (rewrite <- two_1, <- two_add; reflexivity). nra. }
    assert (D : double (1 - two (-53))).
    { exists (2 ^ 53 - 1)%Z, (-53)%Z. split; [|lia]. rewrite minus_IZR, <- two_Z by lia. rewrite Rmult_minus_distr_r, <- two_add.
      change (53 + -53)%Z with 0%Z. rewrite two_0. ring. }
    pose proof (b64_mono _ _ L) as M. rewrite Ew, (b64_fixed _ D) in M. cbn in M. lra.
  - replace (w - v / (1 + t)) with ((w - v / q) + (v / q - v / (1 + t))) by ring. eapply Rle_trans; [apply Rabs_triang|]. lra.
Qed.

(** * Rows *)
Definition row_data (xs : svec) : Prop := Forall (fun p => datum (snd p)) xs.
Lemma lookup_datum : forall k xs, row_data xs -> datum (lookup k xs).
Proof.
  intros k xs H. induction H as [|[l v] t Hv Ht IH]; cbn [lookup]; [apply datum_fin; [lra | apply double_0]|].
  destruct (Nat.eqb l k); [exact Hv | exact IH].
Qed.

(** [tmp] of a label: the computed product, 0 where one of the factors is 0 *)
Definition label_tmp (d x y : num) : num := if is0 d || is0 x || is0 y then Fin 0 else rmul b64 (rmul b64 d x) y.
Lemma label_amount : forall d x y, datum d -> datum x -> datum y -> amount (label_tmp d x y).
Proof.
  intros d x y Hd Hx Hy. unfold label_tmp. destruct (is0 d || is0 x || is0 y) eqn:Z; [right; apply datum_fin; [lra | apply double_0]|].
  apply orb_false_iff in Z as [Z Zy]. apply orb_false_iff in Z as [Zd Zx].
  destruct (datum_pos x Hx Zx) as (wx & -> & Px & _), (datum_pos y Hy Zy) as (wy & -> & Py & _).
  apply rmul_amount; [|exact Py]. apply rmul_amount; [|exact Px]. right. exact Hd.
Qed.

Lemma rmfit_step_eq : forall r d k x y v, datum (d k) -> datum x -> datum y -> 0 <= v <= 1 -> double v ->
  rmfit_step b64 r d k x y (Fin v) =
  match label_tmp (d k) x y with PInf => Return r | t => Next (rdiv b64 (Fin v) (radd b64 (Fin 1) t)) end.
Proof.
  intros r d k x y v Hd Hx Hy Hv Dv. pose proof (label_amount (d k) x y Hd Hx Hy) as A. unfold rmfit_step, label_tmp in *.
  destruct (is0 (d k)), (is0 x), (is0 y); cbn [negb andb orb] in *;
    try (destruct (div_step v 0 Hv Dv ltac:(lra) double_0) as (w & E & _ & _ & S & _); rewrite E, S by (left; apply two_pos); reflexivity).
  destruct A as [-> | (t & -> & Ht & Dt)]; reflexivity.
Qed.
Lemma rminv_step_eq : forall r d k x y s, datum (d k) -> datum x -> datum y -> amount s ->
  rminv_step b64 r d k x y s = match label_tmp (d k) x y with PInf => Return r | t => Next (radd b64 s t) end.
Proof.
  intros r d k x y s Hd Hx Hy Hs. pose proof (label_amount (d k) x y Hd Hx Hy) as A. unfold rminv_step, label_tmp in *.
  assert (Z : radd b64 s (Fin 0) = s).
  { destruct Hs as [-> | (v & -> & Hv & Dv)]; [reflexivity|]. unfold radd. cbn [nadd rnd_num]. rewrite Rplus_0_r. apply b64_fixed. exact Dv. }
  destruct (is0 (d k)), (is0 x), (is0 y); cbn [negb andb orb] in *; rewrite ?Z; try reflexivity.
  destruct A as [-> | (t & -> & Ht & Dt)]; reflexivity.
Qed.
Lemma rmfit_neutral : forall r d, zero_neutral (rmfit_step b64 r d).
Proof. intros r d k x y s [H | H]; unfold rmfit_step; rewrite H; cbn [negb]; rewrite ?andb_false_r; reflexivity. Qed.
Lemma rminv_neutral : forall r d, zero_neutral (rminv_step b64 r d).
Proof. intros r d k x y s [H | H]; unfold rminv_step; rewrite H; cbn [negb]; rewrite ?andb_false_r; reflexivity. Qed.
Lemma rmfit_jac_neutral : forall d, zero_neutral (rmfit_jac_step b64 d).
Proof. intros d k x y [v j] [H | H]; unfold rmfit_jac_step; rewrite H; cbn [negb]; rewrite ?andb_false_r; reflexivity. Qed.
Lemma rminv_jac_neutral : zero_neutral (rminv_jac_step b64).
Proof. intros k x y s [H | H]; unfold rminv_jac_step; rewrite H; cbn [negb]; rewrite ?andb_false_r; reflexivity. Qed.

(** * The product of the fitness model *)
Section Labels.
Variables (L : nat) (d : nat -> num) (xs ys : svec).
Hypotheses (Cx : canonical L xs) (Cy : canonical L ys) (Hd : forall k, (k < L)%nat -> datum (d k)) (Hx : row_data xs) (Hy : row_data ys).
Definition tmp_at (k : nat) : num := label_tmp (d k) (lookup k xs) (lookup k ys).
Lemma tmp_at_amount : forall k, (k < L)%nat -> amount (tmp_at k).
Proof. intros k Hk. apply label_amount; [apply Hd; exact Hk | apply lookup_datum; exact Hx | apply lookup_datum; exact Hy]. Qed.

Lemma fit_walk : forall r, (exists k, (k < L)%nat /\ tmp_at k = PInf) /\ walk (rmfit_step b64 r d) xs ys (Fin 1) = Return r \/
  (forall k, (k < L)%nat -> tmp_at k <> PInf) /\ exists v, walk (rmfit_step b64 r d) xs ys (Fin 1) = Next (Fin v) /\ double v /\ 0 <= v <= 1 /\
  (v = 1 <-> forall k, (k < L)%nat -> toR (tmp_at k) <= two (-53)) /\
  Rabs (v - prodn L (fun k => / (1 + toR (tmp_at k)))) <= INR L * two (-51).
Proof.
  intros r. rewrite (walk_dense _ _ _ L) by (assumption || apply rmfit_neutral).
  set (W := fun t : num => t = r /\ exists k, (k < L)%nat /\ tmp_at k = PInf).
  set (Q := fun (n : nat) (s : num) => (forall k, (k < n)%nat -> tmp_at k <> PInf) /\ exists v, s = Fin v /\ double v /\ 0 <= v <= 1 /\
    (v = 1 <-> forall k, (k < n)%nat -> toR (tmp_at k) <= two (-53)) /\ Rabs (v - prodn n (fun k => / (1 + toR (tmp_at k)))) <= INR n * two (-51)).
  assert (F : match for_flow L (fun k => rmfit_step b64 r d k (lookup k xs) (lookup k ys)) (Fin 1) with Next s => Q L s | Return t => W t end).
  { apply flow_rule.
    - split; [intros k Hk; lia|]. exists 1. split; [reflexivity|]. split; [apply double_1|]. split; [lra|]. split; [split; [intros _ k Hk; lia | reflexivity]|].
      cbn. rewrite Rminus_diag_eq, Rabs_R0 by reflexivity. lra.
    - intros k s Hk (A & v & -> & Dv & Hv & Z & Er).
      rewrite rmfit_step_eq by (first [assumption | apply Hd; assumption | apply lookup_datum; assumption]). fold (tmp_at k).
      destruct (tmp_at_amount k Hk) as [E | (t & E & Ht & Dt)]; rewrite E; [split; [reflexivity | exists k; auto]|].
      destruct (div_step v t Hv Dv Ht Dt) as (w & -> & Dw & Hw & S & B & R). split.
      + intros i Hi. destruct (Nat.eq_dec i k) as [->|]; [rewrite E; discriminate | apply A; lia].
      + exists w. split; [reflexivity|]. split; [exact Dw|]. split; [lra|]. split.
        * split.
          -- intros -> i Hi. destruct (Nat.eq_dec i k) as [->|N].
             ++ rewrite E. cbn [toR]. apply Rnot_lt_le. intros K. specialize (B K). lra.
             ++ apply Z; [|lia]. lra.
          -- intros H. assert (v = 1) by (apply Z; intros i Hi; apply H; lia). specialize (H k ltac:(lia)). rewrite E in H. cbn [toR] in H. rewrite S by exact H. exact H0.
        * cbn [prodn]. rewrite E. cbn [toR]. rewrite S_INR. set (p := prodn k _) in *.
          assert (I : 0 < / (1 + t) <= 1) by (split; [apply Rinv_0_lt_compat; lra | rewrite <- Rinv_1 at 2; apply Rinv_le_contravar; lra]).
          replace (w - p * / (1 + t)) with ((w - v / (1 + t)) + (v - p) * / (1 + t)) by (unfold Rdiv; ring).
          eapply Rle_trans; [apply Rabs_triang|]. rewrite Rabs_mult, (Rabs_right (/ (1 + t))) by lra. pose proof (Rabs_pos (v - p)). nra. }
  destruct (for_flow L _ _) as [s|t].
  - destruct F as (A & v & -> & F). right. split; [exact A|]. exists v. split; [reflexivity | exact F].
  - destruct F as [-> F]. left. split; [exact F | reflexivity].
Qed.

(** * The sum of the scale-invariant model *)
Lemma inv_walk : forall r, (exists k, (k < L)%nat /\ tmp_at k = PInf) /\ walk (rminv_step b64 r d) xs ys (Fin 0) = Return r \/
  (forall k, (k < L)%nat -> tmp_at k <> PInf) /\ exists s, walk (rminv_step b64 r d) xs ys (Fin 0) = Next s /\ amount s /\
  (forall k, (k < L)%nat -> le_num (tmp_at k) s) /\ (s = Fin 0 <-> forall k, (k < L)%nat -> tmp_at k = Fin 0).
Proof.
  intros r. rewrite (walk_dense _ _ _ L) by (assumption || apply rminv_neutral).
  set (W := fun t : num => t = r /\ exists k, (k < L)%nat /\ tmp_at k = PInf).
  set (Q := fun (n : nat) (s : num) => (forall k, (k < n)%nat -> tmp_at k <> PInf) /\ amount s /\
    (forall k, (k < n)%nat -> le_num (tmp_at k) s) /\ (s = Fin 0 <-> forall k, (k < n)%nat -> tmp_at k = Fin 0)).
  assert (F : match for_flow L (fun k => rminv_step b64 r d k (lookup k xs) (lookup k ys)) (Fin 0) with Next s => Q L s | Return t => W t end).
  { apply flow_rule.
    - split; [intros k Hk; lia|]. split; [right; apply datum_fin; [lra | apply double_0]|]. split; [intros k Hk; lia|]. split; [intros _ k Hk; lia | reflexivity].
    - intros k s Hk (A & As & Le & Z).
      rewrite rminv_step_eq by (first [assumption | apply Hd; assumption | apply lookup_datum; assumption]). fold (tmp_at k).
      destruct (tmp_at_amount k Hk) as [E | (t & E & Ht & Dt)]; rewrite E; [split; [reflexivity | exists k; auto]|].
      destruct As as [-> | (v & -> & Hv & Dv)].
      + change (radd b64 PInf (Fin t)) with PInf. split; [intros i Hi; destruct (Nat.eq_dec i k) as [->|]; [rewrite E; discriminate | apply A; lia]|].
        split; [left; reflexivity|]. split.
        * intros i Hi. assert (Hi' : (i < L)%nat) by lia. destruct (tmp_at_amount i Hi') as [-> | (u & -> & _)]; exact I.
        * split; [discriminate|]. intros H. assert (PInf = Fin 0) by (apply Z; intros i Hi; apply H; lia). discriminate.
      + unfold radd. cbn [nadd rnd_num].
        assert (M1 : le_num (Fin v) (b64 (v + t))) by (rewrite <- (b64_fixed v Dv); apply b64_mono; lra).
        assert (M2 : le_num (Fin t) (b64 (v + t))) by (rewrite <- (b64_fixed t Dt); apply b64_mono; lra).
        split; [intros i Hi; destruct (Nat.eq_dec i k) as [->|]; [rewrite E; discriminate | apply A; lia]|].
        split; [apply amount_b64; lra|]. split.
        * intros i Hi. destruct (Nat.eq_dec i k) as [->|N]; [rewrite E; exact M2|]. specialize (Le i ltac:(lia)).
          destruct (tmp_at i) as [u| | |], (b64 (v + t)) as [m| | |]; cbn in *; try contradiction; try exact I. lra.
        * split.
          -- intros E0. rewrite E0 in M1, M2. cbn in M1, M2. intros i Hi. destruct (Nat.eq_dec i k) as [->|N]; [rewrite E; f_equal; lra|].
             apply Z; [f_equal; lra | lia].
          -- intros H. pose proof (H k ltac:(lia)) as H0. rewrite E in H0. injection H0 as ->. assert (Ev : Fin v = Fin 0) by (apply Z; intros i Hi; apply H; lia).
             injection Ev as ->. rewrite Rplus_0_r. apply b64_0. }
  destruct (for_flow L _ _) as [s|t].
  - destruct F as (A & F). right. split; [exact A|]. exists s. split; [reflexivity | exact F].
  - destruct F as [-> F]. left. split; [exact F | reflexivity].
Qed.
End Labels.
