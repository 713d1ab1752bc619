(** Facts about rounding to binary64: the result is a nearest number of the format, the rounding is monotone and
    leaves the numbers of the format unchanged. *)
From Verif Require Import Base Num Kernels Ensemble Conditional Float.
From Coq Require Import Lra Lia.

(** * Powers of two *)
Lemma two_pos : forall e, 0 < two e.
Proof. intros e. apply powerRZ_lt. lra. Qed.
Lemma two_add : forall a b, two (a + b) = two a * two b.
Proof. intros a b. apply powerRZ_add. lra. Qed.
Lemma two_Z : forall k, (0 <= k)%Z -> two k = IZR (2 ^ k).
Proof.
  intros k Hk. unfold two. rewrite <- (Z2Nat.id k Hk), <- pow_powerRZ, pow_IZR. reflexivity.
Qed.
Lemma two_ge1 : forall k, (0 <= k)%Z -> 1 <= two k.
Proof.
  intros k Hk. rewrite two_Z by exact Hk. apply IZR_le. pose proof (Z.pow_pos_nonneg 2 k ltac:(lia) Hk). lia.
Qed.
Lemma two_le : forall a b, (a <= b)%Z -> two a <= two b.
Proof.
  intros a b H. replace b with (a + (b - a))%Z by lia. rewrite two_add.
  pose proof (two_pos a). pose proof (two_ge1 (b - a) ltac:(lia)). nra.
Qed.
Lemma two_0 : two 0 = 1. Proof. reflexivity. Qed.
Lemma two_1 : two 1 = 2. Proof. unfold two. simpl. lra. Qed.
Lemma two_lt : forall a b, (a < b)%Z -> two a < two b.
Proof.
  intros a b H. apply Rlt_le_trans with (two (a + 1)); [|apply two_le; lia].
  rewrite two_add, two_1. pose proof (two_pos a). lra.
Qed.
Lemma two_neg : forall a, two (- a) = / two a.
Proof.
  intros a. apply Rmult_eq_reg_l with (two a); [|pose proof (two_pos a); lra].
  rewrite <- two_add, Z.add_opp_diag_r, two_0, Rinv_r; [reflexivity|]. pose proof (two_pos a). lra.
Qed.
Lemma two_m1 : two (-1) = 1 / 2.
Proof. change (-1)%Z with (- (1))%Z. rewrite two_neg, two_1. lra. Qed.
Lemma two_ln : forall e, ln (two e) = IZR e * ln 2.
Proof.
  intros e. unfold two. destruct (Z.le_gt_cases 0 e) as [H|H].
  - rewrite <- (Z2Nat.id e H) at 1. rewrite <- pow_powerRZ, ln_pow by lra. rewrite INR_IZR_INZ, Z2Nat.id by exact H. reflexivity.
  - replace e with (- (- e))%Z at 1 by lia. change (powerRZ 2 (- - e)) with (two (- - e)). rewrite two_neg, ln_Rinv by apply two_pos.
    unfold two. rewrite <- (Z2Nat.id (- e) ltac:(lia)). rewrite <- pow_powerRZ, ln_pow by lra.
    rewrite INR_IZR_INZ, Z2Nat.id by lia. rewrite opp_IZR. ring.
Qed.

(** * Integer part and nearest integer *)
Lemma floor_spec : forall s, IZR (Int_part s) <= s < IZR (Int_part s) + 1.
Proof. intros s. destruct (base_Int_part s) as [A B]. lra. Qed.
Lemma floor_unique : forall s n, IZR n <= s < IZR n + 1 -> Int_part s = n.
Proof.
  intros s n [A B]. destruct (floor_spec s) as [C D].
  assert (Int_part s < n + 1)%Z by (apply lt_IZR; rewrite plus_IZR; lra).
  assert (n < Int_part s + 1)%Z by (apply lt_IZR; rewrite plus_IZR; lra). lia.
Qed.

Lemma near_dist : forall s, Rabs (s - IZR (nearest_even s)) <= 1 / 2.
Proof.
  intros s. unfold nearest_even. destruct (floor_spec s) as [A B].
  destruct (Rltb_spec (s - IZR (Int_part s)) (1 / 2)) as [H|H]; [rewrite Rabs_right; lra|].
  destruct (Rltb_spec (1 / 2) (s - IZR (Int_part s))) as [H'|H'].
  - rewrite plus_IZR, Rabs_left1; lra.
  - destruct (Z.even (Int_part s)); [rewrite Rabs_right; lra | rewrite plus_IZR, Rabs_left1; lra].
Qed.
Lemma near_floor : forall s, nearest_even s = Int_part s \/ nearest_even s = (Int_part s + 1)%Z /\ IZR (Int_part s) < s.
Proof.
  intros s. unfold nearest_even. destruct (floor_spec s) as [A B].
  destruct (Rltb_spec (s - IZR (Int_part s)) (1 / 2)) as [H|H]; [auto|].
  destruct (Rltb_spec (1 / 2) (s - IZR (Int_part s))) as [H'|H'].
  - right. split; [reflexivity | lra].
  - destruct (Z.even (Int_part s)); [auto|]. right. split; [reflexivity | lra].
Qed.
Lemma near_ge : forall s n, IZR n <= s -> (n <= nearest_even s)%Z.
Proof.
  intros s n H. destruct (floor_spec s) as [A B].
  assert (n < Int_part s + 1)%Z by (apply lt_IZR; rewrite plus_IZR; lra).
  destruct (near_floor s) as [-> | [-> _]]; lia.
Qed.
Lemma near_le : forall s n, s <= IZR n -> (nearest_even s <= n)%Z.
Proof.
  intros s n H. destruct (floor_spec s) as [A B].
  assert (Int_part s <= n)%Z by (apply le_IZR; lra).
  destruct (near_floor s) as [-> | [-> C]]; [lia|].
  assert (Int_part s < n)%Z by (apply lt_IZR; lra). lia.
Qed.
Lemma near_mono : forall s t, s <= t -> (nearest_even s <= nearest_even t)%Z.
Proof.
  intros s t H. destruct (Z.le_gt_cases (Int_part s + 1) (Int_part t)) as [L|L].
  - transitivity (Int_part s + 1)%Z; [destruct (near_floor s) as [-> | [-> _]]; lia|].
    apply Z.le_trans with (Int_part t); [exact L|]. apply near_ge. apply floor_spec.
  - assert (E : Int_part s = Int_part t).
    { assert (Int_part s < Int_part t + 1)%Z by (apply lt_IZR; rewrite plus_IZR; pose proof (floor_spec s); pose proof (floor_spec t); lra). lia. }
    unfold nearest_even. rewrite E. set (n := Int_part t).
    destruct (Rltb_spec (s - IZR n) (1 / 2)) as [H1|H1]; destruct (Rltb_spec (t - IZR n) (1 / 2)) as [H2|H2]; try lra; try lia.
    + destruct (Rltb (1 / 2) (t - IZR n)); [lia|]. destruct (Z.even n); lia.
    + destruct (Rltb_spec (1 / 2) (s - IZR n)) as [H3|H3]; destruct (Rltb_spec (1 / 2) (t - IZR n)) as [H4|H4]; try lra; try lia.
      destruct (Z.even n); lia.
Qed.
Lemma near_Z : forall n, nearest_even (IZR n) = n.
Proof. intros n. apply Z.le_antisymm; [apply near_le; lra | apply near_ge; lra]. Qed.

(** * The exponent *)
Lemma log_spec : forall r, 0 < r -> let e := Int_part (ln r / ln 2) in two e <= r < two (e + 1).
Proof.
  intros r Hr e. pose proof (floor_spec (ln r / ln 2)) as [A B]. fold e in A, B.
  assert (L : 0 < ln 2) by (rewrite <- ln_1; apply ln_increasing; lra).
  assert (E : ln r / ln 2 * ln 2 = ln r) by (field; lra).
  split.
  - apply Rnot_lt_le. intros H. apply ln_increasing in H; [|exact Hr]. rewrite two_ln in H. nra.
  - apply Rnot_le_lt. intros H.
    assert (ln (two (e + 1)) <= ln r).
    { destruct H as [H | ->]; [left; apply ln_increasing; [apply two_pos | exact H] | right; reflexivity]. }
    rewrite two_ln, plus_IZR in H0. nra.
Qed.
Lemma log_unique : forall r e, two e <= r < two (e + 1) -> Int_part (ln r / ln 2) = e.
Proof.
  intros r e [A B]. assert (Hr : 0 < r) by (pose proof (two_pos e); lra).
  destruct (log_spec r Hr) as [C D]. set (f := Int_part (ln r / ln 2)) in *.
  assert (~ (f + 1 <= e)%Z) by (intros L; apply two_le in L; lra).
  assert (~ (e + 1 <= f)%Z) by (intros L; apply two_le in L; lra). lia.
Qed.

(** * The numbers of the format (with unbounded exponent) *)
Definition on_grid (w : R) : Prop := exists m e : Z, w = IZR m * two e /\ (Z.abs m < 2 ^ 53)%Z /\ (-1074 <= e)%Z.

Lemma grid_multiple : forall r w, 0 < r -> on_grid w -> two (Int_part (ln r / ln 2)) <= w ->
  exists k : Z, w = IZR k * two (last_place r).
Proof.
  intros r w Hr (m & e & -> & Hm & He) Hw. set (e0 := Int_part (ln r / ln 2)) in *.
  destruct (Z.le_gt_cases (last_place r) e) as [H|H].
  - exists (m * 2 ^ (e - last_place r))%Z. rewrite mult_IZR, <- two_Z by lia. rewrite Rmult_assoc, <- two_add.
    f_equal. f_equal. lia.
  - exfalso. unfold last_place in H. fold e0 in H. assert (H' : (e < e0 - 52)%Z) by lia.
    assert (IZR m * two e < two 53 * two e).
    { apply Rmult_lt_compat_r; [apply two_pos|]. rewrite two_Z by lia. apply IZR_lt. lia. }
    rewrite <- two_add in H0. pose proof (two_le (53 + e) e0 ltac:(lia)). lra.
Qed.

Lemma scale_lt : forall r, 0 < r -> two (Int_part (ln r / ln 2)) <= r < two (Int_part (ln r / ln 2) + 1).
Proof. exact log_spec. Qed.

(** [round_pos] is between the numbers of the format around [r]. *)
Lemma round_ge : forall r w, 0 < r -> on_grid w -> w <= r -> w <= round_pos r.
Proof.
  intros r w Hr Hg Hw. unfold round_pos. set (e := last_place r). pose proof (two_pos e) as P.
  assert (G : forall k : Z, IZR k * two e <= r -> IZR k * two e <= IZR (nearest_even (r / two e)) * two e).
  { intros k Hk. apply Rmult_le_compat_r; [lra|]. apply IZR_le, near_ge. apply Rmult_le_reg_r with (two e); [exact P|].
    unfold Rdiv. rewrite Rmult_assoc, Rinv_l, Rmult_1_r by lra. exact Hk. }
  destruct (Rle_dec (two (Int_part (ln r / ln 2))) w) as [H|H].
  - destruct (grid_multiple r w Hr Hg H) as [k ->]. apply G. exact Hw.
  - destruct (Z.le_gt_cases (-1074) (Int_part (ln r / ln 2) - 52)) as [He|He].
    + assert (Ee : e = (Int_part (ln r / ln 2) - 52)%Z) by (unfold e, last_place; lia).
      apply Rle_trans with (two (Int_part (ln r / ln 2))); [lra|].
      replace (two (Int_part (ln r / ln 2))) with (IZR (2 ^ 52) * two e).
      * apply G. rewrite <- two_Z, <- two_add by lia. replace (52 + e)%Z with (Int_part (ln r / ln 2)) by lia. apply log_spec. exact Hr.
      * rewrite <- two_Z, <- two_add by lia. f_equal. lia.
    + assert (Ee : e = (-1074)%Z) by (unfold e, last_place; lia).
      destruct Hg as (m & f & E & Hm & Hf).
      replace w with (IZR (m * 2 ^ (f + 1074)) * two e) in *; [apply G; exact Hw|].
      rewrite E, Ee, mult_IZR, <- two_Z by lia. rewrite Rmult_assoc, <- two_add. f_equal. f_equal. lia.
Qed.

Lemma round_le : forall r w, 0 < r -> on_grid w -> r <= w -> round_pos r <= w.
Proof.
  intros r w Hr Hg Hw. unfold round_pos. set (e := last_place r). pose proof (two_pos e) as P.
  destruct (grid_multiple r w Hr Hg) as [k ->]; [pose proof (log_spec r Hr); lra|]. fold e in Hw |- *.
  apply Rmult_le_compat_r; [lra|]. apply IZR_le, near_le. apply Rmult_le_reg_r with (two e); [exact P|].
  unfold Rdiv. rewrite Rmult_assoc, Rinv_l, Rmult_1_r by lra. exact Hw.
Qed.

Lemma round_fixed : forall w, 0 < w -> on_grid w -> round_pos w = w.
Proof. intros w H G. apply Rle_antisym; [apply round_le | apply round_ge]; auto; lra. Qed.

Lemma two_grid : forall e, (-1074 <= e)%Z -> on_grid (two e).
Proof. intros e H. exists 1%Z, e. split; [ring | split; [reflexivity | exact H]]. Qed.

(** The value itself is a number of the format. *)
Lemma round_grid : forall r, 0 < r -> on_grid (round_pos r).
Proof.
  intros r Hr. destruct (log_spec r Hr) as [A B]. set (e0 := Int_part (ln r / ln 2)) in *.
  unfold round_pos. set (e := last_place r). pose proof (two_pos e) as P.
  set (k := nearest_even (r / two e)).
  assert (K0 : (0 <= k)%Z).
  { apply near_ge. apply Rmult_le_reg_r with (two e); [exact P|]. unfold Rdiv. rewrite Rmult_assoc, Rinv_l, Rmult_1_r by lra. lra. }
  assert (K1 : (k <= 2 ^ 53)%Z).
  { apply near_le. apply Rmult_le_reg_r with (two e); [exact P|]. unfold Rdiv. rewrite Rmult_assoc, Rinv_l, Rmult_1_r by lra.
    rewrite <- two_Z, <- two_add by lia. pose proof (two_le (e0 + 1) (53 + e)) as L.
    assert (e0 + 1 <= 53 + e)%Z by (unfold e, last_place; fold e0; lia). specialize (L H). lra. }
  destruct (Z.eq_dec k (2 ^ 53)) as [E|E].
  - exists 1%Z, (53 + e)%Z. split; [rewrite E, two_add, <- two_Z by lia; ring|]. split; [reflexivity | unfold e, last_place; lia].
  - exists k, e. split; [reflexivity|]. split; [lia | unfold e, last_place; lia].
Qed.

Lemma round_mono : forall r r', 0 < r -> r <= r' -> round_pos r <= round_pos r'.
Proof.
  intros r r' Hr H. assert (Hr' : 0 < r') by lra.
  destruct (log_spec r Hr) as [A B], (log_spec r' Hr') as [A' B'].
  set (e0 := Int_part (ln r / ln 2)) in *. set (e0' := Int_part (ln r' / ln 2)) in *.
  assert (L : (e0 < e0' + 1)%Z).
  { destruct (Z.lt_ge_cases e0 (e0' + 1)) as [|G]; [assumption|]. apply two_le in G. lra. }
  destruct (Z.eq_dec e0 e0') as [E|E].
  - unfold round_pos. replace (last_place r') with (last_place r) by (unfold last_place; fold e0 e0'; rewrite E; reflexivity).
    pose proof (two_pos (last_place r)) as P. apply Rmult_le_compat_r; [lra|]. apply IZR_le, near_mono.
    apply Rmult_le_compat_r; [left; apply Rinv_0_lt_compat; exact P | exact H].
  - destruct (Z.le_gt_cases (-1074) (e0 + 1)) as [G|G].
    + apply Rle_trans with (two (e0 + 1)); [apply round_le; [exact Hr | apply two_grid; exact G | lra]|].
      apply round_ge; [exact Hr' | apply two_grid; exact G |]. pose proof (two_le (e0 + 1) e0' ltac:(lia)). lra.
    + (* both exponents are clamped, or [r] is below the smallest number *)
      destruct (Z.le_gt_cases e0' (-1022)) as [G'|G'].
      * unfold round_pos. replace (last_place r') with (last_place r) by (unfold last_place; fold e0 e0'; lia).
        pose proof (two_pos (last_place r)) as P. apply Rmult_le_compat_r; [lra|]. apply IZR_le, near_mono.
        apply Rmult_le_compat_r; [left; apply Rinv_0_lt_compat; exact P | exact H].
      * apply Rle_trans with (two (-1074)).
        -- apply round_le; [exact Hr | apply two_grid; lia |]. pose proof (two_le (e0 + 1) (-1074) ltac:(lia)). lra.
        -- apply round_ge; [exact Hr' | apply two_grid; lia |]. pose proof (two_le (-1074) e0' ltac:(lia)). lra.
Qed.

(** * binary64 *)

(** The finite numbers of the format. *)
Definition double (w : R) : Prop := exists m e : Z, w = IZR m * two e /\ (Z.abs m < 2 ^ 53)%Z /\ (-1074 <= e <= 971)%Z.

Lemma double_grid : forall w, double w -> on_grid w.
Proof. intros w (m & e & E & Hm & He). exists m, e. split; [exact E|]. split; [exact Hm | lia]. Qed.
Lemma double_bound : forall w, double w -> Rabs w < two 1024.
Proof.
  intros w (m & e & -> & Hm & He). rewrite Rabs_mult, (Rabs_right (two e)) by (left; apply two_pos). rewrite <- abs_IZR.
  apply Rlt_le_trans with (two 53 * two e).
  - apply Rmult_lt_compat_r; [apply two_pos|]. rewrite two_Z by lia. apply IZR_lt. exact Hm.
  - rewrite <- two_add. apply two_le. lia.
Qed.
Lemma grid_double : forall w, on_grid w -> Rabs w < two 1024 -> double w.
Proof.
  intros w (m & e & -> & Hm & He) Hb. destruct (Z.le_gt_cases e 971) as [L|L]; [exists m, e; auto|].
  exists (m * 2 ^ (e - 971))%Z, 971%Z. split; [rewrite mult_IZR, <- two_Z by lia; rewrite Rmult_assoc, <- two_add; f_equal; f_equal; lia|].
  split; [|lia]. apply lt_IZR. rewrite abs_IZR, mult_IZR, <- two_Z by lia. rewrite <- (two_Z 53) by lia.
  apply Rmult_lt_reg_r with (two 971); [apply two_pos|]. rewrite <- (two_add 53).
  replace (Rabs (IZR m * two (e - 971)) * two 971) with (Rabs (IZR m * two e)); [exact Hb|].
  rewrite !Rabs_mult, !(Rabs_right (two _)) by (left; apply two_pos). rewrite Rmult_assoc, <- two_add. do 2 f_equal. lia.
Qed.
Lemma double_opp : forall w, double w -> double (- w).
Proof.
  intros w (m & e & -> & Hm & He). exists (- m)%Z, e. rewrite opp_IZR, Z.abs_opp. split; [ring | auto].
Qed.
Lemma double_two : forall e, (-1074 <= e <= 1023)%Z -> double (two e).
Proof.
  intros e He. apply grid_double; [apply two_grid; lia|]. rewrite Rabs_right by (left; apply two_pos). apply two_lt. lia.
Qed.
Lemma double_Z : forall n, (Z.abs n <= 2 ^ 53)%Z -> double (IZR n).
Proof.
  intros n H. destruct (Z.eq_dec (Z.abs n) (2 ^ 53)) as [E|E].
  - destruct (Z.abs_eq_or_opp n) as [A|A].
    + assert (n = 2 ^ 53)%Z as -> by lia. rewrite <- two_Z by lia. apply double_two. lia.
    + assert (n = - 2 ^ 53)%Z as -> by lia. rewrite opp_IZR, <- two_Z by lia. apply double_opp, double_two. lia.
  - exists n, 0%Z. rewrite two_0. split; [ring|]. split; [lia | lia].
Qed.
Lemma double_0 : double 0. Proof. apply (double_Z 0). lia. Qed.
Lemma double_1 : double 1. Proof. apply (double_Z 1). lia. Qed.

Lemma b64_0 : b64 0 = Fin 0.
Proof. unfold b64. rewrite Reqb_true by reflexivity. reflexivity. Qed.
Lemma b64_pos : forall r, 0 < r -> b64 r = if Rleb (two 1024) (round_pos r) then PInf else Fin (round_pos r).
Proof. intros r H. unfold b64. rewrite Reqb_false, Rltb_false, Rabs_right by lra. reflexivity. Qed.
Lemma b64_opp : forall r, b64 (- r) = nopp (b64 r).
Proof.
  intros r. destruct (Rtotal_order r 0) as [H|[->|H]].
  - rewrite b64_pos by lra. unfold b64. rewrite Reqb_false, Rltb_true, Rabs_left by lra. destruct (Rleb (two 1024) (round_pos (- r))); [reflexivity|].
    cbn. f_equal. lra.
  - rewrite Ropp_0, b64_0. cbn. f_equal. lra.
  - rewrite (b64_pos r H). unfold b64. rewrite Reqb_false, Rltb_true, Rabs_Ropp, Rabs_right by lra. destruct (Rleb (two 1024) (round_pos r)); reflexivity.
Qed.
Lemma round_nonneg : forall r, 0 < r -> 0 <= round_pos r.
Proof.
  intros r H. apply round_ge; [exact H | | lra]. exists 0%Z, 0%Z. split; [ring | split; [reflexivity | lia]].
Qed.
Lemma b64_nonneg : forall r, 0 <= r -> b64 r = PInf \/ exists v, b64 r = Fin v /\ 0 <= v /\ double v.
Proof.
  intros r [H | <-]; [|right; exists 0; split; [apply b64_0 | split; [lra | apply double_0]]].
  rewrite b64_pos by exact H. destruct (Rleb_spec (two 1024) (round_pos r)) as [L|L]; [auto|]. right. exists (round_pos r).
  pose proof (round_nonneg r H). split; [reflexivity|]. split; [assumption|].
  apply grid_double; [apply round_grid; exact H | rewrite Rabs_right; lra].
Qed.
Lemma b64_fixed : forall w, double w -> b64 w = Fin w.
Proof.
  assert (P : forall w, 0 < w -> double w -> b64 w = Fin w).
  { intros w H D. rewrite b64_pos by exact H. rewrite round_fixed by (auto using double_grid).
    apply double_bound in D. rewrite Rabs_right in D by lra. rewrite Rleb_false by exact D. reflexivity. }
  intros w D. destruct (Rtotal_order w 0) as [H|[->|H]]; [|apply b64_0 | apply P; assumption].
  replace w with (- (- w)) by lra. rewrite b64_opp, P; [reflexivity | lra | apply double_opp; exact D].
Qed.

(** The order of the numbers and infinities. *)
Definition le_num (a b : num) : Prop :=
  match a, b with
  | Fin x, Fin y => x <= y
  | NInf, Fin _ | NInf, PInf | NInf, NInf | Fin _, PInf | PInf, PInf => True
  | _, _ => False
  end.
Lemma le_num_nleb : forall a b, le_num a b <-> nleb a b = true.
Proof.
  intros [x| | |] [y| | |]; cbn; try (split; intros; auto; discriminate).
  rewrite nleb_fin. destruct (Rleb_spec x y); split; intros; auto; try discriminate.
Qed.
Lemma b64_mono : forall r r', r <= r' -> le_num (b64 r) (b64 r').
Proof.
  assert (P : forall r r', 0 < r -> r <= r' -> le_num (b64 r) (b64 r')).
  { intros r r' H L. rewrite !b64_pos by lra. pose proof (round_mono r r' H L).
    destruct (Rleb_spec (two 1024) (round_pos r)), (Rleb_spec (two 1024) (round_pos r')); cbn; auto; lra. }
  assert (Q : forall r r', 0 <= r -> r <= r' -> le_num (b64 r) (b64 r')).
  { intros r r' [H | <-] L; [apply P; assumption|]. rewrite b64_0. destruct (b64_nonneg r' L) as [-> | (v & -> & Hv & _)]; [exact I | exact Hv]. }
  intros r r' L. destruct (Rle_dec 0 r) as [H|H]; [apply Q; assumption|]. destruct (Rle_dec r' 0) as [H'|H'].
  - assert (X : le_num (b64 (- r')) (b64 (- r))) by (apply Q; lra). rewrite !b64_opp in X.
    destruct (b64 r), (b64 r'); cbn in *; auto. lra.
  - assert (X : le_num (b64 r) (b64 0)).
    { assert (Y : le_num (b64 0) (b64 (- r))) by (apply Q; lra). rewrite b64_opp, b64_0 in Y. rewrite b64_0.
      destruct (b64 r); cbn in *; auto. lra. }
    assert (Y : le_num (b64 0) (b64 r')) by (apply Q; lra). rewrite b64_0 in X, Y.
    destruct (b64 r), (b64 r'); cbn in *; auto; try contradiction. lra.
Qed.
Lemma b64_between : forall a b r, double a -> double b -> a <= r <= b -> exists v, b64 r = Fin v /\ a <= v <= b /\ double v.
Proof.
  intros a b r Da Db [A B]. apply b64_mono in A, B. rewrite (b64_fixed a Da) in A. rewrite (b64_fixed b Db) in B.
  destruct (b64 r) as [v| | |] eqn:E; cbn in A, B; try contradiction. exists v. split; [reflexivity|]. split; [lra|].
  destruct (Rle_dec 0 r) as [H|H].
  - destruct (b64_nonneg r H) as [X | (v' & X & _ & D)]; rewrite E in X; [discriminate|]. injection X as ->. exact D.
  - destruct (b64_nonneg (- r) ltac:(lra)) as [X | (v' & X & _ & D)]; rewrite b64_opp, E in X; cbn in X; [discriminate|].
    injection X as X. apply double_opp in D. rewrite <- X, Ropp_involutive in D. exact D.
Qed.

(** The result is a nearest number of the format. *)
Lemma round_nearest : forall r w, 0 < r -> on_grid w -> Rabs (r - round_pos r) <= Rabs (r - w).
Proof.
  intros r w Hr Hg. pose proof (two_pos (last_place r)) as P. set (e := last_place r) in *.
  pose proof (floor_spec (r / two e)) as [F1 F2]. set (n := Int_part (r / two e)) in *.
  assert (Er : r = r / two e * two e) by (field; lra). set (q := r / two e) in *.
  assert (Half : Rabs (r - round_pos r) <= 1 / 2 * two e).
  { unfold round_pos. fold e. fold q. rewrite Er at 1. rewrite <- Rmult_minus_distr_r, Rabs_mult, (Rabs_right (two e)) by lra.
    apply Rmult_le_compat_r; [lra | apply near_dist]. }
  destruct (Rle_dec w r) as [H|H].
  - pose proof (round_ge r w Hr Hg H). destruct (Rle_dec (round_pos r) r) as [K|K]; [rewrite !Rabs_right; lra|].
    (* rounded up: the number below is at least half a place away *)
    assert (Ln : w <= IZR n * two e).
    { destruct (Rle_dec (two (Int_part (ln r / ln 2))) w) as [T|T].
      - destruct (grid_multiple r w Hr Hg T) as [k Ek]. fold e in Ek. rewrite Ek in H |- *. apply Rmult_le_compat_r; [lra|]. apply IZR_le.
        assert (IZR k <= q) by (apply Rmult_le_reg_r with (two e); [exact P | rewrite <- Er; exact H]).
        assert (k < n + 1)%Z by (apply lt_IZR; rewrite plus_IZR; lra). lia.
      - destruct (Z.le_gt_cases (-1074) (Int_part (ln r / ln 2) - 52)) as [He|He].
        + assert (Ee : e = (Int_part (ln r / ln 2) - 52)%Z) by (unfold e, last_place; lia).
          apply Rle_trans with (two (Int_part (ln r / ln 2))); [lra|].
          replace (Int_part (ln r / ln 2)) with (52 + e)%Z by lia. rewrite two_add. apply Rmult_le_compat_r; [lra|]. rewrite two_Z by lia.
          apply IZR_le. assert (IZR (2 ^ 52) <= q).
          { apply Rmult_le_reg_r with (two e); [exact P|]. rewrite <- Er, <- two_Z, <- two_add by lia.
            replace (52 + e)%Z with (Int_part (ln r / ln 2)) by lia. apply log_spec. exact Hr. }
          assert (2 ^ 52 < n + 1)%Z by (apply lt_IZR; rewrite plus_IZR; lra). lia.
        + assert (Ee : e = (-1074)%Z) by (unfold e, last_place; lia). destruct Hg as (m & f & Ew & Hm & Hf).
          assert (Ew' : w = IZR (m * 2 ^ (f + 1074)) * two e).
          { rewrite Ew, Ee, mult_IZR, <- two_Z by lia. rewrite Rmult_assoc, <- two_add. f_equal. f_equal. lia. }
          rewrite Ew' in H |- *. apply Rmult_le_compat_r; [lra|]. apply IZR_le.
          assert (IZR (m * 2 ^ (f + 1074)) <= q) by (apply Rmult_le_reg_r with (two e); [exact P | rewrite <- Er; exact H]).
          assert (m * 2 ^ (f + 1074) < n + 1)%Z by (apply lt_IZR; rewrite plus_IZR; lra). lia. }
    assert (Eu : round_pos r = (IZR n + 1) * two e).
    { unfold round_pos. fold e. fold q. destruct (near_floor q) as [X | [X _]]; rewrite X.
      - exfalso. apply K. unfold round_pos. fold e. fold q. rewrite X. fold n. rewrite Er. apply Rmult_le_compat_r; lra.
      - rewrite plus_IZR. reflexivity. }
    rewrite (Rabs_right (r - w)) by lra.
    assert ((IZR n + 1) * two e - r <= 1 / 2 * two e).
    { rewrite Eu in Half. rewrite Rabs_left1 in Half by lra. lra. }
    rewrite Eu, Rabs_left1 by lra. lra.
  - pose proof (round_le r w Hr Hg ltac:(lra)). destruct (Rle_dec r (round_pos r)) as [K|K]; [rewrite !Rabs_left1; lra|].
    assert (Ln : (IZR n + 1) * two e <= w).
    { destruct (grid_multiple r w Hr Hg) as [k Ek]; [pose proof (log_spec r Hr); lra|]. fold e in Ek. rewrite Ek in H |- *.
      apply Rmult_le_compat_r; [lra|]. rewrite <- (plus_IZR n 1). apply IZR_le.
      assert (q < IZR k) by (apply Rmult_lt_reg_r with (two e); [exact P | rewrite <- Er; lra]).
      assert (n < k)%Z by (apply lt_IZR; lra). lia. }
    assert (Eu : round_pos r = IZR n * two e).
    { unfold round_pos. fold e. fold q. destruct (near_floor q) as [X | [X _]]; rewrite X; [reflexivity|]. exfalso. apply K.
      unfold round_pos. fold e. fold q. rewrite X, plus_IZR. fold n. rewrite Er at 1. apply Rmult_le_compat_r; lra. }
    rewrite (Rabs_left1 (r - w)) by lra. rewrite Eu in Half |- *. rewrite Rabs_right in Half |- * by lra. lra.
Qed.

(** * Evaluation of particular results *)
Lemma near_eval : forall s n, Rabs (s - IZR n) < 1 / 2 -> nearest_even s = n.
Proof.
  intros s n H. apply Rabs_def2 in H. destruct H as [H1 H2].
  unfold nearest_even. destruct (Rle_dec (IZR n) s) as [L|L].
  - rewrite (floor_unique s n) by lra. rewrite Rltb_true by lra. reflexivity.
  - rewrite (floor_unique s (n - 1)) by (rewrite minus_IZR; lra). rewrite minus_IZR.
    rewrite Rltb_false, Rltb_true by lra. lia.
Qed.
Lemma near_tie : forall s n, s = IZR n + 1 / 2 -> nearest_even s = if Z.even n then n else (n + 1)%Z.
Proof.
  intros s n ->. unfold nearest_even. rewrite (floor_unique _ n) by lra. rewrite !Rltb_false by lra. reflexivity.
Qed.
Lemma place_eval : forall r e, two e <= r < two (e + 1) -> (-1022 <= e)%Z -> last_place r = (e - 52)%Z.
Proof. intros r e H He. unfold last_place. rewrite (log_unique r e H). lia. Qed.
Lemma b64_eval : forall r e n, two e <= r < two (e + 1) -> (-1022 <= e <= 1022)%Z ->
  nearest_even (r * two (52 - e)) = n -> b64 r = Fin (IZR n * two (e - 52)).
Proof.
  intros r e n H He En. assert (Hr : 0 < r) by (pose proof (two_pos e); lra).
  assert (Ev : round_pos r = IZR n * two (e - 52)).
  { unfold round_pos. rewrite (place_eval r e) by (auto; lia). f_equal. f_equal. rewrite <- En. f_equal. unfold Rdiv. f_equal.
    rewrite <- two_neg. f_equal. lia. }
  rewrite b64_pos, Ev by exact Hr. rewrite Rleb_false; [reflexivity|]. rewrite <- Ev.
  apply Rle_lt_trans with (two (e + 1)); [apply round_le; [exact Hr | apply two_grid; lia | lra] | apply two_lt; lia].
Qed.

Global Opaque two.
