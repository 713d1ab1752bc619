(** Iterations that contract: limit, rate and uniqueness.  Lemmas only (used for C104). *)
From Verif Require Import Base Num Spec Lib LibFacts.

Lemma uniform_cv : forall N (x : nat -> nat -> R) l, (forall k, (k < N)%nat -> Un_cv (fun n => x n k) (l k)) ->
  forall eps, 0 < eps -> exists n0, forall n k, (n0 <= n)%nat -> (k < N)%nat -> Rabs (x n k - l k) < eps.
Proof.
  induction N as [|N IH]; intros x l H eps He; [exists 0%nat; intros; lia|].
  destruct (IH x l (fun k Hk => H k ltac:(lia)) eps He) as [n1 H1]. destruct (H N ltac:(lia) eps He) as [n2 H2].
  exists (Nat.max n1 n2). intros n k Hn Hk. destruct (Nat.eq_dec k N) as [-> | ]; [apply H2; lia | apply H1; lia].
Qed.

Lemma pow_small : forall c B eps, 0 <= c < 1 -> 0 <= B -> 0 < eps -> exists n0, forall n, (n0 <= n)%nat -> c ^ n * B < eps.
Proof.
  intros c B eps Hc HB He. destruct (pow_lt_1_zero c ltac:(rewrite Rabs_right; lra) (eps / (B + 1)) ltac:(apply Rdiv_lt_0_compat; lra)) as [n0 H].
  exists n0. intros n Hn. specialize (H n Hn). pose proof (pow_le c n ltac:(lra)). rewrite Rabs_right in H by lra.
  apply Rle_lt_trans with (c ^ n * (B + 1)); [apply Rmult_le_compat_l; lra|].
  apply Rmult_lt_compat_r with (r := B + 1) in H; [|lra]. replace (eps / (B + 1) * (B + 1)) with eps in H by (field; lra). exact H.
Qed.

Section Contract.
Variables (N : nat) (near : R -> (nat -> R) -> (nat -> R) -> Prop) (F : (nat -> R) -> nat -> R) (c B : R) (u : nat -> nat -> R).
Hypothesis near_comp : forall b x y k, near b x y -> (k < N)%nat -> Rabs (x k - y k) <= b.
Hypothesis near_le : forall b b' x y, near b x y -> b <= b' -> near b' x y.
Hypothesis near_some : forall x y, exists b, 0 <= b /\ near b x y.
Hypothesis near_ext : forall b x y x' y', (forall k, (k < N)%nat -> x k = x' k) -> (forall k, (k < N)%nat -> y k = y' k) -> near b x y -> near b x' y'.
Hypothesis near_lim : forall b x l y n0, (forall k, (k < N)%nat -> Un_cv (fun n => x n k) (l k)) -> (forall n, (n0 <= n)%nat -> near b (x n) y) -> near b l y.
Hypothesis contract : forall b x y, near b x y -> near (c * b) (F x) (F y).
Hypothesis Hc : 0 <= c < 1.
Hypothesis HB : 0 <= B.
Hypothesis Hu : forall n k, (k < N)%nat -> u (S n) k = F (u n) k.
Hypothesis Hb : forall p, near B (u p) (u 0).

Definition fixed (x : nat -> R) : Prop := forall k, (k < N)%nat -> F x k = x k.

Lemma orbit_near : forall n p, near (c ^ n * B) (u (n + p)) (u n).
Proof.
  induction n as [|n IH]; intros p.
  - cbn [Nat.add pow]. rewrite Rmult_1_l. apply Hb.
  - cbn [Nat.add]. apply (near_ext _ (F (u (n + p))) (F (u n))); [intros; symmetry; apply Hu; assumption | intros; symmetry; apply Hu; assumption|].
    cbn [pow]. rewrite Rmult_assoc. apply contract, IH.
Qed.

Lemma orbit_cauchy : forall k, (k < N)%nat -> Cauchy_crit (fun n => u n k).
Proof.
  intros k Hk eps He. destruct (pow_small c B (eps / 2) Hc HB ltac:(lra)) as [n0 H0]. exists n0. intros n m Hn Hm. unfold R_dist.
  pose proof (near_comp _ _ _ k (orbit_near n0 (n - n0)) Hk) as K1. pose proof (near_comp _ _ _ k (orbit_near n0 (m - n0)) Hk) as K2.
  replace (n0 + (n - n0))%nat with n in K1 by lia. replace (n0 + (m - n0))%nat with m in K2 by lia.
  pose proof (H0 n0 ltac:(lia)). replace (u n k - u m k) with ((u n k - u n0 k) - (u m k - u n0 k)) by ring.
  pose proof (Rabs_triang (u n k - u n0 k) (- (u m k - u n0 k))) as K. rewrite Rabs_Ropp in K. unfold Rminus in *. lra.
Qed.

Lemma orbit_limit : exists l, (forall k, (k < N)%nat -> Un_cv (fun n => u n k) (l k)) /\ fixed l /\ forall n, near (c ^ n * B) l (u n).
Proof.
  assert (E : exists l : nat -> R, forall k, (k < N)%nat -> Un_cv (fun n => u n k) (l k)).
  { assert (P : forall M, (M <= N)%nat -> exists l : nat -> R, forall k, (k < M)%nat -> Un_cv (fun n => u n k) (l k)).
    { induction M as [|M IH]; intros HM; [exists (fun _ => 0); intros; lia|]. destruct (IH ltac:(lia)) as [l Hl].
      destruct (R_complete _ (orbit_cauchy M ltac:(lia))) as [z Hz].
      exists (fun k => if Nat.eqb k M then z else l k). intros k Hk. destruct (Nat.eqb_spec k M) as [-> | ]; [exact Hz | apply Hl; lia]. }
    apply (P N). lia. }
  destruct E as [l Hl].
  assert (Nl : forall n, near (c ^ n * B) l (u n)).
  { intros n. apply (near_lim _ u l (u n) n Hl). intros m Hm. replace m with (n + (m - n))%nat by lia. apply orbit_near. }
  exists l. split; [exact Hl|]. split; [|exact Nl]. intros k Hk.
  assert (D : forall n, Rabs (F l k - l k) <= 2 * (c ^ n * B)).
  { intros n. pose proof (near_comp _ _ _ k (contract _ _ _ (Nl n)) Hk) as K1. pose proof (near_comp _ _ _ k (Nl (S n)) Hk) as K2. rewrite (Hu n k Hk) in K2.
    pose proof (pow_le c n ltac:(lra)) as P. pose proof (Rmult_le_pos _ _ P HB). cbn [pow] in K2. assert (c * (c ^ n * B) <= c ^ n * B) by nra.
    pose proof (Rabs_triang (F l k - F (u n) k) (- (l k - F (u n) k))) as K. rewrite Rabs_Ropp in K.
    replace (F l k - F (u n) k + - (l k - F (u n) k)) with (F l k - l k) in K by ring. lra. }
  destruct (Req_dec (F l k) (l k)) as [E | NE]; [exact E|]. exfalso.
  assert (0 < Rabs (F l k - l k)) as P by (apply Rabs_pos_lt; lra).
  destruct (pow_small c B (Rabs (F l k - l k) / 2) Hc HB ltac:(lra)) as [n0 H0]. specialize (H0 n0 ltac:(lia)). specialize (D n0). lra.
Qed.

Lemma fixed_unique : forall x y, fixed x -> fixed y -> forall k, (k < N)%nat -> x k = y k.
Proof.
  intros x y Fx Fy k Hk. destruct (near_some x y) as (b & Hb0 & Nb).
  assert (P : forall n, near (c ^ n * b) x y).
  { induction n as [|n IH]; [cbn [pow]; rewrite Rmult_1_l; exact Nb|]. apply contract in IH. cbn [pow]. rewrite Rmult_assoc.
    apply (near_ext _ (F x) (F y)); assumption. }
  destruct (Req_dec (x k) (y k)) as [E | NE]; [exact E|]. exfalso. assert (0 < Rabs (x k - y k)) as Q by (apply Rabs_pos_lt; lra).
  destruct (pow_small c b _ Hc Hb0 Q) as [n0 H0]. pose proof (near_comp _ _ _ k (P n0) Hk). specialize (H0 n0 ltac:(lia)). lra.
Qed.
End Contract.

(** * Total distance *)

Definition dist (N : nat) (x y : nat -> R) : R := sumn N (fun k => Rabs (x k - y k)).

Lemma dist_nonneg : forall N x y, 0 <= dist N x y.
Proof. intros. apply sumn_nonneg. intros. apply Rabs_pos. Qed.

Lemma dist_comp : forall N x y k, (k < N)%nat -> Rabs (x k - y k) <= dist N x y.
Proof. intros N x y k Hk. apply (sumn_ge_term N (fun k => Rabs (x k - y k)) k); [intros; apply Rabs_pos | exact Hk]. Qed.

Lemma dist_triang : forall N x y z, dist N x z <= dist N x y + dist N y z.
Proof.
  intros N x y z. unfold dist. rewrite <- sumn_plus. apply sumn_le. intros k _. replace (x k - z k) with ((x k - y k) + (y k - z k)) by ring. apply Rabs_triang.
Qed.

Lemma dist_sym : forall N x y, dist N x y = dist N y x.
Proof. intros N x y. unfold dist. apply sumn_ext. intros k _. apply Rabs_minus_sym. Qed.

Lemma dist_prob : forall N x y, (forall k, (k < N)%nat -> 0 <= x k) -> (forall k, (k < N)%nat -> 0 <= y k) -> dist N x y <= sumn N x + sumn N y.
Proof.
  intros N x y Hx Hy. unfold dist. rewrite <- sumn_plus. apply sumn_le. intros k Hk. specialize (Hx k Hk). specialize (Hy k Hk). apply Rabs_le. lra.
Qed.

(** Two vectors with the same total differ in one component by at most half of the total distance. *)
Lemma dist_half : forall N x y k, sumn N x = sumn N y -> (k < N)%nat -> 2 * Rabs (x k - y k) <= dist N x y.
Proof.
  intros N x y k E Hk. unfold dist.
  assert (Z : sumn N (fun j => x j - y j) = 0).
  { rewrite (sumn_ext N _ (fun j => x j + (-1) * y j)) by (intros; ring). rewrite sumn_plus, sumn_scal_l. lra. }
  assert (S1 : forall f : nat -> R, sumn N f = f k + sumn N (fun j => if Nat.eqb j k then 0 else f j)).
  { intros f. pose proof (sumn_delta N k f) as D. apply Nat.ltb_lt in Hk. rewrite Hk in D. rewrite <- D, <- sumn_plus. apply sumn_ext. intros j _. destruct (Nat.eqb j k); ring. }
  rewrite (S1 (fun j => x j - y j)) in Z. rewrite (S1 (fun j => Rabs (x j - y j))).
  assert (A : Rabs (sumn N (fun j => if Nat.eqb j k then 0 else x j - y j)) <= sumn N (fun j => if Nat.eqb j k then 0 else Rabs (x j - y j))).
  { eapply Rle_trans; [apply sumn_abs|]. apply sumn_le. intros j _. destruct (Nat.eqb j k); [rewrite Rabs_R0; lra | lra]. }
  replace (sumn N (fun j => if Nat.eqb j k then 0 else x j - y j)) with (- (x k - y k)) in A by lra. rewrite Rabs_Ropp in A. lra.
Qed.

Lemma dist_lim : forall N b x l y n0, (forall k, (k < N)%nat -> Un_cv (fun n => x n k) (l k)) -> (forall n, (n0 <= n)%nat -> dist N (x n) y <= b) -> dist N l y <= b.
Proof.
  intros N b x l y n0 H Hb. apply le_epsilon. intros eps He. destruct (uniform_cv N x l H (eps / (INR N + 1))) as [n1 H1].
  { apply Rdiv_lt_0_compat; [lra|]. pose proof (pos_INR N). lra. }
  set (n := Nat.max n0 n1). specialize (Hb n ltac:(lia)). pose proof (dist_triang N l (x n) y) as T. rewrite (dist_sym N l (x n)) in T.
  assert (dist N (x n) l <= INR N * (eps / (INR N + 1))).
  { rewrite <- sumn_const. apply sumn_le. intros k Hk. left. apply H1; [lia | exact Hk]. }
  assert (INR N * (eps / (INR N + 1)) <= eps).
  { pose proof (pos_INR N). apply Rmult_le_reg_r with (INR N + 1); [lra|]. replace (INR N * (eps / (INR N + 1)) * (INR N + 1)) with (INR N * eps) by (field; lra). nra. }
  lra.
Qed.

(** * The damped walk *)

Definition damped (N : nat) (A : nat -> list (nat * R)) (alpha : R) (x : nat -> R) (j : nat) : R := alpha * walk N A x j + (1 - alpha) / INR N.

Lemma walk_ext : forall N A x y j, (forall k, (k < N)%nat -> x k = y k) -> walk N A x j = walk N A y j.
Proof. intros N A x y j H. apply sumn_ext. intros i Hi. rewrite (H i Hi). reflexivity. Qed.

Lemma damped_contract : forall N A alpha x y, good_rows N A -> (0 < N)%nat -> 0 <= alpha -> dist N (damped N A alpha x) (damped N A alpha y) <= alpha * dist N x y.
Proof.
  intros N A alpha x y H HN Ha. unfold dist. rewrite (sumn_ext N _ (fun j => alpha * Rabs (walk N A x j - walk N A y j))).
  - rewrite sumn_scal_l. apply Rmult_le_compat_l; [exact Ha|]. apply walk_contract; assumption.
  - intros j _. unfold damped. replace (alpha * Rabs (walk N A x j - walk N A y j)) with (Rabs (alpha * (walk N A x j - walk N A y j))) by (rewrite Rabs_mult, (Rabs_right alpha) by lra; reflexivity).
    f_equal. ring.
Qed.

Section Rank.
Variables (N : nat) (A : nat -> list (nat * R)) (alpha : R).
Hypothesis (HA : good_rows N A) (HN : (0 < N)%nat) (Ha : 0 <= alpha < 1).

Lemma rank_bounded : forall p, dist N (rank_seq N A alpha p) (rank_seq N A alpha 0) <= 2.
Proof.
  intros p. destruct (rank_prob N A alpha p HA HN ltac:(lra)) as [P1 P2]. destruct (rank_prob N A alpha 0 HA HN ltac:(lra)) as [Q1 Q2].
  eapply Rle_trans; [apply dist_prob; auto|]. rewrite P2, Q2. lra.
Qed.

Lemma rank_limit : exists l, (forall k, (k < N)%nat -> Un_cv (fun n => rank_seq N A alpha n k) (l k)) /\ fixed N (damped N A alpha) l /\
  forall n, dist N l (rank_seq N A alpha n) <= alpha ^ n * 2.
Proof.
  apply (orbit_limit N (fun b x y => dist N x y <= b) (damped N A alpha) alpha 2 (rank_seq N A alpha)).
  - intros b x y k H Hk. eapply Rle_trans; [apply dist_comp, Hk | exact H].
  - intros b x y x' y' H1 H2 H. unfold dist. rewrite (sumn_ext N _ (fun k => Rabs (x k - y k))); [exact H|]. intros k Hk. rewrite (H1 k Hk), (H2 k Hk). reflexivity.
  - intros b x l y n0. apply dist_lim.
  - intros b x y H. eapply Rle_trans; [apply damped_contract; try assumption; lra|]. apply Rmult_le_compat_l; [lra | exact H].
  - exact Ha.
  - lra.
  - reflexivity.
  - exact rank_bounded.
Qed.

Lemma rank_fixed_unique : forall x y, fixed N (damped N A alpha) x -> fixed N (damped N A alpha) y -> forall k, (k < N)%nat -> x k = y k.
Proof.
  apply (fixed_unique N (fun b x y => dist N x y <= b) (damped N A alpha) alpha).
  - intros b x y k H Hk. eapply Rle_trans; [apply dist_comp, Hk | exact H].
  - intros x y. exists (dist N x y). split; [apply dist_nonneg | lra].
  - intros b x y x' y' H1 H2 H. unfold dist. rewrite (sumn_ext N _ (fun k => Rabs (x k - y k))); [exact H|]. intros k Hk. rewrite (H1 k Hk), (H2 k Hk). reflexivity.
  - intros b x y H. eapply Rle_trans; [apply damped_contract; try assumption; lra|]. apply Rmult_le_compat_l; [lra | exact H].
  - exact Ha.
Qed.

(** A step moves no component by more than [alpha ^ (n + 1)]. *)
Lemma rank_step : forall n k, (k < N)%nat -> Rabs (rank_seq N A alpha (S n) k - rank_seq N A alpha n k) <= alpha ^ S n.
Proof.
  intros n k Hk. destruct (rank_prob N A alpha n HA HN ltac:(lra)) as [_ P]. destruct (rank_prob N A alpha (S n) HA HN ltac:(lra)) as [_ Q].
  pose proof (dist_half N (rank_seq N A alpha (S n)) (rank_seq N A alpha n) k ltac:(congruence) Hk) as H.
  assert (D : forall n, dist N (rank_seq N A alpha (S n)) (rank_seq N A alpha n) <= alpha ^ S n * 2).
  { clear - HA HN Ha. induction n as [|n IH].
    - cbn [pow]. rewrite Rmult_1_r. destruct (rank_prob N A alpha 0 HA HN ltac:(lra)) as [P1 P2]. set (x := rank_seq N A alpha 0) in *.
      assert (E : dist N (rank_seq N A alpha 1) x = alpha * dist N (walk N A x) x).
      { unfold dist. rewrite <- sumn_scal_l. apply sumn_ext. intros k _. cbn [rank_seq]. fold x. replace (alpha * Rabs (walk N A x k - x k)) with (Rabs (alpha * (walk N A x k - x k))) by (rewrite Rabs_mult, (Rabs_right alpha) by lra; reflexivity).
        f_equal. change (fun _ : nat => 1 / INR N) with x. assert (Ex : x k = 1 / INR N) by reflexivity. rewrite Ex. unfold Rdiv. ring. }
      rewrite E. apply Rmult_le_compat_l; [lra|]. eapply Rle_trans; [apply dist_prob; [intros; apply walk_nonneg; auto | auto]|]. rewrite walk_sum, P2 by assumption. lra.
    - change (rank_seq N A alpha (S (S n))) with (damped N A alpha (rank_seq N A alpha (S n))). change (rank_seq N A alpha (S n)) with (damped N A alpha (rank_seq N A alpha n)) at 2.
      eapply Rle_trans; [apply damped_contract; try assumption; lra|]. cbn [pow] in IH |- *. rewrite Rmult_assoc. apply Rmult_le_compat_l; [lra | exact IH]. }
  specialize (D n). lra.
Qed.
End Rank.
