(** Facts about PageRank in double precision: the error of one iteration. *)
From Verif Require Import Base Num Spec Lib LibFacts RankFacts Kernels Float FloatFacts FloatSolverFacts PropFloat FloatLib.
Import Num Spec.
From Coq Require Import Lra Lia.

Open Scope R_scope.

(** * Rounding errors *)
Definition uu : R := two (-53).
Definition eta : R := two (-1074).

Lemma uu_pos : 0 < uu. Proof. apply two_pos. Qed.
Lemma eta_pos : 0 < eta. Proof. apply two_pos. Qed.
Lemma uu_small : uu <= / 1024.
Proof. unfold uu. replace (/ 1024) with (two (-10)) by (change (-10)%Z with (- (10))%Z; rewrite two_neg, two_Z by lia; reflexivity). apply two_le. lia. Qed.
Lemma eta_small : eta <= uu * two (-100).
Proof. unfold eta, uu. rewrite <- two_add. apply two_le. lia. Qed.

(** The rounded value, where there is no overflow. *)
Definition rv (r : R) : R := match b64 r with Fin v => v | _ => 0 end.

Lemma rv_fixed : forall w, double w -> rv w = w.
Proof. intros w D. unfold rv. rewrite (b64_fixed w D). reflexivity. Qed.

Lemma rv_spec : forall r, 0 <= r <= two 1022 -> b64 r = Fin (rv r) /\ double (rv r) /\ 0 <= rv r /\ Rabs (rv r - r) <= uu * r + eta.
Proof.
  intros r H. destruct (b64_between 0 (two 1022) r double_0 (double_two 1022 ltac:(lia)) H) as (v & E & Hv & D).
  unfold rv. rewrite E. split; [reflexivity|]. split; [exact D|]. split; [lra|]. pose proof uu_pos. pose proof eta_pos.
  destruct (Rle_or_lt (two (-1022)) r) as [K | K].
  - destruct (b64_rel r ltac:(lra)) as (v' & E' & _ & B). rewrite E in E'. injection E' as <-. unfold uu in *. apply Rabs_le. lra.
  - destruct (Req_dec r 0) as [-> | NZ].
    { rewrite b64_0 in E. injection E as <-. rewrite Rminus_0_r, Rabs_R0. lra. }
    assert (P : 0 < r) by lra. rewrite b64_pos in E by exact P. destruct (Rleb (two 1024) (round_pos r)); [discriminate|]. injection E as <-.
    assert (LP : last_place r = (-1074)%Z).
    { unfold last_place. destruct (log_spec r P) as [L _]. assert (Int_part (ln r / ln 2) < -1022)%Z; [|lia].
      apply Znot_ge_lt. intros C. apply Z.ge_le in C. apply two_le in C. lra. }
    unfold round_pos. rewrite LP. fold eta. pose proof (near_dist (r / eta)) as N0.
    replace (IZR (nearest_even (r / eta)) * eta - r) with (- ((r / eta - IZR (nearest_even (r / eta))) * eta)) by (field; lra).
    rewrite Rabs_Ropp, Rabs_mult, (Rabs_right eta) by lra. assert (0 <= uu * r) by (apply Rmult_le_pos; lra). nra.
Qed.

Lemma double_multiple : forall a, double a -> exists m : Z, a = IZR m * eta.
Proof.
  intros a (m & e & -> & _ & He). exists (m * 2 ^ (e + 1074))%Z. rewrite mult_IZR, <- two_Z by lia. unfold eta.
  rewrite Rmult_assoc, <- two_add. f_equal. f_equal. lia.
Qed.

Lemma sum_double : forall a b, double a -> double b -> 0 <= a + b < two (-1022) -> double (a + b).
Proof.
  intros a b Da Db H. destruct (double_multiple a Da) as [m ->]. destruct (double_multiple b Db) as [n ->].
  replace (IZR m * eta + IZR n * eta) with (IZR (m + n) * eta) in * by (rewrite plus_IZR; ring).
  exists (m + n)%Z, (-1074)%Z. split; [reflexivity|]. split; [|lia]. pose proof eta_pos.
  assert (0 <= m + n)%Z by (apply le_IZR; apply Rmult_le_reg_r with eta; lra).
  assert (m + n < 2 ^ 52)%Z; [|lia]. apply lt_IZR. rewrite <- two_Z by lia. apply Rmult_lt_reg_r with eta; [assumption|].
  unfold eta at 2. rewrite <- two_add. exact (proj2 H).
Qed.

(** Sums have no error from underflow. *)
Lemma rv_add : forall a b, double a -> double b -> 0 <= a -> 0 <= b -> a + b <= two 1022 ->
  b64 (a + b) = Fin (rv (a + b)) /\ double (rv (a + b)) /\ 0 <= rv (a + b) /\ Rabs (rv (a + b) - (a + b)) <= uu * (a + b).
Proof.
  intros a b Da Db Ha Hb H. destruct (rv_spec (a + b) ltac:(lra)) as (E & D & P & _). split; [exact E|]. split; [exact D|]. split; [exact P|].
  destruct (Rle_or_lt (two (-1022)) (a + b)) as [K | K].
  - destruct (b64_rel (a + b) ltac:(lra)) as (v' & E' & _ & B). rewrite E in E'. injection E' as E'. rewrite E'. unfold uu in *. apply Rabs_le. lra.
  - rewrite (rv_fixed (a + b)) by (apply sum_double; auto; lra). rewrite Rminus_diag_eq by reflexivity. rewrite Rabs_R0. pose proof uu_pos. nra.
Qed.

(** * Approximations *)
Definition ap (k b v r : R) : Prop := Rabs (v - r) <= k * r + b.

Lemma ap_trans : forall k b k' b' w v r, 0 <= k <= 1 -> 0 <= b -> 0 <= k' <= 1 -> 0 <= r -> ap k b v r -> ap k' b' w v -> ap (k + 2 * k') (2 * b + b') w r.
Proof.
  unfold ap. intros k b k' b' w v r Hk Hb Hk' Hr H H'. pose proof (Rabs_triang (w - v) (v - r)) as T. replace (w - v + (v - r)) with (w - r) in T by ring.
  apply Rabs_def2_le in H as H2. assert (V : v <= 2 * r + b) by nra. assert (k' * v <= k' * (2 * r + b)) by (apply Rmult_le_compat_l; lra). nra.
Qed.
Lemma ap_le : forall k b k' b' v r, 0 <= r -> k <= k' -> b <= b' -> ap k b v r -> ap k' b' v r.
Proof. unfold ap. intros k b k' b' v r Hr Hk Hb H. assert (k * r <= k' * r) by (apply Rmult_le_compat_r; assumption). lra. Qed.
Lemma ap_scale : forall k b v r c C, 0 <= c <= C -> 0 <= b -> ap k b v r -> ap k (C * b) (v * c) (r * c).
Proof.
  unfold ap. intros k b v r c C Hc Hb H. replace (v * c - r * c) with ((v - r) * c) by ring. rewrite Rabs_mult, (Rabs_right c) by lra.
  apply Rmult_le_compat_r with (r := c) in H; [|lra]. assert (b * c <= b * C) by (apply Rmult_le_compat_l; lra). lra.
Qed.
Lemma ap_add : forall k b b' v r v' r', ap k b v r -> ap k b' v' r' -> ap k (b + b') (v + v') (r + r').
Proof.
  unfold ap. intros k b b' v r v' r' H H'. pose proof (Rabs_triang (v - r) (v' - r')) as T. replace (v - r + (v' - r')) with (v + v' - (r + r')) in T by ring. lra.
Qed.
Lemma ap_sum : forall n k b (v r : nat -> R), (forall i, (i < n)%nat -> ap k b (v i) (r i)) -> ap k (INR n * b) (sumn n v) (sumn n r).
Proof.
  induction n as [|n IH]; intros k b v r H.
  - unfold ap. cbn. rewrite Rminus_diag_eq by reflexivity. rewrite Rabs_R0. lra.
  - rewrite S_INR. cbn [sumn]. replace ((INR n + 1) * b) with (INR n * b + b) by ring. apply ap_add; [apply IH; intros; apply H; lia | apply H; lia].
Qed.
Lemma ap_round : forall k b v r, 0 <= k <= 1 -> 0 <= b -> 0 <= r -> 0 <= v <= two 1022 -> ap k b v r -> ap (k + 2 * uu) (2 * b + eta) (rv v) r.
Proof.
  intros k b v r Hk Hb Hr Hv H. destruct (rv_spec v Hv) as (_ & _ & _ & E). pose proof uu_pos. pose proof uu_small.
  apply (ap_trans k b uu eta (rv v) v r); auto. lra.
Qed.

(** * Sums from left to right *)
Fixpoint acc (l : list R) (s : R) : R := match l with [] => s | a :: l => acc l (rv (s + a)) end.

Definition fine (w : R) : Prop := 0 <= w /\ double w.

Lemma acc_spec : forall l s, Forall fine l -> fine s -> (1 + uu) ^ length l * (s + suml (fun x => x) l) <= two 1022 ->
  fold_left (fun c a => radd b64 c (Fin a)) l (Fin s) = Fin (acc l s) /\ fine (acc l s) /\
  Rabs (acc l s - (s + suml (fun x => x) l)) <= ((1 + uu) ^ length l - 1) * (s + suml (fun x => x) l).
Proof.
  pose proof uu_pos as U. induction l as [|a l IH]; intros s Hl [S0 Ds] B.
  - cbn. split; [reflexivity|]. split; [split; assumption|]. rewrite Rminus_diag_eq by ring. rewrite Rabs_R0. lra.
  - inversion Hl as [|? ? [A0 Da] Hl']; subst. cbn [suml length pow fold_left acc] in *. set (T := suml (fun x => x) l) in *.
    assert (T0 : 0 <= T) by (apply suml_nonneg; intros y Hy; rewrite Forall_forall in Hl'; exact (proj1 (Hl' y Hy))).
    assert (P1 : 1 <= (1 + uu) ^ length l) by (apply pow_R1_Rle; lra). set (P := (1 + uu) ^ length l) in *.
    assert (PP : 1 <= (1 + uu) * P) by nra. assert (K0 : 0 <= s + (a + T)) by lra.
    assert (K1 : 1 * (s + (a + T)) <= (1 + uu) * P * (s + (a + T))) by (apply Rmult_le_compat_r; assumption). assert (B2 : s + a <= two 1022) by lra.
    destruct (rv_add s a Ds Da S0 A0 B2) as (E & D & Q & Er). apply Rabs_def2_le in Er as Er'.
    unfold radd at 2. cbn [nadd rnd_num]. rewrite E.
    assert (V : rv (s + a) + T <= (1 + uu) * (s + a + T)) by nra.
    destruct (IH (rv (s + a)) Hl' (conj Q D)) as (F & Fi & G).
    { eapply Rle_trans; [|exact B]. replace ((1 + uu) * P * (s + (a + T))) with (P * ((1 + uu) * (s + a + T))) by ring. apply Rmult_le_compat_l; lra. }
    split; [exact F|]. split; [exact Fi|].
    pose proof (Rabs_triang (acc l (rv (s + a)) - (rv (s + a) + T)) (rv (s + a) - (s + a))) as Tr.
    replace (acc l (rv (s + a)) - (rv (s + a) + T) + (rv (s + a) - (s + a))) with (acc l (rv (s + a)) - (s + (a + T))) in Tr by ring.
    assert ((P - 1) * (rv (s + a) + T) <= (P - 1) * ((1 + uu) * (s + a + T))) by (apply Rmult_le_compat_l; lra).
    assert (uu * (s + a) <= uu * (s + a + T)) by (apply Rmult_le_compat_l; lra).
    replace (((1 + uu) * P - 1) * (s + (a + T))) with ((P - 1) * ((1 + uu) * (s + a + T)) + uu * (s + a + T)) by ring. lra.
Qed.

Lemma pow_uu : forall n h, INR n * uu <= h -> h <= 1 / 2 -> (1 + uu) ^ n <= 1 + 2 * (INR n * uu).
Proof.
  pose proof uu_pos as U. induction n as [|n IH]; intros h Hh H1; [cbn; lra|]. rewrite S_INR in *. cbn [pow].
  assert (I : (1 + uu) ^ n <= 1 + 2 * (INR n * uu)) by (apply (IH h); [nra | exact H1]). pose proof (pos_INR n).
  assert (2 * (INR n * uu) <= 1) by nra. nra.
Qed.

(** All terms small, at most [n] of them: relative error [2 n uu]. *)
Lemma acc_ap : forall l n h, Forall fine l -> (length l <= n)%nat -> INR n * uu <= h -> h <= 1 / 2 -> suml (fun x => x) l <= two 1001 ->
  fold_left (fun c a => radd b64 c (Fin a)) l (Fin 0) = Fin (acc l 0) /\ fine (acc l 0) /\ ap (2 * h) 0 (acc l 0) (suml (fun x => x) l).
Proof.
  intros l n h Hl Hn Hh H1 HT. set (T := suml (fun x => x) l) in *.
  assert (T0 : 0 <= T) by (apply suml_nonneg; intros y Hy; rewrite Forall_forall in Hl; exact (proj1 (Hl y Hy))).
  assert (Hn' : INR (length l) <= INR n) by (apply le_INR, Hn). pose proof uu_pos.
  assert (L : INR (length l) * uu <= h) by nra. pose proof (pow_uu (length l) h L H1) as P.
  assert (two 1002 <= two 1022) by (apply two_le; lia). assert (E2 : two 1002 = 2 * two 1001) by (change 1002%Z with (1 + 1001)%Z; rewrite two_add, two_1; reflexivity).
  assert (P0 : 0 <= (1 + uu) ^ length l) by (apply pow_le; lra).
  destruct (acc_spec l 0 Hl (conj (Rle_refl 0) double_0)) as (E & Fi & B).
  { fold T. rewrite Rplus_0_l. assert ((1 + uu) ^ length l <= 2) by lra. nra. }
  split; [exact E|]. split; [exact Fi|]. fold T in B. rewrite Rplus_0_l in B. unfold ap. nra.
Qed.

(** * One iteration *)

Lemma fold_map : forall X Y S (f : S -> Y -> S) (g : X -> Y) l s, fold_left f (map g l) s = fold_left (fun s x => f s (g x)) l s.
Proof. intros X Y S f g. induction l as [|a l IH]; intros s; [reflexivity | apply IH]. Qed.

Lemma rdiv_fin : forall rn a b, b <> 0 -> rdiv rn (Fin a) (Fin b) = rn (a / b).
Proof. intros rn a b Hb. unfold rdiv. cbn. rewrite Reqb_false by exact Hb. reflexivity. Qed.
Lemma rmul_fin : forall rn a b, rmul rn (Fin a) (Fin b) = rn (a * b).
Proof. reflexivity. Qed.

Lemma spread_at : forall rn M v upd j, for_range M (fun k u => radd_at rn u k v) upd j = if (j <? M)%nat then radd rn (upd j) v else upd j.
Proof.
  intros rn M v upd j. induction M as [|M IH]; [reflexivity|]. cbn [for_range]. unfold radd_at at 1. unfold Base.upd at 1. destruct (Nat.eqb_spec j M) as [-> | NE].
  - rewrite IH. rewrite Nat.ltb_irrefl. assert (M <? S M = true)%nat as -> by (apply Nat.ltb_lt; lia). reflexivity.
  - rewrite IH. destruct (Nat.ltb_spec j M), (Nat.ltb_spec j (S M)); try lia; reflexivity.
Qed.

Lemma push_at : forall rn (f : nat * R -> num) row upd j, NoDup (map fst row) ->
  for_each row (fun e u => radd_at rn u (fst e) (f e)) upd j = match find (fun e => Nat.eqb (fst e) j) row with Some e => radd rn (upd j) (f e) | None => upd j end.
Proof.
  intros rn f. induction row as [|e row IH]; intros upd j ND; [reflexivity|]. cbn [map] in ND. inversion ND as [|? ? NI ND']; subst.
  change (for_each (e :: row) (fun e u => radd_at rn u (fst e) (f e)) upd j) with (for_each row (fun e u => radd_at rn u (fst e) (f e)) (radd_at rn upd (fst e) (f e)) j).
  rewrite (IH _ j ND'). cbn [find]. unfold radd_at, Base.upd. destruct (Nat.eqb_spec (fst e) j) as [<- | NE].
  - rewrite Nat.eqb_refl. destruct (find (fun e0 => Nat.eqb (fst e0) (fst e)) row) as [e'|] eqn:F; [|reflexivity].
    exfalso. apply find_some in F as [I Q]. apply Nat.eqb_eq in Q. apply NI. rewrite <- Q. apply in_map, I.
  - assert (Nat.eqb j (fst e) = false) as -> by (apply Nat.eqb_neq; auto). reflexivity.
Qed.

Lemma entry_find : forall row j, NoDup (map fst row) -> entry row j = match find (fun e => Nat.eqb (fst e) j) row with Some e => snd e | None => 0 end.
Proof.
  induction row as [|e row IH]; intros j ND; [reflexivity|]. cbn [map] in ND. inversion ND as [|? ? NI ND']; subst. unfold entry in *. cbn [suml find].
  rewrite (IH j ND'). destruct (Nat.eqb_spec (fst e) j) as [<- | NE]; [|lra].
  destruct (find (fun e0 => Nat.eqb (fst e0) (fst e)) row) as [e'|] eqn:F; [|lra].
  exfalso. apply find_some in F as [I Q]. apply Nat.eqb_eq in Q. apply NI. rewrite <- Q. apply in_map, I.
Qed.

Lemma short_row : forall N (l : list nat), NoDup l -> Forall (fun k => (k < N)%nat) l -> (length l <= N)%nat.
Proof.
  intros N l ND F. rewrite <- (seq_length N 0). apply NoDup_incl_length; [exact ND|]. intros k Hk. rewrite Forall_forall in F. apply in_seq. specialize (F k Hk). lia.
Qed.

(** Rows of a sparse matrix with distinct columns and positive doubles as weights. *)
Definition double_rows (N : nat) (A : nat -> list (nat * R)) : Prop := forall i, (i < N)%nat ->
  NoDup (map fst (A i)) /\ Forall (fun e => (fst e < N)%nat /\ 0 < snd e /\ double (snd e)) (A i) /\ total (A i) <= two 1000.

Section Step.
Variables (N : nat) (A : nat -> list (nat * R)) (alpha : R).
Hypothesis HA : double_rows N A.
Hypothesis HN : (0 < N)%nat.
Hypothesis HB : (Z.of_nat N <= 2 ^ 40)%Z.
Hypothesis Ha : 0 <= alpha < 1.
Hypothesis Da : double alpha.

Definition hh : R := INR N * uu.

Lemma N_pos : 1 <= INR N. Proof. apply (le_INR 1 N). lia. Qed.
Lemma N_le : INR N <= two 40. Proof. rewrite INR_IZR_INZ, two_Z by lia. apply IZR_le, HB. Qed.
Lemma hh_pos : uu <= hh. Proof. unfold hh. pose proof N_pos. pose proof uu_pos. nra. Qed.
Lemma hh_small : hh <= / 1024.
Proof.
  unfold hh. apply Rle_trans with (two 40 * uu); [apply Rmult_le_compat_r; [left; apply uu_pos | apply N_le]|]. unfold uu. rewrite <- two_add.
  replace (/ 1024) with (two (-10)) by (change (-10)%Z with (- (10))%Z; rewrite two_neg, two_Z by lia; reflexivity). apply two_le. lia.
Qed.
Lemma tiny : INR N * eta <= uu * two (-50).
Proof.
  apply Rle_trans with (two 40 * eta); [apply Rmult_le_compat_r; [left; apply eta_pos | apply N_le]|]. unfold eta, uu. rewrite <- !two_add. apply two_le. lia.
Qed.
Lemma N_double : double (INR N). Proof. rewrite INR_IZR_INZ. apply double_Z. lia. Qed.

Lemma rows_good : good_rows N A.
Proof. intros i Hi. destruct (HA i Hi) as (_ & F & _). eapply Forall_impl; [|exact F]. cbv beta. tauto. Qed.

Definition rsumi (i : nat) : R := acc (map snd (A i)) 0.

Lemma row_sum_spec : forall i, (i < N)%nat -> rrow_sum b64 (A i) = Fin (rsumi i) /\ fine (rsumi i) /\ ap (2 * hh) 0 (rsumi i) (total (A i)).
Proof.
  intros i Hi. destruct (HA i Hi) as (ND & F & T). pose proof hh_small. pose proof hh_pos.
  destruct (acc_ap (map snd (A i)) N hh) as (E & Fi & Q).
  - apply Forall_forall. intros w Hw. apply in_map_iff in Hw as (e & <- & He). rewrite Forall_forall in F. destruct (F e He) as (_ & P & D). split; [lra | exact D].
  - rewrite map_length, <- (map_length fst). apply short_row; [exact ND|]. apply Forall_forall. intros k Hk. apply in_map_iff in Hk as (e & <- & He). rewrite Forall_forall in F. apply (F e He).
  - apply Rle_refl.
  - lra.
  - rewrite suml_map. apply Rle_trans with (two 1000); [exact T | apply two_le; lia].
  - unfold rrow_sum, for_each. rewrite fold_map in E. split; [exact E|]. split; [exact Fi|]. rewrite suml_map in Q. exact Q.
Qed.

Definition wt (i j : nat) : R := rv (entry (A i) j / rsumi i).

Lemma entry_le : forall i j, (i < N)%nat -> 0 <= entry (A i) j <= total (A i).
Proof.
  intros i j Hi. pose proof (good_pos N A i rows_good Hi) as P. split; [apply entry_nonneg, P|]. unfold entry, total.
  induction P as [|e r He P IH]; cbn [suml]; [lra|]. destruct (Nat.eqb (fst e) j); lra.
Qed.

Lemma wt_spec : forall i j, (i < N)%nat -> A i <> [] -> 0 < rsumi i /\ entry (A i) j / rsumi i <= 2 /\ fine (wt i j) /\ ap (5 * hh) eta (wt i j) (hop N A i j) /\ 0 <= hop N A i j <= 1.
Proof.
  intros i j Hi NE. destruct (row_sum_spec i Hi) as (_ & _ & Q). pose proof (entry_le i j Hi) as El. pose proof hh_small. pose proof hh_pos. pose proof uu_pos.
  assert (T0 : 0 < total (A i)) by (apply total_pos; [exact NE | apply (good_pos N A i rows_good Hi)]).
  assert (Hq : hop N A i j = entry (A i) j / total (A i)) by (unfold hop; destruct (A i); [contradiction | reflexivity]).
  set (T := total (A i)) in *. set (S := rsumi i) in *. set (a := entry (A i) j) in *. unfold ap in Q. apply Rabs_def2_le in Q.
  assert (S0 : 0 < S) by nra.
  assert (Q0 : 0 <= a / T <= 1). { split; [apply Rmult_le_pos; [lra | left; apply Rinv_0_lt_compat, T0]|]. apply Rmult_le_reg_r with T; [exact T0|]. unfold Rdiv. rewrite Rmult_assoc, Rinv_l by lra. lra. }
  assert (R1 : ap (3 * hh) 0 (a / S) (a / T)).
  { unfold ap. replace (a / S - a / T) with (a / T * ((T - S) / S)) by (field; split; lra). rewrite Rabs_mult, (Rabs_right (a / T)) by lra.
    rewrite Rplus_0_r, (Rmult_comm (3 * hh)). apply Rmult_le_compat_l; [lra|]. unfold Rdiv. rewrite Rabs_mult, (Rabs_right (/ S)) by (left; apply Rinv_0_lt_compat, S0).
    apply Rmult_le_reg_r with S; [exact S0|]. rewrite Rmult_assoc, Rinv_l, Rmult_1_r by lra. apply Rabs_le. split; nra. }
  assert (A2 : a / S <= 2). { unfold ap in R1. apply Rabs_def2_le in R1. nra. }
  assert (A0 : 0 <= a / S) by (apply Rmult_le_pos; [lra | left; apply Rinv_0_lt_compat, S0]).
  assert (two 1 <= two 1022) by (apply two_le; lia). rewrite two_1 in *.
  split; [exact S0|]. split; [exact A2|]. destruct (rv_spec (a / S) ltac:(lra)) as (_ & D & P & _). split; [split; [exact P | exact D]|].
  rewrite Hq. split; [|exact Q0]. pose proof (ap_round (3 * hh) 0 (a / S) (a / T) ltac:(lra) ltac:(lra) ltac:(lra) ltac:(lra) R1) as R2.
  eapply ap_le; [| | |exact R2]; lra.
Qed.

Definition tt (x : nat -> R) (i j : nat) : R := match A i with [] => rv (x i / INR N) | _ => rv (wt i j * x i) end.

Definition mass_ok (x : nat -> R) : Prop := (forall k, (k < N)%nat -> fine (x k)) /\ sumn N x <= 2.

Lemma mass_le : forall x i, mass_ok x -> (i < N)%nat -> 0 <= x i <= 2.
Proof.
  intros x i [F B] Hi. split; [apply (F i Hi)|]. eapply Rle_trans; [|exact B]. apply (sumn_ge_term N x i); [intros k Hk; apply (F k Hk) | exact Hi].
Qed.

Lemma tt_spec : forall x i j, mass_ok x -> (i < N)%nat -> fine (tt x i j) /\ ap (7 * hh) (5 * eta) (tt x i j) (x i * hop N A i j) /\ tt x i j <= 8 /\
  (A i = [] -> b64 (x i / INR N) = Fin (tt x i j)) /\ (A i <> [] -> b64 (wt i j * x i) = Fin (tt x i j)).
Proof.
  intros x i j M Hi. pose proof (mass_le x i M Hi) as Hx. pose proof N_pos. pose proof hh_small. pose proof hh_pos. pose proof uu_pos. pose proof eta_pos. pose proof eta_small. pose proof uu_small.
  assert (two 4 <= two 1022) by (apply two_le; lia). assert (two 4 = 16) by (rewrite two_Z by lia; reflexivity).
  assert (two (-100) <= 1) by (rewrite <- two_0; apply two_le; lia). pose proof (two_pos (-100)). assert (eta <= 1) by nra.
  assert (K : fine (tt x i j) /\ ap (7 * hh) (5 * eta) (tt x i j) (x i * hop N A i j) /\ 0 <= hop N A i j <= 1 /\
    (A i = [] -> b64 (x i / INR N) = Fin (tt x i j)) /\ (A i <> [] -> b64 (wt i j * x i) = Fin (tt x i j))).
  { destruct (A i) as [|e r] eqn:E.
    - unfold tt, hop. rewrite E.
      assert (I1 : 0 < / INR N <= 1) by (split; [apply Rinv_0_lt_compat; lra | rewrite <- Rinv_1; apply Rinv_le_contravar; lra]).
      assert (V : 0 <= x i / INR N <= 2) by (unfold Rdiv; split; nra). destruct (rv_spec (x i / INR N) ltac:(lra)) as (B & D & P & Er).
      split; [split; assumption|]. split; [|split; [lra|split; [intros _; exact B | congruence]]]. apply (ap_le uu eta); [unfold Rdiv in V; lra | lra | lra | exact Er].
    - assert (NE : A i <> []) by congruence. destruct (wt_spec i j Hi NE) as (S0 & W2 & [Wp Wd] & W & Q).
      assert (Wb : 0 <= wt i j <= 4). { split; [exact Wp|]. unfold ap in W. apply Rabs_def2_le in W. nra. }
      unfold tt. rewrite E. assert (V : 0 <= wt i j * x i <= 8) by nra. destruct (rv_spec (wt i j * x i) ltac:(lra)) as (B & D & P & _).
      split; [split; assumption|]. split; [|split; [exact Q | split; [discriminate | intros _; exact B]]].
      rewrite (Rmult_comm (x i)). pose proof (ap_scale (5 * hh) eta (wt i j) (hop N A i j) (x i) 2 Hx ltac:(lra) W) as R1.
      pose proof (ap_round (5 * hh) (2 * eta) (wt i j * x i) (hop N A i j * x i) ltac:(lra) ltac:(lra) ltac:(nra) ltac:(lra) R1) as R2.
      eapply ap_le; [| | |exact R2]; try lra. nra. }
  destruct K as (K1 & K2 & K3 & K4 & K5). split; [exact K1|]. split; [exact K2|]. split; [|split; assumption].
  unfold ap in K2. apply Rabs_def2_le in K2. assert (0 <= x i * hop N A i j <= 2) by nra. nra.
Qed.

Definition terms (x : nat -> R) (n j : nat) : list R := map (fun i => tt x i j) (seq 0 n).

Lemma terms_acc : forall x n j, mass_ok x -> (n <= N)%nat ->
  fold_left (fun c a => radd b64 c (Fin a)) (terms x n j) (Fin 0) = Fin (acc (terms x n j) 0) /\ fine (acc (terms x n j) 0) /\
  ap (2 * hh) 0 (acc (terms x n j) 0) (sumn n (fun i => tt x i j)).
Proof.
  intros x n j M Hn. pose proof hh_small. pose proof hh_pos.
  assert (E : suml (fun x => x) (terms x n j) = sumn n (fun i => tt x i j)) by (unfold terms; rewrite suml_map, suml_seq; reflexivity).
  rewrite <- E. apply (acc_ap (terms x n j) N hh); [| |apply Rle_refl|lra|].
  - apply Forall_forall. intros w Hw. apply in_map_iff in Hw as (i & <- & Hi). apply in_seq in Hi. apply (tt_spec x i j M). lia.
  - unfold terms. rewrite map_length, seq_length. exact Hn.
  - rewrite E. apply Rle_trans with (sumn n (fun _ => 8)).
    + apply sumn_le. intros i Hi. apply (tt_spec x i j M). lia.
    + rewrite sumn_const. pose proof N_le. assert (INR n <= INR N) by (apply le_INR, Hn). apply Rle_trans with (two 40 * 8); [lra|].
      replace 8 with (two 3) by (rewrite two_Z by lia; reflexivity). rewrite <- two_add. apply two_le. lia.
Qed.

Lemma propagate_spec : forall x meas j, mass_ok x -> (forall k, (k < N)%nat -> meas k = Fin (x k)) -> (j < N)%nat ->
  rpropagate_measure b64 N (rnormalise_rows b64 A) N meas false j = Fin (acc (terms x N j) 0).
Proof.
  intros x meas j M Hm Hj. rewrite <- (proj1 (terms_acc x N j M (le_n N))). unfold rpropagate_measure.
  assert (G : forall n, (n <= N)%nat -> for_range n (fun i update => match rnormalise_rows b64 A i with
    | [] => if negb false then for_range N (fun k update => radd_at b64 update k (rdiv b64 (meas i) (Fin (INR N)))) update else update
    | row => for_each row (fun e update => radd_at b64 update (fst e) (rmul b64 (snd e) (meas i))) update end) (fun _ => Fin 0) j
    = fold_left (fun c a => radd b64 c (Fin a)) (terms x n j) (Fin 0)); [|apply G, le_n].
  induction n as [|n IH]; intros Hn; [reflexivity|]. cbn [for_range]. unfold terms. rewrite seq_S, map_app, fold_left_app. cbn [map fold_left]. fold (terms x n j).
  rewrite <- IH by lia. destruct (terms_acc x n j M ltac:(lia)) as (Ep & Fp & _). rewrite <- IH in Ep by lia.
  set (prev := for_range n _ _) in *. destruct (tt_spec x n j M ltac:(lia)) as (_ & _ & _ & T1 & T2). pose proof N_pos.
  unfold rnormalise_rows. destruct (A n) as [|e r] eqn:E.
  - cbn [negb]. rewrite spread_at. apply Nat.ltb_lt in Hj. rewrite Hj. rewrite (Hm n ltac:(lia)), rdiv_fin by lra. rewrite (T1 eq_refl). reflexivity.
  - destruct (row_sum_spec n ltac:(lia)) as (Rs & _ & _). rewrite <- E in *. assert (NE : A n <> []) by congruence. destruct (HA n ltac:(lia)) as (ND & _ & _).
    destruct (wt_spec n j ltac:(lia) NE) as (S0 & A2 & Wf & _). specialize (T2 NE).
    assert (EM : forall upd, match map (fun e : nat * R => (fst e, rdiv b64 (Fin (snd e)) (rrow_sum b64 (A n)))) (A n) with [] => (if negb false then for_range N (fun k update => radd_at b64 update k (rdiv b64 (meas n) (Fin (INR N)))) upd else upd)
      | p :: l => for_each (p :: l) (fun e update => radd_at b64 update (fst e) (rmul b64 (snd e) (meas n))) upd end
      = for_each (A n) (fun e update => radd_at b64 update (fst e) (rmul b64 (rdiv b64 (Fin (snd e)) (rrow_sum b64 (A n))) (meas n))) upd).
    { intros upd. match goal with |- match ?m with _ => _ end = _ => destruct m as [|p l] eqn:Em end; [apply map_eq_nil in Em; contradiction|]. rewrite <- Em. unfold for_each. rewrite fold_map. reflexivity. }
    rewrite EM. rewrite push_at by exact ND. pose proof (entry_find (A n) j ND) as EF. destruct (find (fun e0 => Nat.eqb (fst e0) j) (A n)) as [e'|] eqn:F.
    + rewrite Rs, rdiv_fin by lra. rewrite <- EF. assert (0 <= entry (A n) j / rsumi n) by (apply Rmult_le_pos; [apply (entry_le n j ltac:(lia)) | left; apply Rinv_0_lt_compat, S0]).
      assert (two 1 <= two 1022) by (apply two_le; lia). rewrite two_1 in *. destruct (rv_spec (entry (A n) j / rsumi n) ltac:(lra)) as (-> & _). fold (wt n j).
      rewrite (Hm n ltac:(lia)), rmul_fin, T2. reflexivity.
    + assert (Z : tt x n j = 0).
      { unfold wt in T2. rewrite EF in T2. replace (0 / rsumi n) with 0 in T2 by (unfold Rdiv; ring). rewrite (rv_fixed 0 double_0), Rmult_0_l, b64_0 in T2. injection T2 as <-. reflexivity. }
      change (0 + n)%nat with n. rewrite Z, Ep. unfold radd. cbn [nadd rnd_num]. rewrite Rplus_0_r, (b64_fixed _ (proj2 Fp)). reflexivity.
Qed.

(** The next vector. *)
Definition jump : R := rv (rv (1 - alpha) / INR N).
Definition fstep (x : nat -> R) (j : nat) : R := rv (rv (acc (terms x N j) 0 * alpha) + jump).

Lemma walk_le : forall x j, mass_ok x -> (j < N)%nat -> 0 <= walk N A x j <= 2.
Proof.
  intros x j M Hj. pose proof rows_good as G. assert (P : forall j, 0 <= walk N A x j) by (apply walk_nonneg; auto; intros i Hi; apply (mass_le x i M Hi)).
  split; [apply P|]. eapply Rle_trans; [|apply (proj2 M)]. rewrite <- (walk_sum N A x G HN). apply (sumn_ge_term N (walk N A x) j); auto.
Qed.

Lemma fstep_spec : forall x j, mass_ok x -> (j < N)%nat -> fine (fstep x j) /\ ap (15 * hh) (48 * (INR N * eta)) (fstep x j) (damped N A alpha x j) /\
  radd b64 (rmul b64 (Fin (acc (terms x N j) 0)) (Fin alpha)) (rdiv b64 (rsub b64 (Fin 1) (Fin alpha)) (Fin (INR N))) = Fin (fstep x j).
Proof.
  intros x j M Hj. pose proof N_pos. pose proof hh_small. pose proof hh_pos. pose proof uu_pos. pose proof eta_pos. pose proof uu_small. pose proof tiny.
  assert (two (-50) <= 1) by (rewrite <- two_0; apply two_le; lia). pose proof (two_pos (-50)).
  set (ne := INR N * eta) in *. assert (NE0 : eta <= ne) by (unfold ne; nra). assert (NE1 : ne <= 1) by nra.
  assert (B16 : two 4 <= two 1022) by (apply two_le; lia). assert (two 4 = 16) by (rewrite two_Z by lia; reflexivity).
  pose proof (walk_le x j M Hj) as W. destruct (terms_acc x N j M (le_n N)) as (_ & [Y0 Yd] & Ya). set (y := acc (terms x N j) 0) in *.
  assert (R1 : ap (7 * hh) (INR N * (5 * eta)) (sumn N (fun i => tt x i j)) (walk N A x j)).
  { rewrite walk_hop. apply ap_sum. intros i Hi. apply (tt_spec x i j M Hi). }
  replace (INR N * (5 * eta)) with (5 * ne) in R1 by (unfold ne; ring).
  pose proof (ap_trans (7 * hh) (5 * ne) (2 * hh) 0 y _ (walk N A x j) ltac:(lra) ltac:(lra) ltac:(lra) (proj1 W) R1 Ya) as R2.
  assert (R3 : ap (11 * hh) (10 * ne) y (walk N A x j)) by (eapply ap_le; [| | |exact R2]; lra).
  assert (Yb : y <= 15). { unfold ap in R3. apply Rabs_def2_le in R3. nra. }
  pose proof (ap_scale (11 * hh) (10 * ne) y (walk N A x j) alpha 1 ltac:(lra) ltac:(lra) R3) as R4.
  assert (V : 0 <= y * alpha <= 15) by nra. assert (V' : 0 <= walk N A x j * alpha <= 2) by nra.
  destruct (rv_spec (y * alpha) ltac:(lra)) as (E1 & D1 & P1 & _).
  pose proof (ap_round (11 * hh) (1 * (10 * ne)) (y * alpha) (walk N A x j * alpha) ltac:(lra) ltac:(lra) (proj1 V') ltac:(split; [exact (proj1 V) | lra]) R4) as R5.
  assert (R6 : ap (13 * hh) (21 * ne) (rv (y * alpha)) (walk N A x j * alpha)) by (eapply ap_le; [| | |exact R5]; lra).
  destruct (rv_spec (1 - alpha) ltac:(lra)) as (E2 & D2 & P2 & Er2). 
  assert (I1 : 0 < / INR N <= 1) by (split; [apply Rinv_0_lt_compat; lra | rewrite <- Rinv_1; apply Rinv_le_contravar; lra]).
  assert (Bb : rv (1 - alpha) <= 3) by (apply Rabs_def2_le in Er2; nra).
  pose proof (ap_scale uu eta (rv (1 - alpha)) (1 - alpha) (/ INR N) 1 ltac:(lra) ltac:(lra) Er2) as R7.
  assert (V2 : 0 <= rv (1 - alpha) * / INR N <= 3) by nra. assert (V3 : 0 <= (1 - alpha) * / INR N) by nra.
  destruct (rv_spec (rv (1 - alpha) / INR N) ltac:(unfold Rdiv; lra)) as (E3 & D3 & P3 & _).
  pose proof (ap_round uu (1 * eta) (rv (1 - alpha) * / INR N) ((1 - alpha) * / INR N) ltac:(lra) ltac:(lra) V3 ltac:(split; [exact (proj1 V2) | lra]) R7) as R8. fold (Rdiv (rv (1 - alpha)) (INR N)) in R8. fold jump in R8, E3, D3, P3.
  assert (R9 : ap (13 * hh) (3 * ne) jump ((1 - alpha) * / INR N)) by (eapply ap_le; [| | |exact R8]; lra).
  pose proof (ap_add _ _ _ _ _ _ _ R6 R9) as R10.
  assert (Dm : damped N A alpha x j = walk N A x j * alpha + (1 - alpha) * / INR N) by (unfold damped, Rdiv; ring). rewrite <- Dm in R10.
  assert (Dp : 0 <= damped N A alpha x j <= 3) by (rewrite Dm; assert ((1 - alpha) * / INR N <= 1) by nra; lra).
  assert (Vs : rv (y * alpha) + jump <= 16). { unfold ap in R10. apply Rabs_def2_le in R10. unfold ap in *. assert (13 * hh * damped N A alpha x j <= 1) by nra.
    assert (ne <= / 1024) by nra. lra. }
  destruct (rv_add (rv (y * alpha)) jump D1 D3 P1 P3 ltac:(lra)) as (E4 & D4 & P4 & Er4). fold y. fold (fstep x j).
  unfold fstep. fold y. split; [split; assumption|]. split.
  - assert (R11 : ap uu 0 (rv (rv (y * alpha) + jump)) (rv (y * alpha) + jump)) by (unfold ap; lra).
    pose proof (ap_trans (13 * hh) (21 * ne + 3 * ne) uu 0 _ _ _ ltac:(lra) ltac:(lra) ltac:(lra) (proj1 Dp) R10 R11) as R12. eapply ap_le; [| | |exact R12]; lra.
  - rewrite rmul_fin, E1. unfold rsub at 1. cbn [nsub nadd nopp rnd_num]. change (1 + - alpha) with (1 - alpha). rewrite E2, rdiv_fin by lra. rewrite E3.
    unfold radd. cbn [nadd rnd_num]. exact E4.
Qed.

(** The error of an iteration, summed over the vertices. *)
Theorem step_error : forall x, mass_ok x -> dist N (fstep x) (damped N A alpha x) <= 32 * hh.
Proof.
  intros x M. pose proof hh_small. pose proof hh_pos. pose proof uu_pos. pose proof eta_pos. pose proof N_pos. pose proof N_le. unfold dist.
  apply Rle_trans with (sumn N (fun j => 15 * hh * damped N A alpha x j + 48 * (INR N * eta))).
  - apply sumn_le. intros j Hj. apply (fstep_spec x j M Hj).
  - rewrite sumn_plus, sumn_scal_l, sumn_const. unfold damped. rewrite sumn_plus, sumn_scal_l, walk_sum, sumn_const by (auto using rows_good).
    replace (INR N * ((1 - alpha) / INR N)) with (1 - alpha) by (field; lra). pose proof (proj2 M). pose proof tiny as T.
    assert (P : alpha * sumn N x + (1 - alpha) <= 2) by nra. assert (15 * hh * (alpha * sumn N x + (1 - alpha)) <= 30 * hh) by nra.
    assert (INR N * (48 * (INR N * eta)) <= hh); [|lra]. unfold hh. apply Rmult_le_compat_l; [lra|].
    assert (two (-50) <= / 64) by (replace (/ 64) with (two (-6)) by (change (-6)%Z with (- (6))%Z; rewrite two_neg, two_Z by lia; reflexivity); apply two_le; lia). nra.
Qed.

End Step.
