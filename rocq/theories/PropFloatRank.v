(** Property C105: PageRank in double precision. *)
From Verif Require Import Base Num Spec Lib LibFacts RankFacts Kernels Float FloatFacts FloatSolverFacts PropFloat FloatLib FloatRankFacts
  Ids IdFacts Graphs GraphFacts Construct Pipeline PropPipeline LibGraph PropRank.
Import Num Spec.
From Coq Require Import Lra Lia FunctionalExtensionality.

Open Scope R_scope.

(** * C105: without rounding *)

(** Without rounding the functions are those of [Lib] for floating point weights. *)
Theorem C105_exact : forall N A alpha m tol, rpagerank Fin N A alpha m tol = pagerank store_float N A alpha m tol.
Proof.
  assert (E1 : radd Fin = nadd) by (extensionality a; extensionality b; apply rnd_exact).
  assert (E2 : rmul Fin = nmul) by (extensionality a; extensionality b; apply rnd_exact).
  assert (E3 : rdiv Fin = ndiv) by (extensionality a; extensionality b; apply rnd_exact).
  assert (E4 : rsub Fin = nsub) by (extensionality a; extensionality b; apply rnd_exact).
  assert (Sm : forall l s, fold_left (fun c (e : nat * R) => nadd c (Fin (snd e))) l (Fin s) = Fin (s + suml snd l)).
  { induction l as [|e l IH]; intros s; cbn [fold_left suml]; [rewrite Rplus_0_r; reflexivity|]. cbn [nadd]. rewrite IH. f_equal. ring. }
  assert (NR : forall A, rnormalise_rows Fin A = normalise_rows store_float A).
  { intros A. extensionality i. unfold rnormalise_rows, normalise_rows. destruct (A i) as [|e r]; [reflexivity|]. apply map_ext. intros x.
    rewrite E3. unfold rrow_sum, for_each. rewrite E1, Sm, Rplus_0_l. reflexivity. }
  intros N A alpha m tol. unfold rpagerank, pagerank, rpropagate_measure, propagate_measure, rall_close, all_close, radd_at, nadd_at. rewrite E1, E2, E3, E4, NR.
  destruct N as [|N]; [reflexivity|]. assert (E5 : ndiv (nsub (Fin 1) (Fin alpha)) (Fin (INR (S N))) = Fin ((1 - alpha) / INR (S N))).
  { cbn [nsub nadd nopp ndiv]. rewrite Reqb_false by (apply not_0_INR; lia). reflexivity. }
  rewrite E5. reflexivity.
Qed.
Print Assumptions C105_exact.

(** * C105: the iterations *)

Lemma stationary_rows : forall N A alpha x, good_rows N A -> stationary N (fun i j => entry (A i) j) alpha x <-> fixed N (damped N A alpha) x.
Proof.
  intros N A alpha x G.
  assert (E : forall j, sumn N (fun i => if Req_EM_T (sumn N (fun j => entry (A i) j)) 0 then x i / INR N else x i * (entry (A i) j / sumn N (fun j => entry (A i) j))) = walk N A x j).
  { intros j. unfold walk. apply sumn_ext. intros i Hi. change (sumn N (fun j => entry (A i) j)) with (sumn N (entry (A i))). rewrite (entry_sum N (A i) (good_cols N A i G Hi)).
    pose proof (good_pos N A i G Hi) as P. destruct (A i) as [|e r]; destruct (Req_EM_T _ 0) as [Z | Z]; try reflexivity.
    - exfalso. apply Z. reflexivity.
    - exfalso. pose proof (total_pos (e :: r) ltac:(discriminate) P). lra. }
  unfold stationary, fixed, damped. split; intros H j Hj; specialize (H j Hj).
  - rewrite <- (E j). symmetry. exact H.
  - rewrite (E j). symmetry. exact H.
Qed.

Lemma dist_sums : forall N x y, Rabs (sumn N x - sumn N y) <= dist N x y.
Proof.
  intros N x y. unfold dist. replace (sumn N x - sumn N y) with (sumn N (fun k => x k - y k)); [apply sumn_abs|].
  rewrite (sumn_ext N _ (fun k => x k + (-1) * y k)) by (intros; ring). rewrite sumn_plus, sumn_scal_l. ring.
Qed.

Section Run.
Variables (N : nat) (A : nat -> list (nat * R)) (alpha : R).
Hypothesis HA : double_rows N A.
Hypothesis HN : (0 < N)%nat.
Hypothesis HB : (Z.of_nat N <= 2 ^ 40)%Z.
Hypothesis Ha : 0 <= alpha < 1.
Hypothesis Da : double alpha.

Fixpoint frank (n : nat) : nat -> R := match n with O => fun _ => rv (1 / INR N) | S k => fstep N A alpha (frank k) end.

Let d : R := 32 * INR N * two (-53) / (1 - alpha).
Hypothesis Hd : d <= 1.

Lemma d_eq : 32 * hh N = d * (1 - alpha). Proof. unfold d, hh, uu. field. lra. Qed.
Lemma d_pos : 0 < d.
Proof. unfold d. apply Rdiv_lt_0_compat; [|lra]. pose proof (N_pos N HN). pose proof (two_pos (-53)). nra. Qed.

Lemma start_spec : b64 (1 / INR N) = Fin (rv (1 / INR N)) /\ fine (rv (1 / INR N)) /\ dist N (frank 0) (fun _ => 1 / INR N) <= 32 * hh N.
Proof.
  pose proof (N_pos N HN). pose proof (hh_pos N HN). pose proof uu_pos. pose proof eta_pos. pose proof (tiny N HN HB) as T.
  assert (I1 : 0 < 1 / INR N <= 1) by (unfold Rdiv; rewrite Rmult_1_l; split; [apply Rinv_0_lt_compat; lra | rewrite <- Rinv_1; apply Rinv_le_contravar; lra]).
  assert (two 0 <= two 1022) by (apply two_le; lia). rewrite two_0 in *.
  destruct (rv_spec (1 / INR N) ltac:(lra)) as (E & D & P & Er). split; [exact E|]. split; [split; assumption|].
  unfold dist. cbn [frank]. rewrite sumn_const. assert (two (-50) <= 1) by (rewrite <- two_0; apply two_le; lia).
  apply Rle_trans with (INR N * (uu * (1 / INR N) + eta)); [apply Rmult_le_compat_l; lra|]. replace (INR N * (uu * (1 / INR N) + eta)) with (uu + INR N * eta) by (field; lra). nra.
Qed.

Lemma run_mass : forall n, (forall k, (k < N)%nat -> fine (frank n k)) /\ Rabs (sumn N (frank n) - 1) <= d.
Proof.
  pose proof d_pos as Dp. pose proof d_eq as De. pose proof (N_pos N HN). pose proof (rows_good N A alpha HA Ha) as G.
  induction n as [|n [F B]].
  - destruct start_spec as (_ & Fi & S0). split; [intros k _; exact Fi|]. pose proof (dist_sums N (frank 0) (fun _ => 1 / INR N)) as Q.
    rewrite sumn_const in Q. replace (INR N * (1 / INR N)) with 1 in Q by (field; lra). nra.
  - assert (M : mass_ok N (frank n)) by (split; [exact F | apply Rabs_def2_le in B; lra]).
    split; [intros k Hk; apply (fstep_spec N A alpha HA HN HB Ha (frank n) k M Hk)|]. cbn [frank].
    pose proof (step_error N A alpha HA HN HB Ha (frank n) M) as Q. pose proof (dist_sums N (fstep N A alpha (frank n)) (damped N A alpha (frank n))) as Q2.
    assert (Sd : sumn N (damped N A alpha (frank n)) = alpha * sumn N (frank n) + (1 - alpha)).
    { unfold damped. rewrite sumn_plus, sumn_scal_l, walk_sum, sumn_const by auto. field. lra. }
    rewrite Sd in Q2. pose proof (Rabs_triang (sumn N (fstep N A alpha (frank n)) - (alpha * sumn N (frank n) + (1 - alpha))) (alpha * (sumn N (frank n) - 1))) as Tr.
    replace (sumn N (fstep N A alpha (frank n)) - (alpha * sumn N (frank n) + (1 - alpha)) + alpha * (sumn N (frank n) - 1)) with (sumn N (fstep N A alpha (frank n)) - 1) in Tr by ring.
    rewrite (Rabs_mult alpha), (Rabs_right alpha) in Tr by lra. nra.
Qed.

Lemma run_ok : forall n, mass_ok N (frank n).
Proof. intros n. destruct (run_mass n) as [F B]. split; [exact F|]. apply Rabs_def2_le in B. lra. Qed.

(** The distance from the stationary vector. *)
Lemma run_dist : forall x, fixed N (damped N A alpha) x -> (forall k, (k < N)%nat -> 0 <= x k) -> sumn N x = 1 ->
  (forall n, dist N (frank n) x <= 2 * alpha ^ n + d) /\ forall n, dist N (frank (S n)) x <= alpha * dist N (frank n) x + d * (1 - alpha).
Proof.
  intros x Fx P S1. pose proof d_pos as Dp. pose proof d_eq as De. pose proof (N_pos N HN). pose proof (rows_good N A alpha HA Ha) as G.
  assert (St : forall n, dist N (frank (S n)) x <= alpha * dist N (frank n) x + d * (1 - alpha)).
  { intros n. pose proof (step_error N A alpha HA HN HB Ha (frank n) (run_ok n)) as Q. pose proof (dist_triang N (frank (S n)) (damped N A alpha (frank n)) x) as T. cbn [frank] in *.
    pose proof (damped_contract N A alpha (frank n) x G HN ltac:(lra)) as C.
    assert (E : dist N (damped N A alpha (frank n)) x = dist N (damped N A alpha (frank n)) (damped N A alpha x)) by (unfold dist; apply sumn_ext; intros k Hk; rewrite (Fx k Hk); reflexivity). lra. }
  split; [|exact St]. induction n as [|n IH].
  - destruct start_spec as (_ & _ & S0). pose proof (dist_triang N (frank 0) (fun _ => 1 / INR N) x) as T.
    assert (I0 : 0 <= 1 / INR N) by (unfold Rdiv; rewrite Rmult_1_l; left; apply Rinv_0_lt_compat; lra).
    pose proof (dist_prob N (fun _ => 1 / INR N) x ltac:(auto) P) as Q. rewrite S1, sumn_const in Q. replace (INR N * (1 / INR N)) with 1 in Q by (field; lra). cbn [pow]. nra.
  - specialize (St n). cbn [pow]. nra.
Qed.

(** The test for convergence. *)
Definition near (tol : R) (n : nat) : bool := rall_close b64 N tol (fun k => Fin (frank (S n) k)) (fun k => Fin (frank n k)).

Lemma near_ext : forall tol u v u' v', (forall k, (k < N)%nat -> u k = u' k) -> (forall k, (k < N)%nat -> v k = v' k) -> rall_close b64 N tol u v = rall_close b64 N tol u' v'.
Proof.
  intros tol u v u' v' E E'. unfold rall_close. assert (K : forall l, (forall k, In k l -> (k < N)%nat) ->
    forallb (fun k => nltb (nabs (rsub b64 (u k) (v k))) (Fin tol)) l = forallb (fun k => nltb (nabs (rsub b64 (u' k) (v' k))) (Fin tol)) l).
  { induction l as [|k l IH]; intros H; [reflexivity|]. cbn [forallb]. rewrite (E k), (E' k), IH by (try (intros; apply H); cbn; auto). reflexivity. }
  apply K. intros k Hk. apply in_seq in Hk. lia.
Qed.

Lemma abs_b64 : forall z v, b64 (Rabs z) = Fin v -> 0 <= v -> nabs (b64 z) = Fin v.
Proof.
  intros z v E P. destruct (Rcase_abs z) as [L | L].
  - rewrite (Rabs_left z L) in E. rewrite <- (Ropp_involutive z), b64_opp, E. cbn. rewrite Rabs_Ropp, Rabs_right by lra. reflexivity.
  - rewrite (Rabs_right z L) in E. rewrite E. cbn. rewrite Rabs_right by lra. reflexivity.
Qed.

Lemma gap_spec : forall tol n k, (k < N)%nat -> let g := Rabs (frank (S n) k - frank n k) in
  exists v, nabs (rsub b64 (Fin (frank (S n) k)) (Fin (frank n k))) = Fin v /\ Rabs (v - g) <= 2 * uu + eta /\ (nltb (nabs (rsub b64 (Fin (frank (S n) k)) (Fin (frank n k)))) (Fin tol) = true <-> v < tol).
Proof.
  intros tol n k Hk g. pose proof (mass_le N _ k (run_ok n) Hk) as B. pose proof (mass_le N _ k (run_ok (S n)) Hk) as B'. pose proof uu_pos.
  assert (G2 : 0 <= g <= 2) by (unfold g; split; [apply Rabs_pos | apply Rabs_le; lra]). assert (two 1 <= two 1022) by (apply two_le; lia). rewrite two_1 in *.
  destruct (rv_spec g ltac:(lra)) as (E & D & P & Er). exists (rv g).
  assert (K : nabs (rsub b64 (Fin (frank (S n) k)) (Fin (frank n k))) = Fin (rv g)).
  { unfold rsub. cbn [nsub nadd nopp rnd_num]. change (frank (S n) k + - frank n k) with (frank (S n) k - frank n k).
    apply abs_b64; assumption. }
  split; [exact K|]. split; [nra|]. rewrite K. cbn. destruct (Rltb_spec (rv g) tol); split; intros; try assumption; try reflexivity; try discriminate; lra.
Qed.

Lemma near_true : forall tol n, near tol n = true -> dist N (frank (S n)) (frank n) <= INR N * tol + d * (1 - alpha).
Proof.
  intros tol n H. unfold near, rall_close in H. rewrite forallb_forall in H. pose proof (N_pos N HN). pose proof uu_pos. pose proof eta_pos. pose proof (tiny N HN HB).
  assert (two (-50) <= 1) by (rewrite <- two_0; apply two_le; lia). rewrite <- d_eq. unfold hh.
  apply Rle_trans with (sumn N (fun _ => tol + (2 * uu + eta))).
  - apply sumn_le. intros k Hk. destruct (gap_spec tol n k Hk) as (v & E & Q & I). specialize (H k ltac:(apply in_seq; lia)). apply I in H. apply Rabs_def2_le in Q. lra.
  - rewrite sumn_const. nra.
Qed.

Lemma near_false : forall tol n, near tol n = false -> tol <= dist N (frank (S n)) (frank n) + d.
Proof.
  intros tol n H. apply Rnot_lt_le. intros C. assert (near tol n = true); [|congruence]. unfold near, rall_close. apply forallb_forall. intros k Hk. apply in_seq in Hk.
  destruct (gap_spec tol n k ltac:(lia)) as (v & E & Q & I). apply I. apply Rabs_def2_le in Q. pose proof (dist_comp N (frank (S n)) (frank n) k ltac:(lia)) as K.
  pose proof (N_pos N HN). pose proof uu_pos. pose proof eta_pos. pose proof (tiny N HN HB). assert (two (-50) <= 1) by (rewrite <- two_0; apply two_le; lia). pose proof d_eq as De. pose proof d_pos.
  assert (32 * uu <= 32 * hh N) by (pose proof (hh_pos N HN); lra). assert (eta <= uu) by nra. nra.
Qed.

Lemma run_result : forall m tol, (0 < m)%nat -> exists r v, rpagerank b64 N A alpha m tol = Ok (r, v) /\
  match v with
  | Converged n => (n < m)%nat /\ near tol n = true /\ (forall q, (q < n)%nat -> near tol q = false) /\ forall k, (k < N)%nat -> r k = Fin (frank (S n) k)
  | Stopped n => n = m /\ (forall q, (q < m)%nat -> near tol q = false) /\ forall k, (k < N)%nat -> r k = Fin (frank m k)
  end.
Proof.
  intros m tol Hm. unfold rpagerank. assert (E0 : Nat.eqb N 0 = false) by (apply Nat.eqb_neq; lia). rewrite E0. assert (E1 : Nat.eqb m 0 = false) by (apply Nat.eqb_neq; lia). rewrite E1.
  pose proof (N_pos N HN).
  set (step := fun (rank : nat -> num) (k : nat) => radd b64 (rmul b64 (rpropagate_measure b64 N (rnormalise_rows b64 A) N rank false k) (Fin alpha)) (rdiv b64 (rsub b64 (Fin 1) (Fin alpha)) (Fin (INR N)))).
  assert (Hs : forall n s, (forall k, (k < N)%nat -> s k = Fin (frank n k)) -> forall k, (k < N)%nat -> step s k = Fin (frank (S n) k)).
  { intros n s Es k Hk. unfold step. rewrite (propagate_spec N A alpha HA HN HB Ha (frank n) s k (run_ok n) Es Hk). apply (fstep_spec N A alpha HA HN HB Ha (frank n) k (run_ok n) Hk). }
  assert (L : forall M, match for_flow M (fun n rank => if rall_close b64 N tol (step rank) rank then Return (Ok (step rank, Converged n)) else Next (step rank)) (fun _ => rdiv b64 (Fin 1) (Fin (INR N))) with
    | Return r' => exists r n, r' = Ok (r, Converged n) /\ (n < M)%nat /\ near tol n = true /\ (forall q, (q < n)%nat -> near tol q = false) /\ forall k, (k < N)%nat -> r k = Fin (frank (S n) k)
    | Next s => (forall q, (q < M)%nat -> near tol q = false) /\ forall k, (k < N)%nat -> s k = Fin (frank M k) end).
  { induction M as [|M IH].
    - cbn [for_flow]. split; [intros; lia|]. intros k Hk. rewrite rdiv_fin by lra. exact (proj1 start_spec).
    - cbn [for_flow]. destruct (for_flow M _ _) as [s|r'].
      + destruct IH as [I1 I2]. rewrite (near_ext tol (step s) s (fun k => Fin (frank (S M) k)) (fun k => Fin (frank M k)) (Hs M s I2) I2). fold (near tol M).
        destruct (near tol M) eqn:E.
        * exists (step s), M. repeat split; auto.
        * split; [|apply (Hs M s I2)]. intros q Hq. destruct (Nat.eq_dec q M) as [-> | NE]; [exact E | apply I1; lia].
      + destruct IH as (r & n & -> & I). exists r, n. split; [reflexivity|]. destruct I as (I1 & I2). split; [lia | exact I2]. }
  specialize (L m). fold step. destruct (for_flow m _ _) as [s|r'].
  - exists s, (Stopped m). split; [reflexivity|]. split; [reflexivity | exact L].
  - destruct L as (r & n & -> & L). exists r, (Converged n). split; [reflexivity | exact L].
Qed.

End Run.

(** The ranks returned are not negative, sum to one within [d], and are as close to the stationary vector as the exact ones, up to [d]: 32
    rounding errors for every vertex, divided by [1 - alpha].  [total (A i) <= 2^1000] excludes overflow. *)
Theorem C105_accuracy : forall N A alpha m tol, double_rows N A -> (0 < N)%nat -> (Z.of_nat N <= 2 ^ 40)%Z -> 0 <= alpha < 1 -> double alpha -> (0 < m)%nat ->
  let d := 32 * INR N * two (-53) / (1 - alpha) in d <= 1 ->
  exists x r v y, stationary N (fun i j => entry (A i) j) alpha x /\ rpagerank b64 N A alpha m tol = Ok (r, v) /\
    (forall k, (k < N)%nat -> r k = Fin (y k) /\ 0 <= y k /\ double (y k)) /\ Rabs (sumn N y - 1) <= d /\
    match v with
    | Converged n => (n < m)%nat /\ sumn N (fun k => Rabs (y k - x k)) <= 2 * alpha ^ S n + d /\ sumn N (fun k => Rabs (y k - x k)) <= alpha / (1 - alpha) * (INR N * tol) + 2 * d
    | Stopped n => n = m /\ sumn N (fun k => Rabs (y k - x k)) <= 2 * alpha ^ n + d
    end.
Proof.
  intros N A alpha m tol HA HN HB Ha Da Hm d Hd. pose proof (rows_good N A alpha HA Ha) as G. destruct (rank_limit N A alpha G HN Ha) as (x & Cv & Fx & Nx).
  assert (P0 : forall k, (k < N)%nat -> 0 <= x k).
  { intros k Hk. apply Rnot_lt_le. intros C. destruct (Cv k Hk (- x k) ltac:(lra)) as [n0 H0]. specialize (H0 n0 ltac:(lia)). unfold R_dist in H0.
    destruct (rank_prob N A alpha n0 G HN ltac:(lra)) as [P _]. specialize (P k). apply Rabs_def2 in H0. lra. }
  assert (P1 : sumn N x = 1).
  { assert (D : forall n, Rabs (sumn N x - 1) <= alpha ^ n * 2).
    { intros n. destruct (rank_prob N A alpha n G HN ltac:(lra)) as [_ P]. rewrite <- P. eapply Rle_trans; [apply dist_sums | apply (Nx n)]. }
    destruct (Req_dec (sumn N x) 1) as [Q | Q]; [exact Q|]. exfalso. assert (0 < Rabs (sumn N x - 1)) as Q' by (apply Rabs_pos_lt; lra).
    destruct (pow_small alpha 2 _ Ha ltac:(lra) Q') as [n0 H0]. specialize (H0 n0 ltac:(lia)). specialize (D n0). lra. }
  destruct (run_dist N A alpha HA HN HB Ha Hd x Fx P0 P1) as [B1 B2]. destruct (run_result N A alpha HA HN HB Ha Hd m tol Hm) as (r & v & E & V). fold d in B1, B2.
  assert (Dp : 0 < d) by (apply (d_pos N alpha HN Ha)).
  destruct v as [n|n].
  - destruct V as (V1 & V2 & V3 & V4). exists x, r, (Converged n), (frank N A alpha (S n)). split; [apply stationary_rows; assumption|]. split; [exact E|].
    destruct (run_mass N A alpha HA HN HB Ha Hd (S n)) as [F M]. split; [intros k Hk; split; [apply V4, Hk | apply (F k Hk)]|]. split; [exact M|]. split; [exact V1|]. split; [apply B1|].
    pose proof (near_true N A alpha HA HN HB Ha Hd tol n V2) as Q. fold d in Q. specialize (B2 n). pose proof (dist_triang N (frank N A alpha n) (frank N A alpha (S n)) x) as T. rewrite dist_sym in Q.
    change (sumn N (fun k => Rabs (frank N A alpha (S n) k - x k))) with (dist N (frank N A alpha (S n)) x).
    set (d1 := dist N (frank N A alpha (S n)) x) in *. set (d0 := dist N (frank N A alpha n) x) in *.
    apply Rmult_le_reg_l with (1 - alpha); [lra|]. replace ((1 - alpha) * (alpha / (1 - alpha) * (INR N * tol) + 2 * d)) with (alpha * (INR N * tol) + 2 * (d * (1 - alpha))) by (field; lra).
    set (e := d * (1 - alpha)) in *. assert (0 < e) by (unfold e; nra). nra.
  - destruct V as (-> & V3 & V4). exists x, r, (Stopped m), (frank N A alpha m). split; [apply stationary_rows; assumption|]. split; [exact E|].
    destruct (run_mass N A alpha HA HN HB Ha Hd m) as [F M]. split; [intros k Hk; split; [apply V4, Hk | apply (F k Hk)]|]. split; [exact M|]. split; [reflexivity | apply B1].
Qed.
Print Assumptions C105_accuracy.

(** Convergence is reported within [k + 1] iterations if [4 alpha^k + 3 d < tol]. *)
Theorem C105_converges : forall N A alpha m tol k, double_rows N A -> (0 < N)%nat -> (Z.of_nat N <= 2 ^ 40)%Z -> 0 <= alpha < 1 -> double alpha -> (k < m)%nat ->
  let d := 32 * INR N * two (-53) / (1 - alpha) in d <= 1 -> 4 * alpha ^ k + 3 * d < tol ->
  exists r n, rpagerank b64 N A alpha m tol = Ok (r, Converged n) /\ (n <= k)%nat.
Proof.
  intros N A alpha m tol k HA HN HB Ha Da Hm d Hd Ht. pose proof (rows_good N A alpha HA Ha) as G. destruct (rank_limit N A alpha G HN Ha) as (x & Cv & Fx & Nx).
  assert (P0 : forall k, (k < N)%nat -> 0 <= x k).
  { intros q Hk. apply Rnot_lt_le. intros C. destruct (Cv q Hk (- x q) ltac:(lra)) as [n0 H0]. specialize (H0 n0 ltac:(lia)). unfold R_dist in H0.
    destruct (rank_prob N A alpha n0 G HN ltac:(lra)) as [P _]. specialize (P q). apply Rabs_def2 in H0. lra. }
  assert (P1 : sumn N x = 1).
  { assert (D : forall n, Rabs (sumn N x - 1) <= alpha ^ n * 2).
    { intros n. destruct (rank_prob N A alpha n G HN ltac:(lra)) as [_ P]. rewrite <- P. eapply Rle_trans; [apply dist_sums | apply (Nx n)]. }
    destruct (Req_dec (sumn N x) 1) as [Q | Q]; [exact Q|]. exfalso. assert (0 < Rabs (sumn N x - 1)) as Q' by (apply Rabs_pos_lt; lra).
    destruct (pow_small alpha 2 _ Ha ltac:(lra) Q') as [n0 H0]. specialize (H0 n0 ltac:(lia)). specialize (D n0). lra. }
  destruct (run_dist N A alpha HA HN HB Ha Hd x Fx P0 P1) as [B1 B2]. destruct (run_result N A alpha HA HN HB Ha Hd m tol ltac:(lia)) as (r & v & E & V). fold d in B1, B2.
  assert (NF : near N A alpha tol k = true).
  { destruct (near N A alpha tol k) eqn:Q; [reflexivity|]. exfalso. apply (near_false N A alpha HA HN HB Ha Hd) in Q. fold d in Q.
    pose proof (dist_triang N (frank N A alpha (S k)) x (frank N A alpha k)) as T. rewrite (dist_sym N x) in T. pose proof (B1 k) as K1. pose proof (B1 (S k)) as K2. cbn [pow] in K2.
    pose proof (pow_le alpha k ltac:(lra)). nra. }
  exists r. destruct v as [n|n].
  - exists n. split; [exact E|]. destruct V as (_ & _ & V3 & _). apply Nat.nlt_ge. intros Hn. rewrite (V3 k Hn) in NF. discriminate.
  - exfalso. destruct V as (_ & V3 & _). rewrite (V3 k Hm) in NF. discriminate.
Qed.
Print Assumptions C105_converges.

(** With the default arguments, which are the doubles nearest to 0.85 and 1e-6, convergence is reported for every graph with at most 2^20
    vertices, and the total error is at most 6 N 1e-6. *)
Theorem C105_default : forall N A alpha tol, double_rows N A -> (0 < N)%nat -> (Z.of_nat N <= 2 ^ 20)%Z -> b64 (85 / 100) = Fin alpha -> b64 (/ 10 ^ 6) = Fin tol ->
  exists x r n y, stationary N (fun i j => entry (A i) j) alpha x /\ rpagerank b64 N A alpha 100 tol = Ok (r, Converged n) /\ (n <= 95)%nat /\
    (forall k, (k < N)%nat -> r k = Fin (y k) /\ 0 <= y k) /\ sumn N (fun k => Rabs (y k - x k)) <= 6 * INR N * / 10 ^ 6.
Proof.
  intros N A alpha tol HA HN HB Ea Et.
  assert (T0 : two 0 <= two 1022) by (apply two_le; lia). rewrite two_0 in T0. pose proof uu_pos as U0. pose proof eta_pos as N0.
  assert (U1 : uu <= / 10 ^ 15).
  { unfold uu. change (-53)%Z with (- (53))%Z. rewrite two_neg, two_Z by lia. apply Rinv_le_contravar; [apply pow_lt; lra|]. rewrite pow_IZR. apply IZR_le. vm_compute. discriminate. }
  assert (N1 : eta <= uu) by (unfold eta, uu; apply two_le; lia).
  assert (Z6 : / 10 ^ 6 = 1 / 1000000) by (cbn [pow]; lra). assert (Z15 : / 10 ^ 15 = 1 / 1000000000000000) by (cbn [pow]; lra). rewrite Z15 in U1.
  destruct (rv_spec (85 / 100) ltac:(lra)) as (E1 & D1 & _ & R1). rewrite Ea in E1. injection E1 as E1. rewrite <- E1 in *.
  rewrite Z6 in *. destruct (rv_spec (1 / 1000000) ltac:(lra)) as (E2 & D2 & _ & R2). rewrite Et in E2. injection E2 as E2. rewrite <- E2 in D2, R2.
  apply Rabs_def2_le in R1. apply Rabs_def2_le in R2.
  assert (Ba : 0 <= alpha <= 85 / 100 + 2 / 1000000000000000) by lra. assert (Bt : 1 / 1000000 - 2 / 1000000000000000 <= tol <= 1 / 1000000 + 2 / 1000000000000000) by lra.
  set (d := 32 * INR N * two (-53) / (1 - alpha)).
  assert (HI : 1 <= INR N) by (apply (le_INR 1 N); lia).
  assert (I1 : / (1 - alpha) <= 7) by (replace 7 with (/ (1 / 7)) by field; apply Rinv_le_contravar; lra).
  assert (I0 : 0 < / (1 - alpha)) by (apply Rinv_0_lt_compat; lra).
  assert (Bd : d <= 224 * INR N * uu). { unfold d, Rdiv. fold uu. apply Rle_trans with (32 * INR N * uu * 7); [apply Rmult_le_compat_l; [nra | exact I1] | lra]. }
  assert (Nu : INR N * uu <= / 2 ^ 33).
  { apply Rle_trans with (two 20 * uu); [apply Rmult_le_compat_r; [lra|]; rewrite INR_IZR_INZ, two_Z by lia; apply IZR_le, HB|]. unfold uu. rewrite <- two_add.
    change (20 + -53)%Z with (- (33))%Z. rewrite two_neg, two_Z by lia. right. f_equal. rewrite pow_IZR. reflexivity. }
  assert (Z33 : / 2 ^ 33 = 1 / 8589934592) by (cbn [pow]; lra). rewrite Z33 in Nu.
  assert (Bd2 : d <= 3 / 100000000) by lra.
  assert (Pw : alpha ^ 95 <= 2 / 10000000).
  { apply Rle_trans with ((IZR 85001 / IZR 100000) ^ 95); [apply pow_incr; lra|]. unfold Rdiv. rewrite Rpow_mult_distr, pow_inv by lra.
    apply Rmult_le_reg_r with (IZR 100000 ^ 95); [apply pow_lt; lra|]. rewrite Rmult_assoc, Rinv_l by (apply pow_nonzero; lra). rewrite Rmult_1_r.
    apply Rmult_le_reg_l with (IZR 10000000); [lra|]. replace (IZR 10000000 * (2 * / 10000000 * IZR 100000 ^ 95)) with (2 * IZR 100000 ^ 95) by field.
    rewrite !pow_IZR, <- !mult_IZR. apply IZR_le. vm_compute. discriminate. }
  destruct (C105_converges N A alpha 100 tol 95 HA HN ltac:(lia) ltac:(lra) D1 ltac:(lia)) as (r & n & E & Hn); [fold d; lra | fold d; lra|].
  destruct (C105_accuracy N A alpha 100 tol HA HN ltac:(lia) ltac:(lra) D1 ltac:(lia)) as (x & r' & v & y & Sx & E' & K & _ & V); [fold d; lra|]. fold d in V.
  rewrite E in E'. injection E' as <- <-. exists x, r, n, y. split; [exact Sx|]. split; [exact E|]. split; [lia|]. split; [intros k Hk; split; apply (K k Hk)|].
  destruct V as (_ & _ & V). eapply Rle_trans; [exact V|].
  assert (F : alpha / (1 - alpha) <= 57 / 10). { unfold Rdiv at 1. apply Rmult_le_reg_r with (1 - alpha); [lra|]. rewrite Rmult_assoc, Rinv_l by lra. lra. }
  assert (Q1 : alpha / (1 - alpha) * (INR N * tol) <= 57 / 10 * (INR N * tol)) by (apply Rmult_le_compat_r; [nra | exact F]).
  assert (Q2 : INR N * uu <= INR N * (1 / 1000000000000000)) by (apply Rmult_le_compat_l; lra).
  assert (Q3 : INR N * tol <= INR N * (1 / 1000000 + 2 / 1000000000000000)) by (apply Rmult_le_compat_l; lra). lra.
Qed.
Print Assumptions C105_default.

(** * Examples *)
Definition three (i : nat) : list (nat * R) := match i with 0%nat => [(1%nat, 1); (2%nat, 3)] | 1%nat => [(0%nat, 1)] | _ => [] end.

Lemma three_rows : double_rows 3 three.
Proof.
  assert (B : IZR 4 <= two 1000) by (replace (IZR 4) with (two 2) by (rewrite two_Z by lia; reflexivity); apply two_le; lia).
  intros [|[|[|i]]] Hi; try lia; unfold three, total; cbn [map fst snd suml]; (split; [repeat constructor; cbn; intuition lia|]); (split; [|lra]);
    repeat constructor; cbn [fst snd]; try lia; try lra; try (apply (double_Z 1); lia); try (apply (double_Z 3); lia).
Qed.

Example C105_case : double_rows 3 three /\ (Z.of_nat 3 <= 2 ^ 20)%Z /\ 0 <= 1 / 2 < 1 /\ double (1 / 2) /\ 32 * INR 3 * two (-53) / (1 - 1 / 2) <= 1 / 1000 /\
  4 * (1 / 2) ^ 20 + 3 * (32 * INR 3 * two (-53) / (1 - 1 / 2)) < 1 / 100 /\ (exists alpha, b64 (85 / 100) = Fin alpha) /\ exists tol, b64 (/ 10 ^ 6) = Fin tol.
Proof.
  split; [apply three_rows|]. split; [cbn; lia|]. split; [lra|]. split; [rewrite <- two_m1; apply double_two; lia|].
  assert (U : two (-53) <= / IZR (2 ^ 30)) by (change (-53)%Z with (- (53))%Z; rewrite two_neg, two_Z by lia; apply Rinv_le_contravar; [apply (IZR_lt 0); reflexivity | apply IZR_le; discriminate]).
  change (IZR (2 ^ 30)) with (IZR 1073741824) in U. pose proof (two_pos (-53)). cbn [INR].
  split; [lra|]. split; [cbn [pow]; lra|]. assert (T0 : two 0 <= two 1022) by (apply two_le; lia). rewrite two_0 in T0.
  split; [exists (rv (85 / 100)) | exists (rv (/ 10 ^ 6))]; apply rv_spec; [lra|]. cbn [pow]. lra.
Qed.

(** The rows that the theorems ask for are those of the matrix that PageRank takes from a graph with one matrix whose weights are doubles. *)
Theorem C105_graph : forall N s gr, library_graph true N s gr -> (exists M, s = SGraph M \/ s = SDiGraph M) ->
  (forall i j, (i < N)%nat -> (j < N)%nat -> double (seen s i j)) -> (forall i, (i < N)%nat -> sumn N (seen s i) <= two 1000) ->
  exists A, adjacency_matrix N s true true = Ok A /\ sp_bool A = false /\ double_rows N (sp_row A) /\
    forall i j, (i < N)%nat -> (j < N)%nat -> entry (sp_row A i) j = seen s i j.
Proof.
  intros N s gr H HS HD HT. assert (L : layers s <> []) by (destruct HS as [M [-> | ->]]; discriminate).
  destruct (graph_rows N s gr H L) as (A & EA & EB & G & E & T & Z). exists A. split; [exact EA|]. split; [exact EB|]. split; [|exact E].
  destruct (adjacency_spec true N s true true A (library_valid _ _ _ _ H) EA) as [WA _]. intros i Hi. destruct (WA i Hi) as [Ss F].
  assert (ND : NoDup (map fst (sp_row A i))).
  { clear - Ss. induction Ss as [|a l Ss IH Fa]; constructor; [|exact IH]. intros C. rewrite Forall_forall in Fa. specialize (Fa a C). lia. }
  split; [exact ND|]. split; [|rewrite (T i Hi); apply HT, Hi]. apply Forall_forall. intros e He. pose proof F as F'. rewrite Forall_forall in F'. destruct (F' e He) as (F1 & F2 & _).
  split; [exact F1|]. split; [exact F2|]. replace (snd e) with (entry (sp_row A i) (fst e)); [rewrite (E i (fst e) Hi F1); apply HD; assumption|].
  rewrite (entry_find _ _ ND). destruct (find (fun e0 => Nat.eqb (fst e0) (fst e)) (sp_row A i)) as [e'|] eqn:Q.
  - apply find_some in Q as [I Q]. apply Nat.eqb_eq in Q. clear - ND He I Q. induction (sp_row A i) as [|a l IH]; [contradiction|]. cbn [map] in ND. inversion ND as [|? ? NI ND']; subst.
    destruct He as [-> | He], I as [-> | I]; auto; exfalso; apply NI; [rewrite <- Q | rewrite Q]; apply in_map; assumption.
  - exfalso. pose proof (find_none _ _ Q e He) as K. cbv beta in K. rewrite Nat.eqb_refl in K. discriminate.
Qed.
Print Assumptions C105_graph.

Example C105_graph_case : library_graph true 3 (small_graph 3 path) None /\ (exists M, small_graph 3 path = SGraph M \/ small_graph 3 path = SDiGraph M) /\
  (forall i j, (i < 3)%nat -> (j < 3)%nat -> double (seen (small_graph 3 path) i j)) /\ (forall i, (i < 3)%nat -> sumn 3 (seen (small_graph 3 path) i) <= two 1000).
Proof.
  assert (V : forall i j, (i < 3)%nat -> (j < 3)%nat -> exists z : Z, seen (small_graph 3 path) i j = IZR z /\ (0 <= z <= 2)%Z).
  { intros i j Hi Hj. unfold seen. cbn [is_directed small_graph]. change (SDiGraph (coo_tocsr false 3 path)) with (small_graph 3 path). rewrite small_link by exact Hj.
    destruct i as [|[|[|i]]]; try lia; destruct j as [|[|[|j]]]; try lia; cbn;
      first [exists 0%Z; split; [lra | lia] | exists 1%Z; split; [lra | lia] | exists 2%Z; split; [lra | lia]]. }
  split; [apply small_library; auto|]. split; [eexists; right; reflexivity|]. split.
  - intros i j Hi Hj. destruct (V i j Hi Hj) as (z & -> & Hz). apply double_Z. lia.
  - intros i Hi. apply Rle_trans with (sumn 3 (fun _ => 2)); [apply sumn_le; intros j Hj; destruct (V i j Hi Hj) as (z & -> & Hz); apply IZR_le; lia|].
    rewrite sumn_const. cbn [INR]. apply Rle_trans with (two 3); [rewrite two_Z by lia; cbn; lra | apply two_le; lia].
Qed.

(** * What fails *)

(** The weights of a vertex are finite and positive but their sum overflows: its links count for nothing and the ranks sum to 3/4. *)
Theorem C105_overflow_refuted : exists N A alpha r, (forall i, (i < N)%nat -> NoDup (map fst (A i)) /\ Forall (fun e => (fst e < N)%nat /\ 0 < snd e /\ double (snd e)) (A i)) /\
  0 <= alpha < 1 /\ double alpha /\ rpagerank b64 N A alpha 1 0 = Ok (r, Stopped 1) /\ N = 2%nat /\ r 0%nat = Fin (3 / 8) /\ r 1%nat = Fin (3 / 8).
Proof.
  set (A := fun i : nat => match i with 0%nat => [(0%nat, two 1023); (1%nat, two 1023)] | _ => [] end).
  assert (Fr : forall m e, (Z.abs m < 2 ^ 53)%Z -> (-1074 <= e <= 971)%Z -> b64 (IZR m * two e) = Fin (IZR m * two e)) by (intros m e Hm He; apply b64_fixed; exists m, e; auto).
  assert (T1 : two (-1) = 1 / 2) by apply two_m1. assert (T2 : two (-2) = 1 / 4) by (change (-2)%Z with (-1 + -1)%Z; rewrite two_add, T1; lra).
  assert (T3 : two (-3) = 1 / 8) by (change (-3)%Z with (-1 + -2)%Z; rewrite two_add, T1, T2; lra).
  assert (F1 : b64 1 = Fin 1) by (pose proof (Fr 1%Z 0%Z ltac:(lia) ltac:(lia)) as K; rewrite two_0, Rmult_1_r in K; exact K).
  assert (Fh : b64 (1 / 2) = Fin (1 / 2)) by (pose proof (Fr 1%Z (-1)%Z ltac:(lia) ltac:(lia)) as K; rewrite T1, Rmult_1_l in K; exact K).
  assert (Fq : b64 (1 / 4) = Fin (1 / 4)) by (pose proof (Fr 1%Z (-2)%Z ltac:(lia) ltac:(lia)) as K; rewrite T2, Rmult_1_l in K; exact K).
  assert (Fe : b64 (1 / 8) = Fin (1 / 8)) by (pose proof (Fr 1%Z (-3)%Z ltac:(lia) ltac:(lia)) as K; rewrite T3, Rmult_1_l in K; exact K).
  assert (Ft : b64 (3 / 8) = Fin (3 / 8)) by (pose proof (Fr 3%Z (-3)%Z ltac:(lia) ltac:(lia)) as K; rewrite T3 in K; replace (3 * (1 / 8)) with (3 / 8) in K by lra; exact K).
  assert (Ov : rrow_sum b64 (A 0%nat) = PInf).
  { unfold rrow_sum, for_each, A. cbn [fold_left snd]. unfold radd. cbn [nadd rnd_num]. rewrite Rplus_0_l, (b64_two 1023) by lia. cbn [nadd rnd_num].
    replace (two 1023 + two 1023) with (two 1024) by (change 1024%Z with (1 + 1023)%Z; rewrite two_add, two_1; ring). apply b64_over. lia. }
  assert (HI : INR 2 = 2) by (cbn; lra).
  set (init := fun _ : nat => rdiv b64 (Fin 1) (Fin (INR 2))).
  assert (E0 : rdiv b64 (Fin 1) (Fin (INR 2)) = Fin (1 / 2)) by (rewrite HI, rdiv_fin by lra; exact Fh).
  assert (Pr : forall k, (k < 2)%nat -> rpropagate_measure b64 2 (rnormalise_rows b64 A) 2 init false k = Fin (1 / 4)).
  { intros k Hk. unfold rpropagate_measure. cbn [for_range]. unfold rnormalise_rows at 1. change (A 1%nat) with (@nil (nat * R)). cbn [negb].
    assert (R0 : rnormalise_rows b64 A 0 = [(0%nat, Fin 0); (1%nat, Fin 0)]).
    { unfold rnormalise_rows. destruct (A 0%nat) as [|e l] eqn:EA; [discriminate|]. rewrite Ov. injection EA as <- <-. cbn [map fst snd]. unfold rdiv. cbn [ndiv rnd_num]. rewrite b64_0. reflexivity. }
    rewrite R0. unfold for_each. cbn [fold_left fst snd]. unfold init. rewrite E0, HI, rdiv_fin by lra. replace (1 / 2 / 2) with (1 / 4) by lra. rewrite Fq.
    rewrite rmul_fin, Rmult_0_l, b64_0.
    assert (K : forall i, radd_at b64 (radd_at b64 (fun _ => Fin 0) 0 (Fin 0)) 1 (Fin 0) i = Fin 0).
    { intros [|[|i]]; unfold radd_at, upd; cbn; rewrite ?Rplus_0_r, ?b64_0; reflexivity. }
    assert (Q : radd b64 (Fin 0) (Fin (1 / 4)) = Fin (1 / 4)) by (unfold radd; cbn [nadd rnd_num]; rewrite Rplus_0_l; exact Fq).
    destruct k as [|[|k]]; [| |lia]; unfold radd_at at 1 2; unfold upd at 1 2; cbn [Nat.eqb]; unfold upd; cbn [Nat.eqb]; rewrite ?K; exact Q. }
  exists 2%nat, A, (1 / 2), (fun k => radd b64 (rmul b64 (rpropagate_measure b64 2 (rnormalise_rows b64 A) 2 init false k) (Fin (1 / 2))) (rdiv b64 (rsub b64 (Fin 1) (Fin (1 / 2))) (Fin (INR 2)))).
  assert (V : forall k, (k < 2)%nat -> radd b64 (rmul b64 (rpropagate_measure b64 2 (rnormalise_rows b64 A) 2 init false k) (Fin (1 / 2))) (rdiv b64 (rsub b64 (Fin 1) (Fin (1 / 2))) (Fin (INR 2))) = Fin (3 / 8)).
  { intros k Hk. rewrite (Pr k Hk), rmul_fin. replace (1 / 4 * (1 / 2)) with (1 / 8) by lra. rewrite Fe. unfold rsub. cbn [nsub nadd nopp rnd_num].
    replace (1 + - (1 / 2)) with (1 / 2) by lra. rewrite Fh, HI, rdiv_fin by lra. replace (1 / 2 / 2) with (1 / 4) by lra. rewrite Fq. unfold radd. cbn [nadd rnd_num].
    replace (1 / 8 + 1 / 4) with (3 / 8) by lra. exact Ft. }
  split; [|split; [lra|split; [rewrite <- T1; apply double_two; lia|split; [|split; [reflexivity | split; apply V; lia]]]]].
  - intros [|[|i]] Hi; try lia; unfold A; (split; [repeat constructor; cbn; intuition lia|]); repeat constructor; cbn [fst snd]; try lia; try apply two_pos; apply double_two; lia.
  - unfold rpagerank. cbn [for_flow Nat.eqb]. fold init.
    rewrite (near_ext 2 ltac:(lia) 0 _ init (fun _ => Fin (3 / 8)) (fun _ => Fin (1 / 2))); [|exact V | intros; exact E0].
    assert (C : rall_close b64 2 0 (fun _ => Fin (3 / 8)) (fun _ => Fin (1 / 2)) = false).
    { unfold rall_close. cbn [seq forallb]. unfold rsub. cbn [nsub nadd nopp rnd_num]. replace (3 / 8 + - (1 / 2)) with (- (1 / 8)) by lra. rewrite b64_opp, Fe. cbn.
      destruct (Rltb_spec (Rabs (- (1 / 8))) 0) as [K | K]; [pose proof (Rabs_pos (- (1 / 8))); lra | reflexivity]. }
    rewrite C. reflexivity.
Qed.
Print Assumptions C105_overflow_refuted.
