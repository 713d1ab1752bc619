(** Facts about density fitting. *)
From Verif Require Import Base Num Kernels KernelFacts MultiKernels MultiFacts Prob Ensemble EnsembleFacts
  Solver SolverFacts SolverConcave Fit.
From Coq Require Import Ranalysis.

Lemma INR_unbounded : forall x, exists n, x < INR n.
Proof.
  intros x. exists (Z.to_nat (up (Rmax 0 x))). destruct (archimed (Rmax 0 x)) as [H _].
  assert (H0 : 0 <= Rmax 0 x) by apply Rmax_l. assert (H1 : x <= Rmax 0 x) by apply Rmax_r.
  assert (Hz : (0 <= up (Rmax 0 x))%Z) by (apply le_IZR; lra).
  rewrite INR_IZR_INZ, Z2Nat.id by exact Hz. lra.
Qed.

(** ** Real analysis of one term *)

Lemma logistic_tangent : forall s t, 0 <= s -> 0 <= t -> logistic s <= logistic t + logistic' t * (s - t).
Proof.
  intros s t Hs Ht. rewrite !logistic_alt by assumption. unfold logistic'.
  assert (H1 : 0 < 1 + s) by lra. assert (H2 : 0 < 1 + t) by lra.
  assert (E : (1 - / (1 + t) + 1 / (1 + t) ^ 2 * (s - t)) - (1 - / (1 + s))
    = (s - t) ^ 2 * / (1 + s) * / (1 + t) ^ 2) by (field; lra).
  assert (0 <= (s - t) ^ 2 * / (1 + s) * / (1 + t) ^ 2).
  { apply Rmult_le_pos; [apply Rmult_le_pos; [apply pow2_ge_0 |] |]; apply Rlt_le, Rinv_0_lt_compat; [lra | apply pow_lt; lra]. }
  lra.
Qed.

Lemma poissonian_tangent : forall s t, poissonian s <= poissonian t + poissonian' t * (s - t).
Proof.
  intros s t. unfold poissonian, poissonian'.
  assert (H : 1 + (t - s) <= exp (t - s)).
  { destruct (Req_dec (t - s) 0) as [E|E]; [rewrite E, exp_0; lra | left; apply exp_ineq1; exact E]. }
  replace (- s) with (- t + (t - s)) by ring. rewrite exp_plus.
  assert (0 < exp (- t)) by apply exp_pos.
  assert (exp (- t) * (1 + (t - s)) <= exp (- t) * exp (t - s)) by (apply Rmult_le_compat_l; lra). lra.
Qed.

Lemma poissonian_ge_logistic : forall t, 0 <= t -> logistic t <= poissonian t.
Proof.
  intros t Ht. rewrite logistic_alt by exact Ht. unfold poissonian.
  assert (H : 1 + t <= exp t).
  { destruct (Req_dec t 0) as [->|E]; [rewrite exp_0; lra | left; apply exp_ineq1; exact E]. }
  rewrite exp_Ropp. assert (/ exp t <= / (1 + t)) by (apply Rinv_le_contravar; lra). lra.
Qed.

Lemma logistic'_pos : forall t, 0 <= t -> 0 < logistic' t.
Proof. intros t H; unfold logistic'. apply Rmult_lt_0_compat; [lra|]. apply Rinv_0_lt_compat, pow_lt; lra. Qed.
Lemma poissonian'_pos : forall t, 0 < poissonian' t.
Proof. intros t; apply exp_pos. Qed.

(** ** A sum of concave link probabilities *)

(** [h e] behaves like a link probability with rate [a e]: zero when the rate is zero, increasing,
    below its tangents and at least [logistic (a d)] otherwise. *)
Definition prob_term (a : R) (h h' : R -> R) : Prop :=
  0 <= a /\ h 0 = 0 /\
  (a = 0 -> forall d, 0 <= d -> h d = 0 /\ h' d = 0) /\
  (0 < a -> forall d, 0 <= d -> logistic (a * d) <= h d /\ 0 < h' d) /\
  (forall s d, 0 <= s -> 0 <= d -> h s <= h d + h' d * (s - d)).

Lemma logistic_term : forall a, 0 <= a ->
  prob_term a (fun d => logistic (d * a)) (fun d => logistic' (d * a) * a).
Proof.
  intros a Ha. repeat split.
  - exact Ha.
  - rewrite Rmult_0_l; apply logistic_0.
  - subst. rewrite Rmult_0_r; apply logistic_0.
  - subst. ring.
  - rewrite Rmult_comm; lra.
  - apply Rmult_lt_0_compat; [apply logistic'_pos; apply Rmult_le_pos; lra | assumption].
  - intros s d Hs Hd. pose proof (logistic_tangent (s * a) (d * a)
      ltac:(apply Rmult_le_pos; lra) ltac:(apply Rmult_le_pos; lra)) as H.
    replace (s * a - d * a) with (a * (s - d)) in H by ring. lra.
Qed.

Lemma poissonian_term : forall a, 0 <= a ->
  prob_term a (fun d => poissonian (d * a)) (fun d => poissonian' (d * a) * a).
Proof.
  intros a Ha. repeat split.
  - exact Ha.
  - rewrite Rmult_0_l; apply poissonian_0.
  - subst. rewrite Rmult_0_r; apply poissonian_0.
  - subst. ring.
  - rewrite Rmult_comm. apply poissonian_ge_logistic, Rmult_le_pos; lra.
  - apply Rmult_lt_0_compat; [apply poissonian'_pos | assumption].
  - intros s d Hs Hd. pose proof (poissonian_tangent (s * a) (d * a)) as H.
    replace (s * a - d * a) with (a * (s - d)) in H by ring. lra.
Qed.

(** The multi-label fitness term: 1 - prod_k 1/(1+d a_k). *)
Lemma ln_le_sub1 : forall u, -1 < u -> ln (1 + u) <= u.
Proof.
  intros u Hu. destruct (Req_dec u 0) as [->|E]; [rewrite Rplus_0_r, ln_1; lra|].
  pose proof (exp_ineq1 u E) as H. left. rewrite <- (ln_exp u) at 2. apply ln_increasing; lra.
Qed.

Lemma ln_prodn : forall n f, (forall k, (k < n)%nat -> 0 < f k) ->
  0 < prodn n f /\ ln (prodn n f) = sumn n (fun k => ln (f k)).
Proof.
  induction n as [|n IH]; intros f Hf; simpl; [split; [lra | apply ln_1]|].
  destruct (IH f) as [H1 H2]; [intros; apply Hf; lia|].
  assert (0 < f n) by (apply Hf; lia).
  split; [apply Rmult_lt_0_compat; assumption|]. rewrite ln_mult, H2 by assumption. reflexivity.
Qed.

Lemma prodn_le_factor : forall n f i, (forall k, (k < n)%nat -> 0 <= f k <= 1) -> (i < n)%nat -> prodn n f <= f i.
Proof.
  induction n as [|n IH]; intros f i Hf Hi; [lia|]; simpl.
  assert (Hp : forall m, (m <= n)%nat -> 0 <= prodn m f <= 1).
  { induction m as [|m IHm]; intros Hm; simpl; [lra|].
    destruct IHm as [A B]; [lia|]. pose proof (Hf m ltac:(lia)) as [C D0].
    split; [apply Rmult_le_pos; lra|]. apply Rle_trans with (1 * 1); [apply Rmult_le_compat; lra | lra]. }
  pose proof (Hp n (Nat.le_refl n)) as [A B]. pose proof (Hf n ltac:(lia)) as [C D0].
  destruct (Nat.eq_dec i n) as [->|Hne].
  - apply Rle_trans with (1 * f n); [apply Rmult_le_compat_r; lra | lra].
  - assert (prodn n f <= f i) by (apply IH; [intros; apply Hf; lia | lia]).
    apply Rle_trans with (prodn n f * 1); [apply Rmult_le_compat_l; lra | lra].
Qed.

Lemma sumn_pos_exists : forall n f, (forall k, (k < n)%nat -> 0 <= f k) -> 0 < sumn n f ->
  exists k, (k < n)%nat /\ 0 < f k.
Proof.
  induction n as [|n IH]; intros f Hf H; simpl in H; [lra|].
  destruct (Rlt_le_dec 0 (f n)) as [Hn|Hn]; [exists n; split; [lia | exact Hn]|].
  destruct (IH f) as [k [Hk Hp]]; [intros; apply Hf; lia | lra |]. exists k; split; [lia | exact Hp].
Qed.

Section MultiTerm.
Variables (L : nat) (x y : nat -> R).
Hypothesis Hx : forall k, 0 <= x k.
Hypothesis Hy : forall k, 0 <= y k.
Let b (k : nat) : R := x k * y k.
Let P (d : R) : R := prodn L (qd x y d).
Let S (d : R) : R := sumn L (jd x y d).

Lemma b_nonneg : forall k, 0 <= b k.
Proof. intros k; apply Rmult_le_pos; auto. Qed.

Lemma den_pos : forall d k, 0 <= d -> 0 < 1 + d * b k.
Proof. intros d k Hd. assert (0 <= d * b k) by (apply Rmult_le_pos; [exact Hd | apply b_nonneg]). lra. Qed.

Lemma qd_range : forall d k, 0 <= d -> 0 < qd x y d k <= 1.
Proof.
  intros d k Hd. unfold qd. fold (b k). pose proof (den_pos d k Hd).
  split; [apply Rinv_0_lt_compat; assumption|].
  rewrite <- Rinv_1. apply Rinv_le_contravar; [lra|].
  assert (0 <= d * b k) by (apply Rmult_le_pos; [exact Hd | apply b_nonneg]). lra.
Qed.

Lemma P_pos : forall d, 0 <= d -> 0 < P d.
Proof. intros d Hd. unfold P. apply ln_prodn. intros k _. apply qd_range; exact Hd. Qed.

Lemma S_nonneg : forall d, 0 <= d -> 0 <= S d.
Proof.
  intros d Hd. unfold S. apply sumn_nonneg. intros k _. unfold jd. fold (b k).
  apply Rmult_le_pos; [apply b_nonneg | apply Rlt_le, qd_range; exact Hd].
Qed.

Lemma P_convex : forall s d, 0 <= s -> 0 <= d -> P d - P d * S d * (s - d) <= P s.
Proof.
  intros s d Hs Hd. set (u := fun k => (s - d) * jd x y d k).
  assert (Hu : forall k, 1 + u k = (1 + s * b k) / (1 + d * b k)).
  { intros k. unfold u, jd, qd. fold (b k). pose proof (den_pos d k Hd). field; lra. }
  assert (Hup : forall k, -1 < u k).
  { intros k. assert (0 < 1 + u k); [|lra]. rewrite Hu.
    apply Rmult_lt_0_compat; [apply den_pos; exact Hs | apply Rinv_0_lt_compat, den_pos; exact Hd]. }
  assert (E : P s = P d * exp (- sumn L (fun k => ln (1 + u k)))).
  { unfold P. rewrite <- sumn_opp, <- prodn_exp, <- prodn_mult. apply prodn_ext. intros k _.
    rewrite exp_Ropp, exp_ln by (pose proof (Hup k); lra). rewrite Hu. unfold qd. fold (b k).
    pose proof (den_pos d k Hd). pose proof (den_pos s k Hs). field; lra. }
  rewrite E. pose proof (P_pos d Hd) as HP.
  assert (H1 : sumn L (fun k => ln (1 + u k)) <= S d * (s - d)).
  { apply Rle_trans with (sumn L u); [apply sumn_le; intros k _; apply ln_le_sub1, Hup|].
    unfold u, S. rewrite sumn_scal_l. lra. }
  assert (H2 : 1 - S d * (s - d) <= exp (- sumn L (fun k => ln (1 + u k)))).
  { set (v := sumn L (fun k => ln (1 + u k))) in *.
    assert (1 + (- v) <= exp (- v)).
    { destruct (Req_dec (- v) 0) as [E0|E0]; [rewrite E0, exp_0; lra | left; apply exp_ineq1; exact E0]. }
    lra. }
  assert (P d * (1 - S d * (s - d)) <= P d * exp (- sumn L (fun k => ln (1 + u k)))) by (apply Rmult_le_compat_l; lra).
  lra.
Qed.

(** Rate of a pair: the largest rate of a shared label. *)
Fixpoint maxn (n : nat) (f : nat -> R) : R := match n with O => 0 | Datatypes.S k => Rmax (maxn k f) (f k) end.

Lemma maxn_nonneg : forall n f, 0 <= maxn n f.
Proof. induction n as [|n IH]; intros f; simpl; [lra|]. eapply Rle_trans; [apply IH | apply Rmax_l]. Qed.

Lemma maxn_ub : forall n f k, (k < n)%nat -> f k <= maxn n f.
Proof.
  induction n as [|n IH]; intros f k Hk; [lia|]; simpl.
  destruct (Nat.eq_dec k n) as [->|E]; [apply Rmax_r | eapply Rle_trans; [apply IH; lia | apply Rmax_l]].
Qed.

Lemma maxn_att : forall n f, 0 < maxn n f -> exists k, (k < n)%nat /\ f k = maxn n f.
Proof.
  induction n as [|n IH]; intros f H; simpl in *; [lra|].
  unfold Rmax in *. destruct (Rle_dec (maxn n f) (f n)); [exists n; split; [lia | reflexivity]|].
  destruct (IH f H) as [k [Hk E]]; exists k; split; [lia | exact E].
Qed.

Lemma multi_term : prob_term (maxn L b) (fun d => 1 - P d) (fun d => P d * S d).
Proof.
  repeat split.
  - apply maxn_nonneg.
  - unfold P. rewrite (prodn_ext L _ (fun _ => 1)); [rewrite prodn_1; ring|].
    intros k _. unfold qd. rewrite Rmult_0_l, Rplus_0_r. apply Rinv_1.
  - assert (Hb : forall k, (k < L)%nat -> b k = 0).
    { intros k Hk. pose proof (maxn_ub L b k Hk). pose proof (b_nonneg k). lra. }
    unfold P. rewrite (prodn_ext L _ (fun _ => 1)); [rewrite prodn_1; ring|].
    intros k Hk. unfold qd. fold (b k). rewrite Hb, Rmult_0_r, Rplus_0_r by exact Hk. apply Rinv_1.
  - assert (Hb : forall k, (k < L)%nat -> b k = 0).
    { intros k Hk. pose proof (maxn_ub L b k Hk). pose proof (b_nonneg k). lra. }
    unfold S. rewrite sumn_zero; [ring|]. intros k Hk. unfold jd. fold (b k). rewrite Hb by exact Hk. ring.
  - destruct (maxn_att L b H) as [k [Hk E]].
    assert (Hq : P d <= qd x y d k).
    { apply prodn_le_factor; [intros i _; pose proof (qd_range d i H0); lra | exact Hk]. }
    assert (Hm : 0 <= maxn L b * d) by (apply Rmult_le_pos; lra).
    rewrite logistic_alt by exact Hm. rewrite <- E. unfold qd in Hq. fold (b k) in Hq.
    rewrite (Rmult_comm (b k) d). lra.
  - destruct (maxn_att L b H) as [k [Hk E]]. apply Rmult_lt_0_compat; [apply P_pos; assumption|].
    assert (Hj : forall i, (i < L)%nat -> 0 <= jd x y d i).
    { intros i _. unfold jd. fold (b i). apply Rmult_le_pos; [apply b_nonneg | apply Rlt_le, qd_range; assumption]. }
    pose proof (sumn_ge_term L (jd x y d) k Hj Hk) as Hge. unfold S.
    assert (0 < jd x y d k); [|lra]. unfold jd. fold (b k). apply Rmult_lt_0_compat; [lra | apply qd_range; assumption].
  - intros s d Hs Hd. pose proof (P_convex s d Hs Hd). lra.
Qed.
End MultiTerm.

Section Objective.
Variables (E : Type) (l : list E) (a : E -> R) (h h' : E -> R -> R).
Hypothesis Hterm : forall e, In e l -> prob_term (a e) (h e) (h' e).
Let F (d : R) : R := suml (fun e => h e d) l.
Let D (d : R) : R := suml (fun e => h' e d) l.

(** Number of pairs with a positive rate. *)
Definition active : R := suml (fun e => b2r (Rltb 0 (a e))) l.

Lemma F_0 : F 0 = 0.
Proof. apply suml_zero. intros e He. destruct (Hterm e He) as (_ & H & _); exact H. Qed.

Lemma F_tangent : forall s d, 0 <= s -> 0 <= d -> F s <= F d + D d * (s - d).
Proof.
  intros s d Hs Hd. unfold F, D. rewrite <- suml_scal_r, <- suml_plus. apply suml_le.
  intros e He. destruct (Hterm e He) as (_ & _ & _ & _ & Ht). apply Ht; assumption.
Qed.

Lemma F_tan' : forall x y, 0 <= x -> 0 <= y -> F y <= F x + D x * (y - x).
Proof. intros x y Hx Hy; apply F_tangent; assumption. Qed.

Lemma h'_nonneg : forall e d, In e l -> 0 <= d -> 0 <= h' e d.
Proof.
  intros e d He Hd. destruct (Hterm e He) as (Ha & _ & Hz & Hp & _).
  destruct (Req_dec (a e) 0) as [E0|E0]; [destruct (Hz E0 d Hd); lra|].
  destruct (Hp ltac:(lra) d Hd); lra.
Qed.

Lemma active_exists : 0 < active -> exists e, In e l /\ 0 < a e.
Proof.
  unfold active. clear. induction l as [|e t IH]; simpl; intros H; [lra|].
  destruct (Rltb_spec 0 (a e)) as [Hp|Hp]; [exists e; split; [left; reflexivity | exact Hp]|].
  simpl in H. destruct IH as [e' [H1 H2]]; [lra|]. exists e'; split; [right; exact H1 | exact H2].
Qed.

Lemma D_pos : 0 < active -> forall d, 0 <= d -> 0 < D d.
Proof.
  intros Hact d Hd. destruct (active_exists Hact) as [e [He Ha]].
  pose proof (suml_in_le E (fun e => h' e d) l e (fun y Hy => h'_nonneg y d Hy Hd) He) as H.
  destruct (Hterm e He) as (_ & _ & _ & Hp & _). destruct (Hp Ha d Hd) as [_ Hpos].
  unfold D. cbv beta in H. lra.
Qed.

Lemma D_nonneg : forall d, 0 <= d -> 0 <= D d.
Proof. intros d Hd. unfold D. apply suml_nonneg. intros e He. apply h'_nonneg; assumption. Qed.

Lemma F_mono : forall s d, 0 <= s -> s <= d -> F s <= F d.
Proof.
  intros s d Hs Hd. pose proof (F_tangent s d Hs ltac:(lra)) as H.
  pose proof (D_nonneg d ltac:(lra)). assert (0 <= D d * (d - s)) by (apply Rmult_le_pos; lra). lra.
Qed.

(** Lipschitz extension to the whole line. *)
Let G (d : R) : R := F (Rmax 0 d).

Lemma G_lip : forall s d, s <= d -> 0 <= G d - G s <= D 0 * (d - s).
Proof.
  intros s d H. unfold G.
  assert (Hm : Rmax 0 s <= Rmax 0 d) by (apply Rmax_case_strong; apply Rmax_case_strong; intros; lra).
  assert (H0 : 0 <= Rmax 0 s) by apply Rmax_l.
  split; [pose proof (F_mono _ _ H0 Hm); lra|].
  pose proof (F_tangent (Rmax 0 d) (Rmax 0 s) ltac:(lra) H0) as H1.
  assert (H2 : D (Rmax 0 s) <= D 0).
  { apply (D_antitone 0 F D); [intros; apply F_tangent; assumption | lra | exact H0]. }
  assert (H3 : 0 <= D (Rmax 0 s)) by (apply D_nonneg; exact H0).
  assert (H4 : Rmax 0 d - Rmax 0 s <= d - s).
  { revert H; apply Rmax_case_strong; apply Rmax_case_strong; intros; lra. }
  assert (D (Rmax 0 s) * (Rmax 0 d - Rmax 0 s) <= D 0 * (d - s)).
  { apply Rmult_le_compat; lra. }
  lra.
Qed.

Lemma G_cont : continuity G.
Proof.
  intros x. unfold continuity_pt, continue_in, limit1_in, limit_in. intros eps Heps.
  assert (HD0 : 0 <= D 0) by (apply D_nonneg; lra).
  exists (eps / (D 0 + 1)). split; [apply Rmult_lt_0_compat; [exact Heps | apply Rinv_0_lt_compat; lra]|].
  intros y [_ Hy]. simpl in *. unfold R_dist in *.
  assert (Hb : Rabs (G y - G x) <= D 0 * Rabs (y - x)).
  { destruct (Rle_lt_dec x y) as [H|H].
    - pose proof (G_lip x y H). rewrite !Rabs_right by lra. lra.
    - pose proof (G_lip y x ltac:(lra)). rewrite !Rabs_left1 by lra. lra. }
  eapply Rle_lt_trans; [exact Hb|].
  assert (0 <= Rabs (y - x)) by apply Rabs_pos.
  apply Rle_lt_trans with ((D 0 + 1) * Rabs (y - x)); [apply Rmult_le_compat_r; lra|].
  apply Rlt_le_trans with ((D 0 + 1) * (eps / (D 0 + 1))); [apply Rmult_lt_compat_l; lra | right; field; lra].
Qed.

(** Every feasible target is attained. *)
Lemma root_exists : forall T, 0 <= T -> T < active -> exists r, 0 <= r /\ F r = T.
Proof.
  intros T HT Hlt. assert (Hact : 0 < active) by lra.
  set (c := T / active).
  assert (Hc : 0 <= c < 1).
  { unfold c. split; [apply Rmult_le_pos; [exact HT | apply Rlt_le, Rinv_0_lt_compat; exact Hact]|].
    apply Rmult_lt_reg_r with active; [exact Hact|]. unfold Rdiv. rewrite Rmult_assoc, Rinv_l by lra. lra. }
  set (w := fun e => if Rltb 0 (a e) then c / (1 - c) / a e else 0).
  assert (Hw : forall e, In e l -> 0 <= w e).
  { intros e He. unfold w. destruct (Rltb_spec 0 (a e)); [|lra].
    apply Rmult_le_pos; [|apply Rlt_le, Rinv_0_lt_compat; assumption].
    apply Rmult_le_pos; [lra | apply Rlt_le, Rinv_0_lt_compat; lra]. }
  set (d := suml w l).
  assert (Hd : 0 <= d) by (apply suml_nonneg; exact Hw).
  assert (HF : T <= F d).
  { replace T with (c * active) by (unfold c; field; lra).
    unfold active, F. rewrite <- suml_scal_l. apply suml_le. intros e He.
    destruct (Hterm e He) as (Ha & _ & Hz & Hp & _).
    destruct (Rltb_spec 0 (a e)) as [Hpos|Hn]; simpl.
    - destruct (Hp Hpos d Hd) as [Hl _]. eapply Rle_trans; [|exact Hl].
      assert (Hwd : w e <= d) by (apply suml_in_le; assumption).
      assert (Hv : c / (1 - c) <= a e * d).
      { apply Rle_trans with (a e * w e); [|apply Rmult_le_compat_l; lra].
        unfold w. rewrite Rltb_true by exact Hpos. right; field; lra. }
      assert (Hv0 : 0 <= c / (1 - c)) by (apply Rmult_le_pos; [lra | apply Rlt_le, Rinv_0_lt_compat; lra]).
      apply Rle_trans with (logistic (c / (1 - c))).
      + unfold logistic. right; field; lra.
      + destruct (Req_dec (c / (1 - c)) (a e * d)) as [->|Hne]; [lra|].
        left; apply logistic_incr; lra.
    - assert (a e = 0) by lra. destruct (Hz H d Hd) as [-> _]. lra. }
  destruct (IVT_cor (fun x => G x - T) 0 d) as [z [Hz HG]].
  - apply (continuity_minus G (fun _ => T) G_cont). apply continuity_const. intros u v; reflexivity.
  - exact Hd.
  - unfold G. rewrite (Rmax_right 0 d) by exact Hd. rewrite (Rmax_right 0 0) by lra. rewrite F_0.
    assert (0 <= T * (F d - T)) by (apply Rmult_le_pos; lra). lra.
  - exists z. split; [lra|]. unfold G in HG. rewrite Rmax_right in HG by lra. lra.
Qed.

Variable fn : num -> num * num.
Hypothesis Hfn : forall x, 0 <= x -> fn (Fin x) = (Fin (F x), Fin (D x)).

(** Newton on the objective, from below. *)
Lemma objective_from_below : forall T at_ rho x0 max_iter,
  0 < T -> T < active -> 0 <= at_ -> 0 <= rho -> 0 <= x0 -> F x0 < T ->
  exists sol, monotonic_newton_solver fn (Fin x0) (Fin T) (Fin at_) (Fin rho) max_iter (Fin 0) PInf None None = Ok sol /\
    sol_x_seq sol = newton_trace T F D x0 (sol_n_iter sol) /\
    (forall k, (k <= sol_n_iter sol)%nat -> 0 <= Nat.iter k (newton T F D) x0 /\ F (Nat.iter k (newton T F D) x0) <= T) /\
    (forall k, (k < sol_n_iter sol)%nat -> Nat.iter k (newton T F D) x0 < Nat.iter (S k) (newton T F D) x0).
Proof.
  intros T at_ rho x0 max_iter HT Hlt Ha Hr Hx HF.
  destruct (root_exists T ltac:(lra) Hlt) as [r [Hr0 HFr]].
  assert (Hact : 0 < active) by lra.
  assert (HrT : 0 <= rho * T) by (apply Rmult_le_pos; lra).
  destruct (concave_from_below fn T at_ rho 0 r F D Hfn (D_pos Hact) F_tan' Hr0 HFr Ha HrT x0 PInf max_iter Hx HF eq_refl)
    as (sol & E1 & E2 & E3 & E4 & _).
  exists sol. split; [exact E1|]. split; [exact E2|]. split; [|exact E4].
  intros k Hk. specialize (E3 k Hk). split; [lra|]. apply Rle_trans with (F r); [apply F_mono; lra | lra].
Qed.

(** Termination for every feasible target. *)
Lemma objective_terminates : forall T at_ rho x0,
  0 <= T -> T < active -> 0 <= at_ -> 0 <= rho -> 0 < at_ + rho * T -> 0 <= x0 -> (F x0 <> T \/ 0 < at_) ->
  exists M, forall max_iter, (M <= max_iter)%nat ->
  exists sol, monotonic_newton_solver fn (Fin x0) (Fin T) (Fin at_) (Fin rho) max_iter (Fin 0) PInf None None = Ok sol /\
    (sol_converged sol = true \/ sol_no_change_stop sol = true).
Proof.
  intros T at_ rho x0 HT Hlt Ha Hr Htau Hx Hne.
  destruct (root_exists T ltac:(lra) Hlt) as [r [Hr0 HFr]].
  assert (Hact : 0 < active) by lra.
  assert (HrT : 0 <= rho * T) by (apply Rmult_le_pos; lra).
  set (tau := at_ + rho * T) in *.
  assert (HB : exists M : nat, forall m, (M <= m)%nat ->
     (r - x0) * D x0 < INR m * tau /\ (r - 0) * D 0 < (INR m - 1) * tau).
  { set (B1 := Rmax 0 ((r - x0) * D x0 / tau)). set (B2 := Rmax 0 ((r - 0) * D 0 / tau + 1)).
    destruct (INR_unbounded (B1 + B2)) as [M HM]. exists M. intros m Hm.
    assert (Hm' : B1 + B2 < INR m) by (apply Rlt_le_trans with (INR M); [exact HM | apply le_INR; exact Hm]).
    assert (0 <= B1) by apply Rmax_l. assert (0 <= B2) by apply Rmax_l.
    assert (H1 : (r - x0) * D x0 / tau <= B1) by apply Rmax_r.
    assert (H2 : (r - 0) * D 0 / tau + 1 <= B2) by apply Rmax_r.
    split.
    - apply Rmult_lt_reg_r with (/ tau); [apply Rinv_0_lt_compat; exact Htau|].
      replace (INR m * tau * / tau) with (INR m) by (field; lra). unfold Rdiv in H1. lra.
    - apply Rmult_lt_reg_r with (/ tau); [apply Rinv_0_lt_compat; exact Htau|].
      replace ((INR m - 1) * tau * / tau) with (INR m - 1) by (field; lra). unfold Rdiv in H2. lra. }
  destruct HB as [M HM]. exists M. intros m Hm. destruct (HM m Hm) as [HM1 HM2].
  destruct (Rtotal_order (F x0) T) as [Hc|[Hc|Hc]].
  - destruct (concave_from_below fn T at_ rho 0 r F D Hfn (D_pos Hact) F_tan' Hr0 HFr Ha HrT x0 PInf m Hx Hc eq_refl)
      as (sol & E1 & _ & _ & _ & E5).
    exists sol. split; [exact E1|]. apply E5; assumption.
  - destruct Hne as [Hne|Hne]; [contradiction|].
    destruct (start_exact fn T at_ rho 0 F D Hfn Ha HrT x0 PInf m Hx Hc eq_refl Hne) as (sol & E1 & _ & _ & E2).
    exists sol. split; [exact E1 | left; exact E2].
  - destruct (concave_from_above fn T at_ rho 0 r F D Hfn (D_pos Hact) F_tan' Hr0 HFr Ha HrT x0 PInf m Hx Hc eq_refl)
      as (sol & E1 & _ & E5).
    exists sol. split; [exact E1|]. apply E5; assumption.
Qed.
End Objective.
