(** Property C99: RandomDiGraph in double precision. *)
From Verif Require Import Base Num Spec Prob Ensemble EnsembleFacts EnsembleProps EnsembleState Random RandomFacts Float FloatFacts FloatRandom
  FloatSolver FloatSolverFacts PropFloat PropFloatSample PropFloatSolver.

(** * Without rounding *)
Theorem C99_exact : forall s g sl,
  rrnd_fit Fin s = rnd_fit s /\ rrnd_num_edges Fin s = rnd_num_edges s /\ rrnd_log_likelihood Fin g sl s = rnd_log_likelihood g sl s /\
  (forall d, rrnd_degree Fin s = Ok d -> exists d', rnd_degree s = Ok d' /\ forall i, d i = d' i) /\
  (forall d, rrnd_out_degree Fin s = Ok d -> exists d', rnd_out_degree s = Ok d' /\ forall i, d i = d' i).
Proof.
  intros s g sl.
  assert (SD : forall b x y, rscalar_div Fin b (Fin x) (Fin y) = scalar_div b x y).
  { intros b x y. unfold rscalar_div, scalar_div. exact_ops. destruct b; [reflexivity|]. change (is0 (Fin y)) with (Reqb y 0). cbn.
    destruct (Reqb y 0); reflexivity. }
  split; [|split; [|split; [|split]]].
  - unfold rrnd_fit, rnd_fit. destruct (r_edges s) as [[E ne]|]; [|reflexivity]. rewrite SD. destruct (scalar_div ne E _); [|reflexivity]. cbn [bind].
    destruct (r_weight s) as [[W nw]|]; [|reflexivity]. destruct (r_discrete s) as [[|]|]; [| |reflexivity]; rewrite SD;
      destruct (scalar_div (ne || nw) E W); cbn [bind]; exact_ops; reflexivity.
  - unfold rrnd_num_edges, rnd_num_edges. destruct (r_param s) as [[p q]|]; [|reflexivity]. exact_ops. reflexivity.
  - unfold rrnd_log_likelihood, rnd_log_likelihood. destruct (r_param s) as [[p q]|]; [|reflexivity]. destruct g as [r c row|]; [|reflexivity].
    f_equal. destruct (neqb p (Fin 0) && _); [reflexivity|]. destruct (neqb p (Fin 1) && _); [reflexivity|].
    destruct (py_log p); [|reflexivity]. cbn [bind]. rewrite !rnd_exact. unfold times.
    destruct (match sl with Some b => b | None => r_selfloops s end); cbn [negb andb];
      (destruct (py_log1p (nopp p)); cbn [bind]; [exact_ops; reflexivity | reflexivity]).
  - intros d H. unfold rrnd_degree in H. unfold rnd_degree. destruct (r_param s) as [[p q]|]; [|discriminate]. injection H as <-.
    eexists. split; [reflexivity|]. intros i. unfold reither, either. exact_ops. reflexivity.
  - intros d H. unfold rrnd_out_degree in H. unfold rnd_out_degree. destruct (r_param s) as [[p q]|]; [|discriminate]. injection H as <-.
    eexists. split; [reflexivity|]. intros i. exact_ops. reflexivity.
Qed.
Print Assumptions C99_exact.

(** * The fit *)

Definition pair_number (N : nat) (sl : bool) : nat := if sl then (N * N)%nat else (N * (N - 1))%nat.
Lemma pair_number_spec : forall N sl, (1 <= N)%nat -> pairs_of N sl = INR (pair_number N sl).
Proof.
  intros N sl H. unfold pairs_of, pair_number. destruct sl; rewrite mult_INR; [reflexivity|]. rewrite minus_INR by exact H. reflexivity.
Qed.
Lemma unit_small : 0 < two (-53) <= 1 / 1000.
Proof. split; [apply two_pos|]. change (-53)%Z with (- (53))%Z. rewrite two_neg, two_Z by lia. cbn. lra. Qed.

Theorem C99_fit : forall N sl E np disc par, (1 <= N)%nat -> (sl = false -> (2 <= N)%nat) ->
  let M := pair_number N sl in (Z.of_nat M <= 2 ^ 53)%Z -> (E <= M)%nat ->
  exists s p v, rrnd_fit b64 (mkRnd N sl (Some (INR E, np)) None disc par) = Ok s /\ r_param s = Some (Fin p, Fin 0) /\
    double p /\ 0 <= p <= 1 /\ (p = 0 <-> E = 0%nat) /\ (p = 1 <-> E = M) /\
    Rabs (p - INR E / INR M) <= two (-53) * (INR E / INR M) /\
    rrnd_num_edges b64 s = Ok (Fin v) /\ 0 <= v <= INR M /\ Rabs (v - INR E) <= two (-51) * INR E.
Proof.
  intros N sl E np disc par HN Hsl M HM HE.
  assert (M1 : (1 <= M)%nat) by (unfold M, pair_number; destruct sl; [nia | specialize (Hsl eq_refl); nia]).
  assert (P : pairs_of N sl = INR M) by (apply pair_number_spec; exact HN).
  assert (MR : 1 <= INR M) by (change 1 with (INR 1); apply le_INR; exact M1).
  assert (M53 : INR M <= two 53) by (rewrite INR_IZR_INZ, two_Z by lia; apply IZR_le; exact HM).
  assert (DM : b64 (INR M) = Fin (INR M)) by (apply b64_fixed, count_double; exact HM).
  assert (ER : 0 <= INR E <= INR M) by (split; [apply pos_INR | apply le_INR; exact HE]).
  destruct unit_small as [U0 U1].
  assert (U51 : two (-51) = 4 * two (-53)) by (replace (-51)%Z with (2 + -53)%Z by lia; rewrite two_add, (two_Z 2) by lia; cbn; lra).
  assert (Fit : forall p, b64 (INR E / INR M) = Fin p -> rrnd_fit b64 (mkRnd N sl (Some (INR E, np)) None disc par) =
    Ok (mkRnd N sl (Some (INR E, np)) None disc (Some (Fin p, Fin 0)))).
  { intros p Ep. unfold rrnd_fit, rscalar_div. cbn [r_edges r_N r_selfloops r_weight]. rewrite P, DM.
    change (is0 (Fin (INR M))) with (Reqb (INR M) 0). rewrite Reqb_false by lra. unfold rdiv. cbn [ndiv]. rewrite Reqb_false by lra. cbn [rnd_num]. rewrite Ep.
    destruct np; reflexivity. }
  assert (NE : forall p, rrnd_num_edges b64 (mkRnd N sl (Some (INR E, np)) None disc (Some (Fin p, Fin 0))) =
    Ok (if sl then rmul b64 (Fin p) (Fin (INR M)) else rmul b64 (rmul b64 (Fin p) (Fin (INR N))) (Fin (INR N - 1)))).
  { intros p. unfold rrnd_num_edges. cbn [r_param r_selfloops r_N]. unfold M, pair_number in *. destruct sl.
    - rewrite <- mult_INR, DM. reflexivity.
    - specialize (Hsl eq_refl). rewrite (b64_fixed (INR N)) by (apply count_double; nia).
      replace (INR N - 1) with (INR (N - 1)) by (rewrite minus_INR by lia; reflexivity). rewrite (b64_fixed (INR (N - 1))) by (apply count_double; nia). reflexivity. }
  destruct (Nat.eq_dec E 0) as [->|EN].
  - assert (Z0 : INR 0 / INR M = 0) by (cbn; field; lra). eexists _, 0, 0. rewrite (Fit 0) by (rewrite Z0; apply b64_0).
    split; [reflexivity|]. split; [reflexivity|]. split; [apply double_0|]. split; [lra|]. split; [tauto|]. split; [split; intros K; [lra | lia]|].
    split; [rewrite Z0, Rminus_0_r, Rabs_R0; lra|]. split; [|split; [lra | cbn; rewrite Rminus_0_r, Rabs_R0; lra]].
    rewrite NE. unfold rmul. cbn [nmul rnd_num]. destruct sl; rewrite ?Rmult_0_l, ?b64_0; cbn [nmul rnd_num]; rewrite ?Rmult_0_l, ?b64_0; reflexivity.
  - assert (E1 : 1 <= INR E) by (change 1 with (INR 1); apply le_INR; lia).
    set (x := INR E / INR M). assert (Ex : x * INR M = INR E) by (unfold x; field; lra).
    assert (X0 : two (-53) <= x).
    { change (-53)%Z with (- (53))%Z. rewrite two_neg. pose proof (two_pos 53). apply Rmult_le_reg_r with (two 53 * INR M); [nra|].
      replace (/ two 53 * (two 53 * INR M)) with (INR M) by (field; lra). replace (x * (two 53 * INR M)) with (two 53 * INR E) by (rewrite <- Ex; ring). nra. }
    assert (X1 : x <= 1) by (apply Rmult_le_reg_r with (INR M); lra).
    assert (XR : two (-1022) <= x <= two 1022).
    { pose proof (two_le (-1022) (-53) ltac:(lia)). pose proof (two_ge1 1022 ltac:(lia)). lra. }
    destruct (b64_rel x XR) as (p & Ep & Dp & Bp).
    assert (Lp : forall w, double w -> x <= w -> p <= w).
    { intros w Dw Hw. pose proof (b64_mono _ _ Hw) as Mo. rewrite Ep, (b64_fixed w Dw) in Mo. exact Mo. }
    assert (p1 : p <= 1) by (apply Lp; [apply double_1 | exact X1]).
    assert (p0 : 0 < p) by nra.
    assert (Top : p = 1 <-> E = M).
    { split.
      - intros ->. destruct (Nat.eq_dec E M) as [|NEq]; [assumption|]. exfalso.
        assert (L : INR E <= INR M - 1) by (assert (Q : INR (S E) <= INR M) by (apply le_INR; lia); rewrite S_INR in Q; lra).
        assert (DD : double (1 - two (-53))).
        { exists (2 ^ 53 - 1)%Z, (-53)%Z. split; [|lia]. rewrite minus_IZR, <- two_Z by lia. rewrite Rmult_minus_distr_r, <- two_add, Rmult_1_l.
          change (53 + -53)%Z with 0%Z. rewrite two_0. reflexivity. }
        assert (XL : x <= 1 - two (-53)).
        { apply Rmult_le_reg_r with (INR M); [lra|]. rewrite Ex. assert (two (-53) * INR M <= 1).
          { apply Rle_trans with (two (-53) * two 53); [apply Rmult_le_compat_l; lra|]. rewrite <- two_add. change (-53 + 53)%Z with 0%Z. rewrite two_0. lra. }
          lra. }
        pose proof (Lp _ DD XL). lra.
      - intros EM. assert (x = 1) by (unfold x; rewrite EM; field; lra). rewrite H, (b64_fixed 1 double_1) in Ep. injection Ep as <-. reflexivity. }
    assert (Mul : forall w c, (1 <= c)%nat -> (Z.of_nat c <= 2 ^ 53)%Z -> two (-200) <= w <= two 200 ->
      exists v, rmul b64 (Fin w) (Fin (INR c)) = Fin v /\ double v /\ w * INR c * (1 - two (-53)) <= v <= w * INR c * (1 + two (-53))).
    { intros w c Hc Hc' Hb. unfold rmul. cbn [nmul rnd_num]. apply b64_rel.
      assert (1 <= INR c) by (change 1 with (INR 1); apply le_INR; exact Hc).
      assert (INR c <= two 53) by (rewrite INR_IZR_INZ, two_Z by lia; apply IZR_le; exact Hc').
      pose proof (two_le (-1022) (-200) ltac:(lia)). pose proof (two_le (200 + 53) 1022 ltac:(lia)) as T. rewrite two_add in T.
      pose proof (two_pos 200). pose proof (two_pos (-200)). split; [nra|]. apply Rle_trans with (two 200 * two 53); [apply Rmult_le_compat; lra | exact T]. }
    assert (Cap : forall w c B v, double (B * INR c) -> w <= B -> rmul b64 (Fin w) (Fin (INR c)) = Fin v -> v <= B * INR c).
    { intros w c B v DB HB Ev. unfold rmul in Ev. cbn [nmul rnd_num] in Ev. assert (L : w * INR c <= B * INR c) by (apply Rmult_le_compat_r; [apply pos_INR | exact HB]).
      pose proof (b64_mono _ _ L) as Mo. rewrite Ev, (b64_fixed _ DB) in Mo. exact Mo. }
    assert (pb : two (-200) <= p <= two 200).
    { pose proof (two_ge1 200 ltac:(lia)). split; [|lra]. apply Rle_trans with (two (-54)); [apply two_le; lia|].
      replace (-54)%Z with (-1 + -53)%Z by lia. rewrite two_add, two_m1. nra. }
    assert (p199 : two (-199) <= p).
    { apply Rle_trans with (two (-54)); [apply two_le; lia|]. replace (-54)%Z with (-1 + -53)%Z by lia. rewrite two_add, two_m1. nra. }
    assert (Edges : exists v, rrnd_num_edges b64 (mkRnd N sl (Some (INR E, np)) None disc (Some (Fin p, Fin 0))) = Ok (Fin v) /\ 0 <= v <= INR M /\
      INR E * (1 - two (-53)) * (1 - two (-53)) * (1 - two (-53)) <= v <= INR E * (1 + two (-53)) * (1 + two (-53)) * (1 + two (-53))).
    { rewrite NE. set (u := two (-53)) in *. clearbody u. unfold M, pair_number in *. destruct sl.
      - destruct (Mul p (N * N)%nat) as (v & Ev & Dv & Bv); [exact M1 | exact HM | exact pb|]. exists v. rewrite Ev. split; [reflexivity|].
        assert (v <= 1 * INR (N * N)) by (apply (Cap p _ _ _); [rewrite Rmult_1_l; apply count_double; exact HM | exact p1 | exact Ev]).
        set (m := INR (N * N)) in *. clearbody m. split; [split; [|lra]; assert (0 <= p * m) by nra; nra|].
        assert (L1 : INR E * (1 - u) <= p * m) by (rewrite <- Ex; nra). assert (L2 : p * m <= INR E * (1 + u)) by (rewrite <- Ex; nra). split; nra.
      - specialize (Hsl eq_refl). destruct (Mul p N) as (w & Ew & Dw & Bw); [lia | nia | exact pb|]. rewrite Ew.
        assert (Wn : w <= 1 * INR N) by (apply (Cap p _ _ _); [rewrite Rmult_1_l; apply count_double; nia | exact p1 | exact Ew]).
        assert (N1 : 1 <= INR N) by (change 1 with (INR 1); apply le_INR; lia).
        assert (Nb : INR N <= two 53) by (rewrite INR_IZR_INZ, two_Z by lia; apply IZR_le; nia).
        replace (INR N - 1) with (INR (N - 1)) by (rewrite minus_INR by lia; reflexivity).
        destruct (Mul w (N - 1)%nat) as (v & Ev & Dv & Bv); [lia | nia | |].
        { pose proof (two_le 53 200 ltac:(lia)). split; [|lra]. apply Rle_trans with (two (-1 + -199)); [apply two_le; lia|]. rewrite two_add, two_m1.
          pose proof (two_pos (-199)). assert (p <= p * INR N) by nra. nra. }
        exists v. rewrite Ev. split; [reflexivity|].
        assert (Vn : v <= INR N * INR (N - 1)) by (apply (Cap w _ _ _); [rewrite <- mult_INR; apply count_double; exact HM | lra | exact Ev]).
        rewrite mult_INR in Ex |- *. assert (K1 : 1 <= INR (N - 1)) by (change 1 with (INR 1); apply le_INR; lia).
        set (n := INR N) in *. set (n' := INR (N - 1)) in *. clearbody n n'.
        assert (L1 : INR E * (1 - u) <= p * (n * n')) by (rewrite <- Ex; assert (0 <= n * n') by nra; nra).
        assert (L2 : p * (n * n') <= INR E * (1 + u)) by (rewrite <- Ex; assert (0 <= n * n') by nra; nra).
        assert (L3 : p * (n * n') * (1 - u) <= w * n') by nra. assert (L4 : w * n' <= p * (n * n') * (1 + u)) by nra.
        split; [split; [|exact Vn]; assert (0 <= w * n') by nra; nra|]. split.
        + apply Rle_trans with (w * n' * (1 - u)); [|lra]. apply Rmult_le_compat_r; [lra|]. apply Rle_trans with (p * (n * n') * (1 - u)); [|exact L3].
          apply Rmult_le_compat_r; lra.
        + apply Rle_trans with (w * n' * (1 + u)); [lra|]. apply Rmult_le_compat_r; [lra|]. apply Rle_trans with (p * (n * n') * (1 + u)); [exact L4|].
          apply Rmult_le_compat_r; lra. }
    destruct Edges as (v & Ev & Rv & Bv). eexists _, p, v. split; [apply Fit; exact Ep|]. split; [reflexivity|]. split; [exact Dp|]. split; [lra|].
    split; [split; intros K; [lra | lia]|]. split; [exact Top|]. split; [apply Rabs_le; nra|]. split; [exact Ev|]. split; [exact Rv|].
    rewrite U51. set (u := two (-53)) in *. clearbody u. apply Rabs_le.
    assert (1 - 4 * u <= (1 - u) * (1 - u) * (1 - u)) by nra. assert ((1 + u) * (1 + u) * (1 + u) <= 1 + 4 * u) by nra. split; nra.
Qed.
Print Assumptions C99_fit.

Example C99_fit_case : (1 <= 4)%nat /\ (Z.of_nat (pair_number 4 false) <= 2 ^ 53)%Z /\ (5 <= pair_number 4 false)%nat.
Proof. cbn. lia. Qed.

(** Fitting and counting back is not exact: one edge on seven vertices with self-loops. *)
Theorem C99_edges_refuted : exists s s' v, r_N s = 7%nat /\ r_edges s = Some (1, false) /\ r_selfloops s = true /\
  rrnd_fit b64 s = Ok s' /\ rrnd_num_edges b64 s' = Ok (Fin v) /\ v < 1.
Proof.
  set (p := 5882252574524729 / 288230376151711744).
  assert (D49 : b64 49 = Fin 49) by (apply (dbl 49 0); [tw; lra | lia | lia]).
  assert (Ep : b64 (1 / 49) = Fin p) by (unfold p; roundto (-6)%Z 5882252574524729%Z).
  exists (mkRnd 7 true (Some (1, false)) None None None), (mkRnd 7 true (Some (1, false)) None None (Some (Fin p, Fin 0))), (1 - 1 / 9007199254740992).
  do 3 (split; [reflexivity|]). split; [|split; [|lra]].
  - unfold rrnd_fit, rscalar_div, pairs_of. cbn [r_edges r_N r_selfloops r_weight]. replace (INR 7 * INR 7) with 49 by (cbn; lra). rewrite D49.
    change (is0 (Fin 49)) with (Reqb 49 0). rewrite Reqb_false by lra. unfold rdiv. cbn [ndiv]. rewrite Reqb_false by lra. cbn [rnd_num]. rewrite Ep. reflexivity.
  - unfold rrnd_num_edges. cbn [r_param r_selfloops r_N]. replace (INR 7 * INR 7) with 49 by (cbn; lra). rewrite D49. do 2 f_equal. unfold rmul. cbn [nmul rnd_num].
    unfold p. roundto (-1)%Z 9007199254740991%Z.
Qed.
Print Assumptions C99_edges_refuted.

(** * Expected degrees *)
Theorem C99_degrees : forall s p q i, r_param s = Some (Fin p, q) -> double p -> 0 <= p <= 1 -> (1 <= r_N s)%nat -> (Z.of_nat (r_N s) <= 2 ^ 53)%Z ->
  let top := INR (if r_selfloops s then r_N s else r_N s - 1) in
  exists d o v w, rrnd_degree b64 s = Ok d /\ rrnd_out_degree b64 s = Ok o /\
    d i = Fin v /\ 0 <= v <= top /\ o i = Fin w /\ 0 <= w <= top.
Proof.
  intros s p q i Hs Dp Hp HN HZ top. unfold rrnd_degree, rrnd_out_degree. rewrite Hs.
  assert (DN : b64 (INR (r_N s)) = Fin (INR (r_N s))) by (apply b64_fixed, count_double; exact HZ).
  assert (E1 : INR (r_N s) - 1 = INR (r_N s - 1)) by (rewrite minus_INR by exact HN; reflexivity).
  assert (D1 : b64 (INR (r_N s - 1)) = Fin (INR (r_N s - 1))) by (apply b64_fixed, count_double; lia).
  assert (Mul : forall e c, 0 <= e <= 1 -> (Z.of_nat c <= 2 ^ 53)%Z -> exists v, rmul b64 (Fin e) (Fin (INR c)) = Fin v /\ 0 <= v <= INR c /\ double v).
  { intros e c He Hc. unfold rmul. cbn [nmul rnd_num]. apply b64_between; [apply double_0 | apply count_double; exact Hc|]. pose proof (pos_INR c). nra. }
  assert (Two : double (2 * p)).
  { destruct Dp as (m & e & -> & Hm & He). destruct (Z_le_gt_dec e 970) as [L|G].
    - exists m, (e + 1)%Z. split; [rewrite two_add, two_1; ring|]. lia.
    - destruct (Z.eq_dec m 0) as [->|NZ]; [exists 0%Z, 0%Z; split; [ring | lia]|]. exfalso.
      assert (1 <= Rabs (IZR m)) by (rewrite <- abs_IZR; apply IZR_le; lia). pose proof (two_lt 0 e ltac:(lia)) as T. rewrite two_0 in T.
      destruct Hp as [Hp0 Hp]. destruct (Rle_lt_dec 0 (IZR m)) as [K|K]; [rewrite Rabs_right in H by lra; nra|]. rewrite Rabs_left in H by lra. nra. }
  assert (Sq : exists c, rmul b64 (Fin p) (Fin p) = Fin c /\ 0 <= c <= p /\ double c /\ 2 * p - c <= 1).
  { unfold rmul. cbn [nmul rnd_num]. destruct (b64_between 0 p (p * p)) as (c & E & Hc & Dc); [apply double_0 | exact Dp | nra|]. exists c.
    split; [exact E|]. split; [exact Hc|]. split; [exact Dc|]. destruct (Rle_lt_dec p (1 / 2)) as [L|G]; [lra|].
    assert (D : double (2 * p - 1)) by (apply difference_exact; [exact Two | apply double_1 | rewrite Rabs_right; lra | rewrite Rabs_right; lra]).
    assert (L : 2 * p - 1 <= p * p) by nra. pose proof (b64_mono _ _ L) as Mo. rewrite E, (b64_fixed _ D) in Mo. cbn in Mo. lra. }
  destruct Sq as (c & Ec & Hc & Dc & Lc).
  assert (Ei : exists e, reither b64 (Fin p) = Fin e /\ 0 <= e <= 1 /\ double e).
  { unfold reither. rewrite Ec. unfold rmul at 1. cbn [nmul rnd_num]. rewrite (b64_fixed _ Two). unfold rsub. cbn [nsub nopp nadd rnd_num].
    apply b64_between; [apply double_0 | apply double_1 | lra]. }
  destruct Ei as (e & -> & He & De). rewrite E1, DN, D1.
  destruct (Mul e (r_N s - 1)%nat He ltac:(lia)) as (v & Ev & Hv & Dv). rewrite Ev.
  destruct (Mul p (if r_selfloops s then r_N s else r_N s - 1)%nat Hp ltac:(destruct (r_selfloops s); lia)) as (w & Ew & Hw & Dw).
  assert (V : exists v', (if r_selfloops s then radd b64 (Fin v) (Fin p) else Fin v) = Fin v' /\ 0 <= v' <= top).
  { unfold top. destruct (r_selfloops s); [|exists v; auto]. unfold radd. cbn [nadd rnd_num].
    destruct (b64_between 0 (INR (r_N s)) (v + p)) as (v' & E' & Hv' & _); [apply double_0 | apply count_double; exact HZ | lra|]. exists v'. auto. }
  destruct V as (v' & Ev' & Hv'). eexists _, _, v', w. split; [reflexivity|]. split; [reflexivity|]. cbv beta. split; [exact Ev'|]. split; [exact Hv'|].
  split; [|exact Hw]. rewrite <- Ew. destruct (r_selfloops s); reflexivity.
Qed.
Print Assumptions C99_degrees.

Example C99_degrees_case : let s := mkRnd 3 true None None None (Some (Fin 1, Fin 0)) in
  r_param s = Some (Fin 1, Fin 0) /\ double 1 /\ (1 <= r_N s)%nat /\ (Z.of_nat (r_N s) <= 2 ^ 53)%Z.
Proof. cbn. split; [reflexivity|]. split; [apply double_1 | lia]. Qed.

(** * The log-likelihood *)
Lemma log_bounded : forall x, two (-1074) <= x <= 1 -> exists l, b64 (ln x) = Fin l /\ -2048 <= l <= 0.
Proof.
  intros x Hx. pose proof (two_pos (-1074)) as P.
  assert (Mo : forall a b, 0 < a <= b -> ln a <= ln b).
  { intros a b [H0 H]. destruct (Rle_lt_or_eq_dec _ _ H) as [Lt | ->]; [apply Rlt_le, ln_increasing; assumption | lra]. }
  assert (L : ln x <= 0) by (rewrite <- ln_1; apply Mo; lra).
  assert (G : -2048 <= ln x).
  { apply Rle_trans with (ln (two (-1074))); [rewrite two_ln | apply Mo; lra].
    assert (ln 2 <= 1); [|lra]. rewrite <- (ln_exp 1). apply Mo. pose proof (exp_ineq1 1 ltac:(lra)). lra. }
  destruct (b64_between (-2048) 0 (ln x)) as (l & E & H & _); [apply double_Z; lia | apply double_0 | lra|]. exists l. auto.
Qed.
(** The distance of a double below 1 from 0 and from 1 *)
Lemma unit_double : forall p, double p -> 0 < p < 1 -> two (-1074) <= p /\ two (-1074) <= 1 - p.
Proof.
  intros p (m & e & -> & _ & He) Hp. pose proof (two_pos e) as P. pose proof (two_le (-1074) e ltac:(lia)) as Le. split.
  - assert (0 < IZR m) by (apply Rmult_lt_reg_r with (two e); lra). apply lt_IZR in H. assert (1 <= IZR m) by (apply IZR_le; lia). nra.
  - destruct (Z_lt_le_dec e 0) as [N|N].
    + assert (U : 1 = IZR (2 ^ (- e)) * two e) by (rewrite <- two_Z, <- two_add by lia; replace (- e + e)%Z with 0%Z by lia; rewrite two_0; reflexivity).
      rewrite U in Hp |- * at 1. assert (IZR m < IZR (2 ^ (- e))) by (apply Rmult_lt_reg_r with (two e); lra). apply lt_IZR in H.
      assert (K : 1 <= IZR (2 ^ (- e) - m)) by (apply IZR_le; lia). rewrite minus_IZR in K. nra.
    + pose proof (two_ge1 e N). assert (0 < IZR m) by (apply Rmult_lt_reg_r with (two e); lra). apply lt_IZR in H0.
      assert (1 <= IZR m) by (apply IZR_le; lia). nra.
Qed.

(** Every graph of the ensemble has a finite log-likelihood that is not positive. *)
Theorem C99_likelihood : forall s p q G sl, r_param s = Some (Fin p, q) -> double p -> 0 < p < 1 ->
  let b := match sl with None => r_selfloops s | Some b => b end in
  (1 <= r_N s)%nat -> (Z.of_nat (pair_number (r_N s) b) <= 2 ^ 53)%Z -> In G (all_graphs (r_N s) b) ->
  exists l, rrnd_log_likelihood b64 (Matrix (r_N s) (r_N s) (row_of G)) sl s = Ok (Fin l) /\
    - (2048 * INR (pair_number (r_N s) b)) <= l <= 0.
Proof.
  intros s p q G sl Hs Dp Hp b HN HZ HG. unfold rrnd_log_likelihood. rewrite Hs. fold b. rewrite Nat.eqb_refl. cbn [guard andb].
  unfold neqb. rewrite (Reqb_false p 0), (Reqb_false p 1) by lra. cbn [andb].
  unfold py_log, py_log1p. rewrite Rltb_true by lra. cbn [bind nopp nadd]. unfold py_log. rewrite Rltb_true by lra. cbn [bind rnd_num].
  assert (Hin : forall e, In e G -> (fst e < r_N s)%nat /\ allowed b (fst e) (snd e) = true).
  { intros [i j] He. apply (sublists_incl _ _ _ _ HG) in He. apply in_pairs in He. tauto. }
  rewrite nnz_row_of by (intros e He; apply Hin; exact He).
  set (M := pair_number (r_N s) b) in *. set (k := length G).
  assert (PM : pairs_of (r_N s) b = INR M) by (apply pair_number_spec; exact HN).
  assert (HK : (k <= M)%nat).
  { apply INR_le. rewrite <- PM, <- pairs_length. apply le_INR, graph_length. exact HG. }
  rewrite PM, <- minus_INR by exact HK. rewrite (b64_fixed (INR k)), (b64_fixed (INR (M - k))) by (apply count_double; lia).
  destruct (unit_double p Dp Hp) as [U1 U2].
  destruct (log_bounded p) as (l1 & -> & H1); [lra|]. destruct (log_bounded (1 + - p)) as (l2 & -> & H2); [lra|].
  assert (Mul : forall c l, (Z.of_nat c <= 2 ^ 53)%Z -> -2048 <= l <= 0 -> exists v, rmul b64 (Fin (INR c)) (Fin l) = Fin v /\ - (2048 * INR c) <= v <= 0).
  { intros c l Hc Hl. unfold rmul. cbn [nmul rnd_num]. destruct (b64_between (- (2048 * INR c)) 0 (INR c * l)) as (v & E & Hv & _);
      [apply sum_double; exact Hc | apply double_0 | pose proof (pos_INR c); nra | exists v; auto]. }
  destruct (Mul k l1 ltac:(lia) H1) as (v1 & -> & B1). destruct (Mul (M - k)%nat l2 ltac:(lia) H2) as (v2 & -> & B2).
  assert (D : negb b && (0 <? diag_count (r_N s) (row_of G))%nat = false).
  { destruct b eqn:Eb; [reflexivity|]. assert (D : diag_count (r_N s) (row_of G) = 0%nat); [|rewrite D; reflexivity].
    apply diag_zero. intros i Hi K. apply in_row_of in K. apply Hin in K. destruct K as [_ K]. unfold allowed in K. simpl in K.
    rewrite Nat.eqb_refl in K. discriminate. }
  rewrite D. unfold radd. cbn [nadd rnd_num]. rewrite minus_INR in B2 by exact HK.
  destruct (b64_between (- (2048 * INR M)) 0 (v1 + v2)) as (l & E & Hl & _); [apply sum_double; exact HZ | apply double_0 | lra|].
  exists l. rewrite E. auto.
Qed.
Print Assumptions C99_likelihood.

Example C99_likelihood_case : let s := mkRnd 3 false None None None (Some (Fin (1 / 2), Fin 0)) in
  r_param s = Some (Fin (1 / 2), Fin 0) /\ double (1 / 2) /\ (Z.of_nat (pair_number 3 false) <= 2 ^ 53)%Z /\ In [(0, 1); (2, 0)]%nat (all_graphs 3 false).
Proof. cbn. split; [reflexivity|]. split; [rewrite <- two_m1; apply double_two; lia|]. split; [lia | tauto]. Qed.

(** The graph a model was fitted to is possible under it, unless it has no edges or all of them. *)
Theorem C99_own : forall N sl G np disc par, (1 <= N)%nat -> (Z.of_nat (pair_number N sl) <= 2 ^ 53)%Z ->
  In G (all_graphs N sl) -> (0 < length G < pair_number N sl)%nat ->
  exists s l, rrnd_fit b64 (mkRnd N sl (Some (INR (length G), np)) None disc par) = Ok s /\
    rrnd_log_likelihood b64 (Matrix N N (row_of G)) None s = Ok (Fin l) /\ l <= 0.
Proof.
  intros N sl G np disc par HN HZ HG HL.
  assert (H2 : sl = false -> (2 <= N)%nat) by (intros ->; unfold pair_number in HL; destruct N as [|[|N]]; cbn in *; lia).
  destruct (C99_fit N sl (length G) np disc par HN H2 HZ ltac:(lia)) as (s & p & v & F & Hp & Dp & Rp & Z0 & Z1 & _).
  assert (Es : r_N s = N /\ r_selfloops s = sl).
  { unfold rrnd_fit in F. cbn [r_edges r_weight] in F. destruct (rscalar_div _ _ _ _); [|discriminate]. injection F as <-. split; reflexivity. }
  destruct Es as [EN ES].
  assert (P0 : p <> 0) by (intros K; apply Z0 in K; lia). assert (P1 : p <> 1) by (intros K; apply Z1 in K; lia).
  destruct (C99_likelihood s p (Fin 0) G None Hp Dp) as (l & E & Hl).
  - destruct Rp as [[?|?] [?|?]]; try lra; congruence.
  - rewrite EN. exact HN.
  - rewrite EN, ES. exact HZ.
  - rewrite EN, ES. exact HG.
  - rewrite EN in E. exists s, l. split; [exact F|]. split; [exact E | lra].
Qed.
Print Assumptions C99_own.

Example C99_own_case : In [(0, 1); (2, 0)]%nat (all_graphs 3 false) /\ (0 < length [(0, 1); (2, 0)]%nat < pair_number 3 false)%nat.
Proof. cbn. split; [tauto | lia]. Qed.
