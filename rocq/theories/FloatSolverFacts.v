(** Facts about the root finder in double precision: relative errors, the secant point, and the invariant of the loop. *)
From Verif Require Import Base Num Spec Kernels Prob Ensemble Conditional Solver SolverFacts Fit Float FloatFacts FloatSolver.
From Coq Require Import Lra Lia.

(** * Relative errors *)
Lemma round_rel : forall r, two (-1022) <= r -> Rabs (r - round_pos r) <= two (-53) * r.
Proof.
  intros r H. assert (P : 0 < r) by (pose proof (two_pos (-1022)); lra).
  destruct (log_spec r P) as [L U]. set (e := Int_part (ln r / ln 2)) in *.
  assert (E : (-1022 <= e)%Z).
  { apply Z.lt_succ_r. apply Znot_ge_lt. intros K. apply Z.ge_le in K. apply two_le in K. unfold Z.succ in K. lra. }
  pose proof (place_eval r e (conj L U) E) as PE. unfold round_pos. rewrite PE.
  pose proof (near_dist (r / two (e - 52))) as D. pose proof (two_pos (e - 52)) as TP.
  replace (r - IZR (nearest_even (r / two (e - 52))) * two (e - 52))
    with ((r / two (e - 52) - IZR (nearest_even (r / two (e - 52)))) * two (e - 52)) by (field; lra).
  rewrite Rabs_mult, (Rabs_right (two (e - 52))) by lra.
  apply Rle_trans with (1 / 2 * two (e - 52)); [apply Rmult_le_compat_r; lra|].
  rewrite <- two_m1, <- two_add. replace (-1 + (e - 52))%Z with (-53 + e)%Z by lia. rewrite two_add.
  apply Rmult_le_compat_l; [left; apply two_pos | exact L].
Qed.

Lemma b64_rel : forall r, two (-1022) <= r <= two 1022 -> exists v, b64 r = Fin v /\ double v /\
  r * (1 - two (-53)) <= v <= r * (1 + two (-53)).
Proof.
  intros r H. assert (P : 0 < r) by (pose proof (two_pos (-1022)); lra).
  destruct (b64_between 0 (two 1022) r double_0 (double_two 1022 ltac:(lia)) ltac:(lra)) as (v & E & Hv & D).
  exists v. split; [exact E|]. split; [exact D|]. rewrite b64_pos in E by exact P. destruct (Rleb (two 1024) (round_pos r)); [discriminate|].
  injection E as <-. pose proof (round_rel r (proj1 H)) as R.
  revert R. unfold Rabs. destruct (Rcase_abs _); lra.
Qed.

(** Two different numbers of the format near [u] are at least this far apart. *)
Lemma gap : forall l u, double l -> double u -> 0 <= l -> l < u -> two (-900) <= u -> two (-960) <= u - l.
Proof.
  intros l u Dl Du Hl Hlu Hu. assert (P : 0 < u) by lra.
  destruct (log_spec u P) as [L U]. set (e := Int_part (ln u / ln 2)) in *.
  assert (E : (-900 <= e)%Z).
  { apply Z.lt_succ_r. apply Znot_ge_lt. intros K. apply Z.ge_le in K. apply two_le in K. unfold Z.succ in K. lra. }
  set (r := two (e - 1)). assert (Pr : 0 < r) by apply two_pos.
  assert (Lr : Int_part (ln r / ln 2) = (e - 1)%Z).
  { apply log_unique. split; [apply Rle_refl|]. apply two_lt. lia. }
  assert (PL : last_place r = (e - 53)%Z).
  { rewrite (place_eval r (e - 1)); [lia| | lia]. split; [apply Rle_refl | apply two_lt; lia]. }
  assert (UE : two e = 2 * two (e - 1)).
  { replace e with (1 + (e - 1))%Z at 1 by lia. rewrite two_add, two_1. reflexivity. }
  assert (S1 : two (-960) <= two (e - 53)) by (apply two_le; lia).
  assert (S2 : two (e - 53) <= two (e - 1)) by (apply two_le; lia).
  destruct (Rlt_dec l r) as [C|C].
  - unfold r in C. lra.
  - destruct (grid_multiple r l Pr (double_grid l Dl)) as (k & Ek); [rewrite Lr; unfold r in C; lra|].
    destruct (grid_multiple r u Pr (double_grid u Du)) as (k' & Ek'); [rewrite Lr; unfold r in *; lra|].
    rewrite PL in Ek, Ek'. pose proof (two_pos (e - 53)) as T.
    assert (K : (k < k')%Z).
    { apply lt_IZR. apply Rmult_lt_reg_r with (two (e - 53)); [exact T|]. lra. }
    assert (K1 : IZR k + 1 <= IZR k') by (change 1 with (IZR 1); rewrite <- plus_IZR; apply IZR_le; lia).
    apply Rle_trans with (two (e - 53)); [exact S1|]. rewrite Ek, Ek'. nra.
Qed.

(** * The secant point *)
Definition secant (u l fu fl : R) : num :=
  rsub b64 (Fin u) (rdiv b64 (rmul b64 (Fin fu) (rsub b64 (Fin u) (Fin l))) (rsub b64 (Fin fu) (Fin fl))).

Lemma secant_inside : forall u l fu fl tol M, double u -> double l -> double fu -> double fl ->
  0 <= l <= u -> two (-900) <= u <= two 960 -> tol <= fu <= M -> tol <= - fl <= M ->
  two (-50) * M <= tol -> two (-60) <= tol -> M <= two 60 ->
  exists x, secant u l fu fl = Fin x /\ double x /\ l <= x <= u.
Proof.
  intros u l fu fl tol M Du Dl Df Dg Hl Hu Hfu Hfl HM Ht HM'. unfold secant, rsub, rmul, rdiv. cbn [nsub nopp nadd rnd_num nmul].
  assert (T0 : 0 < tol) by (pose proof (two_pos (-60)); lra).
  destruct (Req_dec l u) as [->|NE].
  - replace (u + - u) with 0 by ring. rewrite b64_0. cbn [nmul rnd_num]. rewrite Rmult_0_r, b64_0.
    destruct (b64_rel (fu + - fl)) as (g & Eg & Dg' & Hg).
    { split; [apply Rle_trans with (two (-60)); [apply two_le; lia | lra]|].
      apply Rle_trans with (two 61); [|apply two_le; lia]. replace 61%Z with (1 + 60)%Z by lia. rewrite two_add, two_1. lra. }
    rewrite Eg. cbn [ndiv]. assert (0 < g).
    { apply Rlt_le_trans with ((fu + - fl) * (1 - two (-53))); [|lra]. apply Rmult_lt_0_compat; [lra|].
      assert (two (-53) < two 0) by (apply two_lt; lia). rewrite two_0 in *. lra. }
    rewrite Reqb_false by lra. replace (0 / g) with 0 by (field; lra). cbn [rnd_num]. rewrite b64_0. cbn [nopp nadd rnd_num].
    replace (u + - 0) with u by ring. rewrite b64_fixed by exact Du. exists u. split; [reflexivity | split; [exact Du | lra]].
  - set (W := u + - l). assert (GW : two (-960) <= W) by (apply gap; try assumption; lra).
    assert (GW' : W <= two 960) by (unfold W; lra).
    assert (Eps : 0 < two (-53) <= 1 / 1000).
    { split; [apply two_pos|]. apply Rle_trans with (two (-10)); [apply two_le; lia|].
      change (-10)%Z with (- (10))%Z. rewrite two_neg, two_Z by lia. cbn. lra. }
    assert (E50 : two (-50) = 8 * two (-53)).
    { replace (-50)%Z with (3 + -53)%Z by lia. rewrite two_add, (two_Z 3) by lia. cbn. lra. }
    pose proof b64_rel as Rel. set (ep := two (-53)) in *. clearbody ep.
    assert (Lo : forall a b, 0 < a -> a * (1 - ep) <= b -> a / 2 <= b) by (intros a b Ha Hb; nra).
    assert (Up : forall a b, 0 < a -> b <= a * (1 + ep) -> b <= 2 * a) by (intros a b Ha Hb; nra).
    destruct (Rel W) as (w & Ew & Dw & Hw).
    { split; [apply Rle_trans with (two (-960)); [apply two_le; lia | exact GW] | apply Rle_trans with (two 960); [exact GW' | apply two_le; lia]]. }
    rewrite Ew. cbn [nmul rnd_num].
    assert (W0 : 0 < W) by (pose proof (two_pos (-960)); lra).
    assert (w1 : W / 2 <= w) by (apply Lo; lra). assert (w2 : w <= 2 * W) by (apply Up; lra).
    assert (t961 : two (-960) / 2 = two (-961)) by (replace (-961)%Z with (-1 + -960)%Z by lia; rewrite two_add, two_m1; lra).
    assert (t961' : 2 * two 960 = two 961) by (replace 961%Z with (1 + 960)%Z by lia; rewrite two_add, two_1; lra).
    destruct (Rel (fu * w)) as (P & EP & DP & HP).
    { split.
      - apply Rle_trans with (two (-60) * two (-961)); [rewrite <- two_add; apply two_le; lia|].
        pose proof (two_pos (-60)). pose proof (two_pos (-961)). apply Rmult_le_compat; lra.
      - apply Rle_trans with (two 60 * two 961); [|rewrite <- two_add; apply two_le; lia]. apply Rmult_le_compat; lra. }
    rewrite EP. set (G := fu + - fl).
    destruct (Rel G) as (g & Eg & Dg' & Hg).
    { split; [apply Rle_trans with (two (-60)); [apply two_le; lia | unfold G; lra]|].
      apply Rle_trans with (two 61); [|apply two_le; lia]. replace 61%Z with (1 + 60)%Z by lia. rewrite two_add, two_1. unfold G. lra. }
    rewrite Eg. cbn [ndiv]. assert (G0 : 0 < G) by (unfold G; lra). assert (g0 : G / 2 <= g) by (apply Lo; lra). assert (g0' : g <= 2 * G) by (apply Up; lra).
    rewrite Reqb_false by lra. cbn [rnd_num].
    assert (FW : 0 < fu * w) by (apply Rmult_lt_0_compat; lra).
    assert (P0 : fu * w / 2 <= P) by (apply Lo; lra).
    assert (QU : P / g * (1 + ep) <= W).
    { apply Rmult_le_reg_r with g; [lra|]. replace (P / g * (1 + ep) * g) with (P * (1 + ep)) by (field; lra).
      apply Rle_trans with (fu * (W * (1 + ep)) * (1 + ep) * (1 + ep)).
      - apply Rmult_le_compat_r; [lra|]. apply Rle_trans with (fu * w * (1 + ep)); [lra|].
        apply Rmult_le_compat_r; [lra|]. apply Rmult_le_compat_l; lra.
      - apply Rle_trans with (W * (G * (1 - ep))); [|apply Rmult_le_compat_l; lra].
        replace (fu * (W * (1 + ep)) * (1 + ep) * (1 + ep)) with (W * (fu * ((1 + ep) * (1 + ep) * (1 + ep)))) by ring.
        apply Rmult_le_compat_l; [lra|].
        assert (GG : fu * (1 + 8 * ep) <= G) by (unfold G; nra).
        apply Rle_trans with (fu * (1 + 8 * ep) * (1 - ep)); [|apply Rmult_le_compat_r; lra].
        rewrite (Rmult_assoc fu (1 + 8 * ep)). apply Rmult_le_compat_l; [lra|]. clear - Eps. nra. }
    assert (QL : two (-1022) <= P / g).
    { apply Rmult_le_reg_r with g; [lra|]. replace (P / g * g) with P by (field; lra).
      apply Rle_trans with (two (-1022) * (2 * G)); [apply Rmult_le_compat_l; [left; apply two_pos | lra]|].
      apply Rle_trans with (fu * w / 2); [|exact P0].
      assert (GG : two (-51) * G <= fu).
      { replace (-51)%Z with (-1 + -50)%Z by lia. rewrite two_add, two_m1. pose proof (two_pos (-50)). unfold G. nra. }
      assert (WW : two (-1022) * 4 * 2 ^ 51 <= w).
      { apply Rle_trans with (two (-961)); [|lra]. change 4 with (IZR (2 ^ 2)). rewrite pow_IZR. change (2 ^ Z.of_nat 51)%Z with (2 ^ 51)%Z.
        rewrite <- !two_Z, <- !two_add by lia. apply two_le. lia. }
      assert (T51 : two (-51) * 2 ^ 51 = 1).
      { rewrite pow_IZR. change (2 ^ Z.of_nat 51)%Z with (2 ^ 51)%Z. rewrite <- two_Z, <- two_add by lia. reflexivity. }
      assert (GG' : G <= fu * 2 ^ 51) by (assert (0 < 2 ^ 51) by (apply pow_lt; lra); nra).
      assert (two (-1022) * 4 * G <= fu * w); [|lra].
      apply Rle_trans with (two (-1022) * 4 * (fu * 2 ^ 51)); [pose proof (two_pos (-1022)); apply Rmult_le_compat_l; lra|].
      replace (two (-1022) * 4 * (fu * 2 ^ 51)) with (fu * (two (-1022) * 4 * 2 ^ 51)) by ring. apply Rmult_le_compat_l; lra. }
    destruct (Rel (P / g)) as (q & Eq & Dq & Hq).
    { split; [exact QL|]. apply Rle_trans with W; [|apply Rle_trans with (two 960); [exact GW' | apply two_le; lia]].
      assert (0 < P / g) by (pose proof (two_pos (-1022)); lra). nra. }
    rewrite Eq. cbn [nopp nadd rnd_num].
    assert (Q0 : 0 <= q).
    { apply Rle_trans with (P / g * (1 - ep)); [|lra]. apply Rmult_le_pos; [pose proof (two_pos (-1022)); lra | lra]. }
    destruct (b64_between l u (u + - q) Dl Du) as (x & Ex & Hx & Dx); [unfold W in *; lra|].
    exists x. auto.
Qed.

(** * The loop on [0, inf] *)

(** A parameter: a non-negative number of the format or infinity *)
Definition point (x : num) : Prop := x = PInf \/ exists w, x = Fin w /\ 0 <= w /\ double w.

Section Loop.
Variables (fn : num -> num * num) (T a rho M tol : R).
Hypothesis DT : double T.
Hypothesis DM : double M.
Hypothesis Value : forall x, point x -> exists v d, fn x = (Fin v, d) /\ double v /\ Rabs (v - T) <= M /\
  (d = PInf \/ exists r, d = Fin r /\ 0 <= r).
Hypothesis Low : forall w v d, 0 <= w < two (-900) -> double w -> fn (Fin w) = (Fin v, d) -> v <= T.
Hypothesis High : forall w v d, two 960 < w -> double w -> fn (Fin w) = (Fin v, d) -> d = Fin 0.
Hypothesis Top : forall v d, fn PInf = (Fin v, d) -> T <= v /\ d = Fin 0.
Hypothesis Ha : two (-900) <= a.
Hypothesis Htol : rtolerance b64 (Fin a) (Fin rho) (Fin T) = Fin tol.
Hypothesis HtM : two (-50) * M <= tol.
Hypothesis Ht : two (-60) <= tol.
Hypothesis HM : M <= two 60.

Let g (x : num) : num := rsub b64 (fst (fn x)) (Fin T).
Definition big (v : num) : Prop := ngtb (nabs v) (Fin tol) = true.

Lemma g_value : forall x, point x -> exists v d r, fn x = (Fin v, d) /\ (d = PInf \/ exists r, d = Fin r /\ 0 <= r) /\
  g x = Fin r /\ double r /\ Rabs r <= M /\ (v <= T -> r <= 0) /\ (T <= v -> 0 <= r).
Proof.
  intros x P. destruct (Value x P) as (v & d & E & Dv & B & Hd). unfold g. rewrite E. cbn [fst].
  unfold rsub. cbn [nsub nopp nadd rnd_num]. fold (v - T).
  assert (B' : - M <= v - T <= M) by (revert B; unfold Rabs; destruct (Rcase_abs _); lra).
  destruct (b64_between (- M) M (v - T) (double_opp M DM) DM B') as (r & Er & Hr & Dr).
  exists v, d, r. unfold Rminus in Er. repeat split; auto.
  - unfold Rabs. destruct (Rcase_abs r); lra.
  - intros L. pose proof (b64_mono (v + - T) 0 ltac:(lra)) as Mo. rewrite Er, b64_0 in Mo. exact Mo.
  - intros L. pose proof (b64_mono 0 (v + - T) ltac:(lra)) as Mo. rewrite Er, b64_0 in Mo. exact Mo.
Qed.

Ltac proj := cbn [s_x s_f s_fp s_norm s_diff s_xl s_xu s_fl s_fu s_n s_fseq s_xseq s_nseq s_dseq].

Definition upper (xu : num) : Prop :=
  xu = PInf \/ exists u, xu = Fin u /\ double u /\ two (-900) <= u <= two 960.

Definition Inv (s : sstate) : Prop := exists l,
  s_xl s = Fin l /\ 0 <= l /\ double l /\ point (s_x s) /\ nle (Fin l) (s_x s) /\ nle (s_x s) (s_xu s) /\ upper (s_xu s) /\
  s_f s = g (s_x s) /\ s_fp s = snd (fn (s_x s)) /\ s_norm s = nabs (s_f s) /\
  nle (g (Fin l)) (Fin 0) /\ nle (Fin 0) (g (s_xu s)) /\
  (s_fl s = None \/ s_fl s = Some (g (Fin l)) /\ (s_x s = Fin l \/ big (g (Fin l)))) /\
  (s_fu s = None \/ s_fu s = Some (g (s_xu s)) /\ (s_x s = s_xu s \/ big (g (s_xu s)))) /\
  Forall point (s_xseq s).

Lemma upper_point : forall xu, upper xu -> point xu.
Proof.
  intros xu [-> | (u & -> & D & H)]; [left; reflexivity|]. right. exists u. split; [reflexivity|]. split; [|exact D].
  pose proof (two_pos (-900)). lra.
Qed.

(** The next point is between the bounds. *)
Lemma next_inside : forall s, Inv s -> big (s_f s) -> let x := rnext_x b64 (Fin a) s in
  point x /\ nle (s_xl s) x /\ nle x (s_xu s).
Proof.
  intros s (l & El & Hl & Dl & Px & Lx & Ux & Up & Ef & Efp & En & Gl & Gu & Fl & Fu & _) B x.
  assert (Pl : point (Fin l)) by (right; exists l; auto).
  assert (Pu := upper_point _ Up).
  assert (Lu : nle (Fin l) (s_xu s)) by (eapply nle_trans; eassumption).
  assert (Rl : nle (Fin l) (Fin l)) by (cbn; lra).
  assert (Ru : nle (s_xu s) (s_xu s)) by (eapply nle_refl_r; eassumption).
  rewrite El. unfold rnext_x in x.
  set (dx := if negb (is0 (s_fp s)) then rdiv b64 (nopp (s_f s)) (s_fp s) else rdiv b64 (nopp (s_f s)) (Fin a)) in x.
  set (xn := radd b64 (s_x s) dx) in x.
  assert (T0 : 0 < tol) by (pose proof (two_pos (-60)); lra).
  destruct (g_value (s_x s) Px) as (v & d & r & Ev & Hd & Eg & Dr & Br & S1 & S2).
  assert (Edx : dx = PInf \/ dx = NInf \/ exists q, dx = Fin q).
  { unfold dx. rewrite Ef, Eg, Efp, Ev. cbn [snd nopp].
    assert (BB : forall q, b64 q = PInf \/ b64 q = NInf \/ exists w, b64 q = Fin w).
    { intros q. destruct (Rle_dec 0 q) as [Q|Q].
      - destruct (b64_nonneg q Q) as [-> | (w & -> & _)]; eauto.
      - destruct (b64_nonneg (- q) ltac:(lra)) as [E | (w & E & _)]; rewrite b64_opp in E; destruct (b64 q); cbn in E; try discriminate; eauto. }
    unfold rdiv. assert (NZa : a <> 0) by (pose proof (two_pos (-900)); lra).
    destruct Hd as [-> | (r' & -> & Hr')].
    - cbn. right. right. exists 0. apply b64_0.
    - change (is0 (Fin r')) with (Reqb r' 0). destruct (Reqb_spec r' 0) as [Z|Z]; cbn [negb ndiv].
      + rewrite Reqb_false by exact NZa. cbn [rnd_num]. apply BB.
      + rewrite Reqb_false by exact Z. cbn [rnd_num]. apply BB. }
  assert (Xn : (exists w, xn = Fin w /\ double w) \/ ngeb xn (s_xu s) = true \/ nleb xn (Fin l) = true).
  { destruct Px as [Ex | (w & Ex & Hw & Dw)].
    - right. left. assert (EU : s_xu s = PInf) by (rewrite Ex in Ux; destruct (s_xu s); cbn in Ux; try contradiction; reflexivity).
      assert (EN : xn = PInf); [|rewrite EN, EU; reflexivity].
      unfold xn. rewrite Ex. rewrite Ex in Ev. destruct (Top v d Ev) as [_ E0].
      assert (F : exists q, dx = Fin q).
      { unfold dx. rewrite Efp, Ex, Ev, E0. cbn [snd]. change (is0 (Fin 0)) with (Reqb 0 0). rewrite Reqb_true by reflexivity. cbn [negb].
        rewrite Ef, Eg. unfold rdiv. cbn [nopp ndiv]. pose proof (two_pos (-900)). rewrite Reqb_false by lra. cbn [rnd_num].
        destruct (b64_between (- two 960) (two 960) (- r / a)) as (q & -> & _); [apply double_opp|..|eauto]; try (apply double_two; lia).
        assert (BR : Rabs (- r / a) <= two 960); [|revert BR; unfold Rabs; destruct (Rcase_abs _); lra].
        unfold Rdiv. rewrite Rabs_mult, Rabs_Ropp. replace 960%Z with (60 + 900)%Z by lia. rewrite two_add.
        apply Rmult_le_compat; try apply Rabs_pos; [lra|]. rewrite Rabs_right by (left; apply Rinv_0_lt_compat; lra).
        rewrite <- (Rinv_inv (two 900)). rewrite <- two_neg. apply Rinv_le_contravar; [apply two_pos | exact Ha]. }
      destruct F as (q & ->). reflexivity.
    - unfold xn. rewrite Ex. destruct Edx as [-> | [-> | (q & ->)]].
      + right. left. unfold radd. cbn. destruct Pu as [-> | (u & -> & _)]; reflexivity.
      + right. right. reflexivity.
      + unfold radd. cbn [nadd rnd_num]. destruct (Rle_dec 0 (w + q)) as [Q|Q].
        * destruct (b64_nonneg (w + q) Q) as [-> | (y & -> & _ & Dy)]; [|left; eauto].
          right. left. destruct Pu as [-> | (u & -> & _)]; reflexivity.
        * destruct (b64_nonneg (- (w + q)) ltac:(lra)) as [E | (y & E & Hy & Dy)]; rewrite b64_opp in E; destruct (b64 (w + q)) as [y'| | |]; cbn in E; try discriminate.
          -- right. right. reflexivity.
          -- injection E as E. left. exists y'. split; [reflexivity|]. replace y' with (- y) by lra. apply double_opp, Dy. }
  destruct (ngeb xn (s_xu s) || nleb xn (s_xl s)) eqn:O.
  - (* a bound or the secant point *)
    destruct Fu as [Fu | [Fu Bu]]; [|destruct Fl as [Fl | [Fl Bl]]]; unfold x; rewrite Fu; try rewrite Fl.
    + auto.
    + rewrite El. auto.
    + assert (BL : big (g (Fin l))) by (destruct Bl as [Bl|Bl]; [rewrite <- Bl, <- Ef; exact B | exact Bl]).
      assert (BU : big (g (s_xu s))) by (destruct Bu as [Bu|Bu]; [rewrite <- Bu, <- Ef; exact B | exact Bu]).
      rewrite El. cbn [isinf].
      destruct Up as [EU | (u & EU & Du & Hu)]; rewrite EU in *; cbn [isinf].
      * cbn [nabs]. rewrite Rabs_right by lra. unfold rmul, radd. cbn [nmul rnd_num].
        assert (M1 : le_num (Fin l) (b64 (2 * l))) by (rewrite <- (b64_fixed l Dl); apply b64_mono; lra).
        destruct (b64_nonneg (2 * l) ltac:(lra)) as [E2 | (w & E2 & Hw & Dw)]; rewrite E2 in *.
        -- cbn. split; [left; reflexivity | split; exact I].
        -- cbn [nadd rnd_num]. cbn in M1.
           assert (M2 : le_num (Fin l) (b64 (l + w))) by (rewrite <- (b64_fixed l Dl) at 1; apply b64_mono; lra).
           destruct (b64_nonneg (l + w) ltac:(lra)) as [E3 | (y & E3 & Hy & Dy)]; rewrite E3 in *.
           ++ split; [left; reflexivity | split; exact I].
           ++ cbn in M2. split; [right; eauto | split; [exact M2 | exact I]].
      * destruct (g_value (Fin l) Pl) as (vl & dl & rl & _ & _ & Egl & Drl & Brl & _).
        destruct (g_value (Fin u) Pu) as (vu & du & ru & _ & _ & Egu & Dru & Bru & _).
        rewrite Egl, Egu in *. unfold big in BL, BU. cbn in BL, BU, Gl, Gu, Lu.
        destruct (Rltb_spec tol (Rabs rl)) as [KL|]; [|discriminate]. destruct (Rltb_spec tol (Rabs ru)) as [KU|]; [|discriminate].
        rewrite Rabs_left1 in KL, Brl by lra. rewrite Rabs_right in KU, Bru by lra.
        destruct (secant_inside u l ru rl tol M) as (y & Ey & Dy & Hy); try assumption; try lra.
        unfold secant in Ey. rewrite Ey. split; [right; exists y; split; [reflexivity | split; [lra | exact Dy]]|]. cbn. lra.
  - unfold x. apply orb_false_iff in O as [O1 O2]. rewrite El in O2. destruct Xn as [(w & Ew & Dw) | [Xn | Xn]]; [|rewrite Xn in O1; discriminate | rewrite Xn in O2; discriminate].
    rewrite Ew in *. assert (L : l <= w).
    { apply Rnot_lt_le. intros K. unfold nleb in O2. cbn in O2. rewrite Rltb_true in O2 by exact K. discriminate. }
    split; [right; exists w; split; [reflexivity | split; [lra | exact Dw]]|]. split; [exact L|].
    destruct Pu as [EU | (u & EU & _)]; rewrite EU in *; [exact I|]. cbn. apply Rnot_lt_le. intros K.
    unfold ngeb, nleb in O1. cbn in O1. rewrite Rltb_true in O1 by exact K. discriminate.
Qed.

Lemma big_norm : forall s, Inv s -> ngtb (s_norm s) (Fin tol) = true -> big (s_f s).
Proof. intros s (l & H) B. decompose [and] H. unfold big. congruence. Qed.

(** One pass keeps the invariant and does not raise. *)
Lemma step_inv : forall s, Inv s -> big (s_f s) -> exists s', rsolver_step b64 fn (Fin T) (Fin a) s = Ok s' /\ Inv s'.
Proof.
  intros s IV B. destruct (next_inside s IV B) as (Px' & Lx' & Ux').
  destruct IV as (l & El & Hl & Dl & Px & Lx & Ux & Up & Ef & Efp & En & Gl & Gu & Fl & Fu & Sq).
  unfold rsolver_step. set (x := rnext_x b64 (Fin a) s) in *. rewrite El in Lx'.
  destruct (g_value x Px') as (v & d & r & Ev & Hd & Eg & Dr & Br & S1 & S2).
  assert (Gx : rsub b64 (Fin v) (Fin T) = Fin r) by (unfold g in Eg; rewrite Ev in Eg; exact Eg).
  rewrite Ev. cbv zeta. rewrite Gx.
  (* what was recorded is beyond the tolerance *)
  assert (FL : s_fl s = None \/ s_fl s = Some (g (Fin l)) /\ big (g (Fin l))).
  { destruct Fl as [?|[F [Q|Q]]]; [left; assumption | right; split; [exact F|] ..]; [rewrite <- Q, <- Ef; exact B | exact Q]. }
  assert (FU : s_fu s = None \/ s_fu s = Some (g (s_xu s)) /\ big (g (s_xu s))).
  { destruct Fu as [?|[F [Q|Q]]]; [left; assumption | right; split; [exact F|] ..]; [rewrite <- Q, <- Ef; exact B | exact Q]. }
  assert (SQ : Forall point (s_xseq s ++ [x])) by (apply Forall_app; split; [exact Sq | constructor; [exact Px' | constructor]]).
  assert (FL' : s_fl s = None \/ s_fl s = Some (g (Fin l)) /\ (x = Fin l \/ big (g (Fin l)))) by (destruct FL as [?|[? ?]]; auto).
  assert (FU' : s_fu s = None \/ s_fu s = Some (g (s_xu s)) /\ (x = s_xu s \/ big (g (s_xu s)))) by (destruct FU as [?|[? ?]]; auto).
  assert (Bx : bracket x (Fin r) d (s_xl s) (s_xu s) (s_fl s) (s_fu s) =
      if is0 d then None else if Rltb 0 r then Some (s_xl s, x, s_fl s, Some (Fin r))
      else if Rltb r 0 then Some (x, s_xu s, Some (Fin r), s_fu s) else None).
  { unfold bracket. rewrite El. unfold ngtb, ngeb. apply nleb_nle in Lx', Ux'. rewrite Lx', Ux'.
    destruct Hd as [-> | (r' & -> & Hr')].
    - cbn [nltb is0 neqb]. rewrite !andb_true_r, !andb_false_r. cbn. destruct (Rltb 0 r); [reflexivity|]. destruct (Rltb r 0); reflexivity.
    - change (is0 (Fin r')) with (Reqb r' 0). cbn [nltb]. rewrite (Rltb_false r' 0) by lra. rewrite !andb_false_r. cbn [andb].
      destruct (Reqb_spec r' 0) as [Z|Z].
      + rewrite (Rltb_false 0 r') by lra. rewrite !andb_false_r. reflexivity.
      + rewrite (Rltb_true 0 r') by lra. rewrite !andb_true_r. destruct (Rltb 0 r); [reflexivity|]. destruct (Rltb r 0); reflexivity. }
  rewrite Bx. destruct (is0 d) eqn:Zd.
  - (* flat *)
    destruct (neqb x (s_xu s)) eqn:EU; [|destruct (neqb x (s_xl s)) eqn:EL]; cbn [bind]; eexists; (split; [reflexivity|]);
      exists l; proj; repeat (split; [first [assumption | reflexivity | (rewrite Ev; reflexivity) | (symmetry; exact Eg)]|]); try assumption.
    + apply neqb_eq in EU. repeat (split; [first [assumption | reflexivity]|]). split; [right; rewrite <- EU; split; [rewrite Eg; reflexivity | left; reflexivity]|]. exact SQ.
    + apply neqb_eq in EL. rewrite El in EL. split; [right; rewrite <- EL; split; [rewrite Eg; reflexivity | left; reflexivity]|]. split; [exact FU' | exact SQ].
  - destruct (Rltb_spec 0 r) as [R1|R1]; [|destruct (Rltb_spec r 0) as [R2|R2]].
    + (* above: the new upper bound *)
      cbn [bind]. eexists. split; [reflexivity|]. exists l. proj.
      assert (UX : upper x).
      { destruct Px' as [-> | (w & Ew & Hw & Dw)]; [left; reflexivity|]. right. exists w. split; [exact Ew|]. split; [exact Dw|].
        rewrite Ew in Ev. split.
        - apply Rnot_lt_le. intros K. specialize (Low w v d (conj Hw K) Dw Ev). specialize (S1 Low). lra.
        - apply Rnot_lt_le. intros K. specialize (High w v d K Dw Ev). rewrite High in Zd.
          change (is0 (Fin 0)) with (Reqb 0 0) in Zd. rewrite Reqb_true in Zd by reflexivity. discriminate. }
      split; [exact El|]. repeat (split; [assumption|]). split; [eapply nle_refl_r; exact Lx'|]. split; [exact UX|].
      split; [symmetry; exact Eg|]. split; [rewrite Ev; reflexivity|]. split; [reflexivity|]. split; [exact Gl|].
      split; [rewrite Eg; cbn; lra|]. split; [exact FL'|]. split; [|exact SQ]. right. rewrite Eg. split; [reflexivity | left; reflexivity].
    + (* below: the new lower bound *)
      cbn [bind]. eexists. split; [reflexivity|].
      destruct Px' as [Ex | (w & Ew & Hw & Dw)].
      { exfalso. rewrite Ex in Ev. destruct (Top v d Ev) as [Q _]. specialize (S2 Q). lra. }
      exists w. proj. rewrite <- Ew. split; [reflexivity|]. split; [exact Hw|]. split; [exact Dw|]. split; [right; exists w; auto|].
      split; [eapply nle_refl_r; exact Lx'|]. split; [exact Ux'|]. split; [exact Up|].
      split; [symmetry; exact Eg|]. split; [rewrite Ev; reflexivity|]. split; [reflexivity|].
      split; [rewrite Eg; cbn; lra|]. split; [exact Gu|]. split; [right; rewrite Eg; split; [reflexivity | left; reflexivity]|].
      split; [exact FU' | exact SQ].
    + (* the root *)
      assert (R0 : r = 0) by lra. change (is0 (Fin r)) with (Reqb r 0). rewrite Reqb_true by exact R0. cbn [bind].
      eexists. split; [reflexivity|]. exists l. proj.
      split; [exact El|]. repeat (split; [assumption|]). split; [symmetry; exact Eg|]. split; [rewrite Ev; reflexivity|]. split; [reflexivity|].
      repeat (split; [assumption|]). exact SQ.
Qed.

Lemma loop_inv : forall rem s, Inv s -> exists s', rsolver_loop b64 fn (Fin T) (Fin a) (Fin rho) rem s = Ok s' /\ Inv s'.
Proof.
  induction rem as [|k IH]; intros s IV; cbn [rsolver_loop]; [eauto|]. rewrite Htol.
  destruct (ngtb (s_norm s) (Fin tol) && ngtb (s_diff s) (Fin rho)) eqn:C; [|eauto].
  apply andb_true_iff in C as [C _]. destruct (step_inv s IV (big_norm s IV C)) as (s1 & E & IV1). rewrite E. cbn [bind]. exact (IH s1 IV1).
Qed.

(** The whole run from a start in [0, inf]. *)
Lemma run_inv : forall x0 max_iter, point x0 -> exists s,
  (rsolver_init b64 fn x0 (Fin T) (Fin a) (Fin 0) PInf None None = Ok (inl s) \/
   exists s0, rsolver_init b64 fn x0 (Fin T) (Fin a) (Fin 0) PInf None None = Ok (inr s0) /\
     rsolver_loop b64 fn (Fin T) (Fin a) (Fin rho) max_iter s0 = Ok s) /\ Forall point (s_xseq s).
Proof.
  intros x0 max_iter P. unfold rsolver_init.
  destruct (g_value x0 P) as (v & d & r & Ev & Hd & Eg & Dr & Br & S1 & S2).
  assert (Gx : rsub b64 (Fin v) (Fin T) = Fin r) by (unfold g in Eg; rewrite Ev in Eg; exact Eg).
  rewrite Ev. cbv zeta. rewrite Gx.
  assert (Out : ngtb x0 PInf || nltb x0 (Fin 0) = false).
  { destruct P as [-> | (w & -> & Hw & _)]; [reflexivity|]. cbn. apply Rltb_false. exact Hw. }
  rewrite Out. destruct (nltb (nabs (Fin r)) (Fin a)) eqn:Early.
  { eexists. split; [left; reflexivity|]. cbn. constructor; [exact P | constructor]. }
  assert (NR : r <> 0).
  { intros ->. cbn in Early. rewrite Rabs_R0 in Early. pose proof (two_pos (-900)). rewrite Rltb_true in Early by lra. discriminate. }
  assert (P0 : point (Fin 0)) by (right; exists 0; split; [reflexivity | split; [lra | apply double_0]]).
  assert (G0 : nle (g (Fin 0)) (Fin 0)).
  { destruct (g_value (Fin 0) P0) as (v0 & d0 & r0 & Ev0 & _ & Eg0 & _ & _ & Q & _). rewrite Eg0. cbn. apply Q.
    apply (Low 0 v0 d0); [|apply double_0 | exact Ev0]. pose proof (two_pos (-900)). lra. }
  assert (GI : nle (Fin 0) (g PInf)).
  { destruct (g_value PInf (or_introl eq_refl)) as (v0 & d0 & r0 & Ev0 & _ & Eg0 & _ & _ & _ & Q). rewrite Eg0. cbn. apply Q.
    apply (Top v0 d0 Ev0). }
  assert (L0 : nle (Fin 0) x0) by (destruct P as [-> | (w & -> & Hw & _)]; [exact I | exact Hw]).
  assert (U0 : nle x0 PInf) by (destruct P as [-> | (w & -> & _)]; exact I).
  assert (R0 : nle x0 x0) by (eapply nle_refl_r; exact L0).
  assert (SQ : Forall point [x0]) by (constructor; [exact P | constructor]).
  assert (Fini : forall (i : res (sstate + sstate)) s0, i = Ok (inr s0) -> Inv s0 -> exists s, (i = Ok (inl s) \/ exists s0, i = Ok (inr s0) /\
      rsolver_loop b64 fn (Fin T) (Fin a) (Fin rho) max_iter s0 = Ok s) /\ Forall point (s_xseq s)).
  { intros i s0 -> IV. destruct (loop_inv max_iter s0 IV) as (s' & E & IV'). exists s'. split; [right; exists s0; auto|].
    destruct IV' as (l & H). decompose [and] H. assumption. }
  unfold bracket. unfold ngtb, ngeb. apply nleb_nle in L0 as LB, U0 as UB. rewrite LB, UB.
  destruct Hd as [Hd | (r' & Hd & Hr')].
  - rewrite Hd in *. cbn [nltb is0 neqb]. rewrite !andb_true_r, !andb_false_r. cbn [andb].
    destruct (Rltb_spec 0 r) as [R1|R1]; [|rewrite Rltb_true by lra]; (eapply Fini; [reflexivity|]).
    + exists 0. proj.
      assert (UX : upper x0).
      { destruct P as [-> | (w & Ew & Hw & Dw)]; [left; reflexivity|]. right. exists w. split; [exact Ew|]. split; [exact Dw|]. rewrite Ew in Ev. split.
        - apply Rnot_lt_le. intros K. specialize (Low w v PInf (conj Hw K) Dw Ev). specialize (S1 Low). lra.
        - apply Rnot_lt_le. intros K. specialize (High w v PInf K Dw Ev). discriminate. }
      split; [reflexivity|]. split; [lra|]. split; [apply double_0|]. repeat (split; [assumption|]).
      split; [symmetry; exact Eg|]. split; [rewrite Ev; reflexivity|]. split; [reflexivity|]. split; [exact G0|].
      split; [rewrite Eg; cbn; lra|]. split; [left; reflexivity|]. split; [|exact SQ]. right. rewrite Eg. split; [reflexivity | left; reflexivity].
    + destruct P as [Ex | (w & Ew & Hw & Dw)]; [exfalso; rewrite Ex in Ev; destruct (Top v PInf Ev) as [Q _]; specialize (S2 Q); lra|].
      exists w. proj. rewrite <- Ew. split; [reflexivity|]. split; [exact Hw|]. split; [exact Dw|]. split; [right; exists w; auto|].
      split; [exact R0|]. split; [exact U0|]. split; [left; reflexivity|]. split; [symmetry; exact Eg|]. split; [rewrite Ev; reflexivity|]. split; [reflexivity|].
      split; [rewrite Eg; cbn; lra|]. split; [exact GI|]. split; [right; rewrite Eg; split; [reflexivity | left; reflexivity]|].
      split; [left; reflexivity | exact SQ].
  - rewrite Hd in *. cbn [nltb]. rewrite (Rltb_false r' 0) by lra. rewrite !andb_false_r. cbn [andb]. change (is0 (Fin r')) with (Reqb r' 0).
    destruct (Reqb_spec r' 0) as [Z|Z].
    + rewrite (Rltb_false 0 r') by lra. rewrite !andb_false_r. cbn [andb]. eapply Fini; [reflexivity|]. exists 0. proj.
      split; [reflexivity|]. split; [lra|]. split; [apply double_0|]. repeat (split; [assumption|]). split; [left; reflexivity|].
      split; [symmetry; exact Eg|]. split; [rewrite Ev; reflexivity|]. split; [reflexivity|]. split; [exact G0|]. split; [exact GI|].
      split; [left; reflexivity|]. split; [left; reflexivity | exact SQ].
    + rewrite (Rltb_true 0 r') by lra. rewrite !andb_true_r.
      destruct (Rltb_spec 0 r) as [R1|R1]; [|rewrite Rltb_true by lra]; (eapply Fini; [reflexivity|]).
      * exists 0. proj.
        assert (UX : upper x0).
        { destruct P as [-> | (w & Ew & Hw & Dw)]; [left; reflexivity|]. right. exists w. split; [exact Ew|]. split; [exact Dw|]. rewrite Ew in Ev. split.
          - apply Rnot_lt_le. intros K. specialize (Low w v _ (conj Hw K) Dw Ev). specialize (S1 Low). lra.
          - apply Rnot_lt_le. intros K. specialize (High w v _ K Dw Ev). congruence. }
        split; [reflexivity|]. split; [lra|]. split; [apply double_0|]. repeat (split; [assumption|]).
        split; [symmetry; exact Eg|]. split; [rewrite Ev; reflexivity|]. split; [reflexivity|]. split; [exact G0|].
        split; [rewrite Eg; cbn; lra|]. split; [left; reflexivity|]. split; [|exact SQ]. right. rewrite Eg. split; [reflexivity | left; reflexivity].
      * destruct P as [Ex | (w & Ew & Hw & Dw)]; [exfalso; rewrite Ex in Ev; destruct (Top v _ Ev) as [Q _]; specialize (S2 Q); lra|].
        exists w. proj. rewrite <- Ew. split; [reflexivity|]. split; [exact Hw|]. split; [exact Dw|]. split; [right; exists w; auto|].
        split; [exact R0|]. split; [exact U0|]. split; [left; reflexivity|]. split; [symmetry; exact Eg|]. split; [rewrite Ev; reflexivity|]. split; [reflexivity|].
        split; [rewrite Eg; cbn; lra|]. split; [exact GI|]. split; [right; rewrite Eg; split; [reflexivity | left; reflexivity]|].
        split; [left; reflexivity | exact SQ].
Qed.
End Loop.
