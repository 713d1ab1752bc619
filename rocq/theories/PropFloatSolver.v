(** Property C98: the root finder and the density fit in double precision. *)
From Verif Require Import Base Num Spec Kernels Prob Ensemble Conditional Solver SolverFacts Fit Float FloatFacts FloatSolver FloatSolverFacts
  PropSolver PropFloat.

(** * Without rounding *)
Theorem C98_exact :
  (forall fn x0 target atol rtol max_iter xl xu fl fu,
     rsolver Fin fn x0 target atol rtol max_iter xl xu fl fu = monotonic_newton_solver fn x0 target atol rtol max_iter xl xu fl fu) /\
  (forall X Y Z (p_jac : num -> X -> Y -> Z -> num * num) param po pin z N sl,
     rexp_edges_f_jac Fin (fun i j => p_jac param (po i) (pin j) (z i j)) N sl = exp_edges_f_jac p_jac param po pin z N sl).
Proof.
  split.
  - intros fn x0 target atol rtol max_iter xl xu fl fu.
    assert (TL : rtolerance Fin atol rtol target = nadd atol (nmul rtol target)) by (unfold rtolerance; exact_ops; reflexivity).
    assert (FI : forall s, rfinish Fin target max_iter atol rtol s = finish target max_iter atol rtol s).
    { intros s. unfold rfinish, finish, rmake_solution, make_solution. rewrite TL. reflexivity. }
    assert (NX : forall s, rnext_x Fin atol s = next_x atol s) by (intros s; unfold rnext_x, next_x; destruct (s_fu s), (s_fl s); exact_ops; reflexivity).
    assert (ST : forall s, rsolver_step Fin fn target atol s = solver_step fn target atol s).
    { intros s. unfold rsolver_step, solver_step. rewrite NX. cbv zeta. destruct (fn (next_x atol s)) as [f0 fp]. exact_ops.
      destruct (bracket _ _ _ _ _ _ _) as [[[[? ?] ?] ?]|]; cbn [bind]; rewrite ?rnd_exact; [reflexivity|].
      destruct (is0 fp); [destruct (neqb _ _); [|destruct (neqb _ _)]|destruct (is0 _)]; cbn [bind]; rewrite ?rnd_exact; reflexivity. }
    assert (LO : forall k s, rsolver_loop Fin fn target atol rtol k s = solver_loop fn target atol rtol k s).
    { induction k as [|k IH]; intros s; cbn [rsolver_loop solver_loop]; [reflexivity|]. rewrite TL, ST.
      destruct (_ && _); [|reflexivity]. destruct (solver_step fn target atol s); cbn [bind]; [apply IH | reflexivity]. }
    unfold rsolver, monotonic_newton_solver.
    replace (rsolver_init Fin fn x0 target atol xl xu fl fu) with (solver_init fn x0 target atol xl xu fl fu)
      by (unfold rsolver_init, solver_init; destruct (fn x0) as [f0 fp]; exact_ops; reflexivity).
    destruct (solver_init fn x0 target atol xl xu fl fu) as [[s|s]|e]; cbn [bind]; [apply FI | | reflexivity].
    rewrite LO. destruct (solver_loop fn target atol rtol max_iter s); cbn [bind]; [apply FI | reflexivity].
  - intros X Y Z p_jac param po pin z N sl. unfold rexp_edges_f_jac, exp_edges_f_jac, racc_pair, acc_pair.
    apply (for_range_rel _ _ eq); [reflexivity|]. intros i s s' _ ->. apply (for_range_rel _ _ eq); [reflexivity|]. intros j t t' _ ->.
    destruct (adm sl i j); [|reflexivity]. exact_ops. reflexivity.
Qed.
Print Assumptions C98_exact.

(** * The report *)
Section Report.
Variables (fn : num -> num * num) (target atol rtol : num).
Let g (x : num) : num := rsub b64 (fst (fn x)) target.
Let tol := radd b64 atol (rmul b64 rtol target).

Definition rtrace (x0 : num) (n0 : nat) (s : sstate) : Prop :=
  s_f s = g (s_x s) /\ s_norm s = nabs (s_f s) /\
  (exists pre, s_xseq s = pre ++ [s_x s]) /\ (exists pre, s_dseq s = pre ++ [s_diff s]) /\
  (exists t, s_xseq s = x0 :: t) /\
  s_fseq s = map g (s_xseq s) /\ s_nseq s = map nabs (s_fseq s) /\
  length (s_xseq s) = S (s_n s) /\ length (s_dseq s) = S (s_n s) /\ (s_n s = n0)%nat.

Lemma rstep_trace : forall x0 n s s', rtrace x0 n s -> rsolver_step b64 fn target atol s = Ok s' -> rtrace x0 (S n) s'.
Proof.
  intros x0 n s s' (Hf & Hn & _ & _ & [t Ht] & Hfs & Hns & Hlx & Hld & Hc) H. unfold rsolver_step in H.
  set (x := rnext_x b64 atol s) in *. destruct (fn x) as [f0 fp] eqn:E.
  match type of H with bind ?u _ = _ => destruct u as [[[[xl xu] fl] fu]|e] end; [|discriminate].
  simpl in H; injection H as <-. unfold rtrace; simpl.
  assert (Hg : g x = rsub b64 f0 target) by (unfold g; rewrite E; reflexivity).
  split; [symmetry; exact Hg|]. split; [reflexivity|]. split; [eexists; reflexivity|]. split; [eexists; reflexivity|].
  split; [rewrite Ht; eexists; reflexivity|]. split; [rewrite map_app, Hfs; simpl; rewrite Hg; reflexivity|].
  split; [rewrite map_app, Hns; reflexivity|]. rewrite !app_length, Hlx, Hld; simpl. repeat split; lia.
Qed.
Lemma rloop_trace : forall rem x0 n s s', rtrace x0 n s -> rsolver_loop b64 fn target atol rtol rem s = Ok s' ->
  exists n', rtrace x0 n' s' /\ (n <= n' <= n + rem)%nat /\
    ((n' < n + rem)%nat -> ngtb (s_norm s') tol && ngtb (s_diff s') rtol = false).
Proof.
  induction rem as [|k IH]; intros x0 n s s' Ht H; cbn [rsolver_loop] in H.
  - injection H as <-. exists n; split; [exact Ht | split; [lia | intros; lia]].
  - unfold rtolerance in H. fold tol in H. destruct (ngtb (s_norm s) tol && ngtb (s_diff s) rtol) eqn:C.
    + destruct (rsolver_step b64 fn target atol s) as [s1|e] eqn:E; [|discriminate]. simpl in H.
      destruct (IH x0 (S n) s1 s') as (n' & T & Hn & Hs); [eapply rstep_trace; eassumption | exact H |].
      exists n'; split; [exact T | split; [lia | intros; apply Hs; lia]].
    + injection H as <-. exists n; split; [exact Ht | split; [lia | intros; exact C]].
Qed.
Lemma rinit_trace : forall x0 xl xu fl fu s,
  rsolver_init b64 fn x0 target atol xl xu fl fu = Ok (inl s) \/ rsolver_init b64 fn x0 target atol xl xu fl fu = Ok (inr s) ->
  rtrace x0 0 s.
Proof.
  intros x0 xl xu fl fu s H. unfold rsolver_init in H. destruct (fn x0) as [f0 fp] eqn:E.
  assert (T : forall a b c d, rtrace x0 0 (mkS x0 (rsub b64 f0 target) fp (nabs (rsub b64 f0 target))
      (Fin 1) a b c d 0 [rsub b64 f0 target] [x0] [nabs (rsub b64 f0 target)] [Fin 1])).
  { intros a b c d. unfold rtrace; simpl. unfold g; rewrite E; simpl. repeat split; try reflexivity; try (exists []; reflexivity). }
  destruct (ngtb x0 xu || nltb x0 xl); [destruct H; discriminate|]. destruct (nltb _ atol).
  - destruct H as [H|H]; [|discriminate]. injection H as <-. apply T.
  - destruct (bracket _ _ _ _ _ _ _) as [[[[a b] c] d]|].
    + destruct H as [H|H]; [discriminate|]. injection H as <-. apply T.
    + destruct (is0 fp); [|destruct H; discriminate]. destruct H as [H|H]; [discriminate|]. injection H as <-. apply T.
Qed.
Lemma rinit_early : forall x0 xl xu fl fu s, rsolver_init b64 fn x0 target atol xl xu fl fu = Ok (inl s) -> nltb (s_norm s) atol = true.
Proof.
  intros x0 xl xu fl fu s H. unfold rsolver_init in H. destruct (fn x0) as [f0 fp].
  destruct (ngtb x0 xu || nltb x0 xl); [discriminate|]. destruct (nltb _ atol) eqn:L; [injection H as <-; exact L|].
  destruct (bracket _ _ _ _ _ _ _) as [[[[a b] c] d]|]; [discriminate|]. destruct (is0 fp); discriminate.
Qed.
Lemma rfinish_ok : forall x0 n max_iter s, rtrace x0 n s ->
  rfinish b64 target max_iter atol rtol s
  = Ok (mkSol (s_x s) target n max_iter (s_fseq s) (s_xseq s) (s_nseq s) (s_dseq s)
         (Nat.leb max_iter n) (nleb (s_norm s) tol) (nleb (s_diff s) rtol)).
Proof.
  intros x0 n max_iter s (Hf & Hn & [px Hx] & [pd Hd] & _ & Hfs & Hns & _ & _ & Hc).
  unfold rfinish, rmake_solution. rewrite Hns, Hfs, Hx, Hd, !map_app, !rev_app_distr. simpl. rewrite <- Hf, <- Hn, Hc. reflexivity.
Qed.
End Report.

(** The report of a run in doubles agrees with what was computed: [f x] is the computed difference between objective
    and target, [tol] the computed tolerance. *)
Theorem C98_report : forall (fn : num -> num * num) target atol rtol x0 max_iter xl xu fl fu sol,
  let f x := rsub b64 (fst (fn x)) target in
  let tol := radd b64 atol (rmul b64 rtol target) in
  rsolver b64 fn x0 target atol rtol max_iter xl xu fl fu = Ok sol ->
  (sol_n_iter sol <= max_iter)%nat /\ sol_max_iter_reached sol = Nat.eqb (sol_n_iter sol) max_iter /\
  sol_converged sol = nleb (nabs (f (sol_x sol))) tol /\
  sol_no_change_stop sol = nleb (last (sol_diff_seq sol) NaN) rtol /\
  sol_f_seq sol = map f (sol_x_seq sol) /\ sol_norm_seq sol = map nabs (sol_f_seq sol) /\
  length (sol_x_seq sol) = S (sol_n_iter sol) /\ length (sol_diff_seq sol) = S (sol_n_iter sol) /\
  hd NaN (sol_x_seq sol) = x0 /\ last (sol_x_seq sol) NaN = sol_x sol /\
  ((sol_n_iter sol < max_iter)%nat -> nltb (nabs (f (sol_x sol))) atol = true \/
     ngtb (nabs (f (sol_x sol))) tol = false \/ ngtb (last (sol_diff_seq sol) NaN) rtol = false).
Proof.
  intros fn target atol rtol x0 max_iter xl xu fl fu sol f tol H. unfold rsolver in H.
  assert (Main : exists n s, rtrace fn target x0 n s /\ (n <= max_iter)%nat /\
    ((n < max_iter)%nat -> nltb (s_norm s) atol = true \/ ngtb (s_norm s) tol && ngtb (s_diff s) rtol = false) /\
    rfinish b64 target max_iter atol rtol s = Ok sol).
  { destruct (rsolver_init b64 fn x0 target atol xl xu fl fu) as [[s|s]|e] eqn:E; cbn [bind] in H; [| |discriminate].
    - exists 0%nat, s. split; [eapply rinit_trace; left; exact E|]. split; [lia|]. split; [|exact H]. intros _. left. eapply rinit_early; exact E.
    - destruct (rsolver_loop b64 fn target atol rtol max_iter s) as [s'|e] eqn:EL; cbn [bind] in H; [|discriminate].
      destruct (rloop_trace fn target atol rtol max_iter x0 0 s s') as (n' & T & Hn & Hs); [eapply rinit_trace; right; exact E | exact EL|].
      exists n', s'. split; [exact T|]. split; [lia|]. split; [|exact H]. intros L. right. apply Hs. lia. }
  destruct Main as (n & s & T & Hn & Hs & F).
  rewrite (rfinish_ok fn target atol rtol x0 n max_iter s T) in F. injection F as <-. cbn.
  destruct T as (Hf & Hno & [px Hx] & [pd Hd] & [t Ht] & Hfs & Hns & Hlx & Hld & Hc).
  assert (NF : s_norm s = nabs (f (s_x s))) by (rewrite Hno, Hf; reflexivity).
  split; [exact Hn|]. split; [destruct (Nat.leb_spec max_iter n), (Nat.eqb_spec n max_iter); try reflexivity; lia|].
  split; [rewrite NF; reflexivity|]. split; [rewrite Hd, last_last; reflexivity|]. split; [exact Hfs|]. split; [exact Hns|].
  split; [rewrite Hlx, Hc; reflexivity|]. split; [rewrite Hld, Hc; reflexivity|]. split; [rewrite Ht; reflexivity|].
  split; [rewrite Hx, last_last; reflexivity|]. intros L. rewrite Hd, last_last, <- NF. destruct (Hs L) as [Q|Q]; [left; exact Q|right].
  apply andb_false_iff in Q. exact Q.
Qed.
Print Assumptions C98_report.

(** * Convergence *)

(** The difference of two near numbers of the format is a number of the format. *)
Lemma difference_exact : forall v T, double v -> double T -> Rabs (v - T) <= v -> Rabs (v - T) <= T -> double (v - T).
Proof.
  intros v T (m1 & e1 & E1 & M1 & X1) (m2 & e2 & E2 & M2 & X2) H1 H2.
  assert (K : forall a k e b m, 0 <= a -> Rabs (IZR k * two e) <= a -> a = IZR m * two e -> (Z.abs m < b)%Z -> (Z.abs k < b)%Z).
  { intros a k e b m Ha Hk Em Hm. pose proof (two_pos e) as P. rewrite Rabs_mult, (Rabs_right (two e)) in Hk by lra.
    assert (L : Rabs (IZR k) <= IZR m) by (apply Rmult_le_reg_r with (two e); [exact P | lra]). rewrite Rabs_Zabs in L. apply le_IZR in L. lia. }
  pose proof (Rabs_pos (v - T)) as Pos. assert (V0 : 0 <= v) by lra. assert (T0 : 0 <= T) by lra.
  destruct (Z.le_ge_cases e1 e2) as [L|L].
  - exists (m1 - m2 * 2 ^ (e2 - e1))%Z, e1.
    assert (E : v - T = IZR (m1 - m2 * 2 ^ (e2 - e1)) * two e1).
    { rewrite minus_IZR, mult_IZR, <- two_Z by lia. rewrite E1, E2. replace e2 with ((e2 - e1) + e1)%Z at 1 by lia. rewrite two_add. ring. }
    split; [exact E|]. split; [|exact X1]. rewrite E in H1. apply (K v _ e1 _ m1); auto.
  - exists (m1 * 2 ^ (e1 - e2) - m2)%Z, e2.
    assert (E : v - T = IZR (m1 * 2 ^ (e1 - e2) - m2) * two e2).
    { rewrite minus_IZR, mult_IZR, <- two_Z by lia. rewrite E1, E2. replace e1 with ((e1 - e2) + e2)%Z at 1 by lia. rewrite two_add. ring. }
    split; [exact E|]. split; [|exact X2]. rewrite E in H2. apply (K T _ e2 _ m2); auto.
Qed.

Lemma half_double : forall w, double w -> two (-1000) <= w -> double (w / 2).
Proof.
  intros w D H. assert (P : 0 < w) by (pose proof (two_pos (-1000)); lra).
  destruct (log_spec w P) as [L U]. set (e := Int_part (ln w / ln 2)) in *.
  assert (E : (-1000 <= e)%Z).
  { apply Z.lt_succ_r. apply Znot_ge_lt. intros K. apply Z.ge_le in K. apply two_le in K. unfold Z.succ in K. lra. }
  apply grid_double.
  - destruct (grid_multiple w w P (double_grid w D) L) as (k & Ek). rewrite (place_eval w e (conj L U)) in Ek by lia.
    exists k, (e - 52 - 1)%Z. split; [|split; [|lia]].
    + rewrite Ek. replace (e - 52 - 1)%Z with (-1 + (e - 52))%Z by lia. rewrite two_add, two_m1. lra.
    + assert (Q : IZR k * two (e - 52) < two 53 * two (e - 52)) by (rewrite <- Ek, <- two_add; replace (53 + (e - 52))%Z with (e + 1)%Z by lia; exact U).
      apply Rmult_lt_reg_r in Q; [|apply two_pos]. rewrite two_Z in Q by lia. apply lt_IZR in Q.
      assert (0 < IZR k) by (apply Rmult_lt_reg_r with (two (e - 52)); [apply two_pos | lra]). apply lt_IZR in H0. lia.
  - pose proof (double_bound w D). revert H0. rewrite !Rabs_right by lra. lra.
Qed.

(** The test is made on the computed difference and the computed tolerance; no rounding can make it come out wrong. *)
Theorem C98_converged : forall fn T a rho tol x0 max_iter xl xu fl fu sol v d,
  rsolver b64 fn x0 (Fin T) a rho max_iter xl xu fl fu = Ok sol ->
  fn (sol_x sol) = (Fin v, d) -> double v -> 0 <= v -> double T -> two (-1000) <= T ->
  radd b64 a (rmul b64 rho (Fin T)) = Fin tol -> double tol -> tol < T / 2 ->
  (sol_converged sol = true <-> Rabs (v - T) <= tol).
Proof.
  intros fn T a rho tol x0 max_iter xl xu fl fu sol v d R Ev Dv Hv DT HT Et Dt Ht.
  destruct (C98_report fn (Fin T) a rho x0 max_iter xl xu fl fu sol R) as (_ & _ & C & _). rewrite C, Ev, Et. cbn [fst].
  unfold rsub. cbn [nsub nopp nadd rnd_num]. fold (v - T).
  assert (P : 0 < T) by (pose proof (two_pos (-1000)); lra).
  assert (AB : nabs (b64 (v - T)) = b64 (Rabs (v - T))).
  { unfold Rabs. destruct (Rcase_abs (v - T)) as [N|N].
    - rewrite b64_opp. destruct (b64_nonneg (- (v - T)) ltac:(lra)) as [Q | (w & Q & Hw & _)]; rewrite b64_opp in Q;
        destruct (b64 (v - T)) as [y| | |]; cbn in Q; try discriminate; [reflexivity|]. injection Q as Q. cbn. rewrite Rabs_left1 by lra. reflexivity.
    - destruct (b64_nonneg (v - T) ltac:(lra)) as [-> | (w & -> & Hw & _)]; cbn; [reflexivity|]. rewrite Rabs_right by lra. reflexivity. }
  change (v + - T) with (v - T). rewrite AB. rewrite <- le_num_nleb. split; intros H.
  - assert (B : Rabs (v - T) <= T / 2).
    { apply Rnot_lt_le. intros K. pose proof (b64_mono (T / 2) (Rabs (v - T)) ltac:(lra)) as Mo.
      rewrite (b64_fixed _ (half_double T DT HT)) in Mo. destruct (b64 (Rabs (v - T))); cbn in Mo, H; try contradiction. lra. }
    assert (B1 : Rabs (v - T) <= v) by (revert B; unfold Rabs; destruct (Rcase_abs _); lra).
    assert (D : double (Rabs (v - T))).
    { assert (D := difference_exact v T Dv DT B1 ltac:(lra)). unfold Rabs. destruct (Rcase_abs _); [apply double_opp|]; exact D. }
    rewrite (b64_fixed _ D) in H. exact H.
  - rewrite <- (b64_fixed tol Dt). apply b64_mono. exact H.
Qed.
Print Assumptions C98_converged.

(** * The points tried *)
Theorem C98_inside : forall fn T a rho M tol,
  double T -> double M -> M <= two 60 ->
  (forall x, amount x -> exists v d, fn x = (Fin v, d) /\ double v /\ Rabs (v - T) <= M /\ nonneg d) ->
  (forall w v d, 0 <= w < two (-900) -> double w -> fn (Fin w) = (Fin v, d) -> v <= T) ->
  (forall w v d, two 960 < w -> double w -> fn (Fin w) = (Fin v, d) -> d = Fin 0) ->
  (forall v d, fn PInf = (Fin v, d) -> T <= v /\ d = Fin 0) ->
  two (-900) <= a -> radd b64 (Fin a) (rmul b64 (Fin rho) (Fin T)) = Fin tol ->
  two (-50) * M <= tol -> two (-60) <= tol ->
  forall x0 max_iter, amount x0 -> exists sol,
  rsolver b64 fn x0 (Fin T) (Fin a) (Fin rho) max_iter (Fin 0) PInf None None = Ok sol /\
  Forall amount (sol_x_seq sol) /\ amount (sol_x sol).
Proof.
  intros fn T a rho M tol DT DM HM Value Low High Top Ha Et HtM Ht x0 max_iter P.
  assert (Value' : forall x, point x -> exists v d, fn x = (Fin v, d) /\ double v /\ Rabs (v - T) <= M /\
    (d = PInf \/ exists r, d = Fin r /\ 0 <= r)).
  { intros x Px. destruct (Value x Px) as (v & d & E & D & B & N). exists v, d. split; [exact E|]. split; [exact D|]. split; [exact B|].
    destruct d; cbn in N; try contradiction; eauto. }
  destruct (run_inv fn T a rho M tol DM Value' Low High Top Ha Et HtM Ht HM x0 max_iter P) as (s & E & F).
  assert (Q : exists n, rtrace fn (Fin T) x0 n s /\ rsolver b64 fn x0 (Fin T) (Fin a) (Fin rho) max_iter (Fin 0) PInf None None
    = rfinish b64 (Fin T) max_iter (Fin a) (Fin rho) s).
  { unfold rsolver. destruct E as [E | (s0 & E & EL)]; rewrite E; cbn [bind].
    - exists 0%nat. split; [eapply rinit_trace; left; exact E | reflexivity].
    - rewrite EL. cbn [bind]. destruct (rloop_trace fn (Fin T) (Fin a) (Fin rho) max_iter x0 0 s0 s) as (n' & T' & _);
        [eapply rinit_trace; right; exact E | exact EL|]. exists n'. auto. }
  destruct Q as (n & Tr & Es). rewrite (rfinish_ok fn (Fin T) (Fin a) (Fin rho) x0 n max_iter s Tr) in Es.
  eexists. split; [exact Es|]. cbn. split; [exact F|].
  destruct Tr as (_ & _ & (pre & Ex) & _). rewrite Ex in F. apply Forall_app in F as [_ F]. inversion F. assumption.
Qed.
Print Assumptions C98_inside.

(** * The density fit *)

(** A fitness (or dyadic term): zero or of moderate size *)
Definition moderate (a : num) : Prop := a = Fin 0 \/ exists w, a = Fin w /\ double w /\ two (-130) <= w <= two 130.
Lemma moderate_datum : forall a, moderate a -> datum a.
Proof.
  intros a [-> | (w & -> & D & H)]; [apply datum_fin; [lra | apply double_0]|]. apply datum_fin; [pose proof (two_pos (-130)); lra | exact D].
Qed.
Lemma moderate_pos : forall a, moderate a -> is0 a = false -> exists w, a = Fin w /\ double w /\ two (-130) <= w <= two 130.
Proof.
  intros a [-> | H] Z; [|exact H]. change (is0 (Fin 0)) with (Reqb 0 0) in Z. rewrite Reqb_true in Z by reflexivity. discriminate.
Qed.

(** A product between powers of two is rounded between them. *)
Lemma mul_between : forall x y a b c d, two a <= x <= two b -> two c <= y <= two d -> (-1000 <= a + c)%Z -> (b + d <= 1000)%Z ->
  exists v, rmul b64 (Fin x) (Fin y) = Fin v /\ double v /\ two (a + c) <= v <= two (b + d).
Proof.
  intros x y a b c d Hx Hy L U. pose proof (two_pos a). pose proof (two_pos c). unfold rmul. cbn [nmul rnd_num].
  assert (AB : (a <= b)%Z) by (apply Z.nlt_ge; intros K; apply two_lt in K; lra).
  assert (CD : (c <= d)%Z) by (apply Z.nlt_ge; intros K; apply two_lt in K; lra).
  destruct (b64_between (two (a + c)) (two (b + d)) (x * y)) as (v & E & Hv & D); [apply double_two; lia | apply double_two; lia | | exists v; auto].
  rewrite !two_add. split; apply Rmult_le_compat; lra.
Qed.
Lemma tmp_between : forall x y z, moderate x -> moderate y -> moderate z -> is0 x || is0 y || is0 z = false ->
  exists t, rmul b64 (rmul b64 x y) z = Fin t /\ double t /\ two (-390) <= t <= two 390.
Proof.
  intros x y z Hx Hy Hz H. apply orb_false_iff in H as [H Zz]. apply orb_false_iff in H as [Zx Zy].
  destruct (moderate_pos x Hx Zx) as (wx & -> & _ & Bx), (moderate_pos y Hy Zy) as (wy & -> & _ & By), (moderate_pos z Hz Zz) as (wz & -> & _ & Bz).
  destruct (mul_between wx wy (-130) 130 (-130) 130 Bx By) as (v & E & _ & Hv); [lia | lia|]. rewrite E.
  destruct (mul_between v wz (-130 + -130) (130 + 130) (-130) 130 Hv Bz) as (t & E' & D & Ht'); [lia | lia|]. exists t. auto.
Qed.
Lemma is0_fin_pos : forall w, 0 < w -> is0 (Fin w) = false.
Proof. intros w H. change (is0 (Fin w)) with (Reqb w 0). apply Reqb_false. lra. Qed.

(** What the fit needs to know of a kernel with its derivative; [c] says whether the pair can be connected at all. *)
Definition kernel_ok (c : bool) (q : num -> num * num) : Prop :=
  (forall d, amount d -> exists p j, q d = (Fin p, j) /\ 0 <= p <= 1 /\ nonneg j) /\
  (forall w p j, 0 <= w < two (-900) -> double w -> q (Fin w) = (Fin p, j) -> p <= two (-510)) /\
  (forall w p j, two 960 < w -> double w -> q (Fin w) = (p, j) -> j = Fin 0) /\
  q PInf = (Fin (if c then 1 else 0), Fin 0).
Definition connectable (x y z : num) : bool := negb (is0 x || is0 y || is0 z).

Lemma pinf_tmp : forall t, two (-390) <= t -> rmul b64 PInf (Fin t) = PInf.
Proof.
  intros t H. unfold rmul. cbn. unfold inf_times. pose proof (two_pos (-390)). rewrite Reqb_false, Rltb_true by lra. reflexivity.
Qed.
Lemma low_tmp : forall w t, 0 < w < two (-900) -> two (-390) <= t <= two 390 -> exists t1,
  rmul b64 (Fin w) (Fin t) = Fin t1 /\ double t1 /\ 0 <= t1 <= two (-510).
Proof.
  intros w t Hw Ht. pose proof (two_pos (-390)). unfold rmul. cbn [nmul rnd_num].
  destruct (b64_between 0 (two (-510)) (w * t)) as (v & E & Hv & D); [apply double_0 | apply double_two; lia | | exists v; auto].
  split; [apply Rmult_le_pos; lra|]. replace (-510)%Z with (-900 + 390)%Z by lia. rewrite two_add. apply Rmult_le_compat; lra.
Qed.
Lemma high_tmp : forall w t, two 960 < w -> two (-390) <= t -> rmul b64 (Fin w) (Fin t) = PInf \/ exists t1,
  rmul b64 (Fin w) (Fin t) = Fin t1 /\ double t1 /\ two 570 <= t1.
Proof.
  intros w t Hw Ht. pose proof (two_pos (-390)). pose proof (two_pos 960). unfold rmul. cbn [nmul rnd_num].
  assert (G : two 570 <= w * t) by (replace 570%Z with (960 + -390)%Z by lia; rewrite two_add; apply Rmult_le_compat; lra).
  pose proof (b64_mono _ _ G) as Mo. rewrite (b64_two 570) in Mo by lia. pose proof (two_pos 570).
  destruct (b64_nonneg (w * t) ltac:(lra)) as [E | (v & E & Hv & D)]; [left; exact E|]. right. exists v. rewrite E in Mo. auto.
Qed.
Lemma logistic_le : forall t p, 0 <= t -> double t -> rdiv b64 (Fin t) (radd b64 (Fin 1) (Fin t)) = Fin p -> p <= t.
Proof.
  intros t p Ht Dt E. unfold radd in E. cbn [nadd rnd_num] in E.
  assert (G1 : le_num (Fin 1) (b64 (1 + t))) by (rewrite <- (b64_fixed 1 double_1); apply b64_mono; lra).
  destruct (b64_nonneg (1 + t) ltac:(lra)) as [Eq | (q & Eq & Hq & Dq)]; rewrite Eq in *; unfold rdiv in E; cbn in E.
  - rewrite b64_0 in E. injection E as <-. exact Ht.
  - cbn in G1. rewrite Reqb_false in E by lra. cbn [rnd_num] in E.
    assert (L : t / q <= t).
    { apply Rmult_le_reg_r with q; [lra|]. unfold Rdiv. rewrite Rmult_assoc, Rinv_l by lra. nra. }
    pose proof (b64_mono _ _ L) as Mo. rewrite E, (b64_fixed t Dt) in Mo. exact Mo.
Qed.
Lemma exponential_le : forall t p, 0 <= t -> double t -> b64 (1 - exp (- t)) = Fin p -> p <= t.
Proof.
  intros t p Ht Dt E. assert (L : 1 - exp (- t) <= t) by (pose proof (exp_ineq1_le (- t)); lra).
  pose proof (b64_mono _ _ L) as Mo. rewrite E, (b64_fixed t Dt) in Mo. exact Mo.
Qed.

Lemma fit_kernel : forall x y z, moderate x -> moderate y -> moderate z -> kernel_ok (connectable x y z) (fun d => rfit_p_jac b64 d x y z).
Proof.
  intros x y z Hx Hy Hz. unfold connectable.
  assert (PI : rfit_p_jac b64 PInf x y z = (Fin (if negb (is0 x || is0 y || is0 z) then 1 else 0), Fin 0)).
  { unfold rfit_p_jac. destruct (is0 x || is0 y || is0 z) eqn:Z; [reflexivity|]. change (is0 PInf) with false. cbv iota zeta.
    destruct (tmp_between x y z Hx Hy Hz Z) as (t & -> & Dt & Bt). rewrite pinf_tmp by lra. reflexivity. }
  split; [|split; [|split; [|exact PI]]].
  - intros d [-> | Hd].
    + rewrite PI. exists (if negb (is0 x || is0 y || is0 z) then 1 else 0), (Fin 0). split; [reflexivity|]. split; [destruct (negb _); lra | cbn; lra].
    + destruct (C96_probabilities d x y z Hd (moderate_datum x Hx) (moderate_datum y Hy) (moderate_datum z Hz)) as (_ & _ & F & _). exact F.
  - intros w p j Hw Dw E. unfold rfit_p_jac in E. pose proof (two_pos (-510)) as P510.
    destruct (is0 x || is0 y || is0 z) eqn:Z; [injection E as <- _; lra|].
    destruct (Req_dec w 0) as [->|NZ].
    { change (is0 (Fin 0)) with (Reqb 0 0) in E. rewrite Reqb_true in E by reflexivity. injection E as <- _. lra. }
    rewrite is0_fin_pos in E by lra. cbv zeta in E. destruct (tmp_between x y z Hx Hy Hz Z) as (t & Et & Dt & Bt). rewrite Et in E.
    destruct (low_tmp w t ltac:(lra) Bt) as (t1 & E1 & D1 & B1). rewrite E1 in E. cbn [isinf] in E.
    injection E as E _. apply (logistic_le t1) in E; [lra | lra | exact D1].
  - intros w p j Hw Dw E. unfold rfit_p_jac in E. pose proof (two_pos 960).
    destruct (is0 x || is0 y || is0 z) eqn:Z; [injection E as _ <-; reflexivity|].
    rewrite is0_fin_pos in E by lra. cbv zeta in E. destruct (tmp_between x y z Hx Hy Hz Z) as (t & Et & Dt & Bt). rewrite Et in E.
    destruct (high_tmp w t Hw (proj1 Bt)) as [E1 | (t1 & E1 & D1 & B1)]; rewrite E1 in E; cbn [isinf] in E; [injection E as _ <-; reflexivity|].
    injection E as _ <-. pose proof (two_pos 570) as P570.
    assert (G : le_num (Fin (two 570)) (radd b64 (Fin 1) (Fin t1))).
    { unfold radd. cbn [nadd rnd_num]. rewrite <- (b64_two 570) by lia. apply b64_mono. lra. }
    assert (I : rmul b64 (radd b64 (Fin 1) (Fin t1)) (radd b64 (Fin 1) (Fin t1)) = PInf).
    { destruct (radd b64 (Fin 1) (Fin t1)) as [q| | |]; cbn in G; try contradiction; [|reflexivity].
      unfold rmul. cbn [nmul rnd_num]. assert (L : two (570 + 570) <= q * q) by (rewrite two_add; apply Rmult_le_compat; lra).
      pose proof (b64_mono _ _ L) as Mo. rewrite b64_over in Mo by lia. destruct (b64 (q * q)); cbn in Mo; try contradiction. reflexivity. }
    rewrite I. unfold rdiv. cbn. apply b64_0.
Qed.
Lemma inv_kernel : forall x y z, moderate x -> moderate y -> moderate z -> kernel_ok (connectable x y z) (fun d => rinv_p_jac b64 d x y z).
Proof.
  intros x y z Hx Hy Hz. unfold connectable.
  assert (PI : rinv_p_jac b64 PInf x y z = (Fin (if negb (is0 x || is0 y || is0 z) then 1 else 0), Fin 0)).
  { unfold rinv_p_jac. destruct (is0 x || is0 y || is0 z) eqn:Z; [reflexivity|]. change (is0 PInf) with false. cbv iota zeta.
    destruct (tmp_between x y z Hx Hy Hz Z) as (t & -> & Dt & Bt). rewrite pinf_tmp by lra. reflexivity. }
  split; [|split; [|split; [|exact PI]]].
  - intros d [-> | Hd].
    + rewrite PI. exists (if negb (is0 x || is0 y || is0 z) then 1 else 0), (Fin 0). split; [reflexivity|]. split; [destruct (negb _); lra | cbn; lra].
    + destruct (C96_probabilities d x y z Hd (moderate_datum x Hx) (moderate_datum y Hy) (moderate_datum z Hz)) as (_ & _ & _ & F). exact F.
  - intros w p j Hw Dw E. unfold rinv_p_jac in E. pose proof (two_pos (-510)) as P510.
    destruct (is0 x || is0 y || is0 z) eqn:Z; [injection E as <- _; lra|].
    destruct (Req_dec w 0) as [->|NZ].
    { change (is0 (Fin 0)) with (Reqb 0 0) in E. rewrite Reqb_true in E by reflexivity. injection E as <- _. lra. }
    rewrite is0_fin_pos in E by lra. cbv zeta in E. destruct (tmp_between x y z Hx Hy Hz Z) as (t & Et & Dt & Bt). rewrite Et in E.
    destruct (low_tmp w t ltac:(lra) Bt) as (t1 & E1 & D1 & B1). rewrite E1 in E. cbn [isinf] in E.
    destruct (exponential_unit t1 (proj1 B1)) as (p1 & Ep & Eb & _). rewrite Ep in E. injection E as <- _.
    apply (exponential_le t1) in Eb; [lra | lra | exact D1].
  - intros w p j Hw Dw E. unfold rinv_p_jac in E. pose proof (two_pos 960).
    destruct (is0 x || is0 y || is0 z) eqn:Z; [injection E as _ <-; reflexivity|].
    rewrite is0_fin_pos in E by lra. cbv zeta in E. destruct (tmp_between x y z Hx Hy Hz Z) as (t & Et & Dt & Bt). rewrite Et in E.
    destruct (high_tmp w t Hw (proj1 Bt)) as [E1 | (t1 & E1 & D1 & B1)]; rewrite E1 in E; cbn [isinf] in E; [injection E as _ <-; reflexivity|].
    injection E as _ <-. pose proof (two_pos 570) as P570.
    assert (X : rexp b64 (nopp (Fin t1)) = Fin 0).
    { unfold rexp. cbn [nopp nexp rnd_num].
      assert (L : exp (- t1) <= two (-1138)).
      { change (-1138)%Z with (- (1138))%Z. rewrite two_neg, exp_Ropp. apply Rinv_le_contravar; [apply two_pos|].
        replace t1 with (t1 / 2 + t1 / 2) by lra. rewrite exp_plus. replace 1138%Z with (569 + 569)%Z by lia. rewrite two_add.
        assert (H1 : two 569 <= t1 / 2) by (replace 570%Z with (1 + 569)%Z in B1 by lia; rewrite two_add, two_1 in B1; lra).
        pose proof (exp_ineq1_le (t1 / 2)). pose proof (two_pos 569). apply Rmult_le_compat; lra. }
      pose proof (b64_mono _ _ L) as Mo. rewrite b64_under in Mo by lia. pose proof (exp_pos (- t1)).
      destruct (b64_nonneg (exp (- t1)) ltac:(lra)) as [Q | (v & Q & Hv & _)]; rewrite Q in *; cbn in Mo; [contradiction|]. f_equal. lra. }
    cbn [nopp] in X. rewrite X. unfold rmul. cbn. rewrite Rmult_0_r. apply b64_0.
Qed.

(** The objective of the fit is a pair of sums. *)
Lemma f_jac_split : forall q N sl, rexp_edges_f_jac b64 q N sl = (rexp_edges b64 (fun i j => fst (q i j)) N sl, rexp_edges b64 (fun i j => snd (q i j)) N sl).
Proof.
  intros q N sl. unfold rexp_edges_f_jac, rexp_edges.
  set (Q := fun (s : num * num) (e : num) => fst s = e).
  assert (A : Q (for_range N (fun i s => for_range N (fun j s => if adm sl i j then racc_pair b64 s (q i j) else s) s) (Fin 0, Fin 0))
    (for_range N (fun i e => for_range N (fun j e => if adm sl i j then radd b64 e (fst (q i j)) else e) e) (Fin 0))).
  { apply (for_range_rel _ _ Q); [reflexivity|]. intros i s e _ H. apply (for_range_rel _ _ Q); [exact H|]. intros j s' e' _ H'.
    destruct (adm sl i j); [|exact H']. unfold Q, racc_pair in *. cbn. rewrite H'. reflexivity. }
  set (Q' := fun (s : num * num) (e : num) => snd s = e).
  assert (B : Q' (for_range N (fun i s => for_range N (fun j s => if adm sl i j then racc_pair b64 s (q i j) else s) s) (Fin 0, Fin 0))
    (for_range N (fun i e => for_range N (fun j e => if adm sl i j then radd b64 e (snd (q i j)) else e) e) (Fin 0))).
  { apply (for_range_rel _ _ Q'); [reflexivity|]. intros i s e _ H. apply (for_range_rel _ _ Q'); [exact H|]. intros j s' e' _ H'.
    destruct (adm sl i j); [|exact H']. unfold Q', racc_pair in *. cbn. rewrite H'. reflexivity. }
  unfold Q, Q' in A, B. rewrite <- A, <- B. apply surjective_pairing.
Qed.

Lemma scaled_double : forall c e, (Z.of_nat c <= 2 ^ 53)%Z -> (-900 <= e <= 0)%Z -> double (INR c * two e).
Proof.
  intros c e H He. rewrite INR_IZR_INZ. destruct (Z.eq_dec (Z.of_nat c) (2 ^ 53)) as [->|N].
  - rewrite <- two_Z, <- two_add by lia. apply double_two. lia.
  - exists (Z.of_nat c), e. split; [reflexivity|]. lia.
Qed.
(** Sums of numbers in [0, 2^e] *)
Lemma sum_bound : forall p N sl e, (Z.of_nat (N * N) <= 2 ^ 53)%Z -> (-900 <= e <= 0)%Z ->
  (forall i j, (i < N)%nat -> (j < N)%nat -> exists v, p i j = Fin v /\ 0 <= v <= two e) ->
  exists v, rexp_edges b64 p N sl = Fin v /\ double v /\ 0 <= v <= INR (N * N) * two e.
Proof.
  intros p N sl e HN He Hp. set (W := fun (c : nat) (a : num) => exists v, a = Fin v /\ double v /\ 0 <= v <= INR c * two e).
  pose proof (two_pos e) as Pe. unfold rexp_edges. change (W (N * N)%nat (for_range N (fun i a => for_range N (fun j a => if adm sl i j then radd b64 a (p i j) else a) a) (Fin 0))).
  apply (for_range_count num (fun i a => W (i * N)%nat a)).
  - exists 0. split; [reflexivity|]. split; [apply double_0|]. cbn. lra.
  - intros i a Hi H. replace (S i * N)%nat with (i * N + N)%nat by lia.
    apply (for_range_count num (fun j a => W (i * N + j)%nat a)); [rewrite Nat.add_0_r; exact H|].
    intros j b Hj (v & -> & Dv & Hv). rewrite Nat.add_succ_r. destruct (adm sl i j).
    + destruct (Hp i j Hi Hj) as (w & -> & Hw). unfold radd. cbn [nadd rnd_num].
      destruct (b64_between 0 (INR (S (i * N + j)) * two e) (v + w)) as (s & E & Hs & Ds); [apply double_0 | apply scaled_double; [nia | exact He] | |].
      * rewrite S_INR. lra.
      * exists s. auto.
    + exists v. split; [reflexivity|]. split; [exact Dv|]. rewrite S_INR. lra.
Qed.
Lemma sum_nonneg : forall p N sl, (forall i j, (i < N)%nat -> (j < N)%nat -> nonneg (p i j)) -> nonneg (rexp_edges b64 p N sl).
Proof.
  intros p N sl Hp. unfold rexp_edges. apply (for_range_count num (fun _ a => nonneg a)); [cbn; lra|]. intros i a Hi H.
  apply (for_range_count num (fun _ a => nonneg a)); [exact H|]. intros j b Hj Hb. destruct (adm sl i j); [|exact Hb].
  specialize (Hp i j Hi Hj). destruct b as [v| | |], (p i j) as [w| | |]; cbn in Hb, Hp; try contradiction; unfold radd; cbn; try exact I.
  destruct (b64_nonneg (v + w) ltac:(lra)) as [-> | (s & -> & Hs & _)]; [exact I | exact Hs].
Qed.
Lemma sum_zero : forall p N sl, (forall i j, (i < N)%nat -> (j < N)%nat -> p i j = Fin 0) -> rexp_edges b64 p N sl = Fin 0.
Proof.
  intros p N sl Hp. unfold rexp_edges. apply (for_range_count num (fun _ a => a = Fin 0)); [reflexivity|]. intros i a Hi ->.
  apply (for_range_count num (fun _ a => a = Fin 0)); [reflexivity|]. intros j b Hj ->. destruct (adm sl i j); [|reflexivity].
  rewrite (Hp i j Hi Hj). unfold radd. cbn. rewrite Rplus_0_r. apply b64_0.
Qed.
(** The number of connectable pairs is computed without error. *)
Lemma sum_count : forall (c : nat -> nat -> bool) N sl, (Z.of_nat (N * N) <= 2 ^ 53)%Z ->
  rexp_edges b64 (fun i j => Fin (if c i j then 1 else 0)) N sl = Fin (pair_sum N sl (fun i j => if c i j then 1 else 0)).
Proof.
  intros c N sl HN. unfold rexp_edges, pair_sum.
  set (S1 := fun i k => sumn k (fun j => if allowed sl i j then if c i j then 1 else 0 else 0)).
  assert (G : exists n, (n <= N * N)%nat /\ INR n = sumn N (fun i => S1 i N) /\ for_range N (fun i e => for_range N (fun j e => if adm sl i j then radd b64 e (Fin (if c i j then 1 else 0)) else e) e) (Fin 0) = Fin (INR n)).
  { apply (for_range_count num (fun k a => exists n, (n <= k * N)%nat /\ INR n = sumn k (fun i => S1 i N) /\ a = Fin (INR n))).
    - exists 0%nat. split; [lia|]. split; reflexivity.
    - intros i a Hi (n & Hn & En & ->). cbn [sumn].
      assert (G : exists m, (m <= i * N + N)%nat /\ INR m = INR n + S1 i N /\ for_range N (fun j e => if adm sl i j then radd b64 e (Fin (if c i j then 1 else 0)) else e) (Fin (INR n)) = Fin (INR m)).
      { apply (for_range_count num (fun k a => exists m, (m <= i * N + k)%nat /\ INR m = INR n + S1 i k /\ a = Fin (INR m))).
        - exists n. split; [lia|]. split; [unfold S1; cbn; lra | reflexivity].
        - intros j b Hj (m & Hm & Em & ->). change (S1 i (S j)) with (S1 i j + (if allowed sl i j then if c i j then 1 else 0 else 0)).
          change (allowed sl i j) with (adm sl i j). destruct (adm sl i j); [|exists m; split; [lia|]; split; [lra | reflexivity]].
          unfold radd. cbn [nadd rnd_num]. destruct (c i j).
          + exists (S m). split; [lia|]. split; [rewrite S_INR; lra|]. rewrite <- S_INR. apply b64_fixed. apply count_double. nia.
          + exists m. split; [lia|]. split; [lra|]. rewrite Rplus_0_r. apply b64_fixed. apply count_double. nia. }
      destruct G as (m & Hm & Em & E). exists m. split; [lia|]. split; [rewrite Em, En; reflexivity | exact E]. }
  destruct G as (n & _ & En & E). rewrite E, En. reflexivity.
Qed.

Lemma fit_generic : forall (q : num -> nat -> nat -> num * num) (c : nat -> nat -> bool) N sl T a rho x0 max_iter,
  (1 <= N)%nat -> (Z.of_nat (N * N) <= 2 ^ 53)%Z ->
  (forall i j, (i < N)%nat -> (j < N)%nat -> kernel_ok (c i j) (fun d => q d i j)) ->
  double T -> T <= pair_sum N sl (fun i j => if c i j then 1 else 0) ->
  two (-50) * INR (N * N) <= rho * T -> rho <= 1 / 8 -> two (-900) <= a <= T / 8 -> amount x0 ->
  exists sol, rsolver b64 (fun d => rexp_edges_f_jac b64 (q d) N sl) x0 (Fin T) (Fin a) (Fin rho) max_iter (Fin 0) PInf None None = Ok sol /\
  Forall amount (sol_x_seq sol) /\
  exists v tol, rexp_edges b64 (fun i j => fst (q (sol_x sol) i j)) N sl = Fin v /\
    radd b64 (Fin a) (rmul b64 (Fin rho) (Fin T)) = Fin tol /\ (sol_converged sol = true <-> Rabs (v - T) <= tol).
Proof.
  intros q c N sl T a rho x0 max_iter HN HZ K DT HT Hr Hr8 Ha P.
  set (M := INR (N * N)) in *. set (fn := fun d => rexp_edges_f_jac b64 (q d) N sl).
  assert (M1 : 1 <= M) by (unfold M; change 1 with (INR 1); apply le_INR; nia).
  assert (DM : double M) by (apply count_double; exact HZ).
  assert (M53 : M <= two 53) by (unfold M; rewrite INR_IZR_INZ, two_Z by lia; apply IZR_le; exact HZ).
  pose proof (two_pos (-900)) as P900. assert (T0 : 0 < T) by lra.
  assert (T47 : two (-47) <= T).
  { replace (-50)%Z with (-3 + -47)%Z in Hr by lia. rewrite two_add in Hr.
    replace (two (-3)) with (1 / 8) in Hr by (change (-3)%Z with (- (3))%Z; rewrite two_neg, two_Z by lia; cbn; lra).
    pose proof (two_pos (-47)). nra. }
  assert (CM : pair_sum N sl (fun i j => if c i j then 1 else 0) <= M).
  { unfold M. rewrite <- (Rmult_1_r (INR (N * N))).
    destruct (sum_bound (fun i j => Fin (if c i j then 1 else 0)) N sl 0 HZ ltac:(lia)) as (v & E & _ & Hv).
    - intros i j _ _. eexists. split; [reflexivity|]. rewrite two_0. destruct (c i j); lra.
    - rewrite sum_count in E by exact HZ. injection E as E. rewrite two_0 in Hv. rewrite E. lra. }
  assert (Sum : forall x, amount x -> exists v d, fn x = (Fin v, d) /\ double v /\ 0 <= v <= M /\ nonneg d).
  { intros x Px. unfold fn. rewrite f_jac_split.
    destruct (sum_bound (fun i j => fst (q x i j)) N sl 0 HZ ltac:(lia)) as (v & E & D & Hv).
    - intros i j Hi Hj. destruct (K i j Hi Hj) as (K1 & _). destruct (K1 x Px) as (p & d & E & Hp & _). rewrite E. exists p. rewrite two_0. auto.
    - rewrite E. eexists v, _. split; [reflexivity|]. split; [exact D|]. rewrite two_0, Rmult_1_r in Hv. split; [exact Hv|].
      apply sum_nonneg. intros i j Hi Hj. destruct (K i j Hi Hj) as (K1 & _). destruct (K1 x Px) as (p & d & Eq & _ & Nd). rewrite Eq. exact Nd. }
  assert (Tol : exists tol, radd b64 (Fin a) (rmul b64 (Fin rho) (Fin T)) = Fin tol /\ double tol /\ two (-50) * M <= tol <= T / 4).
  { unfold rmul. cbn [nmul rnd_num].
    assert (L1 : 4 * two (-1000) <= T).
    { pose proof (two_le (2 + -1000) (-47) ltac:(lia)) as L. rewrite two_add in L. replace (two 2) with 4 in L by (rewrite two_Z by lia; cbn; lra). lra. }
    pose proof (two_pos (-1000)) as P1000.
    assert (H2 : double (T / 2)) by (apply half_double; [exact DT | lra]).
    assert (H4 : double (T / 2 / 2)) by (apply half_double; [exact H2 | lra]).
    assert (H8 : double (T / 2 / 2 / 2)) by (apply half_double; [exact H4 | lra]).
    assert (E8 : two (-3) = 1 / 8) by (change (-3)%Z with (- (3))%Z; rewrite two_neg, two_Z by lia; cbn; lra).
    assert (E4 : two (-2) = 1 / 4) by (change (-2)%Z with (- (2))%Z; rewrite two_neg, two_Z by lia; cbn; lra).
    destruct (b64_between (two (-50) * M) (two (-3) * T) (rho * T)) as (w & E & Hw & Dw).
    - unfold M. rewrite Rmult_comm. apply scaled_double; [exact HZ | lia].
    - rewrite E8. replace (1 / 8 * T) with (T / 2 / 2 / 2) by lra. exact H8.
    - rewrite E8. split; [exact Hr|]. apply Rmult_le_compat_r; lra.
    - rewrite E. unfold radd. cbn [nadd rnd_num]. destruct (b64_between w (two (-2) * T) (a + w)) as (tol & E' & Ht' & Dt).
      + exact Dw.
      + rewrite E4. replace (1 / 4 * T) with (T / 2 / 2) by lra. exact H4.
      + rewrite E4. rewrite E8 in Hw. lra.
      + exists tol. rewrite E4 in Ht'. split; [exact E'|]. split; [exact Dt|]. lra. }
  destruct Tol as (tol & Et & Dt & Ht).
  destruct (C98_inside fn T a rho M tol) with (x0 := x0) (max_iter := max_iter) as (sol & R & F & Pl); try assumption.
  - pose proof (two_le 53 60 ltac:(lia)). lra.
  - intros x Px. destruct (Sum x Px) as (v & d & E & D & Hv & Nd). exists v, d. split; [exact E|]. split; [exact D|]. split; [apply Rabs_le; lra | exact Nd].
  - intros w v d Hw Dw E. unfold fn in E. rewrite f_jac_split in E. injection E as E _.
    destruct (sum_bound (fun i j => fst (q (Fin w) i j)) N sl (-510) HZ ltac:(lia)) as (u & Eu & _ & Hu).
    + intros i j Hi Hj. destruct (K i j Hi Hj) as (K1 & K2 & _). destruct (K1 (Fin w)) as (p & jj & Eq & Hp & _).
      * right. apply datum_fin; [lra | exact Dw].
      * rewrite Eq. exists p. split; [reflexivity|]. split; [lra|]. exact (K2 w p jj Hw Dw Eq).
    + rewrite Eu in E. injection E as <-. fold M in Hu. assert (L : two 53 * two (-510) <= two (-47)) by (rewrite <- two_add; apply two_le; lia).
      pose proof (two_pos (-510)). nra.
  - intros w v d Hw Dw E. unfold fn in E. rewrite f_jac_split in E. injection E as _ <-. apply sum_zero. intros i j Hi Hj.
    destruct (K i j Hi Hj) as (_ & _ & K3 & _). destruct (q (Fin w) i j) as [p jj] eqn:Eq. exact (K3 w p jj Hw Dw Eq).
  - intros v d E. unfold fn in E. rewrite f_jac_split in E. injection E as E <-. split.
    + replace (rexp_edges b64 (fun i j => fst (q PInf i j)) N sl) with (rexp_edges b64 (fun i j => Fin (if c i j then 1 else 0)) N sl) in E.
      * rewrite sum_count in E by exact HZ. injection E as <-. exact HT.
      * unfold rexp_edges. apply (for_range_rel _ _ eq); [reflexivity|]. intros i s s' Hi ->. apply (for_range_rel _ _ eq); [reflexivity|].
        intros j t t' Hj ->. destruct (K i j Hi Hj) as (_ & _ & _ & K4). rewrite K4. reflexivity.
    + apply sum_zero. intros i j Hi Hj. destruct (K i j Hi Hj) as (_ & _ & _ & K4). rewrite K4. reflexivity.
  - lra.
  - lra.
  - pose proof (two_pos (-50)). pose proof (two_le (-60) (-50) ltac:(lia)). nra.
  - exists sol. split; [exact R|]. split; [exact F|]. destruct (Sum (sol_x sol) Pl) as (v & d & E & D & Hv & _). exists v, tol.
    assert (E' := E). unfold fn in E'. rewrite f_jac_split in E'. injection E' as E' _. split; [exact E'|]. split; [exact Et|].
    apply (C98_converged fn T (Fin a) (Fin rho) tol x0 max_iter (Fin 0) PInf None None sol v d R E D); try lra; try assumption.
    pose proof (two_le (-1000) (-47) ltac:(lia)). lra.
Qed.

(** A density fit on data of moderate size, in doubles, to a target that is reached and not too small for the relative
    tolerance.  It raises nothing, keeps to [0, inf], and calls the result converged exactly when the computed number of
    edges is within the computed tolerance. *)
Theorem C98_fit : forall K x y z N sl T a rho x0 max_iter,
  K = rfit_p_jac b64 \/ K = rinv_p_jac b64 ->
  (forall i, (i < N)%nat -> moderate (x i) /\ moderate (y i) /\ forall j, (j < N)%nat -> moderate (z i j)) ->
  (1 <= N)%nat -> (Z.of_nat (N * N) <= 2 ^ 53)%Z ->
  double T -> T <= pair_sum N sl (fun i j => if connectable (x i) (y j) (z i j) then 1 else 0) ->
  two (-50) * INR (N * N) <= rho * T -> rho <= 1 / 8 -> two (-900) <= a <= T / 8 -> amount x0 ->
  let p d i j := K d (x i) (y j) (z i j) in
  exists sol, rsolver b64 (fun d => rexp_edges_f_jac b64 (p d) N sl) x0 (Fin T) (Fin a) (Fin rho) max_iter (Fin 0) PInf None None = Ok sol /\
  Forall amount (sol_x_seq sol) /\
  exists v tol, rexp_edges b64 (fun i j => fst (p (sol_x sol) i j)) N sl = Fin v /\
    radd b64 (Fin a) (rmul b64 (Fin rho) (Fin T)) = Fin tol /\ (sol_converged sol = true <-> Rabs (v - T) <= tol).
Proof.
  intros K x y z N sl T a rho x0 max_iter HK HD HN HZ DT HT Hr Hr8 Ha P p.
  apply (fit_generic p (fun i j => connectable (x i) (y j) (z i j))); try assumption.
  intros i j Hi Hj. destruct (HD i Hi) as (Mx & _ & Mz), (HD j Hj) as (_ & My & _). specialize (Mz j Hj). unfold p.
  destruct HK as [-> | ->]; [apply fit_kernel | apply inv_kernel]; assumption.
Qed.
Print Assumptions C98_fit.

Ltac tw := repeat match goal with
  | |- context [two (Zneg ?p)] => change (Zneg p) with (- Zpos p)%Z; rewrite (two_neg (Zpos p))
  | |- context [two (Zpos ?p)] => rewrite (two_Z (Zpos p)) by lia
  | |- context [two 0] => rewrite two_0 end;
  repeat match goal with |- context [IZR (2 ^ ?k)] => let v := eval vm_compute in (2 ^ k)%Z in change (2 ^ k)%Z with v end.
Lemma moderate_1 : moderate (Fin 1).
Proof. right. exists 1. split; [reflexivity|]. split; [apply double_1|]. tw. lra. Qed.
(** Three nodes without fitness differences, one edge out of six, at the default tolerances rounded to powers of two *)
Example C98_fit_case : let one := fun _ : nat => Fin 1 in
  (forall i, (i < 3)%nat -> moderate (one i) /\ moderate (one i) /\ forall j, (j < 3)%nat -> moderate ((fun _ _ : nat => Fin 1) i j)) /\
  1 <= pair_sum 3 false (fun i j => if connectable (one i) (one j) (Fin 1) then 1 else 0) /\
  two (-50) * INR (3 * 3) <= two (-30) * 1 /\ two (-30) <= 1 / 8 /\ two (-900) <= two (-80) <= 1 / 8 /\ amount (Fin 0).
Proof.
  intros one. split; [intros; repeat split; intros; apply moderate_1|].
  split. { unfold connectable, one, pair_sum, sumn, allowed. change (is0 (Fin 1)) with (Reqb 1 0). rewrite Reqb_false by lra. cbn. lra. }
  split; [tw; cbn; lra|]. split; [tw; lra|]. split; [split; [apply two_le; lia | tw; lra]|]. right. apply datum_fin; [lra | apply double_0].
Qed.

(** One pair with both fitnesses one: the hypotheses of C98_inside with target 1/2 *)
Example C98_inside_case : let fn d := rexp_edges_f_jac b64 (fun _ _ => rfit_p_jac b64 d (Fin 1) (Fin 1) (Fin 1)) 1 true in
  (forall x, amount x -> exists v d, fn x = (Fin v, d) /\ double v /\ Rabs (v - 1 / 2) <= 1 /\ nonneg d) /\
  (forall w v d, 0 <= w < two (-900) -> double w -> fn (Fin w) = (Fin v, d) -> v <= 1 / 2) /\
  (forall w v d, two 960 < w -> double w -> fn (Fin w) = (Fin v, d) -> d = Fin 0) /\
  (forall v d, fn PInf = (Fin v, d) -> 1 / 2 <= v /\ d = Fin 0) /\
  two (-900) <= two (-51) /\ radd b64 (Fin (two (-51))) (rmul b64 (Fin (two (-20))) (Fin (1 / 2))) = Fin (two (-51) + two (-21)) /\
  two (-50) * 1 <= two (-51) + two (-21).
Proof.
  intros fn. destruct (fit_kernel _ _ _ moderate_1 moderate_1 moderate_1) as (K1 & K2 & K3 & K4).
  assert (C : connectable (Fin 1) (Fin 1) (Fin 1) = true).
  { unfold connectable. change (is0 (Fin 1)) with (Reqb 1 0). rewrite Reqb_false by lra. reflexivity. }
  rewrite C in K4. split; [|split; [|split; [|split; [|split; [|split]]]]].
  - intros x Hx. destruct (K1 x Hx) as (p & d & E & Hp & Nd). unfold fn. rewrite f_jac_split. rewrite E. cbn [fst snd].
    destruct (sum_bound (fun _ _ => Fin p) 1 true 0 ltac:(cbn; lia) ltac:(lia)) as (v & Ev & Dv & Bv).
    { intros. exists p. rewrite two_0. auto. }
    rewrite Ev. eexists v, _. split; [reflexivity|]. split; [exact Dv|]. rewrite two_0 in Bv. cbn in Bv. split; [apply Rabs_le; lra|].
    apply sum_nonneg. intros; exact Nd.
  - intros w v d Hw Dw E. unfold fn in E. rewrite f_jac_split in E. injection E as E _.
    destruct (K1 (Fin w)) as (p & j & Eq & Hp & _); [right; apply datum_fin; [lra | exact Dw]|]. pose proof (K2 w p j Hw Dw Eq) as L.
    rewrite Eq in E. cbn [fst] in E. destruct (sum_bound (fun _ _ => Fin p) 1 true (-510) ltac:(cbn; lia) ltac:(lia)) as (u & Eu & _ & Bu).
    { intros. exists p. split; [reflexivity | lra]. }
    rewrite Eu in E. injection E as <-. cbn in Bu. assert (two (-510) <= 1 / 2) by (rewrite <- two_m1; apply two_le; lia). lra.
  - intros w v d Hw Dw E. unfold fn in E. rewrite f_jac_split in E. injection E as _ <-. apply sum_zero. intros _ _ _ _.
    destruct (rfit_p_jac b64 (Fin w) (Fin 1) (Fin 1) (Fin 1)) as [p j] eqn:Eq. exact (K3 w p j Hw Dw Eq).
  - intros v d E. unfold fn in E. rewrite f_jac_split, K4 in E. injection E as E <-. cbn [fst snd] in *.
    assert (Q := sum_count (fun _ _ => true) 1 true ltac:(cbn; lia)). cbv beta iota in Q. rewrite Q in E. injection E as <-.
    split; [unfold pair_sum, sumn; cbn; lra | apply sum_zero; reflexivity].
  - apply two_le. lia.
  - unfold radd, rmul. cbn [nmul rnd_num]. rewrite <- two_m1, <- two_add. change (-20 + -1)%Z with (-21)%Z. rewrite b64_two by lia. cbn [nadd rnd_num].
    apply b64_fixed. exists (2 ^ 30 + 1)%Z, (-51)%Z. split; [rewrite plus_IZR, <- two_Z by lia; rewrite Rmult_plus_distr_r, <- two_add, Rmult_1_l; change (30 + -51)%Z with (-21)%Z; lra | lia].
  - pose proof (two_pos (-51)). pose proof (two_le (-50) (-21) ltac:(lia)). lra.
Qed.

(** * What rounding costs *)

Definition steps (x : num) : num * num :=
  match x with
  | Fin v => (Fin (if Rltb v (1 / 1152921504606846976) then 0 else if Rltb v 1 then 1 - 1 / 33554432 else 1073741825), Fin (1 / 33554432))
  | _ => (Fin 1073741825, Fin (1 / 33554432))
  end.

Ltac roundto e n := match goal with |- b64 ?r = Fin ?v => rewrite (b64_eval r e n); [f_equal; simpl Z.sub; tw; lra
  | simpl Z.add; tw; lra | lia | apply near_eval; simpl Z.sub; tw; apply Rabs_def1; lra] end.
Lemma r1 : b64 (1 - 1 / 33554432 + - (1)) = Fin (- (1 / 33554432)).
Proof.
  replace (1 - 1 / 33554432 + - (1)) with (- (1 / 33554432)) by lra. apply b64_fixed, double_opp. replace (1 / 33554432) with (two (-25)) by (tw; lra). apply double_two. lia.
Qed.
Lemma r2 : b64 (1 / 1152921504606846976 + 1) = Fin 1.
Proof. roundto 0%Z 4503599627370496%Z. Qed.
Lemma r3 : b64 (1 + - (1 / 1152921504606846976)) = Fin 1.
Proof. roundto (-1)%Z 9007199254740992%Z. Qed.
Lemma r4 : b64 (1073741824 + - - (1 / 33554432)) = Fin 1073741824.
Proof. roundto 30%Z 4503599627370496%Z. Qed.
Lemma dbl : forall m e w, w = IZR m * two e -> (Z.abs m < 2 ^ 53)%Z -> (-1074 <= e <= 971)%Z -> b64 w = Fin w.
Proof. intros m e w E M B. apply b64_fixed. exists m, e. auto. Qed.
Ltac dbl m e := apply (dbl m e); [tw; lra | lia | lia].
Lemma r5 : b64 (1 + - (36028797018963968)) = Fin (- (36028797018963968)).
Proof.
  replace (1 + - (36028797018963968)) with (- (36028797018963967)) by lra. rewrite b64_opp.
  assert (E : b64 36028797018963967 = Fin 36028797018963968) by roundto 54%Z 9007199254740992%Z. rewrite E. reflexivity.
Qed.

Lemma rrun_raise : forall fn x0 T a rho mi xl xu fl fu s0 e,
  rsolver_init b64 fn x0 T a xl xu fl fu = Ok (inr s0) -> rsolver_loop b64 fn T a rho mi s0 = Raise e ->
  rsolver b64 fn x0 T a rho mi xl xu fl fu = Raise e.
Proof. intros * E1 E2. unfold rsolver. rewrite E1. cbn [bind]. rewrite E2. reflexivity. Qed.
Lemma rrun_ok : forall fn x0 T a rho mi xl xu fl fu s0 s1 sol,
  rsolver_init b64 fn x0 T a xl xu fl fu = Ok (inr s0) -> rsolver_loop b64 fn T a rho mi s0 = Ok s1 -> rfinish b64 T mi a rho s1 = Ok sol ->
  rsolver b64 fn x0 T a rho mi xl xu fl fu = Ok sol.
Proof. intros * E1 E2 E3. unfold rsolver. rewrite E1. cbn [bind]. rewrite E2. exact E3. Qed.
Lemma rloop_go : forall fn T a rho k s s' r,
  ngtb (s_norm s) (rtolerance b64 a rho T) && ngtb (s_diff s) rho = true -> rsolver_step b64 fn T a s = Ok s' ->
  rsolver_loop b64 fn T a rho k s' = r -> rsolver_loop b64 fn T a rho (S k) s = r.
Proof. intros * E1 E2 E3. cbn [rsolver_loop]. rewrite E1, E2. exact E3. Qed.
Lemma rloop_raise : forall fn T a rho k s e,
  ngtb (s_norm s) (rtolerance b64 a rho T) && ngtb (s_diff s) rho = true -> rsolver_step b64 fn T a s = Raise e ->
  rsolver_loop b64 fn T a rho (S k) s = Raise e.
Proof. intros * E1 E2. cbn [rsolver_loop]. rewrite E1, E2. reflexivity. Qed.
Lemma rloop_stop : forall fn T a rho k s,
  ngtb (s_norm s) (rtolerance b64 a rho T) && ngtb (s_diff s) rho = false -> rsolver_loop b64 fn T a rho k s = Ok s.
Proof. intros * E. destruct k; cbn [rsolver_loop]; [reflexivity|]. rewrite E. reflexivity. Qed.

(** The guarantee of C23 that the solver stays in its bracket is lost: for an increasing objective with positive
    derivative, whose values and data are all doubles, the exact run succeeds and the run in doubles stops on the
    monotonicity assertion, because the secant point is rounded out of the bracket. *)
Theorem C98_bracket_refuted : exists (fn : num -> num * num) (F : num -> R) (D T a rho : R) x0 max_iter,
  (forall x, nle (Fin 0) x -> fn x = (Fin (F x), Fin D) /\ double (F x)) /\
  (forall x y, nle (Fin 0) x -> nle x y -> F x <= F y) /\ 0 < D /\ F (Fin 0) <= T <= F PInf /\
  double D /\ double T /\ double a /\ double rho /\ double x0 /\ two (-900) <= a /\ 0 < rho /\ 0 <= x0 /\
  (exists sol, monotonic_newton_solver fn (Fin x0) (Fin T) (Fin a) (Fin rho) max_iter (Fin 0) PInf None None = Ok sol /\
     Forall (fun x => nle (Fin 0) x) (sol_x_seq sol)) /\
  rsolver b64 fn (Fin x0) (Fin T) (Fin a) (Fin rho) max_iter (Fin 0) PInf None None = Raise AssertionError.
Proof.
  set (e := 1 / 1152921504606846976). set (h := 1 / 33554432). set (a := 1 / 1208925819614629174706176). set (rho := 1 / 1073741824).
  set (F := fun x => match x with Fin v => if Rltb v e then 0 else if Rltb v 1 then 1 - h else 1073741825 | _ => 1073741825 end).
  exists steps, F, h, 1, a, rho, e, 10%nat.
  assert (V : forall x, nle (Fin 0) x -> steps x = (Fin (F x), Fin h)) by (intros [v| | |] _; reflexivity).
  assert (Mo : forall x y, nle (Fin 0) x -> nle x y -> F x <= F y).
  { intros [v| | |] [w| | |] H0 H; cbn in H0, H; try contradiction; unfold F, e, h;
      repeat match goal with |- context [Rltb ?p ?q] => destruct (Rltb_spec p q) end; lra. }
  assert (F0 : F (Fin 0) = 0) by (unfold F; rewrite Rltb_true; [reflexivity | unfold e; lra]).
  assert (De : double e) by (replace e with (two (-60)) by (unfold e; tw; lra); apply double_two; lia).
  assert (Dh : double h) by (replace h with (two (-25)) by (unfold h; tw; lra); apply double_two; lia).
  assert (Da : double a) by (replace a with (two (-80)) by (unfold a; tw; lra); apply double_two; lia).
  assert (Dr : double rho) by (replace rho with (two (-30)) by (unfold rho; tw; lra); apply double_two; lia).
  assert (He : 0 < e) by (unfold e; lra). assert (Hh : 0 < h) by (unfold h; lra).
  assert (Ha : 0 < a) by (unfold a; lra). assert (Hr : 0 < rho) by (unfold rho; lra).
  split.
  { intros x Hx. split; [apply V; exact Hx|]. unfold F. assert (D1 : double 1073741825) by (apply double_Z; lia).
    destruct x as [v| | |]; try exact D1. destruct (Rltb v e); [apply double_0|]. destruct (Rltb v 1); [|exact D1].
    exists 33554431%Z, (-25)%Z. split; [unfold h; tw; lra | lia]. }
  split; [exact Mo|]. split; [exact Hh|]. split; [rewrite F0; unfold F; lra|]. split; [exact Dh|]. split; [apply double_1|].
  split; [exact Da|]. split; [exact Dr|]. split; [exact De|].
  split; [replace a with (two (-80)) by (unfold a; tw; lra); apply two_le; lia|]. split; [exact Hr|]. split; [lra|]. split.
  { destruct (C23_iterates_inside steps 1 a rho (Fin 0) PInf F (fun _ => h)) with (x0 := Fin e) (max_iter := 10%nat) as (sol & E & In);
      try (cbn; lra); try exact I; [intros x Hx _; split; [apply V; exact Hx | lra] | intros x y H0 H _; apply Mo; assumption | rewrite F0; unfold F; lra|].
    exists sol. split; [exact E|]. eapply Forall_impl; [|exact In]. intros x H. exact (proj1 H). }
  assert (O1 : rsub b64 (Fin (1 - h)) (Fin 1) = Fin (- h)) by exact r1.
  assert (O2 : rdiv b64 (nopp (Fin (- h))) (Fin h) = Fin 1).
  { unfold rdiv. cbn. rewrite Reqb_false by lra. cbn [rnd_num]. replace (- - h / h) with 1 by (field; lra). apply b64_fixed, double_1. }
  assert (O3 : radd b64 (Fin e) (Fin 1) = Fin 1) by exact r2.
  assert (O4 : rsub b64 (Fin 1073741825) (Fin 1) = Fin 1073741824).
  { unfold rsub. cbn. replace (1073741825 + - (1)) with 1073741824 by lra. dbl 1%Z 30%Z. }
  assert (O5 : rsub b64 (Fin 1) (Fin e) = Fin 1) by exact r3.
  assert (O6 : rdiv b64 (Fin 1) (Fin e) = Fin 1152921504606846976).
  { unfold rdiv. cbn. rewrite Reqb_false by lra. cbn [rnd_num]. replace (1 / e) with 1152921504606846976 by (unfold e; field). dbl 1%Z 60%Z. }
  assert (O7 : rdiv b64 (nopp (Fin 1073741824)) (Fin h) = Fin (- (36028797018963968))).
  { unfold rdiv. cbn. rewrite Reqb_false by lra. cbn [rnd_num]. replace (- (1073741824) / h) with (- (36028797018963968)) by (unfold h; field). dbl (-1)%Z 55%Z. }
  assert (O8 : radd b64 (Fin 1) (Fin (- (36028797018963968))) = Fin (- (36028797018963968))) by exact r5.
  assert (O9 : rmul b64 (Fin 1073741824) (Fin 1) = Fin 1073741824).
  { unfold rmul. cbn. rewrite Rmult_1_r. dbl 1%Z 30%Z. }
  assert (O10 : rsub b64 (Fin 1073741824) (Fin (- h)) = Fin 1073741824) by exact r4.
  assert (O11 : rdiv b64 (Fin 1073741824) (Fin 1073741824) = Fin 1).
  { unfold rdiv. cbn. rewrite Reqb_false by lra. cbn [rnd_num]. replace (1073741824 / 1073741824) with 1 by field. apply b64_fixed, double_1. }
  assert (O12 : rsub b64 (Fin 1) (Fin 1) = Fin 0) by (unfold rsub; cbn; rewrite Rplus_opp_r; apply b64_0).
  assert (O13 : rsub b64 (Fin 0) (Fin 1) = Fin (- (1))) by (unfold rsub; cbn; replace (0 + - (1)) with (- (1)) by lra; dbl (-1)%Z 0%Z).
  assert (OT : rtolerance b64 (Fin a) (Fin rho) (Fin 1) = Fin (a + rho)).
  { unfold rtolerance, rmul, radd. cbn. rewrite Rmult_1_r, (b64_fixed rho Dr). cbn. unfold a, rho. dbl 1125899906842625%Z (-80)%Z. }
  assert (S1 : steps (Fin e) = (Fin (1 - h), Fin h)).
  { rewrite V by (cbn; lra). unfold F. rewrite Rltb_false, Rltb_true by (unfold e; lra). reflexivity. }
  assert (S2 : steps (Fin 1) = (Fin 1073741825, Fin h)).
  { rewrite V by (cbn; lra). unfold F. rewrite !Rltb_false by (unfold e; lra). reflexivity. }
  assert (S3 : steps (Fin 0) = (Fin 0, Fin h)) by (rewrite V by (cbn; lra); rewrite F0; reflexivity).
  assert (Hl : a < h) by (unfold a, h; lra). assert (Hl' : a + rho < h) by (unfold a, h, rho; lra). assert (Hl'' : rho < 1) by (unfold rho; lra).
  assert (Hee : e < 1) by (unfold e; lra). assert (Hh1 : h < 1) by (unfold h; lra).
  clearbody e h a rho. clear F V Mo F0. cbn [nopp] in O2, O7. Local Opaque rsub radd rmul rdiv rtolerance steps.
  eapply rrun_raise.
  { unfold rsolver_init. rewrite S1, O1. unfold bracket. num_eval. reflexivity. }
  eapply rloop_go; [rewrite OT; num_eval; reflexivity | |].
  { unfold rsolver_step, rnext_x. num_eval. rewrite !O2, !O3. num_eval. rewrite S2, O4. unfold bracket. num_eval.
    rewrite O5, O6. num_eval. reflexivity. }
  eapply rloop_raise; [rewrite OT; num_eval; reflexivity|].
  unfold rsolver_step, rnext_x. num_eval. rewrite !O7, !O8. num_eval. rewrite O5, O9, O10, O11, O12, S3, O13. unfold bracket. num_eval. reflexivity.
Qed.
Print Assumptions C98_bracket_refuted.
Local Transparent rsub radd rmul rdiv rtolerance.

Definition fivefold (x : num) : num * num := (rmul b64 (Fin 5) x, Fin 5).
Definition fifth : R := 7205759403792794 / 36028797018963968.
Definition a80 : R := 1 / 1208925819614629174706176.
Definition rho30 : R := 1 / 1073741824.
Lemma tol30 : rtolerance b64 (Fin a80) (Fin rho30) (Fin 1) = Fin (a80 + rho30).
Proof.
  unfold rtolerance, rmul, radd. cbn. rewrite Rmult_1_r. assert (E : b64 rho30 = Fin rho30) by (unfold rho30; dbl 1%Z (-30)%Z). rewrite E. cbn.
  unfold a80, rho30. dbl 1125899906842625%Z (-80)%Z.
Qed.
Lemma fifth_run : exists sol,
  rsolver b64 fivefold (Fin 0) (Fin 1) (Fin a80) (Fin rho30) 10 (Fin 0) PInf None None = Ok sol /\
  sol_x_seq sol = [Fin 0; Fin fifth] /\ sol_x sol = Fin fifth /\ sol_converged sol = true /\ fst (fivefold (Fin fifth)) = Fin 1.
Proof.
  assert (S0 : fivefold (Fin 0) = (Fin 0, Fin 5)) by (unfold fivefold, rmul; cbn; rewrite Rmult_0_r, b64_0; reflexivity).
  assert (S1 : fivefold (Fin fifth) = (Fin 1, Fin 5)).
  { unfold fivefold, rmul. cbn. f_equal. unfold fifth. roundto 0%Z 4503599627370496%Z. }
  assert (O1 : rsub b64 (Fin 0) (Fin 1) = Fin (- (1))) by (unfold rsub; cbn; replace (0 + - (1)) with (- (1)) by lra; dbl (-1)%Z 0%Z).
  assert (O2 : rdiv b64 (Fin (- - (1))) (Fin 5) = Fin fifth).
  { unfold rdiv. cbn. rewrite Reqb_false by lra. cbn [rnd_num]. replace (- - (1) / 5) with (1 / 5) by lra. unfold fifth. roundto (-3)%Z 7205759403792794%Z. }
  assert (O3 : radd b64 (Fin 0) (Fin fifth) = Fin fifth).
  { unfold radd. cbn. rewrite Rplus_0_l. unfold fifth. dbl 7205759403792794%Z (-55)%Z. }
  assert (O4 : rsub b64 (Fin 1) (Fin 1) = Fin 0) by (unfold rsub; cbn; rewrite Rplus_opp_r; apply b64_0).
  pose proof tol30 as OT.
  assert (Ha : 0 < a80) by (unfold a80; lra). assert (Hr : 0 < rho30 < 1) by (unfold rho30; lra). assert (Hf : 0 < fifth) by (unfold fifth; lra).
  assert (Hn : a80 < 1) by (unfold a80; lra). assert (Ht : a80 + rho30 < 1) by (unfold a80, rho30; lra).
  Local Opaque rsub radd rmul rdiv rtolerance fivefold fifth a80 rho30.
  eexists. split; [|split; [|split; [|split]]].
  - eapply rrun_ok.
    + unfold rsolver_init. rewrite S0, O1. unfold bracket. num_eval. reflexivity.
    + eapply rloop_go; [rewrite OT; num_eval; reflexivity | |].
      { unfold rsolver_step, rnext_x. num_eval. rewrite !O2, !O3. num_eval. rewrite S1, O4. unfold bracket. num_eval. reflexivity. }
      apply rloop_stop. rewrite OT. num_eval. reflexivity.
    + reflexivity.
  - reflexivity.
  - reflexivity.
  - cbn [sol_converged]. rewrite OT. num_eval. reflexivity.
  - rewrite S1. reflexivity.
Qed.
Local Transparent rsub radd rmul rdiv rtolerance fivefold fifth a80 rho30.

(** The guarantee of C25 that a concave objective is approached from below is lost: from 0 the first Newton step on 5 x
    towards 1 is rounded above the root 1/5. *)
Theorem C98_from_below_refuted : exists (F : R -> R) (D r a rho v : R) fn max_iter,
  (forall x, 0 <= x -> fn (Fin x) = (b64 (F x), Fin D)) /\ 0 < D /\ (forall x y, F y <= F x + D * (y - x)) /\
  F r = 1 /\ 0 < a /\ 0 < rho /\ double a /\ double rho /\ F 0 < 1 /\ r < v /\
  exists sol, rsolver b64 fn (Fin 0) (Fin 1) (Fin a) (Fin rho) max_iter (Fin 0) PInf None None = Ok sol /\
    sol_x_seq sol = [Fin 0; Fin v] /\ sol_x sol = Fin v /\ sol_converged sol = true.
Proof.
  exists (fun x => 5 * x), 5, (1 / 5), a80, rho30, fifth, fivefold, 10%nat.
  split; [intros x _; reflexivity|]. split; [lra|]. split; [intros; lra|]. split; [lra|]. split; [unfold a80; lra|]. split; [unfold rho30; lra|].
  split; [exists 1%Z, (-80)%Z; split; [unfold a80; tw; lra | lia]|]. split; [exists 1%Z, (-30)%Z; split; [unfold rho30; tw; lra | lia]|].
  split; [lra|]. split; [unfold fifth; lra|]. destruct fifth_run as (sol & R & X & Xl & C & _). exists sol. auto.
Qed.
Print Assumptions C98_from_below_refuted.

Example C98_report_case : exists sol, rsolver b64 fivefold (Fin 0) (Fin 1) (Fin a80) (Fin rho30) 10 (Fin 0) PInf None None = Ok sol /\
  sol_x_seq sol = [Fin 0; Fin fifth].
Proof. destruct fifth_run as (sol & R & X & _). exists sol. auto. Qed.

Example C98_converged_case : exists sol d,
  rsolver b64 fivefold (Fin 0) (Fin 1) (Fin a80) (Fin rho30) 10 (Fin 0) PInf None None = Ok sol /\
  fivefold (sol_x sol) = (Fin 1, d) /\ double 1 /\ two (-1000) <= 1 /\
  radd b64 (Fin a80) (rmul b64 (Fin rho30) (Fin 1)) = Fin (a80 + rho30) /\ double (a80 + rho30) /\ a80 + rho30 < 1 / 2.
Proof.
  destruct fifth_run as (sol & R & _ & Xl & _ & V). exists sol, (Fin 5). split; [exact R|]. split; [rewrite Xl; unfold fivefold in V |- *; cbn [fst] in V; rewrite V; reflexivity|].
  split; [apply double_1|]. split; [rewrite <- two_0; apply two_le; lia|]. split; [exact tol30|]. split; [|unfold a80, rho30; lra].
  exists 1125899906842625%Z, (-80)%Z. split; [unfold a80, rho30; tw; lra | lia].
Qed.
