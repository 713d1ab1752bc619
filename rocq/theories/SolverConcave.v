(** The root finder on increasing concave objectives: pure Newton iteration, monotone approach and
    an explicit iteration budget. *)
From Verif Require Import Base Num KernelFacts Solver SolverFacts.

Section Concave.
Variables (fn : num -> num * num) (T a rho l r : R) (F D : R -> R).
Hypothesis Hfn : forall x, l <= x -> fn (Fin x) = (Fin (F x), Fin (D x)).
Hypothesis HD : forall x, l <= x -> 0 < D x.
Hypothesis Htan : forall x y, l <= x -> l <= y -> F y <= F x + D x * (y - x).
Hypothesis Hlr : l <= r.
Hypothesis HFr : F r = T.
Hypothesis Ha : 0 <= a.
Hypothesis HrT : 0 <= rho * T.
Let tau := a + rho * T.

(** Newton's map. *)
Definition newton (x : R) : R := x - (F x - T) / D x.

Lemma F_below : forall x, l <= x -> x <= r -> F x <= T.
Proof.
  intros x H1 H2. pose proof (Htan r x Hlr H1) as H. pose proof (HD r Hlr) as HDr.
  assert (D r * (x - r) <= 0) by (assert (0 <= D r * (r - x)) by (apply Rmult_le_pos; lra); lra).
  lra.
Qed.

Lemma F_lt_root : forall x, l <= x -> F x < T -> x < r.
Proof.
  intros x H1 H2. destruct (Rlt_le_dec x r) as [H|H]; [exact H|].
  pose proof (Htan x r H1 Hlr) as H3. pose proof (HD x H1).
  assert (0 <= D x * (x - r)) by (apply Rmult_le_pos; lra). lra.
Qed.

Lemma F_gt_root : forall x, l <= x -> T < F x -> r < x.
Proof.
  intros x H1 H2. destruct (Rlt_le_dec r x) as [H|H]; [exact H|].
  pose proof (F_below x H1 H); lra.
Qed.

Lemma D_antitone : forall x y, l <= x -> x <= y -> D y <= D x.
Proof.
  intros x y H1 H2. destruct (Req_dec x y) as [->|Hn]; [lra|].
  pose proof (Htan x y H1 ltac:(lra)). pose proof (Htan y x ltac:(lra) H1).
  assert (H3 : 0 <= (D x - D y) * (y - x)) by lra.
  destruct (Rle_lt_dec (D y) (D x)) as [H4|H4]; [exact H4|].
  assert (0 < (D y - D x) * (y - x)) by (apply Rmult_lt_0_compat; lra). lra.
Qed.

(** A Newton step from anywhere lands at or below the root. *)
Lemma newton_le_root : forall x, l <= x -> newton x <= r.
Proof.
  intros x H. unfold newton. pose proof (Htan x r H Hlr) as H1. pose proof (HD x H) as H2.
  apply Rmult_le_reg_l with (D x); [exact H2|].
  replace (D x * (x - (F x - T) / D x)) with (D x * x - (F x - T)) by (field; lra).
  rewrite HFr in H1. lra.
Qed.

Lemma newton_gt : forall x, l <= x -> F x < T -> x < newton x.
Proof.
  intros x H1 H2. unfold newton. pose proof (HD x H1).
  assert (0 < (T - F x) / D x) by (apply Rmult_lt_0_compat; [lra | apply Rinv_0_lt_compat; assumption]).
  replace ((F x - T) / D x) with (- ((T - F x) / D x)) by (field; lra). lra.
Qed.

Lemma newton_gain : forall x, l <= x -> F x <= T - tau -> 0 <= tau -> x + tau / D x <= newton x.
Proof.
  intros x H1 H2 H3. unfold newton. pose proof (HD x H1) as H4.
  assert (Hi : 0 < / D x) by (apply Rinv_0_lt_compat; exact H4).
  unfold Rdiv.
  assert (tau * / D x <= (T - F x) * / D x) by (apply Rmult_le_compat_r; lra).
  lra.
Qed.

Definition below (x : R) (s : sstate) : Prop :=
  s_x s = Fin x /\ l <= x <= r /\ s_f s = Fin (F x - T) /\ s_fp s = Fin (D x) /\
  s_norm s = nabs (s_f s) /\ nltb (Fin r) (s_xu s) = true /\ (F x < T -> s_xl s = Fin x).

Lemma nltb_trans_fin : forall x y b, x <= y -> nltb (Fin y) b = true -> nltb (Fin x) b = true.
Proof.
  intros x y [b| | |] H1 H2; simpl in *; try discriminate; try reflexivity.
  destruct (Rltb_spec y b); [|discriminate]. apply Rltb_true; lra.
Qed.

Lemma nltb_ngeb : forall x b, nltb (Fin x) b = true -> ngeb (Fin x) b = false.
Proof.
  intros x [b| | |] H; unfold ngeb, nleb; simpl in *; try discriminate; try reflexivity.
  destruct (Rltb_spec x b); [|discriminate]. rewrite Rltb_false, Reqb_false by lra. reflexivity.
Qed.

Lemma nltb_nleb : forall x b, nltb (Fin x) b = true -> nleb (Fin x) b = true.
Proof. intros x b H; unfold nleb; rewrite H; reflexivity. Qed.

Lemma nleb_fin_false : forall x y, y < x -> nleb (Fin x) (Fin y) = false.
Proof. intros x y H. rewrite nleb_fin. apply Rleb_false; exact H. Qed.

(** Evaluation and bracket update at a point at or below the root. *)
Lemma step_to_below : forall s x', l <= x' <= r -> next_x (Fin a) s = Fin x' ->
  nltb (Fin r) (s_xu s) = true -> nleb (s_xl s) (Fin x') = true ->
  exists s', solver_step fn (Fin T) (Fin a) s = Ok s' /\ below x' s' /\
    s_xseq s' = s_xseq s ++ [Fin x'] /\ s_n s' = S (s_n s).
Proof.
  intros s x' Hx Hnext Hxu Hxl. unfold solver_step. rewrite Hnext, Hfn by lra.
  unfold nsub; simpl nopp; simpl nadd. replace (F x' + - T) with (F x' - T) by ring.
  pose proof (F_below x' ltac:(lra) ltac:(lra)) as HF. pose proof (HD x' ltac:(lra)) as HDx.
  unfold bracket, ngtb, ngeb. simpl nltb. rewrite (Rltb_false 0 (F x' - T)) by lra.
  rewrite (Rltb_true 0 (D x')) by lra. rewrite (Rltb_false (D x') 0) by lra. rewrite Hxl.
  destruct (Rltb_spec (F x' - T) 0) as [P|P]; simpl andb; cbv iota.
  - simpl. eexists; split; [reflexivity|]. unfold below; simpl.
    repeat split; try assumption; try lra.
  - replace (is0 (Fin (D x'))) with false by (symmetry; rewrite is0_fin; apply Reqb_false; lra).
    replace (is0 (Fin (F x' - T))) with true by (symmetry; rewrite is0_fin; apply Reqb_true; lra).
    simpl. eexists; split; [reflexivity|]. unfold below; simpl.
    repeat split; try assumption; try lra.
Qed.

Lemma below_next : forall x s, below x s -> F x < T -> next_x (Fin a) s = Fin (newton x).
Proof.
  intros x s (Ex & Hx & Ef & Ep & _ & Hxu & Hxl) HF. unfold next_x. rewrite Ex, Ef, Ep, (Hxl HF).
  pose proof (HD x ltac:(lra)) as HDx.
  rewrite is0_fin, (Reqb_false (D x) 0) by lra. cbn [negb]. cbv iota.
  simpl nopp. simpl ndiv. rewrite (Reqb_false (D x) 0) by lra. simpl nadd.
  replace (x + - (F x - T) / D x) with (newton x) by (unfold newton; field; lra).
  pose proof (newton_le_root x ltac:(lra)). pose proof (newton_gt x ltac:(lra) HF).
  rewrite nltb_ngeb by (eapply nltb_trans_fin; [|exact Hxu]; assumption).
  rewrite nleb_fin_false by assumption. reflexivity.
Qed.

Lemma iter_S : forall n (x : R), Nat.iter (S n) newton x = Nat.iter n newton (newton x).
Proof. induction n as [|n IH]; intros x; [reflexivity|]. change (Nat.iter (S (S n)) newton x) with (newton (Nat.iter (S n) newton x)). rewrite IH; reflexivity. Qed.

Lemma loop_below : forall rem x s, below x s ->
  exists n s', solver_loop fn (Fin T) (Fin a) (Fin rho) rem s = Ok s' /\ (n <= rem)%nat /\
    below (Nat.iter n newton x) s' /\
    s_xseq s' = s_xseq s ++ map (fun k => Fin (Nat.iter (S k) newton x)) (seq 0 n) /\
    s_n s' = (s_n s + n)%nat /\
    (forall k, (k < n)%nat -> F (Nat.iter k newton x) < T - tau) /\
    (forall k, (k <= n)%nat -> l <= Nat.iter k newton x <= r) /\
    ((n < rem)%nat -> ngtb (s_norm s') (Fin tau) && ngtb (s_diff s') (Fin rho) = false).
Proof.
  induction rem as [|m IH]; intros x s B; cbn [solver_loop].
  - exists O, s. split; [reflexivity|]. split; [lia|]. split; [exact B|].
    split; [simpl; rewrite app_nil_r; reflexivity|]. split; [lia|]. split; [intros; lia|].
    split; [intros k Hk; replace k with O by lia; simpl; destruct B as (_ & Hx & _); exact Hx|].
    intros; lia.
  - simpl nmul; simpl nadd. fold tau.
    destruct (ngtb (s_norm s) (Fin tau) && ngtb (s_diff s) (Fin rho)) eqn:C.
    + assert (HF : F x < T - tau).
      { apply andb_true_iff in C; destruct C as [C _].
        destruct B as (_ & Hx & Ef & _ & En & _). rewrite En, Ef in C. unfold ngtb in C; simpl in C.
        pose proof (F_below x ltac:(lra) ltac:(lra)). rewrite Rabs_left1 in C by lra.
        destruct (Rltb_spec tau (- (F x - T))); [lra | discriminate]. }
      assert (Htau : 0 <= tau) by (unfold tau; lra).
      assert (HFT : F x < T) by lra.
      pose proof (below_next x s B HFT) as Hn.
      assert (Hx : l <= x <= r) by (destruct B as (_ & Hx & _); exact Hx).
      assert (Hx' : l <= newton x <= r).
      { split; [pose proof (newton_gt x ltac:(lra) HFT); lra | apply newton_le_root; lra]. }
      destruct (step_to_below s (newton x) Hx' Hn) as (s1 & E1 & B1 & X1 & N1).
      { destruct B as (_ & _ & _ & _ & _ & Hxu & _); exact Hxu. }
      { destruct B as (_ & _ & _ & _ & _ & _ & Hxl). rewrite (Hxl HFT), nleb_fin.
        apply Rleb_true. pose proof (newton_gt x ltac:(lra) HFT); lra. }
      rewrite E1; simpl bind.
      destruct (IH (newton x) s1 B1) as (n & s' & E & Hle & Bn & Xn & Nn & Fn & Rn & St).
      exists (S n), s'. rewrite iter_S.
      split; [exact E|]. split; [lia|]. split; [exact Bn|].
      split.
      { rewrite Xn, X1, <- app_assoc. f_equal. rewrite <- cons_seq, <- seq_shift. cbn [map app].
        f_equal. rewrite map_map. apply map_ext; intros k. rewrite <- iter_S. reflexivity. }
      split; [rewrite Nn, N1; lia|].
      split.
      { intros [|k] Hk; [exact HF|]. rewrite iter_S. apply Fn; lia. }
      split.
      { intros [|k] Hk; [exact Hx|]. rewrite iter_S. apply Rn; lia. }
      intros Hlt; apply St; lia.
    + exists O, s. split; [reflexivity|]. split; [lia|]. split; [exact B|].
      split; [simpl; rewrite app_nil_r; reflexivity|]. split; [lia|]. split; [intros; lia|].
      split; [intros k Hk; replace k with O by lia; simpl; destruct B as (_ & Hx & _); exact Hx|].
      intros _; exact C.
Qed.

(** The iteration count is bounded while the tolerance is not met. *)
Lemma iter_gain : forall n x, l <= x -> 0 <= tau ->
  (forall k, (k < n)%nat -> F (Nat.iter k newton x) < T - tau) ->
  (forall k, (k <= n)%nat -> l <= Nat.iter k newton x <= r) ->
  x + INR n * (tau / D x) <= Nat.iter n newton x.
Proof.
  induction n as [|n IH]; intros x Hx Ht HF HR.
  - simpl. lra.
  - rewrite S_INR. change (Nat.iter (S n) newton x) with (newton (Nat.iter n newton x)).
    assert (H1 : x + INR n * (tau / D x) <= Nat.iter n newton x).
    { apply IH; [exact Hx | exact Ht | intros k Hk; apply HF; lia | intros k Hk; apply HR; lia]. }
    assert (H2 := HR n ltac:(lia)).
    pose proof (newton_gain (Nat.iter n newton x) ltac:(lra) ltac:(left; apply HF; lia) Ht) as H3.
    assert (H4 : x <= Nat.iter n newton x).
    { assert (0 <= INR n * (tau / D x)); [|lra]. apply Rmult_le_pos; [apply pos_INR|].
      apply Rmult_le_pos; [exact Ht | apply Rlt_le, Rinv_0_lt_compat, HD; lra]. }
    pose proof (D_antitone x (Nat.iter n newton x) Hx H4) as H5.
    assert (H6 : tau / D x <= tau / D (Nat.iter n newton x)).
    { apply Rmult_le_compat_l; [exact Ht|]. apply Rinv_le_contravar; [apply HD; lra | exact H5]. }
    lra.
Qed.

Lemma iter_count : forall n x, l <= x -> 0 <= tau ->
  (forall k, (k < n)%nat -> F (Nat.iter k newton x) < T - tau) ->
  (forall k, (k <= n)%nat -> l <= Nat.iter k newton x <= r) ->
  INR n * tau <= (r - x) * D x.
Proof.
  intros n x Hx Ht HF HR. pose proof (iter_gain n x Hx Ht HF HR) as H.
  pose proof (HR n ltac:(lia)) as H1. pose proof (HD x Hx) as H2.
  assert (H3 : INR n * (tau / D x) <= r - x) by lra.
  replace (INR n * tau) with (INR n * (tau / D x) * D x) by (field; lra).
  apply Rmult_le_compat_r; lra.
Qed.

(** Newton iterates from below the root. *)
Definition newton_trace (x0 : R) (n : nat) : list num :=
  map (fun k => Fin (Nat.iter k newton x0)) (seq 0 (S n)).

Definition stops (sol : solution) : Prop := sol_converged sol = true \/ sol_no_change_stop sol = true.

Lemma nltb_nleb_gen : forall x y, ngtb (Fin x) y = false -> (exists z, y = Fin z) -> nleb (Fin x) y = true.
Proof.
  intros x y H [z ->]. unfold ngtb in H; simpl in H. rewrite nleb_fin.
  destruct (Rltb_spec z x); [discriminate | apply Rleb_true; lra].
Qed.

Lemma diff_finite : forall s s', solver_step fn (Fin T) (Fin a) s = Ok s' ->
  (exists x, s_x s = Fin x) -> (exists x, s_x s' = Fin x) -> exists z, s_diff s' = Fin z.
Proof.
  intros s s' H [x Hx] [x' Hx']. unfold solver_step in H. 
  destruct (fn (next_x (Fin a) s)) as [f0 fp].
  match type of H with bind ?u _ = _ => destruct u as [[[[xl xu] fl] fu]|e] end; [|discriminate].
  simpl in H; injection H as <-. simpl in *. rewrite Hx, Hx', is0_fin.
  destruct (Reqb_spec x 0) as [E|E]; simpl; [eexists; reflexivity|].
  rewrite (Reqb_false x 0) by exact E. simpl. eexists; reflexivity.
Qed.

Lemma loop_diff_finite : forall rem x s s', below x s -> (exists z, s_diff s = Fin z) ->
  solver_loop fn (Fin T) (Fin a) (Fin rho) rem s = Ok s' -> exists z, s_diff s' = Fin z.
Proof.
  induction rem as [|m IH]; intros x s s' B Hd H; cbn [solver_loop] in H.
  - injection H as <-; exact Hd.
  - simpl nmul in H; simpl nadd in H. fold tau in H.
    destruct (ngtb (s_norm s) (Fin tau) && ngtb (s_diff s) (Fin rho)) eqn:C; [|injection H as <-; exact Hd].
    assert (HF : F x < T - tau).
    { apply andb_true_iff in C; destruct C as [C _].
      destruct B as (_ & Hx & Ef & _ & En & _). rewrite En, Ef in C. unfold ngtb in C; simpl in C.
      pose proof (F_below x ltac:(lra) ltac:(lra)). rewrite Rabs_left1 in C by lra.
      destruct (Rltb_spec tau (- (F x - T))); [lra | discriminate]. }
    assert (Htau : 0 <= tau) by (unfold tau; lra).
    assert (HFT : F x < T) by lra.
    pose proof (below_next x s B HFT) as Hn.
    assert (Hx : l <= x <= r) by (destruct B as (_ & Hx & _); exact Hx).
    assert (Hx' : l <= newton x <= r).
    { split; [pose proof (newton_gt x ltac:(lra) HFT); lra | apply newton_le_root; lra]. }
    destruct (step_to_below s (newton x) Hx' Hn) as (s1 & E1 & B1 & X1 & N1).
    { destruct B as (_ & _ & _ & _ & _ & Hxu & _); exact Hxu. }
    { destruct B as (_ & _ & _ & _ & _ & _ & Hxl). rewrite (Hxl HFT), nleb_fin.
      apply Rleb_true. pose proof (newton_gt x ltac:(lra) HFT); lra. }
    rewrite E1 in H; simpl in H.
    eapply IH; [exact B1 | | exact H].
    eapply diff_finite; [exact E1 | destruct B as (-> & _); eexists; reflexivity |
      destruct B1 as (-> & _); eexists; reflexivity].
Qed.

Lemma concave_from_below : forall x0 xu max_iter, l <= x0 -> F x0 < T -> nltb (Fin r) xu = true ->
  exists sol,
    monotonic_newton_solver fn (Fin x0) (Fin T) (Fin a) (Fin rho) max_iter (Fin l) xu None None = Ok sol /\
    sol_x_seq sol = newton_trace x0 (sol_n_iter sol) /\
    (forall k, (k <= sol_n_iter sol)%nat -> l <= Nat.iter k newton x0 <= r) /\
    (forall k, (k < sol_n_iter sol)%nat -> Nat.iter k newton x0 < Nat.iter (S k) newton x0) /\
    (0 < tau -> (r - x0) * D x0 < INR max_iter * tau -> stops sol).
Proof.
  intros x0 xu max_iter Hx HF Hxu.
  assert (Hxr := F_lt_root x0 Hx HF).
  assert (Htau : 0 <= tau) by (unfold tau; lra).
  pose proof (HD x0 Hx) as HDx.
  unfold monotonic_newton_solver, solver_init. rewrite Hfn by exact Hx.
  simpl nopp; simpl nadd. replace (F x0 + - T) with (F x0 - T) by ring.
  assert (Hx0u : nltb (Fin x0) xu = true) by (eapply nltb_trans_fin; [|exact Hxu]; lra).
  assert (E1 : ngtb (Fin x0) xu = false).
  { unfold ngtb. apply nle_nltb. apply nleb_nle. apply nltb_nleb; exact Hx0u. }
  rewrite E1. simpl nltb at 1. rewrite (Rltb_false x0 l) by exact Hx. simpl orb; cbv iota.
  simpl nabs. rewrite Rabs_left by lra.
  destruct (nltb (Fin (- (F x0 - T))) (Fin a)) eqn:Early.
  - simpl bind. unfold finish, make_solution; simpl.
    eexists; split; [reflexivity|]. simpl. split; [reflexivity|].
    split; [intros k Hk; replace k with O by lia; simpl; lra|].
    split; [intros; lia|]. intros _ _. left. simpl.
    simpl in Early. destruct (Rltb_spec (- (F x0 - T)) a); [|discriminate].
    rewrite nleb_fin. apply Rleb_true. lra.
  - unfold bracket, ngtb, ngeb. simpl nltb. rewrite (Rltb_false 0 (F x0 - T)) by lra.
    rewrite (Rltb_true 0 (D x0)), (Rltb_true (F x0 - T) 0) by lra.
    rewrite nleb_fin, (Rleb_true l x0) by exact Hx. simpl andb; cbv iota. simpl bind.
    match goal with |- context [solver_loop _ _ _ _ _ ?st] => set (s := st) end.
    assert (B : below x0 s).
    { unfold below, s; simpl. rewrite Rabs_left by lra. repeat split; auto; lra. }
    destruct (loop_below max_iter x0 s B) as (n & s' & E & Hle & Bn & Xn & Nn & Fn & Rn & St).
    assert (Tr : trace_ok fn (Fin T) (Fin x0) 0 s).
    { unfold trace_ok, s; simpl. rewrite Hfn by exact Hx. simpl. unfold nsub; simpl.
      replace (F x0 + - T) with (F x0 - T) by ring. rewrite Rabs_left by lra.
      repeat split; try reflexivity; try (exists []; reflexivity). }
    destruct (loop_trace fn (Fin T) (Fin a) (Fin rho) max_iter (Fin x0) 0 s s' Tr E) as (n' & Tr' & Hn' & _).
    assert (n' = n) by (destruct Tr' as (_&_&_&_&_&_&_&_&_&Hc); rewrite Nn in Hc; unfold s in Hc; simpl in Hc; lia).
    subst n'. rewrite E; simpl bind. rewrite (finish_ok fn (Fin T) (Fin a) (Fin rho) (Fin x0) n max_iter s' Tr').
    eexists; split; [reflexivity|]. unfold stops; simpl.
    split.
    { rewrite Xn. unfold s; simpl. unfold newton_trace. rewrite <- cons_seq, <- seq_shift. cbn [map].
      rewrite map_map. reflexivity. }
    split; [exact Rn|].
    split; [intros k Hk; apply newton_gt; [apply Rn; lia | specialize (Fn k Hk); lra]|].
    intros Ht Hbudget.
    pose proof (iter_count n x0 Hx Htau Fn Rn) as Hcount.
    assert (Hlt : (n < max_iter)%nat).
    { apply INR_lt. apply Rmult_lt_reg_r with tau; [exact Ht|]. lra. }
    specialize (St Hlt). apply andb_false_iff in St.
    destruct (loop_diff_finite max_iter x0 s s' B) as [z Hz]; [unfold s; simpl; eexists; reflexivity | exact E |].
    destruct Bn as (_ & _ & Ef & _ & En & _).
    destruct St as [St|St].
    + left. rewrite En, Ef in *. simpl nabs in *. simpl nadd. fold tau. unfold ngtb in St; simpl in St.
      rewrite nleb_fin. apply Rleb_true. destruct (Rltb_spec tau (Rabs (F (Nat.iter n newton x0) - T))); [discriminate | lra].
    + right. rewrite Hz in *. unfold ngtb in St; simpl in St. rewrite nleb_fin. apply Rleb_true.
      destruct (Rltb_spec rho z); [discriminate | lra].
Qed.

(** Starting above the root: one step (Newton, or the lower bound when Newton leaves the bracket)
    lands below the root, then as before. *)
Lemma concave_from_above : forall x0 xu max_iter, l <= x0 -> T < F x0 -> nleb (Fin x0) xu = true ->
  exists sol,
    monotonic_newton_solver fn (Fin x0) (Fin T) (Fin a) (Fin rho) max_iter (Fin l) xu None None = Ok sol /\
    (forall k, (1 <= k <= sol_n_iter sol)%nat -> exists x, nth_error (sol_x_seq sol) k = Some (Fin x) /\ l <= x <= r) /\
    (0 < tau -> (r - l) * D l < (INR max_iter - 1) * tau -> stops sol).
Proof.
  intros x0 xu max_iter Hx HF Hxu.
  assert (Hxr := F_gt_root x0 Hx HF).
  assert (Htau : 0 <= tau) by (unfold tau; lra).
  pose proof (HD x0 Hx) as HDx.
  unfold monotonic_newton_solver, solver_init. rewrite Hfn by exact Hx.
  simpl nopp; simpl nadd. replace (F x0 + - T) with (F x0 - T) by ring.
  assert (E1 : ngtb (Fin x0) xu = false).
  { unfold ngtb. apply nle_nltb. apply nleb_nle. exact Hxu. }
  rewrite E1. simpl nltb at 1. rewrite (Rltb_false x0 l) by exact Hx. simpl orb; cbv iota.
  simpl nabs. rewrite Rabs_right by lra.
  destruct (nltb (Fin (F x0 - T)) (Fin a)) eqn:Early.
  - simpl bind. unfold finish, make_solution; simpl.
    eexists; split; [reflexivity|]. simpl. split; [intros; lia|].
    intros _ _. left. simpl.
    simpl in Early. destruct (Rltb_spec (F x0 - T) a); [|discriminate].
    rewrite nleb_fin. apply Rleb_true. lra.
  - unfold bracket, ngtb, ngeb. simpl nltb. rewrite (Rltb_true 0 (F x0 - T)) by lra.
    rewrite (Rltb_true 0 (D x0)) by lra. rewrite Hxu. simpl andb; cbv iota. simpl bind.
    match goal with |- context [solver_loop _ _ _ _ _ ?st] => set (s := st) end.
    assert (Tr : trace_ok fn (Fin T) (Fin x0) 0 s).
    { unfold trace_ok, s; simpl. rewrite Hfn by exact Hx. simpl. unfold nsub; simpl.
      replace (F x0 + - T) with (F x0 - T) by ring. rewrite Rabs_right by lra.
      repeat split; try reflexivity; try (exists []; reflexivity). }
    destruct max_iter as [|m].
    { simpl solver_loop. simpl bind. rewrite (finish_ok fn (Fin T) (Fin a) (Fin rho) (Fin x0) 0 0 s Tr).
      eexists; split; [reflexivity|]. simpl. split; [intros; lia|]. intros Ht Hb. exfalso.
      assert (0 <= (r - l) * D l) by (apply Rmult_le_pos; [lra | apply Rlt_le, HD; lra]). simpl in Hb. lra. }
    cbn [solver_loop]. simpl nmul; simpl nadd. fold tau.
    destruct (ngtb (s_norm s) (Fin tau) && ngtb (s_diff s) (Fin rho)) eqn:C.
    + (* first step *)
      set (x1 := if Rleb (newton x0) l then l else newton x0).
      assert (Hx1 : l <= x1 <= r).
      { unfold x1. destruct (Rleb_spec (newton x0) l); [lra|]. split; [lra | apply newton_le_root; exact Hx]. }
      assert (Hn : next_x (Fin a) s = Fin x1).
      { unfold next_x, s; simpl s_x; simpl s_f; simpl s_fp; simpl s_xu; simpl s_xl; simpl s_fu; simpl s_fl.
        rewrite is0_fin, (Reqb_false (D x0) 0) by lra. cbn [negb]. cbv iota.
        simpl nopp. simpl ndiv. rewrite (Reqb_false (D x0) 0) by lra. simpl nadd.
        replace (x0 + - (F x0 - T) / D x0) with (newton x0) by (unfold newton; field; lra).
        pose proof (newton_le_root x0 Hx).
        unfold ngeb. rewrite (nleb_fin x0), (Rleb_false x0 (newton x0)) by lra.
        rewrite (nleb_fin (newton x0)). unfold x1. simpl orb. destruct (Rleb (newton x0) l); reflexivity. }
      destruct (step_to_below s x1 Hx1 Hn) as (s1 & Es1 & B1 & X1 & N1).
      { unfold s; simpl. apply Rltb_true; exact Hxr. }
      { unfold s; simpl s_xl. rewrite nleb_fin. apply Rleb_true; lra. }
      rewrite Es1; simpl bind.
      assert (Tr1 := step_trace fn (Fin T) (Fin a) (Fin x0) 0 s s1 Tr Es1).
      destruct (loop_below m x1 s1 B1) as (n & s' & E & Hle & Bn & Xn & Nn & Fn & Rn & St).
      destruct (loop_trace fn (Fin T) (Fin a) (Fin rho) m (Fin x0) 1 s1 s' Tr1 E) as (n' & Tr' & Hn' & _).
      assert (n' = S n).
      { destruct Tr' as (_&_&_&_&_&_&_&_&_&Hc). rewrite Nn, N1 in Hc. unfold s in Hc; simpl in Hc. lia. }
      subst n'. rewrite E; simpl bind. rewrite (finish_ok fn (Fin T) (Fin a) (Fin rho) (Fin x0) (S n) (S m) s' Tr').
      eexists; split; [reflexivity|]. unfold stops; simpl sol_n_iter; simpl sol_x_seq; simpl sol_converged; simpl sol_no_change_stop.
      split.
      { intros [|k] [Hk1 Hk2]; [lia|]. exists (Nat.iter k newton x1). split; [|apply Rn; lia].
        rewrite Xn, X1. unfold s; simpl s_xseq. cbn [app nth_error].
        destruct k as [|k]; [reflexivity|]. cbn [nth_error].
        rewrite nth_error_map. rewrite (nth_error_nth' _ O) by (rewrite seq_length; lia).
        rewrite seq_nth by lia. reflexivity. }
      intros Ht Hbudget.
      assert (Hl1 : l <= x1) by lra.
      pose proof (iter_count n x1 Hl1 Htau Fn Rn) as Hcount.
      assert (Hb2 : (r - x1) * D x1 <= (r - l) * D l).
      { apply Rmult_le_compat; [lra | apply Rlt_le, HD; lra | lra | apply D_antitone; lra]. }
      assert (Hlt : (n < m)%nat).
      { apply INR_lt. apply Rmult_lt_reg_r with tau; [exact Ht|].
        rewrite S_INR in Hbudget. replace (INR m + 1 - 1) with (INR m) in Hbudget by ring. lra. }
      specialize (St Hlt). apply andb_false_iff in St.
      assert (Hd1 : exists z, s_diff s1 = Fin z).
      { eapply diff_finite; [exact Es1 | unfold s; simpl; eexists; reflexivity | destruct B1 as (-> & _); eexists; reflexivity]. }
      destruct (loop_diff_finite m x1 s1 s' B1 Hd1 E) as [z Hz].
      destruct Bn as (_ & _ & Ef & _ & En & _).
      destruct St as [St|St].
      * left. rewrite En, Ef in *. simpl nabs in *. simpl nadd. fold tau. unfold ngtb in St; simpl in St.
        rewrite nleb_fin. apply Rleb_true. destruct (Rltb_spec tau (Rabs (F (Nat.iter n newton x1) - T))); [discriminate | lra].
      * right. rewrite Hz in *. unfold ngtb in St; simpl in St. rewrite nleb_fin. apply Rleb_true.
        destruct (Rltb_spec rho z); [discriminate | lra].
    + simpl bind. rewrite (finish_ok fn (Fin T) (Fin a) (Fin rho) (Fin x0) 0 (S m) s Tr).
      eexists; split; [reflexivity|]. unfold stops; simpl. split; [intros; lia|].
      intros _ _. apply andb_false_iff in C. unfold s in C; simpl in C. unfold ngtb in C; simpl in C.
      destruct C as [C|C].
      * left. rewrite nleb_fin. apply Rleb_true. fold tau. destruct (Rltb_spec tau (F x0 - T)); [discriminate | lra].
      * right. rewrite nleb_fin. apply Rleb_true. destruct (Rltb_spec rho 1); [discriminate | lra].
Qed.

(** Starting exactly at the root (possible only with a positive absolute tolerance). *)
Lemma start_exact : forall x0 xu max_iter, l <= x0 -> F x0 = T -> nleb (Fin x0) xu = true -> 0 < a ->
  exists sol,
    monotonic_newton_solver fn (Fin x0) (Fin T) (Fin a) (Fin rho) max_iter (Fin l) xu None None = Ok sol /\
    sol_x sol = Fin x0 /\ sol_n_iter sol = O /\ sol_converged sol = true.
Proof.
  intros x0 xu max_iter Hx HF Hxu Hpos.
  unfold monotonic_newton_solver, solver_init. rewrite Hfn by exact Hx.
  simpl nopp; simpl nadd. replace (F x0 + - T) with 0 by lra.
  assert (E1 : ngtb (Fin x0) xu = false).
  { unfold ngtb. apply nle_nltb. apply nleb_nle. exact Hxu. }
  rewrite E1. simpl nltb at 1. rewrite (Rltb_false x0 l) by exact Hx. simpl orb; cbv iota.
  simpl nabs. rewrite Rabs_R0. simpl nltb. rewrite (Rltb_true 0 a) by exact Hpos. simpl bind.
  unfold finish, make_solution; simpl. eexists; split; [reflexivity|]. simpl.
  repeat split. rewrite nleb_fin. apply Rleb_true. lra.
Qed.
End Concave.
