(** The root finder started at a finite point of [0, inf): it never raises and never leaves the finite
    non-negative numbers, whatever the target. *)
From Verif Require Import Base Num KernelFacts Solver SolverFacts.

Section Finite.
Variables (fn : num -> num * num) (T a rho : R) (F D : R -> R).
Hypothesis Hfn : forall x, 0 <= x -> fn (Fin x) = (Fin (F x), Fin (D x)).
Hypothesis HD : forall x, 0 <= x -> 0 <= D x.
(** where the derivative vanishes the objective is not above the target *)
Hypothesis Hflat : forall x, 0 <= x -> D x = 0 -> F x <= T.
Hypothesis Ha : 0 < a.
Hypothesis Htol : 0 <= a + rho * T.

Definition fin_inv (s : sstate) : Prop :=
  exists x xl, s_x s = Fin x /\ s_xl s = Fin xl /\ 0 <= xl <= x /\
    s_f s = Fin (F x - T) /\ s_fp s = Fin (D x) /\ s_norm s = nabs (s_f s) /\
    match s_xu s with
    | Fin u => x <= u /\ s_fu s = Some (Fin (F u - T)) /\ 0 < F u - T
    | PInf => s_fu s = None /\ F x <= T
    | _ => False
    end /\
    match s_fl s with None => True | Some w => exists w', w = Fin w' /\ w' <= 0 end.

(** The next point is finite and inside the bracket. *)
Lemma fin_next : forall s, fin_inv s -> s_f s <> Fin 0 ->
  exists x' xl, next_x (Fin a) s = Fin x' /\ s_xl s = Fin xl /\ xl <= x' /\
    match s_xu s with Fin u => x' <= u | PInf => True | _ => False end.
Proof.
  intros s (x & xl & Ex & Exl & Hx & Ef & Efp & _ & Hu & Hl) Hf0.
  assert (Hf : F x - T <> 0) by (intros E; apply Hf0; rewrite Ef, E; reflexivity).
  set (dx := if Req_EM_T (D x) 0 then - (F x - T) / a else - (F x - T) / D x).
  assert (Edx : (if negb (is0 (s_fp s)) then ndiv (nopp (s_f s)) (s_fp s) else ndiv (nopp (s_f s)) (Fin a)) = Fin dx).
  { rewrite Ef, Efp, is0_fin. unfold Reqb, dx. destruct (Req_EM_T (D x) 0) as [E|E]; simpl.
    - rewrite Reqb_false by lra. reflexivity.
    - rewrite Reqb_false by exact E. reflexivity. }
  unfold next_x. rewrite Edx, Ex, Exl. cbv zeta. simpl nadd.
  destruct (s_xu s) as [u| | |] eqn:Eu; try contradiction.
  - destruct Hu as [Hxu [Efu Hv]]. rewrite Efu. set (v := F u - T) in *.
    unfold ngeb. rewrite !nleb_fin.
    destruct (Rleb_spec u (x + dx)) as [H1|H1]; [|destruct (Rleb_spec (x + dx) xl) as [H2|H2]]; simpl orb; cbv iota.
    + destruct (s_fl s) as [w|].
      * destruct Hl as [w' [-> Hw]]. simpl isinf; cbv iota. unfold nsub; simpl nopp; simpl nadd; simpl nmul.
        simpl ndiv. rewrite Reqb_false by lra. simpl nopp; simpl nadd.
        exists (u + - (v * (u + - xl) / (v + - w'))), xl.
        pose proof (secant_in xl u w' v ltac:(lra) Hw ltac:(lra) ltac:(lra)) as Hs.
        replace (u + - (v * (u + - xl) / (v + - w'))) with (u - v * (u - xl) / (v - w')) by (unfold Rminus; ring).
        repeat split; lra.
      * exists xl, xl. repeat split; lra.
    + destruct (s_fl s) as [w|].
      * destruct Hl as [w' [-> Hw]]. simpl isinf; cbv iota. unfold nsub; simpl nopp; simpl nadd; simpl nmul.
        simpl ndiv. rewrite Reqb_false by lra. simpl nopp; simpl nadd.
        exists (u + - (v * (u + - xl) / (v + - w'))), xl.
        pose proof (secant_in xl u w' v ltac:(lra) Hw ltac:(lra) ltac:(lra)) as Hs.
        replace (u + - (v * (u + - xl) / (v + - w'))) with (u - v * (u - xl) / (v - w')) by (unfold Rminus; ring).
        repeat split; lra.
      * exists xl, xl. repeat split; lra.
    + exists (x + dx), xl. repeat split; lra.
  - destruct Hu as [Efu HF].
    assert (Hdx : 0 < dx).
    { unfold dx. pose proof (HD x ltac:(lra)). destruct (Req_EM_T (D x) 0);
        (apply Rmult_lt_0_compat; [lra | apply Rinv_0_lt_compat; lra]). }
    unfold ngeb. rewrite nleb_fin, (Rleb_false (x + dx) xl) by lra. simpl.
    exists (x + dx), xl. repeat split; lra.
Qed.

Lemma fin_step : forall s, fin_inv s -> s_f s <> Fin 0 ->
  exists s', solver_step fn (Fin T) (Fin a) s = Ok s' /\ fin_inv s'.
Proof.
  intros s Hinv Hf0. destruct (fin_next s Hinv Hf0) as (x' & xl & En & Exl & Hxl & Hxu).
  destruct Hinv as (x & xl0 & Ex & Exl0 & Hx & Ef & Efp & _ & Hu & Hl).
  assert (xl0 = xl) by congruence. subst xl0.
  unfold solver_step. rewrite En, Hfn by lra.
  unfold nsub; simpl nopp; simpl nadd. replace (F x' + - T) with (F x' - T) by ring.
  pose proof (HD x' ltac:(lra)) as HDx. pose proof (Hflat x' ltac:(lra)) as Hfl.
  assert (Hxu' : nleb (Fin x') (s_xu s) = true).
  { apply nleb_nle. destruct (s_xu s); simpl in *; try contradiction; try exact I. lra. }
  unfold bracket, ngtb, ngeb. simpl nltb. rewrite Hxu', Exl, nleb_fin, (Rleb_true xl x') by lra.
  rewrite (Rltb_false (D x') 0) by lra.
  destruct (Rltb_spec 0 (F x' - T)) as [P1|P1].
  - (* above the target: D > 0 *)
    assert (0 < D x') by (destruct (Req_dec (D x') 0) as [E|E]; [specialize (Hfl E); lra | lra]).
    rewrite (Rltb_true 0 (D x')) by assumption. simpl andb; cbv iota.
    eexists; split; [reflexivity|]. exists x', xl; cbn [s_x s_xl s_f s_fp s_norm s_xu s_fu s_fl].
    repeat split; auto; lra.
  - assert (Hkeep : match s_xu s with
                    | Fin u => x' <= u /\ s_fu s = Some (Fin (F u - T)) /\ 0 < F u - T
                    | PInf => s_fu s = None /\ F x' <= T
                    | _ => False
                    end).
    { destruct (s_xu s); try contradiction; [split; [lra | apply Hu] | split; [apply Hu | lra]]. }
    destruct (Rltb_spec 0 (D x')) as [P2|P2].
    + destruct (Rltb_spec (F x' - T) 0) as [P3|P3]; simpl andb; cbv iota.
      * eexists; split; [reflexivity|]. exists x', x'; cbn [s_x s_xl s_f s_fp s_norm s_xu s_fu s_fl].
        repeat split; auto; try lra. exists (F x' - T); split; [reflexivity | lra].
      * rewrite is0_fin, (Reqb_false (D x') 0) by lra. rewrite is0_fin, (Reqb_true (F x' - T) 0) by lra.
        eexists; split; [reflexivity|]. exists x', xl; cbn [s_x s_xl s_f s_fp s_norm s_xu s_fu s_fl].
        repeat split; auto; lra.
    + assert (E0 : D x' = 0) by lra.
      rewrite !andb_false_r. simpl andb. cbv iota.
      rewrite is0_fin, (Reqb_true (D x') 0) by exact E0.
      destruct (neqb (Fin x') (s_xu s)) eqn:Eq.
      * apply neqb_eq in Eq. rewrite <- Eq in Hkeep. specialize (Hfl E0). lra.
      * destruct (neqb (Fin x') (Fin xl)).
        -- eexists; split; [reflexivity|]. exists x', xl; cbn [s_x s_xl s_f s_fp s_norm s_xu s_fu s_fl].
           repeat split; auto; try lra. exists (F x' - T); split; [reflexivity | lra].
        -- eexists; split; [reflexivity|]. exists x', xl; cbn [s_x s_xl s_f s_fp s_norm s_xu s_fu s_fl].
           repeat split; auto; lra.
Qed.

Definition fin_xs (s : sstate) : Prop := Forall (fun x => exists r, x = Fin r /\ 0 <= r) (s_xseq s).

Lemma fin_loop : forall rem s, fin_inv s -> fin_xs s ->
  exists s', solver_loop fn (Fin T) (Fin a) (Fin rho) rem s = Ok s' /\ fin_inv s' /\ fin_xs s'.
Proof.
  induction rem as [|k IH]; intros s Hi Hxs; cbn [solver_loop].
  - exists s; auto.
  - change (nadd (Fin a) (nmul (Fin rho) (Fin T))) with (Fin (a + rho * T)).
    destruct (ngtb (s_norm s) (Fin (a + rho * T)) && ngtb (s_diff s) (Fin rho)) eqn:Et; [|exists s; auto].
    assert (Hf0 : s_f s <> Fin 0).
    { intros E. destruct Hi as (x & xl & _ & _ & _ & _ & _ & En & _). apply andb_prop in Et. destruct Et as [Et _].
      unfold ngtb in Et. rewrite En, E in Et. simpl in Et. rewrite Rabs_R0 in Et.
      rewrite Rltb_false in Et by lra. discriminate. }
    destruct (fin_step s Hi Hf0) as (s' & Es & Hi'). rewrite Es. cbn [bind].
    apply IH; [exact Hi'|].
    unfold fin_xs. unfold solver_step in Es.
    destruct (fn (next_x (Fin a) s)) as [f0 fp].
    assert (Ex : s_xseq s' = s_xseq s ++ [s_x s']).
    { destruct (bracket _ _ _ _ _ _ _) as [[[[? ?] ?] ?]|].
      - inversion Es; subst; reflexivity.
      - destruct (is0 fp); [destruct (neqb _ _); [|destruct (neqb _ _)] | destruct (is0 _)];
          inversion Es; subst; reflexivity. }
    rewrite Ex. apply Forall_app; split; [exact Hxs|].
    destruct Hi' as (x & xl & E1 & _ & H1 & _). constructor; [|constructor].
    exists x; split; [exact E1 | lra].
Qed.

(** Started at a finite point the solver returns, and all its points are finite and non-negative. *)
Lemma finite_start_safe : forall x0 max_iter, 0 <= x0 ->
  exists sol, monotonic_newton_solver fn (Fin x0) (Fin T) (Fin a) (Fin rho) max_iter (Fin 0) PInf None None = Ok sol /\
    Forall (fun x => exists r, x = Fin r /\ 0 <= r) (sol_x_seq sol).
Proof.
  intros x0 mi Hx0. unfold monotonic_newton_solver, solver_init. rewrite Hfn by exact Hx0.
  replace (ngtb (Fin x0) PInf || nltb (Fin x0) (Fin 0)) with false
    by (simpl; rewrite Rltb_false by lra; reflexivity).
  simpl nopp; simpl nadd. replace (F x0 + - T) with (F x0 - T) by ring.
  destruct (nltb (nabs (Fin (F x0 - T))) (Fin a)) eqn:En.
  { simpl. eexists; split; [reflexivity|]. simpl. constructor; [exists x0; auto | constructor]. }
  pose proof (HD x0 Hx0) as HDx. pose proof (Hflat x0 Hx0) as Hfl.
  assert (Hf : F x0 - T <> 0).
  { intros E. rewrite E in En. simpl in En. rewrite Rabs_R0, Rltb_true in En by lra. discriminate. }
  unfold bracket, ngtb, ngeb. simpl nltb. rewrite nleb_fin, (Rleb_true 0 x0) by exact Hx0. simpl nleb.
  rewrite (Rltb_false (D x0) 0) by lra.
  set (st := mkS (Fin x0) (Fin (F x0 - T)) (Fin (D x0)) (nabs (Fin (F x0 - T))) (Fin 1)).
  assert (Hgo : forall xl xu fl fu,
    fin_inv (st xl xu fl fu 0%nat [Fin (F x0 - T)] [Fin x0] [nabs (Fin (F x0 - T))] [Fin 1]) ->
    exists sol, (do s' <- solver_loop fn (Fin T) (Fin a) (Fin rho) mi
        (st xl xu fl fu 0%nat [Fin (F x0 - T)] [Fin x0] [nabs (Fin (F x0 - T))] [Fin 1]) ;
      finish (Fin T) mi (Fin a) (Fin rho) s') = Ok sol /\
      Forall (fun x => exists r, x = Fin r /\ 0 <= r) (sol_x_seq sol)).
  { intros xl xu fl fu Hi.
    destruct (fin_loop mi _ Hi) as (s' & E & Hi' & Hxs).
    { constructor; [exists x0; auto | constructor]. }
    rewrite E. simpl.
    assert (Ht : exists n', trace_ok fn (Fin T) (Fin x0) n' s').
    { match type of E with solver_loop _ _ _ _ _ ?st0 = _ =>
        assert (H0 : trace_ok fn (Fin T) (Fin x0) 0 st0) end.
      { unfold trace_ok, st; cbn [s_x s_xl s_f s_fp s_norm s_xu s_fu s_fl s_xseq s_dseq s_fseq s_nseq s_n s_diff].
        rewrite Hfn by exact Hx0. simpl. unfold nsub; simpl.
        replace (F x0 + - T) with (F x0 - T) by ring.
        repeat split; try reflexivity; try (exists (@nil num); reflexivity).
        rewrite Hfn by exact Hx0. reflexivity. }
      destruct (loop_trace fn (Fin T) (Fin a) (Fin rho) mi (Fin x0) 0 _ s' H0 E) as (n' & Ht & _).
      exists n'; exact Ht. }
    destruct Ht as [n' Ht]. rewrite (finish_ok fn (Fin T) (Fin a) (Fin rho) _ _ mi s' Ht).
    eexists; split; [reflexivity|]. exact Hxs. }
  destruct (Rltb_spec 0 (F x0 - T)) as [P1|P1].
  - assert (0 < D x0) by (destruct (Req_dec (D x0) 0) as [E|E]; [specialize (Hfl E); lra | lra]).
    rewrite (Rltb_true 0 (D x0)) by assumption. simpl andb; cbv iota. cbv beta iota.
    apply Hgo. exists x0, 0; unfold st; cbn [s_x s_xl s_f s_fp s_norm s_xu s_fu s_fl]. repeat split; auto; lra.
  - destruct (Rltb_spec 0 (D x0)) as [P2|P2].
    + rewrite (Rltb_true (F x0 - T) 0) by lra. simpl andb; cbv iota.
      apply Hgo. exists x0, x0; unfold st; cbn [s_x s_xl s_f s_fp s_norm s_xu s_fu s_fl].
      repeat split; auto; try lra. exists (F x0 - T); split; [reflexivity | lra].
    + rewrite !andb_false_r. simpl andb; cbv iota. rewrite is0_fin, (Reqb_true (D x0) 0) by lra.
      apply Hgo. exists x0, 0; unfold st; cbn [s_x s_xl s_f s_fp s_norm s_xu s_fu s_fl]. repeat split; auto; lra.
Qed.
End Finite.
