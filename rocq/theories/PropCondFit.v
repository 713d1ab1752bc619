(** Property C80: the conditional model can be fitted to every attainable number of edges. *)
From Verif Require Import Base Num Spec Kernels KernelFacts MultiKernels Prob Ensemble EnsembleFacts
  CondDist Conditional CondFacts CondModel CondMeasures CondKernel CondProps CondLik CondFit Solver Fit PropSolver PropConditional.

(** Number of links of the aggregate graph, and of pairs of vertices that can be linked. *)
Definition num_macro (N : nat) (g : nat -> nat) (adj : nat -> list (nat * R)) : R :=
  sumn (num_groups N g) (fun a => INR (length (adj a))).
Definition num_available (N : nat) (sl : bool) (g : nat -> nat) (adj : nat -> list (nat * R)) (x y : nat -> R) : R :=
  pair_sum N sl (fun i j => if macro_link adj (g i) (g j) && Rltb 0 (x i * y j) then 1 else 0).

(** The objective and its derivative are finite and non-negative at every parameter, the objective does
    not decrease, and it goes from the number of links of the aggregate graph to the number of pairs
    that can be linked. *)
Theorem C80_objective : forall x y N g adj sl, setting (Fin 1) x y N g adj sl ->
  exists f f' : num -> R,
    (forall d, nle (Fin 0) d -> cond_f_jac d (F x) (F y) N g adj sl = Ok (Fin (f d), Fin (f' d)) /\ 0 <= f' d) /\
    (forall d e, nle (Fin 0) d -> nle d e -> f d <= f e) /\
    f (Fin 0) = num_macro N g adj /\ f PInf = num_available N sl g adj x y.
Proof.
  intros x y N g adj sl (_ & Hx & Hy & Hadj & Hpos).
  exists (obj x y N g adj sl term), (obj x y N g adj sl term'). repeat split.
  - apply objective_value; assumption.
  - apply objective_deriv; assumption.
  - intros d e. apply objective_mono; assumption.
  - apply objective_zero; assumption.
  - apply objective_inf; assumption.
Qed.
Print Assumptions C80_objective.

(** Every target in this range can be fitted, from the default start or any non-negative one: the fit
    returns and every point it tries is non-negative. *)
Theorem C80_total : forall x y N g adj sl T at_ rho mi x0 v, setting (Fin 1) x y N g adj sl ->
  num_macro N g adj <= T <= num_available N sl g adj x y -> 0 < at_ -> 0 <= at_ + rho * T ->
  (x0 = None \/ x0 = Some (Numeric [v])) -> nle (Fin 0) v ->
  exists fit, cond_fit (F x) (F y) N g adj sl (Some (Fin T)) x0 Density (Fin at_) (Fin rho) mi = Ok fit /\
    Forall (nle (Fin 0)) (sol_x_seq (fitted_sol fit)) /\ fitted_param fit = sol_x (fitted_sol fit).
Proof.
  intros x y N g adj sl T at_ rho mi x0 v HH HT Ha Hat H0 Hv.
  destruct (C80_objective x y N g adj sl HH) as (f & f' & Hf & Hm & E0 & EI).
  destruct (Hf (Fin 0) ltac:(simpl; lra)) as [V0 _].
  unfold cond_fit. rewrite V0. cbn [bind].
  match goal with |- context [fitness_fit ?u _ _ _ _ _ _] => set (fn := u) end.
  assert (S : forall x0, nle (Fin 0) x0 -> exists sol,
    monotonic_newton_solver fn x0 (Fin T) (Fin at_) (Fin rho) mi (Fin 0) PInf None None = Ok sol /\
    Forall (fun x => nle (Fin 0) x /\ nle x PInf) (sol_x_seq sol)).
  { intros w Hw. apply (C23_iterates_inside fn T at_ rho (Fin 0) PInf f f'); try assumption.
    - intros d Hd _. destruct (Hf d Hd) as [E P]. unfold fn. rewrite E. split; [reflexivity | exact P].
    - intros d e Hd He _. apply Hm; assumption.
    - rewrite E0, EI. exact HT.
    - destruct w; simpl in Hw |- *; tauto. }
  assert (AN : forall w, nle (Fin 0) w -> any_neg [w] = false).
  { intros w Hw. unfold any_neg. cbn [existsb]. destruct w as [r| | |]; simpl in Hw; try contradiction; [|reflexivity].
    cbn [nltb]. destruct (Rltb_spec r 0); [lra | reflexivity]. }
  assert (G : forall w, nle (Fin 0) w -> exists fit,
     fitness_fit fn (Some (Fin T)) (Some (Numeric [w])) Density (Fin at_) (Fin rho) mi = Ok fit /\
     Forall (nle (Fin 0)) (sol_x_seq (fitted_sol fit)) /\ fitted_param fit = sol_x (fitted_sol fit)).
  { intros w Hw. unfold fitness_fit. cbn [arr_len length Nat.eqb guard]. rewrite (AN w Hw). cbn [negb guard nth].
    destruct (S w Hw) as (sol & -> & FS). cbn [bind]. eexists. split; [reflexivity|]. cbn [fitted_sol fitted_param].
    split; [|reflexivity]. eapply Forall_impl; [|exact FS]. intros u [Hu _]. exact Hu. }
  destruct H0 as [-> | ->].
  - apply (G (Fin 0)). simpl. lra.
  - apply G. exact Hv.
Qed.
Print Assumptions C80_total.

(** Four vertices in two groups, three linked pairs of groups: between 3 and 10 edges. *)
Example C80_case : setting (Fin 1) (fun _ => 1) (fun _ => 1) 4 half four_adj false /\
  num_macro 4 half four_adj = 3 /\ num_available 4 false half four_adj (fun _ => 1) (fun _ => 1) = 10 /\
  exists fit, cond_fit (F (fun _ => 1)) (F (fun _ => 1)) 4 half four_adj false (Some (Fin (11 / 2))) None Density
    (Fin (1 / 1000)) (Fin (1 / 1000)) 100 = Ok fit /\ Forall (nle (Fin 0)) (sol_x_seq (fitted_sol fit)).
Proof.
  assert (E1 : num_macro 4 half four_adj = 3).
  { unfold num_macro. change (num_groups 4 half) with 2%nat. cbn. ring. }
  assert (E2 : num_available 4 false half four_adj (fun _ => 1) (fun _ => 1) = 10).
  { unfold num_available, pair_sum. rewrite Rmult_1_l. destruct (Rltb_spec 0 1); [|lra]. cbn. ring. }
  split; [exact four_setting|]. split; [exact E1|]. split; [exact E2|].
  destruct (C80_total (fun _ => 1) (fun _ => 1) 4 half four_adj false (11 / 2) (1 / 1000) (1 / 1000) 100 None (Fin 0) four_setting)
    as (fit & H1 & H2 & _); try lra; [left; reflexivity | simpl; lra|].
  exists fit. split; assumption.
Qed.

(** The objective of the unconditional models lies below its tangents, so that the Newton iterates from a
    start below the solution never pass it (C25).  The conditional objective does not. *)
Definition star_groups (i : nat) : nat := match i with O => 0%nat | _ => 1%nat end.
Definition star_adj (a : nat) : list (nat * R) := match a with O => [(1%nat, 1)] | _ => [] end.

Lemma star_setting : setting (Fin 1) (fun _ => 1) (fun _ => 1) 4 star_groups star_adj false.
Proof.
  assert (AG : aggregate_graph (num_groups 4 star_groups) star_adj).
  { intros a Ha. change (num_groups 4 star_groups) with 2%nat in *.
    destruct a as [|[|a]]; [| |lia]; cbn; (split; [repeat constructor; simpl; intuition lia|]);
      intros e; simpl; intros H; repeat (destruct H as [<-|H]; [cbn; lia|]); destruct H. }
  repeat split; try (intros; simpl; lra); try (apply AG; assumption).
  apply (prob_aggregate_pos _ _ _ _ _ _ [(0, 1)%nat]); [apply unit_prob_range | | reflexivity].
  unfold all_graphs. change (pairs 4 false) with
    [(0, 1); (0, 2); (0, 3); (1, 0); (1, 2); (1, 3); (2, 0); (2, 1); (2, 3); (3, 0); (3, 1); (3, 2)]%nat.
  change (sublists ((0, 1)%nat :: ?l)) with (map (cons (0, 1)%nat) (sublists l) ++ sublists l).
  apply in_or_app. left. apply in_map. 
  clear. generalize [(0, 2); (0, 3); (1, 0); (1, 2); (1, 3); (2, 0); (2, 1); (2, 3); (3, 0); (3, 1); (3, 2)]%nat.
  intros l. induction l as [|e l IH]; [left; reflexivity|]. cbn [sublists]. apply in_or_app. right. exact IH.
Qed.

(** Three pairs of equal rate in one linked block. *)
Lemma star_value : forall t, 0 < t -> / 10 ^ 12 <= 1 - exp (- (t * 3)) ->
  cond_f_jac (Fin t) (F (fun _ => 1)) (F (fun _ => 1)) 4 star_groups star_adj false
  = Ok (Fin (3 * ratio 1 3 t), Fin (3 * ratio' 1 3 t)).
Proof.
  intros t Ht Hs. destruct star_setting as (_ & Hx & Hy & Hadj & Hpos).
  rewrite (objective_value (fun _ => 1) (fun _ => 1) 4 star_groups star_adj false Hx Hy Hadj Hpos (Fin t)) by (simpl; lra).
  assert (R : rate 4 false star_groups (fun _ => 1) (fun _ => 1) (0%nat, 1%nat) = 3).
  { rewrite rate_sum. cbn. ring. }
  assert (SM : small 3 t = false) by (unfold small; destruct (Rltb_spec (1 - exp (- (t * 3))) (/ 10 ^ 12)); [lra | reflexivity]).
  unfold obj, pair_sum. cbn [sumn allowed Nat.eqb negb orb star_groups macro_link star_adj existsb fst].
  rewrite R, Rmult_1_l. unfold term, term'. rewrite SM. destruct (Reqb_spec 1 0) as [|_]; [lra|]. f_equal. f_equal; f_equal; ring.
Qed.

Lemma star_zero :
  cond_f_jac (Fin 0) (F (fun _ => 1)) (F (fun _ => 1)) 4 star_groups star_adj false = Ok (Fin 1, Fin 1).
Proof.
  destruct star_setting as (_ & Hx & Hy & Hadj & Hpos).
  rewrite (objective_value (fun _ => 1) (fun _ => 1) 4 star_groups star_adj false Hx Hy Hadj Hpos (Fin 0)) by (simpl; lra).
  assert (R : rate 4 false star_groups (fun _ => 1) (fun _ => 1) (0%nat, 1%nat) = 3).
  { rewrite rate_sum. cbn. ring. }
  assert (SM : small 3 0 = true).
  { unfold small. rewrite Rmult_0_l, Ropp_0, exp_0. pose proof tenpow_pos. destruct (Rltb_spec (1 - 1) (/ 10 ^ 12)); [reflexivity | lra]. }
  unfold obj, pair_sum. cbn [sumn allowed Nat.eqb negb orb star_groups macro_link star_adj existsb fst].
  rewrite R, Rmult_1_l. unfold term, term'. rewrite SM. destruct (Reqb_spec 1 0) as [|_]; [lra|]. f_equal. f_equal; f_equal; field.
Qed.

Lemma step_point : forall fn T a s s', solver_step fn T a s = Ok s' -> s_x s' = next_x a s.
Proof.
  intros fn T a s s' H. unfold solver_step in H. destruct (fn (next_x a s)) as [f0 fp].
  match type of H with (do b <- ?m ; _) = _ => destruct m as [[[[u v] w] z]|] end; [|discriminate].
  cbn [bind] in H. inversion H. reflexivity.
Qed.

Lemma one_step : forall fn fit, fn (Fin 0) = (Fin 1, Fin 1) ->
  fitness_fit fn (Some (Fin (300 / 271))) None Density (Fin (1 / 1000)) (Fin 0) 1 = Ok fit -> fitted_param fit = Fin (29 / 271).
Proof.
  intros fn fit H0 H. unfold fitness_fit in H. cbn [arr_len length Nat.eqb guard] in H.
  assert (AN : any_neg [Fin 0] = false) by (unfold any_neg; cbn; destruct (Rltb_spec 0 0); [lra | reflexivity]).
  rewrite AN in H. cbn [negb guard nth] in H. unfold monotonic_newton_solver, solver_init in H. rewrite H0 in H.
  assert (EB : Rabs (1 + - (300 / 271)) = 29 / 271) by (rewrite Rabs_left; lra).
  unfold bracket in H. cbn [nadd nopp nabs ngtb nltb orb] in H. rewrite EB in H.
  unfold ngtb, nltb, nleb, ngeb, neqb in H.
  repeat match type of H with context [Rltb ?a ?b] => let h := fresh in destruct (Rltb_spec a b) as [h|h]; try (exfalso; lra); clear h end.
  assert (LE : nleb (Fin 0) (Fin 0) = true).
  { unfold nleb, nltb, neqb. destruct (Reqb_spec 0 0) as [_|]; [apply Bool.orb_true_r | lra]. }
  cbn [orb andb] in H. rewrite LE in H. cbn [bind solver_loop] in H.
  match type of H with context [mkS ?a1 ?a2 ?a3 ?a4 ?a5 ?a6 ?a7 ?a8 ?a9 ?b0 ?b1 ?b2 ?b3 ?b4] =>
    set (s0 := mkS a1 a2 a3 a4 a5 a6 a7 a8 a9 b0 b1 b2 b3 b4) in H end.
  assert (NX : next_x (Fin (1 / 1000)) s0 = Fin (29 / 271)).
  { unfold next_x, s0. cbn [s_x s_f s_fp s_xu s_xl s_fu s_fl]. unfold is0, neqb. destruct (Reqb_spec 1 0) as [|_]; [lra|].
    cbn [negb nopp ndiv]. destruct (Reqb_spec 1 0) as [|_]; [lra|]. cbn [nadd].
    replace (0 + - (1 + - (300 / 271)) / 1) with (29 / 271) by field.
    unfold ngeb, nleb, nltb, neqb. destruct (Rltb_spec (29 / 271) 0) as [|_]; [lra|]. destruct (Reqb_spec (29 / 271) 0) as [|_]; [lra|]. reflexivity. }
  assert (CB : nltb (nadd (Fin (1 / 1000)) (nmul (Fin 0) (Fin (300 / 271)))) (s_norm s0) && nltb (Fin 0) (s_diff s0) = true).
  { unfold s0. cbn [s_norm s_diff nadd nmul nltb].
    destruct (Rltb_spec (1 / 1000 + 0 * (300 / 271)) (29 / 271)) as [_|]; [|lra]. destruct (Rltb_spec 0 1) as [_|]; [reflexivity | lra]. }
  unfold ngtb in H. rewrite CB in H. clearbody s0.
  destruct (solver_step fn (Fin (300 / 271)) (Fin (1 / 1000)) s0) as [s1|] eqn:ES; [|discriminate].
  apply step_point in ES. cbn [bind] in H. unfold finish, make_solution in H.
  destruct (rev (s_nseq s1)); [discriminate|]. destruct (rev (s_dseq s1)); [discriminate|]. cbn [bind] in H.
  inversion H. cbn [fitted_param sol_x]. rewrite ES. exact NX.
Qed.

(** The target 300/271 is reached at t = - ln (9/10) < 0.1054; the first iterate from 0 is 29/271 > 0.107. *)
Theorem C80_below_solution_refuted : exists x y N g adj sl T t fit j v,
  setting (Fin 1) x y N g adj sl /\ 0 < t /\
  cond_f_jac (Fin t) (F x) (F y) N g adj sl = Ok (Fin T, Fin j) /\
  cond_fit (F x) (F y) N g adj sl (Some (Fin T)) None Density (Fin (1 / 1000)) (Fin 0) 1 = Ok fit /\
  fitted_param fit = Fin v /\ t < v.
Proof.
  set (t := - ln (9 / 10)).
  assert (L : ln (9 / 10) < 0) by (rewrite <- ln_1; apply ln_increasing; lra).
  assert (E1 : exp (- (t * 1)) = 9 / 10) by (unfold t; rewrite Rmult_1_r, Ropp_involutive; apply exp_ln; lra).
  assert (E3 : exp (- (t * 3)) = 729 / 1000).
  { replace (- (t * 3)) with (- (t * 1) + (- (t * 1) + - (t * 1))) by ring. rewrite !exp_plus, E1. field. }
  assert (Ht : 0 < t) by (unfold t; lra).
  assert (Hs : / 10 ^ 12 <= 1 - exp (- (t * 3))).
  { rewrite E3. assert (10 <= 10 ^ 12) by (rewrite <- (pow_1 10) at 1; apply Rle_pow; [lra | lia]).
    assert (/ 10 ^ 12 <= / 10) by (apply Rinv_le_contravar; lra). lra. }
  assert (Hv : t < 29 / 271).
  { apply Rnot_le_lt. intros C. pose proof (expm_le (29 / 271) t C) as P.
    rewrite Rmult_1_r in E1. rewrite E1 in P. pose proof (one_minus_exp_ge (29 / 271) ltac:(lra)). lra. }
  assert (ET : 3 * ratio 1 3 t = 300 / 271) by (unfold ratio; rewrite E1, E3; field).
  pose proof (star_value t Ht Hs) as V. rewrite ET in V.
  destruct (C80_total (fun _ => 1) (fun _ => 1) 4 star_groups star_adj false (300 / 271) (1 / 1000) 0 1 None (Fin 0) star_setting)
    as (fit & HF & _ & _); try lra; [| left; reflexivity | simpl; lra |].
  { assert (num_macro 4 star_groups star_adj = 1) by (unfold num_macro; change (num_groups 4 star_groups) with 2%nat; cbn; ring).
    assert (num_available 4 false star_groups star_adj (fun _ => 1) (fun _ => 1) = 3).
    { unfold num_available, pair_sum. rewrite Rmult_1_l. destruct (Rltb_spec 0 1); [|lra]. cbn. ring. }
    lra. }
  unfold cond_fit in HF. rewrite star_zero in HF. cbn [bind] in HF.
  match type of HF with fitness_fit ?u _ _ _ _ _ _ = _ => set (fn := u) in HF end.
  assert (F0 : fn (Fin 0) = (Fin 1, Fin 1)) by (unfold fn; rewrite star_zero; reflexivity).
  pose proof (one_step fn fit F0 HF) as EP.
  exists (fun _ => 1), (fun _ => 1), 4%nat, star_groups, star_adj, false, (300 / 271), t, fit, (3 * ratio' 1 3 t), (29 / 271).
  split; [exact star_setting|]. split; [exact Ht|]. split; [exact V|]. split; [|split; [exact EP | exact Hv]].
  unfold cond_fit. rewrite star_zero. cbn [bind]. exact HF.
Qed.
Print Assumptions C80_below_solution_refuted.
