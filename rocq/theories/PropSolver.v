(** Properties C23-C25 and C27: the root finder.  [fn x] is the pair (value, derivative) of the objective. *)
From Verif Require Import Base Num Spec KernelFacts Solver SolverFacts SolverConcave SolverFinite SolverFlat.

(** * C23: the root finder stays inside its bracket *)

(** Objective non-decreasing on the initial bracket, with the target reached inside it. *)
Theorem C23_iterates_inside : forall (fn : num -> num * num) T a rho xl xu (F D : num -> R),
  (forall x, nle xl x -> nle x xu -> fn x = (Fin (F x), Fin (D x)) /\ 0 <= D x) ->
  (forall x y, nle xl x -> nle x y -> nle y xu -> F x <= F y) ->
  F xl <= T <= F xu -> 0 < a -> 0 <= a + rho * T ->
  forall x0 max_iter, nle xl x0 -> nle x0 xu ->
  exists sol, monotonic_newton_solver fn x0 (Fin T) (Fin a) (Fin rho) max_iter xl xu None None = Ok sol /\
    Forall (fun x => nle xl x /\ nle x xu) (sol_x_seq sol).
Proof. exact bracket_safe. Qed.
Print Assumptions C23_iterates_inside.

(** Every state of the loop has lower bound <= point <= upper bound, inside the initial bounds, and the
    next pass neither raises, nor moves a bound outwards, nor makes the bounds cross. *)
Theorem C23_brackets_nest : forall (fn : num -> num * num) T a rho xl xu (F D : num -> R),
  (forall x, nle xl x -> nle x xu -> fn x = (Fin (F x), Fin (D x)) /\ 0 <= D x) ->
  (forall x y, nle xl x -> nle x y -> nle y xu -> F x <= F y) ->
  F xl <= T <= F xu -> 0 < a -> 0 <= a + rho * T ->
  forall x0 s0, nle xl x0 -> nle x0 xu ->
  solver_init fn x0 (Fin T) (Fin a) xl xu None None = Ok (inr s0) ->
  forall s, visited fn T a rho s0 s ->
  nle xl (s_xl s) /\ nle (s_xl s) (s_x s) /\ nle (s_x s) (s_xu s) /\ nle (s_xu s) xu /\
  (ngtb (s_norm s) (nadd (Fin a) (nmul (Fin rho) (Fin T))) && ngtb (s_diff s) (Fin rho) = true ->
   exists s', solver_step fn (Fin T) (Fin a) s = Ok s' /\
     nle (s_xl s) (s_xl s') /\ nle (s_xl s') (s_xu s') /\ nle (s_xu s') (s_xu s)).
Proof. exact visited_bracket. Qed.
Print Assumptions C23_brackets_nest.

(** A straight line on [0, 5]. *)
Definition line (x : num) : num * num := (Fin (toR x), Fin 1).

Lemma line_hyps :
  (forall x, nle (Fin 0) x -> nle x (Fin 5) -> line x = (Fin (toR x), Fin 1) /\ 0 <= 1) /\
  (forall x y, nle (Fin 0) x -> nle x y -> nle y (Fin 5) -> toR x <= toR y).
Proof.
  split.
  - intros x _ _. split; [reflexivity|lra].
  - intros [x| | |] [y| | |] H1 H2 H3; simpl in *; try contradiction; lra.
Qed.

(** The run on the line: 1, then 3. *)
Lemma line_run : exists sol,
  monotonic_newton_solver line (Fin 1) (Fin 3) (Fin (1/2)) (Fin 0) 10 (Fin 0) (Fin 5) None None = Ok sol /\
  sol_x_seq sol = [Fin 1; Fin 3] /\ sol_max_iter_reached sol = false /\ sol_converged sol = true.
Proof.
  eexists. split.
  { eapply run_solver.
    - unfold solver_init, bracket. num_eval. reflexivity.
    - eapply loop_go; [num_eval; reflexivity| |].
      + unfold solver_step, next_x, bracket. num_eval.
        replace (1 + - (1 + - (3)) / 1) with 3 by field. num_eval. reflexivity.
      + apply loop_stop. num_eval. reflexivity.
    - reflexivity. }
  cbn [sol_x_seq sol_max_iter_reached sol_converged]. num_eval. auto.
Qed.

Example C23_case : 0 <= 3 <= 5 /\ nle (Fin 0) (Fin 1) /\ nle (Fin 1) (Fin 5) /\ exists sol,
  monotonic_newton_solver line (Fin 1) (Fin 3) (Fin (1/2)) (Fin 0) 10 (Fin 0) (Fin 5) None None = Ok sol /\
  sol_x_seq sol = [Fin 1; Fin 3].
Proof.
  destruct line_run as (sol & E & X & _). repeat split; try (simpl; lra). exists sol. auto.
Qed.

(** An upper bound at which the objective is flat is left at the next iteration: it is never visited twice in
    a row, and no exception is raised.  (At a flat point the solver can only learn the sign of the objective by
    recording it in f_u.)  The objective need not be monotonic between the bounds. *)
Theorem C23_leaves_flat_bound : forall (fn : num -> num * num) (F D : R -> R) l u T a rho x0 max_iter,
  (forall x, l <= x <= u -> fn (Fin x) = (Fin (F x), Fin (D x))) ->
  (forall x, l <= x < u -> 0 < D x) -> D u = 0 ->
  F l < T < F u -> 0 < a -> l <= x0 < u ->
  exists sol,
    monotonic_newton_solver fn (Fin x0) (Fin T) (Fin a) (Fin rho) max_iter (Fin l) (Fin u) None None = Ok sol /\
    forall i, nth_error (sol_x_seq sol) i = Some (Fin u) -> nth_error (sol_x_seq sol) (S i) <> Some (Fin u).
Proof. intros fn F D l u T a rho x0 mi H1 H2 H3 [H4 H5] H6 H7. exact (flat_bound_left fn F D l u T a rho H1 H2 H3 H4 H5 H6 x0 mi H7). Qed.
Print Assumptions C23_leaves_flat_bound.

(** 3 x^2 - 2 x^3 between 1/10 and 1, which is flat at 1: from 1/10 the first Newton step overshoots, the bound
    is tried, and the second iteration is the secant point 49/54. *)
Definition step_fn (x : num) : num * num :=
  match x with
  | Fin v => (Fin (3 * (v * v) - 2 * (v * v * v)), Fin (6 * (v * (1 - v))))
  | _ => (NaN, NaN)
  end.

Example C23_leaves_flat_bound_case :
  (forall x, 1/10 <= x < 1 -> 0 < 6 * (x * (1 - x))) /\ 6 * (1 * (1 - 1)) = 0 /\
  3 * (1/10 * (1/10)) - 2 * (1/10 * (1/10) * (1/10)) < 9/10 < 3 * (1 * 1) - 2 * (1 * 1 * 1) /\
  exists sol y, monotonic_newton_solver step_fn (Fin (1/10)) (Fin (9/10)) (Fin (1/20)) (Fin 0) 2 (Fin (1/10)) (Fin 1) None None = Ok sol /\
    sol_x_seq sol = [Fin (1/10); Fin 1; Fin y] /\ 1/10 < y < 1.
Proof.
  split; [intros x H; nra|]. split; [lra|]. split; [lra|]. eexists. eexists. split; [|split].
  - eapply run_solver.
    + unfold solver_init, bracket. num_eval. reflexivity.
    + eapply loop_go; [num_eval; reflexivity| |].
      { unfold solver_step, next_x, bracket. num_eval. reflexivity. }
      eapply loop_go; [num_eval; reflexivity| |].
      { unfold solver_step, next_x, bracket. num_eval.
        replace (1 + - ((3 * (1 * 1) - 2 * (1 * 1 * 1) + - (9 / 10)) * (1 + - (1 / 10)) /
          (3 * (1 * 1) - 2 * (1 * 1 * 1) + - (9 / 10) + - (3 * (1 / 10 * (1 / 10)) - 2 * (1 / 10 * (1 / 10) * (1 / 10)) + - (9 / 10)))))
          with (49/54) by field. num_eval. reflexivity. }
      reflexivity.
    + reflexivity.
  - reflexivity.
  - lra.
Qed.

(** Without the assumption that the target is reached inside the bounds the property fails: with
    F(x) = min(x,1), bounds [0,2] and target 3 the secant fallback leaves the bracket. *)
Definition capped (x : num) : num * num :=
  match x with
  | Fin v => if Rltb v 1 then (Fin v, Fin 1) else (Fin 1, Fin 0)
  | _ => (Fin 1, Fin 0)
  end.

Theorem C23_refuted : exists (fn : num -> num * num) (F D : num -> R) T a rho xl xu x0 max_iter sol,
  (forall x, nle xl x -> nle x xu -> fn x = (Fin (F x), Fin (D x)) /\ 0 <= D x) /\
  (forall x y, nle xl x -> nle x y -> nle y xu -> F x <= F y) /\
  0 < a /\ 0 <= a + rho * T /\ nle xl x0 /\ nle x0 xu /\
  monotonic_newton_solver fn x0 (Fin T) (Fin a) (Fin rho) max_iter xl xu None None = Ok sol /\
  exists x, In x (sol_x_seq sol) /\ ~ nle x xu.
Proof.
  exists capped, (fun x => toR (fst (capped x))), (fun x => toR (snd (capped x))), 3, (1/2), 0, (Fin 0), (Fin 2), (Fin 0), 2%nat.
  eexists. repeat split; try lra.
  - destruct x as [v| | |]; simpl; try reflexivity. destruct (Rltb v 1); reflexivity.
  - destruct x as [v| | |]; simpl; try lra. destruct (Rltb v 1); simpl; lra.
  - intros [v| | |] [w| | |] H1 H2 H3; simpl in *; try contradiction; try lra.
    destruct (Rltb_spec v 1), (Rltb_spec w 1); simpl; lra.
  - simpl; lra.
  - simpl; lra.
  - eapply run_solver.
    + unfold solver_init, bracket. num_eval. reflexivity.
    + eapply loop_go; [num_eval; reflexivity| |].
      { unfold solver_step, next_x, bracket. num_eval. reflexivity. }
      eapply loop_go; [num_eval; reflexivity| |].
      { unfold solver_step, next_x, bracket. num_eval.
        replace (2 + - ((1 + - (3)) * (2 + - 0) / (1 + - (3) + - (0 + - (3))))) with 6 by field. num_eval. reflexivity. }
      reflexivity.
    + reflexivity.
  - cbn [sol_x_seq]. eexists; split; [right; right; left; reflexivity|]. simpl; lra.
Qed.
Print Assumptions C23_refuted.

(** * C24: the solver's report is truthful *)

(** [f x] is the objective minus the target.  The last clause says why the loop ended early: the start
    was within atol, the tolerance was met, or the relative change fell to rtol. *)
Theorem C24_report : forall (fn : num -> num * num) target atol rtol x0 max_iter xl xu fl fu sol,
  let f x := nsub (fst (fn x)) target in
  let tol := nadd atol (nmul rtol target) in
  monotonic_newton_solver fn x0 target atol rtol max_iter xl xu fl fu = Ok sol ->
  (sol_n_iter sol <= max_iter)%nat /\
  sol_max_iter_reached sol = Nat.eqb (sol_n_iter sol) max_iter /\
  sol_converged sol = nleb (nabs (f (sol_x sol))) tol /\
  sol_no_change_stop sol = nleb (last (sol_diff_seq sol) NaN) rtol /\
  sol_f_seq sol = map f (sol_x_seq sol) /\
  sol_norm_seq sol = map nabs (sol_f_seq sol) /\
  length (sol_x_seq sol) = S (sol_n_iter sol) /\
  length (sol_diff_seq sol) = S (sol_n_iter sol) /\
  hd NaN (sol_x_seq sol) = x0 /\ last (sol_x_seq sol) NaN = sol_x sol /\
  ((sol_n_iter sol < max_iter)%nat ->
     nltb (nabs (f (sol_x sol))) atol = true \/
     ngtb (nabs (f (sol_x sol))) tol = false \/
     ngtb (last (sol_diff_seq sol) NaN) rtol = false).
Proof. exact report_truthful. Qed.
Print Assumptions C24_report.

(** A run stopped by the iteration limit and one that converges. *)
Example C24_case : exists s1 s2,
  monotonic_newton_solver line (Fin 1) (Fin 3) (Fin (1/2)) (Fin 0) 0 (Fin 0) (Fin 5) None None = Ok s1 /\
  sol_max_iter_reached s1 = true /\ sol_converged s1 = false /\
  monotonic_newton_solver line (Fin 1) (Fin 3) (Fin (1/2)) (Fin 0) 10 (Fin 0) (Fin 5) None None = Ok s2 /\
  sol_max_iter_reached s2 = false /\ sol_converged s2 = true.
Proof.
  destruct line_run as (s2 & E2 & _ & A & B). eexists. exists s2. repeat split; try assumption.
  - eapply run_solver; [unfold solver_init, bracket; num_eval; reflexivity|reflexivity|reflexivity].
  - reflexivity.
  - cbn [sol_converged]. num_eval. reflexivity.
Qed.

(** * C25: approach from below on concave increasing objectives (the density objectives are in PropFit.v) *)

(** [F] has derivative bound [D > 0] and lies below its tangents on [l, inf); [r] is the root.  The
    recorded points are exactly Newton's iterates (so the bracketing fallback is never taken). *)
Theorem C25_from_below : forall (fn : num -> num * num) T a rho l r (F D : R -> R),
  (forall x, l <= x -> fn (Fin x) = (Fin (F x), Fin (D x))) ->
  (forall x, l <= x -> 0 < D x) ->
  (forall x y, l <= x -> l <= y -> F y <= F x + D x * (y - x)) ->
  l <= r -> F r = T -> 0 <= a -> 0 <= rho * T ->
  let newton x := x - (F x - T) / D x in
  forall x0 xu max_iter, l <= x0 -> F x0 < T -> nltb (Fin r) xu = true ->
  exists sol,
    monotonic_newton_solver fn (Fin x0) (Fin T) (Fin a) (Fin rho) max_iter (Fin l) xu None None = Ok sol /\
    sol_x_seq sol = map (fun k => Fin (Nat.iter k newton x0)) (seq 0 (S (sol_n_iter sol))) /\
    (forall k, (k <= sol_n_iter sol)%nat -> l <= Nat.iter k newton x0 <= r) /\
    (forall k, (k < sol_n_iter sol)%nat -> Nat.iter k newton x0 < Nat.iter (S k) newton x0) /\
    (0 < a + rho * T -> (r - x0) * D x0 < INR max_iter * (a + rho * T) ->
       sol_converged sol = true \/ sol_no_change_stop sol = true).
Proof. exact concave_from_below. Qed.
Print Assumptions C25_from_below.

Definition hyperbola (x : num) : num * num := (Fin (toR x / (1 + toR x)), Fin (1 / ((1 + toR x) * (1 + toR x)))).

Example C25_case :
  (forall x, 0 <= x -> 0 < 1 / ((1 + x) * (1 + x))) /\
  (forall x y, 0 <= x -> 0 <= y -> y / (1 + y) <= x / (1 + x) + 1 / ((1 + x) * (1 + x)) * (y - x)) /\
  1 / (1 + 1) = 1 / 2 /\ 0 / (1 + 0) < 1 / 2 /\
  exists sol, monotonic_newton_solver hyperbola (Fin 0) (Fin (1/2)) (Fin (1/100)) (Fin 0) 60 (Fin 0) PInf None None = Ok sol.
Proof.
  assert (H1 : forall x, 0 <= x -> 0 < 1 / ((1 + x) * (1 + x))) by (intros x Hx; apply Rdiv_lt_0_compat; nra).
  assert (H2 : forall x y, 0 <= x -> 0 <= y -> y / (1 + y) <= x / (1 + x) + 1 / ((1 + x) * (1 + x)) * (y - x)).
  { intros x y Hx Hy.
    assert (E : x / (1 + x) + 1 / ((1 + x) * (1 + x)) * (y - x) - y / (1 + y)
            = (y - x) * (y - x) / ((1 + x) * (1 + x) * (1 + y))) by (field; lra).
    assert (0 <= (y - x) * (y - x) / ((1 + x) * (1 + x) * (1 + y))).
    { apply Rmult_le_pos; [exact (Rle_0_sqr (y - x))|]. apply Rlt_le, Rinv_0_lt_compat. apply Rmult_lt_0_compat; nra. }
    lra. }
  repeat split; try assumption; try lra.
  destruct (C25_from_below hyperbola (1/2) (1/100) 0 0 1 (fun x => x / (1 + x)) (fun x => 1 / ((1 + x) * (1 + x))))
    with (x0 := 0) (xu := PInf) (max_iter := 60%nat) as (sol & E & _); try lra; try assumption; try reflexivity.
  exists sol. exact E.
Qed.

(** * C27: invalid or exact starting points *)

Theorem C27_outside : forall fn x0 target atol rtol max_iter xl xu fl fu,
  ngtb x0 xu = true \/ nltb x0 xl = true ->
  monotonic_newton_solver fn x0 target atol rtol max_iter xl xu fl fu = Raise ValueError.
Proof. exact start_outside. Qed.
Print Assumptions C27_outside.

Example C27_outside_case : ngtb (Fin 7) (Fin 5) = true /\ nltb (Fin (-1)) (Fin 0) = true.
Proof. split; num_eval; reflexivity. Qed.

(** An exact start is returned at once when the absolute tolerance is positive.  The full property
    also asks for this with atol = 0, which fails, see [C27_exact_refuted]. *)
Theorem C27_exact_partial : forall fn x0 T a rho max_iter xl xu fp,
  fn x0 = (Fin T, fp) -> nle xl x0 -> nle x0 xu -> 0 < a -> 0 <= a + rho * T ->
  exists sol, monotonic_newton_solver fn x0 (Fin T) (Fin a) (Fin rho) max_iter xl xu None None = Ok sol /\
    sol_x sol = x0 /\ sol_n_iter sol = O /\ sol_x_seq sol = [x0] /\ sol_converged sol = true.
Proof. exact exact_start. Qed.
Print Assumptions C27_exact_partial.

Example C27_exact_case : line (Fin 3) = (Fin 3, Fin 1) /\ nle (Fin 0) (Fin 3) /\ nle (Fin 3) PInf.
Proof. simpl. repeat split. lra. Qed.

(** With atol = 0 the library raises AssertionError when started exactly at the root. *)
Theorem C27_exact_refuted : exists (fn : num -> num * num) (F D : R -> R) x0 T rho max_iter,
  (forall x, 0 <= x -> fn (Fin x) = (Fin (F x), Fin (D x)) /\ 0 < D x) /\
  0 <= x0 /\ F x0 = T /\ 0 < rho * T /\
  monotonic_newton_solver fn (Fin x0) (Fin T) (Fin 0) (Fin rho) max_iter (Fin 0) PInf None None = Raise AssertionError.
Proof.
  exists (fun x => (Fin (toR x), Fin 1)), (fun x => x), (fun _ => 1), 2, 2, 1, 10%nat.
  repeat split; try lra. unfold monotonic_newton_solver, solver_init, bracket. num_eval. reflexivity.
Qed.
Print Assumptions C27_exact_refuted.
