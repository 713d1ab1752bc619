(** Properties C25, C26, C30, C31, C49: fitting the density of the library's models.
    [library_fit fn M sl can] (FitLib.v): [fn] is the objective (value, Jacobian) of one of the four models with finite
    fitnesses, [M d] the model with parameter [d], [sl] the self-loop option, [can i j] whether the pair
    has positive fitness product (single label) or shares a label (multi label). *)
From Verif Require Import Base Num Spec Kernels KernelFacts MultiKernels MultiFacts Prob Ensemble EnsembleFacts
  EnsembleState Models ModelFacts Solver SolverFacts SolverConcave SolverFinite Fit FitFacts FitModels FitLib.
From Coq Require Import Ranalysis Sorting.Sorted.

(** ** Concrete data: two vertices with unit fitnesses, expected edges 2d/(1+d). *)
Definition two_fn (d : num) : num * num :=
  exp_edges_f_jac fit_p_jac d (finarr (fun _ => 1)) (finarr (fun _ => 1)) (finmat (fun _ _ => 1)) 2 false.
Definition two_at (d : R) : model := FitnessModel 2 (Fin d) (finarr (fun _ => 1)) (finarr (fun _ => 1)) (finmat (fun _ _ => 1)).

Lemma two_fit : library_fit two_fn two_at false (fun _ _ => Rltb 0 (1 * 1 * 1)).
Proof.
  apply (fit_fitness 2 false (fun _ => 1) (fun _ => 1) (fun _ _ => 1)); intros; lra.
Qed.

Lemma two_edges : forall d, 0 <= d -> m_edges (two_at d) false = 2 * (d / (1 + d)).
Proof.
  intros d Hd. unfold m_edges, two_at. cbn -[exp_edges fit_p_ij].
  rewrite (fit_exp_edges 2 false (fun _ => 1) (fun _ => 1) (fun _ _ => 1)) by (intros; lra).
  unfold pairs; simpl. replace (d * (1 * 1 * 1)) with d by ring. unfold logistic. ring.
Qed.

Lemma two_linkable : linkable 2 false (fun _ _ => Rltb 0 (1 * 1 * 1)) = 2.
Proof. unfold linkable, pair_sum. simpl. rewrite Rltb_true by lra. simpl. ring. Qed.

(** ** Two vertices, three labels, sharing label 1 in one direction only. *)
Definition lab_xs (i : nat) : svec := if Nat.eqb i 0 then [(0%nat, Fin 1); (1%nat, Fin 2)] else [(2%nat, Fin 1)].
Definition lab_ys (i : nat) : svec := if Nat.eqb i 0 then [(0%nat, Fin 1)] else [(1%nat, Fin 3)].

Lemma lab_ok : forall i, (i < 2)%nat ->
  canonical 3 (lab_xs i) /\ all_finite (lab_xs i) /\ canonical 3 (lab_ys i) /\ all_finite (lab_ys i).
Proof.
  intros i Hi. unfold canonical, all_finite.
  destruct i as [|[|i]]; [| |lia]; cbn; repeat split; repeat constructor; try (simpl; lia);
    try (eexists; split; [reflexivity|lra]).
Qed.

Lemma lab_fit : library_fit
  (fun d => exp_edges_f_jac (fun d x y (_ : unit) => mfit_p_jac d x y) d lab_xs lab_ys (fun _ _ => tt) 2 false)
  (fun d => MultiFitnessModel 2 (fun _ => Fin d) lab_xs lab_ys) false (fun i j => share 3 (lab_xs i) (lab_ys j)).
Proof. apply fit_multi_fitness. exact lab_ok. Qed.

Lemma lab_linkable : linkable 2 false (fun i j => share 3 (lab_xs i) (lab_ys j)) = 1.
Proof.
  unfold linkable, pair_sum, share, fval. simpl.
  rewrite (Rltb_false 0 0), !(Rltb_true 0 1), !(Rltb_true 0 2), !(Rltb_true 0 3) by lra. simpl. ring.
Qed.

(** * C25: the density objectives are increasing and concave; a start below the target approaches it
    from below by pure Newton steps (default start 0). *)

Theorem C25_density_objectives : forall fn M sl can, library_fit fn M sl can ->
  forall T at_ rho x0 mi, 0 < T < linkable (m_N (M 0)) sl can -> 0 <= at_ -> 0 <= rho ->
  0 <= x0 -> m_edges (M x0) sl < T ->
  exists f xs, fitness_fit fn (Some (Fin T)) (Some (Numeric [Fin x0])) Density (Fin at_) (Fin rho) mi = Ok f /\
    sol_x_seq (fitted_sol f) = map Fin xs /\ hd 0 xs = x0 /\ length xs = S (sol_n_iter (fitted_sol f)) /\
    fitted_param f = Fin (last xs 0) /\
    StronglySorted Rlt xs /\ Forall (fun d => x0 <= d /\ m_edges (M d) sl <= T) xs /\
    (forall k, (S k < length xs)%nat -> exists p j, fn (Fin (nth k xs 0)) = (Fin p, Fin j) /\ 0 < j /\
        nth (S k) xs 0 = nth k xs 0 + (T - p) / j).
Proof. exact lib_fit_from_below. Qed.
Print Assumptions C25_density_objectives.

(** The start 0 is always below a positive target. *)
Theorem C25_zero_start : forall fn M sl can, library_fit fn M sl can -> m_edges (M 0) sl = 0.
Proof. exact lib_fit_zero. Qed.
Print Assumptions C25_zero_start.

Example C25_density_case : library_fit two_fn two_at false (fun _ _ => Rltb 0 (1 * 1 * 1)) /\
  0 < 1 < linkable 2 false (fun _ _ => Rltb 0 (1 * 1 * 1)) /\ m_edges (two_at (1/2)) false < 1 /\
  0 < 1/2 < linkable 2 false (fun i j => share 3 (lab_xs i) (lab_ys j)).
Proof. split; [exact two_fit|]. rewrite two_linkable, two_edges, lab_linkable by lra. repeat split; lra. Qed.

(** * C26: density fitting terminates for every feasible target *)

Theorem C26_terminates : forall fn M sl can, library_fit fn M sl can ->
  forall T at_ rho x0, 0 <= T < linkable (m_N (M 0)) sl can -> 0 <= at_ -> 0 <= rho -> 0 < at_ + rho * T ->
  0 <= x0 -> (m_edges (M x0) sl <> T \/ 0 < at_) ->
  exists B, forall mi, (B <= mi)%nat ->
  exists f, fitness_fit fn (Some (Fin T)) (Some (Numeric [Fin x0])) Density (Fin at_) (Fin rho) mi = Ok f /\
    (sol_converged (fitted_sol f) = true \/ sol_no_change_stop (fitted_sol f) = true).
Proof. exact lib_fit_terminates. Qed.
Print Assumptions C26_terminates.

Example C26_case : library_fit two_fn two_at false (fun _ _ => Rltb 0 (1 * 1 * 1)) /\
  0 <= 3/2 < linkable 2 false (fun _ _ => Rltb 0 (1 * 1 * 1)) /\ m_edges (two_at 0) false <> 3/2.
Proof. split; [exact two_fit|]. rewrite two_linkable, two_edges by lra. repeat split; lra. Qed.

(** The one excluded configuration, a start exactly on the target with atol = 0, raises. *)
Theorem C26_exact_start_refuted : exists fn M sl can T rho x0,
  library_fit fn M sl can /\ 0 < T < linkable (m_N (M 0)) sl can /\ 0 < rho /\ 0 <= x0 /\
  forall mi, fitness_fit fn (Some (Fin T)) (Some (Numeric [Fin x0])) Density (Fin 0) (Fin rho) mi = Raise AssertionError.
Proof.
  exists two_fn, two_at, false, (fun _ _ => Rltb 0 (1 * 1 * 1)), 1, 1, 1.
  split; [exact two_fit|]. split; [change (m_N (two_at 0)) with 2%nat; rewrite two_linkable; lra|].
  split; [lra|]. split; [lra|]. intros mi.
  destruct (lib_fit_derivative _ _ _ _ two_fit 1 ltac:(lra)) as (e & g & E & E2 & Hd).
  rewrite two_edges in E2 by lra.
  assert (Hg : g = 1 / 2).
  { apply (uniqueness_limite (fun t => m_edges (two_at t) false) 1); [exact Hd|].
    apply (deriv_ext_loc (fun t => 2 * (t / (1 + t))) _ 1 (1/2) (1/2) ltac:(lra)).
    - intros t Ht. apply Rabs_def2 in Ht. symmetry. apply two_edges. lra.
    - replace (1 / 2) with (2 * ((1 * (1 + 1) - (0 + 1) * 1) / Rsqr (1 + 1))) by (unfold Rsqr; field).
      apply (derivable_pt_lim_scal (fun t => t / (1 + t))).
      apply (derivable_pt_lim_div (fun t => t) (fun t => 1 + t)).
      + apply derivable_pt_lim_id.
      + apply derivable_pt_lim_plus; [apply derivable_pt_lim_const|apply derivable_pt_lim_id].
      + lra. }
  subst g. unfold fitness_fit, monotonic_newton_solver, solver_init, bracket.
  cbn [arr_len length Nat.eqb guard any_neg existsb nth orb negb nltb].
  rewrite (Rltb_false 1 0) by lra. cbn [orb negb guard]. rewrite E. subst e. num_eval. reflexivity.
Qed.
Print Assumptions C26_exact_start_refuted.

(** * C30: summed Jacobian *)

Theorem C30_expected_edges : forall fn M sl can, library_fit fn M sl can -> forall d, 0 <= d ->
  exists e g, fn (Fin d) = (Fin e, Fin g) /\ m_edges (M d) sl = e /\
    derivable_pt_lim (fun t => m_edges (M t) sl) d g.
Proof. exact lib_fit_derivative. Qed.
Print Assumptions C30_expected_edges.

Example C30_expected_edges_case : library_fit two_fn two_at false (fun _ _ => Rltb 0 (1 * 1 * 1)) /\ m_edges (two_at 1) false = 1.
Proof. split; [exact two_fit|]. rewrite two_edges by lra. field. Qed.

(** * C31: expected edges are monotone in parameter and fitness *)

Theorem C31_expected_edges : forall N sl d d' (x x' y y' : nat -> num) (z z' : nat -> nat -> num),
  nonneg d -> nle d d' ->
  (forall i, (i < N)%nat -> nonneg (x i) /\ nle (x i) (x' i)) ->
  (forall i, (i < N)%nat -> nonneg (y i) /\ nle (y i) (y' i)) ->
  (forall i j, (i < N)%nat -> (j < N)%nat -> nonneg (z i j) /\ nle (z i j) (z' i j)) ->
  m_edges (FitnessModel N d x y z) sl <= m_edges (FitnessModel N d' x' y' z') sl /\
  m_edges (ScaleInvariantModel N d x y z) sl <= m_edges (ScaleInvariantModel N d' x' y' z') sl.
Proof.
  exact (fun N sl d d' x x' y y' z z' H1 H2 H3 H4 H5 => conj
    (exp_edges_mono fit_p_ij logistic fit_view logistic_range_spec logistic_mono d d' x x' y y' z z' N sl H1 H2 H3 H4 H5)
    (exp_edges_mono inv_p_ij poissonian inv_view poissonian_range_spec poissonian_mono d d' x x' y y' z z' N sl H1 H2 H3 H4 H5)).
Qed.
Print Assumptions C31_expected_edges.

Theorem C31_multi_probability : forall L d d' xs xs' ys ys',
  canonical L xs -> canonical L xs' -> canonical L ys -> canonical L ys' ->
  all_nonneg xs -> all_nonneg xs' -> all_nonneg ys -> all_nonneg ys' ->
  (forall k, (k < L)%nat -> nonneg (d k)) ->
  (forall k, (k < L)%nat -> nle (d k) (d' k) /\ nle (lookup k xs) (lookup k xs') /\ nle (lookup k ys) (lookup k ys')) ->
  toR (mfit_p_ij d xs ys) <= toR (mfit_p_ij d' xs' ys') /\
  toR (minv_p_ij d xs ys) <= toR (minv_p_ij d' xs' ys').
Proof. exact multi_mono. Qed.
Print Assumptions C31_multi_probability.

Theorem C31_multi_expected_edges : forall N L sl d d' (xs xs' ys ys' : nat -> svec),
  (forall k, (k < L)%nat -> nonneg (d k)) ->
  (forall i, (i < N)%nat -> canonical L (xs i) /\ all_nonneg (xs i) /\ canonical L (ys i) /\ all_nonneg (ys i)) ->
  (forall i, (i < N)%nat -> canonical L (xs' i) /\ all_nonneg (xs' i) /\ canonical L (ys' i) /\ all_nonneg (ys' i)) ->
  (forall i, (i < N)%nat -> forall k, (k < L)%nat ->
     nle (d k) (d' k) /\ nle (lookup k (xs i)) (lookup k (xs' i)) /\ nle (lookup k (ys i)) (lookup k (ys' i))) ->
  m_edges (MultiFitnessModel N d xs ys) sl <= m_edges (MultiFitnessModel N d' xs' ys') sl /\
  m_edges (MultiInvariantModel N d xs ys) sl <= m_edges (MultiInvariantModel N d' xs' ys') sl.
Proof. exact multi_edges_mono. Qed.
Print Assumptions C31_multi_expected_edges.

Example C31_expected_edges_case : nle (Fin 1) (Fin 3) /\ m_edges (two_at 1) false = 1 /\ m_edges (two_at 3) false = 3/2 /\
  (forall i k, (i < 2)%nat -> (k < 3)%nat -> nle (lookup k (lab_xs i)) (lookup k (lab_xs i))).
Proof.
  rewrite !two_edges by lra. repeat split; try (simpl; lra).
  intros i k Hi Hk. unfold lab_xs. destruct (Nat.eqb i 0), k as [|[|[|k]]]; simpl; lra.
Qed.

(** * C49: a converged fit matches the target density *)

(** With a positive absolute tolerance the fit never raises; the reported convergence is equivalent to the
    expected number of edges of the model with the fitted parameter being within tolerance. *)
Theorem C49_converged : forall fn M sl can, library_fit fn M sl can ->
  forall T at_ rho x0 mi, 0 <= T -> 0 < at_ -> 0 <= rho -> 0 <= x0 ->
  exists f d, fitness_fit fn (Some (Fin T)) (Some (Numeric [Fin x0])) Density (Fin at_) (Fin rho) mi = Ok f /\
    fitted_param f = Fin d /\ 0 <= d /\
    (sol_converged (fitted_sol f) = true <-> Rabs (m_edges (M d) sl - T) <= at_ + rho * T) /\
    fitted_warned f = negb (sol_converged (fitted_sol f)) /\
    (sol_n_iter (fitted_sol f) <= mi)%nat.
Proof. exact lib_fit_total. Qed.
Print Assumptions C49_converged.

(** The same for the multi-label models: all labels get the same parameter. *)
Theorem C49_multi_converged : forall fn M sl can, library_fit fn M sl can ->
  forall L layer T at_ rho x0 rest mi, 0 <= T -> 0 < at_ -> 0 <= rho -> 0 <= x0 ->
  length (x0 :: rest) = L -> Forall (fun x => 0 <= x) rest ->
  exists sol d, multi_fit L false fn layer (Some (Fin T)) None (Some (Numeric (map Fin (x0 :: rest)))) Density
      (Fin at_) (Fin rho) mi = Ok (repeat (Fin d) L, [sol]) /\ 0 <= d /\
    (sol_converged sol = true <-> Rabs (m_edges (M d) sl - T) <= at_ + rho * T).
Proof. exact lib_multi_fit_total. Qed.
Print Assumptions C49_multi_converged.

(** No model can be fitted beyond its number of linkable pairs. *)
Theorem C49_feasible_range : forall fn M sl can, library_fit fn M sl can -> forall d, 0 <= d ->
  0 <= m_edges (M d) sl <= linkable (m_N (M 0)) sl can.
Proof. exact lib_fit_range. Qed.
Print Assumptions C49_feasible_range.

Example C49_case : library_fit two_fn two_at false (fun _ _ => Rltb 0 (1 * 1 * 1)) /\
  (exists sol, monotonic_newton_solver two_fn (Fin 1) (Fin 1) (Fin (1/10)) (Fin 0) 5 (Fin 0) PInf None None = Ok sol /\
     sol_converged sol = true) /\
  m_edges (two_at 1) false = 1.
Proof.
  split; [exact two_fit|]. split; [|rewrite two_edges by lra; field].
  destruct (lib_fit_derivative _ _ _ _ two_fit 1 ltac:(lra)) as (e & g & E & E2 & _).
  rewrite two_edges in E2 by lra.
  destruct (exact_start two_fn (Fin 1) 1 (1/10) 0 5 (Fin 0) PInf (Fin g)) as (sol & Es & _ & _ & _ & C); try (simpl; lra).
  - rewrite E. subst e. do 2 f_equal. field.
  - exists sol. auto.
Qed.

(** Started at an infinite parameter the multi-label scale-invariant fit reports convergence although
    no link is possible: two vertices without common labels, target 2. *)
Definition apart_xs (i : nat) : svec := [(0%nat, Fin 1)].
Definition apart_ys (i : nat) : svec := [(1%nat, Fin 1)].
Theorem C49_infinite_start_refuted : exists fn N L xs ys T at_ rho mi f,
  fn = (fun d => exp_edges_f_jac (fun d x y (_ : unit) => minv_p_jac d x y) d xs ys (fun _ _ => tt) N false) /\
  (forall i, (i < N)%nat -> canonical L (xs i) /\ all_finite (xs i) /\ canonical L (ys i) /\ all_finite (ys i)) /\
  0 < at_ /\ at_ + rho * T < 1 /\
  fitness_fit fn (Some (Fin T)) (Some (Numeric [PInf])) Density (Fin at_) (Fin rho) mi = Ok f /\
  sol_converged (fitted_sol f) = true /\
  m_edges (MultiInvariantModel N (fun _ => fitted_param f) xs ys) false = T - 2.
Proof.
  eexists. exists 2%nat, 2%nat, apart_xs, apart_ys, 2, (1/10), 0, 5%nat.
  eexists. split; [reflexivity|]. split; [|split; [lra|split; [lra|]]].
  - intros i Hi. unfold canonical, all_finite, apart_xs, apart_ys. repeat split; repeat constructor; simpl; try lia;
      eexists; split; try reflexivity; lra.
  - split; [|split].
    + unfold fitness_fit, monotonic_newton_solver, solver_init. num_eval. reflexivity.
    + cbn [fitted_sol sol_converged]. num_eval. reflexivity.
    + unfold m_edges. cbn -[minv_p_ij toR]. unfold minv_p_ij. num_eval. rewrite Ropp_0, exp_0. lra.
Qed.
Print Assumptions C49_infinite_start_refuted.
