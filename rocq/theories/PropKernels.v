(** Properties C28-C35 and C51: connection probabilities. *)
From Verif Require Import Base Num Spec Kernels KernelFacts MultiKernels MultiFacts.
From Coq Require Import Ranalysis.

(** * C28: connection probabilities are probabilities *)

Theorem C28_fitness_probability : forall d x y z,
  nonneg d -> nonneg x -> nonneg y -> nonneg z ->
  exists p, fit_p_ij d x y z = Fin p /\ 0 <= p <= 1 /\
    (p = 0 <-> some_zero [d; x; y; z]) /\
    (p = 1 <-> some_inf [d; x; y; z] /\ ~ some_zero [d; x; y; z]).
Proof. exact (view_probability fit_p_ij logistic fit_view logistic_range_spec). Qed.
Print Assumptions C28_fitness_probability.

Theorem C28_invariant_probability : forall d x y z,
  nonneg d -> nonneg x -> nonneg y -> nonneg z ->
  exists p, inv_p_ij d x y z = Fin p /\ 0 <= p <= 1 /\
    (p = 0 <-> some_zero [d; x; y; z]) /\
    (p = 1 <-> some_inf [d; x; y; z] /\ ~ some_zero [d; x; y; z]).
Proof. exact (view_probability inv_p_ij poissonian inv_view poissonian_range_spec). Qed.
Print Assumptions C28_invariant_probability.

(** The value itself: t/(1+t) and 1-exp(-t) of the product of the factors. *)
Theorem C28_fitness_value : forall d x y z,
  nonneg d -> nonneg x -> nonneg y -> nonneg z ->
  fit_p_ij d x y z = Fin (link_prob logistic [d; x; y; z]).
Proof. exact (view_link_prob fit_p_ij logistic fit_view). Qed.
Print Assumptions C28_fitness_value.

Theorem C28_invariant_value : forall d x y z,
  nonneg d -> nonneg x -> nonneg y -> nonneg z ->
  inv_p_ij d x y z = Fin (link_prob poissonian [d; x; y; z]).
Proof. exact (view_link_prob inv_p_ij poissonian inv_view). Qed.
Print Assumptions C28_invariant_value.

Example C28_case_finite : nonneg (Fin 2) /\ nonneg (Fin 1) /\ nonneg (Fin 3) /\
  fit_p_ij (Fin 2) (Fin 1) (Fin 3) (Fin 1) = Fin (6 / 7).
Proof.
  repeat split; simpl; try lra. rewrite fit_p_ij_fin by lra. unfold logistic. f_equal. field.
Qed.
Example C28_case_infinite : nonneg PInf /\ fit_p_ij PInf (Fin 1) (Fin 3) (Fin 1) = Fin 1 /\
  inv_p_ij PInf (Fin 1) (Fin 3) (Fin 1) = Fin 1 /\ fit_p_ij PInf (Fin 0) (Fin 3) (Fin 1) = Fin 0.
Proof.
  repeat split; try exact I.
  - apply (proj2 (proj2 fit_view)); simpl; try lra. left; reflexivity.
  - apply (proj2 (proj2 inv_view)); simpl; try lra. left; reflexivity.
  - apply (proj1 fit_view); simpl; try lra. right; left; reflexivity.
Qed.

(** * C29: log-probabilities match probabilities *)

Theorem C29_fitness_logs : forall d x y z, nonneg d -> nonneg x -> nonneg y -> nonneg z ->
  log_of (link_prob logistic [d; x; y; z]) (fit_logp d x y z) /\
  log_of (1 - link_prob logistic [d; x; y; z]) (fit_log1mp d x y z).
Proof.
  exact (fun d x y z Hd Hx Hy Hz =>
    let E := view_link_prob fit_p_ij logistic fit_view d x y z Hd Hx Hy Hz in
    conj (eq_ind _ (fun v => log_of (toR v) (fit_logp d x y z)) (fit_logp_spec d x y z Hd Hx Hy Hz) _ E)
         (eq_ind _ (fun v => log_of (1 - toR v) (fit_log1mp d x y z)) (fit_log1mp_spec d x y z Hd Hx Hy Hz) _ E)).
Qed.
Print Assumptions C29_fitness_logs.

Theorem C29_invariant_logs : forall d x y z, nonneg d -> nonneg x -> nonneg y -> nonneg z ->
  log_of (link_prob poissonian [d; x; y; z]) (inv_logp d x y z) /\
  log_of (1 - link_prob poissonian [d; x; y; z]) (inv_log1mp d x y z).
Proof.
  exact (fun d x y z Hd Hx Hy Hz =>
    let E := view_link_prob inv_p_ij poissonian inv_view d x y z Hd Hx Hy Hz in
    conj (eq_ind _ (fun v => log_of (toR v) (inv_logp d x y z)) (inv_logp_spec d x y z Hd Hx Hy Hz) _ E)
         (eq_ind _ (fun v => log_of (1 - toR v) (inv_log1mp d x y z)) (inv_log1mp_spec d x y z Hd Hx Hy Hz) _ E)).
Qed.
Print Assumptions C29_invariant_logs.

(** The multi-label logarithms. *)
Theorem C29_multi_fitness_logs : forall L d xs ys, canonical L xs -> canonical L ys ->
  all_nonneg xs -> all_nonneg ys -> (forall k, (k < L)%nat -> nonneg (d k)) ->
  log_of (toR (mfit_p_ij d xs ys)) (mfit_logp d xs ys) /\
  log_of (1 - toR (mfit_p_ij d xs ys)) (mfit_log1mp d xs ys).
Proof. exact mfit_logs_spec. Qed.
Print Assumptions C29_multi_fitness_logs.

Theorem C29_multi_invariant_logs : forall L d xs ys, canonical L xs -> canonical L ys ->
  all_nonneg xs -> all_nonneg ys -> (forall k, (k < L)%nat -> nonneg (d k)) ->
  log_of (toR (minv_p_ij d xs ys)) (minv_logp d xs ys) /\
  log_of (1 - toR (minv_p_ij d xs ys)) (minv_log1mp d xs ys).
Proof. exact minv_logs_spec. Qed.
Print Assumptions C29_multi_invariant_logs.

Example C29_case : nonneg (Fin 2) /\ fit_logp (Fin 0) (Fin 1) (Fin 3) (Fin 1) = NInf /\
  fit_log1mp (Fin 2) (Fin 1) (Fin 3) (Fin 1) = Fin (ln (1 / 7)).
Proof.
  split; [simpl; lra|]. split.
  - destruct (fit_logp_spec (Fin 0) (Fin 1) (Fin 3) (Fin 1)) as [[H _]|[_ H]]; simpl; try lra; [|exact H].
    rewrite fit_p_ij_fin in H by lra. simpl in H. unfold logistic in H. rewrite Rmult_0_l in H. lra.
  - destruct (fit_log1mp_spec (Fin 2) (Fin 1) (Fin 3) (Fin 1)) as [[_ H]|[H _]]; simpl; try lra.
    + rewrite H, fit_p_ij_fin by lra. simpl. unfold logistic. do 2 f_equal. field.
    + rewrite fit_p_ij_fin in H by lra. simpl in H. unfold logistic in H. lra.
Qed.

(** * C30: the analytic Jacobian is the derivative (single pair; the sum is in PropFit.v) *)

Theorem C30_fitness_jacobian : forall d x y z, 0 <= d -> 0 <= x -> 0 <= y -> 0 <= z ->
  exists p j, fit_p_jac (Fin d) (Fin x) (Fin y) (Fin z) = (Fin p, Fin j) /\
    fit_p_ij (Fin d) (Fin x) (Fin y) (Fin z) = Fin p /\
    derivable_pt_lim (fun t => toR (fit_p_ij (Fin t) (Fin x) (Fin y) (Fin z))) d j.
Proof. exact fit_jac_derivative. Qed.
Print Assumptions C30_fitness_jacobian.

Theorem C30_invariant_jacobian : forall d x y z, 0 <= d -> 0 <= x -> 0 <= y -> 0 <= z ->
  exists p j, inv_p_jac (Fin d) (Fin x) (Fin y) (Fin z) = (Fin p, Fin j) /\
    inv_p_ij (Fin d) (Fin x) (Fin y) (Fin z) = Fin p /\
    derivable_pt_lim (fun t => toR (inv_p_ij (Fin t) (Fin x) (Fin y) (Fin z))) d j.
Proof. exact inv_jac_derivative. Qed.
Print Assumptions C30_invariant_jacobian.

(** The probability returned with the Jacobian is p_ij for every argument, also infinite ones. *)
Theorem C30_fitness_jac_probability : forall d x y z, nonneg d -> nonneg x -> nonneg y -> nonneg z ->
  fst (fit_p_jac d x y z) = fit_p_ij d x y z.
Proof. exact fit_jac_prob_any. Qed.
Print Assumptions C30_fitness_jac_probability.

Theorem C30_invariant_jac_probability : forall d x y z, nonneg d -> nonneg x -> nonneg y -> nonneg z ->
  fst (inv_p_jac d x y z) = inv_p_ij d x y z.
Proof. exact inv_jac_prob_any. Qed.
Print Assumptions C30_invariant_jac_probability.

Example C30_case : fit_p_jac (Fin 0) (Fin 2) (Fin 3) (Fin 1) = (Fin 0, Fin 6) /\
  fit_p_jac (Fin 1) (Fin 1) (Fin 1) (Fin 1) = (Fin (1 / 2), Fin (1 / 4)).
Proof.
  split; rewrite fit_p_jac_fin by lra; unfold logistic, logistic'; f_equal; f_equal; field.
Qed.

(** * C31: monotonicity of the probabilities (expected edges in PropFit.v) *)

Theorem C31_fitness_monotone : forall d x y z d' x' y' z',
  nonneg d -> nonneg x -> nonneg y -> nonneg z ->
  nle d d' -> nle x x' -> nle y y' -> nle z z' ->
  toR (fit_p_ij d x y z) <= toR (fit_p_ij d' x' y' z').
Proof. exact (view_monotone fit_p_ij logistic fit_view logistic_range_spec logistic_mono). Qed.
Print Assumptions C31_fitness_monotone.

Theorem C31_invariant_monotone : forall d x y z d' x' y' z',
  nonneg d -> nonneg x -> nonneg y -> nonneg z ->
  nle d d' -> nle x x' -> nle y y' -> nle z z' ->
  toR (inv_p_ij d x y z) <= toR (inv_p_ij d' x' y' z').
Proof. exact (view_monotone inv_p_ij poissonian inv_view poissonian_range_spec poissonian_mono). Qed.
Print Assumptions C31_invariant_monotone.

Example C31_case : nle (Fin 1) (Fin 2) /\ nle (Fin 2) PInf /\
  toR (fit_p_ij (Fin 1) (Fin 1) (Fin 1) (Fin 1)) = 1 / 2 /\
  toR (fit_p_ij (Fin 2) (Fin 1) (Fin 1) (Fin 1)) = 2 / 3.
Proof.
  repeat split; try (simpl; lra); rewrite fit_p_ij_fin by lra; simpl; unfold logistic; field.
Qed.

(** * C32: dense, sparse and spark kernels coincide *)

Theorem C32_fitness_kernels : forall d x y z,
  fit_p_ij_dense d x y z = fit_p_ij d x y (Fin 1) /\
  fit_logp_dense d x y z = fit_logp d x y (Fin 1) /\
  fit_log1mp_dense d x y z = fit_log1mp d x y (Fin 1) /\
  fit_p_jac_dense d x y = fit_p_jac d x y (Fin 1).
Proof.
  exact (fun d x y z => conj (fit_p_ij_dense_eq d x y z) (conj (fit_logp_dense_eq d x y z)
    (conj (fit_log1mp_dense_eq d x y z) (fit_p_jac_dense_eq d x y)))).
Qed.
Print Assumptions C32_fitness_kernels.

Theorem C32_invariant_kernels : forall d x y z, nonneg d -> nonneg x -> nonneg y ->
  inv_p_ij_dense d x y z = inv_p_ij d x y (Fin 1) /\
  inv_logp_dense d x y z = inv_logp d x y (Fin 1) /\
  inv_log1mp_dense d x y z = inv_log1mp d x y (Fin 1) /\
  inv_log1mp_spark d x y z = inv_log1mp d x y (Fin 1) /\
  inv_p_jac_dense d x y = inv_p_jac d x y (Fin 1).
Proof.
  exact (fun d x y z Hd Hx Hy => conj (inv_p_ij_dense_eq d x y z) (conj (inv_logp_dense_eq d x y z)
    (conj (inv_log1mp_dense_eq d x y z Hd Hx Hy) (conj (inv_log1mp_spark_eq d x y z) (inv_p_jac_dense_eq d x y))))).
Qed.
Print Assumptions C32_invariant_kernels.

Theorem C32_layer_kernels : forall d x y z, nonneg d -> nonneg x -> nonneg y ->
  mfit_p_ijk d x y z = fit_p_ij d x y (Fin 1) /\
  mfit_logp_ijk d x y z = fit_logp d x y (Fin 1) /\
  mfit_log1mp_ijk d x y z = fit_log1mp d x y (Fin 1) /\
  minv_p_ijk d x y z = inv_p_ij d x y (Fin 1) /\
  minv_logp_ijk d x y z = inv_logp d x y (Fin 1) /\
  minv_log1mp_ijk d x y z = inv_log1mp d x y (Fin 1).
Proof.
  exact (fun d x y z Hd Hx Hy => conj (mfit_p_ijk_eq d x y z) (conj (mfit_logp_ijk_eq d x y z)
    (conj (mfit_log1mp_ijk_eq d x y z) (conj (minv_p_ijk_eq d x y z) (conj (minv_logp_ijk_eq d x y z)
      (minv_log1mp_ijk_eq d x y z Hd Hx Hy)))))).
Qed.
Print Assumptions C32_layer_kernels.

(** Sparse label lists against dense label arrays. *)
Theorem C32_multi_kernels : forall L d dv xs ys, canonical L xs -> canonical L ys ->
  mfit_p_ij dv xs ys = mfit_p_ij_dense L dv (fun k => lookup k xs) (fun k => lookup k ys) /\
  mfit_logp dv xs ys = mfit_logp_dense L dv (fun k => lookup k xs) (fun k => lookup k ys) /\
  mfit_log1mp dv xs ys = mfit_log1mp_dense L dv (fun k => lookup k xs) (fun k => lookup k ys) /\
  mfit_p_jac d xs ys = mfit_p_jac_dense L d (fun k => lookup k xs) (fun k => lookup k ys) /\
  minv_p_ij dv xs ys = minv_p_ij_dense L dv (fun k => lookup k xs) (fun k => lookup k ys) /\
  minv_logp dv xs ys = minv_logp_dense L dv (fun k => lookup k xs) (fun k => lookup k ys) /\
  minv_log1mp dv xs ys = minv_log1mp_dense L dv (fun k => lookup k xs) (fun k => lookup k ys) /\
  minv_p_jac d xs ys = minv_p_jac_dense L d (fun k => lookup k xs) (fun k => lookup k ys).
Proof.
  exact (fun L d dv xs ys Hx Hy =>
    conj (mfit_p_ij_sparse_dense L dv xs ys Hx Hy) (conj (mfit_logp_sparse_dense L dv xs ys Hx Hy)
    (conj (mfit_log1mp_sparse_dense L dv xs ys Hx Hy) (conj (mfit_p_jac_sparse_dense L d xs ys Hx Hy)
    (conj (minv_p_ij_sparse_dense L dv xs ys Hx Hy) (conj (minv_logp_sparse_dense L dv xs ys Hx Hy)
    (conj (minv_log1mp_sparse_dense L dv xs ys Hx Hy) (minv_p_jac_sparse_dense L d xs ys Hx Hy)))))))).
Qed.
Print Assumptions C32_multi_kernels.

Example C32_case : canonical 3 [(0%nat, Fin 1); (2%nat, Fin 5)] /\ canonical 3 [(1%nat, Fin 2); (2%nat, Fin 4)] /\
  fit_p_ij_dense (Fin 1) (Fin 1) (Fin 1) NaN = Fin (1 / 2).
Proof.
  split; [|split].
  - split; simpl; repeat constructor.
  - split; simpl; repeat constructor.
  - rewrite fit_p_ij_dense_eq, fit_p_ij_fin by lra. unfold logistic. f_equal; field.
Qed.

(** * C33: the multi-label probability is that of at least one layer *)

(** Probability of layer k: the single-layer link probability with parameter d k. *)
Theorem C33_multi_fitness_union : forall L d xs ys, canonical L xs -> canonical L ys ->
  all_nonneg xs -> all_nonneg ys -> (forall k, (k < L)%nat -> nonneg (d k)) ->
  mfit_p_ij d xs ys
  = Fin (1 - prodn L (fun k => 1 - link_prob logistic [d k; lookup k xs; lookup k ys; Fin 1])).
Proof. exact mfit_union. Qed.
Print Assumptions C33_multi_fitness_union.

Theorem C33_multi_invariant_union : forall L d xs ys, canonical L xs -> canonical L ys ->
  all_nonneg xs -> all_nonneg ys -> (forall k, (k < L)%nat -> nonneg (d k)) ->
  minv_p_ij d xs ys
  = Fin (1 - prodn L (fun k => 1 - link_prob poissonian [d k; lookup k xs; lookup k ys; Fin 1])).
Proof. exact minv_union. Qed.
Print Assumptions C33_multi_invariant_union.

Example C33_case :
  canonical 3 [(0%nat, Fin 1); (2%nat, Fin 1)] /\ all_nonneg [(0%nat, Fin 1); (2%nat, Fin 1)] /\
  canonical 3 [(0%nat, Fin 1); (1%nat, Fin 7); (2%nat, Fin 1)] /\
  mfit_p_ij (fun _ => Fin 1) [(0%nat, Fin 1); (2%nat, Fin 1)] [(0%nat, Fin 1); (1%nat, Fin 7); (2%nat, Fin 1)]
  = Fin (3 / 4).
Proof.
  assert (C1 : canonical 3 [(0%nat, Fin 1); (2%nat, Fin 1)]) by (split; simpl; repeat constructor).
  assert (C2 : canonical 3 [(0%nat, Fin 1); (1%nat, Fin 7); (2%nat, Fin 1)]) by (split; simpl; repeat constructor).
  assert (P1 : all_nonneg [(0%nat, Fin 1); (2%nat, Fin 1)]) by (repeat constructor; simpl; lra).
  assert (P2 : all_nonneg [(0%nat, Fin 1); (1%nat, Fin 7); (2%nat, Fin 1)]) by (repeat constructor; simpl; lra).
  repeat split; try apply C1; try apply C2; try exact P1.
  rewrite (C33_multi_fitness_union 3) by (try assumption; intros; simpl; lra).
  f_equal. unfold link_prob; simpl. rewrite !(Reqb_false 1 0) by lra. rewrite !(Reqb_true 0 0) by reflexivity.
  simpl. unfold logistic. field.
Qed.

(** * C34: the multi-label Jacobian *)

Theorem C34_multi_fitness_jacobian : forall L xs ys d, canonical L xs -> canonical L ys ->
  all_finite xs -> all_finite ys -> 0 <= d ->
  exists p j, mfit_p_jac (Fin d) xs ys = (Fin p, Fin j) /\
    mfit_p_ij (fun _ => Fin d) xs ys = Fin p /\
    derivable_pt_lim (fun t => toR (mfit_p_ij (fun _ => Fin t) xs ys)) d j.
Proof. exact mfit_jac_spec. Qed.
Print Assumptions C34_multi_fitness_jacobian.

Theorem C34_multi_invariant_jacobian : forall L xs ys d, canonical L xs -> canonical L ys ->
  all_finite xs -> all_finite ys -> 0 <= d ->
  exists p j, minv_p_jac (Fin d) xs ys = (Fin p, Fin j) /\
    minv_p_ij (fun _ => Fin d) xs ys = Fin p /\
    derivable_pt_lim (fun t => toR (minv_p_ij (fun _ => Fin t) xs ys)) d j.
Proof. exact minv_jac_spec. Qed.
Print Assumptions C34_multi_invariant_jacobian.

Example C34_case : canonical 2 [(0%nat, Fin 1); (1%nat, Fin 2)] /\ all_finite [(0%nat, Fin 1); (1%nat, Fin 2)] /\
  mfit_p_jac (Fin 0) [(0%nat, Fin 1); (1%nat, Fin 2)] [(1%nat, Fin 3)] = (Fin 0, Fin 6).
Proof.
  split; [split; simpl; repeat constructor|]. split.
  - repeat constructor; simpl; eexists; split; try reflexivity; lra.
  - unfold mfit_p_jac; simpl. unfold is0; simpl.
    rewrite (Reqb_false 2 0), (Reqb_false 3 0), (Reqb_true 0 0) by lra. simpl.
    f_equal; f_equal; ring.
Qed.

(** * C35: the objective at an infinite parameter *)

(** True of MultiFitnessModel. *)
Theorem C35_multi_fitness_infinite : forall L d xs ys, canonical L xs -> canonical L ys ->
  all_nonneg xs -> all_nonneg ys -> nonneg d ->
  fst (mfit_p_jac d xs ys) = mfit_p_ij (fun _ => d) xs ys.
Proof. exact mfit_jac_prob_any. Qed.
Print Assumptions C35_multi_fitness_infinite.

(** False of MultiInvariantModel: two vertices without a common label. *)
Theorem C35_multi_invariant_infinite_refuted :
  exists xs ys, canonical 2 xs /\ canonical 2 ys /\ all_finite xs /\ all_finite ys /\
    (forall k, ~ (In k (map fst xs) /\ In k (map fst ys))) /\
    minv_p_ij (fun _ => PInf) xs ys = Fin 0 /\ fst (minv_p_jac PInf xs ys) = Fin 1.
Proof. exact minv_jac_inf_refuted. Qed.
Print Assumptions C35_multi_invariant_infinite_refuted.

(** It holds when the two vertices share a label with positive fitness. *)
Theorem C35_multi_invariant_infinite_partial : forall L xs ys k, canonical L xs -> canonical L ys ->
  all_nonneg xs -> all_nonneg ys -> (k < L)%nat -> posnum (lookup k xs) -> posnum (lookup k ys) ->
  fst (minv_p_jac PInf xs ys) = minv_p_ij (fun _ => PInf) xs ys.
Proof. exact minv_jac_inf_shared. Qed.
Print Assumptions C35_multi_invariant_infinite_partial.

Example C35_case : canonical 2 [(1%nat, Fin 2)] /\ posnum (lookup 1 [(1%nat, Fin 2)]) /\
  all_nonneg [(1%nat, Fin 2)] /\ nonneg PInf.
Proof. repeat split; simpl; repeat constructor; simpl; lra. Qed.

(** * C51: only the product of parameter and fitnesses matters *)

Theorem C51_fitness_gauge : forall c d x y z, 0 < c -> 0 <= d -> 0 <= x -> 0 <= y -> 0 <= z ->
  fit_p_ij (Fin (d / c)) (Fin (c * x)) (Fin y) (Fin z) = fit_p_ij (Fin d) (Fin x) (Fin y) (Fin z).
Proof. exact (gauge fit_p_ij logistic fit_view logistic_0). Qed.
Print Assumptions C51_fitness_gauge.

Theorem C51_invariant_gauge : forall c d x y z, 0 < c -> 0 <= d -> 0 <= x -> 0 <= y -> 0 <= z ->
  inv_p_ij (Fin (d / c)) (Fin (c * x)) (Fin y) (Fin z) = inv_p_ij (Fin d) (Fin x) (Fin y) (Fin z).
Proof. exact (gauge inv_p_ij poissonian inv_view poissonian_0). Qed.
Print Assumptions C51_invariant_gauge.

Theorem C51_fitness_transpose : forall d x y z, nonneg d -> nonneg x -> nonneg y -> nonneg z ->
  fit_p_ij d x y z = fit_p_ij d y x z.
Proof. exact (kernel_swap fit_p_ij logistic fit_view logistic_range_spec). Qed.
Print Assumptions C51_fitness_transpose.

Theorem C51_invariant_transpose : forall d x y z, nonneg d -> nonneg x -> nonneg y -> nonneg z ->
  inv_p_ij d x y z = inv_p_ij d y x z.
Proof. exact (kernel_swap inv_p_ij poissonian inv_view poissonian_range_spec). Qed.
Print Assumptions C51_invariant_transpose.

Example C51_case : fit_p_ij (Fin (6 / 2)) (Fin (2 * 1)) (Fin 1) (Fin 1) = Fin (6 / 7).
Proof. rewrite C51_fitness_gauge by lra. rewrite fit_p_ij_fin by lra. unfold logistic. f_equal; field. Qed.
