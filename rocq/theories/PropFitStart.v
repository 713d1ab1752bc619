(** Property C78: the start of a fit per label. *)
From Verif Require Import Base Num Spec Kernels KernelFacts MultiKernels MultiFacts Prob Ensemble EnsembleFacts
  EnsembleProps Models Solver SolverFacts Fit FitFacts FitModels FitLib Layers LayerFacts LayerProps LayerLib LayerFit FitStart PropLayers.

Lemma trunc_nonneg : forall r, 0 <= r -> trunc r = IZR (Int_part r) /\ 0 <= r - IZR (Int_part r) < 1 /\ 0 <= IZR (Int_part r).
Proof.
  intros r H. unfold trunc. rewrite Rltb_false by exact H. destruct (base_Int_part r) as [B1 B2].
  repeat split; try lra. apply IZR_le.
  assert (-1 < Int_part r)%Z; [|lia]. apply lt_IZR. lra.
Qed.

Lemma fit_store_ok : forall integer layer num_e x0 atol rtol mi labels sols ds,
  fit_layers layer num_e x0 atol rtol mi labels = Ok sols -> map sol_x sols = map Fin ds ->
  fit_store integer layer num_e x0 atol rtol mi labels
  = Ok (combine (map (fun d => Fin (if integer then trunc d else d)) ds) sols).
Proof.
  intros integer layer num_e x0 atol rtol mi labels; induction labels as [|i t IH]; intros sols ds E Ed; cbn [fit_layers fit_store] in *.
  - injection E as <-. destruct ds; [reflexivity | discriminate].
  - destruct (monotonic_newton_solver _ _ _ _ _ _ _ _ _ _) as [sol|]; cbn [bind] in *; [|discriminate].
    destruct (fit_layers layer num_e x0 atol rtol mi t) as [rest|] eqn:Er; cbn [bind] in *; [|discriminate].
    injection E as <-. destruct ds as [|d ds]; [discriminate|]. cbn [map] in Ed. injection Ed as E1 E2.
    rewrite E1, (IH rest ds eq_refl E2). destruct integer; reflexivity.
Qed.

Lemma combine_parts : forall A B (l : list A) (l' : list B), length l = length l' -> map fst (combine l l') = l /\ map snd (combine l l') = l'.
Proof.
  intros A B l; induction l as [|a t IH]; intros [|b t'] H; try discriminate; [split; reflexivity|].
  cbn. destruct (IH t' ltac:(simpl in H; lia)) as [-> ->]. split; reflexivity.
Qed.

(** The fit with a start of either type against the fit of LayerFit.v. *)
Lemma start_fit : forall integer pj L xs ys sl (T x0 : nat -> R) at_ rho mi ds sols,
  fit_per_label pj L xs ys sl (Some (fun k => Fin (T k))) (Some (Numeric (map (fun k => Fin (x0 k)) (seq 0 L)))) Density
    (Fin at_) (Fin rho) mi = Ok (map Fin ds, sols) ->
  fit_per_label_start pj L xs ys sl (Some (fun k => Fin (T k))) (Values integer (Numeric (map (fun k => Fin (x0 k)) (seq 0 L)))) Density
    (Fin at_) (Fin rho) mi = Ok (map (fun d => Fin (if integer then trunc d else d)) ds, sols).
Proof.
  intros integer pj L xs ys sl T x0 at_ rho mi ds sols. unfold fit_per_label, fit_per_label_start, multi_fit.
  destruct (by_layer L xs) as [po|]; cbn [bind]; [|discriminate]. destruct (by_layer L ys) as [pin|]; cbn [bind]; [|discriminate].
  cbn [start_array]. unfold guard. destruct (Nat.eqb _ L); [|discriminate]. destruct (negb (any_neg _)); [|discriminate].
  destruct (fit_layers _ _ _ _ _ _ _) as [ss|] eqn:E; cbn [bind]; [|discriminate]. intros H. injection H as H1 H2. subst ss.
  rewrite (fit_store_ok integer _ _ _ _ _ _ _ sols ds E H1). cbn [bind].
  destruct (combine_parts _ _ (map (fun d => Fin (if integer then trunc d else d)) ds) sols) as [-> ->]; [|reflexivity].
  apply (f_equal (@length num)) in H1. rewrite !map_length in *. congruence.
Qed.

(** * C78: the fitted parameters do not depend on the number type of the start *)

(** A floating point start, also the default one: as in C49_per_label. *)
Theorem C78_float_start : forall g p lp l1p pj, layer_kernels g p lp l1p -> layer_jac g pj ->
  forall z L N xs ys sl, label_table L xs -> label_table L ys -> length xs = N -> length ys = N ->
  Forall (fun r => all_finite (row_vec r)) xs -> Forall (fun r => all_finite (row_vec r)) ys ->
  forall (T x0 : nat -> R) st at_ rho mi, 0 < at_ -> 0 <= rho ->
  (forall k, (k < L)%nat -> 0 <= T k /\ 0 <= x0 k) ->
  st = Values false (Numeric (map (fun k => Fin (x0 k)) (seq 0 L))) \/
  st = Single false (Fin (x0 0%nat)) /\ (forall k, x0 k = x0 0%nat) \/ st = NoStart /\ (forall k, x0 k = 0) ->
  exists ds sols e, fit_per_label_start pj L xs ys sl (Some (fun k => Fin (T k))) st Density (Fin at_) (Fin rho) mi
      = Ok (map Fin ds, sols) /\
    length ds = L /\ length sols = L /\
    expected_num_edges_label p z L xs ys (Some (fun k => Fin (nth k ds 0))) sl = Ok e /\
    forall k, (k < L)%nat -> 0 <= nth k ds 0 /\
      exists sol, nth_error sols k = Some sol /\
      (sol_converged sol = true <-> Rabs (e k - T k) <= at_ + rho * T k).
Proof.
  intros g p lp l1p pj K J z L N xs ys sl Tx Ty Nx Ny Fx Fy T x0 st at_ rho mi Ha Hr H Hst.
  destruct (C49_per_label g p lp l1p pj K J z L N xs ys sl Tx Ty Nx Ny Fx Fy T x0 at_ rho mi Ha Hr H) as (ds & sols & e & E & R).
  exists ds, sols, e. split; [|exact R].
  assert (Q : fit_per_label_start pj L xs ys sl (Some (fun k => Fin (T k))) st Density (Fin at_) (Fin rho) mi
     = fit_per_label_start pj L xs ys sl (Some (fun k => Fin (T k))) (Values false (Numeric (map (fun k => Fin (x0 k)) (seq 0 L))))
         Density (Fin at_) (Fin rho) mi).
  { assert (C : forall c s n, (forall k, x0 k = c) -> map (fun k => Fin (x0 k)) (seq s n) = repeat (Fin c) n).
    { intros c s n Hc. revert s. induction n as [|n IH]; intros s; [reflexivity|]. cbn [seq map repeat]. rewrite Hc, IH. reflexivity. }
    destruct Hst as [-> | [[-> Hc] | [-> Hc]]]; [reflexivity | |]; unfold fit_per_label_start; cbn [start_array]; rewrite <- (C _ 0%nat L Hc); reflexivity. }
  rewrite Q, (start_fit false _ _ _ _ _ _ _ _ _ _ _ _ E). do 2 f_equal.
Qed.
Print Assumptions C78_float_start.

Example C78_float_case : label_table 1 (ex_table 2) /\ Forall (fun r => all_finite (row_vec r)) (ex_table 2) /\
  layer_jac logistic fit_p_jac_dense /\ layer_kernels logistic (fun d x y z => toR (mfit_p_ijk d x y z)) mfit_logp_ijk mfit_log1mp_ijk.
Proof. exact C49_per_label_case. Qed.

(** An integer start: the solver outputs are those of the floating point start with the same values, and the stored
    parameters are the fitted ones rounded down.  The full statement, that they are the fitted ones, is refuted below. *)
Theorem C78_integer_start_partial : forall g p lp l1p pj, layer_kernels g p lp l1p -> layer_jac g pj ->
  forall L N xs ys sl, label_table L xs -> label_table L ys -> length xs = N -> length ys = N ->
  Forall (fun r => all_finite (row_vec r)) xs -> Forall (fun r => all_finite (row_vec r)) ys ->
  forall (T : nat -> R) (x0 : nat -> nat) st at_ rho mi, 0 < at_ -> 0 <= rho -> (forall k, (k < L)%nat -> 0 <= T k) ->
  (forall i, st i = Values i (Numeric (map (fun k => Fin (INR (x0 k))) (seq 0 L)))) \/
  (forall i, st i = Single i (Fin (INR (x0 0%nat)))) /\ (forall k, x0 k = x0 0%nat) ->
  let fit i := fit_per_label_start pj L xs ys sl (Some (fun k => Fin (T k))) (st i) Density (Fin at_) (Fin rho) mi in
  exists ds is sols, fit false = Ok (map Fin ds, sols) /\ fit true = Ok (map Fin is, sols) /\
    length ds = L /\ length is = L /\
    forall k, (k < L)%nat -> 0 <= nth k is 0 <= nth k ds 0 /\ nth k ds 0 - nth k is 0 < 1 /\ exists n, nth k is 0 = INR n.
Proof.
  intros g p lp l1p pj K J L N xs ys sl Tx Ty Nx Ny Fx Fy T x0 st at_ rho mi Ha Hr H Hst fit.
  destruct (C49_per_label g p lp l1p pj K J (fun _ _ => Fin 1) L N xs ys sl Tx Ty Nx Ny Fx Fy T (fun k => INR (x0 k)) at_ rho mi Ha Hr) as (ds & sols & e & E & L1 & L2 & _ & R).
  { intros k Hk. split; [apply H; exact Hk | apply pos_INR]. }
  assert (Q : forall i, fit i = fit_per_label_start pj L xs ys sl (Some (fun k => Fin (T k)))
      (Values i (Numeric (map (fun k => Fin (INR (x0 k))) (seq 0 L)))) Density (Fin at_) (Fin rho) mi).
  { intros i. unfold fit. destruct Hst as [Hst | [Hst Hc]]; rewrite Hst; [reflexivity|]. unfold fit_per_label_start. cbn [start_array].
    replace (repeat (Fin (INR (x0 0%nat))) L) with (map (fun k => Fin (INR (x0 k))) (seq 0 L)); [reflexivity|].
    generalize 0%nat at 1. induction L as [|n IH] in |- *; intros s; [reflexivity|]. cbn [seq map repeat]. rewrite Hc, IH. reflexivity. }
  exists ds, (map trunc ds), sols. rewrite !Q, !(start_fit _ _ _ _ _ _ _ _ _ _ _ _ _ E).
  split; [reflexivity|]. split; [rewrite map_map; reflexivity|]. split; [exact L1|]. split; [rewrite map_length; exact L1|].
  intros k Hk. destruct (R k Hk) as [Hd _]. rewrite <- L1 in Hk.
  rewrite (nth_indep (map trunc ds) 0 (trunc 0)) by (rewrite map_length; exact Hk). rewrite (map_nth trunc).
  destruct (trunc_nonneg (nth k ds 0) Hd) as (-> & B1 & B2). repeat split; try lra.
  exists (Z.to_nat (Int_part (nth k ds 0))). rewrite INR_IZR_INZ, Z2Nat.id; [reflexivity|]. apply le_IZR. exact B2.
Qed.
Print Assumptions C78_integer_start_partial.

Example C78_integer_case : label_table 1 (ex_table 2) /\ Forall (fun r => all_finite (row_vec r)) (ex_table 2) /\
  layer_jac logistic fit_p_jac_dense /\ layer_kernels logistic (fun d x y z => toR (mfit_p_ijk d x y z)) mfit_logp_ijk mfit_log1mp_ijk.
Proof. exact C49_per_label_case. Qed.

Lemma quarter_found : forall layer, layer (Fin 0) = (Fin 0, Fin 2) ->
  (forall d, d = 1 / 4 -> layer (Fin d) = (Fin (2 / 5), Fin (32 / 25))) ->
  exists sol, monotonic_newton_solver layer (Fin 0) (Fin (1 / 2)) (Fin (1 / 10)) (Fin 0) 1 (Fin 0) PInf None None = Ok sol /\
    sol_converged sol = true /\ sol_x sol = Fin (1 / 4).
Proof.
  intros layer L0 L1. eexists. split.
  - unfold monotonic_newton_solver, solver_init, bracket. rewrite L0. num_eval.
    unfold solver_step, next_x, ndiv. num_eval. rewrite L1 by lra. unfold bracket, finish. num_eval. reflexivity.
  - split; cbn [sol_converged sol_x]; num_eval; [reflexivity | f_equal; lra].
Qed.

Lemma layer_at : let layer := fun d => exp_edges_f_jac_layer fit_p_jac_dense d [(0%nat, Fin 1); (1%nat, Fin 1)] [(0%nat, Fin 1); (1%nat, Fin 1)] false in
  layer (Fin 0) = (Fin 0, Fin 2) /\ forall d, d = 1 / 4 -> layer (Fin d) = (Fin (2 / 5), Fin (32 / 25)).
Proof.
  cbv zeta. split.
  - unfold exp_edges_f_jac_layer, acc_pair, fit_p_jac_dense. num_eval. f_equal; f_equal; lra.
  - intros d ->. unfold exp_edges_f_jac_layer, acc_pair.
    assert (E : fit_p_jac_dense (Fin (1 / 4)) (Fin 1) (Fin 1) = (Fin (1 / 5), Fin (16 / 25))).
    { unfold fit_p_jac_dense, ndiv. num_eval. f_equal; f_equal; field. }
    num_eval. rewrite !E. num_eval. f_equal; f_equal; lra.
Qed.

Lemma trunc_quarter : trunc (1 / 4) = 0.
Proof.
  destruct (trunc_nonneg (1 / 4) ltac:(lra)) as (-> & B1 & B2). apply f_equal with (f := IZR). 
  assert (A : (Int_part (1 / 4) < 1)%Z) by (apply lt_IZR; lra). assert (B : (0 <= Int_part (1 / 4))%Z) by (apply le_IZR; lra). lia.
Qed.

(** Two vertices of fitness 1 and a single label, half an edge wanted and a start at 0.  The fit finds 1/4 and reports
    convergence.  Given as an integer, the same start leaves 0 in the model, which then has no edges. *)
Theorem C78_integer_refuted : exists xs T x0 at_ mi sol d e i ei,
  let fit i := fit_per_label_start fit_p_jac_dense 1 xs xs false (Some (fun _ => Fin T)) (Values i (Numeric [Fin x0])) Density
    (Fin at_) (Fin 0) mi in
  let edges d := expected_num_edges_label (fun d x y z => toR (mfit_p_ijk d x y z)) (fun _ _ => Fin 1) 1 xs xs
    (Some (fun _ => Fin d)) false in
  label_table 1 xs /\ x0 = INR 0 /\ sol_converged sol = true /\
  fit false = Ok ([Fin d], [sol]) /\ edges d = Ok e /\ Rabs (e 0%nat - T) <= at_ /\
  fit true = Ok ([Fin i], [sol]) /\ edges i = Ok ei /\ ei 0%nat = 0 /\ T = 1 / 2 /\ at_ = 1 / 10.
Proof.
  destruct layer_at as [L0 L1]. destruct (quarter_found (fun d => exp_edges_f_jac_layer fit_p_jac_dense d [(0%nat, Fin 1); (1%nat, Fin 1)] [(0%nat, Fin 1); (1%nat, Fin 1)] false) L0 L1) as (sol & E & Hc & Hx).
  assert (T : label_table 1 (ex_table 2)) by (apply ex_table_ok; lia).
  assert (Ed : forall d, 0 <= d -> exists e, expected_num_edges_label (fun d x y z => toR (mfit_p_ijk d x y z)) (fun _ _ => Fin 1) 1 (ex_table 2) (ex_table 2)
    (Some (fun _ => Fin d)) false = Ok e /\ e 0%nat = 2 * (d / (1 + d))).
  { intros d Hd. destruct (C53_edges _ _ _ _ fitness_kernels (fun _ _ => Fin 1) 1 2 (fun _ => Fin d) (ex_table 2) (ex_table 2)
      false T T eq_refl eq_refl) as (e & E1 & E2); [intros; exact Hd|].
    exists e. split; [exact E1|]. rewrite (E2 0%nat ltac:(lia)).
    assert (Q : link_prob logistic [Fin d; Fin 1; Fin 1; Fin 1] = d / (1 + d)).
    { unfold link_prob. cbn [existsb is_zero is_infinite]. destruct (Reqb_spec 1 0) as [|_]; [lra|].
      destruct (Reqb_spec d 0) as [->|]; cbn; [field|]. unfold logistic. field. lra. }
    unfold pair_sum, layer_prob. cbn. unfold link_prob in Q |- *. cbn in Q |- *. rewrite Q. field. lra. }
  destruct (Ed (1 / 4) ltac:(lra)) as (e & E1 & V1), (Ed 0 ltac:(lra)) as (ei & E2 & V2).
  exists (ex_table 2), (1 / 2), 0, (1 / 10), 1%nat, sol, (1 / 4), e, 0, ei. cbv zeta.
  split; [exact T|]. split; [reflexivity|]. split; [exact Hc|].
  assert (Q : forall i, fit_per_label_start fit_p_jac_dense 1 (ex_table 2) (ex_table 2) false (Some (fun _ => Fin (1 / 2)))
     (Values i (Numeric [Fin 0])) Density (Fin (1 / 10)) (Fin 0) 1 = Ok ([Fin (if i then 0 else 1 / 4)], [sol])).
  { intros i. unfold fit_per_label_start. replace (by_layer 1 (ex_table 2)) with (Ok [([0; 1]%nat, [Fin 1; Fin 1])]) by reflexivity.
    cbn [bind start_array arr_len length Nat.eqb guard any_neg existsb nltb]. rewrite Rltb_false by lra. cbn [orb negb seq fit_store nth zip combine fst snd].
    rewrite E. cbn [bind]. rewrite Hx. destruct i; cbn [store bind map fst snd]; [rewrite trunc_quarter|]; reflexivity. }
  split; [exact (Q false)|]. split; [exact E1|]. split; [rewrite V1; replace (2 * (1 / 4 / (1 + 1 / 4)) - 1 / 2) with (- (1 / 10)) by field; rewrite Rabs_Ropp, Rabs_right; lra|].
  split; [exact (Q true)|]. split; [exact E2|]. split; [rewrite V2; field | split; reflexivity].
Qed.
Print Assumptions C78_integer_refuted.

(** What an integer start does to the values that a floating point start leaves: finite ones lose their fraction, and
    the first one that is not finite stops the fit with the exception of Python's [int]. *)
Lemma store_finite : forall layer num_e x0 at_ rt mi labels ds rest,
  fit_store false layer num_e x0 at_ rt mi labels = Ok rest -> map fst rest = map Fin ds ->
  fit_store true layer num_e x0 at_ rt mi labels = Ok (combine (map (fun d => Fin (trunc d)) ds) (map snd rest)).
Proof.
  intros layer num_e x0 at_ rt mi labels; induction labels as [|i t IH]; intros ds rest E V; cbn [fit_store] in *.
  - injection E as <-. destruct ds; [reflexivity | discriminate].
  - destruct (monotonic_newton_solver _ _ _ _ _ _ _ _ _ _) as [sol|]; cbn [bind store] in *; [|discriminate].
    destruct (fit_store false layer num_e x0 at_ rt mi t) as [r|] eqn:Er; cbn [bind] in *; [|discriminate].
    injection E as <-. destruct ds as [|d ds]; [discriminate|]. cbn [map fst] in V. injection V as V1 V2.
    rewrite V1. cbn [bind]. rewrite (IH ds r eq_refl V2). reflexivity.
Qed.

Lemma store_stops : forall layer num_e x0 at_ rt mi labels ds v vs rest,
  fit_store false layer num_e x0 at_ rt mi labels = Ok rest -> map fst rest = map Fin ds ++ v :: vs ->
  (v = PInf \/ v = NInf -> fit_store true layer num_e x0 at_ rt mi labels = Raise OverflowError) /\
  (v = NaN -> fit_store true layer num_e x0 at_ rt mi labels = Raise ValueError).
Proof.
  intros layer num_e x0 at_ rt mi labels; induction labels as [|i t IH]; intros ds v vs rest E V; cbn [fit_store] in *.
  - injection E as <-. destruct ds; discriminate.
  - destruct (monotonic_newton_solver _ _ _ _ _ _ _ _ _ _) as [sol|]; cbn [bind store] in *; [|discriminate].
    destruct (fit_store false layer num_e x0 at_ rt mi t) as [r|] eqn:Er; cbn [bind] in *; [|discriminate].
    injection E as <-. destruct ds as [|d ds]; cbn [map app fst] in V; injection V as V1 V2; rewrite V1.
    + split; [intros [-> | ->] | intros ->]; reflexivity.
    + cbn [bind]. destruct (IH ds v vs r eq_refl V2) as [A B]. split; intros Hv; [rewrite (A Hv) | rewrite (B Hv)]; reflexivity.
Qed.

Theorem C78_not_finite : forall pj L xs ys sl ne a at_ rt mi vs sols,
  let fit i := fit_per_label_start pj L xs ys sl ne (Values i a) Density at_ rt mi in
  fit false = Ok (vs, sols) ->
  (forall ds, vs = map Fin ds -> exists zs, fit true = Ok (map (fun z => Fin (IZR z)) zs, sols) /\
     Forall2 (fun d z => Rabs (IZR z) <= Rabs d /\ Rabs (d - IZR z) < 1) ds zs) /\
  (forall ds v t, vs = map Fin ds ++ v :: t ->
     (v = PInf \/ v = NInf -> fit true = Raise OverflowError) /\ (v = NaN -> fit true = Raise ValueError)).
Proof.
  intros pj L xs ys sl ne a at_ rt mi vs sols. cbv zeta. unfold fit_per_label_start.
  destruct (by_layer L xs) as [po|]; cbn [bind]; [|discriminate]. destruct (by_layer L ys) as [pin|]; cbn [bind]; [|discriminate].
  cbn [start_array]. unfold guard. destruct (Nat.eqb (arr_len a) L); [|discriminate]. destruct a as [l|n]; [|discriminate].
  destruct (negb (any_neg l)); [|discriminate]. destruct ne as [num_e|]; [|discriminate].
  destruct (fit_store false _ _ _ _ _ _ _) as [r|] eqn:E; cbn [bind]; [|discriminate]. intros H. injection H as <- <-. split.
  - intros ds V. exists (map (fun d => if Rltb d 0 then (- Int_part (- d))%Z else Int_part d) ds).
    rewrite (store_finite _ _ _ _ _ _ _ ds r E V). cbn [bind].
    destruct (combine_parts _ _ (map (fun d => Fin (trunc d)) ds) (map snd r)) as [-> ->].
    { apply (f_equal (@length num)) in V. rewrite !map_length in *. symmetry. exact V. }
    split.
    + rewrite map_map. do 2 f_equal. apply map_ext. intros d. unfold trunc. destruct (Rltb d 0); [rewrite opp_IZR|]; reflexivity.
    + clear. induction ds as [|d t IH]; constructor; [|exact IH]. destruct (Rltb_spec d 0) as [Hd | Hd].
      * destruct (trunc_nonneg (- d) ltac:(lra)) as (_ & B1 & B2). rewrite opp_IZR, Rabs_Ropp, (Rabs_pos_eq _ B2), (Rabs_left d Hd).
        split; [lra|]. apply Rabs_def1; lra.
      * destruct (trunc_nonneg d ltac:(lra)) as (_ & B1 & B2). rewrite (Rabs_pos_eq _ B2), (Rabs_pos_eq d) by lra.
        split; [lra|]. apply Rabs_def1; lra.
  - intros ds v t V. destruct (store_stops _ _ _ _ _ _ _ ds v t r E V) as [A B].
    split; intros Hv; [rewrite (A Hv) | rewrite (B Hv)]; reflexivity.
Qed.
Print Assumptions C78_not_finite.

(** A vertex of infinite fitness and one of fitness 1, two edges wanted: the floating point fit converges at infinity. *)
Definition inf_table : list (list nat * list num) := [([0%nat], [PInf]); ([0%nat], [Fin 1])].

Lemma infinity_found : forall layer, layer (Fin 0) = (Fin 0, PInf) -> layer PInf = (Fin 2, Fin 0) ->
  exists sol, monotonic_newton_solver layer (Fin 0) (Fin 2) (Fin 1) (Fin 0) 1 (Fin 0) PInf None None = Ok sol /\
    sol_converged sol = true /\ sol_x sol = PInf.
Proof.
  intros layer L0 L1. eexists. split.
  - unfold monotonic_newton_solver, solver_init, bracket. rewrite L0. num_eval.
    unfold solver_step, next_x, ndiv. num_eval. rewrite L1. unfold bracket, finish. num_eval. reflexivity.
  - split; cbn [sol_converged sol_x]; num_eval; reflexivity.
Qed.

Example C78_not_finite_case : label_table 1 inf_table /\
  exists sol, fit_per_label_start fit_p_jac_dense 1 inf_table inf_table false (Some (fun _ => Fin 2)) (Values false (Numeric [Fin 0]))
    Density (Fin 1) (Fin 0) 1 = Ok ([PInf], [sol]) /\ sol_converged sol = true.
Proof.
  split.
  - unfold label_table, inf_table. split; [discriminate|]. repeat (constructor; cbn; try lia; try lra).
  - destruct (infinity_found (fun d => exp_edges_f_jac_layer fit_p_jac_dense d [(0%nat, PInf); (1%nat, Fin 1)] [(0%nat, PInf); (1%nat, Fin 1)] false))
      as (sol & E & Hc & Hx).
    + unfold exp_edges_f_jac_layer, acc_pair, fit_p_jac_dense, nmul, inf_times. num_eval. repeat f_equal; lra.
    + unfold exp_edges_f_jac_layer, acc_pair, fit_p_jac_dense, nmul, inf_times. num_eval. repeat f_equal; lra.
    + exists sol. split; [|exact Hc].
      unfold fit_per_label_start. replace (by_layer 1 inf_table) with (Ok [([0; 1]%nat, [PInf; Fin 1])]) by reflexivity.
      cbn [bind start_array arr_len length Nat.eqb guard any_neg existsb nltb]. rewrite Rltb_false by lra.
      cbn [orb negb seq fit_store nth zip combine fst snd]. rewrite E. cbn [bind store map fst snd]. rewrite Hx. reflexivity.
Qed.

(** What is refused, for any start: one with another number of entries than labels, one that is not numeric, one with
    a negative entry, another method, and a model without numbers of edges per label. *)
Theorem C78_rejected : forall pj L xs ys sl ne st meth at_ rt mi, label_table L xs -> label_table L ys ->
  (exists i a, st = Values i a /\ (arr_len a <> L \/ (forall l, a <> Numeric l) \/
     exists l v, a = Numeric l /\ In v l /\ (v = NInf \/ exists r, v = Fin r /\ r < 0))) \/
  (exists i v, st = Single i v /\ (0 < L)%nat /\ (v = NInf \/ exists r, v = Fin r /\ r < 0)) \/
  meth <> Density \/ ne = None ->
  fit_per_label_start pj L xs ys sl ne st meth at_ rt mi = Raise ValueError.
Proof.
  intros pj L xs ys sl ne st meth at_ rt mi (X1 & X2 & _) (Y1 & Y2 & _) H. unfold fit_per_label_start.
  rewrite (by_layer_spec L xs X1 X2), (by_layer_spec L ys Y1 Y2). cbn [bind].
  destruct (start_array L st) as [i a] eqn:E. unfold guard. destruct (Nat.eqb_spec (arr_len a) L) as [El|]; [|reflexivity].
  destruct a as [l|n]; [|reflexivity]. destruct (any_neg l) eqn:En; cbn [negb]; [reflexivity|].
  assert (P : forall v, In v l -> v = NInf \/ (exists r, v = Fin r /\ r < 0) -> False).
  { intros v Hv Hn. assert (nltb v (Fin 0) = true) as Q.
    { destruct Hn as [-> | (r & -> & Hr)]; cbn [nltb]; [reflexivity | apply Rltb_true; exact Hr]. }
    unfold any_neg in En. assert (existsb (fun x => nltb x (Fin 0)) l = true) as Z by (apply existsb_exists; exists v; split; assumption). congruence. }
  destruct H as [(j & a & -> & H) | [(j & v & -> & HL & H) | [H | ->]]].
  - cbn [start_array] in E. injection E as -> ->. destruct H as [H | [H | (l' & v & H & Hv & Hn)]].
    + contradiction.
    + exfalso. apply (H l). reflexivity.
    + injection H as <-. exfalso. exact (P v Hv Hn).
  - cbn [start_array] in E. injection E as -> <-. exfalso. apply (P v); [|exact H]. destruct L; [lia | left; reflexivity].
  - destruct meth; [contradiction | reflexivity | reflexivity].
  - destruct meth; reflexivity.
Qed.
Print Assumptions C78_rejected.

Example C78_rejected_case : label_table 1 (ex_table 2) /\ arr_len (Numeric [Fin 0; Fin 0]) <> 1%nat.
Proof. split; [apply ex_table_ok; lia | cbn; lia]. Qed.
