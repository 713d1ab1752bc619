(** Fitting of one parameter per label. *)
From Verif Require Import Base Num Spec Kernels KernelFacts MultiKernels MultiFacts Prob Ensemble EnsembleFacts
  EnsembleProps Models Solver SolverFacts Fit FitFacts FitModels Layers LayerFacts LayerProps LayerLib.

(** sparse/models/fitness.py:628-674 (MultiFitnessModel.fit with per_label): the properties are converted
    to the by-layer form, then each label is fitted with density_fit_layer (718-726).
    Simplification: the conversions are done before the checks of the arguments (they fail only for
    models without vertices). *)
Definition fit_per_label (p_jac_ijk : num -> num -> num -> num * num) (num_labels : nat)
    (prop_out prop_in : list tuple) (selfloops : bool) (num_edges_label : option (nat -> num))
    (x0 : option user_array) (method : fit_method) (atol rtol : num) (maxiter : nat)
    : res (list num * list solution) :=
  do po <- by_layer num_labels prop_out ;
  do pin <- by_layer num_labels prop_in ;
  multi_fit num_labels true (fun _ => (NaN, NaN))
    (fun i delta => exp_edges_f_jac_layer p_jac_ijk delta (zip (nth i po ([], []))) (zip (nth i pin ([], []))) selfloops)
    None num_edges_label x0 method atol rtol maxiter.

(** The derivative kernels of the two model families. *)
Inductive layer_jac : (R -> R) -> (num -> num -> num -> num * num) -> Prop :=
| fitness_jac : layer_jac logistic fit_p_jac_dense
| invariant_jac : layer_jac poissonian inv_p_jac_dense.

Lemma fit_layers_spec : forall layer num_e x0 atol rtol mi labels (Q : nat -> solution -> Prop),
  (forall k, In k labels -> exists sol,
     monotonic_newton_solver (layer k) (x0 k) (num_e k) atol rtol mi (Fin 0) PInf None None = Ok sol /\ Q k sol) ->
  exists sols, fit_layers layer num_e x0 atol rtol mi labels = Ok sols /\ Forall2 Q labels sols.
Proof.
  intros layer num_e x0 atol rtol mi labels Q; induction labels as [|k t IH]; intros H.
  - exists []. split; [reflexivity | constructor].
  - destruct (H k (or_introl eq_refl)) as (sol & E & Hq).
    destruct IH as (sols & Es & HF); [intros j Hj; apply H; right; exact Hj|].
    exists (sol :: sols). cbn [fit_layers]. rewrite E. cbn [bind]. rewrite Es. split; [reflexivity | constructor; assumption].
Qed.

Lemma solver_ext : forall fn fn', (forall x, fn x = fn' x) ->
  forall x0 T a r mi xl xu p q, monotonic_newton_solver fn x0 T a r mi xl xu p q = monotonic_newton_solver fn' x0 T a r mi xl xu p q.
Proof.
  intros fn fn' H x0 T a r mi xl xu p q. replace fn' with fn; [reflexivity|].
  apply FunctionalExtensionality.functional_extensionality. exact H.
Qed.

Lemma layer_rate_sum : forall g (N : nat) sl po pin d, g 0 = 0 -> canonical N po -> canonical N pin ->
  all_finite po -> all_finite pin -> 0 <= d ->
  suml (fun e => g (d * (toR (snd (fst e)) * toR (snd (snd e))))) (layer_pairs sl po pin)
  = pair_sum N sl (fun i j => link_prob g [Fin d; lookup i po; lookup j pin; Fin 1]).
Proof.
  intros g N sl po pin d G0 C1 C2 F1 F2 Hd. unfold layer_pairs. rewrite suml_filter, suml_list_prod. cbn [fst snd].
  etransitivity; [exact (suml_stored N po (fun i x => suml (fun q =>
    if allowed sl i (fst q) then g (d * (toR x * toR (snd q))) else 0) pin) C1)|].
  assert (Z : forall l x, In (Fin 0) l -> existsb is_zero l = true -> link_prob g l = x -> x = 0).
  { intros l x _ H <-. unfold link_prob. rewrite H. reflexivity. }
  assert (Z0 : is_zero (Fin 0) = true) by (simpl; destruct (Reqb_spec 0 0); [reflexivity | lra]).
  unfold pair_sum. apply sumn_ext. intros i Hi. destruct (stored i po) eqn:E.
  - etransitivity; [exact (suml_stored N pin (fun j y =>
      if allowed sl i j then g (d * (toR (lookup i po) * toR y)) else 0) C2)|].
    apply sumn_ext. intros j Hj. destruct (allowed sl i j); [|destruct (stored j pin); reflexivity].
    destruct (stored j pin) eqn:E'.
    + assert (Fi : forall k v, all_finite v -> exists w, lookup k v = Fin w /\ 0 <= w).
      { intros k v; induction v as [|[a b] t IH]; intros HF; simpl; [exists 0; split; [reflexivity | lra]|].
        inversion HF as [|? ? (w & Ew & Hw) HF']; subst. simpl in Ew. subst b.
        destruct (Nat.eqb a k); [exists w; auto | apply IH; exact HF']. }
      destruct (Fi i po F1) as (u & -> & Hu), (Fi j pin F2) as (w & -> & Hw). cbn [toR].
      unfold link_prob. cbn [existsb is_zero is_infinite].
      destruct (Reqb_spec d 0) as [->|]; [simpl; rewrite Rmult_0_l; exact G0|].
      destruct (Reqb_spec u 0) as [->|]; [simpl; rewrite Rmult_0_l, Rmult_0_r; exact G0|].
      destruct (Reqb_spec w 0) as [->|]; [simpl; rewrite !Rmult_0_r; exact G0|].
      destruct (Reqb_spec 1 0) as [E1|]; [lra|]. simpl. f_equal. ring.
    + rewrite (stored_false j pin E'). unfold link_prob. cbn [existsb]. rewrite Z0. rewrite !orb_true_r. reflexivity.
  - symmetry. apply sumn_zero. intros j Hj. destruct (allowed sl i j); [|reflexivity].
    rewrite (stored_false i po E). unfold link_prob. cbn [existsb]. rewrite Z0. rewrite !orb_true_r. reflexivity.
Qed.

Section PerLabel.
Variables (g : R -> R) (p : num -> num -> num -> num -> R) (lp l1p : num -> num -> num -> num -> num)
  (pj : num -> num -> num -> num * num).
Hypothesis K : layer_kernels g p lp l1p.
Hypothesis J : layer_jac g pj.
Variables (z : nat -> nat -> num) (L N : nat) (xs ys : list tuple) (sl : bool).
Hypothesis Tx : label_table L xs.
Hypothesis Ty : label_table L ys.
Hypothesis Nx : length xs = N.
Hypothesis Ny : length ys = N.
Hypothesis Fx : Forall (fun r => all_finite (row_vec r)) xs.
Hypothesis Fy : Forall (fun r => all_finite (row_vec r)) ys.

Lemma column_finite : forall t, label_table L t -> Forall (fun r => all_finite (row_vec r)) t ->
  forall k, all_finite (column (map zip t) k).
Proof.
  intros t T F k. apply Forall_forall. intros e He.
  pose proof (lookup_in _ e (canonical_nodup _ _ (layer_canonical L t T k)) He) as E.
  rewrite (layer_lookup L t T) in E. rewrite <- E. unfold label_value.
  assert (A : all_finite (row_vec (nth (fst e) t ([], [])))).
  { destruct (Nat.lt_ge_cases (fst e) (length t)) as [Hl|Hl].
    - apply (proj1 (Forall_forall _ _) F). apply nth_In. exact Hl.
    - rewrite nth_overflow by exact Hl. constructor. }
  revert A. generalize (row_vec (nth (fst e) t ([], []))). intros v; induction v as [|[a b] v IH]; intros HF; simpl.
  - exists 0. split; [reflexivity | lra].
  - inversion HF as [|? ? (w & Ew & Hw) HF']; subst. simpl in Ew. subst b.
    destruct (Nat.eqb a k); [exists w; auto | apply IH; exact HF'].
Qed.

Lemma layer_objective : forall k, exists pr act,
  density_objective (layer_pairs sl (column (map zip xs) k) (column (map zip ys) k)) pr act
    (fun d => exp_edges_f_jac_layer pj d (column (map zip xs) k) (column (map zip ys) k) sl) /\
  forall d, 0 <= d -> suml (fun e => pr e d) (layer_pairs sl (column (map zip xs) k) (column (map zip ys) k))
    = pair_sum N sl (layer_prob g (fun _ => Fin d) xs ys k).
Proof.
  intros k. pose proof (column_finite xs Tx Fx k) as F1. pose proof (column_finite ys Ty Fy k) as F2.
  assert (C1 : canonical N (column (map zip xs) k)) by (rewrite <- Nx; apply (layer_canonical L); exact Tx).
  assert (C2 : canonical N (column (map zip ys) k)) by (rewrite <- Ny; apply (layer_canonical L); exact Ty).
  assert (Eq : forall d, (fun i j => link_prob g [Fin d; lookup i (column (map zip xs) k); lookup j (column (map zip ys) k); Fin 1])
     = layer_prob g (fun _ => Fin d) xs ys k).
  { intros d. apply FunctionalExtensionality.functional_extensionality. intros i.
    apply FunctionalExtensionality.functional_extensionality. intros j.
    rewrite (layer_lookup L xs Tx), (layer_lookup L ys Ty). reflexivity. }
  inversion J; subst.
  - eexists _, _. split; [exact (mfit_layer_objective sl _ _ F1 F2)|]. intros d Hd. cbv beta. rewrite <- Eq.
    apply layer_rate_sum; try assumption. unfold logistic. field.
  - eexists _, _. split; [exact (minv_layer_objective sl _ _ F1 F2)|]. intros d Hd. cbv beta. rewrite <- Eq.
    apply layer_rate_sum; try assumption. unfold poissonian. rewrite Ropp_0, exp_0. ring.
Qed.

Lemma per_label_total : forall (T x0 : nat -> R) at_ rho mi, 0 < at_ -> 0 <= rho ->
  (forall k, (k < L)%nat -> 0 <= T k /\ 0 <= x0 k) ->
  exists ds sols e, fit_per_label pj L xs ys sl (Some (fun k => Fin (T k)))
      (Some (Numeric (map (fun k => Fin (x0 k)) (seq 0 L)))) Density (Fin at_) (Fin rho) mi = Ok (map Fin ds, sols) /\
    length ds = L /\ length sols = L /\
    expected_num_edges_label p z L xs ys (Some (fun k => Fin (nth k ds 0))) sl = Ok e /\
    forall k, (k < L)%nat -> 0 <= nth k ds 0 /\
      exists sol, nth_error sols k = Some sol /\
      (sol_converged sol = true <-> Rabs (e k - T k) <= at_ + rho * T k).
Proof.
  intros T x0 at_ rho mi Ha Hr H.
  unfold fit_per_label. rewrite (table_layers L xs Tx), (table_layers L ys Ty). cbn [bind].
  unfold multi_fit. cbn [arr_len]. rewrite map_length, seq_length, Nat.eqb_refl. cbn [guard].
  assert (A : any_neg (map (fun k => Fin (x0 k)) (seq 0 L)) = false).
  { unfold any_neg. apply not_true_iff_false. rewrite existsb_exists. intros (v & Hv & Hn).
    apply in_map_iff in Hv. destruct Hv as (w & <- & Hw). cbn [nltb] in Hn. apply in_seq in Hw.
    rewrite Rltb_false in Hn by (apply H; lia). discriminate. }
  rewrite A. cbn [negb guard].
  set (layer := fun i delta => exp_edges_f_jac_layer pj delta _ _ sl).
  set (Q := fun k sol => exists d, sol_x sol = Fin d /\ 0 <= d /\
    (sol_converged sol = true <-> Rabs (pair_sum N sl (layer_prob g (fun _ => Fin d) xs ys k) - T k) <= at_ + rho * T k)).
  destruct (fit_layers_spec layer (fun k => Fin (T k)) (fun i => nth i (map (fun k => Fin (x0 k)) (seq 0 L)) NaN)
    (Fin at_) (Fin rho) mi (seq 0 L) Q) as (sols & Es & HF).
  { intros k Hk. apply in_seq in Hk. destruct (H k ltac:(lia)) as [HT Hx].
    destruct (layer_objective k) as (pr & act & Ho & Hs).
    destruct (fit_total _ _ _ _ _ Ho (T k) at_ rho (x0 k) mi HT Ha Hr Hx) as (f & d & E & Ep & Hd & C & _).
    unfold fitness_fit in E. cbn [arr_len length Nat.eqb guard any_neg existsb nth] in E.
    rewrite orb_false_r in E. cbn [nltb] in E. rewrite Rltb_false in E by exact Hx. cbn [negb guard] in E.
    destruct (monotonic_newton_solver _ _ _ _ _ _ _ _ _ _) as [sol|ex] eqn:Esol; cbn [bind] in E; [|discriminate].
    injection E as <-. cbn [fitted_sol fitted_param] in *. exists sol. split.
    - rewrite (nth_indep _ _ (Fin (x0 0%nat))) by (rewrite map_length, seq_length; lia).
      rewrite (map_nth (fun k => Fin (x0 k))), seq_nth by lia. rewrite <- Esol.
      apply solver_ext. intros d'. unfold layer. rewrite !nth_layers by lia. reflexivity.
    - exists d. rewrite <- (Hs d Hd). auto. }
  rewrite Es. cbn [bind].
  assert (Hds : exists ds, map sol_x sols = map Fin ds /\ length ds = L /\ length sols = L /\
    forall k, (k < L)%nat -> 0 <= nth k ds 0 /\ exists sol, nth_error sols k = Some sol /\
    (sol_converged sol = true <-> Rabs (pair_sum N sl (layer_prob g (fun _ => Fin (nth k ds 0)) xs ys k) - T k) <= at_ + rho * T k)).
  { exists (map (fun s => toR (sol_x s)) sols).
    assert (Len : length sols = L) by (rewrite <- (Forall2_len _ _ _ _ _ HF); apply seq_length).
    assert (Q' : forall k sol, nth_error sols k = Some sol -> Q k sol).
    { revert HF. clear. intros HF. assert (G : forall s, Forall2 Q (seq s L) sols -> forall k sol, nth_error sols k = Some sol -> Q (s + k)%nat sol).
      { clear HF. revert L. induction sols as [|a t IH]; intros L s HF k sol Hk; [destruct k; discriminate|].
        destruct L as [|L']; [inversion HF|]. cbn [seq] in HF. inversion HF; subst.
        destruct k as [|k]; cbn [nth_error] in Hk.
        - injection Hk as <-. rewrite Nat.add_0_r. assumption.
        - rewrite Nat.add_succ_r. apply (IH L' (S s)); assumption. }
      intros k sol Hk. exact (G 0%nat HF k sol Hk). }
    split; [|split; [rewrite map_length; exact Len | split; [exact Len|]]].
    - rewrite map_map. apply map_ext_in. intros s Hs. apply In_nth_error in Hs. destruct Hs as [k Hk].
      destruct (Q' k s Hk) as (d & -> & _). reflexivity.
    - intros k Hk. destruct (nth_error sols k) as [s|] eqn:E.
      2:{ apply nth_error_None in E. lia. }
      destruct (Q' k s E) as (d & Ed & Hd & C).
      assert (En : nth k (map (fun s => toR (sol_x s)) sols) 0 = d).
      { apply nth_error_nth. rewrite (map_nth_error _ _ _ E). rewrite Ed. reflexivity. }
      rewrite En. split; [exact Hd|]. exists s. auto. }
  destruct Hds as (ds & E1 & L1 & L2 & HQ).
  destruct (edges_label_spec g p lp l1p K z L N (fun k => Fin (nth k ds 0)) xs ys Tx Ty Nx Ny) with (sl := sl) as (e & Ee & He).
  { intros k Hk. simpl. apply HQ. exact Hk. }
  exists ds, sols, e. rewrite E1. repeat split; try assumption; intros; try (apply HQ; assumption).
  destruct (HQ k H0) as (_ & sol & S1 & S2). exists sol. split; [exact S1|]. rewrite (He k H0). exact S2.
Qed.
End PerLabel.
