(** Fitting the library's models: objective, model at a given parameter and linkable pairs. *)
From Verif Require Import Base Num Spec Kernels KernelFacts MultiKernels MultiFacts Prob Ensemble EnsembleFacts
  EnsembleState Models ModelFacts Solver SolverFacts SolverConcave SolverFinite Fit FitFacts FitModels.
From Coq Require Import Ranalysis Sorting.Sorted FunctionalExtensionality.

(** [library_fit fn M sl can]: [fn] is the density objective of a model with finite fitnesses
    (exp_edges_f_jac with the model's own p_jac_ij), [M d] the model with parameter [d], [sl] its
    self-loop option and [can i j] whether i->j has positive probability at positive parameters. *)
Inductive library_fit : (num -> num * num) -> (R -> model) -> bool -> (nat -> nat -> bool) -> Prop :=
| fit_fitness : forall N sl x y z,
    (forall i, (i < N)%nat -> 0 <= x i /\ 0 <= y i) ->
    (forall i j, (i < N)%nat -> (j < N)%nat -> 0 <= z i j) ->
    library_fit (fun d => exp_edges_f_jac fit_p_jac d (finarr x) (finarr y) (finmat z) N sl)
      (fun d => FitnessModel N (Fin d) (finarr x) (finarr y) (finmat z)) sl
      (fun i j => Rltb 0 (x i * y j * z i j))
| fit_invariant : forall N sl x y z,
    (forall i, (i < N)%nat -> 0 <= x i /\ 0 <= y i) ->
    (forall i j, (i < N)%nat -> (j < N)%nat -> 0 <= z i j) ->
    library_fit (fun d => exp_edges_f_jac inv_p_jac d (finarr x) (finarr y) (finmat z) N sl)
      (fun d => ScaleInvariantModel N (Fin d) (finarr x) (finarr y) (finmat z)) sl
      (fun i j => Rltb 0 (x i * y j * z i j))
| fit_multi_fitness : forall N L sl xs ys,
    (forall i, (i < N)%nat -> canonical L (xs i) /\ all_finite (xs i) /\ canonical L (ys i) /\ all_finite (ys i)) ->
    library_fit (fun d => exp_edges_f_jac (fun d x y (_ : unit) => mfit_p_jac d x y) d xs ys (fun _ _ => tt) N sl)
      (fun d => MultiFitnessModel N (fun _ => Fin d) xs ys) sl
      (fun i j => share L (xs i) (ys j))
| fit_multi_invariant : forall N L sl xs ys,
    (forall i, (i < N)%nat -> canonical L (xs i) /\ all_finite (xs i) /\ canonical L (ys i) /\ all_finite (ys i)) ->
    library_fit (fun d => exp_edges_f_jac (fun d x y (_ : unit) => minv_p_jac d x y) d xs ys (fun _ _ => tt) N sl)
      (fun d => MultiInvariantModel N (fun _ => Fin d) xs ys) sl
      (fun i j => share L (xs i) (ys j)).

(** Number of admissible pairs that can be linked. *)
Definition linkable (N : nat) (sl : bool) (can : nat -> nat -> bool) : R :=
  pair_sum N sl (fun i j => b2r (can i j)).

Lemma library_fit_objective : forall fn M sl can, library_fit fn M sl can ->
  exists pr, density_objective (pairs (m_N (M 0)) sl) pr (fun e => can (fst e) (snd e)) fn /\
    (forall d, m_N (M d) = m_N (M 0)) /\
    (forall e d, In e (pairs (m_N (M 0)) sl) -> 0 <= d -> 0 <= pr e d <= 1) /\
    (forall d, 0 <= d -> m_edges (M d) sl = suml (fun e => pr e d) (pairs (m_N (M 0)) sl)).
Proof.
  assert (R1 : forall t, 0 <= t -> 0 <= logistic t <= 1).
  { intros t Ht. destruct (Req_dec t 0) as [->|H]; [rewrite logistic_0; lra|].
    assert (0 < logistic t < 1) by (apply logistic_range_spec; lra). lra. }
  assert (R2 : forall t, 0 <= t -> 0 <= poissonian t <= 1).
  { intros t Ht. destruct (Req_dec t 0) as [->|H]; [rewrite poissonian_0; lra|].
    assert (0 < poissonian t < 1) by (apply poissonian_range_spec; lra). lra. }
  intros fn M sl can H; destruct H as [N sl x y z H Hz|N sl x y z H Hz|N L sl xs ys H|N L sl xs ys H]; cbn.
  - assert (Hx : forall i, (i < N)%nat -> 0 <= x i) by (intros; apply H; assumption).
    assert (Hy : forall i, (i < N)%nat -> 0 <= y i) by (intros; apply H; assumption).
    eexists; split; [exact (fit_objective N sl x y z Hx Hy Hz)|]. split; [reflexivity|]. split.
    + intros e d He Hd. apply R1. apply Rmult_le_pos; [exact Hd|]. apply (rate_nonneg N sl x y z Hx Hy Hz e He).
    + intros d Hd. apply (fit_exp_edges N sl x y z Hx Hy Hz d Hd).
  - assert (Hx : forall i, (i < N)%nat -> 0 <= x i) by (intros; apply H; assumption).
    assert (Hy : forall i, (i < N)%nat -> 0 <= y i) by (intros; apply H; assumption).
    eexists; split; [exact (inv_objective N sl x y z Hx Hy Hz)|]. split; [reflexivity|]. split.
    + intros e d He Hd. apply R2. apply Rmult_le_pos; [exact Hd|]. apply (rate_nonneg N sl x y z Hx Hy Hz e He).
    + intros d Hd. apply (inv_exp_edges N sl x y z Hx Hy Hz d Hd).
  - assert (Hxs : forall i, (i < N)%nat -> canonical L (xs i) /\ all_finite (xs i)) by (intros i Hi; destruct (H i Hi) as (?&?&?&?); auto).
    assert (Hys : forall i, (i < N)%nat -> canonical L (ys i) /\ all_finite (ys i)) by (intros i Hi; destruct (H i Hi) as (?&?&?&?); auto).
    eexists; split; [exact (mfit_objective N sl L xs ys Hxs Hys)|]. split; [reflexivity|]. split.
    + intros [i j] d He Hd. apply in_pairs in He. destruct He as (Hi & Hj & _).
      pose proof (mfit_p_eq N L xs ys Hxs Hys i j d Hi Hj Hd) as E.
      assert (LM : library_model (MultiFitnessModel N (fun _ => Fin d) xs ys)
        (fun i j => any_layer L (fun k => link_prob logistic [Fin d; lookup k (xs i); lookup k (ys j); Fin 1]))).
      { apply (lib_multi_fitness N L (fun _ => Fin d) xs ys); [intros; exact Hd|].
        intros v Hv. destruct (H v Hv) as (A & B & C & D). repeat split; try apply A; try apply C.
        - eapply Forall_impl; [|exact B]. intros p (w & -> & Hw); exact Hw.
        - eapply Forall_impl; [|exact D]. intros p (w & -> & Hw); exact Hw. }
      pose proof (lib_prob _ _ LM i j Hi Hj) as P. cbn [m_N MultiFitnessModel] in P.
      pose proof (proj1 (library_kernel _ _ LM i j Hi Hj)) as K. cbn in K. rewrite E in K. cbn [toR] in K.
      cbn. rewrite <- K in P. exact P.
    + intros d Hd. apply (mfit_exp_edges N sl L xs ys Hxs Hys d (fun _ => Fin d) Hd). reflexivity.
  - assert (Hxs : forall i, (i < N)%nat -> canonical L (xs i) /\ all_finite (xs i)) by (intros i Hi; destruct (H i Hi) as (?&?&?&?); auto).
    assert (Hys : forall i, (i < N)%nat -> canonical L (ys i) /\ all_finite (ys i)) by (intros i Hi; destruct (H i Hi) as (?&?&?&?); auto).
    eexists; split; [exact (minv_objective N sl L xs ys Hxs Hys)|]. split; [reflexivity|]. split.
    + intros [i j] d He Hd. apply in_pairs in He. destruct He as (Hi & Hj & _).
      pose proof (minv_p_eq N L xs ys Hxs Hys i j d Hi Hj Hd) as E.
      assert (LM : library_model (MultiInvariantModel N (fun _ => Fin d) xs ys)
        (fun i j => any_layer L (fun k => link_prob poissonian [Fin d; lookup k (xs i); lookup k (ys j); Fin 1]))).
      { apply (lib_multi_invariant N L (fun _ => Fin d) xs ys); [intros; exact Hd|].
        intros v Hv. destruct (H v Hv) as (A & B & C & D). repeat split; try apply A; try apply C.
        - eapply Forall_impl; [|exact B]. intros p (w & -> & Hw); exact Hw.
        - eapply Forall_impl; [|exact D]. intros p (w & -> & Hw); exact Hw. }
      pose proof (lib_prob _ _ LM i j Hi Hj) as P. cbn [m_N MultiInvariantModel] in P.
      pose proof (proj1 (library_kernel _ _ LM i j Hi Hj)) as K. cbn in K. rewrite E in K. cbn [toR] in K.
      cbn. rewrite <- K in P. exact P.
    + intros d Hd. apply (minv_exp_edges N sl L xs ys Hxs Hys d (fun _ => Fin d) Hd). reflexivity.
Qed.

Lemma linkable_list : forall N sl can,
  linkable N sl can = suml (fun e => b2r (can (fst e) (snd e))) (pairs N sl).
Proof. intros. unfold linkable. apply pair_sum_list. Qed.

Section Lib.
Variables (fn : num -> num * num) (M : R -> model) (sl : bool) (can : nat -> nat -> bool).
Hypothesis H : library_fit fn M sl can.
Let cap := linkable (m_N (M 0)) sl can.

(** C49 *)
Lemma lib_fit_total : forall T at_ rho x0 mi, 0 <= T -> 0 < at_ -> 0 <= rho -> 0 <= x0 ->
  exists f d, fitness_fit fn (Some (Fin T)) (Some (Numeric [Fin x0])) Density (Fin at_) (Fin rho) mi = Ok f /\
    fitted_param f = Fin d /\ 0 <= d /\
    (sol_converged (fitted_sol f) = true <-> Rabs (m_edges (M d) sl - T) <= at_ + rho * T) /\
    fitted_warned f = negb (sol_converged (fitted_sol f)) /\
    (sol_n_iter (fitted_sol f) <= mi)%nat.
Proof.
  intros T at_ rho x0 mi HT Ha Hr Hx. destruct (library_fit_objective fn M sl can H) as (pr & Ho & _ & _ & He).
  destruct (fit_total _ _ _ _ _ Ho T at_ rho x0 mi HT Ha Hr Hx) as (f & d & E & Ep & Hd & C & W & I).
  exists f, d. rewrite (He d Hd). auto 10.
Qed.

(** C26 *)
Lemma lib_fit_terminates : forall T at_ rho x0, 0 <= T < cap -> 0 <= at_ -> 0 <= rho -> 0 < at_ + rho * T ->
  0 <= x0 -> (m_edges (M x0) sl <> T \/ 0 < at_) ->
  exists B, forall mi, (B <= mi)%nat ->
  exists f, fitness_fit fn (Some (Fin T)) (Some (Numeric [Fin x0])) Density (Fin at_) (Fin rho) mi = Ok f /\
    (sol_converged (fitted_sol f) = true \/ sol_no_change_stop (fitted_sol f) = true).
Proof.
  intros T at_ rho x0 HT Ha Hr Ht Hx Hs. destruct (library_fit_objective fn M sl can H) as (pr & Ho & _ & _ & He).
  unfold cap in HT. rewrite linkable_list in HT. rewrite (He x0 Hx) in Hs.
  exact (fit_terminates _ _ _ _ _ Ho T at_ rho x0 HT Ha Hr Ht Hx Hs).
Qed.

(** C25 *)
Lemma lib_fit_from_below : forall T at_ rho x0 mi, 0 < T < cap -> 0 <= at_ -> 0 <= rho ->
  0 <= x0 -> m_edges (M x0) sl < T ->
  exists f xs, fitness_fit fn (Some (Fin T)) (Some (Numeric [Fin x0])) Density (Fin at_) (Fin rho) mi = Ok f /\
    sol_x_seq (fitted_sol f) = map Fin xs /\ hd 0 xs = x0 /\ length xs = S (sol_n_iter (fitted_sol f)) /\
    fitted_param f = Fin (last xs 0) /\
    StronglySorted Rlt xs /\ Forall (fun d => x0 <= d /\ m_edges (M d) sl <= T) xs /\
    (forall k, (S k < length xs)%nat -> exists p j, fn (Fin (nth k xs 0)) = (Fin p, Fin j) /\ 0 < j /\
        nth (S k) xs 0 = nth k xs 0 + (T - p) / j).
Proof.
  intros T at_ rho x0 mi HT Ha Hr Hx Hs. destruct (library_fit_objective fn M sl can H) as (pr & Ho & _ & _ & He).
  unfold cap in HT. rewrite linkable_list in HT. rewrite (He x0 Hx) in Hs.
  destruct (fit_from_below _ _ _ _ _ Ho T at_ rho x0 mi HT Ha Hr Hx Hs) as (f & xs & E & A1 & A2 & A3 & A4 & A5 & A6 & A7).
  exists f, xs. repeat split; try assumption.
  eapply Forall_impl; [|exact A6]. intros d [D1 D2]. cbn beta in *. rewrite He by lra. auto.
Qed.

(** The expected number of edges starts at 0 and never exceeds the number of linkable pairs. *)
Lemma lib_fit_range : forall d, 0 <= d -> 0 <= m_edges (M d) sl <= cap.
Proof.
  intros d Hd. destruct (library_fit_objective fn M sl can H) as (pr & Ho & _ & Hp & He).
  rewrite (He d Hd). split.
  - apply suml_nonneg. intros e Hi. apply (Hp e d Hi Hd).
  - unfold cap. rewrite linkable_list. apply (objective_below_cap _ _ _ _ _ Ho); [|exact Hd].
    intros e d' Hi Hd'. apply (Hp e d' Hi Hd').
Qed.

Lemma lib_fit_zero : m_edges (M 0) sl = 0.
Proof.
  destruct (library_fit_objective fn M sl can H) as (pr & Ho & _ & _ & He).
  rewrite (He 0 (Rle_refl 0)). exact (objective_zero _ _ _ _ _ Ho).
Qed.
End Lib.

(** C30: the Jacobian returned with the objective is the derivative of the expected number of edges. *)
Lemma lib_fit_derivative : forall fn M sl can, library_fit fn M sl can -> forall d, 0 <= d ->
  exists e g, fn (Fin d) = (Fin e, Fin g) /\ m_edges (M d) sl = e /\
    derivable_pt_lim (fun t => m_edges (M t) sl) d g.
Proof.
  intros fn M sl can H d Hd; destruct H as [N sl x y z H Hz|N sl x y z H Hz|N L sl xs ys H|N L sl xs ys H]; cbn.
  - apply (exp_edges_derivative num num num fit_p_ij fit_p_jac (fun d => d) d (finarr x) (finarr y) (finmat z) N sl).
    intros i j Hi Hj _. apply fit_jac_derivative; [exact Hd|apply H; exact Hi|apply H; exact Hj|apply Hz; assumption].
  - apply (exp_edges_derivative num num num inv_p_ij inv_p_jac (fun d => d) d (finarr x) (finarr y) (finmat z) N sl).
    intros i j Hi Hj _. apply inv_jac_derivative; [exact Hd|apply H; exact Hi|apply H; exact Hj|apply Hz; assumption].
  - apply (exp_edges_derivative (nat -> num) svec unit (fun d x y (_ : unit) => mfit_p_ij d x y)
      (fun d x y (_ : unit) => mfit_p_jac d x y) (fun d _ => d) d xs ys (fun _ _ => tt) N sl).
    intros i j Hi Hj _. destruct (H i Hi) as (A & B & _ & _), (H j Hj) as (_ & _ & C & D). apply (mfit_jac_spec L); assumption.
  - apply (exp_edges_derivative (nat -> num) svec unit (fun d x y (_ : unit) => minv_p_ij d x y)
      (fun d x y (_ : unit) => minv_p_jac d x y) (fun d _ => d) d xs ys (fun _ _ => tt) N sl).
    intros i j Hi Hj _. destruct (H i Hi) as (A & B & _ & _), (H j Hj) as (_ & _ & C & D). apply (minv_jac_spec L); assumption.
Qed.

(** ** Monotonicity of the multi-label probabilities *)

Lemma prodn_mono : forall n f g, (forall k, (k < n)%nat -> 0 <= f k <= g k) -> prodn n f <= prodn n g.
Proof.
  intros n f g H. cut (0 <= prodn n f <= prodn n g); [intros X; apply X|].
  induction n as [|n IH]; simpl; [lra|].
  assert (0 <= prodn n f <= prodn n g) by (apply IH; intros; apply H; lia).
  pose proof (H n ltac:(lia)). split; [apply Rmult_le_pos; lra|apply Rmult_le_compat; lra].
Qed.

Lemma link_prob_mono : forall k g, kernel_view k g -> range_spec g -> nondecr_pos g ->
  forall d x y d' x' y', nonneg d -> nonneg x -> nonneg y -> nle d d' -> nle x x' -> nle y y' ->
  0 <= link_prob g [d; x; y; Fin 1] <= link_prob g [d'; x'; y'; Fin 1] /\ link_prob g [d'; x'; y'; Fin 1] <= 1.
Proof.
  intros k g V G Mo d x y d' x' y' Hd Hx Hy Ld Lx Ly.
  assert (Hd' := nle_nonneg_fin _ _ Hd Ld). assert (Hx' := nle_nonneg_fin _ _ Hx Lx).
  assert (Hy' := nle_nonneg_fin _ _ Hy Ly).
  assert (H1 : nonneg (Fin 1)) by (simpl; lra). assert (L1 : nle (Fin 1) (Fin 1)) by (simpl; lra).
  pose proof (view_monotone k g V G Mo d x y _ d' x' y' _ Hd Hx Hy H1 Ld Lx Ly L1) as X.
  destruct (view_probability k g V G d x y (Fin 1)) as (p & Ep & Rp & _); try assumption.
  destruct (view_probability k g V G d' x' y' (Fin 1)) as (p' & Ep' & Rp' & _); try assumption.
  rewrite !(view_link_prob k g V) in * by assumption. cbn [toR] in X. injection Ep as <-. injection Ep' as <-. lra.
Qed.

Definition multi_le (L : nat) (d d' : nat -> num) (xs xs' ys ys' : svec) : Prop :=
  forall k, (k < L)%nat -> nle (d k) (d' k) /\ nle (lookup k xs) (lookup k xs') /\ nle (lookup k ys) (lookup k ys').

Lemma multi_mono : forall L d d' xs xs' ys ys',
  canonical L xs -> canonical L xs' -> canonical L ys -> canonical L ys' ->
  all_nonneg xs -> all_nonneg xs' -> all_nonneg ys -> all_nonneg ys' ->
  (forall k, (k < L)%nat -> nonneg (d k)) -> multi_le L d d' xs xs' ys ys' ->
  toR (mfit_p_ij d xs ys) <= toR (mfit_p_ij d' xs' ys') /\
  toR (minv_p_ij d xs ys) <= toR (minv_p_ij d' xs' ys').
Proof.
  intros L d d' xs xs' ys ys' C1 C2 C3 C4 P1 P2 P3 P4 Hd HL.
  assert (Hd' : forall k, (k < L)%nat -> nonneg (d' k)).
  { intros k Hk. apply (nle_nonneg_fin (d k)); [apply Hd; exact Hk|apply HL; exact Hk]. }
  rewrite !(mfit_union L), !(minv_union L) by assumption. cbn [toR].
  split; apply Rplus_le_compat_l, Ropp_le_contravar, prodn_mono; intros k Hk; destruct (HL k Hk) as (Q1 & Q2 & Q3).
  - destruct (link_prob_mono fit_p_ij logistic fit_view logistic_range_spec logistic_mono (d k) (lookup k xs) (lookup k ys)
      (d' k) (lookup k xs') (lookup k ys')) as [? ?]; auto using lookup_nonneg. lra.
  - destruct (link_prob_mono inv_p_ij poissonian inv_view poissonian_range_spec poissonian_mono (d k) (lookup k xs) (lookup k ys)
      (d' k) (lookup k xs') (lookup k ys')) as [? ?]; auto using lookup_nonneg. lra.
Qed.

Lemma multi_edges_mono : forall N L sl d d' (xs xs' ys ys' : nat -> svec),
  (forall k, (k < L)%nat -> nonneg (d k)) ->
  (forall i, (i < N)%nat -> canonical L (xs i) /\ all_nonneg (xs i) /\ canonical L (ys i) /\ all_nonneg (ys i)) ->
  (forall i, (i < N)%nat -> canonical L (xs' i) /\ all_nonneg (xs' i) /\ canonical L (ys' i) /\ all_nonneg (ys' i)) ->
  (forall i, (i < N)%nat -> multi_le L d d' (xs i) (xs' i) (ys i) (ys' i)) ->
  m_edges (MultiFitnessModel N d xs ys) sl <= m_edges (MultiFitnessModel N d' xs' ys') sl /\
  m_edges (MultiInvariantModel N d xs ys) sl <= m_edges (MultiInvariantModel N d' xs' ys') sl.
Proof.
  intros N L sl d d' xs xs' ys ys' Hd H H' HL.
  assert (X : forall i j, (i < N)%nat -> (j < N)%nat ->
     toR (mfit_p_ij d (xs i) (ys j)) <= toR (mfit_p_ij d' (xs' i) (ys' j)) /\
     toR (minv_p_ij d (xs i) (ys j)) <= toR (minv_p_ij d' (xs' i) (ys' j))).
  { intros i j Hi Hj. destruct (H i Hi) as (A1 & A2 & _ & _), (H j Hj) as (_ & _ & A3 & A4).
    destruct (H' i Hi) as (B1 & B2 & _ & _), (H' j Hj) as (_ & _ & B3 & B4).
    apply (multi_mono L); auto. intros k Hk. destruct (HL i Hi k Hk) as (Q1 & Q2 & _), (HL j Hj k Hk) as (_ & _ & Q3). auto. }
  unfold m_edges. cbn -[exp_edges mfit_p_ij minv_p_ij]. split; rewrite !exp_edges_spec; apply pair_sum_le; intros i j Hi Hj _; apply X; assumption.
Qed.

(** C49 for MultiFitnessModel.fit with a single parameter for all labels. *)
Lemma lib_multi_fit_total : forall fn M sl can, library_fit fn M sl can ->
  forall L layer T at_ rho x0 rest mi, 0 <= T -> 0 < at_ -> 0 <= rho -> 0 <= x0 ->
  length (x0 :: rest) = L -> Forall (fun x => 0 <= x) rest ->
  exists sol d, multi_fit L false fn layer (Some (Fin T)) None (Some (Numeric (map Fin (x0 :: rest)))) Density
      (Fin at_) (Fin rho) mi = Ok (repeat (Fin d) L, [sol]) /\ 0 <= d /\
    (sol_converged sol = true <-> Rabs (m_edges (M d) sl - T) <= at_ + rho * T).
Proof.
  intros fn M sl can H L layer T at_ rho x0 rest mi HT Ha Hr Hx HL HF.
  destruct (lib_fit_total fn M sl can H T at_ rho x0 mi HT Ha Hr Hx) as (f & d & E & Ep & Hd & C & _).
  unfold fitness_fit in E. cbn [arr_len length Nat.eqb guard any_neg existsb nth] in E.
  rewrite orb_false_r in E. cbn [nltb] in E. rewrite Rltb_false in E by exact Hx. cbn [negb guard] in E.
  destruct (monotonic_newton_solver _ _ _ _ _ _ _ _ _ _) as [sol|ex] eqn:Es; cbn [bind] in E; [|discriminate].
  injection E as <-. cbn [fitted_sol fitted_param] in *. exists sol, d. split; [|split; assumption].
  unfold multi_fit. cbn [arr_len]. rewrite map_length, HL, Nat.eqb_refl. cbn [guard].
  assert (A : any_neg (map Fin (x0 :: rest)) = false).
  { unfold any_neg. apply not_true_iff_false. rewrite existsb_exists. intros (v & Hv & Hn).
    apply in_map_iff in Hv. destruct Hv as (w & <- & Hw). cbn [nltb] in Hn.
    assert (0 <= w) by (destruct Hw as [<-|Hw]; [exact Hx|rewrite Forall_forall in HF; apply HF; exact Hw]).
    rewrite Rltb_false in Hn by assumption. discriminate. }
  rewrite A. cbn [negb guard map nth]. rewrite Es. cbn [bind]. rewrite Ep. reflexivity.
Qed.
