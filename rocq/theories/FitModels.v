(** The density objectives of the models, and what fitting them gives. *)
From Verif Require Import Base Num Kernels KernelFacts MultiKernels MultiFacts Prob Ensemble EnsembleFacts
  Solver SolverFacts SolverConcave SolverFinite Fit FitFacts.
From Coq Require Import Ranalysis Sorting.Sorted.

(** ** The loops add up *)

Lemma acc_fin : forall u v p j, acc_pair (Fin u, Fin v) (Fin p, Fin j) = (Fin (u + p), Fin (v + j)).
Proof. reflexivity. Qed.

Lemma for_range_acc : forall n (body : nat -> num * num -> num * num) (p j : nat -> R) u v,
  (forall k u v, (k < n)%nat -> body k (Fin u, Fin v) = (Fin (u + p k), Fin (v + j k))) ->
  for_range n body (Fin u, Fin v) = (Fin (u + sumn n p), Fin (v + sumn n j)).
Proof.
  induction n as [|n IH]; intros body p j u v H; simpl.
  - f_equal; f_equal; ring.
  - rewrite (IH body p j u v) by (intros k u' v' Hk; apply H; lia).
    rewrite H by lia. f_equal; f_equal; ring.
Qed.

Lemma f_jac_sum : forall X Y Z (p_jac : num -> X -> Y -> Z -> num * num) d po pin z N sl (P J : nat -> nat -> R),
  (forall i j, (i < N)%nat -> (j < N)%nat -> allowed sl i j = true ->
     p_jac d (po i) (pin j) (z i j) = (Fin (P i j), Fin (J i j))) ->
  exp_edges_f_jac p_jac d po pin z N sl = (Fin (pair_sum N sl P), Fin (pair_sum N sl J)).
Proof.
  intros X Y Z p_jac d po pin z N sl P J H. unfold exp_edges_f_jac.
  rewrite (for_range_acc N _ (fun i => sumn N (fun j => if allowed sl i j then P i j else 0))
            (fun i => sumn N (fun j => if allowed sl i j then J i j else 0))).
  - unfold pair_sum. f_equal; f_equal; ring.
  - intros i u v Hi.
    apply (for_range_acc N _ (fun j => if allowed sl i j then P i j else 0)
                             (fun j => if allowed sl i j then J i j else 0)).
    intros j u' v' Hj. change (adm sl i j) with (allowed sl i j).
    destruct (allowed sl i j) eqn:E; [|f_equal; f_equal; ring].
    rewrite H by assumption. apply acc_fin.
Qed.

(** Only the first component, when the Jacobian may be infinite. *)
Lemma for_range_fst : forall n (body : nat -> num * num -> num * num) (p : nat -> R) s u,
  fst s = Fin u ->
  (forall k s u, (k < n)%nat -> fst s = Fin u -> fst (body k s) = Fin (u + p k)) ->
  fst (for_range n body s) = Fin (u + sumn n p).
Proof.
  induction n as [|n IH]; intros body p s u Hs H; simpl.
  - rewrite Hs. f_equal; ring.
  - rewrite (H n _ (u + sumn n p)); [f_equal; ring | lia |].
    apply IH; [exact Hs | intros k s' u' Hk; apply H; lia].
Qed.

Lemma f_jac_fst : forall X Y Z (p_jac : num -> X -> Y -> Z -> num * num) d po pin z N sl (P : nat -> nat -> R),
  (forall i j, (i < N)%nat -> (j < N)%nat -> allowed sl i j = true ->
     fst (p_jac d (po i) (pin j) (z i j)) = Fin (P i j)) ->
  fst (exp_edges_f_jac p_jac d po pin z N sl) = Fin (pair_sum N sl P).
Proof.
  intros X Y Z p_jac d po pin z N sl P H. unfold exp_edges_f_jac.
  rewrite (for_range_fst N _ (fun i => sumn N (fun j => if allowed sl i j then P i j else 0)) _ 0).
  - unfold pair_sum. f_equal; ring.
  - reflexivity.
  - intros i s u Hi Hs.
    apply (for_range_fst N _ (fun j => if allowed sl i j then P i j else 0)); [exact Hs|].
    intros j s' u' Hj Hs'. change (adm sl i j) with (allowed sl i j).
    destruct (allowed sl i j) eqn:E; [|rewrite Hs'; f_equal; ring].
    unfold acc_pair; simpl. rewrite Hs', H by assumption. reflexivity.
Qed.

(** The layer loop over lists. *)
Definition layer_pairs (sl : bool) (po pin : list (nat * num)) : list ((nat * num) * (nat * num)) :=
  filter (fun e => allowed sl (fst (fst e)) (fst (snd e))) (list_prod po pin).

Lemma for_each_acc : forall A (l : list A) (body : A -> num * num -> num * num) (p j : A -> R) u v,
  (forall e u v, In e l -> body e (Fin u, Fin v) = (Fin (u + p e), Fin (v + j e))) ->
  for_each l body (Fin u, Fin v) = (Fin (u + suml p l), Fin (v + suml j l)).
Proof.
  intros A l; induction l as [|e l IH]; intros body p j u v H; simpl.
  - unfold for_each; simpl. f_equal; f_equal; ring.
  - change (for_each (e :: l) body (Fin u, Fin v)) with (for_each l body (body e (Fin u, Fin v))).
    rewrite H by (left; reflexivity).
    rewrite (IH body p j) by (intros e' u' v' He; apply H; right; exact He).
    f_equal; f_equal; ring.
Qed.

Lemma suml_list_prod : forall A B (f : A * B -> R) (l : list A) (m : list B),
  suml f (list_prod l m) = suml (fun x => suml (fun y => f (x, y)) m) l.
Proof.
  intros A B f l m; induction l as [|x l IH]; simpl; [reflexivity|].
  rewrite suml_app, suml_map, IH. reflexivity.
Qed.

Lemma layer_f_jac_sum : forall (k : num -> num -> num -> num * num) d po pin sl
  (P J : (nat * num) * (nat * num) -> R),
  (forall e, In e (layer_pairs sl po pin) -> k d (snd (fst e)) (snd (snd e)) = (Fin (P e), Fin (J e))) ->
  exp_edges_f_jac_layer k d po pin sl
  = (Fin (suml P (layer_pairs sl po pin)), Fin (suml J (layer_pairs sl po pin))).
Proof.
  intros k d po pin sl P J H. unfold exp_edges_f_jac_layer.
  rewrite (for_each_acc _ po _ (fun o => suml (fun i => if allowed sl (fst o) (fst i) then P (o, i) else 0) pin)
            (fun o => suml (fun i => if allowed sl (fst o) (fst i) then J (o, i) else 0) pin)).
  - unfold layer_pairs. rewrite !suml_filter, !suml_list_prod. simpl.
    f_equal; f_equal; ring.
  - intros o u v Ho.
    apply (for_each_acc _ pin _ (fun i => if allowed sl (fst o) (fst i) then P (o, i) else 0)
             (fun i => if allowed sl (fst o) (fst i) then J (o, i) else 0)).
    intros i u' v' Hi. change (adm sl (fst o) (fst i)) with (allowed sl (fst o) (fst i)).
    destruct (allowed sl (fst o) (fst i)) eqn:E; [|f_equal; f_equal; ring].
    pose proof (H (o, i)) as Hoi. simpl in Hoi. rewrite Hoi; [apply acc_fin|].
    unfold layer_pairs. apply filter_In. split; [apply in_prod; assumption | exact E].
Qed.

(** ** Density objectives *)

(** [fn] is the objective whose terms [pr e] are link probabilities of the pairs [l], with
    [act e] telling which pairs can be linked at all. *)
Definition density_objective {E} (l : list E) (pr : E -> R -> R) (act : E -> bool)
    (fn : num -> num * num) : Prop :=
  exists (a : E -> R) (h' : E -> R -> R),
    (forall e, In e l -> prob_term (a e) (pr e) (h' e)) /\
    (forall e, In e l -> act e = Rltb 0 (a e)) /\
    (forall d, 0 <= d -> fn (Fin d) = (Fin (suml (fun e => pr e d) l), Fin (suml (fun e => h' e d) l))).

Lemma active_act : forall E (l : list E) a act, (forall e, In e l -> act e = Rltb 0 (a e)) ->
  active E l a = suml (fun e => b2r (act e)) l.
Proof. intros E l a act H. unfold active. apply suml_ext. intros e He. rewrite H by exact He. reflexivity. Qed.

(** Where the derivative vanishes the objective vanishes. *)
Lemma flat_zero : forall E (l : list E) a (h h' : E -> R -> R),
  (forall e, In e l -> prob_term (a e) (h e) (h' e)) ->
  forall d, 0 <= d -> suml (fun e => h' e d) l = 0 -> suml (fun e => h e d) l = 0.
Proof.
  intros E l a h h' Ht d Hd H0.
  assert (Ha : active E l a <= 0).
  { destruct (Rle_lt_dec (active E l a) 0) as [H|H]; [exact H|].
    pose proof (D_pos E l a h h' Ht H d Hd). lra. }
  apply suml_zero. intros e He.
  destruct (Ht e He) as (Hae & H1 & H2 & H3 & H4).
  destruct (Rle_lt_or_eq_dec 0 (a e) Hae) as [Hp|Hz].
  - exfalso. assert (b2r (Rltb 0 (a e)) <= active E l a).
    { unfold active. apply (suml_in_le E (fun e => b2r (Rltb 0 (a e)))); [|exact He].
      intros y _. apply b2r_range. }
    rewrite Rltb_true in H by exact Hp. simpl in H. lra.
  - destruct (H2 (eq_sym Hz) d Hd) as [E0 _]. exact E0.
Qed.

Section Fits.
Variables (E : Type) (l : list E) (pr : E -> R -> R) (act : E -> bool) (fn : num -> num * num).
Hypothesis Hobj : density_objective l pr act fn.
Let F (d : R) : R := suml (fun e => pr e d) l.

Lemma objective_zero : F 0 = 0.
Proof. destruct Hobj as (a & h' & Ht & Hact & Hfn). exact (F_0 E l a pr h' Ht). Qed.

(** Whatever the target, a positive absolute tolerance makes the fit total, and the reported
    convergence means that the target is met. *)
Lemma fit_total : forall T at_ rho x0 mi, 0 <= T -> 0 < at_ -> 0 <= rho -> 0 <= x0 ->
  exists f d, fitness_fit fn (Some (Fin T)) (Some (Numeric [Fin x0])) Density (Fin at_) (Fin rho) mi = Ok f /\
    fitted_param f = Fin d /\ 0 <= d /\
    (sol_converged (fitted_sol f) = true <-> Rabs (F d - T) <= at_ + rho * T) /\
    fitted_warned f = negb (sol_converged (fitted_sol f)) /\
    (sol_n_iter (fitted_sol f) <= mi)%nat.
Proof.
  intros T at_ rho x0 mi HT Ha Hr Hx0. destruct Hobj as (a & h' & Ht & Hact & Hfn).
  assert (HrT : 0 <= rho * T) by (apply Rmult_le_pos; assumption).
  destruct (finite_start_safe fn T at_ rho F (fun d => suml (fun e => h' e d) l)) with (x0 := x0) (max_iter := mi)
    as (sol & Es & Hxs).
  - exact Hfn.
  - intros d Hd. apply (D_nonneg E l a pr h' Ht d Hd).
  - intros d Hd H0. unfold F. rewrite (flat_zero E l a pr h' Ht d Hd H0). exact HT.
  - exact Ha.
  - lra.
  - exact Hx0.
  - unfold fitness_fit. simpl arr_len. simpl Nat.eqb. cbn [guard].
    unfold any_neg; simpl existsb. rewrite Rltb_false by exact Hx0. simpl negb. cbn [guard].
    simpl nth. rewrite Es. cbn [bind].
    destruct (report_truthful fn (Fin T) (Fin at_) (Fin rho) (Fin x0) mi (Fin 0) PInf None None sol Es)
      as (R1 & R2 & R3 & R4 & R5 & R6 & R7 & R8 & R9 & R10 & R11).
    assert (Hin : In (sol_x sol) (sol_x_seq sol)).
    { rewrite <- R10. destruct (sol_x_seq sol) as [|x t] eqn:Ex; [discriminate|].
      assert (Hne : x :: t <> []) by discriminate.
      destruct (exists_last Hne) as [l' [z Hz]]. rewrite Hz.
      rewrite last_last. apply in_or_app; right; left; reflexivity. }
    rewrite Forall_forall in Hxs. destruct (Hxs _ Hin) as (d & Ed & Hd).
    eexists; exists d. split; [reflexivity|]. cbn [fitted_param fitted_sol fitted_warned].
    split; [exact Ed|]. split; [exact Hd|]. split; [|split; [reflexivity | exact R1]].
    rewrite R3, Ed, Hfn by exact Hd. unfold nsub. simpl. rewrite nleb_fin. fold (F d).
    replace (F d + - T) with (F d - T) by ring.
    destruct (Rleb_spec (Rabs (F d - T)) (at_ + rho * T)); split; intros; try assumption; try reflexivity.
    + discriminate.
    + contradiction.
Qed.

(** The default start is 0. *)
Lemma fit_default : forall T m at_ rho mi,
  fitness_fit fn T None m at_ rho mi = fitness_fit fn T (Some (Numeric [Fin 0])) m at_ rho mi.
Proof. reflexivity. Qed.

Lemma fit_solver : forall T at_ rho x0 mi sol, 0 <= x0 ->
  monotonic_newton_solver fn (Fin x0) (Fin T) (Fin at_) (Fin rho) mi (Fin 0) PInf None None = Ok sol ->
  fitness_fit fn (Some (Fin T)) (Some (Numeric [Fin x0])) Density (Fin at_) (Fin rho) mi
  = Ok (mkFitted (sol_x sol) sol (negb (sol_converged sol))).
Proof.
  intros T at_ rho x0 mi sol Hx0 Es. unfold fitness_fit. simpl arr_len. simpl Nat.eqb. cbn [guard].
  unfold any_neg; simpl existsb. rewrite Rltb_false by exact Hx0. simpl negb. cbn [guard].
  simpl nth. rewrite Es. reflexivity.
Qed.

Let cap : R := suml (fun e => b2r (act e)) l.

Lemma fit_terminates : forall T at_ rho x0, 0 <= T < cap -> 0 <= at_ -> 0 <= rho -> 0 < at_ + rho * T ->
  0 <= x0 -> (F x0 <> T \/ 0 < at_) ->
  exists M, forall mi, (M <= mi)%nat ->
  exists f, fitness_fit fn (Some (Fin T)) (Some (Numeric [Fin x0])) Density (Fin at_) (Fin rho) mi = Ok f /\
    (sol_converged (fitted_sol f) = true \/ sol_no_change_stop (fitted_sol f) = true).
Proof.
  intros T at_ rho x0 HT Ha Hr Htol Hx0 Hex. destruct Hobj as (a & h' & Ht & Hact & Hfn).
  assert (Ec : cap = active E l a) by (symmetry; apply active_act; exact Hact).
  destruct (objective_terminates E l a pr h' Ht fn Hfn T at_ rho x0) as (M & HM); try assumption; try lra.
  exists M. intros mi Hmi. destruct (HM mi Hmi) as (sol & Es & Hst).
  eexists; split; [apply fit_solver; [exact Hx0 | exact Es]|]. exact Hst.
Qed.

(** Started below the target, the recorded points are Newton's iterates, increase and stay below. *)
Lemma fit_from_below : forall T at_ rho x0 mi, 0 < T < cap -> 0 <= at_ -> 0 <= rho ->
  0 <= x0 -> F x0 < T ->
  exists f xs, fitness_fit fn (Some (Fin T)) (Some (Numeric [Fin x0])) Density (Fin at_) (Fin rho) mi = Ok f /\
    sol_x_seq (fitted_sol f) = map Fin xs /\ hd 0 xs = x0 /\ length xs = S (sol_n_iter (fitted_sol f)) /\
    fitted_param f = Fin (last xs 0) /\
    StronglySorted Rlt xs /\ Forall (fun d => x0 <= d /\ F d <= T) xs /\
    (forall k, (S k < length xs)%nat -> exists p j, fn (Fin (nth k xs 0)) = (Fin p, Fin j) /\ 0 < j /\
        nth (S k) xs 0 = nth k xs 0 + (T - p) / j).
Proof.
  intros T at_ rho x0 mi HT Ha Hr Hx0 HF. destruct Hobj as (a & h' & Ht & Hact & Hfn).
  assert (Ec : cap = active E l a) by (symmetry; apply active_act; exact Hact).
  set (D := fun d => suml (fun e => h' e d) l).
  destruct (objective_from_below E l a pr h' Ht fn Hfn T at_ rho x0 mi) as (sol & Es & Hseq & Hk & Hinc); try assumption; try lra.
  change (fun d : R => suml (fun e : E => pr e d) l) with F in Hseq, Hk, Hinc.
  change (fun d : R => suml (fun e : E => h' e d) l) with D in Hseq, Hk, Hinc.
  set (n := sol_n_iter sol) in *.
  set (xs := map (fun k => Nat.iter k (newton T F D) x0) (seq 0 (S n))).
  assert (Hlen : length xs = S n) by (unfold xs; rewrite map_length, seq_length; reflexivity).
  assert (Hnth : forall k, (k < S n)%nat -> nth k xs 0 = Nat.iter k (newton T F D) x0).
  { intros k Hkn. unfold xs. erewrite nth_indep by (rewrite map_length, seq_length; exact Hkn).
    rewrite (map_nth (fun k => Nat.iter k (newton T F D) x0) (seq 0 (S n)) 0%nat k).
    rewrite seq_nth by exact Hkn. reflexivity. }
  assert (Hmono : forall i j, (i < j)%nat -> (j <= n)%nat ->
     Nat.iter i (newton T F D) x0 < Nat.iter j (newton T F D) x0).
  { intros i j Hij Hj. induction j as [|j IHj]; [lia|].
    destruct (Nat.eq_dec i j) as [->|Hne]; [apply Hinc; lia|].
    apply Rlt_trans with (Nat.iter j (newton T F D) x0); [apply IHj; lia | apply Hinc; lia]. }
  exists (mkFitted (sol_x sol) sol (negb (sol_converged sol))), xs.
  split; [apply fit_solver; assumption|]. cbn [fitted_sol fitted_param].
  destruct (report_truthful fn (Fin T) (Fin at_) (Fin rho) (Fin x0) mi (Fin 0) PInf None None sol Es)
    as (R1 & R2 & R3 & R4 & R5 & R6 & R7 & R8 & R9 & R10 & R11).
  assert (Emap : sol_x_seq sol = map Fin xs).
  { rewrite Hseq. unfold newton_trace, xs. rewrite map_map. reflexivity. }
  split; [exact Emap|].
  split; [unfold xs; reflexivity|].
  split; [exact Hlen|].
  split.
  { rewrite <- R10, Emap. assert (Hne : xs <> []) by (intros E0; rewrite E0 in Hlen; discriminate).
    destruct (exists_last Hne) as [l' [z Hz]]. rewrite Hz, map_app. simpl. rewrite !last_last. reflexivity. }
  split.
  { assert (Hs : forall m s, (s + m <= S n)%nat -> 
      StronglySorted Rlt (map (fun k => Nat.iter k (newton T F D) x0) (seq s m))).
    { induction m as [|m IHm]; intros s Hs; simpl; constructor.
      - apply IHm; lia.
      - apply Forall_forall. intros z Hz. apply in_map_iff in Hz. destruct Hz as (k & <- & Hk').
        apply in_seq in Hk'. apply Hmono; lia. }
    apply Hs; lia. }
  split.
  { apply Forall_forall. intros z Hz. unfold xs in Hz. apply in_map_iff in Hz. destruct Hz as (k & <- & Hk').
    apply in_seq in Hk'. destruct (Hk k ltac:(lia)) as [H1 H2]. split; [|exact H2].
    destruct k as [|k]; [simpl; lra|]. apply Rlt_le. apply (Hmono O (S k)); lia. }
  intros k Hk'. rewrite Hlen in Hk'. rewrite !Hnth by lia.
  destruct (Hk k ltac:(lia)) as [H1 H2].
  exists (F (Nat.iter k (newton T F D) x0)), (D (Nat.iter k (newton T F D) x0)).
  split; [apply Hfn; exact H1|].
  assert (HDp : 0 < D (Nat.iter k (newton T F D) x0)).
  { apply (D_pos E l a pr h' Ht); [rewrite <- Ec; lra | exact H1]. }
  split; [exact HDp|].
  simpl Nat.iter. unfold newton at 1. field. lra.
Qed.

End Fits.

(** ** The objectives of the models *)

Definition finarr (x : nat -> R) : nat -> num := fun i => Fin (x i).
Definition finmat (z : nat -> nat -> R) : nat -> nat -> num := fun i j => Fin (z i j).

Section Instances.
Variables (N : nat) (sl : bool).

Section Single.
Variables (x y : nat -> R) (z : nat -> nat -> R).
Hypothesis Hx : forall i, (i < N)%nat -> 0 <= x i.
Hypothesis Hy : forall i, (i < N)%nat -> 0 <= y i.
Hypothesis Hz : forall i j, (i < N)%nat -> (j < N)%nat -> 0 <= z i j.

Let rate (e : nat * nat) : R := x (fst e) * y (snd e) * z (fst e) (snd e).

Lemma rate_nonneg : forall e, In e (pairs N sl) -> 0 <= rate e.
Proof.
  intros [i j] He. apply in_pairs in He. destruct He as (Hi & Hj & _). unfold rate; simpl.
  apply Rmult_le_pos; [apply Rmult_le_pos; [apply Hx | apply Hy]; assumption | apply Hz; assumption].
Qed.

Lemma fit_objective : density_objective (pairs N sl) (fun e d => logistic (d * rate e)) (fun e => Rltb 0 (rate e))
  (fun d => exp_edges_f_jac fit_p_jac d (finarr x) (finarr y) (finmat z) N sl).
Proof.
  exists rate, (fun e d => logistic' (d * rate e) * rate e). split; [|split].
  - intros e He. apply logistic_term. apply rate_nonneg; exact He.
  - reflexivity.
  - intros d Hd.
    rewrite (f_jac_sum _ _ _ _ _ _ _ _ _ _ (fun i j => logistic (d * rate (i, j)))
               (fun i j => logistic' (d * rate (i, j)) * rate (i, j))).
    + rewrite !pair_sum_list. f_equal; f_equal; apply suml_ext; intros [i j] _; reflexivity.
    + intros i j Hi Hj _. unfold finarr, finmat. rewrite fit_p_jac_fin; auto.
Qed.

Lemma inv_objective : density_objective (pairs N sl) (fun e d => poissonian (d * rate e)) (fun e => Rltb 0 (rate e))
  (fun d => exp_edges_f_jac inv_p_jac d (finarr x) (finarr y) (finmat z) N sl).
Proof.
  exists rate, (fun e d => poissonian' (d * rate e) * rate e). split; [|split].
  - intros e He. apply poissonian_term. apply rate_nonneg; exact He.
  - reflexivity.
  - intros d Hd.
    rewrite (f_jac_sum _ _ _ _ _ _ _ _ _ _ (fun i j => poissonian (d * rate (i, j)))
               (fun i j => poissonian' (d * rate (i, j)) * rate (i, j))).
    + rewrite !pair_sum_list. f_equal; f_equal; apply suml_ext; intros [i j] _; reflexivity.
    + intros i j Hi Hj _. unfold finarr, finmat. rewrite inv_p_jac_fin; auto.
Qed.

(** The expected number of edges computed by the ensemble is the value of the objective. *)
Lemma fit_exp_edges : forall d, 0 <= d ->
  exp_edges (fun d x y z => toR (fit_p_ij d x y z)) (Fin d) (finarr x) (finarr y) (finmat z) N sl
  = suml (fun e => logistic (d * rate e)) (pairs N sl).
Proof.
  intros d Hd. rewrite exp_edges_spec, pair_sum_list. apply suml_ext. intros [i j] He.
  apply in_pairs in He. destruct He as (Hi & Hj & _). unfold finarr, finmat. rewrite fit_p_ij_fin; auto.
Qed.

Lemma inv_exp_edges : forall d, 0 <= d ->
  exp_edges (fun d x y z => toR (inv_p_ij d x y z)) (Fin d) (finarr x) (finarr y) (finmat z) N sl
  = suml (fun e => poissonian (d * rate e)) (pairs N sl).
Proof.
  intros d Hd. rewrite exp_edges_spec, pair_sum_list. apply suml_ext. intros [i j] He.
  apply in_pairs in He. destruct He as (Hi & Hj & _). unfold finarr, finmat. rewrite inv_p_ij_fin; auto.
Qed.
End Single.

Section Multi.
Variables (L : nat) (xs ys : nat -> svec).
Hypothesis Hxs : forall i, (i < N)%nat -> canonical L (xs i) /\ all_finite (xs i).
Hypothesis Hys : forall i, (i < N)%nat -> canonical L (ys i) /\ all_finite (ys i).

(** value at a vertex index out of range is never used *)
Let fx (i k : nat) : R := if Nat.ltb i N then fval (xs i) k else 0.
Let fy (i k : nat) : R := if Nat.ltb i N then fval (ys i) k else 0.

Lemma fx_nonneg : forall i k, 0 <= fx i k.
Proof.
  intros i k. unfold fx. destruct (Nat.ltb_spec i N) as [H|H]; [|lra].
  apply lookup_fval. apply Hxs; exact H.
Qed.
Lemma fy_nonneg : forall i k, 0 <= fy i k.
Proof.
  intros i k. unfold fy. destruct (Nat.ltb_spec i N) as [H|H]; [|lra].
  apply lookup_fval. apply Hys; exact H.
Qed.

(** Two vertices share a label on which both have positive fitness. *)
Definition share (a b : svec) : bool :=
  existsb (fun k => Rltb 0 (fval a k) && Rltb 0 (fval b k)) (seq 0 L).

Lemma share_iff : forall a b, share a b = true <->
  exists k, (k < L)%nat /\ 0 < fval a k /\ 0 < fval b k.
Proof.
  intros a b. unfold share. rewrite existsb_exists. split.
  - intros (k & Hk & Hb). apply in_seq in Hk. apply andb_prop in Hb. destruct Hb as [H1 H2].
    exists k. destruct (Rltb_spec 0 (fval a k)), (Rltb_spec 0 (fval b k)); try discriminate.
    repeat split; auto; lia.
  - intros (k & Hk & H1 & H2). exists k. split; [apply in_seq; lia|].
    rewrite !Rltb_true by assumption. reflexivity.
Qed.

Let mpr (e : nat * nat) (d : R) : R := 1 - prodn L (qd (fx (fst e)) (fy (snd e)) d).

Lemma mfit_p_jac_fin : forall i j d, (i < N)%nat -> (j < N)%nat -> 0 <= d ->
  mfit_p_jac (Fin d) (xs i) (ys j)
  = (Fin (mpr (i, j) d), Fin (prodn L (qd (fx i) (fy j) d) * sumn L (jd (fx i) (fy j) d))).
Proof.
  intros i j d Hi Hj Hd. destruct (Hxs i Hi) as [C1 F1]. destruct (Hys j Hj) as [C2 F2].
  rewrite (mfit_p_jac_sparse_dense L) by assumption.
  unfold mfit_p_jac_dense. rewrite for_flow_lookup by assumption.
  assert (E1 : fx i = fval (xs i)).
  { unfold fx. destruct (Nat.ltb_spec i N); [reflexivity | lia]. }
  assert (E2 : fy j = fval (ys j)).
  { unfold fy. destruct (Nat.ltb_spec j N); [reflexivity | lia]. }
  unfold mpr; simpl fst; simpl snd. rewrite E1, E2.
  rewrite mfit_jac_loop.
  - simpl. reflexivity.
  - intros k. apply lookup_fval; exact F1.
  - intros k. apply lookup_fval; exact F2.
  - exact Hd.
Qed.

Lemma maxn_share : forall i j, (i < N)%nat -> (j < N)%nat ->
  Rltb 0 (maxn L (fun k => fx i k * fy j k)) = share (xs i) (ys j).
Proof.
  intros i j Hi Hj.
  assert (E1 : fx i = fval (xs i)).
  { unfold fx. destruct (Nat.ltb_spec i N); [reflexivity | lia]. }
  assert (E2 : fy j = fval (ys j)).
  { unfold fy. destruct (Nat.ltb_spec j N); [reflexivity | lia]. }
  rewrite E1, E2.
  destruct (share (xs i) (ys j)) eqn:Es.
  - apply share_iff in Es. destruct Es as (k & Hk & H1 & H2). apply Rltb_true.
    apply Rlt_le_trans with (fval (xs i) k * fval (ys j) k); [apply Rmult_lt_0_compat; assumption|].
    apply (maxn_ub L (fun k => fval (xs i) k * fval (ys j) k) k Hk).
  - destruct (Rltb_spec 0 (maxn L (fun k => fval (xs i) k * fval (ys j) k))) as [H|H]; [|reflexivity].
    destruct (maxn_att _ _ H) as (k & Hk & Ek). rewrite <- Ek in H.
    pose proof (fx_nonneg i k) as P1. pose proof (fy_nonneg j k) as P2. rewrite E1 in P1. rewrite E2 in P2.
    assert (share (xs i) (ys j) = true); [|congruence].
    apply share_iff. exists k. split; [exact Hk|].
    assert (0 < fval (xs i) k).
    { destruct P1 as [P1|P1]; [exact P1|]. rewrite <- P1 in H. lra. }
    assert (0 < fval (ys j) k).
    { destruct P2 as [P2|P2]; [exact P2|]. rewrite <- P2 in H. lra. }
    split; assumption.
Qed.

Lemma mfit_objective : density_objective (pairs N sl) mpr (fun e => share (xs (fst e)) (ys (snd e)))
  (fun d => exp_edges_f_jac (fun d x y (_ : unit) => mfit_p_jac d x y) d xs ys (fun _ _ => tt) N sl).
Proof.
  exists (fun e => maxn L (fun k => fx (fst e) k * fy (snd e) k)),
         (fun e d => prodn L (qd (fx (fst e)) (fy (snd e)) d) * sumn L (jd (fx (fst e)) (fy (snd e)) d)).
  split; [|split].
  - intros e He. apply (multi_term L (fx (fst e)) (fy (snd e))); intros k; [apply fx_nonneg | apply fy_nonneg].
  - intros [i j] He. apply in_pairs in He. destruct He as (Hi & Hj & _). simpl. symmetry; apply maxn_share; assumption.
  - intros d Hd.
    rewrite (f_jac_sum _ _ _ _ _ _ _ _ _ _ (fun i j => mpr (i, j) d)
               (fun i j => prodn L (qd (fx i) (fy j) d) * sumn L (jd (fx i) (fy j) d))).
    + rewrite !pair_sum_list. f_equal; f_equal; apply suml_ext; intros [i j] _; reflexivity.
    + intros i j Hi Hj _. apply mfit_p_jac_fin; assumption.
Qed.

Let irate (e : nat * nat) : R := asum (fx (fst e)) (fy (snd e)) L.

Lemma minv_p_jac_fin : forall i j d, (i < N)%nat -> (j < N)%nat -> 0 <= d ->
  minv_p_jac (Fin d) (xs i) (ys j)
  = (Fin (poissonian (d * irate (i, j))), Fin (poissonian' (d * irate (i, j)) * irate (i, j))).
Proof.
  intros i j d Hi Hj Hd. destruct (Hxs i Hi) as [C1 F1]. destruct (Hys j Hj) as [C2 F2].
  rewrite (minv_p_jac_sparse_dense L) by assumption.
  unfold minv_p_jac_dense. rewrite for_flow_lookup by assumption.
  assert (E1 : fx i = fval (xs i)).
  { unfold fx. destruct (Nat.ltb_spec i N); [reflexivity | lia]. }
  assert (E2 : fy j = fval (ys j)).
  { unfold fy. destruct (Nat.ltb_spec j N); [reflexivity | lia]. }
  unfold irate; simpl fst; simpl snd. rewrite E1, E2.
  simpl isinf; cbv iota. rewrite minv_jac_loop.
  set (A := asum (fval (xs i)) (fval (ys j)) L).
  simpl nmul at 1. cbv zeta. rewrite is0_fin.
  destruct (Reqb_spec (d * A) 0) as [E|E].
  - rewrite E. unfold poissonian'. rewrite Ropp_0, exp_0, poissonian_0, Rmult_1_l; reflexivity.
  - simpl nmul at 1. rewrite nopp_expm1. simpl. unfold poissonian'. do 2 f_equal; ring.
Qed.

Lemma irate_share : forall i j, (i < N)%nat -> (j < N)%nat -> Rltb 0 (irate (i, j)) = share (xs i) (ys j).
Proof.
  intros i j Hi Hj. rewrite <- maxn_share by assumption. unfold irate, asum; simpl fst; simpl snd.
  assert (Hnn : forall k, (k < L)%nat -> 0 <= fx i k * fy j k)
    by (intros k _; apply Rmult_le_pos; [apply fx_nonneg | apply fy_nonneg]).
  destruct (Rltb_spec 0 (sumn L (fun k => fx i k * fy j k))) as [H|H].
  - symmetry; apply Rltb_true. destruct (sumn_pos_exists _ _ Hnn H) as (k & Hk & Hp).
    apply Rlt_le_trans with (1 := Hp). apply (maxn_ub L (fun k => fx i k * fy j k) k Hk).
  - symmetry; apply Rltb_false. apply Rnot_lt_le; intros H'.
    destruct (maxn_att _ _ H') as (k & Hk & Ek). rewrite <- Ek in H'.
    apply H. apply Rlt_le_trans with (1 := H').
    apply (sumn_ge_term L (fun k => fx i k * fy j k)); assumption.
Qed.

Lemma minv_objective : density_objective (pairs N sl) (fun e d => poissonian (d * irate e))
  (fun e => share (xs (fst e)) (ys (snd e)))
  (fun d => exp_edges_f_jac (fun d x y (_ : unit) => minv_p_jac d x y) d xs ys (fun _ _ => tt) N sl).
Proof.
  exists irate, (fun e d => poissonian' (d * irate e) * irate e).
  split; [|split].
  - intros e He. apply poissonian_term. apply asum_nonneg; intros k; [apply fx_nonneg | apply fy_nonneg].
  - intros [i j] He. apply in_pairs in He. destruct He as (Hi & Hj & _). simpl fst; simpl snd.
    symmetry; apply irate_share; assumption.
  - intros d Hd.
    rewrite (f_jac_sum _ _ _ _ _ _ _ _ _ _ (fun i j => poissonian (d * irate (i, j)))
               (fun i j => poissonian' (d * irate (i, j)) * irate (i, j))).
    + rewrite !pair_sum_list. f_equal; f_equal; apply suml_ext; intros [i j] _; reflexivity.
    + intros i j Hi Hj _. apply minv_p_jac_fin; assumption.
Qed.

Lemma mfit_ext : forall i j (d d' : nat -> num), (i < N)%nat -> (j < N)%nat ->
  (forall k, (k < L)%nat -> nonneg (d k)) -> (forall k, (k < L)%nat -> d k = d' k) ->
  mfit_p_ij d (xs i) (ys j) = mfit_p_ij d' (xs i) (ys j) /\
  minv_p_ij d (xs i) (ys j) = minv_p_ij d' (xs i) (ys j).
Proof.
  intros i j d d' Hi Hj Hd Hdd.
  assert (Hd' : forall k, (k < L)%nat -> nonneg (d' k)) by (intros k Hk; rewrite <- Hdd by exact Hk; apply Hd; exact Hk).
  destruct (Hxs i Hi) as [C1 F1]. destruct (Hys j Hj) as [C2 F2].
  apply all_finite_nonneg in F1. apply all_finite_nonneg in F2.
  split.
  - rewrite !(mfit_p_spec L) by assumption. do 2 f_equal. apply prodn_ext. intros k Hk. rewrite Hdd by exact Hk. reflexivity.
  - rewrite !(minv_p_spec L) by assumption. do 2 f_equal. apply prodn_ext. intros k Hk. rewrite Hdd by exact Hk. reflexivity.
Qed.

Lemma mfit_p_eq : forall i j d, (i < N)%nat -> (j < N)%nat -> 0 <= d ->
  mfit_p_ij (fun _ => Fin d) (xs i) (ys j) = Fin (mpr (i, j) d).
Proof.
  intros i j d Hi Hj Hd. destruct (Hxs i Hi) as [C1 F1]. destruct (Hys j Hj) as [C2 F2].
  destruct (mfit_jac_spec L (xs i) (ys j) d C1 C2 F1 F2 Hd) as (p & jj & E1 & E2 & _).
  rewrite E2. rewrite mfit_p_jac_fin in E1 by assumption. congruence.
Qed.

Lemma minv_p_eq : forall i j d, (i < N)%nat -> (j < N)%nat -> 0 <= d ->
  minv_p_ij (fun _ => Fin d) (xs i) (ys j) = Fin (poissonian (d * irate (i, j))).
Proof.
  intros i j d Hi Hj Hd. destruct (Hxs i Hi) as [C1 F1]. destruct (Hys j Hj) as [C2 F2].
  destruct (minv_jac_spec L (xs i) (ys j) d C1 C2 F1 F2 Hd) as (p & jj & E1 & E2 & _).
  rewrite E2. rewrite minv_p_jac_fin in E1 by assumption. congruence.
Qed.

Lemma mfit_exp_edges : forall d (param : nat -> num), 0 <= d -> (forall k, (k < L)%nat -> param k = Fin d) ->
  exp_edges (fun d x y (_ : unit) => toR (mfit_p_ij d x y)) param xs ys (fun _ _ => tt) N sl
  = suml (fun e => mpr e d) (pairs N sl).
Proof.
  intros d param Hd Hp. rewrite exp_edges_spec, pair_sum_list. apply suml_ext. intros [i j] He.
  apply in_pairs in He. destruct He as (Hi & Hj & _). simpl fst; simpl snd.
  destruct (mfit_ext i j (fun _ => Fin d) param Hi Hj) as [E1 _].
  - intros k _; exact Hd.
  - intros k Hk; symmetry; apply Hp; exact Hk.
  - rewrite <- E1, mfit_p_eq by assumption. reflexivity.
Qed.

Lemma minv_exp_edges : forall d (param : nat -> num), 0 <= d -> (forall k, (k < L)%nat -> param k = Fin d) ->
  exp_edges (fun d x y (_ : unit) => toR (minv_p_ij d x y)) param xs ys (fun _ _ => tt) N sl
  = suml (fun e => poissonian (d * irate e)) (pairs N sl).
Proof.
  intros d param Hd Hp. rewrite exp_edges_spec, pair_sum_list. apply suml_ext. intros [i j] He.
  apply in_pairs in He. destruct He as (Hi & Hj & _). simpl fst; simpl snd.
  destruct (mfit_ext i j (fun _ => Fin d) param Hi Hj) as [_ E1].
  - intros k _; exact Hd.
  - intros k Hk; symmetry; apply Hp; exact Hk.
  - rewrite <- E1, minv_p_eq by assumption. reflexivity.
Qed.
End Multi.
End Instances.

(** ** Layer objectives *)

Section Layer.
Variables (sl : bool) (po pin : svec).
Hypothesis Hpo : all_finite po.
Hypothesis Hpin : all_finite pin.
Let lrate (e : (nat * num) * (nat * num)) : R := toR (snd (fst e)) * toR (snd (snd e)).

Lemma lrate_fin : forall e, In e (layer_pairs sl po pin) ->
  snd (fst e) = Fin (toR (snd (fst e))) /\
  snd (snd e) = Fin (toR (snd (snd e))) /\
  0 <= toR (snd (fst e)) /\ 0 <= toR (snd (snd e)).
Proof.
  intros [o i] He. unfold layer_pairs in He. apply filter_In in He. destruct He as [He _].
  apply in_prod_iff in He. destruct He as [Ho Hi]. simpl.
  unfold all_finite in Hpo, Hpin. rewrite Forall_forall in Hpo, Hpin.
  destruct (Hpo o Ho) as (v & Ev & Hv). destruct (Hpin i Hi) as (w & Ew & Hw).
  rewrite Ev, Ew. simpl. auto.
Qed.

Lemma lrate_nonneg : forall e, In e (layer_pairs sl po pin) -> 0 <= lrate e.
Proof. intros e He. destruct (lrate_fin e He) as (_ & _ & H1 & H2). apply Rmult_le_pos; assumption. Qed.

Lemma mfit_layer_objective : density_objective (layer_pairs sl po pin) (fun e d => logistic (d * lrate e))
  (fun e => Rltb 0 (lrate e)) (fun d => exp_edges_f_jac_layer (fun d x y => fit_p_jac_dense d x y) d po pin sl).
Proof.
  exists lrate, (fun e d => logistic' (d * lrate e) * lrate e). split; [|split].
  - intros e He. apply logistic_term. apply lrate_nonneg; exact He.
  - reflexivity.
  - intros d Hd. apply (layer_f_jac_sum (fun d x y => fit_p_jac_dense d x y)).
    intros e He. destruct (lrate_fin e He) as (E1 & E2 & H1 & H2).
    rewrite E1, E2, fit_p_jac_dense_eq. rewrite fit_p_jac_fin by (auto; lra). unfold lrate.
    rewrite !Rmult_1_r. reflexivity.
Qed.

Lemma minv_layer_objective : density_objective (layer_pairs sl po pin) (fun e d => poissonian (d * lrate e))
  (fun e => Rltb 0 (lrate e)) (fun d => exp_edges_f_jac_layer (fun d x y => inv_p_jac_dense d x y) d po pin sl).
Proof.
  exists lrate, (fun e d => poissonian' (d * lrate e) * lrate e). split; [|split].
  - intros e He. apply poissonian_term. apply lrate_nonneg; exact He.
  - reflexivity.
  - intros d Hd. apply (layer_f_jac_sum (fun d x y => inv_p_jac_dense d x y)).
    intros e He. destruct (lrate_fin e He) as (E1 & E2 & H1 & H2).
    rewrite E1, E2, inv_p_jac_dense_eq. rewrite inv_p_jac_fin by (auto; lra). unfold lrate.
    rewrite !Rmult_1_r. reflexivity.
Qed.
End Layer.

(** ** The summed Jacobian is the derivative of the expected number of edges *)

Lemma deriv_sumn : forall n (f : nat -> R -> R) (f' : nat -> R) d,
  (forall i, (i < n)%nat -> derivable_pt_lim (f i) d (f' i)) ->
  derivable_pt_lim (fun t => sumn n (fun i => f i t)) d (sumn n f').
Proof.
  induction n as [|n IH]; intros f f' d H; simpl.
  - apply derivable_pt_lim_const.
  - apply (derivable_pt_lim_plus (fun t => sumn n (fun i => f i t)) (f n)).
    + apply IH. intros i Hi; apply H; lia.
    + apply H; lia.
Qed.

Lemma deriv_pair_sum : forall N sl (f : nat -> nat -> R -> R) (f' : nat -> nat -> R) d,
  (forall i j, (i < N)%nat -> (j < N)%nat -> allowed sl i j = true -> derivable_pt_lim (f i j) d (f' i j)) ->
  derivable_pt_lim (fun t => pair_sum N sl (fun i j => f i j t)) d (pair_sum N sl f').
Proof.
  intros N sl f f' d H. unfold pair_sum.
  apply (deriv_sumn N (fun i t => sumn N (fun j => if allowed sl i j then f i j t else 0))).
  intros i Hi.
  apply (deriv_sumn N (fun j t => if allowed sl i j then f i j t else 0) (fun j => if allowed sl i j then f' i j else 0)).
  intros j Hj. destruct (allowed sl i j) eqn:E; [apply H; assumption | apply derivable_pt_lim_const].
Qed.

Lemma exp_edges_derivative : forall PT X Z (p_ij : PT -> X -> X -> Z -> num)
    (p_jac : num -> X -> X -> Z -> num * num) (mk : num -> PT) d po pin z N sl,
  (forall i j, (i < N)%nat -> (j < N)%nat -> allowed sl i j = true ->
     exists p q, p_jac (Fin d) (po i) (pin j) (z i j) = (Fin p, Fin q) /\
       p_ij (mk (Fin d)) (po i) (pin j) (z i j) = Fin p /\
       derivable_pt_lim (fun t => toR (p_ij (mk (Fin t)) (po i) (pin j) (z i j))) d q) ->
  exists e g, exp_edges_f_jac p_jac (Fin d) po pin z N sl = (Fin e, Fin g) /\
    exp_edges (fun d x y z => toR (p_ij d x y z)) (mk (Fin d)) po pin z N sl = e /\
    derivable_pt_lim (fun t => exp_edges (fun d x y z => toR (p_ij d x y z)) (mk (Fin t)) po pin z N sl) d g.
Proof.
  intros PT X Z p_ij p_jac mk d po pin z N sl H.
  set (P := fun i j => toR (fst (p_jac (Fin d) (po i) (pin j) (z i j)))).
  set (J := fun i j => toR (snd (p_jac (Fin d) (po i) (pin j) (z i j)))).
  exists (pair_sum N sl P), (pair_sum N sl J). split; [|split].
  - apply f_jac_sum. intros i j Hi Hj Hs. destruct (H i j Hi Hj Hs) as (p & q & E1 & _). unfold P, J. rewrite E1. reflexivity.
  - rewrite exp_edges_spec, !pair_sum_list. apply suml_ext. intros [i j] He. apply in_pairs in He.
    destruct He as (Hi & Hj & Hs). destruct (H i j Hi Hj Hs) as (p & q & E1 & E2 & _).
    unfold P; simpl. rewrite E1, E2. reflexivity.
  - apply (deriv_ext_loc (fun t => pair_sum N sl (fun i j => toR (p_ij (mk (Fin t)) (po i) (pin j) (z i j)))) _ d _ 1 Rlt_0_1).
    + intros t _. rewrite exp_edges_spec. reflexivity.
    + apply deriv_pair_sum. intros i j Hi Hj Hs. destruct (H i j Hi Hj Hs) as (p & q & E1 & E2 & E3).
      unfold J. rewrite E1. exact E3.
Qed.

(** ** Monotonicity of sums *)

Lemma pair_sum_le : forall N sl p q,
  (forall i j, (i < N)%nat -> (j < N)%nat -> allowed sl i j = true -> p i j <= q i j) ->
  pair_sum N sl p <= pair_sum N sl q.
Proof.
  intros N sl p q H. rewrite !pair_sum_list. apply suml_le. intros [i j] He. apply in_pairs in He.
  destruct He as (Hi & Hj & Hs). apply H; assumption.
Qed.

Lemma exp_edges_mono : forall k g, kernel_view k g -> range_spec g -> nondecr_pos g ->
  forall d d' (x x' y y' : nat -> num) (z z' : nat -> nat -> num) N sl,
  nonneg d -> nle d d' ->
  (forall i, (i < N)%nat -> nonneg (x i) /\ nle (x i) (x' i)) ->
  (forall i, (i < N)%nat -> nonneg (y i) /\ nle (y i) (y' i)) ->
  (forall i j, (i < N)%nat -> (j < N)%nat -> nonneg (z i j) /\ nle (z i j) (z' i j)) ->
  exp_edges (fun d x y z => toR (k d x y z)) d x y z N sl
  <= exp_edges (fun d x y z => toR (k d x y z)) d' x' y' z' N sl.
Proof.
  intros k g Hv Hr Hm d d' x x' y y' z z' N sl Hd Hdd Hx Hy Hz.
  rewrite !exp_edges_spec. apply pair_sum_le. intros i j Hi Hj _.
  destruct (Hx i Hi), (Hy j Hj), (Hz i j Hi Hj).
  apply (view_monotone k g Hv Hr Hm); assumption.
Qed.

(** ** The target is unreachable only when infeasible: the objective stays below the number of
    linkable pairs. *)
Lemma objective_below_cap : forall E (l : list E) pr act fn, density_objective l pr act fn ->
  (forall e d, In e l -> 0 <= d -> pr e d <= 1) ->
  forall d, 0 <= d -> suml (fun e => pr e d) l <= suml (fun e => b2r (act e)) l.
Proof.
  intros E l pr act fn (a & h' & Ht & Hact & Hfn) H1 d Hd. apply suml_le. intros e He.
  rewrite Hact by exact He. destruct (Ht e He) as (Ha & _ & H2 & _).
  destruct (Rltb_spec 0 (a e)) as [Hp|Hp]; simpl; [apply H1; assumption|].
  destruct (H2 ltac:(lra) d Hd) as [E0 _]. lra.
Qed.
