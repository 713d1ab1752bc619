(** Property C85: what fitting a multi-label model does to the object. *)
From Verif Require Import Base Num Spec Kernels KernelFacts MultiKernels MultiFacts Prob Ensemble EnsembleFacts
  EnsembleProps EnsembleState Models Solver SolverFacts Fit FitFacts FitModels FitLib Layers LayerFacts LayerProps LayerLib LayerFit
  FitStart PropFitStart PropLayers Spark SparkMeasures MultiState MultiStateFacts SparkMulti SparkMultiFacts PropSparkMulti FitState.

(** * Filling the arrays *)
Lemma set_nth_app : forall A (p r : list A) v, set_nth (p ++ r) (length p) v = p ++ match r with [] => [] | _ :: t => v :: t end.
Proof.
  intros A p r v. unfold set_nth. rewrite firstn_app, firstn_all, Nat.sub_diag, firstn_O, app_nil_r.
  rewrite skipn_app, skipn_all, Nat.sub_diag. reflexivity.
Qed.

(** The value a fitted parameter takes in the array: the solution itself, or its integer part when the start was
    an array of integers. *)
Definition stored_as (integer : bool) (x v : num) : Prop := if integer then exists r, x = Fin r /\ v = Fin (trunc r) else v = x.
Lemma stored_as_spec : forall integer x v, stored_as integer x v <-> store integer x = Ok v.
Proof.
  intros [] x v; unfold stored_as, store.
  - split; [intros (r & -> & ->); reflexivity|]. destruct x; try discriminate. intros H. injection H as <-. eauto.
  - split; [intros ->; reflexivity | intros H; injection H as ->; reflexivity].
Qed.

(** Label by label, the first entries are replaced. *)
Lemma fill_prefix : forall integer solve vs sols s labels pp rp po ro,
  length pp = s -> length po = s -> length vs = length sols -> (length vs <= length rp)%nat -> (length vs <= length ro)%nat ->
  (forall k, (k < length vs)%nat -> exists sol, nth_error sols k = Some sol /\ solve (s + k)%nat = Ok sol /\
     store integer (sol_x sol) = Ok (nth k vs NaN)) ->
  fill_each integer solve (seq s (length vs) ++ labels) (pp ++ rp, po ++ ro)
  = fill_each integer solve labels (pp ++ vs ++ skipn (length vs) rp, po ++ map Some sols ++ skipn (length vs) ro).
Proof.
  intros integer solve vs; induction vs as [|v vs IH]; intros [|sol sols] s labels pp rp po ro Hp Ho Hl H1 H2 H; try discriminate; [reflexivity|].
  destruct rp as [|r rp]; [cbn in H1; lia|]. destruct ro as [|o ro]; [cbn in H2; lia|].
  destruct (H 0%nat ltac:(cbn; lia)) as (sol' & E1 & E2 & E3). cbn in E1, E3. injection E1 as <-. rewrite Nat.add_0_r in E2.
  cbn [length seq app fill_each]. rewrite E2, E3. cbn [fst snd].
  replace (set_nth (pp ++ r :: rp) s v) with (pp ++ v :: rp) by (subst s; symmetry; apply set_nth_app).
  replace (set_nth (po ++ o :: ro) s (Some sol)) with (po ++ Some sol :: ro) by (rewrite <- Ho; symmetry; apply set_nth_app).
  pose proof (IH sols (S s) labels (pp ++ [v]) rp (po ++ [Some sol]) ro) as Q. rewrite <- !app_assoc in Q. cbn [app] in Q.
  cbn [length] in *. rewrite Q; [reflexivity | rewrite app_length; cbn; lia | rewrite app_length; cbn; lia | lia | lia | lia |].
  intros k Hk. destruct (H (S k) ltac:(lia)) as (sol' & X1 & X2 & X3). exists sol'. replace (S s + k)%nat with (s + S k)%nat by lia. auto.
Qed.

Lemma store_prefix : forall integer vs sols s labels pp rp po ro,
  length pp = s -> length po = s -> length vs = length sols -> (length vs <= length rp)%nat -> (length vs <= length ro)%nat ->
  (forall k, (k < length vs)%nat -> exists sol, nth_error sols k = Some sol /\ store integer (sol_x sol) = Ok (nth k vs NaN)) ->
  store_all integer (combine (seq s (length vs)) sols ++ labels) (pp ++ rp, po ++ ro)
  = store_all integer labels (pp ++ vs ++ skipn (length vs) rp, po ++ map Some sols ++ skipn (length vs) ro).
Proof.
  intros integer vs; induction vs as [|v vs IH]; intros [|sol sols] s labels pp rp po ro Hp Ho Hl H1 H2 H; try discriminate; [reflexivity|].
  destruct rp as [|r rp]; [cbn in H1; lia|]. destruct ro as [|o ro]; [cbn in H2; lia|].
  destruct (H 0%nat ltac:(cbn; lia)) as (sol' & E1 & E3). cbn in E1, E3. injection E1 as <-.
  cbn [length seq combine app store_all]. rewrite E3. cbn [fst snd].
  replace (set_nth (pp ++ r :: rp) s v) with (pp ++ v :: rp) by (subst s; symmetry; apply set_nth_app).
  replace (set_nth (po ++ o :: ro) s (Some sol)) with (po ++ Some sol :: ro) by (rewrite <- Ho; symmetry; apply set_nth_app).
  pose proof (IH sols (S s) labels (pp ++ [v]) rp (po ++ [Some sol]) ro) as Q. rewrite <- !app_assoc in Q. cbn [app] in Q.
  cbn [length] in *. rewrite Q; [reflexivity | rewrite app_length; cbn; lia | rewrite app_length; cbn; lia | lia | lia | lia |].
  intros k Hk. destruct (H (S k) ltac:(lia)) as (sol' & X1 & X3). exists sol'. auto.
Qed.

Lemma collect_ok : forall solve n s sols, length sols = n ->
  (forall k, (k < n)%nat -> exists sol, nth_error sols k = Some sol /\ solve (s + k)%nat = Ok sol) ->
  collect solve (seq s n) = Ok (combine (seq s n) sols).
Proof.
  intros solve n; induction n as [|n IH]; intros s [|sol sols] Hl H; try discriminate; [reflexivity|].
  destruct (H 0%nat ltac:(lia)) as (sol' & E1 & E2). cbn in E1. injection E1 as <-. rewrite Nat.add_0_r in E2.
  cbn [seq combine collect]. rewrite E2. rewrite (IH (S s) sols); [reflexivity | cbn in Hl; lia |].
  intros k Hk. destruct (H (S k) ltac:(lia)) as (sol' & X1 & X2). exists sol'. replace (S s + k)%nat with (s + S k)%nat by lia. auto.
Qed.

Lemma collect_fails : forall solve labels i, In i labels -> (exists e, solve i = Raise e) -> collect solve labels = Raise GenericException.
Proof.
  intros solve labels i; induction labels as [|j t IH]; intros Hi He; [destruct Hi|].
  cbn [collect]. destruct (solve j) as [sol|] eqn:E; [|reflexivity].
  destruct Hi as [-> | Hi]; [destruct He as [e He]; congruence|]. rewrite (IH Hi He). reflexivity.
Qed.

Lemma skipn_repeat : forall A (a : A) n m, skipn n (repeat a m) = repeat a (m - n).
Proof. intros A a n; induction n as [|n IH]; intros [|m]; try reflexivity. cbn [repeat skipn]. rewrite IH. reflexivity. Qed.

(** * C85: the object after a fit *)

(** Invalid calls: a start with the wrong number of values, without numbers or with a negative one, no target, and
    the methods that do not exist.  All raise ValueError and leave the object as it was. *)
Theorem C85_checks : forall fill L per_label fn layer ne nel x0 method atol rtol mi s a integer,
  start_array L x0 = (integer, a) ->
  arr_len a <> L \/ (exists n, a = NonNumeric n) \/ (exists l v, a = Numeric l /\ In v l /\ nltb v (Fin 0) = true) \/
  method <> Density \/ (per_label = true /\ nel = None) \/ (per_label = false /\ ne = None) ->
  fit_call fill L per_label fn layer ne nel x0 method atol rtol mi s = (Raise ValueError, s).
Proof.
  intros fill L per_label fn layer ne nel x0 method atol rtol mi s a integer E H. unfold fit_call. rewrite E.
  destruct (Nat.eqb_spec (arr_len a) L) as [El|]; [|reflexivity]. cbn [negb].
  destruct a as [l|n]; [|reflexivity]. destruct (any_neg l) eqn:Ea; [reflexivity|].
  destruct H as [H | [[n H] | [(l' & v & H & Hv & Hn) | [H | [[-> ->] | [-> ->]]]]]].
  - contradiction.
  - discriminate.
  - injection H as <-. exfalso. assert (X : any_neg l = true) by (apply existsb_exists; exists v; auto). congruence.
  - destruct method; [contradiction | reflexivity | reflexivity].
  - destruct method; reflexivity.
  - destruct method; reflexivity.
Qed.
Print Assumptions C85_checks.

Example C85_checks_case : start_array 2 (Values false (Numeric [Fin 1; Fin (-1)])) = (false, Numeric [Fin 1; Fin (-1)]) /\
  In (Fin (-1)) [Fin 1; Fin (-1)] /\ nltb (Fin (-1)) (Fin 0) = true /\
  start_array 2 (Single true (Fin 1)) = (true, Numeric [Fin 1; Fin 1]) /\ arr_len (Numeric [Fin 1]) <> 2%nat.
Proof.
  split; [reflexivity|]. split; [cbn; auto|]. split; [cbn; apply Rltb_true; lra|]. split; [reflexivity | cbn; lia].
Qed.

Lemma no_neg : forall l, (forall v, In v l -> nltb v (Fin 0) = false) -> any_neg l = false.
Proof.
  intros l H. unfold any_neg. apply not_true_iff_false. rewrite existsb_exists. intros (v & Hv & E). rewrite H in E by exact Hv. discriminate.
Qed.

(** A fit per label that succeeds in every label, in any of the three classes: every entry of the parameter is the
    fitted one and the solutions are kept in order. *)
Theorem C85_per_label : forall fill L fn layer ne T x0 atol rtol mi s integer l vs sols,
  fill = fill_each \/ fill = fill_spark ->
  start_array L x0 = (integer, Numeric l) -> length l = L -> (forall v, In v l -> nltb v (Fin 0) = false) ->
  length vs = L -> length sols = L ->
  (forall i, (i < L)%nat -> exists sol, nth_error sols i = Some sol /\
     monotonic_newton_solver (layer i) (nth i l NaN) (T i) atol rtol mi (Fin 0) PInf None None = Ok sol /\
     stored_as integer (sol_x sol) (nth i vs NaN)) ->
  fit_call fill L true fn (Ok layer) ne (Some T) x0 Density atol rtol mi s
  = (Ok tt, mkFit (Some vs) (Some (LabelFits (map Some sols)))).
Proof.
  intros fill L fn layer ne T x0 atol rtol mi s integer l vs sols Hf E Hl Hn Hv Hs H. unfold fit_call. rewrite E.
  cbn [arr_len]. rewrite Hl, Nat.eqb_refl. cbn [negb]. rewrite (no_neg l Hn).
  assert (Q : fill integer (solve_label layer T (fun i => nth i l NaN) atol rtol mi) (seq 0 L) (l, repeat None L)
     = (Ok tt, (vs, map Some sols))); [|rewrite Q; reflexivity].
  assert (S1 : skipn L l = []) by (apply skipn_all2; lia).
  assert (S2 : skipn L (repeat (@None solution) L) = []) by (rewrite skipn_repeat, Nat.sub_diag; reflexivity).
  destruct Hf as [-> | ->].
  - pose proof (fill_prefix integer (solve_label layer T (fun i => nth i l NaN) atol rtol mi) vs sols 0 [] [] l [] (repeat None L)) as P.
    cbn [app] in P. rewrite app_nil_r in P. rewrite Hv in P.
    rewrite P; try reflexivity; try lia; [cbn [fill_each]; rewrite S1, S2, !app_nil_r; reflexivity | rewrite repeat_length; lia |].
    intros k Hk. destruct (H k Hk) as (sol & A1 & A2 & A3). exists sol. split; [exact A1|]. split; [exact A2|]. apply stored_as_spec. exact A3.
  - unfold fill_spark. rewrite (collect_ok _ L 0 sols Hs).
    + pose proof (store_prefix integer vs sols 0 [] [] l [] (repeat None L)) as P. cbn [app] in P. rewrite app_nil_r in P. rewrite Hv in P.
      rewrite P; try reflexivity; try lia; [cbn [store_all]; rewrite S1, S2, !app_nil_r; reflexivity | rewrite repeat_length; lia |].
      intros k Hk. destruct (H k Hk) as (sol & A1 & A2 & A3). exists sol. split; [exact A1|]. apply stored_as_spec. exact A3.
    + intros k Hk. destruct (H k Hk) as (sol & A1 & A2 & A3). exists sol. split; [exact A1 | exact A2].
Qed.
Print Assumptions C85_per_label.

(** A fit per label in which the labels before [n] are fitted and label [n] raises.  The sparse and dense classes stop
    there: the labels before [n] keep their new values, the others the start. *)
Theorem C85_first_failure : forall L fn layer ne T x0 atol rtol mi s integer l n vs sols e,
  start_array L x0 = (integer, Numeric l) -> length l = L -> (forall v, In v l -> nltb v (Fin 0) = false) ->
  (n < L)%nat -> length vs = n -> length sols = n ->
  (forall i, (i < n)%nat -> exists sol, nth_error sols i = Some sol /\
     monotonic_newton_solver (layer i) (nth i l NaN) (T i) atol rtol mi (Fin 0) PInf None None = Ok sol /\
     stored_as integer (sol_x sol) (nth i vs NaN)) ->
  monotonic_newton_solver (layer n) (nth n l NaN) (T n) atol rtol mi (Fin 0) PInf None None = Raise e ->
  fit_call fill_each L true fn (Ok layer) ne (Some T) x0 Density atol rtol mi s
  = (Raise e, mkFit (Some (vs ++ skipn n l)) (Some (LabelFits (map Some sols ++ repeat None (L - n))))) /\
  fit_call fill_spark L true fn (Ok layer) ne (Some T) x0 Density atol rtol mi s
  = (Raise GenericException, mkFit (Some l) (Some (LabelFits (repeat None L)))).
Proof.
  intros L fn layer ne T x0 atol rtol mi s integer l n vs sols e E Hl Hn Hlt Hv Hs H He. unfold fit_call. rewrite E.
  cbn [arr_len]. rewrite Hl, Nat.eqb_refl. cbn [negb]. rewrite (no_neg l Hn). split.
  - pose proof (fill_prefix integer (solve_label layer T (fun i => nth i l NaN) atol rtol mi) vs sols 0 (seq n (L - n)) [] l [] (repeat None L)) as P.
    cbn [app] in P. rewrite Hv in P. rewrite <- seq_app in P. replace (n + (L - n))%nat with L in P by lia.
    rewrite P; try reflexivity; try lia.
    + rewrite skipn_repeat. destruct (L - n)%nat as [|m] eqn:Em; [lia|]. cbn [seq fill_each]. unfold solve_label at 1. rewrite He. reflexivity.
    + rewrite repeat_length. lia.
    + intros k Hk. destruct (H k Hk) as (sol & A1 & A2 & A3). exists sol. split; [exact A1|]. split; [exact A2|]. apply stored_as_spec. exact A3.
  - unfold fill_spark. rewrite (collect_fails _ _ n); [reflexivity | apply in_seq; lia |]. exists e. exact He.
Qed.
Print Assumptions C85_first_failure.

Lemma combine_app2 : forall A B (a : list A) (b : list B) c d, length a = length b ->
  combine (a ++ c) (b ++ d) = combine a b ++ combine c d.
Proof.
  intros A B a; induction a as [|x a IH]; intros [|y b] c d H; try discriminate; [reflexivity|].
  cbn [app combine]. rewrite IH by (injection H; auto). reflexivity.
Qed.

(** A start given as integers makes an integer array of parameters.  If the solver of some label returns a value that
    no integer can hold, the call raises (OverflowError for an infinite value, ValueError for NaN).  The labels before
    it keep their parameters and solutions, while this label and the following ones keep the start and have no
    solution.  The Spark class does the same, provided that the other labels can be solved. *)
Theorem C85_unstorable : forall L fn layer ne T x0 atol rtol mi s l n vs sols sol,
  start_array L x0 = (true, Numeric l) -> length l = L -> (forall v, In v l -> nltb v (Fin 0) = false) ->
  (n < L)%nat -> length vs = n -> length sols = n ->
  (forall i, (i < n)%nat -> exists sol, nth_error sols i = Some sol /\
     monotonic_newton_solver (layer i) (nth i l NaN) (T i) atol rtol mi (Fin 0) PInf None None = Ok sol /\
     stored_as true (sol_x sol) (nth i vs NaN)) ->
  monotonic_newton_solver (layer n) (nth n l NaN) (T n) atol rtol mi (Fin 0) PInf None None = Ok sol ->
  (forall r, sol_x sol <> Fin r) ->
  let after := (Raise (match sol_x sol with NaN => ValueError | _ => OverflowError end),
    mkFit (Some (vs ++ skipn n l)) (Some (LabelFits (map Some sols ++ repeat None (L - n))))) in
  fit_call fill_each L true fn (Ok layer) ne (Some T) x0 Density atol rtol mi s = after /\
  ((forall i, (n < i < L)%nat -> exists sol,
     monotonic_newton_solver (layer i) (nth i l NaN) (T i) atol rtol mi (Fin 0) PInf None None = Ok sol) ->
   fit_call fill_spark L true fn (Ok layer) ne (Some T) x0 Density atol rtol mi s = after).
Proof.
  intros L fn layer ne T x0 atol rtol mi s l n vs sols sol E Hl Hn Hlt Hv Hs H He Hi after. unfold fit_call, after. rewrite E.
  cbn [arr_len]. rewrite Hl, Nat.eqb_refl. cbn [negb]. rewrite (no_neg l Hn).
  assert (St : store true (sol_x sol) = Raise (match sol_x sol with NaN => ValueError | _ => OverflowError end)).
  { destruct (sol_x sol) as [r| | |]; try reflexivity. exfalso. apply (Hi r). reflexivity. }
  split.
  - pose proof (fill_prefix true (solve_label layer T (fun i => nth i l NaN) atol rtol mi) vs sols 0 (seq n (L - n)) [] l [] (repeat None L)) as P.
    cbn [app] in P. rewrite Hv in P. rewrite <- seq_app in P. replace (n + (L - n))%nat with L in P by lia.
    rewrite P; try reflexivity; try lia.
    + rewrite skipn_repeat. destruct (L - n)%nat as [|m] eqn:Em; [lia|]. cbn [seq fill_each]. unfold solve_label at 1. rewrite He, St. reflexivity.
    + rewrite repeat_length. lia.
    + intros k Hk. destruct (H k Hk) as (sol' & A1 & A2 & A3). exists sol'. split; [exact A1|]. split; [exact A2|]. apply stored_as_spec. exact A3.
  - intros Hr.
    assert (X : exists rest, length rest = (L - S n)%nat /\ forall k, (k < L - S n)%nat -> exists sol',
      nth_error rest k = Some sol' /\ solve_label layer T (fun i => nth i l NaN) atol rtol mi (S n + k)%nat = Ok sol').
    { assert (G : forall m, (m <= L - S n)%nat -> exists rest, length rest = m /\ forall k, (k < m)%nat -> exists sol',
        nth_error rest k = Some sol' /\ solve_label layer T (fun i => nth i l NaN) atol rtol mi (S n + k)%nat = Ok sol').
      { induction m as [|m IH]; intros Hm; [exists []; split; [reflexivity | intros k Hk; lia]|].
        destruct (IH ltac:(lia)) as (rest & Lr & Q). destruct (Hr (S n + m)%nat ltac:(lia)) as [sol' E'].
        exists (rest ++ [sol']). split; [rewrite app_length; cbn; lia|]. intros k Hk.
        destruct (Nat.eq_dec k m) as [-> | Hne].
        - exists sol'. split; [rewrite nth_error_app2, Lr, Nat.sub_diag by lia; reflexivity | exact E'].
        - rewrite nth_error_app1 by lia. apply Q. lia. }
      apply G. lia. }
    destruct X as (rest & Lr & Q). unfold fill_spark.
    rewrite (collect_ok _ L 0 (sols ++ sol :: rest)).
    + assert (Es : seq 0 L = seq 0 n ++ n :: seq (S n) (L - S n)).
      { replace L with (n + S (L - S n))%nat at 1 by lia. rewrite seq_app. reflexivity. }
      rewrite Es.
      rewrite combine_app2 by (rewrite seq_length; lia).
      pose proof (store_prefix true vs sols 0 (combine (n :: seq (S n) (L - S n)) (sol :: rest)) [] l [] (repeat None L)) as P.
      cbn [app] in P. rewrite Hv in P. rewrite P; try reflexivity; try lia.
      * rewrite skipn_repeat. cbn [combine store_all]. rewrite St. reflexivity.
      * rewrite repeat_length. lia.
      * intros k Hk. destruct (H k Hk) as (sol' & A1 & A2 & A3). exists sol'. split; [exact A1|]. apply stored_as_spec. exact A3.
    + rewrite app_length. cbn [length]. lia.
    + intros k Hk. destruct (Nat.lt_trichotomy k n) as [Hk' | [-> | Hk']].
      * destruct (H k Hk') as (sol' & A1 & A2 & A3). exists sol'. split; [rewrite nth_error_app1 by lia; exact A1 | exact A2].
      * exists sol. split; [rewrite nth_error_app2, Hs, Nat.sub_diag by lia; reflexivity | exact He].
      * destruct (Q (k - S n)%nat ltac:(lia)) as (sol' & A1 & A2). exists sol'. replace (S n + (k - S n))%nat with k in A2 by lia.
        split; [|exact A2]. rewrite nth_error_app2, Hs by lia. replace (k - n)%nat with (S (k - S n)) by lia. exact A1.
Qed.
Print Assumptions C85_unstorable.

(** One parameter for all labels: the object changes only if the solver returns. *)
Theorem C85_total_failure : forall fill L fn layer nel T x0 atol rtol mi s integer l e,
  start_array L x0 = (integer, Numeric l) -> length l = L -> (forall v, In v l -> nltb v (Fin 0) = false) ->
  monotonic_newton_solver fn (nth 0 l NaN) T atol rtol mi (Fin 0) PInf None None = Raise e ->
  fit_call fill L false fn layer (Some T) nel x0 Density atol rtol mi s = (Raise e, s).
Proof.
  intros fill L fn layer nel T x0 atol rtol mi s integer l e E Hl Hn He. unfold fit_call. rewrite E.
  cbn [arr_len]. rewrite Hl, Nat.eqb_refl. cbn [negb]. rewrite (no_neg l Hn), He. reflexivity.
Qed.
Print Assumptions C85_total_failure.

(** Started from finite non-negative values with a non-negative target it does return, for every model of the library,
    and leaves one solution and its parameter for every label.  The solution is marked converged exactly when the
    expected number of edges at that parameter is within tolerance of the target. *)
Theorem C85_total : forall fill fn M sl can, library_fit fn M sl can ->
  forall L layer nel T at_ rho x0 rest mi integer st s, 0 <= T -> 0 < at_ -> 0 <= rho -> 0 <= x0 ->
  start_array L st = (integer, Numeric (map Fin (x0 :: rest))) ->
  length (x0 :: rest) = L -> Forall (fun x => 0 <= x) rest ->
  exists sol d, fit_call fill L false fn layer (Some (Fin T)) nel st Density (Fin at_) (Fin rho) mi s
      = (Ok tt, mkFit (Some (repeat (Fin d) L)) (Some (OneFit sol))) /\ 0 <= d /\
    (sol_converged sol = true <-> Rabs (m_edges (M d) sl - T) <= at_ + rho * T).
Proof.
  intros fill fn M sl can H L layer nel T at_ rho x0 rest mi integer st s HT Ha Hr Hx E HL HF.
  destruct (lib_multi_fit_total fn M sl can H L (fun _ => fn) T at_ rho x0 rest mi HT Ha Hr Hx HL HF) as (sol & d & Em & Hd & C).
  exists sol, d. split; [|split; assumption]. unfold multi_fit in Em. unfold fit_call. rewrite E.
  cbn [arr_len] in *. rewrite map_length, HL, Nat.eqb_refl in *. cbn [negb guard] in *.
  assert (A : any_neg (map Fin (x0 :: rest)) = false).
  { apply no_neg. intros v Hv. apply in_map_iff in Hv. destruct Hv as (w & <- & Hw). cbn. apply Rltb_false.
    destruct Hw as [<- | Hw]; [exact Hx | rewrite Forall_forall in HF; apply HF; exact Hw]. }
  rewrite A in *. cbn [negb guard] in Em. destruct (monotonic_newton_solver _ _ _ _ _ _ _ _ _ _) as [sol'|] eqn:Es; cbn [bind] in Em; [|discriminate].
  assert (Q1 : sol' = sol) by (apply (f_equal (fun r => match r with Ok p => nth 0 (snd p) sol' | Raise _ => sol' end)) in Em; exact Em).
  subst sol'. assert (Q2 : repeat (sol_x sol) L = repeat (Fin d) L) by (apply (f_equal (fun r => match r with Ok p => fst p | Raise _ => [] end)) in Em; exact Em).
  rewrite Q2. reflexivity.
Qed.
Print Assumptions C85_total.

(** The objective the Spark class minimises, computed in blocks on compressed rows, is the one of the sparse class at
    every parameter and for every number of blocks. *)
Theorem C85_objective : forall kj cx cy xs ys N B sl d,
  csr_of cx xs -> csr_of cy ys -> Forall (fun r => length (fst r) = length (snd r)) xs ->
  Forall (fun r => length (fst r) = length (snd r)) ys -> length xs = N -> length ys = N -> (1 <= B)%nat ->
  mspark_f_jac cx cy N B (on_arrays kj) d sl
  = exp_edges_f_jac (fun d x y (_ : unit) => kj d x y) d (fun i => row_vec (nth i xs ([], []))) (fun i => row_vec (nth i ys ([], [])))
      (fun _ _ => tt) N sl.
Proof.
  intros kj cx cy xs ys N B sl d Hx Hy Gx Gy Lx Ly HB. apply csr_pack in Hx, Hy. subst cx cy.
  rewrite (mspark_f_jac_eq num xs ys N B Gx Gy Lx Ly HB). apply spark_f_jac_eq. exact HB.
Qed.
Print Assumptions C85_objective.

(** So the fit of the Spark class with one parameter for all labels has the properties of C85_total. *)
Theorem C85_spark_total : forall (inv : bool) B cx cy N L sl xs ys, label_table L xs -> label_table L ys ->
  Forall (fun r => all_finite (row_vec r)) xs -> Forall (fun r => all_finite (row_vec r)) ys ->
  length xs = N -> length ys = N -> csr_of cx xs -> csr_of cy ys -> (1 <= B)%nat ->
  forall fill layer nel T at_ rho x0 rest mi integer st s, 0 <= T -> 0 < at_ -> 0 <= rho -> 0 <= x0 ->
  start_array L st = (integer, Numeric (map Fin (x0 :: rest))) ->
  length (x0 :: rest) = L -> Forall (fun x => 0 <= x) rest ->
  let vec (t : list (list nat * list num)) i := row_vec (nth i t ([], [])) in
  exists sol d, fit_call fill L false (fun d => mspark_f_jac cx cy N B (on_arrays (if inv then minv_p_jac else mfit_p_jac)) d sl)
      layer (Some (Fin T)) nel st Density (Fin at_) (Fin rho) mi s
      = (Ok tt, mkFit (Some (repeat (Fin d) L)) (Some (OneFit sol))) /\ 0 <= d /\
    (sol_converged sol = true <->
     Rabs (m_edges (if inv then MultiInvariantModel N (fun _ => Fin d) (vec xs) (vec ys)
                    else MultiFitnessModel N (fun _ => Fin d) (vec xs) (vec ys)) sl - T) <= at_ + rho * T).
Proof.
  intros inv B cx cy N L sl xs ys Tx Ty Fx Fy Nx Ny Cx Cy HB fill layer nel T at_ rho x0 rest mi integer st s HT Ha Hr Hx E HL HF vec.
  assert (K : forall i, (i < N)%nat -> canonical L (vec xs i) /\ all_finite (vec xs i) /\ canonical L (vec ys i) /\ all_finite (vec ys i)).
  { destruct Tx as (_ & _ & Tx), Ty as (_ & _ & Ty). rewrite Forall_forall in Tx, Ty, Fx, Fy. intros i Hi. unfold vec.
    assert (Ix : In (nth i xs ([], [])) xs) by (apply nth_In; unfold tuple in *; rewrite Nx; exact Hi).
    assert (Iy : In (nth i ys ([], [])) ys) by (apply nth_In; unfold tuple in *; rewrite Ny; exact Hi).
    repeat split; try (apply Tx; exact Ix); try (apply Ty; exact Iy); [apply Fx; exact Ix | apply Fy; exact Iy]. }
  assert (Same : forall kj d, mspark_f_jac cx cy N B (on_arrays kj) d sl
     = exp_edges_f_jac (fun d x y (_ : unit) => kj d x y) d (vec xs) (vec ys) (fun _ _ => tt) N sl).
  { intros kj d. apply C85_objective; try assumption; [apply Tx | apply Ty]. }
  assert (Ext : forall fn fn', (forall d, fn d = fn' d) -> forall t,
     fit_call fill L false fn layer t nel st Density (Fin at_) (Fin rho) mi s = fit_call fill L false fn' layer t nel st Density (Fin at_) (Fin rho) mi s).
  { intros fn fn' Hf t. unfold fit_call. destruct (start_array L st) as [b a]. destruct (negb _); [reflexivity|]. destruct a; [|reflexivity].
    destruct (any_neg l); [reflexivity|]. destruct t; [|reflexivity]. rewrite (solver_ext fn fn' Hf). reflexivity. }
  destruct inv.
  - destruct (C85_total fill _ _ _ _ (fit_multi_invariant N L sl (vec xs) (vec ys) K) L layer nel T at_ rho x0 rest mi integer st s HT Ha Hr Hx E HL HF) as (sol & d & E1 & R).
    exists sol, d. split; [|exact R]. rewrite <- E1. apply Ext. intros d'. apply Same.
  - destruct (C85_total fill _ _ _ _ (fit_multi_fitness N L sl (vec xs) (vec ys) K) L layer nel T at_ rho x0 rest mi integer st s HT Ha Hr Hx E HL HF) as (sol & d & E1 & R).
    exists sol, d. split; [|exact R]. rewrite <- E1. apply Ext. intros d'. apply Same.
Qed.
Print Assumptions C85_spark_total.

Lemma fit_store_inv : forall integer layer num_e x0 atol rtol mi n s r,
  fit_store integer layer num_e x0 atol rtol mi (seq s n) = Ok r -> length r = n /\
  forall k, (k < n)%nat -> exists sol, nth_error (map snd r) k = Some sol /\
    monotonic_newton_solver (layer (s + k)%nat) (x0 (s + k)%nat) (num_e (s + k)%nat) atol rtol mi (Fin 0) PInf None None = Ok sol /\
    stored_as integer (sol_x sol) (nth k (map fst r) NaN).
Proof.
  intros integer layer num_e x0 atol rtol mi n; induction n as [|n IH]; intros s r E; cbn [seq fit_store] in E.
  - injection E as <-. split; [reflexivity | intros k Hk; lia].
  - destruct (monotonic_newton_solver _ _ _ _ _ _ _ _ _ _) as [sol|] eqn:Es; cbn [bind] in E; [|discriminate].
    destruct (store integer (sol_x sol)) as [v|] eqn:Ev; cbn [bind] in E; [|discriminate].
    destruct (fit_store _ _ _ _ _ _ _ _) as [rest|] eqn:Er; cbn [bind] in E; [|discriminate]. injection E as <-.
    destruct (IH (S s) rest Er) as [L H]. split; [cbn; lia|]. intros [|k] Hk.
    + exists sol. rewrite Nat.add_0_r. split; [reflexivity|]. split; [exact Es|]. apply stored_as_spec. exact Ev.
    + destruct (H k ltac:(lia)) as (sol' & A). exists sol'. replace (s + S k)%nat with (S s + k)%nat by lia. exact A.
Qed.

(** The columns of the labels, slices of the table in the Spark class, are those the sparse class computes. *)
Lemma layers_agree : forall L xs ys, label_table L xs -> label_table L ys ->
  exists po pin, by_layer L xs = Ok po /\ by_layer L ys = Ok pin /\
    forall i, (i < L)%nat -> zip (nth i po ([], [])) = spark_column L xs i /\ zip (nth i pin ([], [])) = spark_column L ys i.
Proof.
  intros L xs ys Tx Ty. destruct Tx as (Nx & Gx & _), Ty as (Ny & Gy & _).
  do 2 eexists. split; [apply by_layer_spec; assumption|]. split; [apply by_layer_spec; assumption|].
  intros i Hi. assert (Q : forall t : list tuple, zip (nth i (map (fun l => tuple_of (column (map zip t) l)) (seq 0 L)) ([], [])) = spark_column L t i).
  { intros t. rewrite (nth_indep _ ([], []) ((fun l => tuple_of (column (map zip t) l)) 0%nat)) by (rewrite map_length, seq_length; exact Hi).
    rewrite (map_nth (fun l => tuple_of (column (map zip t) l))), seq_nth by exact Hi. cbn [Nat.add].
    unfold spark_column. apply zip_tuple_of. }
  split; apply Q.
Qed.

(** A fit per label of the library's models from a finite start: it succeeds, the sparse and the Spark class leave
    the same parameters and solutions, and a solution is marked converged exactly when the expected number of edges of
    its label at the parameter left in the object is within tolerance of the target. *)
Theorem C85_library : forall g p lp l1p pj, layer_kernels g p lp l1p -> layer_jac g pj ->
  forall z L N xs ys sl, label_table L xs -> label_table L ys -> length xs = N -> length ys = N ->
  Forall (fun r => all_finite (row_vec r)) xs -> Forall (fun r => all_finite (row_vec r)) ys ->
  forall (T x0 : nat -> R) st at_ rho mi, 0 < at_ -> 0 <= rho ->
  (forall k, (k < L)%nat -> 0 <= T k /\ 0 <= x0 k) ->
  st = Values false (Numeric (map (fun k => Fin (x0 k)) (seq 0 L))) \/
  st = Single false (Fin (x0 0%nat)) /\ (forall k, x0 k = x0 0%nat) \/ st = NoStart /\ (forall k, x0 k = 0) ->
  forall fn ne s, exists ds sols e,
    let after := (Ok tt, mkFit (Some (map Fin ds)) (Some (LabelFits (map Some sols)))) in
    fit_call fill_each L true fn (sparse_layer pj L xs ys sl) ne (Some (fun k => Fin (T k))) st Density (Fin at_) (Fin rho) mi s = after /\
    fit_call fill_spark L true fn (spark_layer pj L xs ys sl) ne (Some (fun k => Fin (T k))) st Density (Fin at_) (Fin rho) mi s = after /\
    length ds = L /\ length sols = L /\
    expected_num_edges_label p z L xs ys (Some (fun k => Fin (nth k ds 0))) sl = Ok e /\
    forall k, (k < L)%nat -> 0 <= nth k ds 0 /\
      exists sol, nth_error sols k = Some sol /\
      (sol_converged sol = true <-> Rabs (e k - T k) <= at_ + rho * T k).
Proof.
  intros g p lp l1p pj K J z L N xs ys sl Tx Ty Nx Ny Fx Fy T x0 st at_ rho mi Ha Hr H Hst fn ne s.
  destruct (C78_float_start g p lp l1p pj K J z L N xs ys sl Tx Ty Nx Ny Fx Fy T x0 st at_ rho mi Ha Hr H Hst) as (ds & sols & e & E & L1 & L2 & R).
  exists ds, sols, e. cbv zeta. unfold fit_per_label_start in E.
  destruct (layers_agree L xs ys Tx Ty) as (po & pin & Eo & Ei & Z). rewrite Eo, Ei in E. cbn [bind] in E.
  destruct (start_array L st) as [integer a] eqn:Ea. unfold guard in E.
  destruct (Nat.eqb_spec (arr_len a) L) as [Hl|]; [|discriminate]. destruct a as [l|]; [|discriminate]. cbn [arr_len] in Hl.
  destruct (any_neg l) eqn:An; [discriminate|]. cbn [negb] in E.
  destruct (fit_store _ _ _ _ _ _ _ _) as [r|] eqn:Es; cbn [bind] in E; [|discriminate].
  injection E as E1 E2. destruct (fit_store_inv _ _ _ _ _ _ _ _ _ _ Es) as [Lr Hs]. cbn [Nat.add] in Hs. rewrite E1, E2 in Hs.
  assert (Neg : forall v, In v l -> nltb v (Fin 0) = false).
  { intros v Hv. destruct (nltb v (Fin 0)) eqn:X; [|reflexivity]. exfalso.
    assert (any_neg l = true) by (apply existsb_exists; exists v; auto). congruence. }
  assert (Lm : length (map Fin ds) = L) by (rewrite map_length; exact L1).
  split; [|split; [|split; [exact L1 | split; [exact L2 | exact R]]]].
  - unfold sparse_layer. rewrite Eo, Ei. cbn [bind].
    apply (C85_per_label fill_each L fn _ ne _ st (Fin at_) (Fin rho) mi s integer l (map Fin ds) sols); auto.
  - unfold spark_layer.
    apply (C85_per_label fill_spark L fn _ ne _ st (Fin at_) (Fin rho) mi s integer l (map Fin ds) sols); auto.
    intros i Hi. destruct (Hs i Hi) as (sol & A). exists sol. destruct (Z i Hi) as [Z1 Z2]. rewrite Z1, Z2 in A. exact A.
Qed.
Print Assumptions C85_library.

Example C85_library_case : label_table 2 two_labels /\ Forall (fun r => all_finite (row_vec r)) two_labels /\ csr_of two_csr two_labels /\
  layer_jac logistic fit_p_jac_dense /\ layer_kernels logistic (fun d x y z => toR (mfit_p_ijk d x y z)) mfit_logp_ijk mfit_log1mp_ijk /\
  start_array 2 (Single false (Fin 1)) = (false, Numeric (map Fin [1; 1])) /\ start_array 2 NoStart = (false, Numeric (map Fin [0; 0])).
Proof.
  split; [exact two_table|]. split; [repeat constructor; simpl; exists 1; split; try reflexivity; lra|].
  split; [exact two_csr_ok|]. split; [constructor|]. split; [constructor|]. split; reflexivity.
Qed.

(** * A failed fit is not undone *)
Definition two_layer (i : nat) (d : num) : num * num := exp_edges_f_jac_layer fit_p_jac_dense d (spark_column 2 two_labels i) (spark_column 2 two_labels i) false.
Definition two_target (i : nat) : num := Fin (1 / 2).
Lemma two_column : forall i, (i < 2)%nat -> spark_column 2 two_labels i = [(0%nat, Fin 1); (1%nat, Fin 1)].
Proof. intros [|[|i]] Hi; [reflexivity | reflexivity | lia]. Qed.
Lemma nan_fails : monotonic_newton_solver (two_layer 1) NaN (Fin (1 / 2)) (Fin (1 / 10)) (Fin 0) 1 (Fin 0) PInf None None = Raise AssertionError.
Proof.
  assert (E : two_layer 1 NaN = (NaN, NaN)).
  { unfold two_layer. rewrite two_column by lia. unfold exp_edges_f_jac_layer, acc_pair, fit_p_jac_dense. num_eval. reflexivity. }
  unfold monotonic_newton_solver, solver_init, bracket. rewrite E. num_eval. reflexivity.
Qed.
Lemma two_found : exists sol, monotonic_newton_solver (two_layer 0) (Fin 0) (Fin (1 / 2)) (Fin (1 / 10)) (Fin 0) 1 (Fin 0) PInf None None = Ok sol /\
  sol_converged sol = true /\ sol_x sol = Fin (1 / 4).
Proof.
  destruct layer_at as [A B]. apply quarter_found; unfold two_layer; rewrite two_column by lia; [exact A | exact B].
Qed.

Example C85_failure_case : exists sol,
  monotonic_newton_solver (two_layer 0) (Fin 0) (two_target 0) (Fin (1 / 10)) (Fin 0) 1 (Fin 0) PInf None None = Ok sol /\
  stored_as false (sol_x sol) (Fin (1 / 4)) /\
  monotonic_newton_solver (two_layer 1) NaN (two_target 1) (Fin (1 / 10)) (Fin 0) 1 (Fin 0) PInf None None = Raise AssertionError /\
  start_array 2 (Values false (Numeric [Fin 0; NaN])) = (false, Numeric [Fin 0; NaN]) /\
  forall v, In v [Fin 0; NaN] -> nltb v (Fin 0) = false.
Proof.
  destruct two_found as (sol & E & _ & X). exists sol. split; [exact E|]. split; [cbn; symmetry; exact X|]. split; [exact nan_fails|].
  split; [reflexivity|]. intros v [<- | [<- | []]]; [cbn; apply Rltb_false; lra | reflexivity].
Qed.

(** Two labels; the second has no strengths at all, so that no parameter gives it an edge.  With the start [0, 0] (two
    integers), a target of one half in both labels and tolerance 0 the solver returns infinity for the second. *)
Definition short_layer (i : nat) (d : num) : num * num :=
  match i with O => two_layer 0 d | S _ => exp_edges_f_jac_layer fit_p_jac_dense d [] [] false end.
Lemma short_infinite : exists sol, monotonic_newton_solver (short_layer 1) (Fin 0) (Fin (1 / 2)) (Fin 0) (Fin 0) 1 (Fin 0) PInf None None = Ok sol /\
  sol_x sol = PInf.
Proof.
  assert (E : forall d, short_layer 1 d = (Fin 0, Fin 0)) by reflexivity.
  unfold monotonic_newton_solver, solver_init, bracket. rewrite E. num_eval.
  eexists. split.
  - unfold solver_step, next_x, ndiv. num_eval. unfold bracket, finish. num_eval. reflexivity.
  - cbn [sol_x]. reflexivity.
Qed.
Lemma short_found : exists sol, monotonic_newton_solver (short_layer 0) (Fin 0) (Fin (1 / 2)) (Fin 0) (Fin 0) 1 (Fin 0) PInf None None = Ok sol /\
  sol_x sol = Fin (1 / 4).
Proof.
  destruct layer_at as [L0 L1].
  assert (K : forall d, short_layer 0 d = exp_edges_f_jac_layer fit_p_jac_dense d [(0%nat, Fin 1); (1%nat, Fin 1)] [(0%nat, Fin 1); (1%nat, Fin 1)] false).
  { intros d. unfold short_layer, two_layer. rewrite two_column by lia. reflexivity. }
  cbv beta in L0, L1. rewrite <- K in L0.
  assert (L2 : forall d, d = 1 / 4 -> short_layer 0 (Fin d) = (Fin (2 / 5), Fin (32 / 25))) by (intros d Hd; rewrite K; apply L1; exact Hd).
  clear K L1. generalize dependent (short_layer 0). intros layer L0 L1. eexists. split.
  - unfold monotonic_newton_solver, solver_init, bracket. rewrite L0. num_eval.
    unfold solver_step, next_x, ndiv. num_eval. rewrite L1 by lra. unfold bracket, finish. num_eval. reflexivity.
  - cbn [sol_x]. f_equal. lra.
Qed.
Example C85_unstorable_case : exists s0 s1,
  start_array 2 (Values true (Numeric [Fin 0; Fin 0])) = (true, Numeric [Fin 0; Fin 0]) /\
  (forall v, In v [Fin 0; Fin 0] -> nltb v (Fin 0) = false) /\
  monotonic_newton_solver (short_layer 0) (Fin 0) (two_target 0) (Fin 0) (Fin 0) 1 (Fin 0) PInf None None = Ok s0 /\
  stored_as true (sol_x s0) (Fin 0) /\
  monotonic_newton_solver (short_layer 1) (Fin 0) (two_target 1) (Fin 0) (Fin 0) 1 (Fin 0) PInf None None = Ok s1 /\
  sol_x s1 = PInf.
Proof.
  destruct short_infinite as (s1 & E1 & X1), short_found as (s0 & E0 & X0). exists s0, s1.
  split; [reflexivity|]. split; [intros v [<- | [<- | []]]; cbn; apply Rltb_false; lra|]. split; [exact E0|].
  split; [|split; [exact E1 | exact X1]]. exists (1 / 4). split; [exact X0|]. rewrite trunc_quarter. reflexivity.
Qed.

(** Two vertices of fitness 1 in both of two labels, a fitted object and a start that is not a number in the second
    label.  The sparse class raises AssertionError having replaced the parameters by a new value and NaN.  The Spark
    class raises having replaced them by the start.  An object never fitted gets a parameter, so that its measures no
    longer report that it has to be fitted first. *)
Theorem C85_atomic_refuted : exists st (old : fit_state) sol,
  let fit fill s := fit_call fill 2 true (two_layer 0) (Ok two_layer) None (Some two_target) st Density (Fin (1 / 10)) (Fin 0) 1 s in
  fs_param old = Some [Fin 1; Fin 1] /\
  fit fill_each old = (Raise AssertionError, mkFit (Some [Fin (1 / 4); NaN]) (Some (LabelFits [Some sol; None]))) /\
  fit fill_spark old = (Raise GenericException, mkFit (Some [Fin 0; NaN]) (Some (LabelFits [None; None]))) /\
  fs_param (snd (fit fill_each (mkFit None None))) <> None /\ fs_param (snd (fit fill_spark (mkFit None None))) <> None.
Proof.
  destruct C85_failure_case as (sol & E & X & F & S & Ng).
  exists (Values false (Numeric [Fin 0; NaN])), (mkFit (Some [Fin 1; Fin 1]) (Some (OneFit sol))), sol. cbv zeta.
  assert (Q : forall s, 
    fit_call fill_each 2 true (two_layer 0) (Ok two_layer) None (Some two_target) (Values false (Numeric [Fin 0; NaN])) Density (Fin (1 / 10)) (Fin 0) 1 s
    = (Raise AssertionError, mkFit (Some [Fin (1 / 4); NaN]) (Some (LabelFits [Some sol; None]))) /\
    fit_call fill_spark 2 true (two_layer 0) (Ok two_layer) None (Some two_target) (Values false (Numeric [Fin 0; NaN])) Density (Fin (1 / 10)) (Fin 0) 1 s
    = (Raise GenericException, mkFit (Some [Fin 0; NaN]) (Some (LabelFits [None; None])))).
  { intros s. apply (C85_first_failure 2 (two_layer 0) two_layer None two_target (Values false (Numeric [Fin 0; NaN])) (Fin (1 / 10)) (Fin 0) 1 s
      false [Fin 0; NaN] 1 [Fin (1 / 4)] [sol] AssertionError S eq_refl Ng); try reflexivity; try lia; [|exact F].
    intros [|i] Hi; [|lia]. exists sol. split; [reflexivity|]. split; [exact E | exact X]. }
  split; [reflexivity|]. split; [apply Q|]. split; [apply Q|].
  rewrite (proj1 (Q _)), (proj2 (Q _)). split; discriminate.
Qed.
Print Assumptions C85_atomic_refuted.
