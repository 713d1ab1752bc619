(** Property C110: the density fit of one parameter per label in double precision. *)
From Verif Require Import Base Num Spec Kernels KernelFacts MultiKernels MultiFacts Prob Ensemble EnsembleFacts ModelFacts Layers LayerFacts LayerProps LayerLib PropLayers Conditional Solver Fit LayerFit
  Float FloatFacts FloatSolver FloatSolverFacts FloatSample FloatMulti FloatMultiFacts FloatLayers FloatLayerFit PropFloat PropFloatSample PropFloatSolver PropFloatMulti PropFloatLayers
  FloatRankFacts FloatAccuracy PropFloatAccuracy PropFloatLik PropFloatDraws PropFloatLayerAccuracy.
Import Num Spec.
From Coq Require Import Lra Lia FunctionalExtensionality.
Open Scope R_scope.
Local Notation drawn := PropFloatDraws.drawn.

(** * Without rounding *)
Theorem C110_exact : forall p_jac L xs ys sl target (x0 : option (list num)) atol rtol maxiter,
  rfit_per_label Fin p_jac L xs ys sl target x0 atol rtol maxiter =
  fit_per_label p_jac L xs ys sl target (match x0 with None => None | Some l => Some (Numeric l) end) Density atol rtol maxiter.
Proof.
  intros p_jac L xs ys sl target x0 atol rtol maxiter. unfold rfit_per_label, fit_per_label, multi_fit.
  assert (EJ : forall d po pin, rexp_edges_f_jac_layer Fin p_jac d po pin sl = exp_edges_f_jac_layer p_jac d po pin sl).
  { intros d po pin. unfold rexp_edges_f_jac_layer, exp_edges_f_jac_layer. f_equal. extensionality o. extensionality s. f_equal. extensionality i. extensionality s'.
    destruct (adm sl (fst o) (fst i)); [|reflexivity]. unfold racc_pair, acc_pair. exact_ops. reflexivity. }
  destruct (by_layer L xs) as [po|]; [|reflexivity]. destruct (by_layer L ys) as [pin|]; [|reflexivity]. cbn [bind].
  assert (FL : forall num_e z labels, rfit_layers Fin (fun i delta => rexp_edges_f_jac_layer Fin p_jac delta (zip (nth i po ([], []))) (zip (nth i pin ([], []))) sl) num_e z atol rtol maxiter labels =
    fit_layers (fun i delta => exp_edges_f_jac_layer p_jac delta (zip (nth i po ([], []))) (zip (nth i pin ([], []))) sl) num_e z atol rtol maxiter labels).
  { intros num_e z. induction labels as [|i t IH]; [reflexivity|]. cbn [rfit_layers fit_layers]. rewrite IH, (proj1 C98_exact).
    replace (fun delta => rexp_edges_f_jac_layer Fin p_jac delta (zip (nth i po ([], []))) (zip (nth i pin ([], []))) sl) with (fun delta => exp_edges_f_jac_layer p_jac delta (zip (nth i po ([], []))) (zip (nth i pin ([], []))) sl)
      by (extensionality delta; rewrite EJ; reflexivity). reflexivity. }
  destruct x0 as [l|]; cbn [arr_len]; destruct target as [num_e|]; rewrite ?FL; reflexivity.
Qed.
Print Assumptions C110_exact.

Example C110_exact_case : rfit_per_label Fin fit_p_jac_dense 1 (ex_table 2) (ex_table 2) false None (Some [Fin 1; Fin 1]) (Fin 1) (Fin 1) 3 = Raise ValueError /\
  rfit_per_label Fin fit_p_jac_dense 1 (ex_table 2) (ex_table 2) false None (Some [Fin 1]) (Fin 1) (Fin 1) 3 = Raise ValueError.
Proof. split; [reflexivity|]. unfold rfit_per_label. replace (by_layer 1 (ex_table 2)) with (Ok [([0; 1]%nat, [Fin 1; Fin 1])]) by reflexivity. cbn [bind length Nat.eqb guard]. destruct (negb (any_neg [Fin 1])); reflexivity. Qed.

(** * The objective *)
Definition m_jac (kd : kind) := match kd with fitness => rmfit_p_jac_ijk b64 | invariant => rminv_p_jac_ijk b64 end.
Lemma same_jac : forall kd d x y, datum x -> datum y -> m_jac kd d x y = float_jac (is_inv kd) d x y (Fin 1).
Proof.
  intros kd d x y Hx Hy. assert (Z1 : is0 (Fin 1) = false) by (apply is0_fin_pos; lra).
  assert (E : is0 x = false -> is0 y = false -> rmul b64 (rmul b64 x y) (Fin 1) = rmul b64 x y).
  { intros Zx Zy. destruct (datum_pos x Hx Zx) as (wx & -> & Px & Dx), (datum_pos y Hy Zy) as (wy & -> & Py & Dy). apply rmul_1. apply rmul_amount; [right; exact Hx | exact Py]. }
  destruct kd; cbn [m_jac is_inv float_jac]; unfold rmfit_p_jac_ijk, rminv_p_jac_ijk, rfit_p_jac, rinv_p_jac; rewrite Z1, orb_false_r;
    (destruct (is0 x); [reflexivity|]; destruct (is0 y); [reflexivity|]; cbn [orb]; rewrite E by reflexivity; reflexivity).
Qed.
Lemma m_jac_zero : forall kd d x y, is0 x = true \/ is0 y = true -> m_jac kd d x y = (Fin 0, Fin 0).
Proof. intros kd d x y H. destruct kd; cbn [m_jac]; unfold rmfit_p_jac_ijk, rminv_p_jac_ijk; destruct H as [-> | ->]; rewrite ?orb_true_r; reflexivity. Qed.

Lemma each_to_flow' : forall S X (l : list X) (f : X -> S -> S) s, each_flow l (fun x s => Next (f x s)) s = @Next S S (for_each l f s).
Proof. intros S X l f. induction l as [|x l IH]; intros s; [reflexivity | apply IH]. Qed.
Lemma range_to_flow' : forall S n (f : nat -> S -> S) s, for_flow n (fun i s => Next (f i s)) s = @Next S S (for_range n f s).
Proof. intros S n f s. induction n as [|n IH]; [reflexivity|]. cbn [for_flow for_range]. rewrite IH. reflexivity. Qed.
Lemma jac_same : forall kd d po pin N sl, canonical N po -> canonical N pin -> row_data po -> row_data pin ->
  rexp_edges_f_jac_layer b64 (m_jac kd) d po pin sl = rexp_edges_f_jac b64 (fun i j => float_jac (is_inv kd) d (lookup i po) (lookup j pin) (Fin 1)) N sl.
Proof.
  intros kd d po pin N sl C1 C2 D1 D2. set (P := (num * num)%type).
  enough (E : @Next P P (rexp_edges_f_jac_layer b64 (m_jac kd) d po pin sl) = Next (rexp_edges_f_jac b64 (fun i j => float_jac (is_inv kd) d (lookup i po) (lookup j pin) (Fin 1)) N sl)) by congruence.
  unfold rexp_edges_f_jac_layer, rexp_edges_f_jac. rewrite <- each_to_flow', <- range_to_flow'.
  set (body := fun i x j y (s : P) => @Next P P (if adm sl i j then racc_pair b64 s (m_jac kd d x y) else s)).
  transitivity (each_flow po (fun o => each_flow pin (fun q => body (fst o) (snd o) (fst q) (snd q))) (Fin 0, Fin 0)).
  { apply each_flow_ext. intros [i x] s. rewrite <- each_to_flow'. apply each_flow_ext. intros [j y] s'. reflexivity. }
  rewrite (skip_pairs P P (fun s => settled (fst s) /\ settled (snd s)) body N po pin C1 C2).
  - apply flow_ext. intros i s Hi. rewrite <- range_to_flow'. apply flow_ext. intros j s' Hj. unfold body. rewrite (same_jac kd d _ _ (lookup_datum i po D1) (lookup_datum j pin D2)). reflexivity.
  - intros i x j y s Hs. unfold body. destruct (adm sl i j); [split; apply radd_settled | exact Hs].
  - intros i j s _ _ Hn [H1 H2]. unfold body. rewrite m_jac_zero; [unfold racc_pair; cbn [fst snd]; rewrite (radd_zero _ H1), (radd_zero _ H2), <- surjective_pairing; destruct (adm sl i j); reflexivity|].
    destruct Hn as [Hn | Hn]; rewrite (lookup_notin _ _ Hn); [left | right]; apply is0_0.
  - split; apply double_0.
Qed.

(** * The fits of the labels *)
Section Label.
Variables (kd : kind) (N L : nat) (xs ys : list (list nat * list num)) (sl : bool).
Hypothesis Tx : label_table L xs.
Hypothesis Ty : label_table L ys.
Hypothesis Nx : length xs = N.
Hypothesis Ny : length ys = N.
Hypothesis Mx : moderate_table xs.
Hypothesis My : moderate_table ys.
Let x k i := label_value xs i k.
Let y k j := label_value ys j k.

Lemma label_moderate : forall k i, (i < N)%nat -> moderate (x k i) /\ moderate (y k i) /\ forall j, (j < N)%nat -> moderate ((fun _ _ : nat => Fin 1) i j).
Proof. intros k i _. split; [apply label_value_moderate, Mx|]. split; [apply label_value_moderate, My|]. intros j _. apply moderate_1. Qed.
Lemma label_objective : forall k, (fun d => rexp_edges_f_jac_layer b64 (m_jac kd) d (column (map zip xs) k) (column (map zip ys) k) sl) =
  (fun d => rexp_edges_f_jac b64 (fun i j => float_jac (is_inv kd) d (x k i) (y k j) (Fin 1)) N sl).
Proof.
  intros k. extensionality d.
  rewrite (jac_same kd d _ _ N sl); [| rewrite <- Nx; apply (layer_canonical L); exact Tx | rewrite <- Ny; apply (layer_canonical L); exact Ty |
    apply (column_data L); [exact Tx | apply moderate_table_data, Mx] | apply (column_data L); [exact Ty | apply moderate_table_data, My]].
  f_equal. extensionality i. extensionality j. rewrite (layer_lookup L xs Tx), (layer_lookup L ys Ty). reflexivity.
Qed.
Lemma label_drawn : forall k d z f, amount d ->
  drawn (binary_sample_layer (fun d x y (_ : num) => toR (m_p kd d x y)) z d (column (map zip xs) k) (column (map zip ys) k) sl) f =
  drawn (binary_sample (fun d x y z => toR (float_p (is_inv kd) d x y z)) d (x k) (y k) (fun _ _ => Fin 1) N sl) f.
Proof.
  intros k d z f Hd.
  destruct (C109_same kd d (column (map zip xs) k) (column (map zip ys) k) N sl Hd) as (_ & _ & E);
    [rewrite <- Nx; apply (layer_canonical L); exact Tx | rewrite <- Ny; apply (layer_canonical L); exact Ty |
     apply (column_data L); [exact Tx | apply moderate_table_data, Mx] | apply (column_data L); [exact Ty | apply moderate_table_data, My]|].
  rewrite E. f_equal. f_equal; [extensionality i; apply (layer_lookup L xs Tx) | extensionality j; apply (layer_lookup L ys Ty)].
Qed.

Hypothesis N1 : (1 <= N)%nat.
Hypothesis HN : (Z.of_nat (N * N) <= 2 ^ 50)%Z.
Variables (T : R) (k : nat) (a rho : R) (x0 : num) (maxiter : nat).
Hypothesis DT : double T.
Hypothesis HT : T <= pair_sum N sl (fun i j => if connectable (x k i) (y k j) (Fin 1) then 1 else 0).
Hypothesis Hr1 : two (-50) * INR (N * N) <= rho * T.
Hypothesis Hr2 : rho <= 1 / 8.
Hypothesis Ha : two (-900) <= a <= T / 8.
Hypothesis Hx0 : amount x0.

Definition label_fitted (sol : solution) : Prop :=
  amount (sol_x sol) /\
  (let mean := ensemble_mean N sl (graph_weight N sl (fun i j => exact_prob (is_inv kd) (sol_x sol) (x k i) (y k j) (Fin 1))) (g_edges N) in
   let margin := two (-50) * (INR (N * N) + 16) * T in
   (sol_converged sol = true -> Rabs (mean - T) <= (1 + two (-50)) * (a + rho * T) + margin) /\
   (Rabs (mean - T) + margin <= (1 - two (-50)) * (a + rho * T) -> sol_converged sol = true)) /\
  (sol_converged sol = true ->
   Rabs (drawn (binary_sample (fun d x y z => toR (float_p (is_inv kd) d x y z)) (sol_x sol) (x k) (y k) (fun _ _ => Fin 1) N sl) (g_edges N) - T)
   <= (1 + two (-50)) * (a + rho * T) + two (-49) * (INR (N * N) + 16) * T + INR (N * N) * two (-52)).

Lemma label_fit : exists sol,
  rsolver b64 (fun d => rexp_edges_f_jac_layer b64 (m_jac kd) d (column (map zip xs) k) (column (map zip ys) k) sl) x0 (Fin T) (Fin a) (Fin rho) maxiter (Fin 0) PInf None None = Ok sol /\ label_fitted sol.
Proof.
  rewrite label_objective.
  destruct (C106_fit (is_inv kd) (x k) (y k) (fun _ _ => Fin 1) N sl T a rho x0 maxiter (label_moderate k) N1 HN DT HT Hr1 Hr2 Ha Hx0) as (sol & ES & Cv & Cc & _).
  destruct (C108_fit (is_inv kd) (x k) (y k) (fun _ _ => Fin 1) N sl T a rho x0 maxiter (label_moderate k) N1 HN DT HT Hr1 Hr2 Ha Hx0) as (sol' & ES' & Dr).
  cbn beta zeta in *. rewrite ES in ES'. injection ES' as <-. exists sol. split; [exact ES|]. split; [|split; [split; [exact Cv | exact Cc] | exact Dr]].
  assert (Fit : exists sol, rsolver b64 (fun d => rexp_edges_f_jac b64 (fun i j => float_jac (is_inv kd) d (x k i) (y k j) (Fin 1)) N sl) x0 (Fin T) (Fin a) (Fin rho) maxiter (Fin 0) PInf None None = Ok sol /\ Forall amount (sol_x_seq sol)).
  { assert (HN53 : (Z.of_nat (N * N) <= 2 ^ 53)%Z) by (eapply Z.le_trans; [exact HN | lia]). pose proof (label_moderate k) as LM. unfold float_jac.
    destruct (is_inv kd); [destruct (C98_fit (rinv_p_jac b64) (x k) (y k) (fun _ _ => Fin 1) N sl T a rho x0 maxiter) as (so & E & F & _) | destruct (C98_fit (rfit_p_jac b64) (x k) (y k) (fun _ _ => Fin 1) N sl T a rho x0 maxiter) as (so & E & F & _)]; eauto. }
  destruct Fit as (so & E & FA). rewrite ES in E. injection E as <-.
  destruct (C98_report _ _ _ _ _ _ _ _ _ _ _ ES) as (_ & _ & _ & _ & _ & _ & LX & _ & _ & Last & _). rewrite <- Last. rewrite Forall_forall in FA. apply FA.
  destruct (exists_last (l := sol_x_seq sol)) as (l' & lst & El); [intros Q; rewrite Q in LX; cbn in LX; lia|]. rewrite El, last_last. apply in_or_app. right. left. reflexivity.
Qed.
End Label.

Lemma layers_fitted : forall layer num_e x0 atol rtol maxiter (P : nat -> solution -> Prop) l,
  (forall k, In k l -> exists sol, rsolver b64 (layer k) (x0 k) (num_e k) atol rtol maxiter (Fin 0) PInf None None = Ok sol /\ P k sol) ->
  exists sols, rfit_layers b64 layer num_e x0 atol rtol maxiter l = Ok sols /\ Forall2 P l sols.
Proof.
  intros layer num_e x0 atol rtol maxiter P. induction l as [|k l IH]; intros H; [exists []; split; [reflexivity | constructor]|].
  destruct (H k (or_introl eq_refl)) as (sol & E & HP), (IH (fun k' Hk => H k' (or_intror Hk))) as (sols & ES & F). exists (sol :: sols). cbn [rfit_layers]. rewrite E, ES. split; [reflexivity | constructor; assumption].
Qed.
Lemma layers_nth : forall (P : nat -> solution -> Prop) L a sols k sol, Forall2 P (seq a L) sols -> nth_error sols k = Some sol -> P (a + k)%nat sol /\ (k < L)%nat.
Proof.
  intros P. induction L as [|L IH]; intros a sols k sol F E; cbn [seq] in F; inversion F; subst; [destruct k; discriminate|].
  destruct k as [|k]; cbn [nth_error] in E; [injection E as <-; rewrite Nat.add_0_r; split; [assumption | lia]|].
  destruct (IH (S a) _ _ _ H3 E) as [A B]. split; [replace (a + S k)%nat with (S a + k)%nat by lia; exact A | lia].
Qed.
Lemma layers_length : forall X Y (P : X -> Y -> Prop) l m, Forall2 P l m -> length m = length l.
Proof. intros X Y P l m F. induction F as [|u v l m _ _ IH]; [reflexivity | cbn; f_equal; exact IH]. Qed.
Lemma no_negative : forall l, Forall amount l -> any_neg l = false.
Proof.
  intros l H. unfold any_neg. induction H as [|v l [-> | (w & -> & P & _)] F IH]; cbn [existsb]; [reflexivity | exact IH |]. rewrite IH, orb_false_r. cbn. destruct (Rltb_spec w 0); [lra | reflexivity].
Qed.

(** * The fit and the samples *)
Lemma all_labels : forall kd N L xs ys sl T a rho x0 maxiter,
  label_table L xs -> label_table L ys -> length xs = N -> length ys = N -> moderate_table xs -> moderate_table ys -> (Z.of_nat (N * N) <= 2 ^ 50)%Z ->
  (forall k, (k < L)%nat -> double (T k) /\
     T k <= pair_sum N sl (fun i j => if connectable (label_value xs i k) (label_value ys j k) (Fin 1) then 1 else 0) /\
     two (-50) * INR (N * N) <= rho * T k /\ two (-900) <= a <= T k / 8) -> rho <= 1 / 8 ->
  match x0 with None => True | Some l => length l = L /\ Forall amount l end ->
  exists sols, rfit_per_label b64 (m_jac kd) L xs ys sl (Some (fun k => Fin (T k))) x0 (Fin a) (Fin rho) maxiter = Ok (map sol_x sols, sols) /\
    Forall2 (fun k => label_fitted kd N xs ys sl (T k) k a rho) (seq 0 L) sols.
Proof.
  intros kd N L xs ys sl T a rho x0 maxiter Tx Ty Nx Ny Mx My HN HT Hr Hx0.
  assert (N1 : (1 <= N)%nat) by (destruct Tx as (Q & _); rewrite <- Nx; destruct xs; [congruence | cbn; lia]).
  set (l := match x0 with None => repeat (Fin 0) L | Some l => l end).
  assert (Hl : length l = L /\ Forall amount l).
  { unfold l. destruct x0 as [l0|]; [exact Hx0|]. split; [apply repeat_length|]. apply Forall_forall. intros v Hv. apply repeat_spec in Hv. subst v. right. apply datum_fin; [lra | apply double_0]. }
  destruct Hl as [L1 L2].
  destruct (layers_fitted (fun i d => rexp_edges_f_jac_layer b64 (m_jac kd) d (column (map zip xs) i) (column (map zip ys) i) sl) (fun k => Fin (T k)) (fun i => nth i l NaN) (Fin a) (Fin rho) maxiter
    (fun k => label_fitted kd N xs ys sl (T k) k a rho) (seq 0 L)) as (sols & E & F).
  { intros k Hk. apply in_seq in Hk. destruct (HT k ltac:(lia)) as (D & B & R1 & A).
    apply (label_fit kd N L xs ys sl Tx Ty Nx Ny Mx My N1 HN (T k) k a rho _ maxiter D B R1 Hr A). apply (proj1 (Forall_forall _ _) L2). apply nth_In. lia. }
  exists sols. split; [|exact F]. unfold rfit_per_label. fold l. rewrite (table_layers L xs Tx), (table_layers L ys Ty). cbn [bind].
  rewrite L1, Nat.eqb_refl, (no_negative l L2). cbn [negb guard].
  assert (X : forall s, (forall i, In i s -> (i < L)%nat) ->
    rfit_layers b64 (fun i delta => rexp_edges_f_jac_layer b64 (m_jac kd) delta (zip (nth i (map (fun l => tuple_of (column (map zip xs) l)) (seq 0 L)) ([], []))) (zip (nth i (map (fun l => tuple_of (column (map zip ys) l)) (seq 0 L)) ([], []))) sl)
      (fun k => Fin (T k)) (fun i => nth i l NaN) (Fin a) (Fin rho) maxiter s =
    rfit_layers b64 (fun i d => rexp_edges_f_jac_layer b64 (m_jac kd) d (column (map zip xs) i) (column (map zip ys) i) sl) (fun k => Fin (T k)) (fun i => nth i l NaN) (Fin a) (Fin rho) maxiter s).
  { induction s as [|i s IH]; intros Hs; [reflexivity|]. cbn [rfit_layers]. rewrite IH by (intros i' Hi'; apply Hs; right; exact Hi'). rewrite !nth_layers by (apply Hs; left; reflexivity). reflexivity. }
  rewrite X by (intros i Hi; apply in_seq in Hi; lia). rewrite E. reflexivity.
Qed.

(** Fit of one parameter per label in doubles.  For fitnesses that are zero or between 2^-130 and 2^130 and, for each label,
    a target that the pairs of vertices with fitness for the label can reach, the fit does not raise, and the report of each label
    is right: if it says converged, the exact expected number of links of the label at the fitted parameter is the target within the
    tolerance, and if the exact value is within the tolerance less the rounding errors, it says converged. *)
Theorem C110_fit : forall kd N L xs ys sl T a rho x0 maxiter,
  label_table L xs -> label_table L ys -> length xs = N -> length ys = N -> moderate_table xs -> moderate_table ys -> (Z.of_nat (N * N) <= 2 ^ 50)%Z ->
  (forall k, (k < L)%nat -> double (T k) /\
     T k <= pair_sum N sl (fun i j => if connectable (label_value xs i k) (label_value ys j k) (Fin 1) then 1 else 0) /\
     two (-50) * INR (N * N) <= rho * T k /\ two (-900) <= a <= T k / 8) -> rho <= 1 / 8 ->
  match x0 with None => True | Some l => length l = L /\ Forall amount l end ->
  exists sols, rfit_per_label b64 (m_jac kd) L xs ys sl (Some (fun k => Fin (T k))) x0 (Fin a) (Fin rho) maxiter = Ok (map sol_x sols, sols) /\ length sols = L /\
  forall k sol, nth_error sols k = Some sol ->
  let mean := ensemble_mean N sl (graph_weight N sl (layer_prob (law kd) (fun k => nth k (map sol_x sols) NaN) xs ys k)) (g_edges N) in
  let margin := two (-50) * (INR (N * N) + 16) * T k in
  (sol_converged sol = true -> Rabs (mean - T k) <= (1 + two (-50)) * (a + rho * T k) + margin) /\
  (Rabs (mean - T k) + margin <= (1 - two (-50)) * (a + rho * T k) -> sol_converged sol = true).
Proof.
  intros kd N L xs ys sl T a rho x0 maxiter Tx Ty Nx Ny Mx My HN HT Hr Hx0.
  destruct (all_labels kd N L xs ys sl T a rho x0 maxiter Tx Ty Nx Ny Mx My HN HT Hr Hx0) as (sols & E & F). exists sols. split; [exact E|].
  split; [rewrite (layers_length _ _ _ _ _ F); apply seq_length|]. intros k sol Hk. cbv zeta. rewrite layer_exact.
  destruct (layers_nth _ _ _ _ _ _ F Hk) as [(_ & B & _) _]. cbn [plus] in B.
  replace (nth k (map sol_x sols) NaN) with (sol_x sol) by (symmetry; apply nth_error_nth; rewrite nth_error_map, Hk; reflexivity). exact B.
Qed.
Print Assumptions C110_fit.

(** Two vertices and two labels, with self-loops; the targets are 2 of the 4 pairs of the first label and half a link for the only
    pair of the second. *)
Example C110_fit_case : let T := fun k : nat => match k with 0%nat => 2 | _ => 1 / 2 end in
  label_table 2 two_labels /\ length two_labels = 2%nat /\ moderate_table two_labels /\ (Z.of_nat (2 * 2) <= 2 ^ 50)%Z /\
  (forall k, (k < 2)%nat -> double (T k) /\
     T k <= pair_sum 2 true (fun i j => if connectable (label_value two_labels i k) (label_value two_labels j k) (Fin 1) then 1 else 0) /\
     two (-50) * INR (2 * 2) <= two (-30) * T k /\ two (-900) <= two (-80) <= T k / 8) /\ two (-30) <= 1 / 8 /\
  (length [Fin 0; PInf] = 2%nat /\ Forall amount [Fin 0; PInf]) /\
  forall k, (k < 2)%nat -> two (-50) * (INR (2 * 2) + 16) * T k <= (two (-80) + two (-30) * T k) / 1024.
Proof.
  intros T. destruct two_labels_ok as [T1 T2]. split; [exact T1|]. split; [reflexivity|]. split; [exact T2|]. split; [lia|].
  split; [|split; [tw; lra|]; split; [split; [reflexivity|]; apply Forall_cons; [right; apply datum_fin; [lra | apply double_0]|]; apply Forall_cons; [left; reflexivity | apply Forall_nil]|]].
  - intros k Hk. assert (P : k = 0%nat \/ k = 1%nat) by lia. destruct P as [-> | ->]; unfold T.
    + split; [apply (double_Z 2); lia|]. split; [|split; [tw; cbn; lra | split; [apply two_le; lia | tw; lra]]].
      cbn [label_value two_labels nth row_vec combine fst snd lookup Nat.eqb pair_sum sumn allowed]. unfold connectable, pair_sum, sumn, allowed, label_value, two_labels. cbn [nth row_vec combine fst snd lookup Nat.eqb]. rewrite !is0_fin_pos by lra. cbn. lra.
    + split; [exists 1%Z, (-1)%Z; split; [rewrite (two_neg 1 : two (-1) = _), two_1; lra | lia]|]. split; [|split; [tw; cbn; lra | split; [apply two_le; lia | tw; lra]]].
      unfold connectable, pair_sum, sumn, allowed, label_value, two_labels. cbn [nth row_vec combine fst snd lookup Nat.eqb]. rewrite !is0_fin_pos by lra. rewrite !is0_0. cbn. lra.
  - intros k Hk. assert (P : k = 0%nat \/ k = 1%nat) by lia. destruct P as [-> | ->]; unfold T; tw; cbn [Nat.mul Nat.add INR]; lra.
Qed.

Lemma mean_const : forall N sl p c, ensemble_mean N sl (graph_weight N sl p) (fun _ => c) = c.
Proof.
  intros N sl p c. rewrite mean_bern.
  assert (X : forall (l : list (nat * nat)) acc, expect (bern (fun e => p (fst e) (snd e)) (fun e => e) l acc) (fun _ => c) = c).
  { induction l as [|e l IH]; intros acc; [reflexivity|]. rewrite (bern_expect _ _ _ _ (e :: l) acc), !IH. ring. }
  apply X.
Qed.
Lemma tensor_const : forall N sl p L c, tensor_mean N sl (fun k => graph_weight N sl (p k)) L (fun _ => c) = c.
Proof.
  intros N sl p L. revert p. induction L as [|L IH]; intros p c; [reflexivity|]. cbn [tensor_mean].
  transitivity (ensemble_mean N sl (graph_weight N sl (p 0%nat)) (fun _ => c)); [|apply mean_const]. f_equal. extensionality G. apply (IH (fun k => p (S k))).
Qed.
(** The mean of a function of one layer *)
Lemma tensor_margin : forall N sl p L k g, (k < L)%nat ->
  tensor_mean N sl (fun k => graph_weight N sl (p k)) L (fun Gs => g (nth k Gs [])) = ensemble_mean N sl (graph_weight N sl (p k)) g.
Proof.
  intros N sl p L. revert p. induction L as [|L IH]; intros p k g Hk; [lia|]. cbn [tensor_mean]. destruct k as [|k]; cbn [nth].
  - f_equal. extensionality G. apply (tensor_const N sl (fun k => p (S k))).
  - transitivity (ensemble_mean N sl (graph_weight N sl (p 0%nat)) (fun _ => ensemble_mean N sl (graph_weight N sl (p (S k))) g)); [|apply mean_const].
    f_equal. extensionality G. apply (IH (fun k => p (S k))). lia.
Qed.

(** Fit and sample in doubles: of the labels whose fit reports convergence, the mean number of links in the samples of the fitted
    object is the target, within the tolerance and the errors of the probabilities and of the draws. *)
Theorem C110_sample : forall kd z N L xs ys sl arg T a rho x0 maxiter,
  label_table L xs -> label_table L ys -> length xs = N -> length ys = N -> moderate_table xs -> moderate_table ys -> (Z.of_nat (N * N) <= 2 ^ 50)%Z ->
  (forall k, (k < L)%nat -> double (T k) /\
     T k <= pair_sum N sl (fun i j => if connectable (label_value xs i k) (label_value ys j k) (Fin 1) then 1 else 0) /\
     two (-50) * INR (N * N) <= rho * T k /\ two (-900) <= a <= T k / 8) -> rho <= 1 / 8 ->
  match x0 with None => True | Some l => length l = L /\ Forall amount l end ->
  exists sols m, rfit_per_label b64 (m_jac kd) L xs ys sl (Some (fun k => Fin (T k))) x0 (Fin a) (Fin rho) maxiter = Ok (map sol_x sols, sols) /\ length sols = L /\
  sample_layers (fun d x y (_ : num) => toR (m_p kd d x y)) z L xs ys (Some (fun k => nth k (map sol_x sols) NaN)) sl arg = Ok m /\
  forall k sol, nth_error sols k = Some sol -> sol_converged sol = true ->
  Rabs (drawn m (fun Gs => g_edges N (nth k Gs [])) - T k) <= (1 + two (-50)) * (a + rho * T k) + two (-49) * (INR (N * N) + 16) * T k + INR (N * N) * two (-52).
Proof.
  intros kd z N L xs ys sl arg T a rho x0 maxiter Tx Ty Nx Ny Mx My HN HT Hr Hx0.
  destruct (all_labels kd N L xs ys sl T a rho x0 maxiter Tx Ty Nx Ny Mx My HN HT Hr Hx0) as (sols & E & F). set (d := fun k => nth k (map sol_x sols) NaN).
  assert (SL : length sols = L) by (rewrite (layers_length _ _ _ _ _ F); apply seq_length).
  assert (Ed : forall k sol, nth_error sols k = Some sol -> d k = sol_x sol) by (intros k sol Hk; unfold d; apply nth_error_nth; rewrite nth_error_map, Hk; reflexivity).
  assert (Hd : forall k, (k < L)%nat -> amount (d k)).
  { intros k Hk. destruct (nth_error sols k) as [sol|] eqn:Q; [|apply nth_error_None in Q; lia]. rewrite (Ed k sol Q). destruct (layers_nth _ _ _ _ _ _ F Q) as [(A & _) _]. exact A. }
  eexists sols, _. split; [exact E|]. split; [exact SL|]. unfold sample_layers. rewrite (table_layers L xs Tx), (table_layers L ys Ty). cbn [bind]. split; [reflexivity|].
  intros k sol Hk Cv. destruct (layers_nth _ _ _ _ _ _ F Hk) as [(_ & _ & B) Lk]. cbn [plus] in B. specialize (B Cv).
  set (b := fun k => binary_sample_layer (fun d x y (_ : num) => toR (m_p kd d x y)) z (d k) (column (map zip xs) k) (column (map zip ys) k) sl).
  match goal with |- context[for_prog (seq 0 L) ?c []] => replace (for_prog (seq 0 L) c []) with (layers_prog b (seq 0 L) []) end.
  2: { symmetry. apply for_prog_ext_in. intros k' acc Hk'. apply in_seq in Hk'. unfold b. rewrite !nth_layers by lia. reflexivity. }
  set (p := fun k i j => hit (toR (float_p (is_inv kd) (d k) (label_value xs i k) (label_value ys j k) (Fin 1)))).
  assert (Dr : forall k g, (k < 0 + L)%nat -> drawn (b k) g = ensemble_mean N sl (graph_weight N sl (p k)) g).
  { intros k' g Hk'. unfold b. rewrite (label_drawn kd N L xs ys sl Tx Ty Nx Ny Mx My k' (d k') z g (Hd k' Hk')). apply sample_mean. }
  rewrite (drawn_layers N sl b (fun k => graph_weight N sl (p k)) L 0 [] _ Dr). cbn [app plus]. rewrite (tensor_margin N sl p L k (g_edges N) Lk).
  rewrite sample_mean in B. unfold p. rewrite (Ed k sol Hk). exact B.
Qed.
Print Assumptions C110_sample.
(** As in C110_fit_case. *)
Example C110_sample_case : let T := fun k : nat => match k with 0%nat => 2 | _ => 1 / 2 end in
  label_table 2 two_labels /\ length two_labels = 2%nat /\ moderate_table two_labels /\ (Z.of_nat (2 * 2) <= 2 ^ 50)%Z /\
  (forall k, (k < 2)%nat -> double (T k) /\
     T k <= pair_sum 2 true (fun i j => if connectable (label_value two_labels i k) (label_value two_labels j k) (Fin 1) then 1 else 0) /\
     two (-50) * INR (2 * 2) <= two (-30) * T k /\ two (-900) <= two (-80) <= T k / 8) /\ two (-30) <= 1 / 8 /\
  (length [Fin 0; PInf] = 2%nat /\ Forall amount [Fin 0; PInf]) /\
  forall k, (k < 2)%nat -> two (-50) * (INR (2 * 2) + 16) * T k <= (two (-80) + two (-30) * T k) / 1024.
Proof. exact C110_fit_case. Qed.
