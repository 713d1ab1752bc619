(** Property C108: the distribution of the samples that are drawn in double precision. *)
From Verif Require Import Base Num Spec Kernels Prob Ensemble EnsembleFacts ModelFacts Conditional Solver Float FloatFacts FloatSolver FloatSolverFacts FloatSample
  PropFloat PropFloatSolver FloatRankFacts FloatAccuracy PropFloatAccuracy PropFloatSample.
Import Num Spec.
From Coq Require Import Lra Lia.

Open Scope R_scope.

(** * Averages over the values of [rng.random()] *)

(** Each call of [rng.random()] returns one of 2^53 values, all equally probable. *)
Definition draws : nat := Z.to_nat (2 ^ 53).
Lemma draws_Z : Z.of_nat draws = (2 ^ 53)%Z.
Proof. apply Z2Nat.id. apply Z.pow_nonneg. lia. Qed.
Lemma INR_draws : INR draws = two 53.
Proof. rewrite INR_IZR_INZ, draws_Z, two_Z by lia. reflexivity. Qed.
Global Opaque draws.

(** The average of [f] over the results of a program that draws all its numbers in this way. *)
Fixpoint drawn {A} (m : prog A) (f : A -> R) : R :=
  match m with
  | Ret a => f a
  | Draw p k => two (-53) * sumn draws (fun n => drawn (k (Rltb (INR n * two (-53)) p)) f)
  end.

(** The probability with which [rng.random() < p]. *)
Definition hit (p : R) : R := two (-53) * sumn draws (fun n => b2r (Rltb (INR n * two (-53)) p)).

Lemma draws_unit : two (-53) * INR draws = 1. Proof. rewrite INR_draws, <- two_add. reflexivity. Qed.

Lemma sumn_first : forall n h, sumn n (fun k => b2r (k <? h)%nat) = INR (Nat.min h n).
Proof.
  induction n as [|n IH]; intros h; [rewrite Nat.min_0_r; reflexivity|]. cbn [sumn]. rewrite IH. destruct (Nat.ltb_spec n h) as [L | L]; cbn [b2r].
  - rewrite (Nat.min_r h (S n)), (Nat.min_r h n) by lia. rewrite S_INR. reflexivity.
  - rewrite (Nat.min_l h (S n)), (Nat.min_l h n) by lia. lra.
Qed.

Lemma hit_spec : forall p, 0 <= p <= 1 -> p <= hit p < p + two (-53) /\ hit p <= 1 /\ (p = 0 -> hit p = 0) /\ exists h : Z, hit p = IZR h * two (-53).
Proof.
  intros p Hp. destruct (C97_draw p Hp) as (h & Hh & Ht & Hb).
  assert (E : hit p = IZR h * two (-53)).
  { unfold hit. rewrite (sumn_ext draws _ (fun k => b2r (k <? Z.to_nat h)%nat)).
    - rewrite sumn_first, Nat.min_l by (apply Nat2Z.inj_le; rewrite draws_Z, Z2Nat.id; lia). rewrite INR_IZR_INZ, Z2Nat.id by lia. ring.
    - intros k Hk. f_equal. apply Nat2Z.inj_lt in Hk. rewrite draws_Z in Hk. specialize (Ht (Z.of_nat k) ltac:(lia)). rewrite <- INR_IZR_INZ in Ht.
      destruct (Nat.ltb_spec k (Z.to_nat h)) as [L | L]; [apply Rltb_true, Ht; lia | apply Rltb_false]. apply Rnot_lt_le. intros C. apply Ht in C. lia. }
  pose proof (two_pos (-53)) as P. assert (U : two 53 * two (-53) = 1) by (rewrite <- two_add; reflexivity).
  split; [rewrite E; exact Hb|]. split.
  - rewrite E, <- U. apply Rmult_le_compat_r; [lra|]. rewrite two_Z by lia. apply IZR_le. lia.
  - split; [|exists h; exact E]. intros ->. unfold hit. rewrite sumn_zero; [ring|]. intros k Hk. rewrite Rltb_false; [reflexivity|]. apply Rmult_le_pos; [apply pos_INR | lra].
Qed.

Lemma drawn_draw : forall A p (k : bool -> prog A) f, drawn (Draw p k) f = hit p * drawn (k true) f + (1 - hit p) * drawn (k false) f.
Proof.
  intros A p k f. cbn [drawn]. unfold hit. set (t := fun n => Rltb (INR n * two (-53)) p).
  rewrite (sumn_ext draws _ (fun n => b2r (t n) * (drawn (k true) f - drawn (k false) f) + drawn (k false) f)).
  - rewrite sumn_plus, sumn_scal_r, sumn_const. pose proof draws_unit as U. set (s := sumn draws (fun n => b2r (t n))). change (sumn draws (fun n => b2r (Rltb (INR n * two (-53)) p))) with s.
    transitivity (two (-53) * s * (drawn (k true) f - drawn (k false) f) + (two (-53) * INR draws) * drawn (k false) f); [ring|]. rewrite U. ring.
  - intros n _. fold (t n). destruct (t n); cbn [b2r]; ring.
Qed.

(** Independent tests are drawn as independent tests with these probabilities. *)
Lemma drawn_bern : forall E F (p : E -> R) (mark : E -> F) l acc f, drawn (bern p mark l acc) f = expect (bern (fun e => hit (p e)) mark l acc) f.
Proof.
  intros E F p mark l. induction l as [|e l IH]; intros acc f; [reflexivity|]. rewrite bern_expect, <- !IH.
  unfold bern at 1. cbn [for_prog pbind]. rewrite drawn_draw. reflexivity.
Qed.

(** * Total variation *)
Lemma expect_unit : forall E F (p : E -> R) (mark : E -> F) l acc f, (forall e, In e l -> 0 <= p e <= 1) -> (forall v, 0 <= f v <= 1) -> 0 <= expect (bern p mark l acc) f <= 1.
Proof.
  intros E F p mark l. induction l as [|e l IH]; intros acc f Hp Hf; [apply Hf|]. rewrite bern_expect.
  pose proof (IH (acc ++ [mark e]) f ltac:(intros; apply Hp; right; assumption) Hf). pose proof (IH acc f ltac:(intros; apply Hp; right; assumption) Hf).
  pose proof (Hp e (or_introl eq_refl)). nra.
Qed.

Lemma bern_distance : forall E F (p q : E -> R) (mark : E -> F) l acc f, (forall e, In e l -> 0 <= p e <= 1 /\ 0 <= q e <= 1) -> (forall v, 0 <= f v <= 1) ->
  Rabs (expect (bern p mark l acc) f - expect (bern q mark l acc) f) <= suml (fun e => Rabs (p e - q e)) l.
Proof.
  intros E F p q mark l. induction l as [|e l IH]; intros acc f Hp Hf.
  - cbn. rewrite Rminus_diag_eq by reflexivity. rewrite Rabs_R0. lra.
  - rewrite (bern_expect E F p mark (e :: l)), (bern_expect E F q mark (e :: l)). cbn [suml]. destruct (Hp e (or_introl eq_refl)) as [P Q]. assert (Hp' : forall e, In e l -> 0 <= p e <= 1 /\ 0 <= q e <= 1) by (intros; apply Hp; right; assumption).
    pose proof (IH (acc ++ [mark e]) f Hp' Hf) as I1. pose proof (IH acc f Hp' Hf) as I0.
    pose proof (expect_unit E F p mark l (acc ++ [mark e]) f (fun e H => proj1 (Hp' e H)) Hf) as R1. pose proof (expect_unit E F p mark l acc f (fun e H => proj1 (Hp' e H)) Hf) as R0.
    set (a1 := expect (bern p mark l (acc ++ [mark e])) f) in *. set (a0 := expect (bern p mark l acc) f) in *.
    set (b1 := expect (bern q mark l (acc ++ [mark e])) f) in *. set (b0 := expect (bern q mark l acc) f) in *. set (D := suml (fun e => Rabs (p e - q e)) l) in *.
    replace (p e * a1 + (1 - p e) * a0 - (q e * b1 + (1 - q e) * b0)) with ((p e - q e) * (a1 - a0) + (q e * (a1 - b1) + (1 - q e) * (a0 - b0))) by ring.
    eapply Rle_trans; [apply Rabs_triang|]. apply Rplus_le_compat.
    + rewrite Rabs_mult. rewrite <- (Rmult_1_r (Rabs (p e - q e))) at 2. apply Rmult_le_compat_l; [apply Rabs_pos|]. apply Rabs_le. lra.
    + eapply Rle_trans; [apply Rabs_triang|]. rewrite !Rabs_mult, (Rabs_right (q e)), (Rabs_right (1 - q e)) by lra. nra.
Qed.

Lemma mean_bern : forall N sl p f, ensemble_mean N sl (graph_weight N sl p) f = expect (bern (fun e => p (fst e) (snd e)) (fun e => e) (pairs N sl) []) f.
Proof. intros N sl p f. rewrite mean_lweight, bern_sublists by apply NoDup_pairs. apply suml_ext. intros G _. cbn [app]. rewrite map_id. reflexivity. Qed.

(** * Graphs *)

(** Whatever the data: the links of a sample are independent, and the probability of each is the computed probability
    rounded up to a multiple of 2^-53. *)
Theorem C108_independent : forall k d x y z N sl, datum d -> (forall i, datum (x i)) -> (forall i, datum (y i)) -> (forall i j, datum (z i j)) ->
  exists m : nat -> nat -> R,
  (forall i j, exists (p : R) (h : Z), k_p k d (x i) (y j) (z i j) = Fin p /\ m i j = IZR h * two (-53) /\ p <= m i j < p + two (-53) /\ 0 <= m i j <= 1) /\
  forall f, drawn (binary_sample (fun d x y z => toR (k_p k d x y z)) d x y z N sl) f = ensemble_mean N sl (graph_weight N sl m) f.
Proof.
  intros k d x y z N sl Hd Hx Hy Hz. exists (fun i j => hit (toR (k_p k d (x i) (y j) (z i j)))). split.
  - intros i j. destruct (link_term k d (x i) (y j) (z i j) Hd (Hx i) (Hy j) (Hz i j)) as (p & E & Hp & _). destruct (hit_spec p Hp) as (H & H1 & _ & h & Eh).
    exists p, h. rewrite E. cbn [toR]. repeat split; auto; lra.
  - intros f. rewrite binary_sample_bern, drawn_bern, mean_bern. reflexivity.
Qed.
Print Assumptions C108_independent.

(** All data 1, two vertices: the link from 0 to 1 is drawn with probability 1/2. *)
Example C108_independent_case : datum (Fin 1) /\
  drawn (binary_sample (fun d x y z => toR (k_p fitness d x y z)) (Fin 1) (fun _ => Fin 1) (fun _ => Fin 1) (fun _ _ => Fin 1) 2 false) (fun G => b2r (mem (0, 1)%nat G)) = 1 / 2.
Proof.
  split; [apply datum_fin; [lra | apply double_1]|]. rewrite binary_sample_bern, drawn_bern. cbn [k_p]. destruct C96_log_probabilities_case as (_ & -> & _). cbn [toR].
  assert (H : hit (1 / 2) = 1 / 2).
  { destruct (hit_spec (1 / 2) ltac:(lra)) as (B & _ & _ & h & E). rewrite E in *. assert (D : 1 / 2 = IZR (2 ^ 52) * two (-53)) by (rewrite <- two_Z, <- two_add by lia; symmetry; apply two_m1).
    pose proof (two_pos (-53)). rewrite D in *. f_equal. f_equal. assert (h < 2 ^ 52 + 1)%Z by (apply lt_IZR; rewrite plus_IZR; nra). assert (2 ^ 52 <= h)%Z by (apply le_IZR; nra). lia. }
  rewrite H. unfold pairs. cbn [seq list_prod map app filter allowed adm Nat.eqb negb orb fst snd]. rewrite !bern_expect. unfold mem. cbn. lra.
Qed.

Section Drawn.
Variables (inv : bool) (d : num) (x y : nat -> num) (z : nat -> nat -> num) (N : nat) (sl : bool).
Hypothesis Hd : amount d.
Hypothesis Hm : forall i, (i < N)%nat -> moderate (x i) /\ moderate (y i) /\ forall j, (j < N)%nat -> moderate (z i j).
Let q i j := exact_prob inv d (x i) (y j) (z i j).
Let m i j := hit (toR (float_p inv d (x i) (y j) (z i j))).

Lemma link_error : forall i j, (i < N)%nat -> (j < N)%nat -> 0 <= m i j <= 1 /\ 0 <= q i j <= 1 /\ Rabs (m i j - q i j) <= two (-49) * q i j + two (-52).
Proof.
  intros i j Hi Hj. destruct (all_p inv d x y z N Hd Hm i j Hi Hj) as [(p & E & F & R & A) Q]. fold (q i j) in *. unfold m. rewrite E. cbn [toR].
  destruct F as [F0 _]. destruct (hit_spec p (conj F0 R)) as (H & H1 & _). split; [lra|]. split; [exact Q|]. unfold ap in A. apply Rabs_def2_le in A. rewrite <- uu_52. unfold uu.
  assert (bb <= two (-53)) by (apply two_le; lia). assert (K : kk = two (-49)) by reflexivity. rewrite K in A. apply Rabs_le. lra.
Qed.
Lemma sample_mean : forall f, drawn (binary_sample (fun d x y z => toR (float_p inv d x y z)) d x y z N sl) f = ensemble_mean N sl (graph_weight N sl m) f.
Proof. intros f. rewrite binary_sample_bern, drawn_bern, mean_bern. reflexivity. Qed.

Lemma sumn_distance : forall n (c : nat -> bool) a b (k e : R), 0 <= e -> (forall i, (i < n)%nat -> Rabs (a i - b i) <= k * b i + e) ->
  Rabs (sumn n (fun i => if c i then a i else 0) - sumn n (fun i => if c i then b i else 0)) <= k * sumn n (fun i => if c i then b i else 0) + INR n * e.
Proof.
  intros n c a b k e He H. rewrite <- sumn_minus. eapply Rle_trans; [apply sumn_abs|]. rewrite <- sumn_scal_l, <- sumn_const, <- sumn_plus. apply sumn_le. intros i Hi.
  destruct (c i); [apply H, Hi|]. rewrite Rminus_0_r, Rabs_R0. lra.
Qed.
Lemma pair_distance : Rabs (pair_sum N sl m - pair_sum N sl q) <= two (-49) * pair_sum N sl q + INR (N * N) * two (-52).
Proof.
  unfold pair_sum. rewrite mult_INR, Rmult_assoc. apply (sumn_distance N (fun _ => true) (fun i => sumn N (fun j => if allowed sl i j then m i j else 0)) (fun i => sumn N (fun j => if allowed sl i j then q i j else 0))).
  - apply Rmult_le_pos; [apply pos_INR | left; apply two_pos].
  - intros i Hi. apply (sumn_distance N (fun j => allowed sl i j) (m i) (q i)); [left; apply two_pos|]. intros j Hj. apply link_error; assumption.
Qed.
Lemma total_distance : suml (fun e => Rabs (m (fst e) (snd e) - q (fst e) (snd e))) (pairs N sl) <= two (-49) * pair_sum N sl q + INR (N * N) * two (-52).
Proof.
  rewrite <- (pair_sum_list N sl (fun i j => Rabs (m i j - q i j))). unfold pair_sum. rewrite mult_INR, Rmult_assoc, <- sumn_scal_l, <- sumn_const, <- sumn_plus. apply sumn_le. intros i Hi.
  rewrite <- sumn_scal_l, <- sumn_const, <- sumn_plus. apply sumn_le. intros j Hj. pose proof (two_pos (-52)). destruct (allowed sl i j); [apply link_error; assumption | lra].
Qed.
End Drawn.

(** The distribution of the sample is that of the ensemble, up to 2^-52 for each pair and a relative error of 2^-49 in
    the number of links: this bounds the difference of the two probabilities of any event, and of the two means of any
    function [f] of the graph with values between 0 and 1. *)
Theorem C108_distribution : forall inv d x y z N sl f, amount d ->
  (forall i, (i < N)%nat -> moderate (x i) /\ moderate (y i) /\ forall j, (j < N)%nat -> moderate (z i j)) -> (forall G, 0 <= f G <= 1) ->
  let q i j := exact_prob inv d (x i) (y j) (z i j) in
  let mean := ensemble_mean N sl (graph_weight N sl q) in
  Rabs (drawn (binary_sample (fun d x y z => toR (float_p inv d x y z)) d x y z N sl) f - mean f) <= two (-49) * mean (g_edges N) + INR (N * N) * two (-52).
Proof.
  intros inv d x y z N sl f Hd Hm Hf q mean. unfold mean. rewrite mean_edges. eapply Rle_trans; [|apply (total_distance inv d x y z N sl Hd Hm)].
  rewrite sample_mean, !mean_bern. apply (bern_distance _ _ (fun e => hit (toR (float_p inv d (x (fst e)) (y (snd e)) (z (fst e) (snd e))))) (fun e => q (fst e) (snd e))); [|exact Hf].
  intros [i j] He. apply in_pairs in He as (Hi & Hj & _). destruct (link_error inv d x y z N Hd Hm i j Hi Hj) as (A & B & _). split; assumption.
Qed.
Print Assumptions C108_distribution.

(** So are the mean number of links of the sample and its mean out- and in-degrees. *)
Theorem C108_links : forall inv d x y z N sl v, amount d -> (v < N)%nat ->
  (forall i, (i < N)%nat -> moderate (x i) /\ moderate (y i) /\ forall j, (j < N)%nat -> moderate (z i j)) ->
  let q i j := exact_prob inv d (x i) (y j) (z i j) in
  let mean := ensemble_mean N sl (graph_weight N sl q) in
  let sample := binary_sample (fun d x y z => toR (float_p inv d x y z)) d x y z N sl in
  Rabs (drawn sample (g_edges N) - mean (g_edges N)) <= two (-49) * mean (g_edges N) + INR (N * N) * two (-52) /\
  Rabs (drawn sample (fun G => g_out N G v) - mean (fun G => g_out N G v)) <= two (-49) * mean (fun G => g_out N G v) + INR N * two (-52) /\
  Rabs (drawn sample (fun G => g_in N G v) - mean (fun G => g_in N G v)) <= two (-49) * mean (fun G => g_in N G v) + INR N * two (-52).
Proof.
  intros inv d x y z N sl v Hd Hv Hm q mean sample. unfold sample, mean. rewrite !sample_mean, !mean_edges, !mean_out, !mean_in by exact Hv.
  pose proof (link_error inv d x y z N Hd Hm) as L. pose proof (two_pos (-52)) as P. split; [apply pair_distance; assumption|]. split.
  - apply (sumn_distance N (fun j => allowed sl v j) (fun j => hit (toR (float_p inv d (x v) (y j) (z v j)))) (q v)); [lra|]. intros j Hj. apply L; assumption.
  - apply (sumn_distance N (fun j => allowed sl j v) (fun j => hit (toR (float_p inv d (x j) (y v) (z j v)))) (fun j => q j v)); [lra|]. intros j Hj. apply L; assumption.
Qed.
Print Assumptions C108_links.

(** The data of C106_measures_case and the event that vertex 1 links to vertex 2, of probability 4/5; the computed
    distribution differs by less than 2^-46. *)
Example C108_distribution_case : let x := fun i : nat => Fin (two (Z.of_nat i)) in
  let q := fun i j => exact_prob false (Fin (1 / 2)) (x i) (x j) (Fin 1) in
  (forall i, (i < 3)%nat -> moderate (x i) /\ moderate (x i) /\ forall j, (j < 3)%nat -> moderate ((fun _ _ => Fin 1) i j)) /\ amount (Fin (1 / 2)) /\
  (forall G : list (nat * nat), 0 <= b2r (mem (1, 2)%nat G) <= 1) /\ q 1%nat 2%nat = 4 / 5 /\
  two (-49) * ensemble_mean 3 false (graph_weight 3 false q) (g_edges 3) + INR (3 * 3) * two (-52) <= two (-46).
Proof.
  intros x q. destruct C106_measures_case as (A & _ & B & _). split; [exact A|]. split; [exact B|].
  split; [intros G; destruct (mem (1, 2)%nat G); cbn; lra|].
  assert (E : forall i j, q i j = prob_of_product false (1 / 2 * two (Z.of_nat i) * two (Z.of_nat j) * 1)) by (intros i j; unfold q, x; apply pos_prob; try apply two_pos; lra).
  assert (T2 : two 2 = 4) by (rewrite two_Z by lia; reflexivity).
  split.
  - rewrite E. cbn [Z.of_nat Pos.of_succ_nat Pos.succ]. rewrite two_1, T2. unfold prob_of_product. field.
  - assert (L : ensemble_mean 3 false (graph_weight 3 false q) (g_edges 3) <= 6).
    { rewrite mean_edges. assert (Q : forall i j, q i j <= 1) by (intros i j; rewrite E; apply pp_range; pose proof (two_pos (Z.of_nat i)); pose proof (two_pos (Z.of_nat j)); repeat apply Rmult_le_pos; lra).
      unfold pair_sum, sumn, allowed. cbn [Nat.eqb negb orb]. pose proof (Q 0%nat 1%nat). pose proof (Q 0%nat 2%nat). pose proof (Q 1%nat 0%nat). pose proof (Q 1%nat 2%nat). pose proof (Q 2%nat 0%nat). pose proof (Q 2%nat 1%nat). lra. }
    replace (two (-49)) with (8 * two (-52)) by (change (-49)%Z with (3 + -52)%Z; rewrite two_add, (two_Z 3) by lia; reflexivity).
    replace (two (-46)) with (64 * two (-52)) by (change (-46)%Z with (6 + -52)%Z; rewrite two_add, (two_Z 6) by lia; reflexivity).
    pose proof (two_pos (-52)). cbn [Nat.mul Nat.add INR]. nra.
Qed.

(** Fit and sample in doubles: if the fit of C106_fit reports convergence, the mean number of links of the samples of the
    fitted object is the target, within the tolerance and the errors of the probabilities and of the draws. *)
Theorem C108_fit : forall inv x y z N sl T a rho x0 max_iter,
  (forall i, (i < N)%nat -> moderate (x i) /\ moderate (y i) /\ forall j, (j < N)%nat -> moderate (z i j)) ->
  (1 <= N)%nat -> (Z.of_nat (N * N) <= 2 ^ 50)%Z ->
  double T -> T <= pair_sum N sl (fun i j => if connectable (x i) (y j) (z i j) then 1 else 0) ->
  two (-50) * INR (N * N) <= rho * T -> rho <= 1 / 8 -> two (-900) <= a <= T / 8 -> amount x0 ->
  let p d i j := float_jac inv d (x i) (y j) (z i j) in
  exists sol, rsolver b64 (fun d => rexp_edges_f_jac b64 (p d) N sl) x0 (Fin T) (Fin a) (Fin rho) max_iter (Fin 0) PInf None None = Ok sol /\
  (sol_converged sol = true ->
   Rabs (drawn (binary_sample (fun d x y z => toR (float_p inv d x y z)) (sol_x sol) x y z N sl) (g_edges N) - T)
   <= (1 + two (-50)) * (a + rho * T) + two (-49) * (INR (N * N) + 16) * T + INR (N * N) * two (-52)).
Proof.
  intros inv x y z N sl T a rho x0 max_iter Hm N1 HN DT HT Hr1 Hr2 Ha Hx0 p.
  destruct (C106_fit inv x y z N sl T a rho x0 max_iter Hm N1 HN DT HT Hr1 Hr2 Ha Hx0) as (sol & ES & Cv & _). exists sol. split; [exact ES|]. intros C. specialize (Cv C).
  assert (Ax : amount (sol_x sol)).
  { assert (Fit : exists sol, rsolver b64 (fun d => rexp_edges_f_jac b64 (p d) N sl) x0 (Fin T) (Fin a) (Fin rho) max_iter (Fin 0) PInf None None = Ok sol /\ Forall amount (sol_x_seq sol)).
    { assert (HN53 : (Z.of_nat (N * N) <= 2 ^ 53)%Z) by (eapply Z.le_trans; [exact HN | lia]). unfold p, float_jac.
      destruct inv; [edestruct (C98_fit (rinv_p_jac b64)) as (so & E & F & _) | edestruct (C98_fit (rfit_p_jac b64)) as (so & E & F & _)]; eauto. }
    destruct Fit as (so & E & FA). pose proof ES as ES'. unfold p in E. rewrite ES in E. injection E as <-.
    destruct (C98_report _ _ _ _ _ _ _ _ _ _ _ ES') as (_ & _ & _ & _ & _ & _ & LX & _ & _ & Last & _). rewrite <- Last. rewrite Forall_forall in FA. apply FA.
    destruct (exists_last (l := sol_x_seq sol)) as (l' & lst & El); [intros Q; rewrite Q in LX; cbn in LX; lia|]. rewrite El, last_last. apply in_or_app. right. left. reflexivity. }
  assert (V : (0 < N)%nat) by lia. destruct (C108_links inv (sol_x sol) x y z N sl 0%nat Ax V Hm) as (L & _).
  set (mean := ensemble_mean N sl _ (g_edges N)) in *. set (E := drawn _ (g_edges N)) in *. set (c := INR (N * N)) in *. set (tau := a + rho * T) in *.
  assert (C1 : 1 <= c) by (apply (le_INR 1 (N * N)); nia). pose proof (two_pos (-50)) as P50. assert (T0 : 0 < T) by (pose proof (two_pos (-900)); lra).
  assert (E49 : two (-49) = 2 * two (-50)) by (change (-49)%Z with (1 + -50)%Z; rewrite two_add, two_1; reflexivity).
  assert (B50 : two (-50) <= 1 / 64) by (rewrite (two_neg 50 : two (-50) = _); apply Rle_trans with (/ 64); [apply Rinv_le_contravar; [lra|]; rewrite two_Z by lia; apply IZR_le; lia | lra]).
  assert (C8 : two (-50) * c <= T / 8) by (assert (rho * T <= 1 / 8 * T) by (apply Rmult_le_compat_r; lra); lra).
  assert (Cc : two (-50) * c <= 1) by (apply Rle_trans with (two (-50) * two 50); [|rewrite <- two_add; change (-50 + 50)%Z with 0%Z; rewrite two_0; lra]; apply Rmult_le_compat_l; [lra|]; unfold c; rewrite INR_IZR_INZ, two_Z by lia; apply IZR_le, HN).
  assert (RT : 0 <= rho * T <= T / 8) by (assert (0 <= two (-50) * c) by nra; assert (rho * T <= 1 / 8 * T) by (apply Rmult_le_compat_r; lra); lra). pose proof (two_pos (-900)) as P900.
  assert (Tau : 0 <= tau <= T / 4) by (unfold tau; lra).
  assert (M3 : mean <= 3 * T). { apply Rabs_def2_le in Cv. assert (two (-50) * (c + 16) * T <= (5 / 4) * T) by (apply Rmult_le_compat_r; lra). assert ((1 + two (-50)) * tau <= (1 + 1 / 64) * (T / 4)) by (apply Rmult_le_compat; lra). lra. }
  pose proof (Rabs_triang (E - mean) (mean - T)) as Tr. replace (E - mean + (mean - T)) with (E - T) in Tr by ring. eapply Rle_trans; [exact Tr|].
  assert (two (-49) * mean <= two (-50) * (c + 16) * T). { rewrite E49. apply Rle_trans with (2 * two (-50) * (3 * T)); [apply Rmult_le_compat_l; lra|]. assert (0 <= two (-50) * T) by nra. nra. }
  rewrite E49. lra.
Qed.
Print Assumptions C108_fit.
(** As in C106_fit_case. *)
Example C108_fit_case : let x := fun i : nat => Fin (two (Z.of_nat i)) in
  (forall i, (i < 3)%nat -> moderate (x i) /\ moderate (x i) /\ forall j, (j < 3)%nat -> moderate ((fun _ _ => Fin 1) i j)) /\
  (Z.of_nat (3 * 3) <= 2 ^ 50)%Z /\ double 2 /\ 2 <= pair_sum 3 false (fun i j => if connectable (x i) (x j) (Fin 1) then 1 else 0) /\
  two (-50) * INR (3 * 3) <= two (-30) * 2 /\ two (-30) <= 1 / 8 /\ two (-900) <= two (-80) <= 2 / 8 /\ amount (Fin 0) /\
  two (-50) * (INR (3 * 3) + 16) * 2 <= (two (-80) + two (-30) * 2) / 1024.
Proof. exact C106_fit_case. Qed.

(** * Weights *)

Lemma map_bern : forall E F F' (g : F -> F') (p : E -> R) (mark : E -> F) l acc f,
  expect (bern p mark l acc) (fun v => f (map g v)) = expect (bern p (fun e => g (mark e)) l (map g acc)) f.
Proof.
  intros E F F' g p mark l. induction l as [|e l IH]; intros acc f; [reflexivity|].
  rewrite (bern_expect E F p mark (e :: l)), (bern_expect E F' p _ (e :: l)), !IH, map_app. reflexivity.
Qed.

(** The loop of the weighted sampler, when no denominator is zero where the probability is positive. *)
Lemma drawn_weighted : forall p s_out s_in st l vals F,
  (forall e, In e l -> 0 <= toR (p (fst e) (snd e)) <= 1 /\ (0 < toR (p (fst e) (snd e)) -> is0 (rmul b64 st (p (fst e) (snd e))) = false)) ->
  drawn (for_prog l (fun e acc => rcremb_body b64 p s_out s_in st (fst e) (snd e) acc) (Ok vals)) F =
  expect (bern (fun e => hit (toR (p (fst e) (snd e))))
    (fun e => (fst e, snd e, rdiv b64 (rmul b64 (s_out (fst e)) (s_in (snd e))) (rmul b64 st (p (fst e) (snd e))))) l vals) (fun v => F (Ok v)).
Proof.
  intros p s_out s_in st l. induction l as [|e l IH]; intros vals F H; [reflexivity|]. rewrite bern_expect. cbn [for_prog]. unfold rcremb_body at 1. cbn [pbind]. rewrite drawn_draw.
  assert (H' : forall e, In e l -> 0 <= toR (p (fst e) (snd e)) <= 1 /\ (0 < toR (p (fst e) (snd e)) -> is0 (rmul b64 st (p (fst e) (snd e))) = false)) by (intros; apply H; right; assumption).
  cbn [pbind]. destruct (H e (or_introl eq_refl)) as [Hp Hq]. rewrite <- (IH vals F H'). f_equal.
  destruct (Req_dec (toR (p (fst e) (snd e))) 0) as [Z | Z].
  - destruct (hit_spec _ Hp) as (_ & _ & K & _). rewrite (K Z). ring.
  - rewrite Hq by lra. cbv zeta. cbn [pbind]. rewrite <- IH by exact H'. reflexivity.
Qed.
Lemma for_prog_ext : forall X S (l : list X) (f g : X -> S -> prog S) s, (forall x s, f x s = g x s) -> for_prog l f s = for_prog l g s.
Proof. intros X S l f g. induction l as [|x l IH]; intros s H; [reflexivity|]. cbn [for_prog]. rewrite H. apply pbind_ext. intros a. apply IH, H. Qed.

(** ** One weight *)
Lemma factor : forall a h u m g1 g2 g3 w, 0 <= a -> 0 <= u -> 0 <= h -> u + 2 * h <= 1 / 16 -> 1 <= m <= 1 + a ->
  1 - u <= g1 <= 1 + u -> 1 - u <= g2 <= 1 + u -> 1 - u <= g3 <= 1 + u -> 1 - 2 * h <= w <= 1 + 2 * h ->
  Rabs (m * (g1 * g2 / (g3 * w)) - 1) <= 2 * a + (4 * h + 8 * u).
Proof.
  intros a h u m g1 g2 g3 w Ha Hu Hh Hs Hm H1 H2 H3 Hw. set (c := 4 * h + 8 * u).
  assert (N1 : (1 - u) * (1 - u) <= g1 * g2) by (apply Rmult_le_compat; lra). assert (N2 : g1 * g2 <= (1 + u) * (1 + u)) by (apply Rmult_le_compat; lra).
  assert (D1 : (1 - u) * (1 - 2 * h) <= g3 * w) by (apply Rmult_le_compat; lra). assert (D2 : g3 * w <= (1 + u) * (1 + 2 * h)) by (apply Rmult_le_compat; lra).
  assert (D0 : 1 / 2 <= g3 * w) by nra. set (n := g1 * g2) in *. set (d := g3 * w) in *. assert (C0 : 0 <= c <= 1) by (unfold c; lra).
  assert (Q : 1 - c <= n / d <= 1 + c).
  { split.
    - apply Rmult_le_reg_r with d; [lra|]. replace (n / d * d) with n by (field; lra). apply Rle_trans with ((1 - c) * ((1 + u) * (1 + 2 * h))); [apply Rmult_le_compat_l; lra|].
      apply Rle_trans with (1 - 2 * u); [|nra]. unfold c. assert (0 <= u * h) by nra. assert (u * h <= u / 16) by nra. assert (0 <= h * h) by nra. nra.
    - apply Rmult_le_reg_r with d; [lra|]. replace (n / d * d) with n by (field; lra). apply Rle_trans with ((1 + c) * ((1 - u) * (1 - 2 * h))); [|apply Rmult_le_compat_l; lra].
      apply Rle_trans with (1 + 3 * u); [nra|]. apply Rle_trans with ((1 + c) * (1 - u - 2 * h)); [|apply Rmult_le_compat_l; nra].
      assert (c * (u + 2 * h) <= c / 16) by nra. unfold c in *. nra. }
  apply Rabs_le. assert (M1 : 1 * (1 - c) <= m * (n / d)) by (apply Rmult_le_compat; lra). assert (M2 : m * (n / d) <= (1 + a) * (1 + c)) by (apply Rmult_le_compat; lra). nra.
Qed.

Section Weights.
Variables (p : nat -> nat -> num) (s_out s_in : nat -> num) (N : nat) (sl : bool) (pi : R).
Hypothesis Hs : forall i, (i < N)%nat -> moderate (s_out i) /\ moderate (s_in i).
Hypothesis HN : (Z.of_nat N <= 2 ^ 20)%Z.
Hypothesis Hpi : two (-40) <= pi.
Hypothesis Hp : forall i j, (i < N)%nat -> (j < N)%nat -> exists v, p i j = Fin v /\ (pi <= v <= 1 \/ v = 0 /\ toR (s_out i) * toR (s_in j) = 0).
Let W := sumn N (fun i => toR (s_out i)).
Let V := sumn N (fun i => toR (s_in i)).
Hypothesis W0 : 0 < W.
Hypothesis VW : Rabs (1 - V / W) <= 1 / 2000000.
Let h := INR N * uu.

Lemma h_small : 0 <= h <= two (-33).
Proof. unfold h. pose proof uu_pos. split; [apply Rmult_le_pos; [apply pos_INR | lra]|]. apply (count_uu N 20 HN). lia. Qed.
Lemma tiny_33 : two (-33) <= 1 / 1000000000.
Proof. change (-33)%Z with (- (33))%Z. rewrite two_neg, two_Z by lia. change (2 ^ 33)%Z with 8589934592%Z. lra. Qed.
Lemma uu_33 : uu <= two (-33). Proof. apply two_le. lia. Qed.

Lemma total : forall s, (forall i, (i < N)%nat -> moderate (s i)) ->
  exists v, rsum b64 N s = Fin v /\ 0 <= v /\ (1 - 2 * h) * sumn N (fun i => toR (s i)) <= v <= (1 + 2 * h) * sumn N (fun i => toR (s i)).
Proof.
  intros s H. set (l := map (fun i => toR (s i)) (seq 0 N)).
  assert (E : forall n, (n <= N)%nat -> rsum b64 n s = fold_left (fun c a => radd b64 c (Fin a)) (map (fun i => toR (s i)) (seq 0 n)) (Fin 0)).
  { induction n as [|n IH]; intros Hn; [reflexivity|]. rewrite seq_S, map_app, fold_left_app. cbn [map fold_left plus]. rewrite <- IH by lia. unfold rsum. cbn [for_range]. f_equal.
    destruct (H n ltac:(lia)) as [-> | (w & -> & _)]; reflexivity. }
  assert (F : Forall fine l).
  { apply Forall_forall. intros a Ha. apply in_map_iff in Ha as (i & <- & Hi). apply in_seq in Hi. pose proof (two_pos (-130)). destruct (H i ltac:(lia)) as [-> | (w & -> & D & B)]; split; cbn [toR]; try lra; [apply double_0 | exact D]. }
  assert (T : suml (fun a => a) l = sumn N (fun i => toR (s i))) by (unfold l; rewrite suml_map, suml_seq; reflexivity).
  assert (B : sumn N (fun i => toR (s i)) <= two 1001).
  { apply Rle_trans with (sumn N (fun _ => two 130)).
    - apply sumn_le. intros i Hi. pose proof (two_pos 130). destruct (H i Hi) as [-> | (w & -> & D & B)]; cbn [toR]; lra.
    - rewrite sumn_const. apply Rle_trans with (two 20 * two 130); [|rewrite <- two_add; apply two_le; lia]. apply Rmult_le_compat_r; [left; apply two_pos|]. rewrite INR_IZR_INZ, two_Z by lia. apply IZR_le, HN. }
  pose proof h_small as Hh. pose proof tiny_33 as T33.
  destruct (acc_ap l N h F ltac:(unfold l; rewrite map_length, seq_length; lia) ltac:(unfold h; lra) ltac:(lra) ltac:(rewrite T; exact B)) as (E1 & [P1 _] & A). rewrite T in A.
  exists (acc l 0). split; [rewrite (E N ltac:(lia)); exact E1|]. split; [exact P1|]. unfold ap in A. apply Rabs_def2_le in A. lra.
Qed.

Lemma positive_term : forall n (f : nat -> R), 0 < sumn n f -> exists i, (i < n)%nat /\ 0 < f i.
Proof.
  induction n as [|n IH]; intros f H; [cbn in H; lra|]. cbn [sumn] in H. destruct (Rlt_or_le 0 (f n)) as [L | L]; [exists n; split; [lia | exact L]|].
  destruct (IH f ltac:(lra)) as (i & Hi & P). exists i. split; [lia | exact P].
Qed.
Lemma strength_nonneg : forall s, moderate s -> 0 <= toR s.
Proof. intros s [-> | (w & -> & D & B)]; cbn [toR]; [lra|]. pose proof (two_pos (-130)). lra. Qed.
Lemma W_range : two (-130) <= W <= two 150.
Proof.
  split.
  - destruct (positive_term N _ W0) as (i & Hi & P). apply Rle_trans with (toR (s_out i)).
    + destruct (Hs i Hi) as [[E | (w & E & D & B)] _]; rewrite E in P |- *; cbn [toR] in P |- *; lra.
    + apply (sumn_ge_term N (fun i => toR (s_out i)) i); [|exact Hi]. intros k Hk. apply strength_nonneg. apply Hs, Hk.
  - apply Rle_trans with (sumn N (fun _ => two 130)).
    + apply sumn_le. intros i Hi. pose proof (two_pos 130). destruct (Hs i Hi) as [[E | (w & E & D & B)] _]; rewrite E; cbn [toR]; lra.
    + rewrite sumn_const. apply Rle_trans with (two 20 * two 130); [|rewrite <- two_add; apply two_le; lia]. apply Rmult_le_compat_r; [left; apply two_pos|]. rewrite INR_IZR_INZ, two_Z by lia. apply IZR_le, HN.
Qed.

Variable st : R.
Hypothesis Est : rsum b64 N s_out = Fin st.
Lemma st_range : (1 - 2 * h) * W <= st <= (1 + 2 * h) * W /\ two (-131) <= st <= two 151.
Proof.
  destruct (total s_out (fun i Hi => proj1 (Hs i Hi))) as (v & E & _ & B). rewrite Est in E. injection E as <-. fold W in B. split; [exact B|].
  pose proof h_small. pose proof tiny_33. pose proof W_range as R. assert (two (-130) = 2 * two (-131)) by (change (-130)%Z with (1 + -131)%Z; rewrite two_add, two_1; reflexivity).
  assert (two 151 = 2 * two 150) by (change 151%Z with (1 + 150)%Z; rewrite two_add, two_1; reflexivity). nra.
Qed.

(** The probabilities that are not zero *)
Lemma denominator : forall v, pi <= v <= 1 -> exists q, rmul b64 (Fin st) (Fin v) = Fin q /\ st * v * (1 - uu) <= q <= st * v * (1 + uu) /\ two (-172) <= q <= two 152.
Proof.
  intros v Hv. destruct st_range as [_ B]. pose proof (two_pos (-131)) as P1. pose proof (two_pos (-40)) as P2.
  assert (L : two (-171) <= st * v) by (change (-171)%Z with (-131 + -40)%Z; rewrite two_add; apply Rmult_le_compat; lra). assert (U : st * v <= two 151) by nra.
  assert (two (-1022) <= two (-171)) by (apply two_le; lia). assert (two 151 <= two 1022) by (apply two_le; lia).
  destruct (b64_rel (st * v) ltac:(lra)) as (q & E & _ & Q). fold uu in Q. exists q. split; [exact E|]. split; [exact Q|].
  assert (E1 : two (-171) = 2 * two (-172)) by (change (-171)%Z with (1 + -172)%Z; rewrite two_add, two_1; reflexivity). assert (E2 : two 152 = 2 * two 151) by (change 152%Z with (1 + 151)%Z; rewrite two_add, two_1; reflexivity).
  pose proof uu_pos. pose proof uu_small. nra.
Qed.

Lemma weight_error : forall i j, (i < N)%nat -> (j < N)%nat ->
  let t := toR (s_out i) * toR (s_in j) / W in
  Rabs (hit (toR (p i j)) * toR (rdiv b64 (rmul b64 (s_out i) (s_in j)) (rmul b64 (Fin st) (p i j))) - t) <= (two (-51) * (INR N + 2) + two (-52) / pi) * t.
Proof.
  intros i j Hi Hj t. destruct (Hp i j Hi Hj) as (v & -> & Hv). change (toR (Fin v)) with v. destruct Hv as [Hv | [-> Z]].
  2:{ destruct (hit_spec 0 ltac:(lra)) as (_ & _ & K & _). rewrite (K eq_refl), Rmult_0_l. unfold t. rewrite Z. unfold Rdiv. rewrite !Rmult_0_l, Rminus_0_r, Rabs_R0. lra. }
  destruct (denominator v Hv) as (q & -> & Q & RQ). pose proof (two_pos (-172)) as P172.
  assert (Zero : toR (s_out i) * toR (s_in j) = 0 -> rmul b64 (s_out i) (s_in j) = Fin 0 ->
    Rabs (hit v * toR (rdiv b64 (rmul b64 (s_out i) (s_in j)) (Fin q)) - t) <= (two (-51) * (INR N + 2) + two (-52) / pi) * t).
  { intros Z E. rewrite E, rdiv_fin by lra. unfold Rdiv at 1. rewrite Rmult_0_l, b64_0. cbn [toR]. unfold t. rewrite Z. unfold Rdiv. rewrite !Rmult_0_l, !Rmult_0_r, Rminus_0_r, Rabs_R0. lra. }
  destruct (Hs i Hi) as [Mi _]. destruct (Hs j Hj) as [_ Mj]. unfold t in *. clear t.
  destruct Mi as [Ei | (a & Ei & Da & Ba)]; rewrite Ei in *; [apply Zero; [cbn [toR]; ring | destruct Mj as [Ej | (b & Ej & _)]; rewrite Ej; rewrite rmul_fin, Rmult_0_l; apply b64_0]|].
  destruct Mj as [Ej | (b & Ej & Db & Bb)]; rewrite Ej in *; [apply Zero; [cbn [toR]; ring | rewrite rmul_fin, Rmult_0_r; apply b64_0]|]. clear Zero. cbn [toR]. rewrite rmul_fin.
  pose proof (two_pos (-130)) as P130. assert (AB : two (-260) <= a * b <= two 260).
  { split; [change (-260)%Z with (-130 + -130)%Z | change 260%Z with (130 + 130)%Z]; rewrite two_add; apply Rmult_le_compat; lra. }
  assert (X1 : two (-1022) <= two (-260)) by (apply two_le; lia). assert (X2 : two 260 <= two 1022) by (apply two_le; lia).
  destruct (b64_rel (a * b) ltac:(lra)) as (m1 & E1 & _ & B1). fold uu in B1. rewrite E1, rdiv_fin by lra. pose proof uu_pos as U0. pose proof uu_small as U1. pose proof (two_pos (-260)) as P260.
  assert (M1 : two (-261) <= m1 <= two 261).
  { assert (two (-260) = 2 * two (-261)) by (change (-260)%Z with (1 + -261)%Z; rewrite two_add, two_1; reflexivity). assert (two 261 = 2 * two 260) by (change 261%Z with (1 + 260)%Z; rewrite two_add, two_1; reflexivity). nra. }
  assert (QQ : two (-413) <= m1 / q <= two 433).
  { split; [change (-413)%Z with (-261 + - (152))%Z | change 433%Z with (261 + - (-172))%Z]; rewrite two_add, two_neg; unfold Rdiv; pose proof (two_pos (-261)); apply Rmult_le_compat; try lra;
      try (left; apply Rinv_0_lt_compat; first [apply two_pos | lra]); apply Rinv_le_contravar; lra. }
  assert (X3 : two (-1022) <= two (-413)) by (apply two_le; lia). assert (X4 : two 433 <= two 1022) by (apply two_le; lia).
  destruct (b64_rel (m1 / q) ltac:(lra)) as (m3 & E3 & _ & B3). fold uu in B3. rewrite E3. cbn [toR].
  destruct st_range as [SW SR]. pose proof (two_pos (-131)) as P131. pose proof (two_pos (-40)) as P40. assert (S0 : 0 < st) by lra. assert (V0 : 0 < v) by lra. assert (A0 : 0 < a * b) by lra. assert (Q0 : 0 < q) by lra.
  assert (M0 : 0 < m1 / q) by (pose proof (two_pos (-413)); lra). assert (SV : 0 < st * v) by nra.
  pose proof h_small as HS. pose proof tiny_33 as T33. pose proof uu_33 as U33.
  destruct (hit_spec v ltac:(lra)) as (HV & _).
  assert (Rel : forall r v, 0 < r -> r * (1 - uu) <= v <= r * (1 + uu) -> 1 - uu <= v / r <= 1 + uu).
  { intros r w R0 Bw. split; apply Rmult_le_reg_r with r; try exact R0; replace (w / r * r) with w by (field; lra); lra. }
  pose proof (factor (two (-53) / pi) h uu (hit v / v) (m1 / (a * b)) (m3 / (m1 / q)) (q / (st * v)) (st / W)) as Fc.
  assert (m10 : 0 < m1) by (pose proof (two_pos (-261)); lra).
  replace (hit v / v * (m1 / (a * b) * (m3 / (m1 / q)) / (q / (st * v) * (st / W))) - 1) with ((hit v * m3 - a * b / W) / (a * b / W)) in Fc.
  2:{ field. repeat split; try lra; intros C; subst; nra. }
  assert (T0 : 0 < a * b / W) by (apply Rdiv_lt_0_compat; lra).
  assert (G : Rabs ((hit v * m3 - a * b / W) / (a * b / W)) <= 2 * (two (-53) / pi) + (4 * h + 8 * uu)).
  { apply Fc; clear Fc; try lra.
    - apply Rmult_le_pos; [left; apply two_pos | left; apply Rinv_0_lt_compat; lra].
    - split; apply Rmult_le_reg_r with v; try exact V0; replace (hit v / v * v) with (hit v) by (field; lra); [lra|]. pose proof (two_pos (-53)). 
      assert (two (-53) <= two (-53) / pi * v). { replace (two (-53) / pi * v) with (two (-53) * (v / pi)) by (field; lra). rewrite <- (Rmult_1_r (two (-53))) at 1. apply Rmult_le_compat_l; [lra|].
        apply Rmult_le_reg_r with pi; [lra|]. replace (v / pi * pi) with v by (field; lra). lra. }
      lra.
    - apply Rel; assumption.
    - apply Rel; assumption.
    - apply Rel; assumption.
    - split; apply Rmult_le_reg_r with W; try exact W0; replace (st / W * W) with st by (field; lra); lra. }
  unfold Rdiv at 1 in G. rewrite Rabs_mult, (Rabs_right (/ (a * b / W))) in G by (apply Rle_ge; left; apply Rinv_0_lt_compat, T0).
  apply Rmult_le_compat_r with (r := a * b / W) in G; [|lra]. rewrite Rmult_assoc, Rinv_l, Rmult_1_r in G by lra. eapply Rle_trans; [exact G|]. apply Rmult_le_compat_r; [lra|].
  right. unfold h. replace (two (-51)) with (4 * uu) by (unfold uu; change (-51)%Z with (2 + -53)%Z; rewrite two_add, (two_Z 2) by lia; reflexivity). rewrite <- uu_52. unfold uu. field. lra.
Qed.

(** The check on the totals *)
Lemma check_passes : exists v, rsum b64 N s_in = Fin v /\ nltb (nabs (rsub b64 (Fin 1) (rdiv b64 (Fin v) (Fin st)))) (b64 (1 / 1000000)) = true.
Proof.
  destruct (total s_in (fun i Hi => proj2 (Hs i Hi))) as (v & E & P & B). fold V in B. exists v. split; [exact E|].
  destruct st_range as [SW SR]. pose proof (two_pos (-131)) as P131. pose proof h_small as HS. pose proof tiny_33 as T33. pose proof uu_pos as U0. pose proof uu_33 as U33.
  apply Rabs_def2_le in VW. assert (RV : V = V / W * W) by (field; lra). set (r := V / W) in *.
  assert (Q : Rabs (1 - v / st) <= 6 / 10000000).
  { assert (Lo : (1 - 6 / 10000000) * st <= v). { apply Rle_trans with ((1 - 2 * h) * V); [|lra]. rewrite RV. apply Rle_trans with ((1 - 6 / 10000000) * ((1 + 2 * h) * W)); [apply Rmult_le_compat_l; lra|]. nra. }
    assert (Up : v <= (1 + 6 / 10000000) * st). { apply Rle_trans with ((1 + 2 * h) * V); [lra|]. rewrite RV. apply Rle_trans with ((1 + 6 / 10000000) * ((1 - 2 * h) * W)); [|apply Rmult_le_compat_l; lra]. nra. }
    assert (v = v / st * st) by (field; lra). set (w := v / st) in *. apply Rabs_le. nra. }
  apply Rabs_def2_le in Q. rewrite rdiv_fin by lra.
  assert (X1 : two (-1022) <= 1 / 2) by (rewrite <- two_m1; apply two_le; lia). assert (X2 : 2 <= two 1022) by (rewrite <- two_1; apply two_le; lia).
  destruct (b64_rel (v / st) ltac:(lra)) as (w & Ew & _ & Bw). fold uu in Bw. rewrite Ew. unfold rsub. cbn [nsub nadd nopp rnd_num].
  assert (E20 : two (-20) = 1 / 1048576) by (change (-20)%Z with (- (20))%Z; rewrite two_neg, two_Z by lia; change (2 ^ 20)%Z with 1048576%Z; lra).
  assert (D20 : double (two (-20))) by (apply double_two; lia).
  assert (Rw : - two (-20) <= 1 - w <= two (-20)) by nra.
  destruct (b64_between (- two (-20)) (two (-20)) (1 + - w) (double_opp _ D20) D20 ltac:(lra)) as (x & Ex & Bx & _).
  assert (X3 : two (-1022) <= two (-20)) by (apply two_le; lia). destruct (b64_rel (1 / 1000000) ltac:(lra)) as (y & Ey & _ & By). fold uu in By.
  rewrite Ey. first [rewrite Ex | unfold Rminus; rewrite Ex]. cbn [nabs nltb]. apply Rltb_true. apply Rle_lt_trans with (two (-20)); [apply Rabs_le; lra | nra].
Qed.
End Weights.

(** The weighted sampler in doubles, for any table of computed probabilities that are zero, where one of the two
    strengths is zero, or at least [pi].  The totals of the two strengths may differ by half of what the code allows.
    It never raises.  The mean of the weight of a pair is the one of the exact sampler: the error of the probability
    cancels, and what is left is the rounding of the totals, 2^-51 for each vertex, and of the draws, 2^-52 / [pi].  So
    are the mean strengths, if self-loops are allowed.  [w i j] adds the means of the exponential weights of the sample
    for that pair. *)
Theorem C108_weights : forall p s_out s_in N sl pi,
  (forall i, (i < N)%nat -> moderate (s_out i) /\ moderate (s_in i)) -> (Z.of_nat N <= 2 ^ 20)%Z -> two (-40) <= pi ->
  (forall i j, (i < N)%nat -> (j < N)%nat -> exists v, p i j = Fin v /\ (pi <= v <= 1 \/ v = 0 /\ toR (s_out i) * toR (s_in j) = 0)) ->
  let W := sumn N (fun i => toR (s_out i)) in
  let V := sumn N (fun i => toR (s_in i)) in
  0 < W -> Rabs (1 - V / W) <= 1 / 2000000 ->
  let near a t := Rabs (a - t) <= (two (-51) * (INR N + 2) + two (-52) / pi) * t in
  let w i j r := match r with Ok G => w_pair i j (map (fun e => (fst e, toR (snd e))) G) | Raise _ => 0 end in
  exists sample, rcremb_sample b64 p s_out s_in N sl = Ok sample /\
  drawn sample (fun r => match r with Ok _ => 1 | Raise _ => 0 end) = 1 /\
  (forall i j, (i < N)%nat -> (j < N)%nat -> sl = true \/ i <> j -> near (drawn sample (w i j)) (toR (s_out i) * toR (s_in j) / W)) /\
  (sl = true -> forall i, (i < N)%nat ->
     near (drawn sample (fun r => sumn N (fun j => w i j r))) (toR (s_out i) * (V / W)) /\ near (drawn sample (fun r => sumn N (fun j => w j i r))) (toR (s_in i))).
Proof.
  intros p s_out s_in N sl pi Hs HN Hpi Hp W V W0 VW near w. pose proof (two_pos (-40)) as P40.
  destruct (total N HN s_out (fun i Hi => proj1 (Hs i Hi))) as (st & Est & _).
  destruct (st_range s_out s_in N Hs HN W0 st Est) as [_ SR]. pose proof (two_pos (-131)) as P131.
  destruct (check_passes s_out s_in N Hs HN W0 VW st Est) as (si & Esi & Ck).
  unfold rcremb_sample. cbv zeta. rewrite Est, Esi, is0_fin_pos by lra. rewrite Ck. cbn [guard]. eexists. split; [reflexivity|].
  set (mark := fun e : nat * nat => (fst e, snd e, rdiv b64 (rmul b64 (s_out (fst e)) (s_in (snd e))) (rmul b64 (Fin st) (p (fst e) (snd e))))).
  set (B := bern (fun e => hit (toR (p (fst e) (snd e)))) mark (pairs N sl) []).
  assert (D : forall F, drawn (for_prog (seq 0 N) (fun i acc => for_prog (seq 0 N) (fun j acc => if adm sl i j then rcremb_body b64 p s_out s_in (Fin st) i j acc else Ret acc) acc) (Ok [])) F = expect B (fun v => F (Ok v))).
  { intros F. rewrite <- (for_prog_prod nat nat _ (seq 0 N) (seq 0 N) (fun e acc => if adm sl (fst e) (snd e) then rcremb_body b64 p s_out s_in (Fin st) (fst e) (snd e) acc else Ret acc)).
    rewrite <- (for_prog_filter _ _ (fun e : nat * nat => adm sl (fst e) (snd e))).
    apply (drawn_weighted p s_out s_in (Fin st) (pairs N sl)). intros [i j] He. apply in_pairs in He as (Hi & Hj & _). cbn [fst snd]. destruct (Hp i j Hi Hj) as (v & -> & Hv). change (toR (Fin v)) with v.
    split; [lra|]. intros V0. destruct (denominator s_out s_in N pi Hs HN Hpi W0 st Est v ltac:(lra)) as (q & -> & _ & Q). apply is0_fin_pos. pose proof (two_pos (-172)). lra. }
  assert (PW : forall i j, (i < N)%nat -> (j < N)%nat -> allowed sl i j = true -> near (expect B (fun v => w i j (Ok v))) (toR (s_out i) * toR (s_in j) / W)).
  { intros i j Hi Hj A. unfold w, B. rewrite (map_bern _ _ _ (fun e => (fst e, toR (snd e)))). cbn [map].
    unfold near. eapply Rle_trans; [|apply (weight_error p s_out s_in N pi Hs HN Hpi Hp W0 st Est i j Hi Hj)]. right. f_equal. f_equal.
    etransitivity; [apply (bern_w_pair (fun e => hit (toR (p (fst e) (snd e)))) (fun e => toR (rdiv b64 (rmul b64 (s_out (fst e)) (s_in (snd e))) (rmul b64 (Fin st) (p (fst e) (snd e))))) (pairs N sl) [] i j), NoDup_pairs|].
    replace (mem (i, j) (pairs N sl)) with true by (symmetry; apply mem_spec, in_pairs; auto). cbn [fst snd]. unfold w_pair. cbn [suml]. ring. }
  split; [rewrite D; apply expect_const|]. split.
  - intros i j Hi Hj A. rewrite D. apply PW; auto. unfold allowed. destruct A as [-> | A]; [apply orb_true_r|]. destruct (Nat.eqb_spec i j); [contradiction | reflexivity].
  - intros -> i Hi.
    assert (Row : forall (c t : nat -> R), (forall j, (j < N)%nat -> near (c j) (t j)) -> near (sumn N c) (sumn N t)).
    { intros c t H. unfold near. rewrite <- sumn_minus, <- sumn_scal_l. eapply Rle_trans; [apply sumn_abs|]. apply sumn_le. exact H. }
    rewrite !D, !expect_sumn. split.
    + replace (toR (s_out i) * (V / W)) with (sumn N (fun j => toR (s_out i) * toR (s_in j) / W)).
      * apply Row. intros j Hj. apply PW; [assumption | assumption | apply orb_true_r].
      * unfold V. unfold Rdiv. rewrite sumn_scal_r, sumn_scal_l. ring.
    + replace (toR (s_in i)) with (sumn N (fun j => toR (s_out j) * toR (s_in i) / W)) at 1.
      * apply Row. intros j Hj. apply PW; [assumption | assumption | apply orb_true_r].
      * unfold Rdiv. rewrite !sumn_scal_r. fold W. field. lra.
Qed.
Print Assumptions C108_weights.

(** Three vertices with strengths 4, 2, 0 out and 1, 2, 3 in; computed probabilities 1/2, except for the last vertex,
    which has no outgoing links.  The bound on the relative error is 2^-48. *)
Example C108_weights_case : let s_out := fun i : nat => Fin (nth i [4; 2; 0] 0) in let s_in := fun i : nat => Fin (INR (i + 1)) in
  let p := fun i _ : nat => if Nat.eqb i 2 then Fin 0 else Fin (1 / 2) in
  (forall i, (i < 3)%nat -> moderate (s_out i) /\ moderate (s_in i)) /\ (Z.of_nat 3 <= 2 ^ 20)%Z /\ two (-40) <= 1 / 2 /\
  (forall i j, (i < 3)%nat -> (j < 3)%nat -> exists v, p i j = Fin v /\ (1 / 2 <= v <= 1 \/ v = 0 /\ toR (s_out i) * toR (s_in j) = 0)) /\
  0 < sumn 3 (fun i => toR (s_out i)) /\ Rabs (1 - sumn 3 (fun i => toR (s_in i)) / sumn 3 (fun i => toR (s_out i))) <= 1 / 2000000 /\
  two (-51) * (INR 3 + 2) + two (-52) / (1 / 2) <= two (-48).
Proof.
  intros s_out s_in p.
  assert (M : forall n, (1 <= n <= 4)%Z -> moderate (Fin (IZR n))).
  { intros n Hn. right. exists (IZR n). split; [reflexivity|]. split; [apply double_Z; lia|]. assert (1 <= IZR n <= 4) by (split; apply IZR_le; lia). 
    assert (two (-130) <= two 0) by (apply two_le; lia). assert (two 2 <= two 130) by (apply two_le; lia). rewrite two_0 in *. rewrite (two_Z 2) in * by lia. change (IZR (2 ^ 2)) with 4 in *. lra. }
  split. { intros i Hi. assert (i = 0 \/ i = 1 \/ i = 2)%nat as [-> | [-> | ->]] by lia; unfold s_out, s_in; cbn [nth plus]; rewrite INR_IZR_INZ; (split; [|apply M; cbn; lia]); try (apply M; lia). left. reflexivity. }
  split; [lia|]. split; [rewrite <- two_m1; apply two_le; lia|].
  split. { intros i j Hi Hj. unfold p. destruct (Nat.eqb_spec i 2) as [-> | NE]; eexists; (split; [reflexivity|]); [right | left; lra]. split; [reflexivity|]. unfold s_out. cbn [nth toR]. ring. }
  unfold s_out, s_in. cbn [sumn nth toR plus INR]. split; [lra|]. split.
  - replace (1 - (0 + 1 + (1 + 1) + (1 + 1 + 1)) / (0 + 4 + 2 + 0)) with 0 by field. rewrite Rabs_R0. lra.
  - replace (two (-51)) with (2 * two (-52)) by (change (-51)%Z with (1 + -52)%Z; rewrite two_add, two_1; reflexivity).
    replace (two (-48)) with (16 * two (-52)) by (change (-48)%Z with (4 + -52)%Z; rewrite two_add, (two_Z 4) by lia; reflexivity). pose proof (two_pos (-52)). lra.
Qed.
