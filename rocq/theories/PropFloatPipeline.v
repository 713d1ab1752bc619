(** C114: from an observed weighted graph to the samples of the model fitted to it, in double precision. *)
From Verif Require Import Base Num Prob Spec Lib Graphs GraphFacts Kernels Ensemble EnsembleFacts Solver Float FloatFacts FloatSolver FloatSolverFacts FloatSample
  PropFloat FloatRankFacts PropFloatSolver FloatAccuracy PropFloatAccuracy PropFloatDraws FloatGraphs PropFloatGraphs.
Import Num Spec.
From Coq Require Import Lra Lia Permutation.

Open Scope R_scope.
Local Notation hits := Graphs.hits.
Local Notation drawn := PropFloatDraws.drawn.
Local Notation edge := (nat * nat * R)%type.

Definition pair_dec : forall p q : nat * nat, {p = q} + {p <> q}. Proof. decide equality; apply Nat.eq_dec. Defined.

(** An edge table with weights that are doubles between 2^-100 and 2^100. *)
Definition observed (N : nat) (e : list edge) : Prop :=
  Forall (fun t => (src t < N)%nat /\ (dst t < N)%nat /\ double (wt t) /\ two (-100) <= wt t <= two 100) e /\ (Z.of_nat (length e) <= 2 ^ 29)%Z.
(** The number of different links. *)
Definition distinct (e : list edge) : R := INR (length (nodup pair_dec (map fst e))).

Lemma hits_pair : forall i j (t : edge), hits i j t = true <-> fst t = (i, j).
Proof.
  intros i j [[a b] w]. unfold hits. cbn [fst snd]. split.
  - intros H. apply andb_prop in H as [H1 H2]. apply Nat.eqb_eq in H1, H2. subst. reflexivity.
  - intros [= -> ->]. rewrite !Nat.eqb_refl. reflexivity.
Qed.
Lemma exists_pair : forall i j (e : list edge), existsb (hits i j) e = true <-> In (i, j) (nodup pair_dec (map fst e)).
Proof.
  intros i j e. rewrite nodup_In, in_map_iff, existsb_exists. split; intros (t & H1 & H2).
  - exists t. split; [apply hits_pair, H2 | exact H1].
  - exists t. split; [exact H2 | apply hits_pair, H1].
Qed.

Lemma count_pairs : forall (f : nat * nat -> bool) l, suml (fun q => if f q then 1 else 0) l = INR (length (filter f l)).
Proof. intros f l. rewrite <- suml_filter, suml_const. ring. Qed.
Lemma two_m1h : two (-1) = / 2.
Proof. rewrite two_m1. lra. Qed.

Section Observed.
Variables (N : nat) (e : list edge).
Hypothesis HO : observed N e.

Lemma observed_row : forall t, In t e -> (src t < N)%nat /\ (dst t < N)%nat /\ double (wt t) /\ two (-100) <= wt t <= two 100.
Proof. destruct HO as [F _]. rewrite Forall_forall in F. exact F. Qed.
Lemma rows_29 : INR (length e) <= two 29.
Proof. destruct HO as [_ L]. rewrite INR_IZR_INZ, two_Z by lia. apply IZR_le, L. Qed.
Lemma weight_bound : suml wt e <= two 129.
Proof.
  pose proof rows_29 as R. apply Rle_trans with (INR (length e) * two 100).
  - rewrite <- suml_const. apply suml_le. intros t Ht. apply (observed_row t Ht).
  - change 129%Z with (29 + 100)%Z. rewrite two_add. apply Rmult_le_compat_r; [left; apply two_pos | exact R].
Qed.
Lemma observed_table : double_table N e.
Proof.
  split; [|split].
  - apply Forall_forall. intros t Ht. destruct (observed_row t Ht) as (H1 & H2 & H3 & H4). pose proof (two_pos (-100)). repeat split; try assumption. lra.
  - eapply Rle_trans; [apply weight_bound | apply two_le; lia].
  - destruct HO as [_ L]. lia.
Qed.
Lemma rel_23 : two (-52) * INR (length e) <= two (-23).
Proof. change (-23)%Z with (-52 + 29)%Z. rewrite two_add. apply Rmult_le_compat_l; [left; apply two_pos | apply rows_29]. Qed.

(** A computed strength is zero if there are no edges, and moderate otherwise. *)
Lemma part_moderate : forall p a, summed b64 (filter p e) a -> exists v, a = Fin v /\ fine v /\
  Rabs (v - suml wt (filter p e)) <= two (-52) * INR (length e) * suml wt (filter p e) /\ moderate a /\ (existsb p e = true -> 0 < v).
Proof.
  intros p a H. destruct (part_close N e observed_table p a H) as (v & -> & Fv & E). exists v. split; [reflexivity|]. split; [exact Fv|].
  pose proof (total_nonneg _ (table_fine N e observed_table p)) as S0. pose proof (part_le N e observed_table p) as S1. pose proof (two_pos (-52)) as P52.
  assert (E' : Rabs (v - suml wt (filter p e)) <= two (-52) * INR (length e) * suml wt (filter p e)).
  { eapply Rle_trans; [exact E|]. apply Rmult_le_compat_r; [exact S0|]. apply Rmult_le_compat_l; [lra|]. apply le_INR, part_length. }
  split; [exact E'|]. pose proof rel_23 as R23. pose proof weight_bound as B. assert (H2 : two (-23) <= / 2) by (rewrite <- two_m1h; apply two_le; lia).
  set (S := suml wt (filter p e)) in *. assert (X : two (-52) * INR (length e) * S <= / 2 * S) by (apply Rmult_le_compat_r; lra).
  apply Rabs_def2_le in E'.
  assert (NE : existsb p e = true -> two (-100) <= S).
  { intros Q. apply existsb_exists in Q as (t & Ht & Hp). apply Rle_trans with (wt t); [apply (observed_row t Ht)|]. unfold S. apply suml_in_le.
    - intros y Hy. pose proof (table_fine N e observed_table p) as F. rewrite Forall_forall in F. exact (proj1 (F y Hy)).
    - apply filter_In. split; assumption. }
  pose proof (two_pos (-100)) as P100. split; [|intros Q; specialize (NE Q); lra].
  destruct (existsb p e) eqn:Q.
  - specialize (NE eq_refl). right. exists v. split; [reflexivity|]. split; [exact (proj2 Fv)|].
    assert (two (-130) <= / 2 * two (-100)) by (rewrite <- two_m1h, <- two_add; apply two_le; lia).
    assert (two 130 = 2 * two 129) by (change 130%Z with (1 + 129)%Z; rewrite two_add, two_1; reflexivity). lra.
  - left. f_equal. assert (Z : S = 0); [|lra]. unfold S. rewrite filter_sum. apply suml_zero. intros t Ht. destruct (p t) eqn:Ep; [|reflexivity].
    exfalso. assert (existsb p e = true) by (apply existsb_exists; eauto). congruence.
Qed.
End Observed.

(** * The target *)

(** The number of links that the code reads from the observed graph is the number of different pairs in its table. *)
Theorem C114_target : forall N e, Forall (fun t => (src t < N)%nat /\ (dst t < N)%nat /\ 0 < wt t) e ->
  num_edges N (SDiGraph (coo_tocsr false N e)) = Ok (distinct e).
Proof.
  intros N e He. rewrite Forall_forall in He. set (A := coo_tocsr false N e).
  assert (PF : Forall (fun t : edge => 0 < snd t) e) by (apply Forall_forall; intros t Ht; apply (He t Ht)).
  assert (HD : valid true N (SDiGraph A)) by (constructor; [split; [apply coo_wf, PF | reflexivity] | constructor]).
  unfold num_edges. cbn [is_directed]. destruct (adjacency_matrix N (SDiGraph A) true false) as [B|x] eqn:EB; [|discriminate EB]. cbn [bind]. f_equal.
  rewrite (all_view true N _ HD true false B EB).
  transitivity (pair_sum N true (fun i j => if existsb (hits i j) e then 1 else 0)).
  - unfold pair_sum. apply sumn_ext. intros i Hi. apply sumn_ext. intros j Hj. replace (allowed true i j) with true by (symmetry; apply orb_true_r).
    transitivity (present (W A i j)); [reflexivity|]. unfold A. rewrite coo_entry by exact Hj. destruct (existsb (hits i j) e) eqn:Q.
    + apply present_pos, coo_pos; assumption.
    + rewrite coo_zero by exact Q. apply present_0.
  - rewrite pair_sum_list. rewrite (count_pairs (fun q => existsb (hits (fst q) (snd q)) e)). unfold distinct. f_equal. apply Permutation_length, NoDup_Permutation.
    + apply NoDup_filter, NoDup_pairs.
    + apply NoDup_nodup.
    + intros [i j]. rewrite filter_In, in_pairs, <- exists_pair. cbn [fst snd]. split; [tauto|]. intros Q. split; [|exact Q].
      apply existsb_exists in Q as (t & Ht & Hh). apply hits_pair in Hh. destruct (He t Ht) as (H1 & H2 & _). unfold src, dst in H1, H2. rewrite Hh in H1, H2. cbn in H1, H2.
      split; [exact H1|]. split; [exact H2|]. apply orb_true_r.
Qed.
Print Assumptions C114_target.

(** Three vertices, five rows, four links, one of them a loop. *)
Lemma five_observed : observed 3 five_edges.
Proof.
  assert (D : forall n, (1 <= n <= 5)%nat -> double (INR n) /\ two (-100) <= INR n <= two 100).
  { intros n Hn. split; [apply integer_double; lia|]. split.
    - apply Rle_trans with 1; [rewrite <- two_0; apply two_le; lia | apply (le_INR 1 n); lia].
    - apply Rle_trans with (two 3); [|apply two_le; lia]. rewrite two_Z, INR_IZR_INZ by lia. apply IZR_le. change (2 ^ 3)%Z with 8%Z. lia. }
  assert (Row : forall i j n w, (i < 3)%nat -> (j < 3)%nat -> (1 <= n <= 5)%nat -> w = INR n ->
    (src (i, j, w) < 3)%nat /\ (dst (i, j, w) < 3)%nat /\ double (wt (i, j, w)) /\ two (-100) <= wt (i, j, w) <= two 100).
  { intros i j n w Hi Hj Hn ->. split; [exact Hi|]. split; [exact Hj|]. exact (D n Hn). }
  split; [|unfold five_edges; cbn [length]; lia]. unfold five_edges.
  apply Forall_cons; [apply (Row _ _ 1%nat); [lia | lia | lia | cbn [INR]; lra]|].
  apply Forall_cons; [apply (Row _ _ 2%nat); [lia | lia | lia | cbn [INR]; lra]|].
  apply Forall_cons; [apply (Row _ _ 3%nat); [lia | lia | lia | cbn [INR]; lra]|].
  apply Forall_cons; [apply (Row _ _ 4%nat); [lia | lia | lia | cbn [INR]; lra]|].
  apply Forall_cons; [apply (Row _ _ 5%nat); [lia | lia | lia | cbn [INR]; lra]|]. apply Forall_nil.
Qed.
Lemma five_distinct : distinct five_edges = 4.
Proof. unfold distinct. replace (length (nodup pair_dec (map fst five_edges))) with 4%nat by reflexivity. cbn [INR]. lra. Qed.
Example C114_target_nonvacuous : Forall (fun t => (src t < 3)%nat /\ (dst t < 3)%nat /\ 0 < wt t) five_edges /\ num_edges 3 (SDiGraph (coo_tocsr false 3 five_edges)) = Ok 4.
Proof.
  assert (H : Forall (fun t => (src t < 3)%nat /\ (dst t < 3)%nat /\ 0 < wt t) five_edges) by (unfold five_edges; repeat apply Forall_cons; try apply Forall_nil; cbn [src dst wt fst snd]; (split; [lia|]); (split; [lia|]); lra).
  split; [exact H|]. rewrite (C114_target 3 five_edges H), five_distinct. reflexivity.
Qed.

(** * Links *)

Theorem C114_links : forall inv dup axis N sl e a rho x0 max_iter, reorders dup -> reorders axis -> observed N e ->
  (1 <= N)%nat -> (Z.of_nat (N * N) <= 2 ^ 50)%Z -> sl = true \/ Forall (fun t => src t <> dst t) e ->
  let T := distinct e in let x := rout_strength b64 dup axis N e in let y := rin_strength b64 dup axis N e in let z (_ _ : nat) := Fin 1 in
  two (-50) * INR (N * N) <= rho * T -> rho <= 1 / 8 -> two (-900) <= a <= T / 8 -> amount x0 ->
  let p d i j := float_jac inv d (x i) (y j) (z i j) in
  exists sol, rsolver b64 (fun d => rexp_edges_f_jac b64 (p d) N sl) x0 (Fin T) (Fin a) (Fin rho) max_iter (Fin 0) PInf None None = Ok sol /\
  (sol_converged sol = true ->
   Rabs (drawn (binary_sample (fun d x y z => toR (float_p inv d x y z)) (sol_x sol) x y z N sl) (g_edges N) - T)
   <= (1 + two (-50)) * (a + rho * T) + two (-49) * (INR (N * N) + 16) * T + INR (N * N) * two (-52)).
Proof.
  intros inv dup axis N sl e a rho x0 max_iter Od Oa HO N1 HN Hsl T x y z Hr1 Hr2 Ha Hx0.
  assert (He : forall t, In t e -> (src t < N)%nat /\ (dst t < N)%nat) by (intros t Ht; destruct (observed_row N e HO t Ht) as (H1 & H2 & _); auto).
  assert (PX : forall i, (i < N)%nat -> moderate (x i) /\ (existsb (fun t => Nat.eqb (src t) i) e = true -> is0 (x i) = false)).
  { intros i Hi. destruct (part_moderate N e HO _ _ (out_summed b64 dup axis Od Oa N e He i)) as (v & Ev & _ & _ & M & P). unfold x. split; [exact M|]. intros Q. rewrite Ev. apply is0_fin_pos, P, Q. }
  assert (PY : forall i, (i < N)%nat -> moderate (y i) /\ (existsb (fun t => Nat.eqb (dst t) i) e = true -> is0 (y i) = false)).
  { intros i Hi. destruct (part_moderate N e HO _ _ (in_summed b64 dup axis Od Oa N e He i Hi)) as (v & Ev & _ & _ & M & P). unfold y. split; [exact M|]. intros Q. rewrite Ev. apply is0_fin_pos, P, Q. }
  apply C108_fit; try assumption.
  - intros i Hi. split; [apply PX, Hi|]. split; [apply PY, Hi|]. intros j _. right. exists 1. split; [reflexivity|]. split; [rewrite <- two_0; apply double_two; lia|].
    rewrite <- two_0. split; apply two_le; lia.
  - apply integer_double. destruct HO as [_ L]. assert (length (nodup pair_dec (map fst e)) <= length e)%nat; [|lia].
    rewrite <- (map_length fst e). apply NoDup_incl_length; [apply NoDup_nodup|]. intros q Hq. apply nodup_In in Hq. exact Hq.
  - rewrite pair_sum_list. unfold T, distinct.
    apply Rle_trans with (INR (length (filter (fun q => connectable (x (fst q)) (y (snd q)) (z (fst q) (snd q))) (pairs N sl)))).
    + apply le_INR, NoDup_incl_length; [apply NoDup_nodup|]. intros [i j] Hq. apply nodup_In, in_map_iff in Hq as ([[i' j'] w] & [= -> ->] & Ht).
      destruct (He _ Ht) as [Hi Hj]. cbn in Hi, Hj. apply filter_In. split.
      * apply in_pairs. split; [exact Hi|]. split; [exact Hj|]. unfold allowed. destruct Hsl as [-> | F]; [apply orb_true_r|]. rewrite Forall_forall in F. specialize (F _ Ht). cbn in F.
        destruct (Nat.eqb_spec i j); [contradiction | reflexivity].
      * cbn [fst snd]. unfold connectable. rewrite (proj2 (PX i Hi)), (proj2 (PY j Hj)).
        { unfold z. rewrite is0_fin_pos by lra. reflexivity. }
        { apply existsb_exists. eexists. split; [exact Ht|]. apply Nat.eqb_refl. }
        { apply existsb_exists. eexists. split; [exact Ht|]. apply Nat.eqb_refl. }
    + right. rewrite <- count_pairs. reflexivity.
Qed.
Print Assumptions C114_links.

Example C114_links_nonvacuous : reorders left_to_right /\ observed 3 five_edges /\ (Z.of_nat (3 * 3) <= 2 ^ 50)%Z /\
  two (-50) * INR (3 * 3) <= 1 / 8 * distinct five_edges /\ two (-900) <= 1 / 4 <= distinct five_edges / 8 /\ amount (Fin 1) /\
  let x := rout_strength b64 left_to_right left_to_right 3 five_edges in let y := rin_strength b64 left_to_right left_to_right 3 five_edges in
  exists sol, rsolver b64 (fun d => rexp_edges_f_jac b64 (fun i j => float_jac false d (x i) (y j) (Fin 1)) 3 true) (Fin 1) (Fin 4) (Fin (1 / 4)) (Fin (1 / 8)) 100 (Fin 0) PInf None None = Ok sol /\
  (sol_converged sol = true -> Rabs (drawn (binary_sample (fun d x y z => toR (float_p false d x y z)) (sol_x sol) x y (fun _ _ => Fin 1) 3 true) (g_edges 3) - 4) <= 1).
Proof.
  assert (B : two (-50) <= 1 / 1024) by (apply Rle_trans with (two (-10)); [apply two_le; lia | change (-10)%Z with (- (10))%Z; rewrite two_neg, two_Z by lia; change (2 ^ 10)%Z with 1024%Z; lra]).
  assert (H1 : two (-50) * INR (3 * 3) <= 1 / 8 * distinct five_edges) by (rewrite five_distinct; cbn [Nat.mul Nat.add INR]; lra).
  assert (H2 : two (-900) <= 1 / 4 <= distinct five_edges / 8) by (rewrite five_distinct; split; [apply Rle_trans with (two (-50)); [apply two_le; lia | lra] | lra]).
  assert (H3 : amount (Fin 1)) by (right; exists 1; split; [reflexivity|]; split; [lra | rewrite <- two_0; apply double_two; lia]).
  assert (H4 : (Z.of_nat (3 * 3) <= 2 ^ 50)%Z) by lia.
  split; [exact left_to_right_reorders|]. split; [exact five_observed|]. split; [exact H4|]. split; [exact H1|]. split; [exact H2|]. split; [exact H3|]. intros x y.
  destruct (C114_links false _ _ 3 true five_edges (1 / 4) (1 / 8) (Fin 1) 100 left_to_right_reorders left_to_right_reorders five_observed ltac:(lia) H4 (or_introl eq_refl) H1 ltac:(lra) H2 H3) as (sol & E & C).
  rewrite five_distinct in E, C. exists sol. split; [exact E|]. intros Q. specialize (C Q). eapply Rle_trans; [exact C|].
  replace (two (-49)) with (2 * two (-50)) by (change (-49)%Z with (1 + -50)%Z; rewrite two_add, two_1; reflexivity).
  assert (two (-52) <= two (-50)) by (apply two_le; lia). cbn [Nat.mul Nat.add INR]. lra.
Qed.

(** * Weights *)

(** The strengths of an observed graph always pass the check of the weighted sampler, although the totals of the computed
    out-strengths and in-strengths may differ by rounding.  For any table of computed probabilities that are zero, where
    one of the two strengths is zero, or at least [pi], the mean strengths of the weighted samples are the strengths of
    the observed graph. *)
Theorem C114_strengths : forall dup axis N e p pi, reorders dup -> reorders axis -> observed N e -> e <> [] ->
  (Z.of_nat N <= 2 ^ 20)%Z -> two (-40) <= pi ->
  let x := rout_strength b64 dup axis N e in let y := rin_strength b64 dup axis N e in
  (forall i j, (i < N)%nat -> (j < N)%nat -> exists v, p i j = Fin v /\ (pi <= v <= 1 \/ v = 0 /\ toR (x i) * toR (y j) = 0)) ->
  let near a t := Rabs (a - t) <= (two (-49) * (INR (length e) + INR N + 2) + two (-51) / pi) * t in
  let w i j r := match r with Ok G => w_pair i j (map (fun e => (fst e, toR (snd e))) G) | Raise _ => 0 end in
  exists sample, rcremb_sample b64 p x y N true = Ok sample /\
  drawn sample (fun r => match r with Ok _ => 1 | Raise _ => 0 end) = 1 /\
  forall i, (i < N)%nat ->
    near (drawn sample (fun r => sumn N (fun j => w i j r))) (suml wt (filter (fun t => Nat.eqb (src t) i) e)) /\
    near (drawn sample (fun r => sumn N (fun j => w j i r))) (suml wt (filter (fun t => Nat.eqb (dst t) i) e)).
Proof.
  intros dup axis N e p pi Od Oa HO NE HN Hpi x y Hp near w.
  pose proof (observed_table N e HO) as HT. pose proof (table_ends N e HT) as He.
  assert (S1 : forall v, (v < N)%nat -> summed b64 (filter (fun t => Nat.eqb (src t) v) e) (x v)) by (intros v _; apply out_summed; assumption).
  assert (S2 : forall v, (v < N)%nat -> summed b64 (filter (fun t => Nat.eqb (dst t) v) e) (y v)) by (intros v Hv; apply in_summed; assumption).
  pose proof (split_error N e HT src _ (fun t Ht => proj1 (He t Ht)) S1) as E1. pose proof (split_error N e HT dst _ (fun t Ht => proj2 (He t Ht)) S2) as E2.
  set (W := sumn N (fun v => toR (x v))) in *. set (V := sumn N (fun v => toR (y v))) in *. set (S := suml wt e) in *.
  pose proof (rel_23 N e HO) as R23. set (d := two (-52) * INR (length e)) in *.
  assert (B23 : two (-23) = / 8388608) by (change (-23)%Z with (- (23))%Z; rewrite two_neg, two_Z by lia; reflexivity).
  pose proof (two_pos (-52)) as P52. pose proof (pos_INR (length e)) as PL. assert (D0 : 0 <= d) by (unfold d; apply Rmult_le_pos; lra).
  assert (S0 : 0 < S).
  { assert (Ht : exists t, In t e) by (destruct e as [|t l]; [contradiction | exists t; left; reflexivity]). destruct Ht as [t Ht]. pose proof (two_pos (-100)). apply Rlt_le_trans with (wt t).
    - pose proof (observed_row N e HO t Ht). lra.
    - unfold S. apply suml_in_le; [|exact Ht]. intros z Hz. pose proof (observed_row N e HO z Hz). lra. }
  apply Rabs_def2_le in E1. apply Rabs_def2_le in E2.
  assert (DS : d * S <= / 8388608 * S) by (apply Rmult_le_compat_r; lra). assert (DS0 : 0 <= d * S) by (apply Rmult_le_pos; lra).
  assert (W0 : 0 < W) by lra.
  assert (Q : 1 - 3 * d <= V / W <= 1 + 3 * d).
  { split; apply (Rmult_le_reg_r W); try exact W0; unfold Rdiv; rewrite Rmult_assoc, Rinv_l, Rmult_1_r by lra.
    - assert (d * W >= d * ((1 - / 8388608) * S)) by (apply Rle_ge, Rmult_le_compat_l; lra). nra.
    - assert (d * W >= d * ((1 - / 8388608) * S)) by (apply Rle_ge, Rmult_le_compat_l; lra). nra. }
  assert (Hs : forall i, (i < N)%nat -> moderate (x i) /\ moderate (y i)).
  { intros i Hi. destruct (part_moderate N e HO _ _ (S1 i Hi)) as (v & _ & _ & _ & M1 & _). destruct (part_moderate N e HO _ _ (S2 i Hi)) as (v' & _ & _ & _ & M2 & _). split; assumption. }
  destruct (C108_weights p x y N true pi Hs HN Hpi Hp W0 ltac:(apply Rabs_le; fold W V; lra)) as (sample & Es & One & _ & St).
  exists sample. split; [exact Es|]. split; [exact One|]. intros i Hi. destruct (St eq_refl i Hi) as [M1 M2]. fold W V in M1.
  destruct (part_moderate N e HO _ _ (S1 i Hi)) as (o & Eo & Fo & Bo & _). destruct (part_moderate N e HO _ _ (S2 i Hi)) as (u & Eu & Fu & Bu & _).
  rewrite Eo in M1. rewrite Eu in M2. cbn [toR] in M1, M2. fold d in Bo, Bu.
  set (So := suml wt (filter (fun t => Nat.eqb (src t) i) e)) in *. set (Si := suml wt (filter (fun t => Nat.eqb (dst t) i) e)) in *.
  assert (So0 : 0 <= So) by (apply total_nonneg, (table_fine N e HT)). assert (Si0 : 0 <= Si) by (apply total_nonneg, (table_fine N e HT)).
  pose proof (two_pos (-40)) as P40. pose proof (pos_INR N) as PN.
  set (c := two (-51) * (INR N + 2) + two (-52) / pi) in *.
  assert (E51 : two (-51) = 2 * two (-52)) by (change (-51)%Z with (1 + -52)%Z; rewrite two_add, two_1; reflexivity).
  assert (E49 : two (-49) = 8 * two (-52)) by (change (-49)%Z with (3 + -52)%Z; rewrite two_add, (two_Z 3) by lia; reflexivity).
  assert (IP : 0 < / pi) by (apply Rinv_0_lt_compat; lra).
  assert (C0 : 0 <= c) by (unfold c, Rdiv; assert (0 <= two (-51) * (INR N + 2)) by (rewrite E51; apply Rmult_le_pos; lra); assert (0 <= two (-52) * / pi) by (apply Rmult_le_pos; lra); lra).
  assert (Bound : 2 * c + 8 * d <= two (-49) * (INR (length e) + INR N + 2) + two (-51) / pi).
  { unfold c, d, Rdiv. rewrite E49, E51. assert (0 <= two (-52) * INR N) by (apply Rmult_le_pos; lra). nra. }
  assert (Step : forall m v q s, 0 <= s -> 0 <= v -> Rabs (v - s) <= d * s -> 1 - 3 * d <= q <= 1 + 3 * d -> Rabs (m - v * q) <= c * (v * q) -> near m s).
  { intros m v q s Hs0 Hv Hvs Hq Hm. apply Rabs_def2_le in Hvs. unfold near. apply Rle_trans with ((2 * c + 8 * d) * s); [|apply Rmult_le_compat_r; assumption].
    assert (ds : 0 <= d * s <= / 8388608 * s) by (split; [apply Rmult_le_pos; lra | apply Rmult_le_compat_r; lra]).
    assert (dv : 0 <= d * v <= 2 * (d * s)) by (split; [apply Rmult_le_pos; lra|]; replace (2 * (d * s)) with (d * (2 * s)) by ring; apply Rmult_le_compat_l; lra).
    assert (dv2 : d * v <= d * s + d * s) by lra.
    assert (vq : v - 3 * (d * v) <= v * q <= v + 3 * (d * v)) by (split; nra).
    assert (vq2 : v * q <= 2 * s) by lra. assert (cv : c * (v * q) <= 2 * (c * s)) by (replace (2 * (c * s)) with (c * (2 * s)) by ring; apply Rmult_le_compat_l; lra).
    apply Rabs_def2_le in Hm. apply Rabs_le. lra. }
  split.
  - apply (Step _ o (V / W) So); try assumption. apply Fo.
  - apply (Step _ u 1 Si); try assumption; [apply Fu | lra | rewrite Rmult_1_r; exact M2].
Qed.
Print Assumptions C114_strengths.

(** No link enters the last vertex, so that its probabilities may be zero. *)
Example C114_strengths_nonvacuous : let p (i j : nat) := Fin (if Nat.eqb j 2 then 0 else 1 / 2) in
  reorders left_to_right /\ observed 3 five_edges /\ five_edges <> [] /\ (Z.of_nat 3 <= 2 ^ 20)%Z /\ two (-40) <= 1 / 2 /\
  exists sample, rcremb_sample b64 p (rout_strength b64 left_to_right left_to_right 3 five_edges) (rin_strength b64 left_to_right left_to_right 3 five_edges) 3 true = Ok sample /\
  Rabs (drawn sample (fun r => sumn 3 (fun j => match r with Ok G => w_pair 1 j (map (fun e => (fst e, toR (snd e))) G) | Raise _ => 0 end)) - 7) <= two (-42).
Proof.
  intros p. assert (H1 : five_edges <> []) by discriminate. assert (H2 : (Z.of_nat 3 <= 2 ^ 20)%Z) by lia.
  assert (H3 : two (-40) <= 1 / 2) by (rewrite <- two_m1; apply two_le; lia).
  split; [exact left_to_right_reorders|]. split; [exact five_observed|]. split; [exact H1|]. split; [exact H2|]. split; [exact H3|].
  pose proof five_observed as HO. assert (He : forall t, In t five_edges -> (src t < 3)%nat /\ (dst t < 3)%nat) by (apply (table_ends 3 _ (observed_table 3 _ HO))).
  assert (Hp : forall i j, (i < 3)%nat -> (j < 3)%nat -> exists v, p i j = Fin v /\ (1 / 2 <= v <= 1 \/ v = 0 /\
    toR (rout_strength b64 left_to_right left_to_right 3 five_edges i) * toR (rin_strength b64 left_to_right left_to_right 3 five_edges j) = 0)).
  { intros i j Hi Hj. unfold p. eexists. split; [reflexivity|]. destruct (Nat.eqb_spec j 2) as [->|Hn]; [|left; lra]. right. split; [reflexivity|].
    destruct (part_moderate 3 _ HO _ _ (in_summed b64 _ _ left_to_right_reorders left_to_right_reorders 3 _ He 2%nat Hj)) as (v & -> & _ & B & _).
    change (filter (fun t => Nat.eqb (dst t) 2) five_edges) with (@nil edge) in B. cbn [suml] in B. rewrite Rmult_0_r in B. apply Rabs_def2_le in B. cbn [toR]. replace v with 0 by lra. ring. }
  destruct (C114_strengths _ _ 3 five_edges p (1 / 2) left_to_right_reorders left_to_right_reorders HO H1 H2 H3 Hp) as (sample & E & _ & St).
  exists sample. split; [exact E|]. destruct (St 1%nat ltac:(lia)) as [M _]. change (filter (fun t => Nat.eqb (src t) 1) five_edges) with [(1%nat, 0%nat, 3); (1%nat, 1%nat, 4)] in M.
  cbn [suml wt snd] in M. replace (3 + (4 + 0)) with 7 in M by ring. eapply Rle_trans; [exact M|]. change (length five_edges) with 5%nat. cbn [INR].
  replace (two (-49)) with (4 * two (-51)) by (change (-49)%Z with (2 + -51)%Z; rewrite two_add, (two_Z 2) by lia; reflexivity).
  replace (two (-42)) with (512 * two (-51)) by (change (-42)%Z with (9 + -51)%Z; rewrite two_add, (two_Z 9) by lia; reflexivity).
  pose proof (two_pos (-51)). lra.
Qed.
