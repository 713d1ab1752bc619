(** Conditional probabilities and the measures computed with them. *)
From Verif Require Import Base Num Spec Kernels KernelFacts MultiKernels Prob Ensemble EnsembleFacts
  EnsembleProps LayerProps LayerLib Aggregate CondDist Conditional CondFacts CondModel.
From Coq Require Import Sorting.Permutation FunctionalExtensionality.

(** ** The kernel *)

Lemma exp_neg_lt1 : forall t, 0 < t -> exp (- t) < 1.
Proof. intros t H. rewrite <- exp_0. apply exp_increasing. lra. Qed.

Lemma survive_lt1 : forall d r, nonneg d -> 0 <= r -> survive d r <> 1 -> 0 < r /\ (forall v, d = Fin v -> 0 < v).
Proof.
  intros [d| | |] r Hd Hr H; simpl in *; try contradiction.
  - split.
    + destruct (Req_dec r 0) as [->|]; [|lra]. exfalso. apply H. rewrite Rmult_0_r, Ropp_0, exp_0. reflexivity.
    + intros v E. inversion E; subst. destruct (Req_dec v 0) as [->|]; [|lra]. exfalso. apply H. rewrite Rmult_0_l, Ropp_0, exp_0. reflexivity.
  - split; [|discriminate]. destruct (Reqb_spec r 0); [contradiction | lra].
Qed.

Lemma mult3_pos : forall a b c, 0 <= a -> 0 <= b -> 0 <= c -> 0 < a * b * c -> 0 < a /\ 0 < b /\ 0 < c.
Proof.
  intros a b c Ha Hb Hc H.
  assert (a <> 0) by (intros ->; lra). assert (b <> 0) by (intros ->; lra). assert (c <> 0) by (intros ->; lra). lra.
Qed.

Lemma is0_fin : forall r, is0 (Fin r) = Reqb r 0.
Proof. reflexivity. Qed.

Lemma cond_p_fin : forall d x y z X Y Z, nonneg d -> 0 <= x -> 0 <= y -> 0 <= z -> 0 <= X -> 0 <= Y -> 0 <= Z ->
  survive d (X * Y * Z) <> 1 ->
  cond_p_ij d (Fin x) (Fin y) (Fin z) (Fin X) (Fin Y) (Fin Z)
  = Fin ((1 - survive d (x * y * z)) / (1 - survive d (X * Y * Z))).
Proof.
  intros d x y z X Y Z Hd Hx Hy Hz HX HY HZ H.
  assert (HP : 0 <= X * Y * Z) by (repeat apply Rmult_le_pos; assumption).
  destruct (survive_lt1 d (X * Y * Z) Hd HP H) as [Hb Hd0].
  destruct (mult3_pos X Y Z HX HY HZ Hb) as (X0 & Y0 & Z0).
  unfold cond_p_ij. rewrite !is0_fin.
  destruct (Reqb_spec X 0) as [|_]; [lra|]. destruct (Reqb_spec Y 0) as [|_]; [lra|]. destruct (Reqb_spec Z 0) as [|_]; [lra|].
  cbn [orb].
  destruct (Reqb_spec x 0) as [->|nx]; [rewrite !Rmult_0_l, survive_0; cbn [orb]; f_equal; field; lra|].
  destruct (Reqb_spec y 0) as [->|ny]; [rewrite Rmult_0_r, !Rmult_0_l, survive_0; cbn [orb]; f_equal; field; lra|].
  destruct (Reqb_spec z 0) as [->|nz]; [rewrite Rmult_0_r, survive_0; cbn [orb]; f_equal; field; lra|].
  cbn [orb]. destruct d as [d| | |]; simpl in Hd; try contradiction.
  - specialize (Hd0 d eq_refl). rewrite is0_fin. destruct (Reqb_spec d 0) as [|_]; [lra|].
    cbn [nmul isinf nopp]. unfold nexpm1. cbn [nexp nsub nopp ndiv nadd].
    assert (E : exp (- (d * X * Y * Z)) < 1) by (apply exp_neg_lt1; repeat apply Rmult_lt_0_compat; assumption).
    match goal with |- context[Reqb ?t 0] => destruct (Reqb_spec t 0) as [W|W] end; [lra|].
    f_equal. cbn [survive]. replace (d * (x * y * z)) with (d * x * y * z) by ring.
    replace (d * (X * Y * Z)) with (d * X * Y * Z) by ring. field. lra.
  - cbn [is0 neqb]. cbn [nmul]. unfold inf_times. 
    destruct (Reqb_spec x 0) as [|_]; [contradiction|]. destruct (Rltb_spec 0 x) as [_|]; [|lra]. cbn [Bool.eqb nmul].
    unfold inf_times. destruct (Reqb_spec y 0) as [|_]; [contradiction|]. destruct (Rltb_spec 0 y) as [_|]; [|lra]. cbn [Bool.eqb nmul].
    unfold inf_times. destruct (Reqb_spec z 0) as [|_]; [contradiction|]. destruct (Rltb_spec 0 z) as [_|]; [|lra]. cbn [Bool.eqb nmul isinf].
    cbn [survive]. destruct (Reqb_spec (X * Y * Z) 0) as [|_]; [lra|]. destruct (Reqb_spec (x * y * z) 0) as [W|_].
    + exfalso. assert (0 < x * y * z) by (repeat apply Rmult_lt_0_compat; lra). lra.
    + f_equal. field.
Qed.

Lemma cond_p_zero : forall x y z X Y Z, 0 <= x -> 0 <= y -> 0 <= z -> 0 < X -> 0 < Y -> 0 < Z ->
  cond_p_ij (Fin 0) (Fin x) (Fin y) (Fin z) (Fin X) (Fin Y) (Fin Z) = Fin (x * y * z / (X * Y * Z)).
Proof.
  intros x y z X Y Z Hx Hy Hz HX HY HZ. unfold cond_p_ij. rewrite !is0_fin.
  destruct (Reqb_spec X 0) as [|_]; [lra|]. destruct (Reqb_spec Y 0) as [|_]; [lra|]. destruct (Reqb_spec Z 0) as [|_]; [lra|].
  cbn [orb].
  destruct (Reqb_spec x 0) as [->|nx]; [cbn [orb]; f_equal; field; lra|].
  destruct (Reqb_spec y 0) as [->|ny]; [cbn [orb]; f_equal; field; lra|].
  destruct (Reqb_spec z 0) as [->|nz]; [cbn [orb]; f_equal; field; lra|].
  cbn [orb]. destruct (Reqb_spec 0 0) as [_|]; [|lra]. unfold ndiv.
  destruct (Reqb_spec X 0) as [|_]; [lra|]. destruct (Reqb_spec Y 0) as [|_]; [lra|]. destruct (Reqb_spec Z 0) as [|_]; [lra|].
  cbn [nmul]. f_equal. field. lra.
Qed.

(** ** Loops *)

Lemma for_range_res_ok : forall (S : Type) n (body : nat -> S -> res S) body' s,
  (forall i s, (i < n)%nat -> body i s = Ok (body' i s)) -> for_range_res n body s = Ok (for_range n body' s).
Proof.
  intros S n body body' s; induction n as [|n IH]; intros H; [reflexivity|]. cbn [for_range_res for_range].
  rewrite IH by (intros; apply H; lia). cbn [bind]. apply H. lia.
Qed.

Lemma add_at_0 : forall f i, add_at f i 0 = f.
Proof.
  intros f i. apply functional_extensionality. intros k. unfold add_at, upd. destruct (Nat.eqb_spec k i) as [->|]; [ring | reflexivity].
Qed.

Section CondM.
Variables (d : num) (x y : nat -> R) (N : nat) (g : nat -> nat) (adj : nat -> list (nat * R)) (sl : bool).
Hypothesis (Hd : nonneg d) (Hx : forall i, 0 <= x i) (Hy : forall i, 0 <= y i).
Notation M := (num_groups N g).
Hypothesis Hadj : aggregate_graph M adj.
Notation po := (fun i => Fin (x i)).
Notation pin := (fun i => Fin (y i)).
Notation p := (pm d x y).
Notation Q := (empty_prob N sl p g).
Notation A := (macro_link adj).
Notation pij := (inv_prob d x y).
Hypothesis Hpos : 0 < prob_aggregate N sl pij M g A.
Let s := aggregates N g po pin.

(** Conditional probability of a link. *)
Definition cp (i j : nat) : R := if A (g i) (g j) then p (i, j) / (1 - Q (g i, g j)) else 0.

Lemma linked_pos : forall i j, (i < N)%nat -> A (g i) (g j) = true -> 1 - Q (g i, g j) <> 0.
Proof.
  intros i j Hi H. apply (B1_pos d x y N g adj sl Hd Hx Hy Hadj Hpos). apply in_B1.
  split; [apply group_lt; exact Hi | exact H].
Qed.

Lemma cond_term : forall i j, (i < N)%nat -> A (g i) (g j) = true ->
  exists z, z_block s sl (g i) (g j) = Ok z /\
    toR (cond_p_ij d (po i) (pin j) (Fin 1) (agg_p_out s (g i)) (agg_p_in s (g j)) z) = cp i j.
Proof.
  intros i j Hi H. pose proof (linked_pos i j Hi H) as HQ.
  destruct (z_block_spec x y N g sl Hx Hy (g i) (g j) (Q_defined d x y N g sl Hx Hy _ HQ)) as (z & Ez & Hz & Er).
  exists (Fin z). split; [exact Ez|]. unfold s.
  destruct (aggregates_spec N g x y (g i)) as (E1 & _ & _). destruct (aggregates_spec N g x y (g j)) as (_ & E2 & _).
  rewrite E1, E2. rewrite (Q_survive d x y N g sl Hx Hy) in HQ.
  rewrite cond_p_fin; [|assumption|apply Hx|apply Hy|lra|apply group_sum_nonneg; exact Hx|apply group_sum_nonneg; exact Hy|exact Hz|rewrite Er; lra].
  rewrite Er. unfold cp. rewrite H, (Q_survive d x y N g sl Hx Hy). unfold pm. cbn [fst snd toR]. rewrite Rmult_1_r. reflexivity.
Qed.

Lemma cond_edges_sum : cond_exp_edges d po pin N g adj sl = Ok (pair_sum N sl cp).
Proof.
  unfold cond_exp_edges. fold s.
  rewrite (for_range_res_ok _ N _ (fun i e => for_range N (fun j e => e + (if allowed sl i j then cp i j else 0)) e)).
  - f_equal. unfold pair_sum. etransitivity; [apply (for_range_sum R (fun e => e) N _ (fun i => sumn N (fun j => if allowed sl i j then cp i j else 0)))|ring].
    intros i e _. apply (for_range_sum R (fun e => e) N _ (fun j => if allowed sl i j then cp i j else 0)). intros; reflexivity.
  - intros i e Hi. apply for_range_res_ok. intros j e' Hj. cbv zeta. rewrite linked_macro. change (adm sl i j) with (allowed sl i j).
    destruct (A (g i) (g j)) eqn:E; cbn [andb].
    + destruct (allowed sl i j).
      * destruct (cond_term i j Hi E) as (z & -> & Ez). cbn [bind]. rewrite Ez. reflexivity.
      * f_equal. ring.
    + f_equal. unfold cp. rewrite E. destruct (allowed sl i j); ring.
Qed.

Lemma cond_marginal : forall i j, (i < N)%nat -> (j < N)%nat -> allowed sl i j = true ->
  ensemble_mean N sl (cond_weight N sl pij M g A) (fun G => b2r (mem (i, j) G)) = cp i j.
Proof.
  intros i j Hi Hj Hal. apply (Rmult_eq_reg_r (prodl (fun c => 1 - Q c) (B1 N g adj))); [|apply prod_pos; assumption].
  rewrite (cmean d x y N g adj sl Hd Hx Hy Hadj Hpos).
  - unfold cp. destruct (A (g i) (g j)) eqn:E.
    + pose proof (linked_pos i j Hi E) as HQ.
      apply (Rmult_eq_reg_r (1 - Q (g i, g j))); [|exact HQ].
      rewrite (mean_hits_mem N sl g p (i, j) (g i, g j)).
      * field. exact HQ.
      * apply B1_nodup. exact Hadj.
      * apply in_B1. split; [apply group_lt; exact Hi | exact E].
      * apply in_block. split; [apply in_pairs; tauto | reflexivity].
    + rewrite mean_mem_other; [ring|]. unfold block_of; cbn [fst snd]. intros H. apply in_B1 in H as [_ H]. congruence.
  - intros S T H. f_equal. apply Bool.eq_iff_eq_true. rewrite !mem_spec.
    split; intros I; [apply (Permutation_in _ H I) | apply (Permutation_in _ (Permutation_sym H) I)].
Qed.

Lemma cond_marginal_not : forall i j, allowed sl i j = false ->
  ensemble_mean N sl (cond_weight N sl pij M g A) (fun G => b2r (mem (i, j) G)) = 0.
Proof.
  intros i j H. apply suml_zero. intros G HG. replace (mem (i, j) G) with false; [simpl; ring|]. symmetry. apply mem_false.
  intros I. apply (sublists_incl _ _ _ _ HG) in I. apply in_pairs in I as (_ & _ & I). congruence.
Qed.

Lemma cond_mean_sumn : forall w n f,
  ensemble_mean N sl w (fun G => sumn n (fun k => f k G)) = sumn n (fun k => ensemble_mean N sl w (f k)).
Proof.
  intros w n f. unfold ensemble_mean. rewrite <- suml_sumn_swap. apply suml_ext. intros G _. rewrite sumn_scal_l. reflexivity.
Qed.

Lemma cond_mean_row : forall v, (v < N)%nat ->
  ensemble_mean N sl (cond_weight N sl pij M g A) (fun G => g_out N G v) = sumn N (fun j => if allowed sl v j then cp v j else 0).
Proof.
  intros v Hv. unfold g_out. rewrite cond_mean_sumn. apply sumn_ext. intros j Hj.
  destruct (allowed sl v j) eqn:E; [apply cond_marginal; assumption | apply cond_marginal_not; exact E].
Qed.

Lemma cond_mean_col : forall v, (v < N)%nat ->
  ensemble_mean N sl (cond_weight N sl pij M g A) (fun G => g_in N G v) = sumn N (fun j => if allowed sl j v then cp j v else 0).
Proof.
  intros v Hv. unfold g_in. rewrite cond_mean_sumn. apply sumn_ext. intros j Hj.
  destruct (allowed sl j v) eqn:E; [apply cond_marginal; assumption | apply cond_marginal_not; exact E].
Qed.

Lemma cond_mean_edges : ensemble_mean N sl (cond_weight N sl pij M g A) (g_edges N) = pair_sum N sl cp.
Proof.
  unfold g_edges, pair_sum. rewrite cond_mean_sumn. apply sumn_ext. intros i Hi. apply (cond_mean_row i Hi).
Qed.

(** ** Degrees *)

Hypothesis Hsym : forall a b, (a < M)%nat -> (b < M)%nat -> A a b = A b a.

Lemma cond_degrees : exists D, cond_exp_degrees d po pin N g adj sl = Ok D /\
  forall v, (v < N)%nat ->
    oview v D = sumn N (fun j => if allowed sl v j then cp v j else 0) /\
    iview v D = sumn N (fun j => if allowed sl j v then cp j v else 0) /\
    dview v D = sumn N (fun j => if Nat.eqb v j then (if sl then cp v v else 0)
                                 else cp v j + cp j v - cp v j * cp j v).
Proof.
  pose (k := fun (_ : unit) (i j : nat) (_ : unit) => cp i j).
  exists (exp_degrees k tt (fun i => i) (fun i => i) (fun _ _ => tt) N sl). split.
  - unfold cond_exp_degrees. fold s. unfold exp_degrees. apply for_range_res_ok. intros i st Hi.
    apply for_range_res_ok. intros j [[e eo] ei] Hj. cbv zeta. rewrite linked_macro. unfold exp_degrees_body, k.
    assert (Hj' : (j < N)%nat) by lia.
    pose proof (Hsym (g i) (g j) (group_lt N g i Hi) (group_lt N g j Hj')) as Hs.
    destruct (A (g i) (g j)) eqn:E.
    + destruct (Nat.eqb_spec i j) as [<-|nij]; cbn [negb].
      * destruct (cond_term i i Hi E) as (z & Ez & Ec). generalize dependent (cp i i). intros c Ec.
        unfold z_block in Ez. destruct sl; [|reflexivity]. cbn [negb andb] in Ez. inversion Ez; subst z.
        rewrite Ec. reflexivity.
      * destruct (cond_term i j Hi E) as (z & -> & Ec). cbn [bind].
        destruct (cond_term j i Hj' (eq_sym Hs)) as (z' & -> & Ec'). cbn [bind]. rewrite Ec, Ec'. reflexivity.
    + assert (Z1 : cp i j = 0) by (unfold cp; rewrite E; reflexivity).
      assert (Z2 : cp j i = 0) by (unfold cp; rewrite <- Hs; reflexivity).
      destruct (Nat.eqb_spec i j) as [<-|nij]; cbn [negb].
      * destruct sl; [|reflexivity]. rewrite !Z1, !add_at_0. reflexivity.
      * rewrite Z1, Z2. replace (0 + 0 - 0 * 0) with 0 by ring. rewrite !add_at_0. reflexivity.
  - intros v Hv. split; [|split].
    + apply (exp_out_spec unit nat unit k tt (fun i => i) (fun i => i) (fun _ _ => tt) N sl v Hv).
    + apply (exp_in_spec unit nat unit k tt (fun i => i) (fun i => i) (fun _ _ => tt) N sl v Hv).
    + apply (exp_deg_spec unit nat unit k tt (fun i => i) (fun i => i) (fun _ _ => tt) N sl v Hv).
Qed.

End CondM.
