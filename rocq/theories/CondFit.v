(** Facts on the objective of the fit of the conditional model: monotone, with known ends. *)
From Verif Require Import Base Num Spec Kernels KernelFacts MultiKernels Prob Ensemble EnsembleFacts
  CondDist Conditional CondFacts CondModel CondMeasures CondKernel Solver Fit.
From Coq Require Import Sorting.Permutation.

Lemma expm_le : forall u v, u <= v -> exp (- v) <= exp (- u).
Proof. intros u v [H | ->]; [left; apply exp_increasing; lra | right; reflexivity]. Qed.

(** b (1 - e^(-ta)) >= a (1 - e^(-tb)) for a <= b. *)
Lemma ratio_cross : forall a b t, 0 <= a <= b -> 0 <= t -> a * (1 - exp (- (t * b))) <= b * (1 - exp (- (t * a))).
Proof.
  intros a b t Ha Ht.
  assert (0 <= b * (1 - exp (- (t * a))) - a * (1 - exp (- (t * b)))); [|lra].
  apply (nonneg_from_deriv (fun t => b * (1 - exp (- (t * a))) - a * (1 - exp (- (t * b))))
           (fun t => b * (a * exp (- (t * a))) - a * (b * exp (- (t * b))))); [| |exact Ht|].
  - intros u. apply derivable_pt_lim_minus.
    + apply (derivable_pt_lim_scal (fun u => 1 - exp (- (u * a)))). apply deriv_one_minus_exp.
    + apply (derivable_pt_lim_scal (fun u => 1 - exp (- (u * b)))). apply deriv_one_minus_exp.
  - rewrite !Rmult_0_l, Ropp_0, exp_0. ring.
  - intros u Hu. assert (E : exp (- (u * b)) <= exp (- (u * a))) by (apply expm_le; apply Rmult_le_compat_l; lra).
    replace (b * (a * exp (- (u * a))) - a * (b * exp (- (u * b)))) with (a * b * (exp (- (u * a)) - exp (- (u * b)))) by ring.
    apply Rmult_le_pos; [apply Rmult_le_pos; lra | lra].
Qed.

(** a e^(-ta) (1 - e^(-tb)) >= b e^(-tb) (1 - e^(-ta)): the numerator of the derivative. *)
Lemma ratio'_cross : forall a b t, 0 <= a <= b -> 0 <= t ->
  b * exp (- (t * b)) * (1 - exp (- (t * a))) <= a * exp (- (t * a)) * (1 - exp (- (t * b))).
Proof.
  intros a b t Ha Ht.
  assert (H : 0 <= a * (exp (t * b) - 1) - b * (exp (t * a) - 1)).
  { assert (DE : forall c u, derivable_pt_lim (fun u => exp (u * c) - 1) u (c * exp (u * c))).
    { intros c u. replace (c * exp (u * c)) with (exp (u * c) * c - 0) by ring.
      apply derivable_pt_lim_minus; [|apply derivable_pt_lim_const].
      apply (derivable_pt_lim_comp (fun u => u * c) exp); [|apply derivable_pt_lim_exp].
      pose proof (derivable_pt_lim_mult id (fun _ => c) u 1 0 (derivable_pt_lim_id u) (derivable_pt_lim_const c u)) as D.
      assert (E : 1 * c + id u * 0 = c) by ring. cbv beta in D. rewrite E in D. exact D. }
    apply (nonneg_from_deriv (fun t => a * (exp (t * b) - 1) - b * (exp (t * a) - 1))
           (fun t => a * (b * exp (t * b)) - b * (a * exp (t * a)))); [| |exact Ht|].
    - intros u. apply derivable_pt_lim_minus.
      + apply (derivable_pt_lim_scal (fun u => exp (u * b) - 1)). apply DE.
      + apply (derivable_pt_lim_scal (fun u => exp (u * a) - 1)). apply DE.
    - rewrite !Rmult_0_l, exp_0. ring.
    - intros u Hu. assert (E : exp (u * a) <= exp (u * b)).
      { destruct (Rmult_le_compat_l u a b ltac:(lra) ltac:(lra)) as [L | ->]; [left; apply exp_increasing; exact L | right; reflexivity]. }
      replace (a * (b * exp (u * b)) - b * (a * exp (u * a))) with (a * b * (exp (u * b) - exp (u * a))) by ring.
      apply Rmult_le_pos; [apply Rmult_le_pos; lra | lra]. }
  assert (EA : exp (- (t * a)) * exp (t * a) = 1) by (rewrite <- exp_plus, Rplus_opp_l, exp_0; reflexivity).
  assert (EB : exp (- (t * b)) * exp (t * b) = 1) by (rewrite <- exp_plus, Rplus_opp_l, exp_0; reflexivity).
  set (ea := exp (- (t * a))) in *. set (eb := exp (- (t * b))) in *.
  assert (P : 0 < ea * eb) by (apply Rmult_lt_0_compat; apply exp_pos).
  pose proof (Rmult_le_pos _ _ (Rlt_le _ _ P) H) as Q.
  replace (ea * eb * (a * (exp (t * b) - 1) - b * (exp (t * a) - 1)))
    with (a * ea * (eb * exp (t * b) - eb) - b * eb * (ea * exp (t * a) - ea)) in Q by ring.
  rewrite EA, EB in Q. lra.
Qed.

Lemma den_pos : forall b t, 0 < b -> 0 < t -> 0 < 1 - exp (- (t * b)).
Proof.
  intros b t Hb Ht. assert (exp (- (t * b)) < exp 0); [|rewrite exp_0 in *; lra]. apply exp_increasing.
  pose proof (Rmult_lt_0_compat t b Ht Hb). lra.
Qed.

Lemma ratio'_nonneg : forall a b t, 0 <= a <= b -> 0 < b -> 0 < t -> 0 <= ratio' a b t.
Proof.
  intros a b t Ha Hb Ht. pose proof (den_pos b t Hb Ht) as D. pose proof (ratio'_cross a b t Ha ltac:(lra)) as C.
  unfold ratio'. set (q := 1 - exp (- (t * b))) in *.
  replace (_ - _) with ((a * exp (- (t * a)) * q - b * exp (- (t * b)) * (1 - exp (- (t * a)))) / (q * q)) by (field; lra).
  apply Rmult_le_pos; [lra|]. left. apply Rinv_0_lt_compat. apply Rmult_lt_0_compat; assumption.
Qed.

Lemma ratio_mono : forall a b t u, 0 <= a <= b -> 0 < b -> 0 < t <= u -> ratio a b t <= ratio a b u.
Proof.
  intros a b t u Ha Hb [Ht [Hu | ->]]; [|right; reflexivity].
  destruct (MVT_cor2 (ratio a b) (ratio' a b) t u Hu) as (c & E & Hc).
  - intros c Hc. apply ratio_deriv. pose proof (den_pos b c Hb ltac:(lra)). lra.
  - assert (0 <= ratio a b u - ratio a b t); [|lra]. rewrite E. apply Rmult_le_pos; [|lra].
    apply ratio'_nonneg; lra.
Qed.

Lemma ratio_low : forall a b t, 0 <= a <= b -> 0 < b -> 0 < t -> a / b <= ratio a b t.
Proof.
  intros a b t Ha Hb Ht. pose proof (den_pos b t Hb Ht) as D. pose proof (ratio_cross a b t Ha ltac:(lra)) as C.
  unfold ratio. set (q := 1 - exp (- (t * b))) in *.
  apply (Rmult_le_reg_r (b * q)); [apply Rmult_lt_0_compat; assumption|].
  replace (a / b * (b * q)) with (a * q) by (field; lra).
  replace ((1 - exp (- (t * a))) / q * (b * q)) with (b * (1 - exp (- (t * a)))) by (field; lra). exact C.
Qed.

Lemma ratio_high : forall a b t, 0 <= a <= b -> 0 < b -> 0 < t -> ratio a b t <= 1.
Proof.
  intros a b t Ha Hb Ht. pose proof (den_pos b t Hb Ht) as D. unfold ratio.
  apply (Rmult_le_reg_r (1 - exp (- (t * b)))); [exact D|]. unfold Rdiv. rewrite Rmult_assoc, Rinv_l by lra.
  pose proof (expm_le (t * a) (t * b) ltac:(apply Rmult_le_compat_l; lra)). lra.
Qed.

(** One term of the objective and of its derivative, for the rates [a] of the pair and [b] of the block. *)
Definition small (b t : R) : bool := Rltb (1 - exp (- (t * b))) (/ 10 ^ 12).
Definition term (a b : R) (d : num) : R :=
  if Reqb a 0 then 0
  else match d with Fin t => if small b t then a / b else ratio a b t | _ => 1 end.
Definition term' (a b : R) (d : num) : R :=
  if Reqb a 0 then 0
  else match d with Fin t => if small b t then (1 / 2 - a / (2 * b)) * a else ratio' a b t | _ => 0 end.

Lemma term_eval : forall d x y X Y Z, nle (Fin 0) d -> 0 <= x -> 0 <= y -> 0 < X -> 0 < Y -> 0 < Z ->
  cond_p_jac d (Fin x) (Fin y) (Fin 1) (Fin X) (Fin Y) (Fin Z)
  = (Fin (term (x * y) (X * Y * Z) d), Fin (term' (x * y) (X * Y * Z) d)).
Proof.
  intros d x y X Y Z Hd Hx Hy HX HY HZ. unfold term, term'.
  destruct (Req_dec x 0) as [->|Hx'].
  { unfold cond_p_jac. rewrite !is0_fin. rewrite (Reqb_true 0 0 eq_refl), Rmult_0_l, (Reqb_true 0 0 eq_refl).
    rewrite !orb_true_r. reflexivity. }
  destruct (Req_dec y 0) as [->|Hy'].
  { unfold cond_p_jac. rewrite !is0_fin. rewrite (Reqb_true 0 0 eq_refl), Rmult_0_r, (Reqb_true 0 0 eq_refl).
    rewrite !orb_true_r. reflexivity. }
  assert (P : 0 < x * y) by (apply Rmult_lt_0_compat; lra).
  destruct (Reqb_spec (x * y) 0) as [|_]; [lra|].
  destruct d as [t| | |]; cbn [nle] in Hd; try contradiction.
  - unfold small. destruct (Rltb_spec (1 - exp (- (t * (X * Y * Z)))) (/ 10 ^ 12)) as [H|H].
    + rewrite cond_p_jac_small by (assumption || lra). rewrite Rmult_1_r. reflexivity.
    + rewrite cond_p_jac_fin by (assumption || lra). rewrite Rmult_1_r. reflexivity.
  - assert (PB : 0 < X * Y * Z) by (repeat apply Rmult_lt_0_compat; assumption).
    unfold cond_p_jac. rewrite !is0_fin.
    destruct (Reqb_spec X 0) as [|_]; [lra|]. destruct (Reqb_spec Y 0) as [|_]; [lra|]. destruct (Reqb_spec Z 0) as [|_]; [lra|].
    destruct (Reqb_spec x 0) as [|_]; [lra|]. destruct (Reqb_spec y 0) as [|_]; [lra|]. destruct (Reqb_spec 1 0) as [|_]; [lra|].
    cbn [orb]. cbn [nmul]. rewrite Rmult_1_r.
    assert (IT : forall c, 0 < c -> inf_times true c = PInf).
    { intros c Hc. unfold inf_times. destruct (Reqb_spec c 0) as [|_]; [lra|]. destruct (Rltb_spec 0 c) as [_|]; [reflexivity | lra]. }
    rewrite !IT by assumption.
    unfold nexpm1. cbn [nopp nexp nsub nadd nltb isinf].
    destruct (Rltb_spec (- (0 + - (1))) (/ 10 ^ 12)) as [H|_]; [|reflexivity].
    exfalso. assert (1 <= 10 ^ 12) by (apply pow_R1_Rle; lra).
    assert (/ 10 ^ 12 <= / 1) by (apply Rinv_le_contravar; lra). rewrite Rinv_1 in *. lra.
Qed.

Lemma small_false : forall b t, small b t = false -> 0 < b -> 0 <= t -> 0 < t.
Proof.
  intros b t H Hb [Ht | <-]; [exact Ht|]. unfold small in H. rewrite Rmult_0_l, Ropp_0, exp_0 in H.
  destruct (Rltb_spec (1 - 1) (/ 10 ^ 12)) as [|n]; [discriminate|]. pose proof tenpow_pos. lra.
Qed.

Lemma small_anti : forall b t u, 0 <= b -> t <= u -> small b u = true -> small b t = true.
Proof.
  intros b t u Hb H. unfold small.
  pose proof (expm_le (t * b) (u * b) ltac:(apply Rmult_le_compat_r; lra)).
  destruct (Rltb_spec (1 - exp (- (u * b))) (/ 10 ^ 12)); [|discriminate].
  destruct (Rltb_spec (1 - exp (- (t * b))) (/ 10 ^ 12)); [reflexivity | lra].
Qed.

Lemma term'_nonneg : forall a b d, 0 <= a <= b -> 0 < b -> nle (Fin 0) d -> 0 <= term' a b d.
Proof.
  intros a b d Ha Hb Hd. unfold term'. destruct (Reqb a 0); [lra|].
  destruct d as [t| | |]; cbn [nle] in Hd; try contradiction; [|lra].
  destruct (small b t) eqn:S.
  - apply Rmult_le_pos; [|lra]. assert (a / (2 * b) <= 1 / 2); [|lra].
    apply (Rmult_le_reg_r (2 * b)); [lra|]. replace (a / (2 * b) * (2 * b)) with a by (field; lra). lra.
  - apply ratio'_nonneg; try assumption. eapply small_false; eassumption.
Qed.

Lemma div_le1 : forall a b, 0 <= a <= b -> 0 < b -> a / b <= 1.
Proof.
  intros a b Ha Hb. apply (Rmult_le_reg_r b); [exact Hb|]. replace (a / b * b) with a by (field; lra). lra.
Qed.

Lemma term_mono : forall a b d e, 0 <= a <= b -> 0 < b -> nle (Fin 0) d -> nle d e -> term a b d <= term a b e.
Proof.
  intros a b d e Ha Hb Hd He. unfold term. destruct (Reqb a 0); [lra|].
  destruct d as [t| | |]; cbn [nle] in Hd; try contradiction;
    destruct e as [u| | |]; cbn [nle] in He; try contradiction; [| |lra].
  - destruct (small b u) eqn:U.
    + rewrite (small_anti b t u) by (assumption || lra). lra.
    + pose proof (small_false b u U Hb ltac:(lra)). destruct (small b t) eqn:S.
      * apply ratio_low; assumption.
      * pose proof (small_false b t S Hb Hd). apply ratio_mono; try assumption. lra.
  - destruct (small b t) eqn:S; [apply div_le1; assumption|].
    pose proof (small_false b t S Hb Hd). apply ratio_high; assumption.
Qed.

Lemma term_zero : forall a b, 0 < b -> term a b (Fin 0) = a / b.
Proof.
  intros a b Hb. unfold term. destruct (Reqb_spec a 0) as [->|_]; [unfold Rdiv; ring|].
  destruct (small b 0) eqn:S; [reflexivity|]. pose proof (small_false b 0 S Hb ltac:(lra)). lra.
Qed.

Lemma for_range_res_acc : forall n (body : nat -> num * num -> res (num * num)) (P J : nat -> R) u v,
  (forall i u v, (i < n)%nat -> body i (Fin u, Fin v) = Ok (Fin (u + P i), Fin (v + J i))) ->
  for_range_res n body (Fin u, Fin v) = Ok (Fin (u + sumn n P), Fin (v + sumn n J)).
Proof.
  intros n body P J u v; induction n as [|n IH]; intros H; cbn [for_range_res sumn].
  - rewrite !Rplus_0_r. reflexivity.
  - rewrite IH by (intros; apply H; lia). cbn [bind]. rewrite H by lia. rewrite !Rplus_assoc. reflexivity.
Qed.

(** The objective under the hypotheses of the theorems; positivity is asked for the parameter 1. *)
Section Objective.
Variables (x y : nat -> R) (N : nat) (g : nat -> nat) (adj : nat -> list (nat * R)) (sl : bool).
Hypothesis (Hx : forall i, 0 <= x i) (Hy : forall i, 0 <= y i).
Notation M := (num_groups N g).
Hypothesis Hadj : aggregate_graph M adj.
Notation A := (macro_link adj).
Hypothesis Hpos : 0 < prob_aggregate N sl (inv_prob (Fin 1) x y) M g A.
Notation po := (fun i => Fin (x i)).
Notation pin := (fun i => Fin (y i)).
Notation r := (rate N sl g x y).
Notation bl := (block N sl g).

Lemma one_nonneg : nonneg (Fin 1).
Proof. simpl. lra. Qed.

Lemma rate_linked : forall c, In c (B1 N g adj) -> 0 < r c.
Proof.
  intros c Hc. pose proof (B1_pos (Fin 1) x y N g adj sl one_nonneg Hx Hy Hadj Hpos c Hc) as HQ.
  rewrite Q_survive in HQ by (assumption || apply one_nonneg).
  apply (survive_lt1 (Fin 1)); [apply one_nonneg | apply rate_nonneg; assumption | lra].
Qed.

Lemma rate_pair : forall i j, (i < N)%nat -> (j < N)%nat -> allowed sl i j = true -> 0 <= x i * y j <= r (g i, g j).
Proof.
  intros i j Hi Hj Hal. split; [apply Rmult_le_pos; auto|]. unfold rate.
  assert (I : In (i, j) (bl (g i, g j))) by (apply in_block; split; [apply in_pairs; auto | reflexivity]).
  apply (suml_in_le _ (fun e => x (fst e) * y (snd e)) _ (i, j)); [|exact I]. intros e _. apply Rmult_le_pos; auto.
Qed.

Definition obj (f : R -> R -> num -> R) (d : num) : R :=
  pair_sum N sl (fun i j => if A (g i) (g j) then f (x i * y j) (r (g i, g j)) d else 0).

Lemma objective_value : forall d, nle (Fin 0) d -> cond_f_jac d po pin N g adj sl = Ok (Fin (obj term d), Fin (obj term' d)).
Proof.
  intros d Hd. unfold cond_f_jac, obj, pair_sum.
  rewrite <- (Rplus_0_l (sumn N (fun i => sumn N (fun j => if allowed sl i j then if A (g i) (g j) then term _ _ d else 0 else 0)))).
  rewrite <- (Rplus_0_l (sumn N (fun i => sumn N (fun j => if allowed sl i j then if A (g i) (g j) then term' _ _ d else 0 else 0)))).
  apply for_range_res_acc. intros i u v Hi. apply for_range_res_acc. intros j u' v' Hj. cbv zeta.
  rewrite linked_macro. change (adm sl i j) with (allowed sl i j).
  destruct (A (g i) (g j)) eqn:EA; destruct (allowed sl i j) eqn:Hal; cbn [andb]; try (rewrite !Rplus_0_r; reflexivity).
  assert (Hc : In (g i, g j) (B1 N g adj)) by (apply in_B1; split; [apply group_lt; exact Hi | exact EA]).
  pose proof (rate_linked _ Hc) as Hr.
  destruct (z_block_spec x y N g sl Hx Hy (g i) (g j)) as (z & Ez & Hz & Er).
  { apply rate_defined; try assumption. lra. }
  rewrite Ez. cbn [bind].
  destruct (aggregates_spec N g x y (g i)) as (E1 & _ & _). destruct (aggregates_spec N g x y (g j)) as (_ & E2 & _).
  cbv zeta in E1, E2. rewrite E1, E2.
  assert (H3 : 0 < group_sum N g x (g i) /\ 0 < group_sum N g y (g j) /\ 0 < z).
  { apply mult3_pos; try apply group_sum_nonneg; try assumption. lra. }
  rewrite term_eval by (auto; tauto). rewrite Er. reflexivity.
Qed.

Lemma objective_deriv : forall d, nle (Fin 0) d -> 0 <= obj term' d.
Proof.
  intros d Hd. unfold obj, pair_sum. apply sumn_nonneg. intros i Hi. apply sumn_nonneg. intros j Hj.
  destruct (allowed sl i j) eqn:Hal; [|lra]. destruct (A (g i) (g j)) eqn:EA; [|lra].
  apply term'_nonneg; [apply rate_pair; assumption | apply rate_linked | exact Hd].
  apply in_B1; split; [apply group_lt; exact Hi | exact EA].
Qed.

Lemma objective_mono : forall d e, nle (Fin 0) d -> nle d e -> obj term d <= obj term e.
Proof.
  intros d e Hd He. unfold obj, pair_sum. apply sumn_le. intros i Hi. apply sumn_le. intros j Hj.
  destruct (allowed sl i j) eqn:Hal; [|lra]. destruct (A (g i) (g j)) eqn:EA; [|lra].
  apply term_mono; [apply rate_pair; assumption | apply rate_linked | exact Hd | exact He].
  apply in_B1; split; [apply group_lt; exact Hi | exact EA].
Qed.

(** At zero the objective is the number of links of the aggregate graph. *)
Lemma objective_zero : obj term (Fin 0) = sumn M (fun a => INR (length (adj a))).
Proof.
  unfold obj. rewrite pair_sum_list.
  pose proof (blocks_perm N g adj Hadj) as BP.
  assert (ND : NoDup (B1 N g adj ++ B0 N g adj)).
  { apply (Permutation_NoDup BP). apply NoDup_list_prod; apply seq_NoDup. }
  rewrite (suml_perm _ _ _ _ (pairs_blocks N sl g (B1 N g adj ++ B0 N g adj) ND
    ltac:(intros e He; apply (Permutation_in _ BP); destruct e as [i j]; apply in_pairs in He as (H1 & H2 & _);
          apply in_prod_iff; rewrite !in_seq; unfold block_of; cbn [fst snd];
          pose proof (group_lt N g i H1); pose proof (group_lt N g j H2); lia))).
  rewrite suml_flat_map, suml_app.
  rewrite (suml_zero _ _ (B0 N g adj)), Rplus_0_r.
  - transitivity (suml (fun _ : nat * nat => 1) (B1 N g adj)).
    + apply suml_ext. intros c Hc. pose proof (rate_linked c Hc) as Hr.
      transitivity (suml (fun e => x (fst e) * y (snd e) * / r c) (bl c)).
      * apply suml_ext. intros [i j] He. apply in_block in He as [_ E]. unfold block_of in E. cbn [fst snd] in *. subst c.
        pose proof (B1_linked N g adj _ Hc) as HA. cbn [fst snd] in HA. rewrite HA. rewrite term_zero by exact Hr. reflexivity.
      * rewrite suml_scal_r. fold (r c). field. lra.
    + rewrite suml_const, Rmult_1_r. unfold B1, BB, macro_links. rewrite max_group_num, map_length.
      generalize M. intros n. induction n as [|n IH]; [reflexivity|].
      rewrite seq_S, flat_map_app, app_length, plus_INR, IH. cbn [sumn flat_map Nat.add].
      rewrite app_nil_r, map_length. reflexivity.
  - intros c Hc. apply suml_zero. intros [i j] He. apply in_block in He as [_ E]. unfold block_of in E. cbn [fst snd] in *. subst c.
    pose proof (B0_unlinked N g adj _ Hc) as HA. cbn [fst snd] in HA. rewrite HA. reflexivity.
Qed.

(** At infinity it is the number of pairs of positive fitness between linked groups. *)
Lemma objective_inf : obj term PInf = pair_sum N sl (fun i j => if A (g i) (g j) && Rltb 0 (x i * y j) then 1 else 0).
Proof.
  unfold obj, pair_sum. apply sumn_ext. intros i _. apply sumn_ext. intros j _.
  destruct (allowed sl i j); [|reflexivity]. destruct (A (g i) (g j)); [|reflexivity]. cbn [andb]. unfold term.
  pose proof (Rmult_le_pos _ _ (Hx i) (Hy j)).
  destruct (Reqb_spec (x i * y j) 0), (Rltb_spec 0 (x i * y j)); try reflexivity; lra.
Qed.
End Objective.
