(** Two links under the conditional distribution, and the undirected degree. *)
From Verif Require Import Base Num Spec Kernels KernelFacts MultiKernels Prob Ensemble EnsembleFacts
  EnsembleProps LayerProps LayerLib Aggregate CondDist Conditional CondFacts CondModel CondMeasures.
From Coq Require Import Sorting.Permutation FunctionalExtensionality.

Lemma mem_app : forall e (S T : list link), mem e (S ++ T) = mem e S || mem e T.
Proof. intros. unfold mem. apply existsb_app. Qed.

Lemma mem_perm : forall e (S T : list link), Permutation S T -> mem e S = mem e T.
Proof.
  intros e S T H. apply Bool.eq_iff_eq_true. rewrite !mem_spec.
  split; intros I; [apply (Permutation_in _ H I) | apply (Permutation_in _ (Permutation_sym H) I)].
Qed.

Lemma mean_sub_mem2 : forall (p : link -> R) l e1 e2, NoDup l -> e1 <> e2 -> In e1 l -> In e2 l ->
  mean_sub p l (fun S => b2r (mem e1 S) * b2r (mem e2 S)) = p e1 * p e2.
Proof.
  intros p l e1 e2; induction l as [|e t IH]; intros H Hn H1 H2; [destruct H1|]. inversion H as [|? ? He Ht]; subst.
  cbn [mean_sub].
  assert (K : forall a, In a t -> mean_sub p t (fun G => b2r (mem a G)) = p a) by (intros; apply mean_sub_mem; assumption).
  assert (Z : forall a f, ~ In a t -> mean_sub p t (fun G => b2r (mem a G) * f G) = 0).
  { intros a f Ha. rewrite (mean_sub_ext _ p t _ (fun _ => 0)); [apply mean_sub_const|].
    intros S HS. replace (mem a S) with false; [simpl; ring|]. symmetry. apply mem_false. intros I. apply Ha.
    apply (sublists_incl _ _ _ _ HS I). }
  assert (C : forall a b G, mem a (b :: G) = pair_eqb a b || mem a G) by reflexivity.
  assert (R1 : forall a, pair_eqb a a = true) by (intros a; destruct (pair_eqb_spec a a); congruence).
  assert (R2 : forall a b, a <> b -> pair_eqb a b = false).
  { intros a b Hab. destruct (pair_eqb_spec a b); congruence. }
  destruct H1 as [->|H1].
  - destruct H2 as [->|H2]; [contradiction|].
    rewrite (mean_sub_ext _ p t (fun G => b2r (mem e1 (e1 :: G)) * b2r (mem e2 (e1 :: G))) (fun G => b2r (mem e2 G))).
    + rewrite K by exact H2. rewrite Z by exact He. ring.
    + intros S _. rewrite !C, R1, (R2 e2 e1) by congruence. simpl. ring.
  - destruct H2 as [->|H2].
    + rewrite (mean_sub_ext _ p t (fun G => b2r (mem e1 (e2 :: G)) * b2r (mem e2 (e2 :: G))) (fun G => b2r (mem e1 G))).
      * rewrite K by exact H1. rewrite (mean_sub_ext _ p t _ (fun G => b2r (mem e2 G) * b2r (mem e1 G))) by (intros; ring).
        rewrite Z by exact He. ring.
      * intros S _. rewrite !C, R1, (R2 e1 e2) by congruence. simpl. ring.
    + rewrite (mean_sub_ext _ p t (fun G => b2r (mem e1 (e :: G)) * b2r (mem e2 (e :: G))) (fun G => b2r (mem e1 G) * b2r (mem e2 G))).
      * rewrite IH by assumption. ring.
      * intros S _. rewrite !C, (R2 e1 e), (R2 e2 e) by (intros ->; contradiction). reflexivity.
Qed.

Section Local.
Variables (N : nat) (sl : bool) (g : nat -> nat) (p : link -> R).
Notation bl := (block N sl g).
Notation E := (mean_sub p).
Notation Q := (empty_prob N sl p g).

(** [f] only looks at the links of block [c], and is zero without them. *)
Definition local (c : link) (f : list link -> R) : Prop :=
  f [] = 0 /\ forall S T, (forall e, In e T -> block_of g e <> c) -> f (S ++ T) = f S /\ f (T ++ S) = f S.

Lemma mem_local : forall e, local (block_of g e) (fun S => b2r (mem e S)).
Proof.
  intros e. split; [reflexivity|]. intros S T H. rewrite !mem_app.
  assert (E0 : mem e T = false) by (apply mem_false; intros I; exact (H e I eq_refl)). rewrite E0, Bool.orb_false_r. split; reflexivity.
Qed.

Lemma mem2_local : forall e1 e2, block_of g e1 = block_of g e2 -> local (block_of g e1) (fun S => b2r (mem e1 S) * b2r (mem e2 S)).
Proof.
  intros e1 e2 H. destruct (mem_local e1) as [_ L1]. pose proof (mem_local e2) as [_ L2]. rewrite <- H in L2.
  split; [cbn; ring|]. intros S T HT. destruct (L1 S T HT) as [-> ->]. destruct (L2 S T HT) as [-> ->]. split; reflexivity.
Qed.

Lemma flat_not : forall c B S, ~ In c B -> In S (sublists (flat_map bl B)) -> forall e, In e S -> block_of g e <> c.
Proof. intros c B S Hc HS e He E0. apply Hc. rewrite <- E0. eapply flat_sub; eassumption. Qed.

Lemma block_not : forall c c' S, c <> c' -> In S (sublists (bl c')) -> forall e, In e S -> block_of g e <> c.
Proof. intros c c' S Hc HS e He E0. apply Hc. rewrite <- E0. eapply block_sub; eassumption. Qed.

Lemma local_block : forall c f, local c f -> E (bl c) (fun S => f S * b2r (hit g c S)) = E (bl c) f.
Proof. intros c f [H _]. rewrite mean_block_hit, H. ring. Qed.

Lemma mean_hits_local : forall c f B, local c f -> NoDup B -> In c B ->
  E (flat_map bl B) (fun S => f S * b2r (hits g B S)) * (1 - Q c) = E (bl c) f * prodl (fun c => 1 - Q c) B.
Proof.
  intros c f B L; induction B as [|c' B IH]; intros H Hc; [destruct Hc|]. inversion H as [|? ? Hc' HB]; subst.
  pose proof L as [_ LL]. rewrite mean_hits_cons by exact Hc'. destruct Hc as [->|Hc].
  - rewrite (mean_sub_ext _ p (bl c) _ (fun S1 => prodl (fun c => 1 - Q c) B * (f S1 * b2r (hit g c S1)))).
    + rewrite mean_sub_scal, local_block by exact L. simpl. ring.
    + intros S1 H1. rewrite (mean_sub_ext _ p _ _ (fun S2 => f S1 * b2r (hits g B S2))).
      * rewrite mean_sub_scal, mean_hits by exact HB. ring.
      * intros S2 H2. destruct (LL S1 S2 (flat_not c B S2 Hc' H2)) as [-> _]. reflexivity.
  - assert (Hn : c <> c') by (intros ->; contradiction).
    rewrite (mean_sub_ext _ p (bl c') _ (fun S1 => E (flat_map bl B) (fun S2 => f S2 * b2r (hits g B S2)) * b2r (hit g c' S1))).
    + rewrite mean_block_hit, mean_sub_const. specialize (IH HB Hc). simpl.
      transitivity ((1 - Q c') * (E (flat_map bl B) (fun S => f S * b2r (hits g B S)) * (1 - Q c))); [ring|]. rewrite IH. ring.
    + intros S1 H1. f_equal. apply mean_sub_ext. intros S2 H2. destruct (LL S2 S1 (block_not c c' S1 Hn H1)) as [_ ->]. reflexivity.
Qed.

Lemma mean_hits_local2 : forall c1 c2 f1 f2 B, c1 <> c2 -> local c1 f1 -> local c2 f2 -> NoDup B -> In c1 B -> In c2 B ->
  E (flat_map bl B) (fun S => f1 S * f2 S * b2r (hits g B S)) * (1 - Q c1) * (1 - Q c2)
  = E (bl c1) f1 * E (bl c2) f2 * prodl (fun c => 1 - Q c) B.
Proof.
  intros c1 c2 f1 f2 B; revert c1 c2 f1 f2; induction B as [|c' B IH]; intros c1 c2 f1 f2 Hn L1 L2 H Hc1 Hc2; [destruct Hc1|].
  inversion H as [|? ? Hc' HB]; subst.
  assert (K : forall c1 c2 f1 f2, c1 <> c2 -> local c1 f1 -> local c2 f2 -> c1 = c' -> In c2 B ->
    E (flat_map bl (c' :: B)) (fun S => f1 S * f2 S * b2r (hits g (c' :: B) S)) * (1 - Q c1) * (1 - Q c2)
    = E (bl c1) f1 * E (bl c2) f2 * prodl (fun c => 1 - Q c) (c' :: B)).
  { clear c1 c2 f1 f2 Hn L1 L2 Hc1 Hc2 IH. intros c1 c2 f1 f2 Hn L1 L2 -> Hc2. pose proof L1 as [_ LL1]. pose proof L2 as [_ LL2].
    rewrite mean_hits_cons by exact Hc'.
    rewrite (mean_sub_ext _ p (bl c') _ (fun S1 => E (flat_map bl B) (fun S2 => f2 S2 * b2r (hits g B S2)) * (f1 S1 * b2r (hit g c' S1)))).
    - rewrite mean_sub_scal, local_block by exact L1. pose proof (mean_hits_local c2 f2 B L2 HB Hc2) as M. simpl.
      transitivity ((E (flat_map bl B) (fun S => f2 S * b2r (hits g B S)) * (1 - Q c2)) * E (bl c') f1 * (1 - Q c')); [ring|].
      rewrite M. ring.
    - intros S1 H1. rewrite (mean_sub_ext _ p _ _ (fun S2 => f1 S1 * (f2 S2 * b2r (hits g B S2)))).
      + rewrite mean_sub_scal. ring.
      + intros S2 H2. destruct (LL1 S1 S2 (flat_not c' B S2 Hc' H2)) as [-> _].
        destruct (LL2 S2 S1 (block_not c2 c' S1 (not_eq_sym Hn) H1)) as [_ ->]. ring. }
  destruct Hc1 as [->|Hc1].
  - destruct Hc2 as [->|Hc2]; [contradiction|]. apply K; try assumption. reflexivity.
  - destruct Hc2 as [->|Hc2].
    + rewrite (mean_sub_ext _ p _ _ (fun S => f2 S * f1 S * b2r (hits g (c2 :: B) S))) by (intros; ring).
      rewrite Rmult_assoc, (Rmult_comm (1 - Q c1)), <- Rmult_assoc.
      rewrite (K c2 c1 f2 f1 (not_eq_sym Hn) L2 L1 eq_refl Hc1). ring.
    + pose proof L1 as [_ LL1]. pose proof L2 as [_ LL2]. rewrite mean_hits_cons by exact Hc'.
      assert (Hn1 : c1 <> c') by (intros ->; contradiction). assert (Hn2 : c2 <> c') by (intros ->; contradiction).
      rewrite (mean_sub_ext _ p (bl c') _ (fun S1 => E (flat_map bl B) (fun S2 => f1 S2 * f2 S2 * b2r (hits g B S2)) * b2r (hit g c' S1))).
      * rewrite mean_block_hit, mean_sub_const. specialize (IH c1 c2 f1 f2 Hn L1 L2 HB Hc1 Hc2). simpl.
        transitivity ((1 - Q c') * (E (flat_map bl B) (fun S => f1 S * f2 S * b2r (hits g B S)) * (1 - Q c1) * (1 - Q c2))); [ring|].
        rewrite IH. ring.
      * intros S1 H1. f_equal. apply mean_sub_ext. intros S2 H2.
        destruct (LL1 S2 S1 (block_not c1 c' S1 Hn1 H1)) as [_ ->]. destruct (LL2 S2 S1 (block_not c2 c' S1 Hn2 H1)) as [_ ->]. reflexivity.
Qed.
End Local.

Section CondP.
Variables (d : num) (x y : nat -> R) (N : nat) (g : nat -> nat) (adj : nat -> list (nat * R)) (sl : bool).
Hypothesis (Hd : nonneg d) (Hx : forall i, 0 <= x i) (Hy : forall i, 0 <= y i).
Notation M := (num_groups N g).
Hypothesis Hadj : aggregate_graph M adj.
Notation p := (pm d x y).
Notation Q := (empty_prob N sl p g).
Notation A := (macro_link adj).
Notation pij := (inv_prob d x y).
Hypothesis Hpos : 0 < prob_aggregate N sl pij M g A.
Notation cp := (cp d x y N g adj sl).
Notation mean := (ensemble_mean N sl (cond_weight N sl pij M g A)).

(** Both links of a pair of vertices in different groups are independent. *)
Lemma cond_both : forall i j, (i < N)%nat -> (j < N)%nat -> g i <> g j ->
  mean (fun G => b2r (mem (i, j) G) * b2r (mem (j, i) G)) = cp i j * cp j i.
Proof.
  intros i j Hi Hj Hg. apply (Rmult_eq_reg_r (prodl (fun c => 1 - Q c) (B1 N g adj))); [|apply prod_pos; assumption].
  assert (Hij : i <> j) by (intros ->; contradiction).
  assert (Al : forall a b, a <> b -> allowed sl a b = true).
  { intros a b Hab. unfold allowed. apply Nat.eqb_neq in Hab. rewrite Hab. reflexivity. }
  rewrite (cmean d x y N g adj sl Hd Hx Hy Hadj Hpos).
  - unfold CondMeasures.cp. destruct (A (g i) (g j)) eqn:E1; [|rewrite (mean_sub_ext _ p _ _ (fun S => b2r (mem (i, j) S) * (b2r (mem (j, i) S) * b2r (hits g (B1 N g adj) S)))) by (intros; ring); rewrite mean_mem_other; [ring|]; unfold block_of; cbn [fst snd]; intros H; apply in_B1 in H as [_ H]; congruence].
    destruct (A (g j) (g i)) eqn:E2; [|rewrite (mean_sub_ext _ p _ _ (fun S => b2r (mem (j, i) S) * (b2r (mem (i, j) S) * b2r (hits g (B1 N g adj) S)))) by (intros; ring); rewrite mean_mem_other; [ring|]; unfold block_of; cbn [fst snd]; intros H; apply in_B1 in H as [_ H]; congruence].
    pose proof (linked_pos d x y N g adj sl Hd Hx Hy Hadj Hpos i j Hi E1) as Q1.
    pose proof (linked_pos d x y N g adj sl Hd Hx Hy Hadj Hpos j i Hj E2) as Q2.
    apply (Rmult_eq_reg_r (1 - Q (g i, g j))); [|exact Q1]. apply (Rmult_eq_reg_r (1 - Q (g j, g i))); [|exact Q2].
    rewrite (mean_hits_local2 N sl g p (g i, g j) (g j, g i) (fun S => b2r (mem (i, j) S)) (fun S => b2r (mem (j, i) S))).
    + rewrite !mean_sub_mem; try apply NoDup_block; try (apply in_block; split; [apply in_pairs; repeat split; try assumption; apply Al; congruence | reflexivity]).
      field. split; assumption.
    + congruence.
    + exact (mem_local g (i, j)).
    + exact (mem_local g (j, i)).
    + apply B1_nodup. exact Hadj.
    + apply in_B1. split; [apply group_lt; exact Hi | exact E1].
    + apply in_B1. split; [apply group_lt; exact Hj | exact E2].
  - intros S T H. rewrite !(mem_perm _ S T H). reflexivity.
Qed.

(** In one block they are not independent. *)
Lemma cond_both_same : forall i j, (i < N)%nat -> (j < N)%nat -> i <> j -> g i = g j ->
  mean (fun G => b2r (mem (i, j) G) * b2r (mem (j, i) G))
  = if A (g i) (g j) then p (i, j) * p (j, i) / (1 - Q (g i, g j)) else 0.
Proof.
  intros i j Hi Hj Hij Hg. apply (Rmult_eq_reg_r (prodl (fun c => 1 - Q c) (B1 N g adj))); [|apply prod_pos; assumption].
  assert (Al : forall a b, a <> b -> allowed sl a b = true).
  { intros a b Hab. unfold allowed. apply Nat.eqb_neq in Hab. rewrite Hab. reflexivity. }
  rewrite (cmean d x y N g adj sl Hd Hx Hy Hadj Hpos).
  - destruct (A (g i) (g j)) eqn:E1; [|rewrite (mean_sub_ext _ p _ _ (fun S => b2r (mem (i, j) S) * (b2r (mem (j, i) S) * b2r (hits g (B1 N g adj) S)))) by (intros; ring); rewrite mean_mem_other; [ring|]; unfold block_of; cbn [fst snd]; intros H; apply in_B1 in H as [_ H]; congruence].
    pose proof (linked_pos d x y N g adj sl Hd Hx Hy Hadj Hpos i j Hi E1) as Q1.
    apply (Rmult_eq_reg_r (1 - Q (g i, g j))); [|exact Q1].
    rewrite (mean_hits_local N sl g p (g i, g j) (fun S => b2r (mem (i, j) S) * b2r (mem (j, i) S))).
    + rewrite mean_sub_mem2.
      * field. assumption.
      * apply NoDup_block.
      * congruence.
      * apply in_block; split; [apply in_pairs; repeat split; try assumption; apply Al; congruence | reflexivity].
      * apply in_block; split; [apply in_pairs; repeat split; try assumption; apply Al; congruence | unfold block_of; cbn [fst snd]; congruence].
    + apply (mem2_local g (i, j) (j, i)). unfold block_of. cbn [fst snd]. congruence.
    + apply B1_nodup. exact Hadj.
    + apply in_B1. split; [apply group_lt; exact Hi | exact E1].
  - intros S T H. rewrite !(mem_perm _ S T H). reflexivity.
Qed.

Lemma mean_lin3 : forall f1 f2 f3,
  mean (fun G => f1 G + f2 G - f3 G) = mean f1 + mean f2 - mean f3.
Proof.
  intros f1 f2 f3. unfold ensemble_mean. generalize (all_graphs N sl). intros l.
  set (w := cond_weight _ _ _ _ _ _). induction l as [|G t IH]; cbn [suml]; [ring|]. rewrite IH. ring.
Qed.

Lemma cond_mean_deg_pair : forall v j, (v < N)%nat -> (j < N)%nat -> v <> j ->
  mean (fun G => b2r (mem (v, j) G || mem (j, v) G))
  = cp v j + cp j v - (if Nat.eqb (g v) (g j) then (if A (g v) (g j) then p (v, j) * p (j, v) / (1 - Q (g v, g j)) else 0)
                       else cp v j * cp j v).
Proof.
  intros v j Hv Hj Hn.
  transitivity (mean (fun G => b2r (mem (v, j) G) + b2r (mem (j, v) G) - b2r (mem (v, j) G) * b2r (mem (j, v) G))).
  - unfold ensemble_mean. apply suml_ext. intros G _. destruct (mem (v, j) G), (mem (j, v) G); simpl; ring.
  - assert (Al : forall a b, a <> b -> allowed sl a b = true).
    { intros a b Hab. unfold allowed. apply Nat.eqb_neq in Hab. rewrite Hab. reflexivity. }
    rewrite mean_lin3, !(cond_marginal d x y N g adj sl Hd Hx Hy Hadj Hpos) by (try assumption; apply Al; congruence).
    f_equal. f_equal. destruct (Nat.eqb_spec (g v) (g j)) as [E|E]; [apply cond_both_same; assumption | apply cond_both; assumption].
Qed.

Lemma Q_nonneg : forall c, 0 <= Q c.
Proof.
  intros c. unfold empty_prob. apply prodl_nonneg. intros e _. pose proof (pm_range d x y Hd Hx Hy e). lra.
Qed.

Lemma Q_le1 : forall c, Q c <= 1.
Proof.
  intros c. unfold empty_prob. apply prodl_le_1. intros e _. pose proof (pm_range d x y Hd Hx Hy e). lra.
Qed.

(** The undirected degree of the code never exceeds the conditional mean, and equals it for the vertices of a group
    without link to itself. *)
Lemma cond_undirected : forall v, (v < N)%nat ->
  let code := sumn N (fun j => if Nat.eqb v j then (if sl then cp v v else 0) else cp v j + cp j v - cp v j * cp j v) in
  code <= mean (fun G => g_deg N G v) /\ (A (g v) (g v) = false -> code = mean (fun G => g_deg N G v)).
Proof.
  intros v Hv code.
  assert (EM : mean (fun G => g_deg N G v) = sumn N (fun j => mean (fun G => b2r (mem (v, j) G || mem (j, v) G)))).
  { unfold g_deg. apply (cond_mean_sumn N sl _ N (fun j G => b2r (mem (v, j) G || mem (j, v) G))). }
  assert (T : forall j, (j < N)%nat ->
    let c := if Nat.eqb v j then (if sl then cp v v else 0) else cp v j + cp j v - cp v j * cp j v in
    c <= mean (fun G => b2r (mem (v, j) G || mem (j, v) G)) /\
    (A (g v) (g v) = false -> c = mean (fun G => b2r (mem (v, j) G || mem (j, v) G)))).
  { intros j Hj. destruct (Nat.eqb_spec v j) as [<-|Hn].
    - assert (E0 : mean (fun G => b2r (mem (v, v) G || mem (v, v) G)) = if sl then cp v v else 0).
      { transitivity (mean (fun G => b2r (mem (v, v) G))).
        - unfold ensemble_mean. apply suml_ext. intros G _. rewrite Bool.orb_diag. reflexivity.
        - destruct sl.
          + apply cond_marginal; try assumption. apply Bool.orb_true_r.
          + apply cond_marginal_not. unfold allowed. rewrite Nat.eqb_refl. reflexivity. }
      rewrite E0. cbv zeta. split; [lra | reflexivity].
    - rewrite cond_mean_deg_pair by assumption. cbv zeta.
      destruct (Nat.eqb_spec (g v) (g j)) as [E|E]; [|split; [lra | reflexivity]].
      unfold CondMeasures.cp. rewrite <- E. destruct (A (g v) (g v)) eqn:EA; [|split; [lra | intros; ring]].
      split; [|discriminate].
      pose proof (linked_pos d x y N g adj sl Hd Hx Hy Hadj Hpos v v Hv EA) as Q1.
      pose proof (Q_nonneg (g v, g v)) as Q2. pose proof (Q_le1 (g v, g v)) as Q3. set (q := Q (g v, g v)) in *.
      pose proof (pm_range d x y Hd Hx Hy (v, j)) as P1. pose proof (pm_range d x y Hd Hx Hy (j, v)) as P2.
      set (p1 := p (v, j)) in *. set (p2 := p (j, v)) in *.
      assert (p1 * p2 / (1 - q) <= p1 / (1 - q) * (p2 / (1 - q))); [|lra].
      replace (p1 / (1 - q) * (p2 / (1 - q))) with (p1 * p2 / (1 - q) * / (1 - q)) by (field; exact Q1).
      rewrite <- (Rmult_1_r (p1 * p2 / (1 - q))) at 1. apply Rmult_le_compat_l.
      + apply Rmult_le_pos; [apply Rmult_le_pos; lra | left; apply Rinv_0_lt_compat; lra].
      + rewrite <- Rinv_1. apply Rinv_le_contravar; lra. }
  rewrite EM. split.
  - apply sumn_le. intros j Hj. apply T. exact Hj.
  - intros EA. apply sumn_ext. intros j Hj. apply T; assumption.
Qed.
End CondP.
