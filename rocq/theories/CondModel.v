(** The conditional samplers, measures and likelihood for a given aggregate graph. *)
From Verif Require Import Base Num Spec Kernels KernelFacts MultiKernels Prob Ensemble EnsembleFacts
  EnsembleProps LayerProps LayerLib Aggregate CondDist Conditional CondFacts.
From Coq Require Import Sorting.Permutation.

Lemma max_group_num : forall N g, max_group N g = num_groups N g.
Proof. reflexivity. Qed.

Lemma group_lt : forall N g i, (i < N)%nat -> (g i < num_groups N g)%nat.
Proof.
  intros N g i Hi. unfold num_groups. apply le_n_S.
  assert (F : Forall (fun k => (k <= list_max (map g (seq 0 N)))%nat) (map g (seq 0 N)))
    by (apply list_max_le; apply Nat.le_refl).
  apply (proj1 (Forall_forall _ _) F). apply in_map. apply in_seq. lia.
Qed.

Lemma linked_macro : forall adj a b, linked adj a b = macro_link adj a b.
Proof.
  intros adj a b. unfold linked, macro_link. induction (adj a) as [|e l IH]; [reflexivity|].
  simpl. rewrite IH, Nat.eqb_sym. reflexivity.
Qed.

Lemma macro_link_in : forall adj a b, macro_link adj a b = true <-> In b (map fst (adj a)).
Proof.
  intros adj a b. unfold macro_link. rewrite existsb_exists. split.
  - intros (e & He & E). apply Nat.eqb_eq in E. subst. apply in_map. exact He.
  - intros H. apply in_map_iff in H as (e & <- & He). exists e. rewrite Nat.eqb_refl. tauto.
Qed.

Lemma inv_prob_pm : forall d x y, nonneg d -> (forall i, 0 <= x i) -> (forall i, 0 <= y i) ->
  forall i j, inv_prob d x y i j = pm d x y (i, j).
Proof.
  intros d x y Hd Hx Hy i j. unfold inv_prob, pm. cbn [fst snd].
  rewrite <- (Rmult_1_r (x i * y j)). rewrite <- inv_survive by (auto; lra).
  rewrite (view_link_prob inv_p_ij poissonian inv_view) by (simpl; auto; lra).
  unfold link_prob. cbn [existsb is_zero is_infinite]. destruct (Reqb_spec 1 0) as [|_]; [lra|].
  cbn [orb toR]. destruct (is_zero d); [reflexivity|]. destruct (Reqb (x i) 0); [reflexivity|].
  destruct (Reqb (y j) 0); [reflexivity|]. cbn [orb]. destruct (is_infinite d); [reflexivity|].
  cbn [orb]. f_equal. simpl. ring.
Qed.

Lemma sublists_app_inv : forall A (l1 l2 S : list A), In S (sublists (l1 ++ l2)) ->
  exists S1 S2, S = S1 ++ S2 /\ In S1 (sublists l1) /\ In S2 (sublists l2).
Proof.
  intros A l1; induction l1 as [|a l1 IH]; intros l2 S H.
  - exists [], S. repeat split; [left; reflexivity | exact H].
  - simpl in H. apply in_app_or in H as [H|H].
    + apply in_map_iff in H as (T & <- & H). apply IH in H as (S1 & S2 & -> & H1 & H2).
      exists (a :: S1), S2. repeat split; [simpl; apply in_or_app; left; apply in_map; exact H1 | exact H2].
    + apply IH in H as (S1 & S2 & -> & H1 & H2). exists S1, S2. repeat split; [simpl; apply in_or_app; right; exact H1 | exact H2].
Qed.

Section Cond.
Variables (d : num) (x y : nat -> R) (N : nat) (g : nat -> nat) (adj : nat -> list (nat * R)) (sl : bool).
Hypothesis (Hd : nonneg d) (Hx : forall i, 0 <= x i) (Hy : forall i, 0 <= y i).
Notation M := (num_groups N g).
Hypothesis Hadj : aggregate_graph M adj.
Notation po := (fun i => Fin (x i)).
Notation pin := (fun i => Fin (y i)).
Notation p := (pm d x y).
Notation Q := (empty_prob N sl p g).
Notation A := (macro_link adj).
Notation bl := (block N sl g).

Definition BB : list (nat * nat * R) := macro_links N g adj.
Definition B1 : list (nat * nat) := map fst BB.
Definition B0 : list (nat * nat) := filter (fun c => negb (A (fst c) (snd c))) (list_prod (seq 0 M) (seq 0 M)).

Lemma in_BB : forall a b w, In (a, b, w) BB <-> (a < M)%nat /\ In (b, w) (adj a).
Proof.
  intros a b w. unfold BB, macro_links. rewrite in_flat_map. rewrite max_group_num. split.
  - intros (a' & Ha & H). apply in_map_iff in H as ([b' w'] & E & H). inversion E; subst. apply in_seq in Ha. cbn [fst snd]. split; [lia | exact H].
  - intros [Ha H]. exists a. split; [apply in_seq; lia|]. apply in_map_iff. exists (b, w). tauto.
Qed.

Lemma in_B1 : forall a b, In (a, b) B1 <-> (a < M)%nat /\ A a b = true.
Proof.
  intros a b. unfold B1. rewrite in_map_iff, macro_link_in. split.
  - intros ([[a' b'] w] & E & H). cbn [fst] in E. inversion E; subst. apply in_BB in H as [H1 H2]. split; [exact H1|].
    change b with (fst (b, w)). apply in_map. exact H2.
  - intros [H1 H2]. apply in_map_iff in H2 as ([b' w] & <- & H2). exists (a, b', w). split; [reflexivity | apply in_BB; tauto].
Qed.

Lemma B1_nodup : NoDup B1.
Proof.
  unfold B1, BB, macro_links. rewrite max_group_num.
  assert (H : forall l, NoDup l -> (forall a, In a l -> (a < M)%nat) ->
    NoDup (map fst (flat_map (fun a => map (fun e => (a, fst e, snd e)) (adj a)) l))).
  { intros l Hl. induction Hl as [|a l Ha Hl IH]; intros HM; [constructor|]. cbn [flat_map]. rewrite map_app.
    apply NoDup_app.
    - rewrite map_map. cbn [fst]. destruct (Hadj a (HM a (or_introl eq_refl))) as [ND _].
      rewrite <- (map_map fst (fun b => (a, b))). apply FinFun.Injective_map_NoDup; [|exact ND].
      intros u v E. inversion E. reflexivity.
    - apply IH. intros; apply HM; right; assumption.
    - intros [u v] H1 H2. rewrite map_map in H1. apply in_map_iff in H1 as (e & E & _). cbn [fst] in E. inversion E; subst.
      apply in_map_iff in H2 as ([[u' v'] w] & E' & H2). cbn [fst] in E'. inversion E'; subst.
      apply in_flat_map in H2 as (a' & Ha' & H2). apply in_map_iff in H2 as (e' & E'' & _). inversion E''; subst. contradiction. }
  apply H; [apply seq_NoDup|]. intros a Ha. apply in_seq in Ha. lia.
Qed.

Lemma blocks_perm : Permutation (list_prod (seq 0 M) (seq 0 M)) (B1 ++ B0).
Proof.
  eapply Permutation_trans; [apply (Permutation_partition _ (fun c => A (fst c) (snd c)))|].
  apply Permutation_app_tail. apply NoDup_Permutation.
  - apply NoDup_filter, NoDup_list_prod; apply seq_NoDup.
  - apply B1_nodup.
  - intros [a b]. rewrite filter_In, in_prod_iff, !in_seq, in_B1. cbn [fst snd]. split.
    + intros [[H1 H2] H3]. split; [lia | exact H3].
    + intros [H1 H3]. repeat split; try lia; [|exact H3]. apply macro_link_in in H3. apply in_map_iff in H3 as (e & <- & He).
      apply (proj2 (Hadj a H1) e He).
Qed.

Lemma B1_linked : forall c, In c B1 -> A (fst c) (snd c) = true.
Proof. intros [a b] H. apply in_B1 in H. apply H. Qed.
Lemma B0_unlinked : forall c, In c B0 -> A (fst c) (snd c) = false.
Proof. intros c H. apply filter_In in H as [_ H]. apply Bool.negb_true_iff in H. exact H. Qed.

Notation pij := (inv_prob d x y).
Hypothesis Hpos : 0 < prob_aggregate N sl pij M g A.

Lemma pij_eq : pij = (fun i j => p (i, j)).
Proof.
  apply FunctionalExtensionality.functional_extensionality; intros i. apply FunctionalExtensionality.functional_extensionality; intros j.
  apply inv_prob_pm; assumption.
Qed.

Lemma B1_pos : forall c, In c B1 -> 1 - Q c <> 0.
Proof.
  apply (aggregate_pos N sl g p M A B1 B0 blocks_perm B1_linked B0_unlinked (group_lt N g)).
  rewrite <- pij_eq. lra.
Qed.

Lemma prod_pos : prodl (fun c => 1 - Q c) B1 <> 0.
Proof.
  pose proof (prob_aggregate_blocks N sl g p M A B1 B0 blocks_perm B1_linked B0_unlinked (group_lt N g)) as E.
  rewrite <- pij_eq in E. intros Z. rewrite E, Z in Hpos. lra.
Qed.

Lemma cmean : forall f, (forall S T, Permutation S T -> f S = f T) ->
  ensemble_mean N sl (cond_weight N sl pij M g A) f * prodl (fun c => 1 - Q c) B1
  = mean_sub p (flat_map bl B1) (fun S => f S * b2r (hits g B1 S)).
Proof.
  intros f Hf. rewrite pij_eq.
  apply (cond_mean N sl g p M A B1 B0 blocks_perm B1_linked B0_unlinked (group_lt N g)); [exact Hf|].
  rewrite <- pij_eq. lra.
Qed.

(** ** Samplers *)

Section Sampler.
Variables (F : Type) (mark : R -> nat * nat -> F) (finish : R -> list F -> res (list F)) (fin : R -> list F -> list F).
Hypothesis Hfin : forall t S, In t BB -> In S (sublists (bl (fst t))) -> S <> [] -> (forall e, In e S -> 0 < p e) ->
  finish (snd t) (map (mark (1 - Q (fst t))) S) = Ok (fin (snd t) (map (mark (1 - Q (fst t))) S)).
Notation sampler := (sample_blocks d po pin N g sl mark finish (macro_links N g adj) []).
Notation rec S := (flat_map (recorded d x y N g sl F mark fin S) BB).

Lemma BB_good : good_blocks d x y N g sl F mark finish fin BB.
Proof. intros t Ht. split; [apply B1_pos; apply in_map; exact Ht|]. intros S HS. apply Hfin; assumption. Qed.

Lemma sampler_mean : forall f (h : list (nat * nat) -> R), (forall S T, Permutation S T -> h S = h T) ->
  (forall S, In S (sublists (flat_map bl B1)) -> (forall e, In e S -> 0 < p e) -> f (Ok (rec S)) = h S) ->
  expect sampler f = ensemble_mean N sl (cond_weight N sl pij M g A) h.
Proof.
  intros f h Hh Hf. apply (Rmult_eq_reg_r (prodl (fun c => 1 - Q c) B1)); [|apply prod_pos].
  rewrite (cmean h Hh).
  pose proof (sbs_expect d x y N g sl Hd Hx Hy F mark finish fin BB [] f B1_nodup BB_good) as E.
  etransitivity; [exact E|]. cbn [app]. apply mean_sub_pos_ext; [apply pm_range; assumption|]. intros S HS HP.
  rewrite Hf by assumption. reflexivity.
Qed.

Lemma sampler_outcome : forall r, outcome sampler r ->
  exists S, In S (sublists (flat_map bl B1)) /\ agrees M g A S = true /\ r = Ok (rec S) /\ (forall e, In e S -> 0 < p e) /\
    NoDup S /\ (forall e, In e S -> In e (pairs N sl)).
Proof.
  intros r O. apply (sbs_out d x y N g sl Hd Hx Hy F mark finish fin BB [] r B1_nodup BB_good) in O as (S & HS & Hh & E & HP).
  fold B1 in HS, Hh. exists S. split; [exact HS|]. split; [|split; [exact E | split; [exact HP|]]].
  - pose proof (agrees_split N sl g M A B1 B0 blocks_perm B1_linked B0_unlinked S [] HS) as G.
    rewrite app_nil_r in G. rewrite G, Hh; [reflexivity|]. destruct (flat_map bl B0) as [|c l]; [left; reflexivity|].
    clear. induction (c :: l) as [|u v IH]; [left; reflexivity|]. simpl. apply in_or_app. right. exact IH.
  - split; [eapply sublists_NoDup; [apply NoDup_flat; apply B1_nodup | exact HS]|].
    intros e He. pose proof (sublists_incl _ _ _ _ HS He) as I. apply in_flat_map in I as (c & _ & I). apply in_block in I. apply I.
Qed.

Lemma sampler_wf : wf_prog sampler.
Proof. apply (sbs_wf d x y N g sl Hd Hx Hy F mark finish fin BB [] B1_nodup BB_good). Qed.
End Sampler.

Lemma rec_map : forall (F : Type) (mark : R -> nat * nat -> F) S,
  In S (sublists (flat_map bl B1)) ->
  flat_map (recorded d x y N g sl F mark (fun _ l => l) S) BB = map (fun e => mark (1 - Q (block_of g e)) e) S.
Proof.
  intros F mark S HS. unfold B1 in HS. pose proof B1_nodup as ND. unfold B1 in ND.
  revert S HS ND. induction BB as [|t l IH]; intros S HS ND.
  - simpl in HS. destruct HS as [<-|[]]. reflexivity.
  - cbn [map] in ND. inversion ND as [|? ? Ht Hl]; subst. cbn [map flat_map] in HS.
    apply sublists_app_inv in HS as (S1 & S2 & -> & H1 & H2).
    rewrite (recorded_split d x y N g sl _ _ _ t l S1 S2 Ht H1 H2). rewrite map_app. f_equal; [|apply IH; assumption].
    apply map_ext_in. intros e He. rewrite (block_sub N sl g _ _ _ H1 He). reflexivity.
Qed.

End Cond.
