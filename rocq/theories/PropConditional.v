(** Properties C56 to C61 and C68: the conditional model. *)
From Verif Require Import Base Num Spec Kernels KernelFacts MultiKernels Prob Ensemble EnsembleFacts
  EnsembleProps LayerProps LayerLib Aggregate CondDist Conditional CondFacts CondModel CondMeasures CondPairs CondKernel CondLik CondProps Solver Fit PropSolver.
From Coq Require Import Sorting.Permutation FunctionalExtensionality.

Notation F x := (fun i : nat => Fin (x i)).

(** The setting of the theorems: non-negative parameter (possibly infinite) and fitnesses, an aggregate graph
    on the groups without repeated entries, which has positive probability under the unconditional model. *)
Definition setting (d : num) (x y : nat -> R) (N : nat) (g : nat -> nat) (adj : nat -> list (nat * R)) (sl : bool) : Prop :=
  nonneg d /\ (forall i, 0 <= x i) /\ (forall i, 0 <= y i) /\ aggregate_graph (num_groups N g) adj /\
  0 < prob_aggregate N sl (inv_prob d x y) (num_groups N g) g (macro_link adj).

(** Probability of a graph given the aggregate graph. *)
Definition given (d : num) (x y : nat -> R) (N : nat) (g : nat -> nat) (adj : nat -> list (nat * R)) (sl : bool) :=
  cond_weight N sl (inv_prob d x y) (num_groups N g) g (macro_link adj).

(** ** A concrete case: four vertices in two groups of two; the aggregate graph has links 0->0, 0->1, 1->0. *)
Definition four_adj (a : nat) : list (nat * R) :=
  match a with 0%nat => [(0%nat, 3); (1%nat, 5)] | 1%nat => [(0%nat, 2)] | _ => [] end.
Definition half (i : nat) : nat := Nat.div i 2.
Definition four_graph : list (nat * nat) := [(0, 1); (0, 2); (1, 3); (2, 0)]%nat.

Lemma unit_prob : forall i j, inv_prob (Fin 1) (fun _ => 1) (fun _ => 1) i j = 1 - exp (- (1)).
Proof.
  intros i j. rewrite inv_prob_pm by (simpl; intros; lra). unfold pm. cbn [fst snd survive].
  replace (1 * (1 * 1)) with 1 by ring. reflexivity.
Qed.

Lemma unit_prob_range : forall i j, 0 < inv_prob (Fin 1) (fun _ => 1) (fun _ => 1) i j < 1.
Proof. intros i j. rewrite unit_prob. pose proof (exp_pos (- (1))). pose proof (exp_neg_lt1 1). lra. Qed.

Lemma four_in : In four_graph (all_graphs 4 false).
Proof.
  unfold all_graphs, four_graph. change (pairs 4 false) with
    [(0, 1); (0, 2); (0, 3); (1, 0); (1, 2); (1, 3); (2, 0); (2, 1); (2, 3); (3, 0); (3, 1); (3, 2)]%nat.
  repeat (cbn [sublists]; apply in_or_app;
    first [ left; apply in_map; fail | idtac ];
    match goal with
    | |- In ((?a, ?b) :: ?G) (map (cons (?a, ?b)) _) \/ _ => left; apply in_map
    | |- _ => right
    end).
  left; reflexivity.
Qed.

Lemma four_aggregate : aggregate_graph (num_groups 4 half) four_adj.
Proof.
  intros a Ha. change (num_groups 4 half) with 2%nat in *.
  destruct a as [|[|a]]; [| |lia]; cbn; (split; [repeat constructor; simpl; intuition lia|]);
    intros e; simpl; intros H; repeat (destruct H as [<-|H]; [cbn; lia|]); destruct H.
Qed.

Lemma four_setting : setting (Fin 1) (fun _ => 1) (fun _ => 1) 4 half four_adj false.
Proof.
  repeat split; try (intros; simpl; lra).
  - apply four_aggregate; assumption.
  - apply four_aggregate; assumption.
  - apply (prob_aggregate_pos _ _ _ _ _ _ four_graph); [apply unit_prob_range | apply four_in | reflexivity].
Qed.

Lemma agrees_all : forall M g A G, agrees M g A G = true ->
  forall a b, (a < M)%nat -> (b < M)%nat -> blocks_linked g a b G = A a b.
Proof.
  intros M g A G H a b Ha Hb. unfold agrees in H. rewrite forallb_forall in H. apply Bool.eqb_prop.
  apply (H (a, b)). apply in_prod_iff. rewrite !in_seq. lia.
Qed.

Lemma in_pairs_cases : forall N sl i j, In (i, j) (pairs N sl) -> (i < N)%nat /\ (j < N)%nat /\ (sl = false -> i <> j).
Proof.
  intros N sl i j I. apply in_pairs in I as (Hi & Hj & Hal). repeat split; try assumption.
  intros -> ->. unfold allowed in Hal. rewrite Nat.eqb_refl in Hal. discriminate.
Qed.

(** * C56: conditional samples agree with the aggregate graph *)

Theorem C56_binary : forall d x y N g adj sl us r rest, setting d x y N g adj sl ->
  (forall u, In u us -> 0 <= u < 1) ->
  run_draws (cond_binary_sample d (F x) (F y) N g adj sl) us = Some (r, rest) ->
  exists G, r = Ok G /\ NoDup G /\
    (forall a b, (a < num_groups N g)%nat -> (b < num_groups N g)%nat -> blocks_linked g a b G = macro_link adj a b) /\
    (forall i j, In (i, j) G -> (i < N)%nat /\ (j < N)%nat /\ (sl = false -> i <> j) /\ 0 < inv_prob d x y i j).
Proof.
  intros d x y N g adj sl us r rest (Hd & Hx & Hy & Hadj & Hpos) Hus H. apply run_outcome in H; [|exact Hus].
  apply (sampler_outcome d x y N g adj sl Hd Hx Hy Hadj Hpos _ (fun _ e => e) (fun _ l => Ok l) (fun _ l => l)) in H;
    [|reflexivity].
  destruct H as (S & HS & Hag & -> & HP & ND & HI).
  rewrite (rec_map d x y N g adj sl Hadj _ (fun _ e => e) S HS), map_id.
  exists S. split; [reflexivity|]. split; [exact ND|]. split.
  - exact (agrees_all _ _ _ _ Hag).
  - intros i j He. destruct (in_pairs_cases N sl i j (HI _ He)) as (Hi & Hj & Hn). repeat split; try assumption.
    rewrite inv_prob_pm by assumption. apply HP. exact He.
Qed.
Print Assumptions C56_binary.

(** The concrete case meets the hypotheses; the first draws take the first pair of every block. *)
Example C56_binary_case : setting (Fin 1) (fun _ => 1) (fun _ => 1) 4 half four_adj false /\
  agrees 2 half (macro_link four_adj) four_graph = true /\ In four_graph (all_graphs 4 false).
Proof. split; [exact four_setting|]. split; [reflexivity | exact four_in]. Qed.

Theorem C56_cremb : forall d x y N g adj sl s_out s_in m us r rest, setting d x y N g adj sl ->
  (forall u, In u us -> 0 <= u < 1) ->
  cond_cremb_sample d (F x) (F y) N g adj sl s_out s_in = Ok m ->
  run_draws m us = Some (r, rest) ->
  exists G, r = Ok G /\ NoDup (map fst G) /\
    (forall a b, (a < num_groups N g)%nat -> (b < num_groups N g)%nat -> blocks_linked g a b (map fst G) = macro_link adj a b) /\
    (forall i j w, In (i, j, w) G -> (i < N)%nat /\ (j < N)%nat /\ (sl = false -> i <> j) /\ 0 < inv_prob d x y i j).
Proof.
  intros d x y N g adj sl s_out s_in m us r rest (Hd & Hx & Hy & Hadj & Hpos) Hus Hm H.
  unfold cond_cremb_sample in Hm. destruct (Reqb _ 0); [discriminate|]. unfold guard in Hm. destruct (Rltb _ _); [|discriminate].
  inversion Hm; subst m. apply run_outcome in H; [|exact Hus].
  match type of H with outcome (sample_blocks _ _ _ _ _ _ ?mk _ _ _) _ => set (mark := mk) in H end.
  apply (sampler_outcome d x y N g adj sl Hd Hx Hy Hadj Hpos _ mark (fun _ l => Ok l) (fun _ l => l)) in H;
    [|reflexivity].
  destruct H as (S & HS & Hag & -> & HP & ND & HI).
  rewrite (rec_map d x y N g adj sl Hadj _ mark S HS). eexists. split; [reflexivity|].
  rewrite map_map. unfold mark. cbn [fst].
  replace (map (fun e : nat * nat => (fst e, snd e)) S) with S by (rewrite <- (map_id S) at 1; apply map_ext; intros [i j]; reflexivity).
  split; [exact ND|]. split; [exact (agrees_all _ _ _ _ Hag)|].
  intros i j w He. apply in_map_iff in He as ([i' j'] & E & He). inversion E; subst i' j'.
  destruct (in_pairs_cases N sl i j (HI _ He)) as (Hi & Hj & Hn). repeat split; try assumption.
  rewrite inv_prob_pm by assumption. apply HP. exact He.
Qed.
Print Assumptions C56_cremb.

(** Equal strengths satisfy the requirement of the sampler. *)
Example C56_cremb_case : exists m,
  cond_cremb_sample (Fin 1) (F (fun _ => 1)) (F (fun _ => 1)) 4 half four_adj false (fun _ => 2) (fun _ => 2) = Ok m.
Proof.
  unfold cond_cremb_sample, guard. cbn [sumn].
  destruct (Reqb_spec (0 + 2 + 2 + 2 + 2) 0); [lra|].
  replace (1 - (0 + 2 + 2 + 2 + 2) / (0 + 2 + 2 + 2 + 2)) with 0 by field. rewrite Rabs_R0.
  destruct (Rltb_spec 0 (1 / 1000000)); [|lra]. eexists. reflexivity.
Qed.

Lemma wagg_outcome : forall d x y N g adj sl s_out s_in us r rest, setting d x y N g adj sl ->
  (forall i j, (i < N)%nat -> (j < N)%nat -> 0 < inv_prob d x y i j -> 0 < s_out i * s_in j) ->
  (forall u, In u us -> 0 <= u < 1) ->
  run_draws (cond_wagg_sample d (F x) (F y) N g adj sl s_out s_in) us = Some (r, rest) ->
  exists S, r = Ok (flat_map (recorded d x y N g sl _ (fun _ e => (fst e, snd e, s_out (fst e) * s_in (snd e))) wfin S) (BB N g adj)) /\
    In S (sublists (flat_map (block N sl g) (B1 N g adj))) /\
    agrees (num_groups N g) g (macro_link adj) S = true /\ NoDup S /\ (forall e, In e S -> In e (pairs N sl)) /\
    (forall e, In e S -> 0 < pm d x y e).
Proof.
  intros d x y N g adj sl s_out s_in us r rest (Hd & Hx & Hy & Hadj & Hpos) Hs Hus H.
  apply run_outcome in H; [|exact Hus].
  apply (sampler_outcome d x y N g adj sl Hd Hx Hy Hadj Hpos _ (fun _ e => (fst e, snd e, s_out (fst e) * s_in (snd e))) wagg_finish wfin) in H.
  - destruct H as (S & HS & Hag & E & HP & ND & HI). exists S. tauto.
  - intros t S Ht HS HN HP. apply (wagg_fin d x y N g adj sl Hd Hx Hy s_out s_in Hs t S Ht HS HN HP).
Qed.

Theorem C56_wagg : forall d x y N g adj sl s_out s_in us r rest, setting d x y N g adj sl ->
  (forall i j, (i < N)%nat -> (j < N)%nat -> 0 < inv_prob d x y i j -> 0 < s_out i * s_in j) ->
  (forall u, In u us -> 0 <= u < 1) ->
  run_draws (cond_wagg_sample d (F x) (F y) N g adj sl s_out s_in) us = Some (r, rest) ->
  exists G, r = Ok G /\ NoDup (map fst G) /\
    (forall a b, (a < num_groups N g)%nat -> (b < num_groups N g)%nat -> blocks_linked g a b (map fst G) = macro_link adj a b) /\
    (forall i j w, In (i, j, w) G -> (i < N)%nat /\ (j < N)%nat /\ (sl = false -> i <> j) /\ 0 < inv_prob d x y i j).
Proof.
  intros d x y N g adj sl s_out s_in us r rest HH Hs Hus H.
  destruct (wagg_outcome d x y N g adj sl s_out s_in us r rest HH Hs Hus H) as (S & -> & HS & Hag & ND & HI & HP).
  destruct HH as (Hd & Hx & Hy & Hadj & Hpos).
  eexists. split; [reflexivity|]. rewrite (rec_wagg_fst d x y N g adj sl Hadj s_out s_in S HS).
  split; [exact ND|]. split; [exact (agrees_all _ _ _ _ Hag)|].
  intros i j w He. apply (in_map fst) in He. rewrite (rec_wagg_fst d x y N g adj sl Hadj s_out s_in S HS) in He. cbn [fst] in He.
  destruct (in_pairs_cases N sl i j (HI _ He)) as (Hi & Hj & Hn). repeat split; try assumption.
  rewrite inv_prob_pm by assumption. apply HP. exact He.
Qed.
Print Assumptions C56_wagg.

Example C56_wagg_case : setting (Fin 1) (fun _ => 1) (fun _ => 1) 4 half four_adj false /\
  (forall i j, (i < 4)%nat -> (j < 4)%nat -> 0 < inv_prob (Fin 1) (fun _ => 1) (fun _ => 1) i j -> 0 < INR (S i) * INR (S j)).
Proof. split; [exact four_setting|]. intros. apply Rmult_lt_0_compat; apply lt_0_INR; lia. Qed.

(** Without the hypothesis that the aggregate graph is possible the claim fails: a group with one vertex, linked to
    itself, without self-loops.  The sampler returns a graph without links and no error. *)
Theorem C56_single_vertex_group_refuted : exists d x y N g adj sl G,
  nonneg d /\ (forall i, 0 < x i) /\ (forall i, 0 < y i) /\ aggregate_graph (num_groups N g) adj /\ macro_link adj 0 0 = true /\
  cond_binary_sample d (F x) (F y) N g adj sl = Ret (Ok G) /\ blocks_linked g 0 0 G = false.
Proof.
  exists (Fin 1), (fun _ => 1), (fun _ => 1), 1%nat, (fun _ => 0%nat), (fun _ => [(0%nat, 1)]), false, [].
  repeat split; try (intros; simpl; lra).
  - repeat constructor; simpl; tauto.
  - change (num_groups 1 (fun _ => 0%nat)) with 1%nat in *. intros e [<-|[]]. simpl. lia.
  - unfold cond_binary_sample, macro_links. change (max_group 1 (fun _ => 0%nat)) with 1%nat. cbn [seq flat_map map app fst snd sample_blocks].
    rewrite (p_block_spec (Fin 1) (fun _ => 1) (fun _ => 1) 1 (fun _ => 0%nat) false); try (intros; simpl; lra).
    + reflexivity.
    + intros _ _. unfold group_sum. cbn. lra.
Qed.
Print Assumptions C56_single_vertex_group_refuted.

(** With a zero parameter, for which the conditional probabilities have a limit, the sampler divides by zero. *)
Theorem C56_zero_parameter_refuted : exists x y N g adj sl,
  (forall i, 0 < x i) /\ (forall i, 0 < y i) /\ aggregate_graph (num_groups N g) adj /\ macro_link adj 0 1 = true /\
  cond_p_ij (Fin 0) (Fin (x 0%nat)) (Fin (y 1%nat)) (Fin 1) (Fin (x 0%nat)) (Fin (y 1%nat)) (Fin 1) = Fin 1 /\
  cond_binary_sample (Fin 0) (F x) (F y) N g adj sl = Ret (Raise ZeroDivisionError).
Proof.
  exists (fun _ => 1), (fun _ => 1), 2%nat, (fun i => i), (fun a => match a with 0%nat => [(1%nat, 1)] | _ => [] end), false.
  repeat split; try (intros; simpl; lra).
  - destruct a as [|[|a]]; cbn; repeat constructor; simpl; tauto.
  - change (num_groups 2 (fun i => i)) with 2%nat in *. destruct a as [|[|a]]; cbn; intros e; [intros [<-|[]]; cbn; lia | intros [] | intros []].
  - rewrite cond_p_zero by lra. f_equal. field.
  - unfold cond_binary_sample, macro_links. change (max_group 2 (fun i => i)) with 2%nat. cbn [seq flat_map map app fst snd sample_blocks].
    rewrite (p_block_spec (Fin 0) (fun _ => 1) (fun _ => 1) 2 (fun i => i) false); try (intros; simpl; lra).
    + rewrite (Q_survive (Fin 0)) by (intros; simpl; lra). cbn [survive]. rewrite Rmult_0_l, Ropp_0, exp_0.
      change (list_prod (members 2 (fun i => i) 0) (members 2 (fun i => i) 1)) with [(0, 1)%nat].
      cbn [sample_block]. change (adm false 0 1) with true. cbv iota zeta. destruct (Reqb_spec (1 - 1) 0) as [_|n]; [|exfalso; lra].
      reflexivity.
    + intros _ E. cbn [fst snd] in E. discriminate.
Qed.
Print Assumptions C56_zero_parameter_refuted.

(** * C57: conditional samples have the conditional distribution *)

Lemma mean_sub_list_eqb : forall (p : link -> R) l S, NoDup l -> In S (sublists l) ->
  mean_sub p l (fun T => b2r (list_eqb T S)) = prodl (fun e => if mem e S then p e else 1 - p e) l.
Proof.
  intros p l S ND HS.
  transitivity (expect (bern p (fun e => e) l []) (fun T => b2r (list_eqb T S))).
  - rewrite bern_mean_sub. apply mean_sub_ext. intros T _. cbn [app]. rewrite map_id. reflexivity.
  - rewrite bern_sublists by exact ND.
    rewrite (suml_ext _ _ (fun T => lweight p l T * b2r (list_eqb T S))) by (intros; cbn [app]; rewrite map_id; reflexivity).
    rewrite sum_indicator; [reflexivity | apply NoDup_sublists; exact ND | exact HS].
Qed.

(** One linked block: [L] are its admissible pairs, [q] the unconditional probabilities. *)
Theorem C57_block : forall d x y N g sl a b pn S, nonneg d -> (forall i, 0 <= x i) -> (forall i, 0 <= y i) ->
  p_block d (F x) (F y) N g sl a b = Ok pn -> pn <> 0 ->
  let L := filter (fun e => Nat.eqb (g (fst e)) a && Nat.eqb (g (snd e)) b) (pairs N sl) in
  let q e := inv_prob d x y (fst e) (snd e) in
  In S (sublists L) -> S <> [] ->
  pn = 1 - prodl (fun e => 1 - q e) L /\
  prob (sample_block d (F x) (F y) sl (fun e => e) (list_prod (members N g a) (members N g b)) [] false pn)
    (fun r => match r with Ok T => list_eqb T S | Raise _ => false end)
  = prodl (fun e => if mem e S then q e else 1 - q e) L / pn.
Proof.
  intros d x y N g sl a b pn S Hd Hx Hy Hp Hn L q HS HN.
  assert (EL : L = block N sl g (a, b)) by reflexivity.
  assert (Eq : forall e, q e = pm d x y e) by (intros [i j]; unfold q; cbn [fst snd]; apply inv_prob_pm; assumption).
  destruct (p_block_defined d x y N g sl Hd Hx Hy a b pn Hp) as [Db ->].
  split.
  - unfold empty_prob. rewrite EL. f_equal. apply prodl_ext. intros e _. rewrite Eq. reflexivity.
  - rewrite sb_block. apply Rmult_eq_reg_r with (1 - empty_prob N sl (pm d x y) g (a, b)); [|exact Hn].
    unfold prob. rewrite (sb_expect d x y N g sl Hd Hx Hy) by exact Hn.
    rewrite (mean_sub_ext _ _ _ _ (fun T => b2r (list_eqb T S))).
    + rewrite mean_sub_list_eqb; [|apply NoDup_block | rewrite <- EL; exact HS].
      rewrite EL. rewrite (prodl_ext _ (fun e => if mem e S then q e else 1 - q e) (fun e => if mem e S then pm d x y e else 1 - pm d x y e))
        by (intros e _; rewrite Eq; reflexivity).
      unfold Rdiv. rewrite Rmult_assoc, Rinv_l by exact Hn. ring.
    + intros T HT. rewrite map_id. rewrite (hit_block N sl g (a, b) T HT).
      destruct (list_eqb_spec T S) as [->|_]; [destruct S; [contradiction|simpl; ring] | simpl; ring].
Qed.
Print Assumptions C57_block.

(** The block of the first two vertices in the concrete case has two admissible pairs. *)
Example C57_block_case : p_block (Fin 1) (F (fun _ => 1)) (F (fun _ => 1)) 4 half false 0 0 = Ok (1 - exp (- (1)) * exp (- (1))) /\
  1 - exp (- (1)) * exp (- (1)) <> 0 /\
  In [(0, 1)%nat] (sublists (filter (fun e => Nat.eqb (half (fst e)) 0 && Nat.eqb (half (snd e)) 0) (pairs 4 false))).
Proof.
  repeat split.
  - rewrite (p_block_spec (Fin 1) (fun _ => 1) (fun _ => 1) 4 half false); try (intros; simpl; lra).
    + f_equal. f_equal. unfold empty_prob. change (block 4 false half (0%nat, 0%nat)) with [(0, 1); (1, 0)]%nat.
      unfold pm. cbn [prodl fst snd survive fold_right map]. replace (1 * (1 * 1)) with 1 by ring. ring.
    + intros _ _. unfold group_sum. cbn. lra.
  - pose proof (exp_pos (- (1))). pose proof (exp_neg_lt1 1). nra.
  - cbn. tauto.
Qed.

(** The whole sampler: every graph has its conditional probability. *)
Theorem C57_distribution : forall d x y N g adj sl G, setting d x y N g adj sl -> In G (all_graphs N sl) ->
  wf_prog (cond_binary_sample d (F x) (F y) N g adj sl) /\
  prob (cond_binary_sample d (F x) (F y) N g adj sl) (fun r => match r with Ok H => links_eqb H G | Raise _ => false end)
  = given d x y N g adj sl G.
Proof.
  intros d x y N g adj sl G (Hd & Hx & Hy & Hadj & Hpos) HG. split.
  - unfold cond_binary_sample. apply (sampler_wf d x y N g adj sl Hd Hx Hy Hadj Hpos _ _ _ (fun _ l => l)). reflexivity.
  - unfold prob, cond_binary_sample.
    rewrite (sampler_mean d x y N g adj sl Hd Hx Hy Hadj Hpos _ (fun _ e => e) (fun _ l => Ok l) (fun _ l => l) ltac:(reflexivity)
      _ (fun H => b2r (links_eqb H G))).
    + apply mean_links_eqb. exact HG.
    + intros S T P. f_equal. apply links_eqb_perm. exact P.
    + intros S HS _. rewrite (rec_map d x y N g adj sl Hadj _ (fun _ e => e) S HS), map_id. reflexivity.
Qed.
Print Assumptions C57_distribution.

(** Observables that do not depend on the order of the links: the mean over the samples is the
    conditional mean. *)
Theorem C57_mean : forall d x y N g adj sl (f : list (nat * nat) -> R), setting d x y N g adj sl ->
  (forall S T, Permutation S T -> f S = f T) ->
  expect (cond_binary_sample d (F x) (F y) N g adj sl) (fun r => match r with Ok H => f H | Raise _ => 0 end)
  = ensemble_mean N sl (given d x y N g adj sl) f.
Proof.
  intros d x y N g adj sl f (Hd & Hx & Hy & Hadj & Hpos) Hf.
  apply (sampler_mean d x y N g adj sl Hd Hx Hy Hadj Hpos _ (fun _ e => e) (fun _ l => Ok l) (fun _ l => l) ltac:(reflexivity)).
  - exact Hf.
  - intros S HS _. rewrite (rec_map d x y N g adj sl Hadj _ (fun _ e => e) S HS), map_id. reflexivity.
Qed.
Print Assumptions C57_mean.

Example C57_case : setting (Fin 1) (fun _ => 1) (fun _ => 1) 4 half four_adj false /\ In four_graph (all_graphs 4 false) /\
  0 < given (Fin 1) (fun _ => 1) (fun _ => 1) 4 half four_adj false four_graph /\
  (forall S T : list (nat * nat), Permutation S T -> INR (length S) = INR (length T)).
Proof.
  split; [exact four_setting|]. split; [exact four_in|]. split.
  - unfold given, cond_weight. destruct four_setting as (_ & _ & _ & _ & Hpos).
    change (agrees (num_groups 4 half) half (macro_link four_adj) four_graph) with true. cbn [b2r]. rewrite Rmult_1_r.
    apply Rdiv_lt_0_compat; [|exact Hpos]. rewrite graph_weight_lweight. unfold lweight. apply prodl_pos.
    intros e _. pose proof (unit_prob_range (fst e) (snd e)). destruct (mem _ _); lra.
  - intros S T P. rewrite (Permutation_length P). reflexivity.
Qed.

(** Strengths: the scales of the exponential weights, averaged over the samples, are the products of strengths. *)
Theorem C57_cremb : forall d x y N g adj sl s_out s_in m i j, setting d x y N g adj sl ->
  cond_cremb_sample d (F x) (F y) N g adj sl s_out s_in = Ok m ->
  (i < N)%nat -> (j < N)%nat -> allowed sl i j = true -> 0 < inv_prob d x y i j ->
  expect m (fun r => match r with Ok l => w_pair i j l | Raise _ => 0 end)
  = if macro_link adj (g i) (g j) then s_out i * s_in j / sumn N s_out else 0.
Proof.
  intros d x y N g adj sl s_out s_in m i j (Hd & Hx & Hy & Hadj & Hpos) Hm Hi Hj Hal Hp.
  unfold cond_cremb_sample in Hm. destruct (Reqb_spec (sumn N s_out) 0) as [|Hs]; [discriminate|].
  unfold guard in Hm. destruct (Rltb _ _); [|discriminate]. inversion Hm; subst m. clear Hm.
  match goal with |- expect (sample_blocks _ _ _ _ _ _ ?mk _ _ _) _ = _ => set (mark := mk) end.
  set (sc := s_out i * s_in j / (sumn N s_out * (pm d x y (i, j) / (1 - empty_prob N sl (pm d x y) g (g i, g j))))).
  rewrite (sampler_mean d x y N g adj sl Hd Hx Hy Hadj Hpos _ mark (fun _ l => Ok l) (fun _ l => l) ltac:(reflexivity)
    _ (fun H => sc * b2r (mem (i, j) H))).
  - transitivity (sc * ensemble_mean N sl (given d x y N g adj sl) (fun G => b2r (mem (i, j) G))).
    + unfold ensemble_mean. rewrite <- suml_scal_l. apply suml_ext. intros G _. unfold given. ring.
    + unfold given. rewrite (cond_marginal d x y N g adj sl Hd Hx Hy Hadj Hpos i j Hi Hj Hal).
      unfold cp. destruct (macro_link adj (g i) (g j)) eqn:EA; [|ring].
      pose proof (linked_pos d x y N g adj sl Hd Hx Hy Hadj Hpos i j Hi EA) as HQ.
      rewrite inv_prob_pm in Hp by assumption. unfold sc. field. repeat split; try assumption; lra.
  - intros S T P. f_equal. f_equal. destruct (mem (i, j) S) eqn:E1, (mem (i, j) T) eqn:E2; try reflexivity.
    + apply mem_spec in E1. apply (Permutation_in _ P) in E1. apply mem_spec in E1. congruence.
    + apply mem_spec in E2. apply (Permutation_in _ (Permutation_sym P)) in E2. apply mem_spec in E2. congruence.
  - intros S HS HP. rewrite (rec_map d x y N g adj sl Hadj _ mark S HS). unfold mark. cbn [fst snd].
    assert (ND : NoDup S).
    { refine (sublists_NoDup _ (flat_map (block N sl g) (B1 N g adj)) S _ HS).
      apply NoDup_flat. apply B1_nodup. exact Hadj. }
    rewrite (w_pair_map (fun e => s_out (fst e) * s_in (snd e) / (sumn N s_out * (p_pair d (F x) (F y) (fst e) (snd e) / (1 - empty_prob N sl (pm d x y) g (block_of g e)))))) by exact ND.
    destruct (mem (i, j) S); cbn [b2r]; [|ring]. cbn [fst snd]. rewrite Rmult_1_r. unfold sc.
    pose proof (p_pair_pm d x y Hd Hx Hy (i, j)) as E. cbn [fst snd] in E. rewrite E. reflexivity.
Qed.
Print Assumptions C57_cremb.

Example C57_cremb_case : macro_link four_adj (half 0) (half 3) = true /\ macro_link four_adj (half 2) (half 3) = false /\
  allowed false 0 3 = true /\ allowed false 2 3 = true /\ 0 < inv_prob (Fin 1) (fun _ => 1) (fun _ => 1) 0 3 /\
  exists m, cond_cremb_sample (Fin 1) (F (fun _ => 1)) (F (fun _ => 1)) 4 half four_adj false (fun _ => 2) (fun _ => 2) = Ok m.
Proof. repeat split; try apply unit_prob_range. apply C56_cremb_case. Qed.

(** * C58: conditional probabilities *)

Lemma pois_survive : forall d x y z, nonneg d -> 0 <= x -> 0 <= y -> 0 <= z ->
  link_prob poissonian [d; Fin x; Fin y; Fin z] = 1 - survive d (x * y * z).
Proof.
  intros d x y z Hd Hx Hy Hz. rewrite <- inv_survive by assumption.
  rewrite (view_link_prob inv_p_ij poissonian inv_view); try (simpl; assumption); try exact Hd.
  reflexivity.
Qed.

(** The kernel: division by the probability of the block. *)
Theorem C58_kernel : forall d x y z X Y Z, nonneg d -> 0 <= x -> 0 <= y -> 0 <= z -> 0 <= X -> 0 <= Y -> 0 <= Z ->
  x * y * z <= X * Y * Z -> 0 < link_prob poissonian [d; Fin X; Fin Y; Fin Z] ->
  exists q, cond_p_ij d (Fin x) (Fin y) (Fin z) (Fin X) (Fin Y) (Fin Z) = Fin q /\ 0 <= q <= 1 /\
    link_prob poissonian [d; Fin x; Fin y; Fin z] <= q /\
    q = link_prob poissonian [d; Fin x; Fin y; Fin z] / link_prob poissonian [d; Fin X; Fin Y; Fin Z].
Proof.
  intros d x y z X Y Z Hd Hx Hy Hz HX HY HZ Hle Hp. rewrite pois_survive in Hp |- * by assumption.
  rewrite pois_survive by assumption.
  assert (Ha : 0 <= x * y * z) by (repeat apply Rmult_le_pos; assumption).
  pose proof (survive_range d _ Hd Ha). pose proof (survive_range d (X * Y * Z) Hd ltac:(lra)).
  pose proof (survive_mono d (x * y * z) (X * Y * Z) Hd ltac:(lra)).
  eexists. rewrite cond_p_fin by (try assumption; lra). split; [reflexivity|].
  set (u := 1 - survive d (x * y * z)) in *. set (v := 1 - survive d (X * Y * Z)) in *.
  assert (Hu : 0 <= u <= v) by (unfold u, v; lra). assert (Hv : 0 < v <= 1) by (unfold v in *; lra).
  assert (Hi : 1 <= / v) by (rewrite <- Rinv_1; apply Rinv_le_contravar; lra).
  assert (Hvi : v * / v = 1) by (apply Rinv_r; lra).
  repeat split; unfold Rdiv; nra.
Qed.
Print Assumptions C58_kernel.

Example C58_kernel_case : nonneg (Fin 1) /\ 1 * 1 * 1 <= 2 * 3 * 1 /\ 0 < link_prob poissonian [Fin 1; Fin 2; Fin 3; Fin 1].
Proof.
  split; [simpl; lra|]. split; [lra|]. rewrite pois_survive by (simpl; lra). cbn [survive].
  pose proof (exp_neg_lt1 (1 * (2 * 3 * 1)) ltac:(lra)). lra.
Qed.

(** The pairs of the model.  [q i j] is the probability of the link in the conditional ensemble. *)
Theorem C58_pairs : forall d x y N g adj sl, setting d x y N g adj sl ->
  let q i j := ensemble_mean N sl (given d x y N g adj sl) (fun G => b2r (mem (i, j) G)) in
  let p_block a b := ensemble_mean N sl (graph_weight N sl (inv_prob d x y)) (fun G => b2r (blocks_linked g a b G)) in
  cond_exp_edges d (F x) (F y) N g adj sl = Ok (pair_sum N sl q) /\
  forall i j, (i < N)%nat -> (j < N)%nat -> allowed sl i j = true ->
    (macro_link adj (g i) (g j) = false -> q i j = 0) /\
    (macro_link adj (g i) (g j) = true ->
      (exists z, z_block (aggregates N g (F x) (F y)) sl (g i) (g j) = Ok z /\
         toR (cond_p_ij d (Fin (x i)) (Fin (y j)) (Fin 1) (agg_p_out (aggregates N g (F x) (F y)) (g i))
                (agg_p_in (aggregates N g (F x) (F y)) (g j)) z) = q i j) /\
      0 < p_block (g i) (g j) <= 1 /\ q i j = inv_prob d x y i j / p_block (g i) (g j) /\
      inv_prob d x y i j <= q i j <= 1).
Proof.
  intros d x y N g adj sl (Hd & Hx & Hy & Hadj & Hpos) q p_block.
  assert (Q : forall i j, (i < N)%nat -> (j < N)%nat -> allowed sl i j = true -> q i j = cp d x y N g adj sl i j).
  { intros i j Hi Hj Hal. unfold q, given. apply cond_marginal; assumption. }
  assert (PB : forall a b, p_block a b = 1 - empty_prob N sl (pm d x y) g (a, b)).
  { intros a b. unfold p_block. rewrite (pij_eq d x y Hd Hx Hy). exact (mean_hit N sl g (pm d x y) (a, b)). }
  split.
  - rewrite cond_edges_sum by assumption. f_equal. unfold pair_sum. apply sumn_ext. intros i Hi. apply sumn_ext. intros j Hj.
    destruct (allowed sl i j) eqn:E; [|reflexivity]. rewrite Q by assumption. reflexivity.
  - intros i j Hi Hj Hal. rewrite Q by assumption. split.
    + intros EA. unfold cp. rewrite EA. reflexivity.
    + intros EA. split; [destruct (cond_term d x y N g adj sl Hd Hx Hy Hadj Hpos i j Hi EA) as (z & E1 & E2); exists z; auto|].
      pose proof (linked_pos d x y N g adj sl Hd Hx Hy Hadj Hpos i j Hi EA) as HQ.
      pose proof (Q_range d x y N g sl Hd Hx Hy (g i, g j)) as HR. rewrite PB. unfold cp. rewrite EA.
      rewrite inv_prob_pm by assumption. pose proof (pm_range d x y Hd Hx Hy (i, j)) as Hp.
      set (v := 1 - empty_prob N sl (pm d x y) g (g i, g j)) in *.
      assert (Hv : 0 < v <= 1) by (destruct (Rtotal_order 0 v) as [?|[?|?]]; unfold v in *; lra).
      assert (Hle : pm d x y (i, j) <= v).
      { unfold v. rewrite Q_survive by assumption. unfold pm. cbn [fst snd].
        enough (survive d (rate N sl g x y (g i, g j)) <= survive d (x i * y j)) by lra.
        apply survive_mono; [exact Hd|]. split; [apply Rmult_le_pos; auto|].
        unfold rate. assert (I : In (i, j) (block N sl g (g i, g j))) by (apply in_block; split; [apply in_pairs; auto | reflexivity]).
        apply (suml_in_le _ (fun e => x (fst e) * y (snd e)) _ (i, j)); [|exact I]. intros e _. apply Rmult_le_pos; auto. }
      assert (Hi' : 1 <= / v) by (rewrite <- Rinv_1; apply Rinv_le_contravar; lra).
      assert (Hvi : v * / v = 1) by (apply Rinv_r; lra).
      repeat split; try lra; unfold Rdiv; nra.
Qed.
Print Assumptions C58_pairs.

Example C58_pairs_case : setting (Fin 1) (fun _ => 1) (fun _ => 1) 4 half four_adj false /\
  macro_link four_adj (half 0) (half 1) = true /\ macro_link four_adj (half 2) (half 3) = false /\
  allowed false 0 1 = true /\ allowed false 2 3 = true.
Proof. split; [exact four_setting|]. repeat split. Qed.

(** ** The Jacobian *)

(** Where the difference [1 - exp(-d b)] is not below the threshold of the code. *)
Theorem C58_jacobian : forall d x y z X Y Z, 0 < x -> 0 < y -> 0 < z -> 0 < X -> 0 < Y -> 0 < Z ->
  / 10 ^ 12 <= 1 - exp (- (d * (X * Y * Z))) ->
  let p t := toR (cond_p_ij (Fin t) (Fin x) (Fin y) (Fin z) (Fin X) (Fin Y) (Fin Z)) in
  exists p', cond_p_jac (Fin d) (Fin x) (Fin y) (Fin z) (Fin X) (Fin Y) (Fin Z) = (Fin (p d), Fin p') /\
    derivable_pt_lim p d p'.
Proof.
  intros d x y z X Y Z Hx Hy Hz HX HY HZ Hd p.
  assert (Hne : d <> 0). { intros ->. rewrite Rmult_0_l, Ropp_0, exp_0 in Hd. pose proof tenpow_pos. lra. }
  exists (ratio' (x * y * z) (X * Y * Z) d). split.
  - rewrite cond_p_jac_fin by assumption. unfold p. rewrite cond_p_near by assumption. reflexivity.
  - apply (deriv_ext_loc (ratio (x * y * z) (X * Y * Z)) _ d _ (Rabs d)).
    + apply Rabs_pos_lt. exact Hne.
    + intros t Ht. unfold p. rewrite cond_p_near; try assumption; [reflexivity|].
      intros ->. unfold Rminus in Ht. rewrite Rplus_0_l, Rabs_Ropp in Ht. lra.
    + apply ratio_deriv. pose proof tenpow_pos. lra.
Qed.
Print Assumptions C58_jacobian.

Example C58_jacobian_case : / 10 ^ 12 <= 1 - exp (- (1 * (1 * 1 * 1))).
Proof.
  replace (1 * (1 * 1 * 1)) with 1 by ring. pose proof (one_minus_exp_ge 1 ltac:(lra)).
  assert (/ 10 ^ 12 <= 1 / 2) by (simpl; lra). lra.
Qed.

(** Infinite fitness.  A block of infinite fitness is linked for sure, and its pairs of finite fitness follow the
    probability of the model without conditioning; a pair of infinite fitness is linked for sure. *)
Definition positive (a : num) : Prop := match a with Fin x => 0 < x | PInf => True | _ => False end.

Lemma positive_mul : forall a b, positive a -> positive b -> positive (nmul a b) /\ (a = PInf \/ b = PInf -> nmul a b = PInf).
Proof.
  intros a b Ha Hb. destruct a as [x| | |], b as [y| | |]; try contradiction; cbn [positive nmul] in *; unfold inf_times;
    rewrite ?(Rltb_true 0 x Ha), ?(Rltb_true 0 y Hb), ?(Reqb_false x 0), ?(Reqb_false y 0) by lra; split; try exact I; try reflexivity.
  - apply Rmult_lt_0_compat; assumption.
  - intros [E | E]; discriminate.
Qed.
Lemma positive_nonzero : forall a, positive a -> is0 a = false.
Proof. intros a Ha. destruct a as [x| | |]; try contradiction; [|reflexivity]. cbn [positive] in Ha. rewrite is0_fin. apply Reqb_false. lra. Qed.

Theorem C58_infinite_block : forall d x y z X Y Z, 0 < d -> 0 < x -> 0 < y -> 0 < z -> positive X -> positive Y -> positive Z ->
  X = PInf \/ Y = PInf \/ Z = PInf ->
  let p t := 1 - exp (- (t * (x * y * z))) in
  cond_p_ij (Fin d) (Fin x) (Fin y) (Fin z) X Y Z = Fin (p d) /\
  exists p', cond_p_jac (Fin d) (Fin x) (Fin y) (Fin z) X Y Z = (Fin (p d), Fin p') /\ derivable_pt_lim p d p'.
Proof.
  intros d x y z X Y Z Hd Hx Hy Hz HX HY HZ HI p. pose proof tenpow_pos as T.
  assert (E1 : nmul (nmul X Y) Z = PInf).
  { destruct (positive_mul X Y HX HY) as [P Q]. destruct (positive_mul _ Z P HZ) as [_ R]. apply R. tauto. }
  assert (E2 : nmul (nmul (nmul (Fin d) X) Y) Z = PInf).
  { destruct (positive_mul (Fin d) X Hd HX) as [P Q]. destruct (positive_mul _ Y P HY) as [P' Q']. destruct (positive_mul _ Z P' HZ) as [_ R].
    apply R. destruct HI as [HI | [HI | HI]]; [left; apply Q'; left; apply Q; right; exact HI | left; apply Q'; right; exact HI | right; exact HI]. }
  assert (E3 : nmul (Fin d) PInf = PInf) by (apply (positive_mul (Fin d) PInf Hd I); auto).
  unfold cond_p_ij, cond_p_jac. rewrite (positive_nonzero X HX), (positive_nonzero Y HY), (positive_nonzero Z HZ), !is0_fin.
  rewrite !Reqb_false by lra. cbn [orb]. rewrite E1, E2, E3. cbn [nmul isinf nopp nexpm1 nexp nsub nadd nltb].
  rewrite Rltb_false by (pose proof (one_minus_exp_ge 1 ltac:(lra)); assert (/ 10 ^ 12 <= 1 / 2) by (simpl; lra); lra).
  split; [unfold p; f_equal; rewrite <- !Rmult_assoc; lra|]. exists (x * y * z * exp (- (d * (x * y * z)))). split.
  - unfold p. f_equal. f_equal. lra.
  - unfold p. apply deriv_one_minus_exp. 
Qed.
Print Assumptions C58_infinite_block.

Theorem C58_infinite_pair : forall d x y z X Y Z, 0 < d -> positive x -> positive y -> positive z -> x = PInf \/ y = PInf \/ z = PInf ->
  positive X -> positive Y -> positive Z -> X = PInf \/ Y = PInf \/ Z = PInf ->
  cond_p_ij (Fin d) x y z X Y Z = Fin 1 /\ cond_p_jac (Fin d) x y z X Y Z = (Fin 1, Fin 0).
Proof.
  intros d x y z X Y Z Hd Hx Hy Hz HI HX HY HZ HI'. pose proof tenpow_pos as T.
  assert (K : forall x y z, positive x -> positive y -> positive z -> x = PInf \/ y = PInf \/ z = PInf ->
    nmul (nmul x y) z = PInf /\ nmul (nmul (nmul (Fin d) x) y) z = PInf).
  { clear -Hd. intros x y z Hx Hy Hz HI. split.
    - destruct (positive_mul x y Hx Hy) as [P Q]. destruct (positive_mul _ z P Hz) as [_ R]. apply R. tauto.
    - destruct (positive_mul (Fin d) x Hd Hx) as [P Q]. destruct (positive_mul _ y P Hy) as [P' Q']. destruct (positive_mul _ z P' Hz) as [_ R].
      apply R. destruct HI as [HI | [HI | HI]]; [left; apply Q'; left; apply Q; right; exact HI | left; apply Q'; right; exact HI | right; exact HI]. }
  destruct (K x y z Hx Hy Hz HI) as [E1 E2]. destruct (K X Y Z HX HY HZ HI') as [E3 E4].
  assert (E5 : nmul (Fin d) PInf = PInf) by (apply (positive_mul (Fin d) PInf Hd I); auto).
  unfold cond_p_ij, cond_p_jac. rewrite !positive_nonzero by assumption. cbn [orb].
  rewrite E1, E2, E3, E5. split; [reflexivity|]. cbn [isinf nopp nexpm1 nexp nsub nadd nltb].
  rewrite Rltb_false; [reflexivity|]. assert (/ 10 ^ 12 <= 1 / 2) by (simpl; lra). lra.
Qed.
Print Assumptions C58_infinite_pair.

Example C58_infinite_case : positive PInf /\ positive (Fin 2) /\ cond_p_ij (Fin 1) (Fin 1) (Fin 1) (Fin 1) PInf (Fin 2) (Fin 1) = Fin (1 - exp (- (1 * (1 * 1 * 1)))).
Proof.
  split; [exact I|]. split; [cbn; lra|]. apply C58_infinite_block; try lra; try exact I; try (cbn; lra). left. reflexivity.
Qed.

(** At zero: the probability tends to the value of the code, with the slope of the code. *)
Theorem C58_limit_zero : forall x y z X Y Z, 0 < x -> 0 < y -> 0 < z -> 0 < X -> 0 < Y -> 0 < Z -> x * y * z <= X * Y * Z ->
  let p t := toR (cond_p_ij (Fin t) (Fin x) (Fin y) (Fin z) (Fin X) (Fin Y) (Fin Z)) in
  exists p', cond_p_jac (Fin 0) (Fin x) (Fin y) (Fin z) (Fin X) (Fin Y) (Fin Z) = (Fin (p 0), Fin p') /\
    forall eps, 0 < eps -> exists delta, 0 < delta /\ forall t, 0 < t < delta ->
      Rabs (p t - p 0) < eps /\ Rabs ((p t - p 0) / t - p') < eps.
Proof.
  intros x y z X Y Z Hx Hy Hz HX HY HZ Hle p.
  set (a := x * y * z) in *. set (b := X * Y * Z) in *.
  assert (Ha : 0 < a) by (unfold a; repeat apply Rmult_lt_0_compat; assumption).
  assert (Hb : 0 < b) by lra.
  assert (P0 : p 0 = a / b) by (unfold p; rewrite cond_p_zero by lra; reflexivity).
  assert (Pt : forall t, 0 < t -> p t = ratio a b t) by (intros t Ht; unfold p; rewrite cond_p_near by lra; reflexivity).
  exists ((1 / 2 - a / (2 * b)) * a). split.
  - rewrite P0. apply cond_p_jac_small; try assumption. rewrite Rmult_0_l, Ropp_0, exp_0. pose proof tenpow_pos. lra.
  - intros eps He. exists (Rmin (/ b) (Rmin (eps / b) (eps / (2 * b * b)))).
    assert (Hbb : 0 < 2 * b * b) by nra.
    split.
    { repeat apply Rmin_glb_lt; [apply Rinv_0_lt_compat; lra | apply Rdiv_lt_0_compat; lra | apply Rdiv_lt_0_compat; lra]. }
    intros t [Ht0 Ht].
    assert (T1 : t < / b) by (eapply Rlt_le_trans; [exact Ht | apply Rmin_l]).
    assert (T2 : t < eps / b) by (eapply Rlt_le_trans; [exact Ht | eapply Rle_trans; [apply Rmin_r | apply Rmin_l]]).
    assert (T3 : t < eps / (2 * b * b)) by (eapply Rlt_le_trans; [exact Ht | eapply Rle_trans; [apply Rmin_r | apply Rmin_r]]).
    assert (U1 : t * b <= 1). { apply Rlt_le. apply (Rmult_lt_reg_r (/ b)); [apply Rinv_0_lt_compat; lra|]. rewrite Rmult_assoc, Rinv_r by lra. lra. }
    assert (U2 : t * b < eps). { apply (Rmult_lt_reg_r (/ b)); [apply Rinv_0_lt_compat; lra|]. rewrite Rmult_assoc, Rinv_r by lra. unfold Rdiv in T2. lra. }
    assert (U3 : t * (2 * b * b) < eps). { apply (Rmult_lt_reg_r (/ (2 * b * b))); [apply Rinv_0_lt_compat; lra|]. rewrite Rmult_assoc, Rinv_r by lra. unfold Rdiv in T3. lra. }
    rewrite P0, Pt by exact Ht0. split.
    + eapply Rle_lt_trans; [apply ratio_first; lra | exact U2].
    + pose proof (ratio_second a b t ltac:(lra) Hb Ht0 U1) as R2.
      replace ((ratio a b t - a / b) / t - (1 / 2 - a / (2 * b)) * a)
        with ((ratio a b t - a / b - t * ((1 / 2 - a / (2 * b)) * a)) * / t) by (field; split; lra).
      rewrite Rabs_mult, (Rabs_pos_eq (/ t)) by (apply Rlt_le, Rinv_0_lt_compat; lra).
      apply (Rle_lt_trans _ (2 * (t * b) * (t * b) * / t)).
      * apply Rmult_le_compat_r; [apply Rlt_le, Rinv_0_lt_compat; lra | exact R2].
      * replace (2 * (t * b) * (t * b) * / t) with (t * (2 * b * b)) by (field; lra). exact U3.
Qed.
Print Assumptions C58_limit_zero.

Example C58_limit_zero_case : 1 * 1 * 1 <= 2 * 3 * 1 /\ 0 < 1 / 2.
Proof. lra. Qed.

(** Below the threshold the code replaces the probability by its value at zero; the error is at most 2e-12. *)
Theorem C58_small_parameter : forall d x y z X Y Z, 0 < x -> 0 < y -> 0 < z -> 0 < X -> 0 < Y -> 0 < Z ->
  x * y * z <= X * Y * Z -> 0 <= d -> 1 - exp (- (d * (X * Y * Z))) < / 10 ^ 12 ->
  exists p p', cond_p_jac (Fin d) (Fin x) (Fin y) (Fin z) (Fin X) (Fin Y) (Fin Z) = (Fin p, Fin p') /\
    Rabs (p - toR (cond_p_ij (Fin d) (Fin x) (Fin y) (Fin z) (Fin X) (Fin Y) (Fin Z))) <= 2 * / 10 ^ 12.
Proof.
  intros d x y z X Y Z Hx Hy Hz HX HY HZ Hle Hd Hs. do 2 eexists. rewrite cond_p_jac_small by assumption. split; [reflexivity|].
  set (a := x * y * z) in *. set (b := X * Y * Z) in *.
  assert (Ha : 0 < a) by (unfold a; repeat apply Rmult_lt_0_compat; assumption). assert (Hb : 0 < b) by lra.
  destruct (Req_dec d 0) as [->|Hn].
  - rewrite cond_p_zero by lra. fold a b. cbn [toR]. replace (a / b - a / b) with 0 by ring. rewrite Rabs_R0. pose proof tenpow_pos. lra.
  - rewrite cond_p_near by lra. fold a b. cbn [toR]. rewrite Rabs_minus_sym.
    assert (Hu : 0 < d * b) by (apply Rmult_lt_0_compat; lra).
    assert (H12 : / 10 ^ 12 <= 1 / 4) by (simpl; lra).
    assert (H1 : d * b <= 1).
    { destruct (Rle_dec (d * b) 1) as [|Hgt]; [assumption|]. exfalso.
      assert (exp (- (d * b)) <= exp (- (1))) by (apply Rlt_le, exp_increasing; lra).
      pose proof (one_minus_exp_ge 1 ltac:(lra)). lra. }
    pose proof (one_minus_exp_ge (d * b) ltac:(lra)).
    eapply Rle_trans; [apply ratio_first; lra|]. nra.
Qed.
Print Assumptions C58_small_parameter.

Example C58_small_parameter_case : 0 <= 0 /\ 1 - exp (- (0 * (2 * 3 * 1))) < / 10 ^ 12.
Proof. rewrite Rmult_0_l, Ropp_0, exp_0. pose proof tenpow_pos. lra. Qed.

(** * C59: expected degrees *)

(** Full claim: the same without the hypothesis that the aggregate graph is symmetric.  It is false
    (C59_asymmetric_refuted). *)
Theorem C59_symmetric_partial : forall d x y N g adj sl, setting d x y N g adj sl ->
  (forall a b, (a < num_groups N g)%nat -> (b < num_groups N g)%nat -> macro_link adj a b = macro_link adj b a) ->
  exists e exp_d exp_d_out exp_d_in,
    cond_exp_edges d (F x) (F y) N g adj sl = Ok e /\
    cond_exp_degrees d (F x) (F y) N g adj sl = Ok (exp_d, exp_d_out, exp_d_in) /\
    sumn N exp_d_out = e /\ sumn N exp_d_in = e.
Proof.
  intros d x y N g adj sl (Hd & Hx & Hy & Hadj & Hpos) Hsym.
  destruct (cond_degrees d x y N g adj sl Hd Hx Hy Hadj Hpos Hsym) as ([[dd o] i] & E & HD).
  exists (pair_sum N sl (cp d x y N g adj sl)), dd, o, i.
  rewrite cond_edges_sum by assumption. repeat split; try exact E.
  - unfold pair_sum. apply sumn_ext. intros v Hv. destruct (HD v Hv) as (H & _ & _). exact H.
  - unfold pair_sum. rewrite sumn_swap. apply sumn_ext. intros v Hv. destruct (HD v Hv) as (_ & H & _). exact H.
Qed.
Print Assumptions C59_symmetric_partial.

Example C59_symmetric_case : setting (Fin 1) (fun _ => 1) (fun _ => 1) 4 half four_adj false /\
  (forall a b, (a < 2)%nat -> (b < 2)%nat -> macro_link four_adj a b = macro_link four_adj b a).
Proof.
  split; [exact four_setting|]. intros a b Ha Hb. destruct a as [|[|a]]; [| |lia]; (destruct b as [|[|b]]; [| |lia]); reflexivity.
Qed.

(** Two vertices, each its own group, one link. *)
Definition one_adj (a : nat) : list (nat * R) := match a with 0%nat => [(1%nat, 1)] | _ => [] end.

Lemma one_setting : setting (Fin 1) (fun _ => 1) (fun _ => 1) 2 (fun i => i) one_adj false.
Proof.
  repeat split; try (intros; simpl; lra).
  - destruct a as [|[|a]]; cbn; repeat constructor; simpl; tauto.
  - change (num_groups 2 (fun i => i)) with 2%nat in *. destruct a as [|[|a]]; cbn; intros e; [intros [<-|[]]; cbn; lia | intros [] | intros []].
  - apply (prob_aggregate_pos _ _ _ _ _ _ [(0, 1)]%nat); [apply unit_prob_range | cbn; tauto | reflexivity].
Qed.

(** The loop visits the pairs with j <= i and skips both directions when the group of i has no link to
    the group of j. *)
Theorem C59_asymmetric_refuted : exists d x y N g adj sl e exp_d exp_d_out exp_d_in, setting d x y N g adj sl /\
  cond_exp_edges d (F x) (F y) N g adj sl = Ok e /\
  cond_exp_degrees d (F x) (F y) N g adj sl = Ok (exp_d, exp_d_out, exp_d_in) /\
  sumn N exp_d_out = 0 /\ sumn N exp_d_in = 0 /\ 0 < e.
Proof.
  exists (Fin 1), (fun _ => 1), (fun _ => 1), 2%nat, (fun i => i), one_adj, false.
  do 4 eexists. split; [exact one_setting|]. split.
  { pose proof one_setting as (Hd & Hx & Hy & Hadj & Hpos). rewrite cond_edges_sum by assumption. reflexivity. }
  split; [reflexivity|]. split; [cbn; ring|]. split; [cbn; ring|].
  pose proof one_setting as HH. destruct (C58_pairs _ _ _ _ _ _ _ HH) as (_ & HP).
  destruct (HP 0%nat 1%nat ltac:(lia) ltac:(lia) eq_refl) as (_ & H1). destruct (H1 eq_refl) as (_ & _ & _ & H2). clear HP H1.
  pose proof (unit_prob_range 0 1). unfold given in H2. pose proof HH as (Hd & Hx & Hy & Hadj & Hpos).
  rewrite cond_marginal in H2 by (try assumption; try lia; reflexivity).
  unfold pair_sum. cbn [sumn]. change (allowed false 0 0) with false. change (allowed false 1 1) with false. change (allowed false 0 1) with true.
  change (allowed false 1 0) with true. cbv iota.
  assert (E : cp (Fin 1) (fun _ => 1) (fun _ => 1) 2 (fun i => i) one_adj false 1 0 = 0) by reflexivity. rewrite E. lra.
Qed.
Print Assumptions C59_asymmetric_refuted.

(** * C68: expected degrees are means over the conditional ensemble *)

Theorem C68_out_in_partial : forall d x y N g adj sl, setting d x y N g adj sl ->
  (forall a b, (a < num_groups N g)%nat -> (b < num_groups N g)%nat -> macro_link adj a b = macro_link adj b a) ->
  exists exp_d exp_d_out exp_d_in,
    cond_exp_degrees d (F x) (F y) N g adj sl = Ok (exp_d, exp_d_out, exp_d_in) /\
    forall v, (v < N)%nat ->
      exp_d_out v = ensemble_mean N sl (given d x y N g adj sl) (fun G => g_out N G v) /\
      exp_d_in v = ensemble_mean N sl (given d x y N g adj sl) (fun G => g_in N G v).
Proof.
  intros d x y N g adj sl (Hd & Hx & Hy & Hadj & Hpos) Hsym.
  destruct (cond_degrees d x y N g adj sl Hd Hx Hy Hadj Hpos Hsym) as ([[dd o] i] & E & HD).
  exists dd, o, i. split; [exact E|]. intros v Hv. destruct (HD v Hv) as (H1 & H2 & _). unfold given.
  rewrite cond_mean_row, cond_mean_col by assumption. split; assumption.
Qed.
Print Assumptions C68_out_in_partial.

Theorem C68_edges : forall d x y N g adj sl, setting d x y N g adj sl ->
  cond_exp_edges d (F x) (F y) N g adj sl = Ok (ensemble_mean N sl (given d x y N g adj sl) (g_edges N)).
Proof.
  intros d x y N g adj sl (Hd & Hx & Hy & Hadj & Hpos). unfold given.
  rewrite cond_edges_sum, cond_mean_edges by assumption. reflexivity.
Qed.
Print Assumptions C68_edges.

Example C68_case : setting (Fin 1) (fun _ => 1) (fun _ => 1) 4 half four_adj false /\
  (forall a b, (a < 2)%nat -> (b < 2)%nat -> macro_link four_adj a b = macro_link four_adj b a).
Proof. exact C59_symmetric_case. Qed.

(** Two vertices in one group linked to itself: given one link, both vertices have a neighbour.  The code
    treats the two directions as independent, which they are not in one block. *)
Definition self_adj (a : nat) : list (nat * R) := match a with 0%nat => [(0%nat, 1)] | _ => [] end.

Lemma self_setting : setting (Fin 1) (fun _ => 1) (fun _ => 1) 2 (fun _ => 0%nat) self_adj false.
Proof.
  repeat split; try (intros; simpl; lra).
  - destruct a as [|[|a]]; cbn; repeat constructor; simpl; tauto.
  - change (num_groups 2 (fun _ => 0%nat)) with 1%nat in *. destruct a as [|[|a]]; cbn; intros e; [intros [<-|[]]; cbn; lia | intros [] | intros []].
  - apply (prob_aggregate_pos _ _ _ _ _ _ [(0, 1)]%nat); [apply unit_prob_range | cbn; tauto | reflexivity].
Qed.

Theorem C68_undirected_refuted : exists d x y N g adj sl exp_d exp_d_out exp_d_in, setting d x y N g adj sl /\
  (forall a b, (a < num_groups N g)%nat -> (b < num_groups N g)%nat -> macro_link adj a b = macro_link adj b a) /\
  cond_exp_degrees d (F x) (F y) N g adj sl = Ok (exp_d, exp_d_out, exp_d_in) /\
  ensemble_mean N sl (given d x y N g adj sl) (fun G => g_deg N G 0) = 1 /\ exp_d 0%nat < 1.
Proof.
  assert (Hsym : forall a b, (a < num_groups 2 (fun _ => 0%nat))%nat -> (b < num_groups 2 (fun _ => 0%nat))%nat ->
    macro_link self_adj a b = macro_link self_adj b a).
  { change (num_groups 2 (fun _ => 0%nat)) with 1%nat. intros a b Ha Hb. replace a with 0%nat by lia. replace b with 0%nat by lia. reflexivity. }
  pose proof self_setting as (Hd & Hx & Hy & Hadj & Hpos).
  destruct (cond_degrees _ _ _ _ _ _ _ Hd Hx Hy Hadj Hpos Hsym) as ([[dd o] i] & E & HD).
  exists (Fin 1), (fun _ => 1), (fun _ => 1), 2%nat, (fun _ => 0%nat), self_adj, false, dd, o, i.
  split; [exact self_setting|]. split; [exact Hsym|]. split; [exact E|].
  pose proof (unit_prob_range 0 1) as Hp. rewrite unit_prob in Hp. set (p := 1 - exp (- (1))) in *.
  split.
  - unfold given, cond_weight, ensemble_mean.
    set (Z := prob_aggregate _ _ _ _ _ _) in *.
    assert (EZ : Z = p * p + 2 * (p * (1 - p))).
    { unfold Z, prob_aggregate, ensemble_mean, graph_weight. cbn. rewrite !unit_prob. fold p. ring. }
    rewrite EZ in *. unfold graph_weight, g_deg. cbn. rewrite !unit_prob. fold p. field. nra.
  - destruct (HD 0%nat ltac:(lia)) as (_ & _ & H). cbn [dview] in H. rewrite H.
    assert (C : forall a b, cp (Fin 1) (fun _ => 1) (fun _ => 1) 2 (fun _ => 0%nat) self_adj false a b = p / (1 - (1 - p) * (1 - p))).
    { intros a b. unfold cp. change (macro_link self_adj 0 0) with true. cbv iota.
      unfold empty_prob. change (block 2 false (fun _ => 0%nat) (0%nat, 0%nat)) with [(0, 1); (1, 0)]%nat.
      unfold pm. cbn [prodl fst snd survive fold_right map]. replace (1 * (1 * 1)) with 1 by ring. fold p. f_equal. ring. }
    cbn [sumn Nat.eqb]. rewrite !C. set (q := p / (1 - (1 - p) * (1 - p))).
    assert (Hq : q * (2 - p) = 1) by (unfold q; field; nra).
    assert (q < 1) by nra. assert (0 < (1 - q) * (1 - q)) by (apply Rmult_lt_0_compat; lra). lra.
Qed.
Print Assumptions C68_undirected_refuted.

(** What holds: the computed undirected degree is at most the mean, with equality for the vertices of a group that
    has no link to itself.  The full statement, equality for every vertex, is refuted above. *)
Theorem C68_undirected_partial : forall d x y N g adj sl, setting d x y N g adj sl ->
  (forall a b, (a < num_groups N g)%nat -> (b < num_groups N g)%nat -> macro_link adj a b = macro_link adj b a) ->
  exists exp_d exp_d_out exp_d_in,
    cond_exp_degrees d (F x) (F y) N g adj sl = Ok (exp_d, exp_d_out, exp_d_in) /\
    forall v, (v < N)%nat ->
      let mean := ensemble_mean N sl (given d x y N g adj sl) (fun G => g_deg N G v) in
      exp_d v <= mean /\ (macro_link adj (g v) (g v) = false -> exp_d v = mean).
Proof.
  intros d x y N g adj sl (Hd & Hx & Hy & Hadj & Hpos) Hsym.
  destruct (cond_degrees d x y N g adj sl Hd Hx Hy Hadj Hpos Hsym) as ([[dd o] i] & E & HD).
  exists dd, o, i. split; [exact E|]. intros v Hv. destruct (HD v Hv) as (_ & _ & H). cbn [dview] in H. rewrite H.
  apply cond_undirected; assumption.
Qed.
Print Assumptions C68_undirected_partial.

(** In the case with four vertices the first group is linked to itself and the second is not. *)
Example C68_undirected_case : setting (Fin 1) (fun _ => 1) (fun _ => 1) 4 half four_adj false /\
  (forall a b, (a < 2)%nat -> (b < 2)%nat -> macro_link four_adj a b = macro_link four_adj b a) /\
  macro_link four_adj (half 0) (half 0) = true /\ macro_link four_adj (half 2) (half 2) = false.
Proof. destruct C59_symmetric_case as [H1 H2]. split; [exact H1|]. split; [exact H2|]. split; reflexivity. Qed.

(** * C60: block weights *)

Theorem C60_block_weights : forall d x y N g adj sl s_out s_in us r rest, setting d x y N g adj sl ->
  (forall i j, (i < N)%nat -> (j < N)%nat -> 0 < inv_prob d x y i j -> 0 < s_out i * s_in j) ->
  (forall u, In u us -> 0 <= u < 1) ->
  run_draws (cond_wagg_sample d (F x) (F y) N g adj sl s_out s_in) us = Some (r, rest) ->
  exists G, r = Ok G /\
    (forall a b w, (a < num_groups N g)%nat -> In (b, w) (adj a) -> block_weight g a b G = w) /\
    (forall a b, (a < num_groups N g)%nat -> (b < num_groups N g)%nat -> macro_link adj a b = false -> block_weight g a b G = 0).
Proof.
  intros d x y N g adj sl s_out s_in us r rest HH Hs Hus H.
  destruct (wagg_outcome d x y N g adj sl s_out s_in us r rest HH Hs Hus H) as (S & -> & HS & Hag & ND & HI & HP).
  destruct HH as (Hd & Hx & Hy & Hadj & Hpos). eexists. split; [reflexivity|]. split.
  - intros a b w Ha Hw. apply (rec_block_weight d x y N g adj sl Hd Hx Hy Hadj s_out s_in Hs); try assumption.
    + rewrite (agrees_blocks g (num_groups N g) (macro_link adj) (B1 N g adj) (B0 N g adj)) in Hag.
      * apply andb_prop in Hag as [Hh _]. exact Hh.
      * apply blocks_perm. exact Hadj.
      * apply B1_linked.
      * apply B0_unlinked.
    + apply in_BB; auto.
  - intros a b Ha Hb EA. unfold block_weight. apply suml_zero. intros [[i j] w] He. cbn [fst snd].
    apply (in_map fst) in He. rewrite (rec_wagg_fst d x y N g adj sl Hadj s_out s_in S HS) in He. cbn [fst] in He.
    pose proof (agrees_all _ _ _ _ Hag a b Ha Hb) as E. rewrite EA in E.
    destruct (Nat.eqb_spec (g i) a) as [E1|]; [|reflexivity]. destruct (Nat.eqb_spec (g j) b) as [E2|]; [|reflexivity].
    exfalso. assert (T : blocks_linked g a b S = true). { apply (hit_spec g (a, b) S). exists (i, j). split; [exact He|]. unfold block_of. cbn [fst snd]. congruence. }
    congruence.
Qed.
Print Assumptions C60_block_weights.

Example C60_case : setting (Fin 1) (fun _ => 1) (fun _ => 1) 4 half four_adj false /\
  (forall i j, (i < 4)%nat -> (j < 4)%nat -> 0 < inv_prob (Fin 1) (fun _ => 1) (fun _ => 1) i j -> 0 < INR (S i) * INR (S j)) /\
  In (1%nat, 5) (four_adj 0) /\ In (0%nat, 2) (four_adj 1) /\ macro_link four_adj 1 1 = false.
Proof. destruct C56_wagg_case as [H1 H2]. split; [exact H1|]. split; [exact H2|]. cbn. tauto. Qed.

(** A sampled block whose strengths are zero: division by zero. *)
Theorem C60_zero_strength_refuted : exists d x y N g adj sl s_out s_in us rest, setting d x y N g adj sl /\
  (forall u, In u us -> 0 <= u < 1) /\
  run_draws (cond_wagg_sample d (F x) (F y) N g adj sl s_out s_in) us = Some (Raise ZeroDivisionError, rest).
Proof.
  exists (Fin 1), (fun _ => 1), (fun _ => 1), 2%nat, (fun i => i), one_adj, false, (fun i => match i with 0%nat => 0 | _ => 1 end), (fun _ => 1), [0], [].
  split; [exact one_setting|]. split; [intros u [<-|[]]; lra|].
  unfold cond_wagg_sample, macro_links. change (max_group 2 (fun i => i)) with 2%nat. cbn [seq flat_map map app fst snd sample_blocks one_adj].
  rewrite (p_block_spec (Fin 1) (fun _ => 1) (fun _ => 1) 2 (fun i => i) false); try (intros; simpl; lra).
  - assert (HQ : 0 < 1 - empty_prob 2 false (pm (Fin 1) (fun _ => 1) (fun _ => 1)) (fun i => i) (0%nat, 1%nat)).
    { rewrite Q_survive by (intros; simpl; lra). rewrite rate_value. unfold group_sum. cbn [negb andb Nat.eqb sumn survive].
      match goal with |- 0 < 1 - exp (- ?t) => pose proof (exp_neg_lt1 t ltac:(lra)) end. lra. }
    change (list_prod (members 2 (fun i => i) 0) (members 2 (fun i => i) 1)) with [(0, 1)%nat].
    cbn [sample_block]. change (adm false 0 1) with true. cbv iota zeta.
    pose proof (p_pair_pm (Fin 1) (fun _ => 1) (fun _ => 1) ltac:(simpl; lra) ltac:(intros; lra) ltac:(intros; lra) (0, 1)%nat) as Ep.
    cbn [fst snd] in Ep. rewrite Ep.
    assert (Hp : 0 < pm (Fin 1) (fun _ => 1) (fun _ => 1) (0, 1)%nat).
    { rewrite <- inv_prob_pm by (simpl; intros; lra). apply unit_prob_range. }
    set (q := 1 - empty_prob _ _ _ _ _) in *. destruct (Reqb_spec q 0); [lra|]. cbn [pbind run_draws].
    destruct (Rltb_spec 0 (pm (Fin 1) (fun _ => 1) (fun _ => 1) (0, 1)%nat / q)) as [_|Hn]; [|exfalso; apply Hn, Rdiv_lt_0_compat; assumption].
    cbn [pbind app run_draws wagg_finish fold_right fst snd]. rewrite Rmult_0_l, Rplus_0_r. destruct (Reqb_spec 0 0); [reflexivity|lra].
  - intros _ E. cbn [fst snd] in E. discriminate.
Qed.
Print Assumptions C60_zero_strength_refuted.

(** * C61: conditional log-likelihood *)

Theorem C61_log : forall d x y N g adj sl G, setting d x y N g adj sl ->
  (forall a e, (a < num_groups N g)%nat -> In e (adj a) -> 0 < snd e) ->
  (sl = false -> forall a, (a < num_groups N g)%nat ->
     0 < sumn N (fun i => if Nat.eqb (g i) a then x i else 0) /\ 0 < sumn N (fun i => if Nat.eqb (g i) a then y i else 0)) ->
  In G (all_graphs N sl) ->
  exists l, cond_log_likelihood d (F x) (F y) N g adj sl N N (row_of G) = Ok l /\ log_of (given d x y N g adj sl G) l.
Proof.
  intros d x y N g adj sl G (Hd & Hx & Hy & Hadj & Hpos) HV HD HG.
  apply (cond_lik_log d x y N g adj sl Hd Hx Hy Hadj HV); try assumption.
  intros a Ha Hsl _. cbn [fst snd]. destruct (HD Hsl a Ha). unfold group_sum. apply Rmult_integral_contrapositive_currified; lra.
Qed.
Print Assumptions C61_log.

Example C61_log_case : setting (Fin 1) (fun _ => 1) (fun _ => 1) 4 half four_adj false /\
  (forall a e, (a < 2)%nat -> In e (four_adj a) -> 0 < snd e) /\
  (forall a, (a < 2)%nat -> 0 < sumn 4 (fun i => if Nat.eqb (half i) a then 1 else 0)) /\
  In four_graph (all_graphs 4 false) /\ agrees 2 half (macro_link four_adj) four_graph = true.
Proof.
  split; [exact four_setting|]. split; [|split; [|split; [exact four_in | reflexivity]]].
  - intros a e Ha. destruct a as [|[|a]]; [| |lia]; cbn; intros H; repeat (destruct H as [<-|H]; [cbn; lra|]); destruct H.
  - intros a Ha. destruct a as [|[|a]]; [| |lia]; cbn; lra.
Qed.

(** A graph that does not agree, with any links inside the vertex set, also self-loops. *)
Theorem C61_incompatible : forall d x y N g adj sl G a b, nonneg d -> (forall i, 0 <= x i) -> (forall i, 0 <= y i) ->
  aggregate_graph (num_groups N g) adj ->
  (forall a e, (a < num_groups N g)%nat -> In e (adj a) -> 0 < snd e) ->
  (forall e, In e G -> (fst e < N)%nat /\ (snd e < N)%nat) ->
  (a < num_groups N g)%nat -> (b < num_groups N g)%nat -> blocks_linked g a b G <> macro_link adj a b ->
  cond_log_likelihood d (F x) (F y) N g adj sl N N (row_of G) = Ok NInf.
Proof.
  intros d x y N g adj sl G a b Hd Hx Hy Hadj HV HG Ha Hb Hne.
  rewrite (cond_lik_cases d x y N g adj sl HV) by (intros e He; apply HG; exact He).
  destruct (agrees (num_groups N g) g (macro_link adj) G) eqn:E; [|reflexivity].
  exfalso. apply Hne. apply (agrees_all _ _ _ _ E a b Ha Hb).
Qed.
Print Assumptions C61_incompatible.

(** A link in the unlinked block (1,1) and a missing link in the block (1,0). *)
Example C61_incompatible_case : blocks_linked half 1 1 ((2, 3)%nat :: four_graph) <> macro_link four_adj 1 1 /\
  blocks_linked half 1 0 [(0, 1); (0, 2)]%nat <> macro_link four_adj 1 0.
Proof. split; discriminate. Qed.

(** Without self-loops, a group without fitness makes the compatible graph raise. *)
Theorem C61_zero_group_refuted : exists d x y N g adj sl G, setting d x y N g adj sl /\
  (forall a e, (a < num_groups N g)%nat -> In e (adj a) -> 0 < snd e) /\ In G (all_graphs N sl) /\
  0 < given d x y N g adj sl G /\
  cond_log_likelihood d (F x) (F y) N g adj sl N N (row_of G) = Raise ZeroDivisionError.
Proof.
  set (x := fun i : nat => match i with 0%nat => 1 | _ => 0 end). set (y := fun i : nat => match i with 0%nat => 0 | _ => 1 end).
  assert (Hd : nonneg (Fin 1)) by (simpl; lra).
  assert (Hx : forall i, 0 <= x i) by (intros [|i]; simpl; lra). assert (Hy : forall i, 0 <= y i) by (intros [|i]; simpl; lra).
  assert (Hadj : aggregate_graph (num_groups 2 (fun i => i)) one_adj) by (apply one_setting).
  assert (P01 : inv_prob (Fin 1) x y 0 1 = 1 - exp (- (1))).
  { rewrite inv_prob_pm by assumption. unfold pm. cbn [fst snd survive x y]. replace (1 * (1 * 1)) with 1 by ring. reflexivity. }
  assert (P10 : inv_prob (Fin 1) x y 1 0 = 0).
  { rewrite inv_prob_pm by assumption. unfold pm. cbn [fst snd survive x y]. rewrite !Rmult_0_r, Ropp_0, exp_0. ring. }
  pose proof (unit_prob_range 0 1) as Hp. rewrite unit_prob in Hp. set (p := 1 - exp (- (1))) in *.
  assert (W : graph_weight 2 false (inv_prob (Fin 1) x y) [(0, 1)%nat] = p).
  { unfold graph_weight. cbn. rewrite P01, P10. ring. }
  assert (Hpos : prob_aggregate 2 false (inv_prob (Fin 1) x y) (num_groups 2 (fun i => i)) (fun i => i) (macro_link one_adj) = p).
  { unfold prob_aggregate, ensemble_mean, graph_weight. cbn. rewrite P01, P10. ring. }
  assert (HV : forall a e, (a < num_groups 2 (fun i => i))%nat -> In e (one_adj a) -> 0 < snd e).
  { intros a e _. destruct a as [|a]; cbn; [intros [<-|[]]; cbn; lra | intros []]. }
  exists (Fin 1), x, y, 2%nat, (fun i => i), one_adj, false, [(0, 1)%nat].
  split; [repeat split; try assumption; [apply Hadj; assumption | apply Hadj; assumption | rewrite Hpos; lra]|].
  split; [exact HV|]. split; [cbn; tauto|]. split.
  - unfold given, cond_weight. rewrite W, Hpos. change (agrees _ _ _ _) with true. cbn [b2r]. apply Rdiv_lt_0_compat; lra.
  - rewrite (cond_lik_cases (Fin 1) x y 2 (fun i => i) one_adj false HV) by (intros e [<-|[]]; cbn; lia).
    change (agrees (num_groups 2 (fun i => i)) (fun i => i) (macro_link one_adj) [(0, 1)%nat]) with true. cbv iota.
    unfold agg_likelihood. change (max_group 2 (fun i => i)) with 2%nat. cbn [seq list_prod map app agg_lik_loop].
    rewrite (z_block_raise x y 2 (fun i => i) false) by (try reflexivity; unfold group_sum; cbn; ring). reflexivity.
Qed.
Print Assumptions C61_zero_group_refuted.

(** Without self-loops, a graph with a self-loop and no other link counts as agreeing when its group is linked
    to itself, and the self-loop is skipped: the log-likelihood is finite for an impossible graph. *)
Theorem C61_selfloop_refuted : exists d x y N g adj sl G v, setting d x y N g adj sl /\
  (forall a e, (a < num_groups N g)%nat -> In e (adj a) -> 0 < snd e) /\
  sl = false /\ G = [(0, 0)%nat] /\ cond_log_likelihood d (F x) (F y) N g adj sl N N (row_of G) = Ok (Fin v).
Proof.
  pose proof self_setting as (Hd & Hx & Hy & Hadj & Hpos).
  assert (HV : forall a e, (a < num_groups 2 (fun _ => 0%nat))%nat -> In e (self_adj a) -> 0 < snd e).
  { intros a e _. destruct a as [|a]; cbn; [intros [<-|[]]; cbn; lra | intros []]. }
  destruct (agg_likelihood_log (Fin 1) (fun _ => 1) (fun _ => 1) 2 (fun _ => 0%nat) self_adj false Hd Hx Hy Hadj) as (r & Er & L).
  { change (num_groups 2 (fun _ => 0%nat)) with 1%nat. intros a Ha _ _. cbn [fst snd]. replace a with 0%nat by lia. unfold group_sum. cbn. lra. }
  assert (LG : log_of (graph_weight 2 false (fun _ _ => 1 - exp (- (1))) [(0, 0)%nat])
     (likelihood inv_logp inv_log1mp (Fin 1) (F (fun _ => 1)) (F (fun _ => 1)) (fun _ _ => Fin 1) (row_of [(0, 0)%nat]) 2 false)).
  { replace (fun _ _ : nat => 1 - exp (- (1))) with (fun _ _ : nat => toR (inv_p_ij (Fin 1) (Fin 1) (Fin 1) (Fin 1))).
    - apply (likelihood_graph_spec num num num num (fun a b c e => toR (inv_p_ij a b c e)) inv_logp inv_log1mp (Fin 1) (F (fun _ => 1)) (F (fun _ => 1)) (fun _ _ => Fin 1)).
      + intros i j _ _. apply inv_logp_spec; simpl; lra.
      + intros i j _ _. apply inv_log1mp_spec; simpl; lra.
    - apply functional_extensionality; intros i. apply functional_extensionality; intros j.
      rewrite inv_survive by (simpl; lra). cbn [survive]. replace (1 * (1 * 1 * 1)) with 1 by ring. reflexivity. }
  destruct L as [[_ ->]|[Z _]]; [|lra].
  destruct LG as [[_ LG]|[Z _]].
  - exists (Fin 1), (fun _ => 1), (fun _ => 1), 2%nat, (fun _ => 0%nat), self_adj, false, [(0, 0)%nat]. eexists.
    split; [exact self_setting|]. split; [exact HV|]. split; [reflexivity|]. split; [reflexivity|].
    rewrite (cond_lik_cases _ _ _ _ _ _ _ HV) by (intros e [<-|[]]; cbn; lia).
    change (agrees (num_groups 2 (fun _ => 0%nat)) (fun _ => 0%nat) (macro_link self_adj) [(0, 0)%nat]) with true. cbv iota.
    replace (agg_likelihood (Fin 1) (F (fun _ => 1)) (F (fun _ => 1)) 2 (fun _ => 0%nat) false (fun a b => blocks_linked (fun _ => 0%nat) a b [(0, 0)%nat]))
      with (agg_likelihood (Fin 1) (F (fun _ => 1)) (F (fun _ => 1)) 2 (fun _ => 0%nat) false (macro_link self_adj)) by reflexivity.
    rewrite Er. cbn [bind]. rewrite LG. reflexivity.
  - exfalso. unfold graph_weight in Z. cbn in Z. pose proof (exp_pos (- (1))). nra.
Qed.
Print Assumptions C61_selfloop_refuted.

(** * C69: fitting the conditional model *)

Lemma for_range_res_rel : forall (S T : Type) (P : nat -> S -> T -> Prop) n (bs : nat -> S -> res S) (bt : nat -> T -> res T) s t,
  P 0%nat s t ->
  (forall i s t, (i < n)%nat -> P i s t -> exists s' t', bs i s = Ok s' /\ bt i t = Ok t' /\ P (Datatypes.S i) s' t') ->
  exists s' t', for_range_res n bs s = Ok s' /\ for_range_res n bt t = Ok t' /\ P n s' t'.
Proof.
  intros S T P n bs bt s t H0 HS. induction n as [|n IH].
  - exists s, t. repeat split. exact H0.
  - destruct IH as (s1 & t1 & E1 & E2 & HP); [intros i u v Hi; apply HS; lia|].
    destruct (HS n s1 t1 ltac:(lia) HP) as (s2 & t2 & E3 & E4 & HP2).
    exists s2, t2. cbn [for_range_res]. rewrite E1, E2. cbn [bind]. auto.
Qed.

Lemma kernel_close : forall d x y z X Y Z, 0 <= x -> 0 <= y -> 0 < z -> 0 < X -> 0 < Y -> 0 < Z ->
  x * y * z <= X * Y * Z -> 0 <= d ->
  exists p p', cond_p_jac (Fin d) (Fin x) (Fin y) (Fin z) (Fin X) (Fin Y) (Fin Z) = (Fin p, Fin p') /\
    Rabs (p - toR (cond_p_ij (Fin d) (Fin x) (Fin y) (Fin z) (Fin X) (Fin Y) (Fin Z))) <= 2 * / 10 ^ 12.
Proof.
  intros d x y z X Y Z Hx Hy Hz HX HY HZ Hle Hd. pose proof tenpow_pos as T.
  destruct (Req_dec x 0) as [->|Hx'].
  { exists 0, 0. unfold cond_p_jac, cond_p_ij. rewrite !is0_fin. rewrite (Reqb_true 0 0 eq_refl).
    rewrite !orb_true_r. cbn [toR orb]. rewrite Rminus_0_r, Rabs_R0. split; [reflexivity | lra]. }
  destruct (Req_dec y 0) as [->|Hy'].
  { exists 0, 0. unfold cond_p_jac, cond_p_ij. rewrite !is0_fin. rewrite (Reqb_true 0 0 eq_refl).
    rewrite !orb_true_r. cbn [toR orb]. rewrite Rminus_0_r, Rabs_R0. split; [reflexivity | lra]. }
  destruct (Rlt_dec (1 - exp (- (d * (X * Y * Z)))) (/ 10 ^ 12)) as [Hs|Hs].
  - apply C58_small_parameter; try assumption; lra.
  - destruct (C58_jacobian d x y z X Y Z) as (p' & E & _); try assumption; try lra.
    do 2 eexists. split; [exact E|]. match goal with |- Rabs (?a - ?b) <= _ => replace (a - b) with 0 by ring end. rewrite Rabs_R0. lra.
Qed.

(** The objective of the solver and the expected number of edges, at every parameter. *)
Theorem C69_objective : forall x y N g adj sl d, setting (Fin 1) x y N g adj sl -> 0 <= d ->
  exists f j e, cond_f_jac (Fin d) (F x) (F y) N g adj sl = Ok (Fin f, Fin j) /\
    cond_exp_edges (Fin d) (F x) (F y) N g adj sl = Ok e /\ Rabs (f - e) <= INR N * INR N * (2 * / 10 ^ 12).
Proof.
  intros x y N g adj sl d (Hd1 & Hx & Hy & Hadj & Hpos) Hd. set (c := 2 * / 10 ^ 12).
  assert (Hc : 0 < c) by (unfold c; pose proof tenpow_pos; lra).
  set (s := aggregates N g (F x) (F y)).
  assert (TERM : forall i j, (i < N)%nat -> (j < N)%nat -> macro_link adj (g i) (g j) = true -> allowed sl i j = true ->
    exists z p p', z_block s sl (g i) (g j) = Ok z /\
      cond_p_jac (Fin d) (Fin (x i)) (Fin (y j)) (Fin 1) (agg_p_out s (g i)) (agg_p_in s (g j)) z = (Fin p, Fin p') /\
      Rabs (p - toR (cond_p_ij (Fin d) (Fin (x i)) (Fin (y j)) (Fin 1) (agg_p_out s (g i)) (agg_p_in s (g j)) z)) <= c).
  { intros i j Hi Hj EA Hal.
    pose proof (linked_pos (Fin 1) x y N g adj sl Hd1 Hx Hy Hadj Hpos i j Hi EA) as HQ.
    pose proof HQ as HQ2. rewrite Q_survive in HQ2 by assumption.
    pose proof (rate_nonneg N sl g x y (g i, g j) Hx Hy) as Hr0.
    destruct (survive_lt1 (Fin 1) _ Hd1 Hr0 ltac:(lra)) as [Hr _].
    destruct (z_block_spec x y N g sl Hx Hy (g i) (g j)) as (z & Ez & Hz & Er).
    { apply (Q_defined (Fin 1)); assumption. }
    destruct (aggregates_spec N g x y (g i)) as (E1 & _ & _). destruct (aggregates_spec N g x y (g j)) as (_ & E2 & _).
    assert (H3 : 0 < group_sum N g x (g i) /\ 0 < group_sum N g y (g j) /\ 0 < z).
    { apply mult3_pos; try apply group_sum_nonneg; try assumption. lra. }
    assert (Hle : x i * y j * 1 <= group_sum N g x (g i) * group_sum N g y (g j) * z).
    { rewrite Er, Rmult_1_r. unfold rate.
      assert (I : In (i, j) (block N sl g (g i, g j))) by (apply in_block; split; [apply in_pairs; auto | reflexivity]).
      apply (suml_in_le _ (fun e => x (fst e) * y (snd e)) _ (i, j)); [|exact I]. intros e _. apply Rmult_le_pos; auto. }
    destruct (kernel_close d (x i) (y j) 1 (group_sum N g x (g i)) (group_sum N g y (g j)) z) as (p & p' & K1 & K2);
      try apply Hx; try apply Hy; try lra; try tauto.
    exists (Fin z), p, p'. unfold s. rewrite E1, E2. repeat split; assumption. }
  destruct (for_range_res_rel (num * num) R
    (fun i fj e => exists f j, fj = (Fin f, Fin j) /\ Rabs (f - e) <= INR i * INR N * c) N
    (fun i fj => for_range_res N (fun j fj =>
      if linked adj (g i) (g j) && adm sl i j then
        do z <- z_block s sl (g i) (g j) ;
        let '(p_tmp, jac_tmp) := cond_p_jac (Fin d) (Fin (x i)) (Fin (y j)) (Fin 1) (agg_p_out s (g i)) (agg_p_in s (g j)) z in
        Ok (nadd (fst fj) p_tmp, nadd (snd fj) jac_tmp)
      else Ok fj) fj)
    (fun i e => for_range_res N (fun j e =>
      if linked adj (g i) (g j) && adm sl i j then
        do z <- z_block s sl (g i) (g j) ;
        Ok (e + toR (cond_p_ij (Fin d) (Fin (x i)) (Fin (y j)) (Fin 1) (agg_p_out s (g i)) (agg_p_in s (g j)) z))
      else Ok e) e) (Fin 0, Fin 0) 0) as (fj & e & E1 & E2 & f & j & -> & B).
  - exists 0, 0. split; [reflexivity|]. rewrite Rminus_0_r, Rabs_R0. simpl. lra.
  - intros i fj e Hi (f & j & -> & B).
    destruct (for_range_res_rel (num * num) R
      (fun k fj e => exists f j, fj = (Fin f, Fin j) /\ Rabs (f - e) <= (INR i * INR N + INR k) * c) N
      (fun j fj =>
      if linked adj (g i) (g j) && adm sl i j then
        do z <- z_block s sl (g i) (g j) ;
        let '(p_tmp, jac_tmp) := cond_p_jac (Fin d) (Fin (x i)) (Fin (y j)) (Fin 1) (agg_p_out s (g i)) (agg_p_in s (g j)) z in
        Ok (nadd (fst fj) p_tmp, nadd (snd fj) jac_tmp)
      else Ok fj)
      (fun j e =>
      if linked adj (g i) (g j) && adm sl i j then
        do z <- z_block s sl (g i) (g j) ;
        Ok (e + toR (cond_p_ij (Fin d) (Fin (x i)) (Fin (y j)) (Fin 1) (agg_p_out s (g i)) (agg_p_in s (g j)) z))
      else Ok e) (Fin f, Fin j) e) as (fj' & e' & E1 & E2 & f' & j' & -> & B').
    + exists f, j. split; [reflexivity|]. change (INR 0) with 0. rewrite Rplus_0_r. exact B.
    + intros k fj e0 Hk (f0 & j0 & -> & B0).
      rewrite linked_macro. change (adm sl i k) with (allowed sl i k).
      destruct (macro_link adj (g i) (g k)) eqn:EA; [destruct (allowed sl i k) eqn:Hal|].
      * destruct (TERM i k Hi Hk EA Hal) as (z & p & p' & T1 & T2 & T3). cbn [andb]. rewrite T1. cbn [bind]. rewrite T2.
        do 2 eexists. split; [reflexivity|]. split; [reflexivity|]. cbn [fst snd nadd]. do 2 eexists. split; [reflexivity|].
        rewrite S_INR.
        match goal with |- Rabs (f0 + p - (e0 + ?q)) <= _ => replace (f0 + p - (e0 + q)) with ((f0 - e0) + (p - q)) by ring end.
        eapply Rle_trans; [apply Rabs_triang|]. rewrite <- Rplus_assoc, (Rmult_plus_distr_r _ 1), Rmult_1_l. apply Rplus_le_compat; assumption.
      * cbn [andb]. do 2 eexists. split; [reflexivity|]. split; [reflexivity|]. exists f0, j0. split; [reflexivity|]. rewrite S_INR. lra.
      * cbn [andb]. do 2 eexists. split; [reflexivity|]. split; [reflexivity|]. exists f0, j0. split; [reflexivity|]. rewrite S_INR. lra.
    + exists (Fin f', Fin j'), e'. split; [exact E1|]. split; [exact E2|]. exists f', j'. split; [reflexivity|].
      rewrite S_INR. replace ((INR i + 1) * INR N * c) with ((INR i * INR N + INR N) * c) by ring. exact B'.
  - exists f, j, e. split; [exact E1|]. split; [exact E2 | exact B].
Qed.
Print Assumptions C69_objective.

Lemma nleb_fin : forall a b, nleb (Fin a) (Fin b) = true -> a <= b.
Proof.
  intros a b H. unfold nleb, nltb, neqb in H. destruct (Rltb_spec a b); [lra|]. destruct (Reqb_spec a b); [lra|]. discriminate.
Qed.

(** A fit that reports convergence reproduces the number of edges within the tolerance, up to the error
    of the approximation of the objective near zero. *)
Theorem C69_converged : forall x y N g adj sl T x0 at_ rho mi fit d, setting (Fin 1) x y N g adj sl ->
  cond_fit (F x) (F y) N g adj sl (Some (Fin T)) x0 Density (Fin at_) (Fin rho) mi = Ok fit ->
  fitted_param fit = Fin d -> 0 <= d ->
  fitted_warned fit = negb (sol_converged (fitted_sol fit)) /\
  (sol_converged (fitted_sol fit) = true ->
   exists e, cond_exp_edges (Fin d) (F x) (F y) N g adj sl = Ok e /\
     Rabs (e - T) <= at_ + rho * T + INR N * INR N * (2 * / 10 ^ 12)).
Proof.
  intros x y N g adj sl T x0 at_ rho mi fit d HH Hf Hpar Hd.
  destruct (C69_objective x y N g adj sl d HH Hd) as (f & j & e & E1 & E2 & B).
  unfold cond_fit in Hf. destruct (cond_f_jac (Fin 0) _ _ _ _ _ _); [|discriminate]. cbn [bind] in Hf.
  unfold fitness_fit, guard in Hf. destruct (Nat.eqb _ 1); [|discriminate].
  destruct (match x0 with None => Numeric [Fin 0] | Some a => a end) as [l|n]; [|discriminate].
  destruct (negb (any_neg l)); [|discriminate].
  match type of Hf with (do s <- ?m ; _) = _ => destruct m as [sol|ex] eqn:ES end; [|discriminate].
  cbn [bind] in Hf. inversion Hf; subst fit. cbn [fitted_param fitted_sol fitted_warned] in *. split; [reflexivity|].
  intros Hc. exists e. split; [exact E2|].
  apply PropSolver.C24_report in ES. destruct ES as (_ & _ & EC & _). rewrite Hc, Hpar in EC. rewrite E1 in EC.
  cbn [fst nsub nopp nadd nabs nmul nleb] in EC. symmetry in EC.
  apply nleb_fin in EC.
  replace (e - T) with ((f + - T) - (f - e)) by ring. eapply Rle_trans; [apply Rabs_triang|]. rewrite Rabs_Ropp. lra.
Qed.
Print Assumptions C69_converged.

(** One link between two vertices in their own groups: the fit of one edge returns at once. *)
Example C69_case : setting (Fin 1) (fun _ => 1) (fun _ => 1) 4 half four_adj false /\
  setting (Fin 1) (fun _ => 1) (fun _ => 1) 2 (fun i => i) one_adj false /\
  exists fit, cond_fit (F (fun _ => 1)) (F (fun _ => 1)) 2 (fun i => i) one_adj false (Some (Fin 1)) None Density (Fin (1/2)) (Fin 0) 10 = Ok fit /\
    fitted_param fit = Fin 0 /\ sol_converged (fitted_sol fit) = true.
Proof.
  split; [exact four_setting|]. split; [exact one_setting|].
  destruct (C69_objective (fun _ => 1) (fun _ => 1) 2 (fun i => i) one_adj false 0 one_setting ltac:(lra)) as (f & j & e & E1 & _ & _).
  assert (Ef : f = 1).
  { revert E1. unfold cond_f_jac. cbn [for_range_res bind]. unfold linked. cbn [one_adj map fst existsb Nat.eqb orb andb adm negb bind].
    change (adm false 0 1) with true. cbn [andb].
    destruct (aggregates_spec 2 (fun i => i) (fun _ => 1) (fun _ => 1) 0) as (A1 & _ & _).
    destruct (aggregates_spec 2 (fun i => i) (fun _ => 1) (fun _ => 1) 1) as (_ & A2 & _).
    cbv zeta in A1, A2. rewrite A1, A2. unfold group_sum. cbn [sumn Nat.eqb]. unfold z_block. cbn [negb andb Nat.eqb bind].
    rewrite cond_p_jac_small; try lra.
    - cbn [fst snd nadd bind]. intros E. injection E as H1 H2. rewrite <- H1. field.
    - rewrite Rmult_0_l, Ropp_0, exp_0. pose proof tenpow_pos. lra. }
  subst f. unfold cond_fit. rewrite E1. cbn [bind]. unfold fitness_fit. cbn [arr_len length Nat.eqb guard].
  assert (AN : any_neg [Fin 0] = false) by (unfold any_neg; cbn; destruct (Rltb_spec 0 0); [lra | reflexivity]).
  rewrite AN. cbn [negb guard nth].
  match goal with |- context [monotonic_newton_solver ?fn _ _ _ _ _ _ _ _ _] =>
    destruct (PropSolver.C27_exact_partial fn (Fin 0) 1 (1/2) 0 10 (Fin 0) PInf (Fin j)) as (sol & ES & H1 & _ & _ & H2) end;
    try (simpl; lra); try exact I.
  - rewrite E1. reflexivity.
  - rewrite ES. cbn [bind]. eexists. split; [reflexivity|]. cbn. auto.
Qed.
