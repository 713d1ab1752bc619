(** The conditional log-likelihood. *)
From Verif Require Import Base Num Spec Kernels KernelFacts MultiKernels Prob Ensemble EnsembleFacts
  EnsembleProps LayerProps LayerLib Aggregate CondDist Conditional CondFacts CondModel.
From Coq Require Import Sorting.Permutation FunctionalExtensionality.

Section CondL.
Variables (d : num) (x y : nat -> R) (N : nat) (g : nat -> nat) (adj : nat -> list (nat * R)) (sl : bool).
Hypothesis (Hd : nonneg d) (Hx : forall i, 0 <= x i) (Hy : forall i, 0 <= y i).
Notation M := (num_groups N g).
Notation po := (fun i => Fin (x i)).
Notation pin := (fun i => Fin (y i)).
Notation p := (pm d x y).
Notation Q := (empty_prob N sl p g).
Notation A := (macro_link adj).
Notation pij := (inv_prob d x y).

Lemma agg_loop_log : forall (T : nat -> nat -> bool) l like w, (forall c, In c l -> block_defined N sl g x y c) ->
  log_of w like -> 0 < w ->
  exists r, agg_lik_loop d po pin N g sl T l like = Ok r /\
    log_of (w * prodl (fun c => if T (fst c) (snd c) then 1 - Q c else Q c) l) r.
Proof.
  intros T l; induction l as [|[a b] l IH]; intros like w HD HL HW.
  - exists like. split; [reflexivity|]. simpl. rewrite Rmult_1_r. exact HL.
  - cbn [agg_lik_loop prodl fst snd].
    destruct (z_block_spec x y N g sl Hx Hy a b (HD _ (or_introl eq_refl))) as (z & -> & Hz & Er). cbn [bind].
    destruct (aggregates_spec N g x y a) as (E1 & _ & _). destruct (aggregates_spec N g x y b) as (_ & E2 & _).
    rewrite E1, E2.
    assert (K1 : log_of (1 - Q (a, b)) (inv_logp d (Fin (group_sum N g x a)) (Fin (group_sum N g y b)) (Fin z))).
    { rewrite (Q_survive d x y N g sl Hx Hy), <- Er, <- inv_survive; try assumption; try (apply group_sum_nonneg; assumption).
      apply inv_logp_spec; simpl; try assumption; apply group_sum_nonneg; assumption. }
    assert (K2 : log_of (Q (a, b)) (inv_log1mp d (Fin (group_sum N g x a)) (Fin (group_sum N g y b)) (Fin z))).
    { replace (Q (a, b)) with (1 - (1 - Q (a, b))) by ring.
      rewrite (Q_survive d x y N g sl Hx Hy), <- Er, <- inv_survive; try assumption; try (apply group_sum_nonneg; assumption).
      apply inv_log1mp_spec; simpl; try assumption; apply group_sum_nonneg; assumption. }
    pose proof (Q_range d x y N g sl Hd Hx Hy (a, b)) as QR.
    set (tmp := if T a b then _ else _). set (v := if T a b then 1 - Q (a, b) else Q (a, b)).
    assert (K : log_of v tmp) by (unfold v, tmp; destruct (T a b); assumption).
    assert (V0 : 0 <= v) by (unfold v; destruct (T a b); lra).
    destruct (isinf tmp) eqn:I.
    + destruct (log_of_isinf _ _ K I) as [V E]. exists tmp. split; [reflexivity|]. rewrite V, E, Rmult_0_l, Rmult_0_r. right. split; reflexivity.
    + destruct (log_of_not_isinf _ _ K I) as [V E].
      destruct (IH (nadd like tmp) (w * v)) as (r & Er' & L).
      * intros c Hc. apply HD. right. exact Hc.
      * apply log_of_mult; try assumption; lra.
      * apply Rmult_lt_0_compat; assumption.
      * exists r. split; [exact Er'|]. rewrite <- Rmult_assoc. exact L.
Qed.

Hypothesis Hadj : aggregate_graph M adj.

Lemma agg_likelihood_log : (forall a, (a < M)%nat -> block_defined N sl g x y (a, a)) ->
  exists r, agg_likelihood d po pin N g sl A = Ok r /\ log_of (prob_aggregate N sl pij M g A) r.
Proof.
  intros HD. destruct (agg_loop_log A (list_prod (seq 0 M) (seq 0 M)) (Fin 0) 1) as (r & E & L).
  - intros [a b] Hc. apply in_prod_iff in Hc as [Ha Hb]. apply in_seq in Ha. intros Hs Eab. cbn [fst snd] in *. subst b.
    apply (HD a); [lia | exact Hs | reflexivity].
  - left. split; [lra|]. rewrite ln_1. reflexivity.
  - lra.
  - exists r. split; [exact E|]. rewrite Rmult_1_l in L. rewrite pij_eq by assumption.
    rewrite (prob_aggregate_all N sl g p M A (B1 N g adj) (B0 N g adj)); [exact L| | | |].
    + apply blocks_perm; assumption.
    + apply B1_linked.
    + apply B0_unlinked.
    + apply group_lt.
Qed.

(** The two tests of compatibility. *)
Lemma obs_macro : (forall a e, (a < M)%nat -> In e (adj a) -> 0 < snd e) -> forall a b, (a < M)%nat ->
  Rltb 0 (fold_right (fun e t => (if Nat.eqb (fst e) b then snd e else 0) + t) 0 (adj a)) = A a b.
Proof.
  intros HV a b Ha. assert (HV' : forall e, In e (adj a) -> 0 < snd e) by (intros; apply (HV a); assumption).
  unfold macro_link. clear HV. induction (adj a) as [|e l IH]; [simpl; destruct (Rltb_spec 0 0); [lra | reflexivity]|].
  assert (Hl : forall e, In e l -> 0 < snd e) by (intros; apply HV'; right; assumption).
  assert (P : 0 <= fold_right (fun e t => (if Nat.eqb (fst e) b then snd e else 0) + t) 0 l).
  { clear -Hl. induction l as [|e l IH]; simpl; [lra|]. assert (0 < snd e) by (apply Hl; left; reflexivity).
    assert (0 <= fold_right (fun e t => (if Nat.eqb (fst e) b then snd e else 0) + t) 0 l) by (apply IH; intros; apply Hl; right; assumption).
    destruct (Nat.eqb (fst e) b); lra. }
  cbn [fold_right existsb]. specialize (IH Hl). assert (H : 0 < snd e) by (apply HV'; left; reflexivity).
  destruct (Nat.eqb (fst e) b); cbn [orb].
  - destruct (Rltb_spec 0 (snd e + fold_right (fun e t => (if Nat.eqb (fst e) b then snd e else 0) + t) 0 l)); [reflexivity | lra].
  - rewrite Rplus_0_l. exact IH.
Qed.

Lemma agg_adj_blocks : forall G, (forall e, In e G -> (fst e < N)%nat) -> forall a b,
  existsb (fun i => Nat.eqb (g i) a && existsb (fun j => Nat.eqb (g j) b) (row_of G i)) (seq 0 N) = blocks_linked g a b G.
Proof.
  intros G HG a b. apply Bool.eq_iff_eq_true. unfold blocks_linked. rewrite !existsb_exists. split.
  - intros (i & _ & H). apply andb_prop in H as [H1 H2]. apply existsb_exists in H2 as (j & Hj & H2).
    unfold row_of in Hj. apply in_map_iff in Hj as (e & <- & He). apply filter_In in He as [He E]. apply Nat.eqb_eq in E. subst i.
    exists e. rewrite H1, H2. split; [exact He | reflexivity].
  - intros (e & He & H). apply andb_prop in H as [H1 H2]. exists (fst e). split; [apply in_seq; specialize (HG e He); lia|].
    rewrite H1. cbn [andb]. apply existsb_exists. exists (snd e). split; [|exact H2].
    unfold row_of. apply in_map. apply filter_In. rewrite Nat.eqb_refl. tauto.
Qed.

Hypothesis HV : forall a e, (a < M)%nat -> In e (adj a) -> 0 < snd e.

Lemma cond_lik_cases : forall G, (forall e, In e G -> (fst e < N)%nat) ->
  cond_log_likelihood d po pin N g adj sl N N (row_of G)
  = if agrees M g A G then
      do r <- agg_likelihood d po pin N g sl (fun a b => blocks_linked g a b G) ;
      Ok (nsub (likelihood inv_logp inv_log1mp d po pin (fun _ _ => Fin 1) (row_of G) N sl) r)
    else Ok NInf.
Proof.
  intros G HG. unfold cond_log_likelihood, guard. rewrite !Nat.eqb_refl. cbn [andb]. cbv zeta. rewrite max_group_num.
  replace (fun a b => existsb (fun i => Nat.eqb (g i) a && existsb (fun j => Nat.eqb (g j) b) (row_of G i)) (seq 0 N))
    with (fun a b => blocks_linked g a b G).
  - match goal with |- (if negb ?f then _ else _) = _ => replace f with (agrees M g A G) end.
    + destruct (agrees M g A G); reflexivity.
    + unfold agrees. apply forallb_ext_in. intros [a b] H. apply in_prod_iff in H as [Ha _]. apply in_seq in Ha. cbn [fst snd].
      rewrite obs_macro by (try assumption; lia). rewrite agg_adj_blocks by exact HG. reflexivity.
  - apply functional_extensionality; intros a. apply functional_extensionality; intros b. symmetry. apply agg_adj_blocks. exact HG.
Qed.

Lemma agg_loop_ext : forall T T' l like, (forall c, In c l -> T (fst c) (snd c) = T' (fst c) (snd c)) ->
  agg_lik_loop d po pin N g sl T l like = agg_lik_loop d po pin N g sl T' l like.
Proof.
  intros T T' l; induction l as [|[a b] l IH]; intros like H; [reflexivity|]. cbn [agg_lik_loop].
  pose proof (H (a, b) (or_introl eq_refl)) as E. cbn [fst snd] in E. rewrite E.
  destruct (z_block _ _ _ _); [|reflexivity]. cbn [bind]. destruct (isinf _); [reflexivity|].
  apply IH. intros; apply H; right; assumption.
Qed.

Lemma cond_lik_log : (forall a, (a < M)%nat -> block_defined N sl g x y (a, a)) ->
  0 < prob_aggregate N sl pij M g A -> forall G, In G (all_graphs N sl) ->
  exists l, cond_log_likelihood d po pin N g adj sl N N (row_of G) = Ok l /\
    log_of (cond_weight N sl pij M g A G) l.
Proof.
  intros HD HP G HG.
  assert (HG' : forall e, In e G -> (fst e < N)%nat).
  { intros [i j] He. apply (sublists_incl _ _ _ _ HG) in He. apply in_pairs in He. apply He. }
  rewrite cond_lik_cases by exact HG'. unfold cond_weight.
  destruct (agrees M g A G) eqn:E.
  - destruct (agg_likelihood_log HD) as (r & Er & L).
    replace (agg_likelihood d po pin N g sl (fun a b => blocks_linked g a b G)) with (agg_likelihood d po pin N g sl A).
    + rewrite Er. cbn [bind]. eexists. split; [reflexivity|].
      assert (LG : log_of (graph_weight N sl pij G) (likelihood inv_logp inv_log1mp d po pin (fun _ _ => Fin 1) (row_of G) N sl)).
      { rewrite pij_eq by assumption.
        replace (fun i j => p (i, j)) with (fun i j => toR (inv_p_ij d (po i) (pin j) (Fin 1))).
        - apply (likelihood_graph_spec num num num num (fun a b c e => toR (inv_p_ij a b c e)) inv_logp inv_log1mp d po pin (fun _ _ => Fin 1)).
          + intros i j _ _. apply inv_logp_spec; simpl; auto; lra.
          + intros i j _ _. apply inv_log1mp_spec; simpl; auto; lra.
        - apply functional_extensionality; intros i. apply functional_extensionality; intros j.
          rewrite inv_survive by (auto; lra). unfold pm. cbn [fst snd]. rewrite Rmult_1_r. reflexivity. }
      destruct L as [[_ ->]|[Z _]]; [|lra]. cbn [b2r]. rewrite Rmult_1_r.
      destruct LG as [[W ->]|[W ->]].
      * left. split; [apply Rmult_lt_0_compat; [exact W | apply Rinv_0_lt_compat; exact HP]|].
        unfold nsub. cbn [nopp nadd]. f_equal. unfold Rdiv. rewrite ln_mult, ln_Rinv by (try assumption; apply Rinv_0_lt_compat; assumption). reflexivity.
      * right. rewrite W. split; [unfold Rdiv; ring | reflexivity].
    + unfold agg_likelihood. apply agg_loop_ext. intros [a b] H. rewrite max_group_num in H. unfold agrees in E.
      rewrite forallb_forall in E. specialize (E (a, b) H). apply Bool.eqb_prop in E. symmetry. exact E.
  - exists NInf. split; [reflexivity|]. right. simpl. split; [unfold Rdiv; ring | reflexivity].
Qed.

End CondL.
