(** Ensemble-level consequences, in the form used by the property theorems. *)
From Verif Require Import Base Num Kernels KernelFacts MultiKernels MultiFacts Prob Ensemble EnsembleFacts.

(** ** Edges and degrees *)

Lemma edges_degrees : forall P X Z (p_ij : P -> X -> X -> Z -> R) param po pin z N sl,
  let pr i j := p_ij param (po i) (pin j) (z i j) in
  let '(d, d_out, d_in) := exp_degrees p_ij param po pin z N sl in
  exp_edges p_ij param po pin z N sl = pair_sum N sl pr /\
  sumn N d_out = pair_sum N sl pr /\ sumn N d_in = pair_sum N sl pr /\
  (forall v, (v < N)%nat -> d_out v = sumn N (fun j => if allowed sl v j then pr v j else 0)) /\
  (forall v, (v < N)%nat -> d_in v = sumn N (fun i => if allowed sl i v then pr i v else 0)).
Proof.
  intros P X Z p_ij param po pin z N sl pr.
  pose proof (exp_out_spec P X Z p_ij param po pin z N sl) as Ho.
  pose proof (exp_in_spec P X Z p_ij param po pin z N sl) as Hi.
  destruct (exp_degrees p_ij param po pin z N sl) as [[d d_out] d_in] eqn:E.
  simpl in Ho, Hi.
  split; [apply exp_edges_spec|]. split; [|split; [|split; assumption]].
  - unfold pair_sum. apply sumn_ext. exact Ho.
  - unfold pair_sum. rewrite sumn_swap. apply sumn_ext. exact Hi.
Qed.

(** ** Means over the ensemble *)

Section Means.
Variables (P X Y Z : Type) (p_ij : P -> X -> Y -> Z -> R) (logp log1mp : P -> X -> Y -> Z -> num).
Variables (param : P) (po : nat -> X) (pin : nat -> Y) (z : nat -> nat -> Z) (N : nat).
Let pr (i j : nat) : R := p_ij param (po i) (pin j) (z i j).
Hypothesis Hlogs : forall i j, (i < N)%nat -> (j < N)%nat ->
  log_of (pr i j) (logp param (po i) (pin j) (z i j)) /\
  log_of (1 - pr i j) (log1mp param (po i) (pin j) (z i j)).
Let lik (sl : bool) (G : list (nat * nat)) : num :=
  likelihood logp log1mp param po pin z (row_of G) N sl.

Lemma lik_log : forall sl G, log_of (graph_weight N sl pr G) (lik sl G).
Proof.
  intros sl G. apply (likelihood_graph_spec P X Y Z p_ij); intros i j Hi Hj; apply Hlogs; assumption.
Qed.

Lemma lik_exp : forall sl G, nexp (lik sl G) = Fin (graph_weight N sl pr G).
Proof. intros sl G. apply log_of_exp, lik_log. Qed.

Lemma lik_mean : forall sl f,
  ensemble_mean N sl (fun G => toR (nexp (lik sl G))) f = ensemble_mean N sl (graph_weight N sl pr) f.
Proof. intros sl f. unfold ensemble_mean. apply suml_ext. intros G _. rewrite lik_exp. reflexivity. Qed.

Lemma lik_total : forall sl, suml (fun G => toR (nexp (lik sl G))) (all_graphs N sl) = 1.
Proof.
  intros sl. pose proof (mean_const N sl pr 1) as H. rewrite <- lik_mean in H. unfold ensemble_mean in H.
  rewrite <- H. apply suml_ext. intros G _. ring.
Qed.

(** Minus infinity exactly when an admissible pair contradicts a certain probability. *)
Lemma lik_impossible : forall sl G, lik sl G = NInf <->
  exists i j, (i < N)%nat /\ (j < N)%nat /\ allowed sl i j = true /\
    ((In (i, j) G /\ pr i j = 0) \/ (~ In (i, j) G /\ pr i j = 1)).
Proof.
  intros sl G.
  assert (Hz : graph_weight N sl pr G = 0 <-> exists i j, (i < N)%nat /\ (j < N)%nat /\ allowed sl i j = true /\
    ((In (i, j) G /\ pr i j = 0) \/ (~ In (i, j) G /\ pr i j = 1))).
  { rewrite graph_weight_list. split.
    - intros H0.
      assert (Hex : exists e, In e (pairs N sl) /\ (if mem e G then pr (fst e) (snd e) else 1 - pr (fst e) (snd e)) = 0).
      { revert H0. generalize (pairs N sl) as l. induction l as [|e l IH]; simpl; intros H0; [lra|].
        destruct (Rmult_integral _ _ H0) as [H|H].
        - exists e. split; [left; reflexivity | exact H].
        - destruct (IH H) as (e' & H1 & H2). exists e'. split; [right; exact H1 | exact H2]. }
      destruct Hex as ([i j] & He & H). apply in_pairs in He. destruct He as (Hi & Hj & Ha). simpl in H.
      exists i, j. split; [exact Hi|]. split; [exact Hj|]. split; [exact Ha|].
      destruct (mem (i, j) G) eqn:Em.
      + left. split; [apply mem_spec; exact Em | exact H].
      + right. split; [apply mem_false; exact Em | lra].
    - intros (i & j & Hi & Hj & Ha & H). apply (prodl_zero _ _ _ (i, j)).
      + apply in_pairs; auto.
      + simpl. destruct H as [[H1 H2]|[H1 H2]].
        * apply mem_spec in H1. rewrite H1. exact H2.
        * apply mem_false in H1. rewrite H1. lra. }
  rewrite <- Hz. destruct (lik_log sl G) as [[H1 H2]|[H1 H2]]; rewrite H2; split; intros H; try lra; try reflexivity; try discriminate; assumption.
Qed.

(** ** Sampling follows the likelihood *)
Lemma sample_prob : forall sl G, In G (all_graphs N sl) ->
  Fin (prob (binary_sample p_ij param po pin z N sl) (fun H => list_eqb H G)) = nexp (lik sl G).
Proof.
  intros sl G HG. rewrite lik_exp. f_equal. unfold prob. rewrite binary_sample_bern.
  rewrite bern_sublists by apply NoDup_pairs.
  rewrite graph_weight_lweight.
  rewrite <- (sum_indicator (all_graphs N sl) (lweight (fun e => pr (fst e) (snd e)) (pairs N sl)) G).
  - apply suml_ext. intros H _. rewrite map_id. reflexivity.
  - apply NoDup_sublists, NoDup_pairs.
  - exact HG.
Qed.
End Means.

(** ** Samples are admissible *)
Lemma sample_admissible : forall P X Y Z (p_ij : P -> X -> Y -> Z -> R) param po pin z N sl us G rest,
  (forall u, In u us -> 0 <= u < 1) ->
  run_draws (binary_sample p_ij param po pin z N sl) us = Some (G, rest) ->
  NoDup G /\
  (forall i j, In (i, j) G -> (i < N)%nat /\ (j < N)%nat /\ (sl = false -> i <> j) /\
     0 < p_ij param (po i) (pin j) (z i j)) /\
  (forall i j, (i < N)%nat -> (j < N)%nat -> (sl = true \/ i <> j) ->
     1 <= p_ij param (po i) (pin j) (z i j) -> In (i, j) G).
Proof.
  intros P X Y Z p_ij param po pin z N sl us G rest Hu Hr.
  apply run_outcome in Hr; [|exact Hu]. rewrite binary_sample_bern in Hr.
  apply outcome_bern in Hr. destruct Hr as (H & Hs & EG & Hpos & Hall). rewrite map_id in EG. simpl in EG. subst G.
  split; [apply (sublists_NoDup _ (pairs N sl)); [apply NoDup_pairs | exact Hs]|].
  split.
  - intros i j Hij. pose proof (sublists_incl _ _ _ _ Hs Hij) as Hp. apply in_pairs in Hp.
    destruct Hp as (Hi & Hj & Ha). repeat split; auto.
    + intros -> ->. rewrite adm_diag in Ha. discriminate.
    + apply (Hpos (i, j) Hij).
  - intros i j Hi Hj Hsl H1. destruct (Hall (i, j)) as [Hin|Hlt]; [|exact Hin|simpl in Hlt; lra].
    apply in_pairs. repeat split; auto.
    destruct Hsl as [->|Hne]; [unfold allowed; apply orb_true_r | apply adm_neq; exact Hne].
Qed.

(** The same for the weighted sampler; links carry a positive scale where strengths are positive. *)
Lemma cremb_admissible : forall P X Y Z (p_ij : P -> X -> Y -> Z -> R) param po pin z s_out s_in N sl m us G rest,
  cremb_sample p_ij param po pin z s_out s_in N sl = Ok m ->
  (forall u, In u us -> 0 <= u < 1) ->
  run_draws m us = Some (G, rest) ->
  NoDup (map fst G) /\
  (forall i j w, In (i, j, w) G -> (i < N)%nat /\ (j < N)%nat /\ (sl = false -> i <> j) /\
     0 < p_ij param (po i) (pin j) (z i j) /\
     w = s_out i * s_in j / (sumn N s_out * p_ij param (po i) (pin j) (z i j))) /\
  (forall i j, (i < N)%nat -> (j < N)%nat -> (sl = true \/ i <> j) ->
     1 <= p_ij param (po i) (pin j) (z i j) -> exists w, In (i, j, w) G).
Proof.
  intros P X Y Z p_ij param po pin z s_out s_in N sl m us G rest Em Hu Hr.
  assert (Hc : sumn N s_out <> 0 /\ Rabs (1 - sumn N s_in / sumn N s_out) < 1 / 1000000).
  { unfold cremb_sample in Em. destruct (Reqb_spec (sumn N s_out) 0) as [E|E]; [discriminate|].
    split; [exact E|]. unfold guard in Em.
    destruct (Rltb_spec (Rabs (1 - sumn N s_in / sumn N s_out)) (1 / 1000000)); [assumption | discriminate]. }
  destruct Hc as [H0 H1]. rewrite cremb_sample_bern in Em by assumption. injection Em as <-.
  apply run_outcome in Hr; [|exact Hu].
  apply outcome_bern in Hr. destruct Hr as (H & Hs & EG & Hpos & Hall). simpl in EG. subst G.
  split.
  { rewrite map_map. rewrite (map_ext _ (fun e => e)) by (intros [i j]; reflexivity). rewrite map_id.
    apply (sublists_NoDup _ (pairs N sl)); [apply NoDup_pairs | exact Hs]. }
  split.
  - intros i j w Hij. apply in_map_iff in Hij. destruct Hij as ([i' j'] & E & Hij). injection E as -> -> Ew.
    pose proof (sublists_incl _ _ _ _ Hs Hij) as Hp. apply in_pairs in Hp.
    destruct Hp as (Hi & Hj & Ha). repeat split; auto.
    + intros -> ->. rewrite adm_diag in Ha. discriminate.
    + apply (Hpos (i, j) Hij).
  - intros i j Hi Hj Hsl Hp1. destruct (Hall (i, j)) as [Hin|Hlt]; [| |simpl in Hlt; lra].
    + apply in_pairs. repeat split; auto.
      destruct Hsl as [->|Hne]; [unfold allowed; apply orb_true_r | apply adm_neq; exact Hne].
    + eexists. apply in_map_iff. exists (i, j). split; [reflexivity | exact Hin].
Qed.

(** ** CReMB weights *)
Section Cremb.
Variables (P X Y Z : Type) (p_ij : P -> X -> Y -> Z -> R).
Variables (param : P) (po : nat -> X) (pin : nat -> Y) (z : nat -> nat -> Z).
Variables (s_out s_in : nat -> R) (N : nat).
Let pr (i j : nat) : R := p_ij param (po i) (pin j) (z i j).
Hypothesis Heq : sumn N s_in = sumn N s_out.
Hypothesis Hpos : sumn N s_out <> 0.
Hypothesis Hpr : forall i j, (i < N)%nat -> (j < N)%nat -> s_out i * s_in j <> 0 -> pr i j <> 0.

Lemma cremb_pair : exists m, cremb_sample p_ij param po pin z s_out s_in N true = Ok m /\
  forall i j, (i < N)%nat -> (j < N)%nat ->
    expect m (w_pair i j) = s_out i * s_in j / sumn N s_out.
Proof.
  eexists. split.
  - apply cremb_sample_bern; [exact Hpos|]. rewrite Heq.
    replace (1 - sumn N s_out / sumn N s_out) with 0 by (field; exact Hpos). rewrite Rabs_R0. lra.
  - intros i j Hi Hj. 
    pose proof (bern_w_pair (fun e => pr (fst e) (snd e))
      (fun e => s_out (fst e) * s_in (snd e) / (sumn N s_out * pr (fst e) (snd e))) (pairs N true) [] i j
      (NoDup_pairs N true)) as Hb. 
    etransitivity; [exact Hb|]. simpl. unfold w_pair; simpl.
    assert (Hm : mem (i, j) (pairs N true) = true).
    { apply mem_spec, in_pairs. repeat split; auto. unfold allowed. apply orb_true_r. }
    rewrite Hm. destruct (Req_dec (s_out i * s_in j) 0) as [E|E].
    + rewrite E. unfold Rdiv. ring.
    + assert (pr i j <> 0) by (apply Hpr; assumption). field. split; assumption.
Qed.

Lemma cremb_strengths : exists m, cremb_sample p_ij param po pin z s_out s_in N true = Ok m /\
  (forall i, (i < N)%nat -> expect m (fun G => sumn N (fun j => w_pair i j G)) = s_out i) /\
  (forall j, (j < N)%nat -> expect m (fun G => sumn N (fun i => w_pair i j G)) = s_in j).
Proof.
  destruct cremb_pair as (m & Em & Hm). exists m. split; [exact Em|]. split.
  - intros i Hi. rewrite (expect_sumn _ m N (fun j => w_pair i j)).
    rewrite (sumn_ext N _ (fun j => s_out i / sumn N s_out * s_in j)).
    + rewrite sumn_scal_l, Heq. field; exact Hpos.
    + intros j Hj. rewrite Hm by assumption. field; exact Hpos.
  - intros j Hj. rewrite (expect_sumn _ m N (fun i => w_pair i j)).
    rewrite (sumn_ext N _ (fun i => s_in j / sumn N s_out * s_out i)).
    + rewrite sumn_scal_l. field; exact Hpos.
    + intros i Hi. rewrite Hm by assumption. field; exact Hpos.
Qed.
End Cremb.

Lemma cremb_reject : forall P X Y Z (p_ij : P -> X -> Y -> Z -> R) param po pin z s_out s_in N sl,
  sumn N s_out <> 0 -> 1 / 1000000 <= Rabs (1 - sumn N s_in / sumn N s_out) ->
  cremb_sample p_ij param po pin z s_out s_in N sl = Raise AssertionError.
Proof.
  intros P X Y Z p_ij param po pin z s_out s_in N sl H0 H1. unfold cremb_sample.
  rewrite Reqb_false by exact H0. rewrite Rltb_false by exact H1. reflexivity.
Qed.
