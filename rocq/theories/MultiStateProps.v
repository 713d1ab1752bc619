(** Correct answers of the multi-label objects, and histories of queries on them. *)
From Verif Require Import Base Num Spec Kernels KernelFacts MultiKernels MultiFacts Prob Ensemble EnsembleFacts
  EnsembleProps Lib Ids Graphs DenseGraphs Spark EnsembleState Models ModelFacts StateFacts StateProps SparkFacts
  SparkMeasures SparkConfusion SparkLib Layers LayerFacts LayerProps LayerLib MultiState MultiStateFacts.

(** What a query to a multi-label object must answer.  [deg k l v]: the measure of label [k] at vertex
    [v] for the neighbour relation [l]. *)
Definition correct_label (N L : nat) (own : bool) (q : nat -> nat -> nat -> R) (base : query -> res answer -> Prop)
    {E} (read : E -> nat -> R) (deg : nat -> (nat -> nat -> R) -> nat -> R)
    (qu : lquery) (r : res (lanswer E (nat -> nat -> R))) : Prop :=
  match qu with
  | LBase b => exists a, base b a /\ r = match a with Ok v => Ok (ABase v) | Raise e => Raise e end
  | LEdges _ => exists e, r = Ok (AEdges e) /\ forall k, (k < L)%nat -> read e k = pair_sum N own (q k)
  | LDegree _ => exists a, r = Ok (ADegrees a) /\ forall v k, (v < N)%nat -> (k < L)%nat -> a v k = deg k (either_link (q k)) v
  | LOut _ => exists a, r = Ok (ADegrees a) /\ forall v k, (v < N)%nat -> (k < L)%nat -> a v k = deg k (out_link (q k)) v
  | LIn _ => exists a, r = Ok (ADegrees a) /\ forall v k, (v < N)%nat -> (k < L)%nat -> a v k = deg k (in_link (q k)) v
  end.

Definition correct_multi (u : multi) (g : R -> R) (d : nat -> num) (own : bool)
    : lquery -> res (lanswer (nat -> R) (nat -> nat -> R)) -> Prop :=
  let q := layer_prob g d (u_xs u) (u_ys u) in
  correct_label (u_N u) (u_L u) own q (correct_answer (u_model u d) (some_layer g (u_L u) d (u_xs u) (u_ys u)) own)
    (fun e => e) (fun k l => counted (u_N u) (u_xs u) (u_ys u) (q k) l own k).

Definition correct_dense_multi (v : multi_dense) (g : R -> R) (d : nat -> num) (own : bool)
    : lquery -> res (lanswer (list R) (nat -> nat -> R)) -> Prop :=
  let q := fun k i j => link_prob g [d k; v_x v i k; v_y v j k; Fin 1] in
  correct_label (v_N v) (v_L v) own q (correct_answer (v_model v d) (some_layer_dense g (v_L v) d (v_x v) (v_y v)) own)
    (fun e k => nth k e 0) (fun k l => nb_degree (v_N v) own l).

Definition valid_lquery (b own : bool) (q : lquery) : Prop := match q with LBase q => valid_query b own q | _ => True end.
(** Label queries with the recompute flag set. *)
Definition recomputing (q : lquery) : Prop :=
  match q with LBase _ => False | LEdges r | LDegree r | LOut r | LIn r => r = true end.
Definition label_query (q : lquery) : Prop := match q with LBase _ => False | _ => True end.

Lemma Forall2_map_r : forall A B (R : A -> B -> Prop) (f : A -> B) l, Forall (fun x => R x (f x)) l -> Forall2 R l (map f l).
Proof. intros A B R f l H. induction H; constructor; assumption. Qed.


Section Lab.
Variables (N L : nat) (own : bool) (q : nat -> nat -> nat -> R) (E : Type) (read : E -> nat -> R)
  (deg : nat -> (nat -> nat -> R) -> nat -> R).
Variables (e : E) (a b c : nat -> nat -> R) (now : query -> res answer) (base : query -> res answer -> Prop).
Hypothesis He : forall k, (k < L)%nat -> read e k = pair_sum N own (q k).
Hypothesis Hd : forall v k, (v < N)%nat -> (k < L)%nat ->
  a v k = deg k (either_link (q k)) v /\ b v k = deg k (out_link (q k)) v /\ c v k = deg k (in_link (q k)) v.

Lemma label_now : forall (ok : query -> Prop) qu, (forall b, ok b -> base b (now b)) -> lquery_ok ok qu ->
  correct_label N L own q base read deg qu (lanswer_now _ _ (Ok e) (Ok (a, b, c)) now qu).
Proof.
  intros ok qu H V. destruct qu as [bq|r|r|r|r]; cbn in *.
  - exists (now bq). split; [apply H, V | destruct (now bq); reflexivity].
  - exists e. split; [reflexivity | exact He].
  - exists a. split; [reflexivity|]. intros v k Hv Hk. apply (Hd v k Hv Hk).
  - exists b. split; [reflexivity|]. intros v k Hv Hk. apply (Hd v k Hv Hk).
  - exists c. split; [reflexivity|]. intros v k Hv Hk. apply (Hd v k Hv Hk).
Qed.
End Lab.

(** ** Sparse and Spark *)

Section Multi.
Variables (u : multi) (g : R -> R) (d : nat -> num) (own : bool).
Hypothesis Hu : library_multi u g.
Hypothesis Hd : forall k, (k < u_L u)%nat -> nonneg (d k).
Let m := u_model u d.
Let Inv (b : bool) (s : ens (nat -> num)) : Prop :=
  fresh_ok _ _ _ (u_p_ij u) (vertex (u_xs u)) (vertex (u_ys u)) (fun _ _ => tt) (u_N u) b d s /\ a_selfloops s = own.
Let now := answer_now _ _ _ (u_p_ij u) (vertex (u_xs u)) (vertex (u_ys u)) (fun _ _ => tt) (u_N u) d own.

Lemma u_base : forall b q s, (2 <= u_N u)%nat -> Inv b s -> valid_query b own q ->
  exists s', u_query u q s = (now q, s') /\ Inv b s'.
Proof.
  intros b q s HN [I1 I2] V.
  destruct (query_now _ _ _ (u_p_ij u) (vertex (u_xs u)) (vertex (u_ys u)) (fun _ _ => tt) (u_N u) b d q s HN
    (lib_prob_param m _ (multi_model u g d Hu Hd)) (fun _ _ _ => eq_refl) I1) as (s' & E1 & E2 & E3).
  - rewrite I2. exact V.
  - exists s'. split; [|split; [exact E2 | congruence]]. unfold u_query. rewrite E1, I2. reflexivity.
Qed.

Lemma u_base_correct : forall b q, (2 <= u_N u)%nat -> valid_query b own q ->
  correct_answer m (some_layer g (u_L u) d (u_xs u) (u_ys u)) own q (now q).
Proof.
  intros b q HN V. exact (answer_correct m _ (multi_model u g d Hu Hd) own q b HN (fun _ _ _ => eq_refl) V).
Qed.

Section Funs.
Variables (ef : (nat -> num) -> bool -> res (nat -> R))
  (df : (nat -> num) -> bool -> res ((nat -> nat -> R) * (nat -> nat -> R) * (nat -> nat -> R))) (pass : bool).
Variables (e : nat -> R) (a b c : nat -> nat -> R).
Hypothesis He : ef d own = Ok e.
Hypothesis Hdf : df d own = Ok (a, b, c).
Hypothesis Re : forall k, (k < u_L u)%nat -> e k = pair_sum (u_N u) own (layer_prob g d (u_xs u) (u_ys u) k).
Hypothesis Rd : degrees_right u g d own a b c.

Lemma multi_history : forall bl qs, (2 <= u_N u)%nat -> Forall (valid_lquery bl own) qs ->
  let r := run_lqueries ef df (u_query u) pass qs (new_obj (Some d) own) in
  Forall2 (correct_multi u g d own) qs (fst r) /\
  a_param (fst (snd r)) = Some d /\ a_selfloops (fst (snd r)) = own.
Proof.
  intros bl qs HN V. cbv zeta.
  destruct (lhistory_now _ _ _ ef df (u_query u) pass d own (Ok e) (Ok (a, b, c)) He Hdf (Inv bl) now (valid_query bl own)
    (fun s I => conj (proj1 (proj1 I)) (proj2 I)) (fun q s I V => u_base bl q s HN I V) qs (new_obj (Some d) own)) as [H1 [H2 H3]].
  - split; [apply new_fresh | reflexivity].
  - apply no_lab_ok.
  - eapply Forall_impl; [|exact V]. intros q. destruct q; cbn; auto.
  - rewrite H1. split; [|split; [exact (proj1 H2) | exact H3]].
    apply Forall2_map_r. eapply Forall_impl; [|exact V]. intros q Hq.
    apply (label_now (u_N u) (u_L u) own _ _ _ _ e a b c now _ Re Rd (valid_query bl own)).
    + intros b0 Hb. apply (u_base_correct bl); assumption.
    + destruct q; exact Hq.
Qed.

Lemma multi_recompute : forall q s, pass = true -> a_param (fst s) = Some d -> a_selfloops (fst s) = own -> recomputing q ->
  correct_multi u g d own q (fst (run_lquery ef df (u_query u) pass q s)).
Proof.
  intros q s Hp H1 H2 Hq.
  destruct (lquery_now _ _ _ ef df (u_query u) pass d own (Ok e) (Ok (a, b, c)) He Hdf
    (fun s => a_param s = Some d /\ a_selfloops s = own) now (fun _ => False) (fun s I => I)
    (fun q s I V => False_ind _ V) q s) as (s' & E1 & _).
  - split; assumption.
  - destruct q; cbn in *; auto.
  - left. destruct q; cbn in *; auto.
  - rewrite E1.
    apply (label_now (u_N u) (u_L u) own _ _ _ _ e a b c now _ Re Rd (fun _ => False)).
    + intros ? [].
    + destruct q; cbn in *; auto.
Qed.
End Funs.
End Multi.

(** ** Dense *)

Section DenseMulti.
Variables (v : multi_dense) (g : R -> R) (d : nat -> num) (own : bool).
Hypothesis Hv : library_dense_multi v g.
Hypothesis Hd : forall k, (k < v_L v)%nat -> nonneg (d k).
Let m := v_model v d.
Let Inv (b : bool) (s : ens (nat -> num)) : Prop :=
  fresh_ok _ _ _ (v_p_ij v) (v_x v) (v_y v) (fun _ _ => tt) (v_N v) b d s /\ a_selfloops s = own.
Let now := answer_now _ _ _ (v_p_ij v) (v_x v) (v_y v) (fun _ _ => tt) (v_N v) d own.

Lemma v_degrees_spec : exists a b c, v_degrees_label v d own = Ok (a, b, c) /\
  forall i k, (i < v_N v)%nat -> (k < v_L v)%nat ->
    let q := fun i j => link_prob g [d k; v_x v i k; v_y v j k; Fin 1] in
    a i k = nb_degree (v_N v) own (either_link q) i /\ b i k = nb_degree (v_N v) own (out_link q) i /\
    c i k = nb_degree (v_N v) own (in_link q) i.
Proof.
  destruct (dense_multi_kernels v g Hv) as [K H].
  unfold v_degrees_label. do 3 eexists. split; [reflexivity|]. intros i k Hi Hk. cbv beta zeta.
  pose proof (dense_degrees_spec g _ _ _ K (v_dyad v) (v_L v) (v_N v) d (v_x v) (v_y v)) as S.
  specialize (S (fun i k Hi Hk => proj1 (H i k Hi Hk)) (fun i k Hi Hk => proj2 (H i k Hi Hk)) Hd own k i Hk Hi).
  destruct (exp_degrees_label_dense _ _ _ _ _ _ _ _) as [[a b] c]. exact S.
Qed.

Lemma v_edges_spec : v_N v = v_L v -> exists e, v_edges_label v d own = Ok e /\
  forall k, (k < v_L v)%nat -> nth k e 0 = pair_sum (v_N v) own (fun i j => link_prob g [d k; v_x v i k; v_y v j k; Fin 1]).
Proof.
  intros HN. destruct (dense_multi_kernels v g Hv) as [K H].
  unfold v_edges_label. eexists. split.
  - apply (dense_edges_spec g _ _ _ K (v_dyad v) (v_L v) (v_N v) d (v_x v) (v_y v)
      (fun i k Hi Hk => proj1 (H i k Hi Hk)) (fun i k Hi Hk => proj2 (H i k Hi Hk)) Hd own). lia.
  - intros k Hk. rewrite (nth_indep _ 0 ((fun k => pair_sum (v_N v) own (fun i j => link_prob g [d k; v_x v i k; v_y v j k; Fin 1])) 0%nat)).
    + rewrite (map_nth (fun k => pair_sum (v_N v) own (fun i j => link_prob g [d k; v_x v i k; v_y v j k; Fin 1])) (seq 0 (v_N v)) 0%nat k).
      rewrite seq_nth by lia. reflexivity.
    + rewrite map_length, seq_length. lia.
Qed.

Lemma v_base : forall b q s, (2 <= v_N v)%nat -> Inv b s -> valid_query b own q ->
  exists s', v_query v q s = (now q, s') /\ Inv b s'.
Proof.
  intros b q s HN [I1 I2] V.
  destruct (query_now _ _ _ (v_p_ij v) (v_x v) (v_y v) (fun _ _ => tt) (v_N v) b d q s HN
    (lib_prob_param m _ (dense_multi_model v g d Hv Hd)) (fun _ _ _ => eq_refl) I1) as (s' & E1 & E2 & E3).
  - rewrite I2. exact V.
  - exists s'. split; [|split; [exact E2 | congruence]]. unfold v_query. rewrite E1, I2. reflexivity.
Qed.

Lemma v_base_correct : forall b q, (2 <= v_N v)%nat -> valid_query b own q ->
  correct_answer m (some_layer_dense g (v_L v) d (v_x v) (v_y v)) own q (now q).
Proof.
  intros b q HN V. exact (answer_correct m _ (dense_multi_model v g d Hv Hd) own q b HN (fun _ _ _ => eq_refl) V).
Qed.

Definition edges_defined (q : lquery) : Prop := match q with LEdges _ => v_N v = v_L v | _ => True end.

Lemma dense_multi_history : forall bl qs, (2 <= v_N v)%nat -> Forall (valid_lquery bl own) qs -> Forall edges_defined qs ->
  let r := v_asks v qs (new_obj (Some d) own) in
  Forall2 (correct_dense_multi v g d own) qs (fst r) /\
  a_param (fst (snd r)) = Some d /\ a_selfloops (fst (snd r)) = own.
Proof.
  intros bl qs HN V Hed. cbv zeta. destruct v_degrees_spec as (a & b & c & Ed & Rd).
  destruct (lhistory_now _ _ _ (v_edges_label v) (v_degrees_label v) (v_query v) true d own (v_edges_label v d own) (Ok (a, b, c))
    eq_refl Ed (Inv bl) now (valid_query bl own)
    (fun s I => conj (proj1 (proj1 I)) (proj2 I)) (fun q s I V => v_base bl q s HN I V) qs (new_obj (Some d) own)) as [H1 [H2 H3]].
  - split; [apply new_fresh | reflexivity].
  - apply no_lab_ok.
  - eapply Forall_impl; [|exact V]. intros q. destruct q; cbn; auto.
  - unfold v_asks. rewrite H1. split; [|split; [exact (proj1 H2) | exact H3]].
    apply Forall2_map_r. rewrite Forall_forall in V, Hed |- *. intros q Hq. specialize (V q Hq). specialize (Hed q Hq).
    destruct q as [bq|r|r|r|r]; cbn in *.
    + exists (now bq). split; [apply (v_base_correct bl); assumption | destruct (now bq); reflexivity].
    + destruct (v_edges_spec Hed) as (e & E1 & E2). exists e. rewrite E1. split; [reflexivity | exact E2].
    + exists a. split; [reflexivity|]. intros i k Hi Hk. apply (Rd i k Hi Hk).
    + exists b. split; [reflexivity|]. intros i k Hi Hk. apply (Rd i k Hi Hk).
    + exists c. split; [reflexivity|]. intros i k Hi Hk. apply (Rd i k Hi Hk).
Qed.
End DenseMulti.
