(** Object-level properties of the library's models. *)
From Verif Require Import Base Num Spec Kernels KernelFacts MultiKernels MultiFacts Prob Ensemble EnsembleFacts
  EnsembleProps EnsembleState Models ModelFacts StateFacts.
From Coq Require Import FunctionalExtensionality.

(** The neighbour relation meant by a direction string. *)
Definition dir_link (d : dir) (q : nat -> nat -> R) : nat -> nat -> R :=
  match d with
  | Dout => out_link q
  | Din => in_link q
  | Doutin => either_link q
  | Dother => fun _ _ => 0
  end.

Definition constant_dyad (m : model) : Prop := forall i j k, m_dyad m i j = m_dyad m i k.

(** The self-loop option a call runs with. *)
Definition effective (selfloops : option bool) (own : bool) : bool :=
  match selfloops with Some b => b | None => own end.

(** The degree caches of an object are missing or those of its current parameter and option. *)
Definition degrees_current (m : model) (s : ens (mP m)) : Prop :=
  deg_ok _ _ _ (m_p_ij m) (m_out m) (m_in m) (m_dyad m) (m_N m) (m_param m) s.

Section Obj.
Variables (m : model) (q : nat -> nat -> R).
Hypothesis Hm : library_model m q.
Let N := m_N m.
Let pr (i j : nat) : R := m_p_ij m (m_param m) (m_out m i) (m_in m j) (m_dyad m i j).

Lemma lib_prob_param : prob_param _ _ _ (m_p_ij m) (m_out m) (m_in m) (m_dyad m) N (m_param m).
Proof.
  intros i j Hi Hj. rewrite (proj1 (library_kernel m q Hm i j Hi Hj)). apply (lib_prob m q Hm); assumption.
Qed.

Lemma deg_lib : forall d sl v, d <> Dother -> (v < N)%nat ->
  deg_now _ _ _ (m_p_ij m) (m_out m) (m_in m) (m_dyad m) N d (m_param m) sl v = nb_degree N sl (dir_link d q) v.
Proof.
  intros d sl v Hd Hv. rewrite deg_now_spec by assumption.
  unfold nb_degree.
  replace (if sl then m_p_ij m (m_param m) (m_out m v) (m_in m v) (m_dyad m v v) else 0)
    with (if Nat.ltb v N then (if sl then dir_link d q v v else 0) else 0).
  2:{ apply Nat.ltb_lt in Hv as Hv'. rewrite Hv'. destruct sl; [|reflexivity].
      rewrite (proj1 (library_kernel m q Hm v v Hv Hv)). destruct d; cbn; unfold out_link, in_link, either_link;
        rewrite ?Nat.eqb_refl; try reflexivity. exfalso; apply Hd; reflexivity. }
  rewrite <- (sumn_delta' N v (fun j => if sl then dir_link d q v j else 0)), <- sumn_plus.
  apply sumn_ext; intros j Hj. unfold allowed. destruct (Nat.eqb_spec v j) as [<-|Hne]; cbn [negb orb].
  - destruct sl; ring.
  - rewrite Rplus_0_r. unfold dir_prob, dir_link, out_link, in_link, either_link.
    rewrite (proj1 (library_kernel m q Hm v j Hv Hj)), (proj1 (library_kernel m q Hm j v Hj Hv)).
    destruct d; try reflexivity. destruct (Nat.eqb_spec v j); [contradiction|]. ring.
Qed.

Lemma nn_lib : forall d sl prop v, constant_dyad m -> d <> Dother -> (v < N)%nat -> (sl = true -> (2 <= N)%nat) ->
  nn_now _ _ _ (m_p_ij m) (m_out m) (m_in m) (m_dyad m) N prop d (m_param m) sl v
  = if Reqb (nb_degree N sl (dir_link d q) v) 0 then 0
    else nb_total N sl (dir_link d q) prop v / nb_degree N sl (dir_link d q) v.
Proof.
  intros d sl prop v Hc Hd Hv HN. unfold nn_now.
  destruct (exp_av_nn_spec _ _ _ (m_p_ij m) (m_param m) (m_out m) (m_in m) (m_dyad m) N prop d sl Hd HN) as (a & E & A).
  rewrite E. rewrite (deg_lib d sl v Hd Hv).
  destruct (Reqb_spec (nb_degree N sl (dir_link d q) v) 0) as [Z0|_].
  - apply (nn_zero _ _ _ (m_p_ij m) (m_out m) (m_in m) (m_dyad m) N d (m_param m) sl v prop a); auto using lib_prob_param.
    rewrite deg_lib; assumption.
  - f_equal. rewrite (A v Hv). unfold nb_total. rewrite (Hc v (N - 2)%nat v).
    rewrite (proj1 (library_kernel m q Hm v v Hv Hv)).
    replace (if sl then q v v * prop v else 0)
      with (if Nat.ltb v N then (if sl then dir_link d q v v * prop v else 0) else 0).
    2:{ apply Nat.ltb_lt in Hv as Hv'. rewrite Hv'. destruct sl; [|reflexivity].
        destruct d; cbn; unfold out_link, in_link, either_link;
        rewrite ?Nat.eqb_refl; try reflexivity. exfalso; apply Hd; reflexivity. }
    rewrite <- (sumn_delta' N v (fun j => if sl then dir_link d q v j * prop j else 0)), <- sumn_plus.
    apply sumn_ext; intros j Hj. unfold allowed. destruct (Nat.eqb_spec v j) as [<-|Hne]; cbn [negb orb].
    + destruct sl; ring.
    + rewrite Rplus_0_r. unfold dir_prob, dir_link, out_link, in_link, either_link.
      rewrite (proj1 (library_kernel m q Hm v j Hv Hj)), (proj1 (library_kernel m q Hm j v Hj Hv)).
      destruct d; try reflexivity. destruct (Nat.eqb_spec v j); [contradiction|]. ring.
Qed.

(** C38 *)
Lemma lib_av_nn : forall s prop nd sl dr, a_param s = Some (m_param m) -> constant_dyad m -> nd <> Dother ->
  (effective sl (a_selfloops s) = true -> (2 <= N)%nat) -> dr = true \/ degrees_current m s ->
  exists a s', o_av_nn_property m N prop nd sl dr s = (Ok a, s') /\
    forall v, (v < N)%nat ->
      let b := effective sl (a_selfloops s) in
      let D := nb_degree N b (dir_link nd q) v in
      a v = if Reqb D 0 then 0 else nb_total N b (dir_link nd q) prop v / D.
Proof.
  intros s prop nd sl dr Hp Hc Hd HN Hs.
  destruct (property_now _ _ _ (m_p_ij m) (m_out m) (m_in m) (m_dyad m) N (m_param m) prop nd sl dr s Hp Hs
    lib_prob_param Hc Hd HN) as (s' & E & _).
  do 2 eexists. split; [exact E|]. intros v Hv. cbv zeta. rewrite nn_lib; try assumption. reflexivity.
Qed.

(** C45: with recompute the value is that of the current parameter, whatever the caches hold. *)
Lemma lib_recompute : forall s, a_param s = Some (m_param m) ->
  fst (o_num_edges m true s) = Ok (pair_sum N (a_selfloops s) q) /\
  forall d, d <> Dother -> exists a, fst (o_degree m d true s) = Ok a /\
    forall v, (v < N)%nat -> a v = nb_degree N (a_selfloops s) (dir_link d q) v.
Proof.
  intros s Hp. split.
  - destruct (num_edges_now _ _ _ (m_p_ij m) (m_out m) (m_in m) (m_dyad m) N (m_param m) true s Hp (or_introl eq_refl)) as (s' & E & _).
    unfold o_num_edges; fold N; rewrite E. cbn [fst]. f_equal.
    pose proof (lib_edges_degrees m q Hm (a_selfloops s)) as H. destruct (m_degrees m (a_selfloops s)) as [[? ?] ?].
    apply H.
  - intros d Hd.
    destruct (degree_of_now _ _ _ (m_p_ij m) (m_out m) (m_in m) (m_dyad m) N (m_param m) d true s Hp Hd (or_introl eq_refl)) as (s' & E & _).
    unfold o_degree; fold N; rewrite E. eexists; split; [reflexivity|]. intros v Hv. apply deg_lib; assumption.
Qed.

(** What a query must answer, from the probabilities alone; vectors are compared on 0..N-1. *)
Definition correct_answer (own : bool) (qu : query) (r : res answer) : Prop :=
  match qu with
  | QEdges _ => r = Ok (Scalar (pair_sum N own q))
  | QDegree d _ => exists a, r = Ok (Vector a) /\
      forall v, (v < N)%nat -> a v = nb_degree N own (dir_link d q) v
  | QProperty len prop nd sl _ =>
      if Nat.eqb len N then
        exists a, r = Ok (Vector a) /\ forall v, (v < N)%nat ->
          let b := effective sl own in
          let D := nb_degree N b (dir_link nd q) v in
          a v = if Reqb D 0 then 0 else nb_total N b (dir_link nd q) prop v / D
      else r = Raise ValueError
  | QNNDegree dd nd sl _ _ =>
      exists a, r = Ok (Vector a) /\ forall v, (v < N)%nat ->
        let b := effective sl own in
        let D := nb_degree N b (dir_link nd q) v in
        a v = if Reqb D 0 then 0 else nb_total N b (dir_link nd q) (nb_degree N b (dir_link dd q)) v / D
  end.

Lemma answer_correct : forall own qu b, (2 <= N)%nat -> constant_dyad m -> valid_query b own qu ->
  correct_answer own qu (answer_now _ _ _ (m_p_ij m) (m_out m) (m_in m) (m_dyad m) N (m_param m) own qu).
Proof.
  intros own qu b HN Hc V. destruct qu as [rc|d rc|len prop nd sl dr|dd nd sl dr rc]; cbn in *.
  - do 2 f_equal. pose proof (lib_edges_degrees m q Hm own) as H. destruct (m_degrees m own) as [[? ?] ?]. apply H.
  - eexists; split; [reflexivity|]. intros v Hv. apply deg_lib; assumption.
  - destruct (Nat.eqb len N); [|reflexivity]. eexists; split; [reflexivity|]. intros v Hv. cbv zeta.
    apply nn_lib; auto.
  - destruct V as (Vd & Vn & _). eexists; split; [reflexivity|]. intros v Hv. cbv zeta.
    rewrite nn_lib by auto. fold (effective sl own).
    assert (T : nb_total N (effective sl own) (dir_link nd q)
       (deg_now _ _ _ (m_p_ij m) (m_out m) (m_in m) (m_dyad m) N dd (m_param m) (effective sl own)) v
       = nb_total N (effective sl own) (dir_link nd q) (nb_degree N (effective sl own) (dir_link dd q)) v).
    { unfold nb_total. apply sumn_ext; intros j Hj. rewrite deg_lib by assumption. reflexivity. }
    rewrite T. reflexivity.
Qed.

(** Histories of queries with valid directions; all nearest-neighbour degree queries use the same
    effective self-loop option [b]. *)
Lemma lib_history : forall b own qs, (2 <= N)%nat -> constant_dyad m -> Forall (valid_query b own) qs ->
  let r := o_queries m qs (new_ens (Some (m_param m)) own) in
  Forall2 (correct_answer own) qs (fst r) /\
  a_param (snd r) = Some (m_param m) /\ a_selfloops (snd r) = own.
Proof.
  intros b own qs HN Hc V r.
  destruct (history_now _ _ _ (m_p_ij m) (m_out m) (m_in m) (m_dyad m) N b (m_param m) own qs HN lib_prob_param Hc V
     (new_ens (Some (m_param m)) own) (new_fresh _ _ _ _ _ _ _ _ b (m_param m) own) eq_refl) as (A & B & C).
  split; [|auto]. clear B C.
  change (fst r = map (answer_now _ _ _ (m_p_ij m) (m_out m) (m_in m) (m_dyad m) N (m_param m) own) qs) in A.
  rewrite A. clear A r. induction V as [|qu qs Hq V IH]; cbn; constructor; auto.
  eapply answer_correct; eauto.
Qed.

Definition directions_valid (qu : query) : Prop :=
  match qu with
  | QEdges _ => True
  | QDegree d _ => True
  | QProperty _ _ nd _ _ => nd <> Dother
  | QNNDegree dd nd _ _ _ => dd <> Dother /\ nd <> Dother
  end.

Lemma lib_keeps : forall s qu, (2 <= N)%nat -> constant_dyad m -> a_param s = Some (m_param m) ->
  degrees_current m s -> directions_valid qu ->
  a_param (snd (o_query m qu s)) = a_param s /\ a_selfloops (snd (o_query m qu s)) = a_selfloops s.
Proof.
  intros s qu HN Hc Hp Hs V.
  apply (query_keeps _ _ _ (m_p_ij m) (m_out m) (m_in m) (m_dyad m) N (m_param m) qu s HN lib_prob_param Hc Hp).
  destruct qu; cbn in *; auto. destruct V; auto.
Qed.
End Obj.

(** A cached nearest-neighbour degree is returned whatever self-loop option is asked for. *)
Lemma nn_cached : forall m dd nd sl dr rc s a s' sl' p,
  o_av_nn_degree m dd nd sl dr rc s = (Ok a, s') -> a_param s' = Some p ->
  o_av_nn_degree m dd nd sl' false false s' = (Ok a, s').
Proof.
  intros m dd nd sl dr rc s a s' sl' p H Hp.
  assert (C : a_nn s' nd dd = Some a).
  { unfold o_av_nn_degree, expected_av_nn_degree in H. destruct (a_param s); [|discriminate].
    assert (K : forall (o : option (nat -> R)) t, (attr o, t) = (Ok a, s') -> o = Some a /\ t = s').
    { intros o t E. destruct o; inversion E; subst; auto. }
    destruct (is_none (a_nn s nd dd) || rc || dr).
    - destruct (set_selfloops sl dr s) as [dr1 s1]. destruct (degree_of _ _ _ _ _ dd dr1 s1) as [[deg|e] s2]; [|discriminate].
      destruct (expected_av_nn_property _ _ _ _ _ _ _ _ _ _ s2) as [[r|e] s3]; [|discriminate].
      apply K in H. destruct H as [H <-]. exact H.
    - apply K in H. destruct H as [H <-]. exact H. }
  unfold o_av_nn_degree, expected_av_nn_degree. rewrite Hp, C. reflexivity.
Qed.

(** Sampling and likelihood at the object level. *)
Section Draw.
Variables (m : model) (q : nat -> nat -> R).
Hypothesis Hm : library_model m q.
Let N := m_N m.

Lemma obj_sample : forall s G, a_param s = Some (m_param m) -> In G (all_graphs N (a_selfloops s)) ->
  exists p l, o_sample m NoWeights None s = Ok p /\
    o_log_likelihood m (Matrix N N (row_of G)) None s = Ok l /\
    Fin (prob p (fun H => list_eqb (map fst H) G)) = nexp l.
Proof.
  intros s G Hp HG. unfold o_sample, sample, o_log_likelihood, log_likelihood. rewrite Hp.
  fold N. rewrite !Nat.eqb_refl. cbn [andb guard].
  do 2 eexists. split; [reflexivity|]. split; [reflexivity|].
  etransitivity; [|exact (lib_sample m q Hm (a_selfloops s) G HG)]. f_equal. unfold prob, m_sample. fold N.
  rewrite expect_bind. apply expect_ext. intros H. cbn [expect]. rewrite map_map. cbn. rewrite map_id. reflexivity.
Qed.

(** Self-loops of the graph do not enter the likelihood when they are not allowed. *)
Lemma obj_diagonal : forall s G, a_param s = Some (m_param m) -> a_selfloops s = false ->
  o_log_likelihood m (Matrix N N (row_of G)) None s
  = o_log_likelihood m (Matrix N N (row_of (filter (fun e => negb (Nat.eqb (fst e) (snd e))) G))) None s.
Proof.
  intros s G Hp Hs. unfold o_log_likelihood, log_likelihood. rewrite Hp, Hs. fold N.
  rewrite !Nat.eqb_refl. cbn [andb guard]. f_equal.
  pose proof (lib_likelihood m q Hm false G) as A.
  pose proof (lib_likelihood m q Hm false (filter (fun e => negb (Nat.eqb (fst e) (snd e))) G)) as B.
  unfold m_likelihood in A, B. fold N in A, B.
  assert (W : graph_weight N false q G = graph_weight N false q (filter (fun e => negb (Nat.eqb (fst e) (snd e))) G)).
  { unfold graph_weight. apply prodn_ext; intros i _. apply prodn_ext; intros j _.
    unfold allowed. destruct (Nat.eqb_spec i j) as [|Hne]; cbn [negb orb]; [reflexivity|].
    replace (mem (i, j) (filter (fun e => negb (Nat.eqb (fst e) (snd e))) G)) with (mem (i, j) G); [reflexivity|].
    apply Bool.eq_iff_eq_true. rewrite !mem_spec, filter_In. cbn.
    destruct (Nat.eqb_spec i j); [contradiction|]. cbn; tauto. }
  rewrite <- W in B. destruct A as [[A1 A2]|[A1 A2]], B as [[B1 B2]|[B1 B2]]; try lra; congruence.
Qed.
End Draw.
