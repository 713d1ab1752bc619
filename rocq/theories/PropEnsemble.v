(** Properties C36-C46 and C65: expected measures, likelihood and sampling of the library's models.
    [library_model m q] (Models.v) says that [m] is one of the eight models (sparse or dense, single or
    multi label) with admissible data and that [q] are its documented link probabilities. *)
From Verif Require Import Base Num Spec Kernels KernelFacts MultiKernels MultiFacts Prob Ensemble EnsembleFacts
  EnsembleProps EnsembleState Models ModelFacts StateFacts StateProps.

(** ** A concrete model used in the examples: three vertices, the last with zero in-fitness. *)
Definition ex_x (i : nat) : num := Fin 1.
Definition ex_y (i : nat) : num := Fin (if Nat.ltb i 2 then 1 else 0).
Definition ex_z (i j : nat) : num := Fin 1.
Definition ex_model : model := FitnessModel 3 (Fin 1) ex_x ex_y ex_z.
Definition ex_q (i j : nat) : R := link_prob logistic [Fin 1; ex_x i; ex_y j; ex_z i j].

Lemma ex_lib : library_model ex_model ex_q.
Proof.
  apply lib_fitness; simpl; try lra.
  - intros i Hi. unfold ex_x, ex_y. destruct (Nat.ltb i 2); simpl; lra.
  - intros. lra.
Qed.

Lemma ex_q_val : forall i j, ex_q i j = if Nat.ltb j 2 then 1 / 2 else 0.
Proof.
  intros i j. unfold ex_q, link_prob, ex_x, ex_y, ex_z. cbn [existsb is_zero is_infinite prodl toR].
  destruct (Nat.ltb j 2); rewrite !(Reqb_false 1 0) by lra; [|rewrite (Reqb_true 0 0) by reflexivity]; cbn.
  - unfold logistic. field.
  - reflexivity.
Qed.

(** A two-vertex model with all probabilities 1/2. *)
Definition two_model (d : R) : model := FitnessModel 2 (Fin d) (fun _ => Fin 1) (fun _ => Fin 1) (fun _ _ => Fin 1).
Definition two_q (d : R) (i j : nat) : R := link_prob logistic [Fin d; Fin 1; Fin 1; Fin 1].
Lemma two_lib : forall d, 0 <= d -> library_model (two_model d) (two_q d).
Proof.
  intros d Hd. apply (lib_fitness 2 (Fin d) (fun _ => Fin 1) (fun _ => Fin 1) (fun _ _ => Fin 1)); simpl; auto.
  - intros; lra.
  - intros; lra.
Qed.
Lemma two_q_val : forall d i j, 0 < d -> two_q d i j = d / (1 + d).
Proof.
  intros d i j Hd. unfold two_q, link_prob. cbn [existsb is_zero is_infinite].
  rewrite (Reqb_false d 0), !(Reqb_false 1 0) by lra. cbn. unfold logistic. rewrite !Rmult_1_r. reflexivity.
Qed.

(** * C36: edge count and degree sums *)

Theorem C36_edges_degrees : forall m q sl, library_model m q ->
  let N := m_N m in
  let '(d, d_out, d_in) := m_degrees m sl in
  m_edges m sl = pair_sum N sl q /\
  sumn N d_out = pair_sum N sl q /\ sumn N d_in = pair_sum N sl q /\
  (forall v, (v < N)%nat -> d_out v = sumn N (fun j => if allowed sl v j then q v j else 0)) /\
  (forall v, (v < N)%nat -> d_in v = sumn N (fun i => if allowed sl i v then q i v else 0)).
Proof. exact (fun m q sl H => lib_edges_degrees m q H sl). Qed.
Print Assumptions C36_edges_degrees.

Example C36_case : library_model ex_model ex_q /\ m_edges ex_model false = 2.
Proof.
  split; [exact ex_lib|]. pose proof (C36_edges_degrees ex_model ex_q false ex_lib) as H.
  destruct (m_degrees ex_model false) as [[? ?] ?]. destruct H as [-> _].
  unfold pair_sum; simpl. rewrite !ex_q_val. simpl. field.
Qed.

(** * C37: expected measures are means over the ensemble *)

Theorem C37_expected_means : forall m q sl, library_model m q ->
  let N := m_N m in
  let mean := ensemble_mean N sl (fun G => toR (nexp (m_likelihood m G sl))) in
  let '(d, d_out, d_in) := m_degrees m sl in
  m_edges m sl = mean (g_edges N) /\
  forall v, (v < N)%nat ->
    d v = mean (fun G => g_deg N G v) /\ d_out v = mean (fun G => g_out N G v) /\
    d_in v = mean (fun G => g_in N G v).
Proof. exact (fun m q sl H => lib_means m q H sl). Qed.
Print Assumptions C37_expected_means.

Example C37_case : library_model ex_model ex_q /\ length (all_graphs (m_N ex_model) false) = 64%nat.
Proof. split; [exact ex_lib | reflexivity]. Qed.

(** * C38: expected nearest-neighbour averages *)

(** [s] is any object of the model's class holding the model's parameter whose degree caches are not
    stale (or which is asked to recompute them). *)
Theorem C38_average : forall m q s prop nd sl dr, library_model m q -> a_param s = Some (m_param m) ->
  constant_dyad m -> nd <> Dother -> (effective sl (a_selfloops s) = true -> (2 <= m_N m)%nat) ->
  dr = true \/ degrees_current m s ->
  exists a s', o_av_nn_property m (m_N m) prop nd sl dr s = (Ok a, s') /\
    forall v, (v < m_N m)%nat ->
      let b := effective sl (a_selfloops s) in
      let D := nb_degree (m_N m) b (dir_link nd q) v in
      a v = if Reqb D 0 then 0 else nb_total (m_N m) b (dir_link nd q) prop v / D.
Proof. exact (fun m q s prop nd sl dr H => lib_av_nn m q H s prop nd sl dr). Qed.
Print Assumptions C38_average.

(** False for a subclass whose dyadic factor depends on the partner: the self-loop pass evaluates the
    dyadic factor of the pair (i, N-2) instead of (i, i).  The exact value is that of
    exp_av_nn_spec (EnsembleFacts.v). *)
Theorem C38_stale_dyad_refuted : exists m q s prop v a s', library_model m q /\
  s = new_ens (Some (m_param m)) true /\ (v < m_N m)%nat /\
  o_av_nn_property m (m_N m) prop Dout None false s = (Ok a, s') /\
  0 < nb_degree (m_N m) true (out_link q) v /\
  a v <> nb_total (m_N m) true (out_link q) prop v / nb_degree (m_N m) true (out_link q) v.
Proof.
  set (z := fun i j : nat => if Nat.eqb i 1 && Nat.eqb j 1 then Fin 3 else Fin 1).
  set (m := FitnessModel 2 (Fin 1) (fun _ => Fin 1) (fun _ => Fin 1) z).
  set (q := fun i j : nat => link_prob logistic [Fin 1; Fin 1; Fin 1; z i j]).
  assert (L : library_model m q).
  { apply (lib_fitness 2 (Fin 1) (fun _ => Fin 1) (fun _ => Fin 1) z).
    - simpl; lra.
    - intros; simpl; lra.
    - intros i j _ _. unfold z. destruct (_ && _); simpl; lra. }
  assert (Q : forall i j, q i j = if Nat.eqb i 1 && Nat.eqb j 1 then 3 / 4 else 1 / 2).
  { intros i j. unfold q, z, link_prob. destruct (_ && _); cbn [existsb is_zero is_infinite];
      rewrite !(Reqb_false 1 0) by lra; rewrite ?(Reqb_false 3 0) by lra; cbn; unfold logistic; field. }
  assert (K : forall i j, m_p_ij m (m_param m) (m_out m i) (m_in m j) (z i j) = q i j).
  { intros i j. change (toR (fit_p_ij (Fin 1) (Fin 1) (Fin 1) (z i j)) = q i j). unfold z.
    rewrite (view_link_prob fit_p_ij logistic fit_view); try (destruct (_ && _); simpl; lra); try (simpl; lra). reflexivity. }
  set (s := new_ens (Some (m_param m)) true : ens (mP m)). set (prop := fun _ : nat => 1).
  destruct (exp_av_nn_spec _ _ _ (m_p_ij m) (m_param m) (m_out m) (m_in m) (m_dyad m) 2 prop Dout true)
    as (a & E & A); [discriminate | lia |].
  destruct (degree_of_now _ _ _ (m_p_ij m) (m_out m) (m_in m) (m_dyad m) 2 (m_param m) Dout false s eq_refl)
    as (s' & Ed & _ & S' & _); [discriminate | right; left; auto |].
  assert (Dv : forall v, (v < 2)%nat ->
     deg_now _ _ _ (m_p_ij m) (m_out m) (m_in m) (m_dyad m) 2 Dout (m_param m) true v = nb_degree 2 true (out_link q) v).
  { intros v Hv. apply (deg_lib m q L Dout true v); [discriminate | exact Hv]. }
  assert (D0 : nb_degree 2 true (out_link q) 0 = 1) by (unfold nb_degree, out_link; simpl; rewrite !Q; simpl; field).
  assert (D1 : nb_degree 2 true (out_link q) 1 = 5 / 4) by (unfold nb_degree, out_link; simpl; rewrite !Q; simpl; field).
  exists m, q, s, prop, 1%nat.
  exists (fun i => if Reqb (deg_now _ _ _ (m_p_ij m) (m_out m) (m_in m) (m_dyad m) 2 Dout (m_param m) true i) 0 then a i
                   else a i / deg_now _ _ _ (m_p_ij m) (m_out m) (m_in m) (m_dyad m) 2 Dout (m_param m) true i), s'.
  split; [exact L|]. split; [reflexivity|]. split; [simpl; lia|]. split; [|split].
  - unfold o_av_nn_property, expected_av_nn_property. change (a_param s) with (Some (m_param m)). cbn [m_N m FitnessModel].
    rewrite Nat.eqb_refl. cbn [negb set_selfloops]. rewrite Ed, S'. change (a_selfloops s) with true. rewrite E.
    assert (F : forallb (fun i => negb (Reqb (deg_now _ _ _ (m_p_ij m) (m_out m) (m_in m) (m_dyad m) 2 Dout (m_param m) true i) 0)
                   || Reqb (a i) 0) (seq 0 2) = true).
    { cbn [seq forallb]. rewrite !Dv by lia. rewrite D0, D1. rewrite (Reqb_false 1 0), (Reqb_false (5 / 4) 0) by lra. reflexivity. }
    rewrite F. unfold restore. rewrite S'. reflexivity.
  - change (m_N m) with 2%nat. rewrite D1. lra.
  - change (m_N m) with 2%nat. cbn beta. rewrite Dv by lia. rewrite D1. rewrite Reqb_false by lra.
    rewrite (A 1%nat) by lia. unfold nb_total, out_link, dir_prob, prop. cbn [sumn Nat.eqb Nat.sub allowed negb orb].
    change (m_dyad m) with z. rewrite !K. cbn [allowed Nat.eqb negb orb]. rewrite !Q. cbn -[fit_p_ij]. rewrite fit_p_ij_fin by lra. unfold logistic; cbn. lra.
Qed.
Print Assumptions C38_stale_dyad_refuted.

Example C38_case : library_model ex_model ex_q /\ constant_dyad ex_model /\
  degrees_current ex_model (new_ens (Some (m_param ex_model)) true) /\
  nb_degree 3 true (dir_link Doutin ex_q) 0 = 1 / 2 + 3 / 4 + 1 / 2 /\
  nb_degree 3 true (dir_link Din ex_q) 2 = 0.
Proof.
  split; [exact ex_lib|]. split; [intros i j k; reflexivity|]. split; [left; auto|].
  unfold nb_degree, dir_link, either_link, in_link. cbn [sumn allowed Nat.eqb negb orb].
  rewrite !ex_q_val. cbn. split; field.
Qed.

(** * C39: the likelihood is a probability distribution *)

Theorem C39_total : forall m q sl, library_model m q ->
  suml (fun G => toR (nexp (m_likelihood m G sl))) (all_graphs (m_N m) sl) = 1.
Proof. exact (fun m q sl H => lib_total m q H sl). Qed.
Print Assumptions C39_total.

(** The value: the logarithm of the product over admissible pairs. *)
Theorem C39_value : forall m q sl G, library_model m q ->
  log_of (graph_weight (m_N m) sl q G) (m_likelihood m G sl).
Proof. exact (fun m q sl G H => lib_likelihood m q H sl G). Qed.
Print Assumptions C39_value.

Theorem C39_impossible : forall m q sl G, library_model m q ->
  (m_likelihood m G sl = NInf <->
   exists i j, (i < m_N m)%nat /\ (j < m_N m)%nat /\ allowed sl i j = true /\
     ((In (i, j) G /\ q i j = 0) \/ (~ In (i, j) G /\ q i j = 1))).
Proof. exact (fun m q sl G H => lib_impossible m q H sl G). Qed.
Print Assumptions C39_impossible.

(** The dense module's loop gives the same value on the boolean matrix of the graph. *)
Theorem C39_dense : forall m q sl G, library_model m q ->
  m_likelihood_dense m (fun i j => mem (i, j) G) sl = m_likelihood m G sl.
Proof. exact (fun m q sl G H => eq_sym (lib_dense m sl G)). Qed.
Print Assumptions C39_dense.

Example C39_case : library_model ex_model ex_q /\ m_likelihood ex_model [(0, 2)]%nat false = NInf /\
  m_likelihood ex_model [(0, 1)]%nat false = Fin (ln (1 / 16)).
Proof.
  split; [exact ex_lib|]. split.
  - apply (C39_impossible ex_model ex_q false [(0, 2)%nat] ex_lib). exists 0%nat, 2%nat. repeat split; simpl; try lia.
    left. split; [left; reflexivity | rewrite ex_q_val; reflexivity].
  - assert (W : graph_weight 3 false ex_q [(0, 1)%nat] = 1 / 16).
    { unfold graph_weight; simpl. rewrite !ex_q_val; simpl. field. }
    destruct (C39_value ex_model ex_q false [(0, 1)%nat] ex_lib) as [[_ H]|[H _]]; cbn [m_N ex_model FitnessModel] in H;
      rewrite W in H; [exact H | lra].
Qed.

(** The object rejects a matrix of another shape, anything that is not a graph, and being asked before it
    has a parameter. *)
Theorem C39_rejected : forall m s sl,
  (a_param s = None -> forall g, o_log_likelihood m g sl s = Raise GenericException) /\
  (forall p, a_param s = Some p -> o_log_likelihood m NotAGraph sl s = Raise ValueError /\
     forall r c row, r <> m_N m \/ c <> m_N m -> o_log_likelihood m (Matrix r c row) sl s = Raise ValueError).
Proof.
  intros m s sl. unfold o_log_likelihood, log_likelihood. split; [intros ->; reflexivity|]. intros p ->.
  split; [reflexivity|]. intros r c row H.
  replace (Nat.eqb r (m_N m) && Nat.eqb c (m_N m)) with false; [reflexivity|]. symmetry. apply andb_false_iff.
  destruct H as [H|H]; [left | right]; apply Nat.eqb_neq; exact H.
Qed.
Print Assumptions C39_rejected.

Example C39_rejected_case : a_param (new_ens (Some (m_param ex_model)) false) = Some (m_param ex_model) /\
  a_param (new_ens (P := mP ex_model) None false) = None /\ (2 <> m_N ex_model)%nat.
Proof. repeat split; simpl; lia. Qed.

(** * C40: graphs outside the ensemble *)

(** False: self-loops of the graph are ignored when the model does not allow them. *)
Theorem C40_selfloop_refuted : exists m q s G l, library_model m q /\ a_param s = Some (m_param m) /\
  a_selfloops s = false /\ In (0, 0)%nat G /\ (0 < m_N m)%nat /\
  o_log_likelihood m (Matrix (m_N m) (m_N m) (row_of G)) None s = Ok (Fin l).
Proof.
  exists (two_model 1), (two_q 1), (new_ens (Some (m_param (two_model 1))) false), [(0, 0)%nat], (ln (1 / 4)).
  split; [apply two_lib; lra|]. repeat split; try (left; reflexivity); try (simpl; lia).
  unfold o_log_likelihood, log_likelihood. cbn [a_param new_ens a_selfloops]. rewrite Nat.eqb_refl. cbn [andb guard].
  f_equal. assert (L1 : 0 <= 1) by lra.
  destruct (C39_value (two_model 1) (two_q 1) false [(0, 0)%nat] (two_lib 1 L1)) as [[_ H]|[H _]];
    cbn [m_N two_model FitnessModel] in H;
    assert (W : graph_weight 2 false (two_q 1) [(0, 0)%nat] = 1 / 4) by
      (unfold graph_weight; simpl; rewrite !two_q_val by lra; field);
    rewrite W in H; [exact H | lra].
Qed.
Print Assumptions C40_selfloop_refuted.

(** What holds instead: the value is that of the graph with its self-loops removed. *)
Theorem C40_selfloops_ignored_partial : forall m q s G, library_model m q -> a_param s = Some (m_param m) ->
  a_selfloops s = false ->
  o_log_likelihood m (Matrix (m_N m) (m_N m) (row_of G)) None s
  = o_log_likelihood m (Matrix (m_N m) (m_N m)
      (row_of (filter (fun e => negb (Nat.eqb (fst e) (snd e))) G))) None s.
Proof. exact (fun m q s G H => obj_diagonal m q H s G). Qed.
Print Assumptions C40_selfloops_ignored_partial.

Example C40_case : library_model ex_model ex_q /\
  a_param (new_ens (Some (m_param ex_model)) false) = Some (m_param ex_model) /\
  filter (fun e => negb (Nat.eqb (fst e) (snd e))) [(0, 0); (0, 1)]%nat = [(0, 1)%nat] /\
  o_log_likelihood ex_model (Matrix 3 3 (row_of [(0, 0); (0, 1)]%nat)) None (new_ens (Some (m_param ex_model)) false)
  = Ok (Fin (ln (1 / 16))).
Proof.
  split; [exact ex_lib|]. split; [reflexivity|]. split; [reflexivity|].
  etransitivity; [exact (C40_selfloops_ignored_partial ex_model ex_q (new_ens (Some (m_param ex_model)) false)
             [(0, 0); (0, 1)]%nat ex_lib eq_refl eq_refl)|].
  unfold o_log_likelihood, log_likelihood. cbn [a_param new_ens a_selfloops]. cbn [m_N ex_model FitnessModel Nat.eqb andb guard].
  f_equal. exact (proj2 (proj2 C39_case)).
Qed.

(** * C41: sampling follows the likelihood *)

Theorem C41_sampling : forall m q s G, library_model m q -> a_param s = Some (m_param m) ->
  In G (all_graphs (m_N m) (a_selfloops s)) ->
  exists p l, o_sample m NoWeights None s = Ok p /\
    o_log_likelihood m (Matrix (m_N m) (m_N m) (row_of G)) None s = Ok l /\
    Fin (prob p (fun H => list_eqb (map fst H) G)) = nexp l.
Proof. exact (fun m q s G H => obj_sample m q H s G). Qed.
Print Assumptions C41_sampling.

Example C41_case : library_model ex_model ex_q /\ In [(0, 1); (2, 0)]%nat (all_graphs (m_N ex_model) false).
Proof. split; [exact ex_lib|]. vm_compute. auto 70. Qed.

(** * C42: samples are admissible *)

Theorem C42_binary : forall m q sl us G rest, library_model m q -> (forall u, In u us -> 0 <= u < 1) ->
  run_draws (m_sample m sl) us = Some (G, rest) ->
  NoDup G /\
  (forall i j, In (i, j) G -> (i < m_N m)%nat /\ (j < m_N m)%nat /\ (sl = false -> i <> j) /\ 0 < q i j) /\
  (forall i j, (i < m_N m)%nat -> (j < m_N m)%nat -> (sl = true \/ i <> j) -> q i j = 1 -> In (i, j) G).
Proof. exact (fun m q sl us G rest H => lib_sample_admissible m q H sl us G rest). Qed.
Print Assumptions C42_binary.

Theorem C42_weighted : forall m q s_out s_in sl p us G rest, library_model m q ->
  m_cremb m s_out s_in sl = Ok p -> (forall u, In u us -> 0 <= u < 1) ->
  run_draws p us = Some (G, rest) ->
  NoDup (map fst G) /\
  (forall i j w, In (i, j, w) G -> (i < m_N m)%nat /\ (j < m_N m)%nat /\ (sl = false -> i <> j) /\ 0 < q i j /\
     w = s_out i * s_in j / (sumn (m_N m) s_out * q i j)) /\
  (forall i j, (i < m_N m)%nat -> (j < m_N m)%nat -> (sl = true \/ i <> j) -> q i j = 1 -> exists w, In (i, j, w) G).
Proof. exact (fun m q s_out s_in sl p us G rest H => lib_cremb_admissible m q H s_out s_in sl p us G rest). Qed.
Print Assumptions C42_weighted.

Example C42_case : library_model (two_model 1) (two_q 1) /\
  run_draws (m_sample (two_model 1) false) [1 / 4; 3 / 4] = Some ([(0, 1)%nat], []).
Proof.
  assert (L : library_model (two_model 1) (two_q 1)) by (apply two_lib; lra).
  split; [exact L|].
  assert (K : forall i j, (i < 2)%nat -> (j < 2)%nat ->
     m_p_ij (two_model 1) (m_param (two_model 1)) (m_out (two_model 1) i) (m_in (two_model 1) j) (m_dyad (two_model 1) i j) = 1 / 2).
  { intros i j Hi Hj. rewrite (proj1 (library_kernel _ _ L i j Hi Hj)), two_q_val by lra. field. }
  unfold m_sample, binary_sample. cbn [m_N two_model FitnessModel seq for_prog pbind adm Nat.eqb negb orb run_draws].
  fold (two_model 1).
  change (toR (fit_p_ij (Fin 1) (Fin 1) (Fin 1) (Fin 1))) with
    (m_p_ij (two_model 1) (m_param (two_model 1)) (m_out (two_model 1) 0) (m_in (two_model 1) 1) (m_dyad (two_model 1) 0 1)).
  rewrite (K 0%nat 1%nat) by lia.
  rewrite (Rltb_true (1 / 4) (1 / 2)) by lra. cbn. rewrite (Rltb_false (3 / 4)); [reflexivity|].
  change (toR (fit_p_ij (Fin 1) (Fin 1) (Fin 1) (Fin 1))) with
    (m_p_ij (two_model 1) (m_param (two_model 1)) (m_out (two_model 1) 0) (m_in (two_model 1) 1) (m_dyad (two_model 1) 0 1)).
  rewrite (K 0%nat 1%nat) by lia. lra.
Qed.

(** * C43: CReMB weights preserve expected strengths *)

Theorem C43_strengths : forall m q s_out s_in, library_model m q ->
  let N := m_N m in
  sumn N s_in = sumn N s_out -> sumn N s_out <> 0 ->
  (forall i j, (i < N)%nat -> (j < N)%nat -> s_out i * s_in j <> 0 -> q i j <> 0) ->
  exists p, m_cremb m s_out s_in true = Ok p /\
  (forall i j, (i < N)%nat -> (j < N)%nat -> expect p (w_pair i j) = s_out i * s_in j / sumn N s_out) /\
  (forall i, (i < N)%nat -> expect p (fun G => sumn N (fun j => w_pair i j G)) = s_out i) /\
  (forall j, (j < N)%nat -> expect p (fun G => sumn N (fun i => w_pair i j G)) = s_in j).
Proof. exact (fun m q s_out s_in H => lib_cremb m q H s_out s_in). Qed.
Print Assumptions C43_strengths.

Theorem C43_rejected : forall m s_out s_in sl, sumn (m_N m) s_out <> 0 ->
  1 / 1000000 <= Rabs (1 - sumn (m_N m) s_in / sumn (m_N m) s_out) ->
  m_cremb m s_out s_in sl = Raise AssertionError.
Proof. exact lib_cremb_reject. Qed.
Print Assumptions C43_rejected.

Example C43_case : library_model ex_model ex_q /\
  sumn 3 (fun i => if Nat.ltb i 2 then 3 else 0) = sumn 3 (fun _ => 2) /\ sumn 3 (fun _ => 2) <> 0 /\
  (forall i j, (i < 3)%nat -> (j < 3)%nat -> 2 * (if Nat.ltb j 2 then 3 else 0) <> 0 -> ex_q i j <> 0) /\
  1 / 1000000 <= Rabs (1 - sumn 3 (fun _ => 1) / sumn 3 (fun _ => 2)).
Proof.
  split; [exact ex_lib|]. split; [simpl; lra|]. split; [simpl; lra|]. split.
  - intros i j _ _ H. rewrite ex_q_val. destruct (Nat.ltb j 2); lra.
  - simpl. replace (1 - (0 + 1 + 1 + 1) / (0 + 2 + 2 + 2)) with (1 / 2) by field. rewrite Rabs_right; lra.
Qed.

(** * C44: the self-loop argument *)

(** False: log_likelihood ignores its argument. *)
Theorem C44_likelihood_refuted : exists m q s G l l', library_model m q /\ a_param s = Some (m_param m) /\
  o_log_likelihood m (Matrix (m_N m) (m_N m) (row_of G)) (Some false) s = Ok l /\
  o_log_likelihood m (Matrix (m_N m) (m_N m) (row_of G)) None (with_selfloops s false) = Ok l' /\
  l <> l'.
Proof.
  assert (L1 : 0 <= 1) by lra.
  exists (two_model 1), (two_q 1), (new_ens (Some (m_param (two_model 1))) true), [],
    (m_likelihood (two_model 1) [] true), (m_likelihood (two_model 1) [] false).
  split; [apply two_lib; lra|]. split; [reflexivity|]. split; [reflexivity|]. split; [reflexivity|].
  assert (W1 : graph_weight 2 true (two_q 1) [] = 1 / 16) by (unfold graph_weight; simpl; rewrite !two_q_val by lra; field).
  assert (W2 : graph_weight 2 false (two_q 1) [] = 1 / 4) by (unfold graph_weight; simpl; rewrite !two_q_val by lra; field).
  pose proof (lib_likelihood_exp _ _ (two_lib 1 L1) true []) as E1.
  pose proof (lib_likelihood_exp _ _ (two_lib 1 L1) false []) as E2.
  cbn [m_N two_model FitnessModel] in E1, E2. rewrite W1 in E1. rewrite W2 in E2. intros E.
  fold (two_model 1) in *. rewrite E in E1. rewrite E1 in E2. inversion E2. lra.
Qed.
Print Assumptions C44_likelihood_refuted.

(** False: sample ignores its argument; a sample asked for without self-loops can contain one. *)
Theorem C44_sample_refuted : exists m q s p us G rest, library_model m q /\ a_param s = Some (m_param m) /\
  o_sample m NoWeights (Some false) s = Ok p /\ (forall u, In u us -> 0 <= u < 1) /\
  run_draws p us = Some (G, rest) /\ In (0, 0)%nat (map fst G).
Proof.
  assert (L : library_model (two_model 1) (two_q 1)) by (apply two_lib; lra).
  assert (K : toR (fit_p_ij (Fin 1) (Fin 1) (Fin 1) (Fin 1)) = 1 / 2).
  { rewrite fit_p_ij_fin by lra. simpl. unfold logistic. field. }
  exists (two_model 1), (two_q 1), (new_ens (Some (m_param (two_model 1))) true).
  eexists. exists [1 / 4; 3 / 4; 3 / 4; 3 / 4], [(0%nat, 0%nat, 1)], [].
  split; [exact L|]. split; [reflexivity|]. split; [reflexivity|]. split.
  { intros u [<-|[<-|[<-|[<-|[]]]]]; lra. }
  split; [|left; reflexivity].
  assert (T : Rltb (1 / 4) (toR (fit_p_ij (Fin 1) (Fin 1) (Fin 1) (Fin 1))) = true) by (rewrite K; apply Rltb_true; lra).
  assert (F : Rltb (3 / 4) (toR (fit_p_ij (Fin 1) (Fin 1) (Fin 1) (Fin 1))) = false) by (rewrite K; apply Rltb_false; lra).
  cbn -[fit_p_ij Rltb toR Rdiv]. rewrite T. cbn -[fit_p_ij Rltb toR Rdiv].
  repeat (rewrite F; cbn -[fit_p_ij Rltb toR Rdiv]). reflexivity.
Qed.
Print Assumptions C44_sample_refuted.

(** What holds: both use the object's own option, whatever the argument. *)
Theorem C44_own_option_partial : forall m s g w sl,
  o_log_likelihood m g sl s = o_log_likelihood m g None s /\ o_sample m w sl s = o_sample m w None s.
Proof. exact (fun m s g w sl => conj eq_refl eq_refl). Qed.
Print Assumptions C44_own_option_partial.

Example C44_case : o_log_likelihood ex_model (Matrix 3 3 (row_of [(0, 1)]%nat)) (Some true)
    (new_ens (Some (m_param ex_model)) false) = Ok (Fin (ln (1 / 16))) /\
  effective (Some true) (a_selfloops (new_ens (Some (m_param ex_model)) false)) = true.
Proof.
  split; [|reflexivity].
  rewrite (proj1 (C44_own_option_partial ex_model (new_ens (Some (m_param ex_model)) false) _ NoWeights (Some true))).
  unfold o_log_likelihood, log_likelihood. cbn [a_param new_ens a_selfloops]. cbn [m_N ex_model FitnessModel Nat.eqb andb guard].
  f_equal. exact (proj2 (proj2 C39_case)).
Qed.

(** * C45: expected measures reflect the current parameters *)

(** With recompute, whatever the object's caches hold. *)
Theorem C45_recompute : forall m q s, library_model m q -> a_param s = Some (m_param m) ->
  fst (o_num_edges m true s) = Ok (pair_sum (m_N m) (a_selfloops s) q) /\
  forall d, d <> Dother -> exists a, fst (o_degree m d true s) = Ok a /\
    forall v, (v < m_N m)%nat -> a v = nb_degree (m_N m) (a_selfloops s) (dir_link d q) v.
Proof. exact (fun m q s H => lib_recompute m q H s). Qed.
Print Assumptions C45_recompute.

(** False without recompute: after a change of parameter the old value is returned. *)
Theorem C45_stale_refuted : exists s0 e s1 e' s2,
  s0 = new_ens (Some (Fin 1)) true /\
  o_num_edges (two_model 1) false s0 = (Ok e, s1) /\
  o_num_edges (two_model 3) false (set_param s1 (Fin 3)) = (Ok e', s2) /\
  e' <> pair_sum 2 true (two_q 3).
Proof.
  assert (L1 : 0 <= 1) by lra. assert (L3 : 0 <= 3) by lra.
  exists (new_ens (Some (Fin 1)) true). do 4 eexists. split; [reflexivity|]. split; [reflexivity|]. split; [reflexivity|].
  pose proof (C36_edges_degrees _ _ true (two_lib 1 L1)) as H. destruct (m_degrees (two_model 1) true) as [[? ?] ?].
  destruct H as [H _]. match goal with |- ?e <> _ => change e with (m_edges (two_model 1) true) end.
  rewrite H. unfold pair_sum. simpl. rewrite !two_q_val by lra. lra.
Qed.
Print Assumptions C45_stale_refuted.

(** Without a change of parameter every history of queries is answered correctly (see C65). *)
Example C45_case : library_model ex_model ex_q /\
  a_param (set_param (new_ens (Some PInf) true) (Fin 1)) = Some (m_param ex_model).
Proof. split; [exact ex_lib | reflexivity]. Qed.

(** * C46: queries do not change the model *)

Theorem C46_unchanged_partial : forall m q s qu, library_model m q -> (2 <= m_N m)%nat -> constant_dyad m ->
  a_param s = Some (m_param m) -> degrees_current m s -> directions_valid qu ->
  a_param (snd (o_query m qu s)) = a_param s /\ a_selfloops (snd (o_query m qu s)) = a_selfloops s.
Proof. exact (fun m q s qu H => lib_keeps m q H s qu). Qed.
Print Assumptions C46_unchanged_partial.

(** False for an unknown direction: ValueError is raised and the self-loop option stays changed. *)
Theorem C46_unchanged_refuted : exists s prop,
  a_param s = Some (m_param ex_model) /\ degrees_current ex_model s /\ a_selfloops s = false /\
  fst (o_av_nn_property ex_model 3 prop Dother (Some true) false s) = Raise ValueError /\
  a_selfloops (snd (o_av_nn_property ex_model 3 prop Dother (Some true) false s)) = true.
Proof.
  exists (new_ens (Some (m_param ex_model)) false), (fun _ => 1).
  split; [reflexivity|]. split; [left; auto|]. repeat split.
Qed.
Print Assumptions C46_unchanged_refuted.

Example C46_case : library_model ex_model ex_q /\ (2 <= m_N ex_model)%nat /\ constant_dyad ex_model /\
  degrees_current ex_model (new_ens (Some (m_param ex_model)) false) /\
  directions_valid (QNNDegree Dout Din (Some true) false false).
Proof.
  split; [exact ex_lib|]. split; [simpl; lia|]. split; [intros i j k; reflexivity|]. split; [left; auto|].
  split; discriminate.
Qed.

(** * C65: answers do not depend on the history of queries *)

(** Every history of queries with valid directions on a fitted model is answered correctly, provided
    the nearest-neighbour degree queries all use the same effective self-loop option [b]. *)
Theorem C65_history_partial : forall m q b own qs, library_model m q -> (2 <= m_N m)%nat -> constant_dyad m ->
  Forall (valid_query b own) qs ->
  let r := o_queries m qs (new_ens (Some (m_param m)) own) in
  Forall2 (correct_answer m q own) qs (fst r) /\
  a_param (snd r) = Some (m_param m) /\ a_selfloops (snd r) = own.
Proof. exact (fun m q b own qs H => lib_history m q H b own qs). Qed.
Print Assumptions C65_history_partial.

(** False when the option changes: the second query returns the cached answer of the first. *)
Theorem C65_history_refuted : exists a s1 a',
  let s0 := new_ens (Some (m_param (two_model 1))) false in
  o_av_nn_degree (two_model 1) Dout Dout (Some true) false false s0 = (Ok a, s1) /\
  o_av_nn_degree (two_model 1) Dout Dout (Some false) false false s1 = (Ok a, s1) /\
  fst (o_av_nn_degree (two_model 1) Dout Dout (Some false) false false s0) = Ok a' /\
  a 0%nat <> a' 0%nat.
Proof.
  assert (L1 : 0 <= 1) by lra. set (m := two_model 1). pose proof (two_lib 1 L1) as L. fold m in L.
  set (s0 := new_ens (Some (m_param m)) false).
  assert (Hc : constant_dyad m) by (intros i j k; reflexivity).
  assert (H0 : forall b, exists s', o_av_nn_degree m Dout Dout (Some b) false false s0
    = (Ok (nn_now _ _ _ (m_p_ij m) (m_out m) (m_in m) (m_dyad m) 2
         (deg_now _ _ _ (m_p_ij m) (m_out m) (m_in m) (m_dyad m) 2 Dout (m_param m) b) Dout (m_param m) b), s') /\
      a_param s' = Some (m_param m)).
  { intros b. destruct (nn_degree_now _ _ _ (m_p_ij m) (m_out m) (m_in m) (m_dyad m) 2 (m_param m) Dout Dout (Some b) false false s0)
      as (s' & E & P' & _); try reflexivity; try discriminate; try exact Hc.
    - right; left; auto.
    - left. intros n d; left; reflexivity.
    - apply (lib_prob_param m (two_q 1) L).
    - exists s'; split; [exact E | exact P']. }
  destruct (H0 true) as (s1 & E1 & P1). destruct (H0 false) as (s2 & E2 & P2).
  do 3 eexists. cbv zeta. split; [exact E1|]. split; [apply (nn_cached _ _ _ _ _ _ _ _ _ _ _ E1 P1)|].
  split; [rewrite E2; reflexivity|].
  rewrite !(nn_lib m (two_q 1) L Dout) by (try discriminate; try exact Hc; simpl; lia).
  assert (D : forall b v, (v < 2)%nat -> nb_degree 2 b (out_link (two_q 1)) v = if b then 1 else 1 / 2).
  { intros b v Hv. unfold nb_degree, out_link. destruct b; destruct v as [|[|v]]; try lia;
      cbn [sumn allowed Nat.eqb negb orb]; rewrite !two_q_val by lra; field. }
  change (m_N m) with 2%nat. cbn [dir_link]. rewrite !D by lia. rewrite !Reqb_false by lra.
  unfold nb_total. cbn [sumn allowed Nat.eqb negb orb].
  rewrite !(deg_lib m (two_q 1) L Dout) by (try discriminate; simpl; lia).
  cbn [dir_link]. change (m_N m) with 2%nat. rewrite !D by lia. unfold out_link. rewrite !two_q_val by lra. lra.
Qed.
Print Assumptions C65_history_refuted.

Example C65_case : library_model ex_model ex_q /\
  Forall (valid_query true false) [QNNDegree Dout Din (Some true) false false; QEdges false;
    QProperty 3 (fun _ => 1) Doutin None true; QDegree Din false; QNNDegree Dout Din (Some true) true false].
Proof. split; [exact ex_lib|]. repeat constructor; discriminate. Qed.
