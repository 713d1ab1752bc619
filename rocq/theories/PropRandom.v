(** Properties of RandomDiGraph: C47, C48, C66, C67 and the nearest-neighbour averages (C38). *)
From Verif Require Import Base Num Spec Prob Ensemble EnsembleFacts EnsembleProps EnsembleState Random RandomFacts.

(** * C47: the fit *)

(** Whenever there is at least one admissible pair, fitting gives the probability for which the expected
    number of edges, both in closed form and as a sum over pairs, is the given number. *)
Theorem C47_fit : forall N sl E W disc np par,
  (1 <= N)%nat -> (sl = false -> (2 <= N)%nat) -> W = None ->
  exists s p, rnd_fit (mkRnd N sl (Some (E, np)) W disc par) = Ok s /\
    r_param s = Some (Fin p, Fin 0) /\ rnd_num_edges s = Ok (Fin E) /\ pair_sum N sl (fun _ _ => p) = E.
Proof.
  intros N sl E W disc np par H1 H2 ->. pose proof (pairs_of_pos N sl H1 H2) as P.
  exists (mkRnd N sl (Some (E, np)) None disc (Some (Fin (E / pairs_of N sl), Fin 0))), (E / pairs_of N sl).
  split; [|split; [reflexivity|split]].
  - unfold rnd_fit, scalar_div. cbn [r_edges r_N r_selfloops r_weight]. destruct np; cbn; rewrite Reqb_false by lra; reflexivity.
  - unfold rnd_num_edges. cbn. f_equal. unfold pairs_of in *. destruct sl; cbn; f_equal; field; nra.
  - rewrite pair_count. field. lra.
Qed.
Print Assumptions C47_fit.

Example C47_case : exists s, rnd_fit (mkRnd 3 false (Some (3, false)) None None None) = Ok s /\
  r_param s = Some (Fin (1/2), Fin 0).
Proof.
  destruct (C47_fit 3 false 3 None None false None) as [s [p [E [Hp [_ K]]]]]; try reflexivity; try lia.
  exists s. split; [exact E|]. rewrite Hp. do 3 f_equal. rewrite pair_count in K. unfold pairs_of in K. simpl in K. lra.
Qed.

(** Closed form degrees are the sums over pairs with constant probability. *)
Theorem C47_degrees : forall s p q v, r_param s = Some (Fin p, q) -> (v < r_N s)%nat ->
  exists d o i, rnd_degree s = Ok d /\ rnd_out_degree s = Ok o /\ rnd_in_degree s = Ok i /\
    d v = Fin (nb_degree (r_N s) (r_selfloops s) (either_link (fun _ _ => p)) v) /\
    o v = Fin (nb_degree (r_N s) (r_selfloops s) (out_link (fun _ _ => p)) v) /\
    i v = Fin (nb_degree (r_N s) (r_selfloops s) (in_link (fun _ _ => p)) v).
Proof.
  intros s p q v H Hv. unfold rnd_degree, rnd_in_degree, rnd_out_degree. rewrite H.
  eexists _, _, _. split; [reflexivity|]. split; [reflexivity|]. split; [reflexivity|].
  rewrite (nb_count _ _ (either_link (fun _ _ => p)) v (2 * p - p * p) p Hv).
  2:{ intros j. unfold either_link. destruct (Nat.eqb v j); ring. }
  rewrite (nb_count _ _ (out_link (fun _ _ => p)) v p p Hv) by (intros j; unfold out_link; destruct (Nat.eqb v j); reflexivity).
  rewrite (nb_count _ _ (in_link (fun _ _ => p)) v p p Hv) by (intros j; unfold in_link; destruct (Nat.eqb v j); reflexivity).
  cbv beta. destruct (r_selfloops s); cbn; repeat split; f_equal; ring.
Qed.
Print Assumptions C47_degrees.

Example C47_degrees_case : nb_degree 3 true (either_link (fun _ _ => 1/2)) 0 = 2.
Proof. unfold nb_degree, either_link, allowed. cbn. lra. Qed.

(** With a total weight the second parameter is the rate (continuous) or 1 - rate (discrete). *)
Theorem C47_weight : forall N sl E W disc np nw par,
  (1 <= N)%nat -> (sl = false -> (2 <= N)%nat) -> W <> 0 ->
  exists s p, rnd_fit (mkRnd N sl (Some (E, np)) (Some (W, nw)) (Some disc) par) = Ok s /\
    r_param s = Some (Fin p, Fin (if disc then 1 - E / W else E / W)) /\ pair_sum N sl (fun _ _ => p) = E.
Proof.
  intros N sl E W disc np nw par H1 H2 HW. pose proof (pairs_of_pos N sl H1 H2) as P.
  exists (mkRnd N sl (Some (E, np)) (Some (W, nw)) (Some disc)
    (Some (Fin (E / pairs_of N sl), Fin (if disc then 1 - E / W else E / W)))), (E / pairs_of N sl). split; [|split].
  - unfold rnd_fit, scalar_div. cbn [r_edges r_N r_selfloops r_weight r_discrete].
    destruct np, nw, disc; cbn; rewrite !(Reqb_false (pairs_of N sl)) by lra; cbn; rewrite !(Reqb_false W) by exact HW; reflexivity.
  - reflexivity.
  - rewrite pair_count. field. lra.
Qed.
Print Assumptions C47_weight.

(** A single vertex without self-loops cannot be fitted: ZeroDivisionError, or nan with a numpy edge
    count. *)
Theorem C47_single_vertex_refuted : exists s1 s2,
  r_N s1 = 1%nat /\ r_N s2 = 1%nat /\ r_edges s1 = Some (0, false) /\ r_edges s2 = Some (0, true) /\
  rnd_fit s1 = Raise ZeroDivisionError /\ exists s, rnd_fit s2 = Ok s /\ rnd_num_edges s = Ok NaN.
Proof.
  exists (mkRnd 1 false (Some (0, false)) None None None), (mkRnd 1 false (Some (0, true)) None None None).
  repeat (split; [reflexivity|]). unfold rnd_fit, scalar_div, pairs_of. cbn. rewrite Reqb_true by lra. split; [reflexivity|].
  rewrite Reqb_true by lra. eexists. split; [reflexivity|]. reflexivity.
Qed.
Print Assumptions C47_single_vertex_refuted.

(** Nothing keeps the fitted parameter a probability: more edges than pairs give a value above one. *)
Theorem C47_above_one_refuted : exists s s' p, r_edges s = Some (5, false) /\ r_N s = 2%nat /\
  rnd_fit s = Ok s' /\ r_param s' = Some (Fin p, Fin 0) /\ 1 < p.
Proof.
  exists (mkRnd 2 false (Some (5, false)) None None None).
  destruct (C47_fit 2 false 5 None None false None) as [s [p [E [Hp [_ K]]]]]; try reflexivity; try lia.
  exists s, p. repeat (split; [reflexivity || assumption|]). rewrite pair_count in K. unfold pairs_of in K. simpl in K. lra.
Qed.
Print Assumptions C47_above_one_refuted.

(** * C48: the likelihood *)

(** Strictly between 0 and 1: the log of the product over admissible pairs, for every graph of the
    ensemble; a graph with a self-loop has value minus infinity when self-loops are excluded. *)
Theorem C48_value : forall s p q G sl, r_param s = Some (Fin p, q) -> 0 < p < 1 ->
  let b := match sl with None => r_selfloops s | Some b => b end in
  In G (all_graphs (r_N s) b) ->
  rnd_log_likelihood (Matrix (r_N s) (r_N s) (row_of G)) sl s
  = Ok (Fin (ln (graph_weight (r_N s) b (fun _ _ => p) G))).
Proof.
  intros s p q G sl Hs Hp b HG. unfold rnd_log_likelihood. rewrite Hs. fold b. rewrite Nat.eqb_refl. cbn [guard andb].
  unfold neqb. rewrite (Reqb_false p 0), (Reqb_false p 1) by lra. cbn [andb].
  unfold py_log, py_log1p. rewrite Rltb_true by lra. cbn [bind nopp nadd]. unfold py_log. rewrite Rltb_true by lra. cbn [bind].
  assert (Hin : forall e, In e G -> (fst e < r_N s)%nat /\ allowed b (fst e) (snd e) = true).
  { intros [i j] He. apply (sublists_incl _ _ _ _ HG) in He. apply in_pairs in He. tauto. }
  rewrite nnz_row_of by (intros e He; apply Hin; exact He).
  rewrite const_weight by exact HG. rewrite ln_mult by (apply pow_lt; lra). rewrite !ln_pow by lra.
  rewrite minus_INR by (apply graph_length; exact HG). rewrite pairs_length.
  replace (1 - p) with (1 + - p) by ring.
  destruct b eqn:Eb.
  - reflexivity.
  - assert (D : diag_count (r_N s) (row_of G) = 0%nat).
    { apply diag_zero. intros i Hi K. apply in_row_of in K. apply Hin in K. destruct K as [_ K]. unfold allowed in K. simpl in K.
      rewrite Nat.eqb_refl in K. discriminate. }
    rewrite D. reflexivity.
Qed.
Print Assumptions C48_value.

Theorem C48_selfloop : forall s p q G sl, r_param s = Some (Fin p, q) -> 0 < p < 1 ->
  match sl with None => r_selfloops s | Some b => b end = false ->
  (exists i, (i < r_N s)%nat /\ In (i, i) G) ->
  rnd_log_likelihood (Matrix (r_N s) (r_N s) (row_of G)) sl s = Ok NInf.
Proof.
  intros s p q G sl Hs Hp Hb [i [Hi HG]]. unfold rnd_log_likelihood. rewrite Hs, Hb, Nat.eqb_refl. cbn [guard andb].
  unfold neqb. rewrite (Reqb_false p 0), (Reqb_false p 1) by lra. cbn [andb].
  unfold py_log, py_log1p. rewrite Rltb_true by lra. cbn [bind nopp nadd]. unfold py_log. rewrite Rltb_true by lra. cbn [bind].
  destruct (Nat.ltb_spec 0 (diag_count (r_N s) (row_of G))) as [_|K]; [reflexivity|]. exfalso.
  apply (proj1 (diag_zero (r_N s) (row_of G)) ltac:(lia) i Hi). apply in_row_of. exact HG.
Qed.
Print Assumptions C48_selfloop.

Example C48_case : In [(0, 1)]%nat (all_graphs 2 false) /\
  graph_weight 2 false (fun _ _ => 1/4) [(0, 1)]%nat = 1/4 * (3/4).
Proof. split; [right; left; reflexivity | unfold graph_weight, allowed, mem; simpl; lra]. Qed.

(** At p = 1 the complete graph, whose probability is one, gets minus infinity. *)
Theorem C48_complete_refuted : exists s G, r_param s = Some (Fin 1, Fin 0) /\
  In G (all_graphs (r_N s) (r_selfloops s)) /\
  graph_weight (r_N s) (r_selfloops s) (fun _ _ => 1) G = 1 /\
  rnd_log_likelihood (Matrix (r_N s) (r_N s) (row_of G)) None s = Ok NInf.
Proof.
  exists (mkRnd 2 false None None None (Some (Fin 1, Fin 0))), [(0, 1); (1, 0)]%nat.
  split; [reflexivity|]. split; [left; reflexivity|]. split; [unfold graph_weight, allowed, mem; simpl; lra|].
  unfold rnd_log_likelihood. cbn. rewrite (Reqb_false 1 0), (Reqb_true 1 1) by lra. reflexivity.
Qed.
Print Assumptions C48_complete_refuted.

(** At p = 0 the empty graph, whose probability is one, makes the call fail. *)
Theorem C48_empty_refuted : exists s G, r_param s = Some (Fin 0, Fin 0) /\
  In G (all_graphs (r_N s) (r_selfloops s)) /\
  graph_weight (r_N s) (r_selfloops s) (fun _ _ => 0) G = 1 /\
  rnd_log_likelihood (Matrix (r_N s) (r_N s) (row_of G)) None s = Raise ValueError.
Proof.
  exists (mkRnd 2 false None None None (Some (Fin 0, Fin 0))), [].
  split; [reflexivity|]. split; [simpl; auto|]. split; [unfold graph_weight, allowed, mem; simpl; lra|].
  unfold rnd_log_likelihood. cbn. rewrite (Reqb_true 0 0), (Reqb_false 0 1), (Rltb_false 0 0) by lra. reflexivity.
Qed.
Print Assumptions C48_empty_refuted.

(** At p = 1 the empty graph, which is impossible, makes the call fail instead of giving minus infinity. *)
Theorem C48_impossible_empty_refuted : exists s G, r_param s = Some (Fin 1, Fin 0) /\
  In G (all_graphs (r_N s) (r_selfloops s)) /\
  graph_weight (r_N s) (r_selfloops s) (fun _ _ => 1) G = 0 /\
  rnd_log_likelihood (Matrix (r_N s) (r_N s) (row_of G)) None s = Raise ValueError.
Proof.
  exists (mkRnd 2 false None None None (Some (Fin 1, Fin 0))), [].
  split; [reflexivity|]. split; [simpl; auto|]. split; [unfold graph_weight, allowed, mem; simpl; lra|].
  unfold rnd_log_likelihood, py_log1p. cbn. rewrite (Reqb_false 1 0), (Reqb_true 1 1), (Rltb_true 0 1) by lra. cbn.
  rewrite Rltb_false by lra. reflexivity.
Qed.
Print Assumptions C48_impossible_empty_refuted.

(** * C66: sampling *)

(** The probability of sampling a graph of the ensemble is its likelihood. *)
Theorem C66_sampling : forall s p q G, r_param s = Some (Fin p, q) -> 0 < p < 1 ->
  In G (all_graphs (r_N s) (r_selfloops s)) ->
  exists l, rnd_log_likelihood (Matrix (r_N s) (r_N s) (row_of G)) None s = Ok (Fin l) /\
    prob (rnd_sample RNone s) (fun r => match r with Ok H => list_eqb H G | Raise _ => false end) = exp l.
Proof.
  intros s p q G Hs Hp HG. eexists. split; [apply (C48_value s p q G None Hs Hp HG)|].
  unfold rnd_sample, prob. rewrite Hs, expect_bind. cbn [expect toR].
  fold (prob (rnd_binary_sample p (r_N s) (r_selfloops s)) (fun H => list_eqb H G)).
  rewrite rnd_sample_prob by exact HG. rewrite exp_ln; [reflexivity|].
  rewrite const_weight by exact HG. apply Rmult_lt_0_compat; apply pow_lt; lra.
Qed.
Print Assumptions C66_sampling.

Example C66_case : In [(0, 1)]%nat (all_graphs 2 false) /\
  prob (rnd_sample RNone (mkRnd 2 false None None None (Some (Fin (1/4), Fin 0))))
    (fun r => match r with Ok H => list_eqb H [(0, 1)]%nat | Raise _ => false end) = 1/4 * (3/4).
Proof. split; [right; left; reflexivity|]. unfold prob. cbn. lra. Qed.

(** Samples with p outside (0,1): at p = 0 always the empty graph, at p = 1 always all pairs. *)
Theorem C66_extremes : forall s q p, r_param s = Some (Fin p, q) -> p = 0 \/ p = 1 ->
  prob (rnd_sample RNone s)
    (fun r => match r with
              | Ok H => list_eqb H (if Req_EM_T p 0 then [] else pairs (r_N s) (r_selfloops s))
              | Raise _ => false end) = 1.
Proof.
  intros s q p Hs Hp. unfold rnd_sample, prob. rewrite Hs, expect_bind. cbn [expect toR].
  set (G := if Req_EM_T p 0 then [] else pairs (r_N s) (r_selfloops s)).
  fold (prob (rnd_binary_sample p (r_N s) (r_selfloops s)) (fun H => list_eqb H G)).
  assert (HG : In G (all_graphs (r_N s) (r_selfloops s))).
  { unfold G, all_graphs. generalize (pairs (r_N s) (r_selfloops s)). intros l. destruct (Req_EM_T p 0).
    - induction l as [|x l IH]; simpl; [auto|]. apply in_app_iff. right. exact IH.
    - induction l as [|x l IH]; simpl; [auto|]. apply in_app_iff. left. apply in_map. exact IH. }
  rewrite rnd_sample_prob by exact HG. rewrite const_weight by exact HG. unfold G. destruct (Req_EM_T p 0) as [->|Hn].
  - simpl. rewrite Rminus_0_r, pow1. ring.
  - destruct Hp as [Hp | ->]; [contradiction|]. rewrite pow1, Nat.sub_diag. simpl. ring.
Qed.
Print Assumptions C66_extremes.

(** * C67: weighted samples *)

(** No weighted sample is ever returned: the samplers for random weights return two lists where three are
    unpacked, and the cremb sampler returns nothing. *)
Theorem C67_weighted_refuted : exists s, r_param s = Some (Fin (1/2), Fin (1/2)) /\ r_discrete s = Some false /\
  forall w us r rest, w <> RNone -> run_draws (rnd_sample w s) us = Some (r, rest) -> exists e, r = Raise e.
Proof.
  exists (mkRnd 3 false (Some (3, false)) (Some (6, false)) (Some false) (Some (Fin (1/2), Fin (1/2)))).
  split; [reflexivity|]. split; [reflexivity|].
  assert (B : forall A (m : prog A) (k : A -> res (list (nat * nat))) us r rest,
    run_draws (pbind m (fun a => Ret (k a))) us = Some (r, rest) -> exists a, r = k a).
  { intros A m k. induction m as [a|p m IH]; intros us r rest H; simpl in H.
    - injection H as <- _. exists a. reflexivity.
    - destruct us as [|u us]; [discriminate|]. eapply IH. exact H. }
  intros w us r rest Hw H. unfold rnd_sample in H. cbn [r_param r_discrete] in H. destruct w as [| | [ [so si] | ] | ].
  - congruence.
  - apply B in H. destruct H as [ [a|e] ->]; [exists ValueError | exists e]; reflexivity.
  - destruct (Reqb _ _); [injection H as <- _; eexists; reflexivity|].
    destruct (negb _); [injection H as <- _; eexists; reflexivity|].
    apply B in H. destruct H as [_ ->]. eexists; reflexivity.
  - injection H as <- _. eexists; reflexivity.
  - injection H as <- _. eexists; reflexivity.
Qed.
Print Assumptions C67_weighted_refuted.

(** The expected total weight is never returned either: the attribute q does not exist. *)
Theorem C67_total_weight_refuted : exists s s', rnd_fit s = Ok s' /\ r_weight s = Some (6, false) /\
  rnd_total_weight s' = Raise AttributeError.
Proof.
  destruct (C47_weight 3 false 3 6 false false false None) as [s' [p [E [Hp _]]]]; try lia; try lra.
  exists (mkRnd 3 false (Some (3, false)) (Some (6, false)) (Some false) None), s'. split; [exact E|]. split; [reflexivity|].
  unfold rnd_total_weight. rewrite Hp. destruct (r_discrete s') as [ [ | ] | ]; reflexivity.
Qed.
Print Assumptions C67_total_weight_refuted.

(** * C38: nearest-neighbour averages of RandomDiGraph *)

Definition option_or (sl : option bool) (b : bool) : bool := match sl with None => b | Some c => c end.

(** Along outgoing or incoming links, and along either without self-loops, the result is the expected
    total of the property over the expected degree.  The self-loop option of the object is unchanged. *)
Theorem C38_random : forall s p q prop nd sl v, r_param s = Some (Fin p, q) -> 0 < p <= 1 -> (2 <= r_N s)%nat ->
  nd = Dout \/ nd = Din \/ (nd = Doutin /\ option_or sl (r_selfloops s) = false) -> (v < r_N s)%nat ->
  exists a, rnd_av_nn_property (r_N s) prop nd sl s = (Ok a, s) /\
    let b := option_or sl (r_selfloops s) in
    let l := match nd with Dout => out_link (fun _ _ => p) | Din => in_link (fun _ _ => p) | _ => either_link (fun _ _ => p) end in
    a v = Fin (nb_total (r_N s) b l prop v / nb_degree (r_N s) b l v).
Proof.
  intros s p q prop nd sl v Hs Hp HN Hnd Hv. destruct s as [N b0 re rw rd rp]. cbn [r_param r_N r_selfloops] in Hs, HN, Hv, Hnd |- *. subst rp.
  set (b := option_or sl b0) in *.
  assert (HI : 2 <= INR N) by (apply (le_INR 2); exact HN).
  assert (Hc : 0 < 2 * p - p * p) by nra.
  assert (Hdeg : 0 < (INR N - 1) * p) by nra. assert (Hdeg2 : 0 < (INR N - 1) * (2 * p - p * p)) by nra.
  unfold rnd_av_nn_property, rnd_av_nn_num. cbn [r_param]. cbn [r_N]. rewrite Nat.eqb_refl. cbn [negb r_selfloops].
  set (s1 := match sl with None => _ | Some _ => _ end).
  assert (E1 : s1 = mkRnd N b re rw rd (Some (Fin p, q))).
  { subst s1 b. destruct sl as [c|]; [|reflexivity]. cbn. destruct (Bool.eqb_spec c b0) as [->|]; reflexivity. }
  rewrite E1. cbn [r_N r_selfloops r_param rnd_out_degree rnd_in_degree rnd_degree].
  assert (Eb : (if Bool.eqb b0 b then mkRnd N b re rw rd (Some (Fin p, q)) else with_rself (mkRnd N b re rw rd (Some (Fin p, q))) b0)
    = mkRnd N b0 re rw rd (Some (Fin p, q))).
  { destruct (Bool.eqb_spec b0 b) as [<-|]; reflexivity. }
  assert (S : forall c, np_sum N (fun i => nmul (Fin c) (Fin (prop i))) = Fin (sumn N (fun i => c * prop i))).
  { intros c. apply (np_sum_fin N (fun i => c * prop i)). }
  assert (T : forall n (f : nat -> bool), (forall i, f i = true) -> forallb f (seq 0 n) = true).
  { intros n f H. apply forallb_forall. auto. }
  destruct Hnd as [-> | [-> | [-> Hb]]].
  - unfold rnd_out_degree. cbn [r_param r_N r_selfloops].
    rewrite S, T.
    2:{ intros i. destruct b; cbn; rewrite Reqb_false; try reflexivity; nra. }
    eexists. split; [f_equal; exact Eb|]. cbv beta zeta iota.
    rewrite (nb_count _ _ (out_link (fun _ _ => p)) v p p Hv) by (intros j; unfold out_link; destruct (Nat.eqb v j); reflexivity).
    rewrite (nb_tot _ _ (out_link (fun _ _ => p)) prop v p p Hv) by (intros j; unfold out_link; destruct (Nat.eqb v j); reflexivity).
    destruct b; cbn; rewrite !Reqb_false by nra; f_equal; f_equal; ring.
  - unfold rnd_in_degree, rnd_out_degree. cbn [r_param r_N r_selfloops].
    rewrite S, T.
    2:{ intros i. destruct b; cbn; rewrite Reqb_false; try reflexivity; nra. }
    eexists. split; [f_equal; exact Eb|]. cbv beta zeta iota.
    rewrite (nb_count _ _ (in_link (fun _ _ => p)) v p p Hv) by (intros j; unfold in_link; destruct (Nat.eqb v j); reflexivity).
    rewrite (nb_tot _ _ (in_link (fun _ _ => p)) prop v p p Hv) by (intros j; unfold in_link; destruct (Nat.eqb v j); reflexivity).
    destruct b; cbn; rewrite !Reqb_false by nra; f_equal; f_equal; ring.
  - unfold rnd_degree. cbn [r_param r_N r_selfloops]. rewrite Hb in *. cbn [negb].
    change (either (Fin p)) with (Fin (2 * p + - (p * p))).
    rewrite S, T.
    2:{ intros i. cbn. rewrite Reqb_false; [reflexivity|]. nra. }
    eexists. split; [f_equal; exact Eb|]. cbv beta zeta iota.
    rewrite (nb_count _ _ (either_link (fun _ _ => p)) v (2 * p - p * p) p Hv) by (intros j; unfold either_link; destruct (Nat.eqb v j); ring).
    rewrite (nb_tot _ _ (either_link (fun _ _ => p)) prop v (2 * p - p * p) p Hv) by (intros j; unfold either_link; destruct (Nat.eqb v j); ring).
    cbn. rewrite !Reqb_false by nra. f_equal. f_equal; [|ring].
    rewrite (sumn_ext N (fun i => (2 * p + - (p * p)) * prop i) (fun j => (2 * p - p * p) * prop j)) by (intros; ring). ring.
Qed.
Print Assumptions C38_random.

Example C38_random_case : nb_total 2 true (out_link (fun _ _ => 1/2)) (fun i => INR i) 0 = 1/2.
Proof. unfold nb_total, out_link, allowed. cbn. lra. Qed.

(** Along either direction with self-loops the vertex itself is counted with probability 2p - p^2 in the
    total but p in the degree: for the constant property 1 the average is not 1. *)
Theorem C38_random_selfloop_refuted : exists s a, r_param s = Some (Fin (1/2), Fin 0) /\ r_selfloops s = true /\
  fst (rnd_av_nn_property (r_N s) (fun _ => 1) Doutin None s) = Ok a /\
  nb_total (r_N s) true (either_link (fun _ _ => 1/2)) (fun _ => 1) 0 / nb_degree (r_N s) true (either_link (fun _ _ => 1/2)) 0 = 1 /\
  a 0%nat = Fin (6/5).
Proof.
  exists (mkRnd 2 true None None None (Some (Fin (1/2), Fin 0))).
  unfold rnd_av_nn_property, rnd_av_nn_num. cbn. rewrite !Reqb_false by lra. cbn. eexists. split; [reflexivity|]. split; [reflexivity|]. split; [reflexivity|].
  split.
  - unfold nb_total, nb_degree, either_link, allowed. cbn. field.
  - f_equal. field.
Qed.
Print Assumptions C38_random_selfloop_refuted.
