(** Properties C19-C22: lib.py. *)
From Verif Require Import Base Num Spec Lib LibFacts.

(** * C19: row normalisation *)

(** Floating point weights: the pattern is kept and every non-empty row sums to one, each entry keeping
    its share of the row. *)
Theorem C19_float_rows : forall A i, Forall (fun e => 0 < snd e) (A i) ->
  map fst (normalise_rows store_float A i) = map fst (A i) /\
  exists w, map snd (normalise_rows store_float A i) = map Fin w /\
    w = map (fun e => snd e / total (A i)) (A i) /\ (A i <> [] -> suml (fun x => x) w = 1).
Proof.
  intros A i H. rewrite (normalise_float A i H). unfold finrow, scaled. rewrite !map_map. split; [reflexivity|].
  exists (map (fun e => snd e / total (A i)) (A i)). rewrite map_map. split; [reflexivity|]. split; [reflexivity|].
  intros Hn. rewrite suml_map. unfold Rdiv. rewrite (suml_scal_r _ snd). fold (total (A i)).
  pose proof (total_pos _ Hn H). field. lra.
Qed.
Print Assumptions C19_float_rows.

Example C19_case : let A := fun i => match i with 0%nat => [(1%nat, 1); (2%nat, 3)] | _ => [] end in
  Forall (fun e => 0 < snd e) (A 0%nat) /\
  normalise_rows store_float A 0 = [(1%nat, Fin (1/4)); (2%nat, Fin (3/4))] /\ normalise_rows store_float A 1 = [].
Proof.
  cbv zeta. split; [repeat constructor; simpl; lra|]. split; [|reflexivity].
  cbn -[Reqb]. unfold store_float. rewrite !Reqb_false by lra. repeat (f_equal; try lra).
Qed.

(** "Whatever the numeric type" fails: integer weights are truncated back to integers, so a row with two
    links of weight 1 becomes a row of zeros. *)
Theorem C19_integer_refuted : exists A,
  Forall (fun e => exists z, snd e = IZR z /\ (0 < z)%Z) (A 0%nat) /\
  normalise_rows store_int A 0 = [(1%nat, Fin 0); (2%nat, Fin 0)].
Proof.
  exists (fun _ => [(1%nat, 1); (2%nat, 1)]). split.
  - repeat constructor; exists 1%Z; split; (reflexivity || lia).
  - pose proof half_int as E.
    unfold normalise_rows. cbn [map fst snd suml]. rewrite E. reflexivity.
Qed.
Print Assumptions C19_integer_refuted.

(** Boolean weights ([pagerank(g, weighted=False)]): whatever conversion to a boolean is made, a row with
    two links cannot sum to one. *)
Theorem C19_boolean_refuted : forall store,
  (forall x, store x = Fin 0 \/ store x = Fin 1) ->
  exists A, A 0%nat = [(1%nat, 1); (2%nat, 1)] /\
    forall w, map snd (normalise_rows store A 0) = map Fin w -> suml (fun x => x) w <> 1.
Proof.
  intros store H. exists (fun _ => [(1%nat, 1); (2%nat, 1)]). split; [reflexivity|].
  unfold normalise_rows. cbn [map fst snd suml].
  intros [|a [|b [|c w]]] E; try discriminate. cbn in E. injection E as Ea Eb. simpl.
  destruct (H (ndiv (Fin 1) (Fin (1 + (1 + 0))))) as [K|K]; cbn in K; rewrite K in *;
    injection Ea as <-; injection Eb as <-; lra.
Qed.
Print Assumptions C19_boolean_refuted.

(** * C20: PageRank *)

(** For floating point weights the call returns, after at most [m] steps, the iterate of the damped
    random walk at which it stopped; this is a probability vector. *)
Theorem C20_probability : forall N A alpha m tol,
  (0 < N)%nat -> (0 < m)%nat -> 0 <= alpha <= 1 ->
  (forall i, (i < N)%nat -> Forall (fun e => (fst e < N)%nat /\ 0 < snd e) (A i)) ->
  exists r n v x, pagerank store_float N A alpha m tol = Ok (r, v) /\
    (forall k, (k < N)%nat -> r k = Fin (x k) /\ 0 <= x k) /\ sumn N x = 1 /\
    x = rank_seq N A alpha n /\ stops N tol (rank_seq N A alpha) m n.
Proof.
  intros N A alpha m tol HN Hm Ha HA.
  destruct (pagerank_result N A alpha m tol HN Hm (fun i Hi => good_pos N A i HA Hi)) as [r [n [v [E [S [_ K]]]]]].
  destruct (rank_prob N A alpha n HA HN Ha) as [P1 P2].
  exists r, n, v, (rank_seq N A alpha n). auto.
Qed.
Print Assumptions C20_probability.

(** When convergence is reported, the vector is a fixed point of the damped walk up to [alpha N tol] in
    total variation. *)
Theorem C20_converged : forall N A alpha m tol r n,
  (0 < N)%nat -> 0 <= alpha ->
  (forall i, (i < N)%nat -> Forall (fun e => (fst e < N)%nat /\ 0 < snd e) (A i)) ->
  pagerank store_float N A alpha m tol = Ok (r, Converged n) ->
  (n < m)%nat /\ exists x, (forall k, (k < N)%nat -> r k = Fin (x k)) /\
    sumn N (fun j => Rabs (alpha * walk N A x j + (1 - alpha) / INR N - x j)) <= alpha * (INR N * tol).
Proof.
  intros N A alpha m tol r n HN Ha HA E.
  destruct m as [|m]; [discriminate|].
  destruct (pagerank_result N A alpha (S m) tol HN ltac:(lia) (fun i Hi => good_pos N A i HA Hi)) as [r' [n' [v [E' [S' [R K]]]]]].
  rewrite E in E'. injection E' as <- <-. cbn in R. destruct R as [-> C].
  split; [destruct S' as [? _]; lia|].
  exists (rank_seq N A alpha (S n)). split; [exact K|]. apply (rank_residual N A alpha n tol HA HN Ha C).
Qed.
Print Assumptions C20_converged.

(** Two vertices, one link 0 -> 1; no damping, one step. *)
Example C20_case : exists r v,
  pagerank store_float 2 (fun i => match i with 0%nat => [(1%nat, 5)] | _ => [] end) 1 1 0 = Ok (r, v) /\
  r 0%nat = Fin (1/4) /\ r 1%nat = Fin (3/4).
Proof.
  set (A := fun i : nat => match i with 0%nat => [(1%nat, 5)] | _ => [] end).
  destruct (C20_probability 2 A 1 1 0 ltac:(lia) ltac:(lia) ltac:(lra)) as [r [n [v [x [E [Hx [_ [Ex St]]]]]]]].
  { intros i Hi. destruct i; subst A; repeat constructor; simpl; lra. }
  assert (n = 1%nat) by (destruct St as [? _]; lia). subst n.
  exists r, v. split; [exact E|]. destruct (Hx 0%nat ltac:(lia)) as [-> _]. destruct (Hx 1%nat ltac:(lia)) as [-> _].
  rewrite Ex. unfold A, rank_seq, walk, entry, total. cbn. split; f_equal; field.
Qed.

(** Integer weights: the ranks do not sum to one (vertex 0 loses its mass). *)
Theorem C20_integer_refuted : exists N A alpha m tol r v x,
  (forall i, (i < N)%nat -> Forall (fun e => (fst e < N)%nat /\ exists z, snd e = IZR z /\ (0 < z)%Z) (A i)) /\
  0 <= alpha <= 1 /\ pagerank store_int N A alpha m tol = Ok (r, v) /\
  (forall k, (k < N)%nat -> r k = Fin (x k)) /\ sumn N x = 1/2.
Proof.
  set (A := fun i : nat => match i with 0%nat => [(0%nat, 1); (1%nat, 1)] | _ => [] end).
  pose proof half_int as E.
  assert (F : fin_arr (propagate_measure 2 (normalise_rows store_int A) 2 (fun _ => ndiv (Fin 1) (Fin (INR 2))) false)
     (fun k => sumn 2 (fun i => push 2 false (match i with 0%nat => [(0%nat, 0); (1%nat, 0)] | _ => [] end) (1/2) k))).
  { apply propagate_fin; [|intros i _; cbn; rewrite Reqb_false by lra; reflexivity | right; lia].
    intros i Hi. destruct i as [|[|i]]; [|reflexivity|lia].
    unfold normalise_rows, A. cbn [map fst snd suml]. rewrite E. reflexivity. }
  eexists 2%nat, A, 1, 1%nat, 0, _, (Stopped 1), (fun _ => 1/4).
  split; [|split; [lra|split; [|split]]].
  - intros i Hi. destruct i; subst A; repeat constructor; cbn; try lia; exists 1%Z; split; (reflexivity || lia).
  - unfold pagerank. cbn [for_flow Nat.eqb].
    destruct (all_close_spec 2 0 (fun k => nadd (nmul (propagate_measure 2 (normalise_rows store_int A) 2 (fun _ => ndiv (Fin 1) (Fin (INR 2))) false k) (Fin 1)) (Fin ((1 - 1) / INR 2)))
      (fun _ => ndiv (Fin 1) (Fin (INR 2))) (fun _ => 1/4) (fun _ => 1/2)) as [C|C].
    + intros k Hk. rewrite F. destruct k as [|[|k]]; [| |lia]; cbn; f_equal; field.
    + intros k Hk. cbn. rewrite Reqb_false by lra. f_equal; field.
    + exfalso. specialize (C 0%nat ltac:(lia)). pose proof (Rabs_pos (1/4 - 1/2)). lra.
    + reflexivity.
  - intros k Hk. cbv beta. rewrite F. destruct k as [|[|k]]; [| |lia]; cbn; f_equal; field.
  - cbn. lra.
Qed.
Print Assumptions C20_integer_refuted.

(** With [max_iter = 0] no vector is returned: the final message uses the unbound loop variable. *)
Theorem C20_no_iterations_refuted : exists max_iter, forall store N A alpha tol,
  pagerank store N A alpha max_iter tol = Raise UnboundLocalError.
Proof. exists 0%nat. reflexivity. Qed.
Print Assumptions C20_no_iterations_refuted.

(** * C21: one propagation step *)

(** Closed form: the measure of [i] is sent along its links, and spread over all vertices when it has
    none (or dropped, with [absorb]). *)
Theorem C21_step : forall N B x absorb k, (0 < N)%nat -> (k < N)%nat ->
  propagate_measure N (fun i => map (fun e => (fst e, Fin (snd e))) (B i)) N (fun i => Fin (x i)) absorb k
  = Fin (sumn N (fun i => match B i with
                          | [] => if absorb then 0 else x i / INR N
                          | _ => entry (B i) k * x i end)).
Proof.
  intros N B x absorb k HN Hk. rewrite (propagate_fin N _ B N _ x absorb); auto.
  f_equal. apply sumn_ext. intros i _. unfold push. apply Nat.ltb_lt in Hk. destruct (B i); [rewrite Hk|]; reflexivity.
Qed.
Print Assumptions C21_step.

Theorem C21_linear : forall N B x y a b absorb k u v, (0 < N)%nat -> (k < N)%nat ->
  let step z := propagate_measure N (fun i => map (fun e => (fst e, Fin (snd e))) (B i)) N (fun i => Fin (z i)) absorb k in
  step x = Fin u -> step y = Fin v -> step (fun i => a * x i + b * y i) = Fin (a * u + b * v).
Proof.
  intros N B x y a b absorb k u v HN Hk step Hx Hy. subst step. cbv beta in *.
  rewrite C21_step in * by assumption. injection Hx as <-. injection Hy as <-. f_equal.
  rewrite <- !sumn_scal_l, <- sumn_plus. apply sumn_ext. intros i _. destruct (B i); [destruct absorb|]; unfold Rdiv; ring.
Qed.
Print Assumptions C21_linear.

(** Row-normalised rows: non-negative measures stay non-negative and the total is kept; with [absorb]
    only the measure of the vertices without links is lost. *)
Theorem C21_mass : forall N B x absorb, (0 < N)%nat ->
  (forall i, (i < N)%nat -> 0 <= x i /\ Forall (fun e => (fst e < N)%nat /\ 0 < snd e) (B i) /\ (B i <> [] -> total (B i) = 1)) ->
  exists z, (forall k, (k < N)%nat ->
      propagate_measure N (fun i => map (fun e => (fst e, Fin (snd e))) (B i)) N (fun i => Fin (x i)) absorb k = Fin (z k) /\ 0 <= z k) /\
    sumn N z = sumn N (fun i => if absorb then match B i with [] => 0 | _ => x i end else x i).
Proof.
  intros N B x absorb HN H. eexists. split.
  - intros k Hk. split; [apply C21_step; assumption|]. cbv beta. apply sumn_nonneg. intros i Hi. destruct (H i Hi) as [H1 [H2 _]].
    destruct (B i) eqn:E.
    + destruct absorb; [lra|]. apply Rmult_le_pos; [exact H1|]. left. apply Rinv_0_lt_compat, lt_0_INR, HN.
    + rewrite <- E in *. apply Rmult_le_pos; [|exact H1]. apply entry_nonneg. eapply Forall_impl; [|exact H2]. intros e [_ K]; exact K.
  - rewrite sumn_swap. apply sumn_ext. intros i Hi. destruct (H i Hi) as [_ [H2 H3]]. destruct (B i) eqn:E.
    + destruct absorb; rewrite sumn_const; [lra|]. field. apply not_0_INR. lia.
    + rewrite <- E in *. rewrite sumn_scal_r. rewrite (entry_sum N (B i)), H3 by (congruence || (eapply Forall_impl; [|exact H2]; intros e [K _]; exact K)).
      destruct absorb; lra.
Qed.
Print Assumptions C21_mass.

Example C21_case :
  propagate_measure 2 (fun i => match i with 0%nat => [(0%nat, Fin (1/4)); (1%nat, Fin (3/4))] | _ => [] end) 2 (fun i => Fin (INR (S i))) false 1
  = Fin (7/4).
Proof.
  pose proof (C21_step 2 (fun i => match i with 0%nat => [(0%nat, 1/4); (1%nat, 3/4)] | _ => [] end) (fun i => INR (S i)) false 1 ltac:(lia) ltac:(lia)) as E.
  etransitivity; [etransitivity; [|exact E]|].
  - unfold propagate_measure. apply f_equal with (f := fun g : nat -> num => g 1%nat). apply for_range_ext. intros [|i] s _; reflexivity.
  - unfold entry. cbn. f_equal. field.
Qed.

(** * C22: trophic depth *)

(** On scipy sparse matrices: the returned vector is the iterate of the mean-depth recursion at the first
    small step, or after [m] steps. *)
Theorem C22_iterate : forall N A final m tol,
  (forall v, (v < N)%nat -> Forall (fun e => (fst e < N)%nat) (A v)) -> (0 < m)%nat ->
  exists r n v, trophic_depth true N A final m tol = Ok (r, v) /\
    stops N tol (depth_seq N A final) m n /\
    forall k, (k < N)%nat -> r k = Fin (depth_seq N A final n k).
Proof.
  intros N A final m tol HA Hm. destruct (trophic_result N A final m tol HA Hm) as [r [n [v [E [S [_ K]]]]]].
  exists r, n, v. auto.
Qed.
Print Assumptions C22_iterate.

(** Depths of vertices with outgoing weight are at least one. *)
Theorem C22_at_least_one : forall N A final m tol r w v,
  (forall v, (v < N)%nat -> Forall (fun e => (fst e < N)%nat /\ 0 < snd e) (A v) /\ 0 <= final v) -> (0 < m)%nat ->
  trophic_depth true N A final m tol = Ok (r, w) -> (v < N)%nat -> A v <> [] \/ 0 < final v ->
  exists x, r v = Fin x /\ 1 <= x.
Proof.
  intros N A final m tol r w v HA Hm E Hv Hs.
  destruct (trophic_result N A final m tol) as [r' [n [w' [E' [S [_ K]]]]]]; [|exact Hm|].
  { intros u Hu. eapply Forall_impl; [|exact (proj1 (HA u Hu))]. intros e [H _]; exact H. }
  rewrite E in E'. injection E' as <- <-. exists (depth_seq N A final n v). split; [apply K, Hv|].
  assert (P : forall k u, (u < N)%nat -> 0 <= depth_seq N A final k u).
  { assert (T : forall u, (u < N)%nat -> 0 <= total (A u)).
    { intros u Hu. destruct (HA u Hu) as [H _]. unfold total. clear - H. induction H; simpl; lra. }
    assert (Z : forall u j, (u < N)%nat -> 0 <= entry (A u) j).
    { intros u j Hu. apply entry_nonneg. eapply Forall_impl; [|exact (proj1 (HA u Hu))]. intros e [_ H]; exact H. }
    induction k as [|k IH]; intros u Hu; cbn [depth_seq]; [apply HA, Hu|].
    destruct (Req_EM_T _ 0) as [E0|E0].
    - apply sumn_nonneg. intros j Hj. apply Rmult_le_pos; [apply Z, Hu | specialize (IH j Hj); lra].
    - assert (0 <= sumn N (fun j => entry (A u) j * depth_seq N A final k j)).
      { apply sumn_nonneg. intros j Hj. apply Rmult_le_pos; [apply Z, Hu | apply IH, Hj]. }
      assert (0 < total (A u) + final u) by (specialize (T u Hu); destruct (HA u Hu) as [_ ?]; lra).
      assert (0 <= sumn N (fun j => entry (A u) j * depth_seq N A final k j) / (total (A u) + final u)).
      { apply Rmult_le_pos; [assumption|]. left. apply Rinv_0_lt_compat. assumption. } lra. }
  destruct n as [|n]; [destruct S as [? _]; lia|]. cbn [depth_seq].
  assert (Pv : Forall (fun e => 0 < snd e) (A v)) by (eapply Forall_impl; [|exact (proj1 (HA v Hv))]; intros e [_ H]; exact H).
  assert (0 < total (A v) + final v).
  { destruct (HA v Hv) as [_ F]. destruct Hs as [Hs|Hs].
    - pose proof (total_pos (A v) Hs Pv). lra.
    - assert (0 <= total (A v)) by (unfold total; clear - Pv; induction Pv; simpl; lra). lra. }
  destruct (Req_EM_T _ 0) as [E0|E0]; [lra|].
  assert (0 <= sumn N (fun j => entry (A v) j * depth_seq N A final n j)).
  { apply sumn_nonneg. intros j Hj. apply Rmult_le_pos; [apply entry_nonneg; exact Pv | apply P, Hj]. }
  assert (0 <= sumn N (fun j => entry (A v) j * depth_seq N A final n j) / (total (A v) + final v)).
  { apply Rmult_le_pos; [assumption|]. left. apply Rinv_0_lt_compat. assumption. } lra.
Qed.
Print Assumptions C22_at_least_one.

(** A chain 0 -> 1 -> final: depths 2 and 1 from the second step on. *)
Example C22_case : let A := fun i : nat => match i with 0%nat => [(1%nat, 3)] | _ => [] end in
  let final := fun i : nat => match i with 0%nat => 0 | _ => 1 end in
  (forall v, (v < 2)%nat -> Forall (fun e => (fst e < 2)%nat /\ 0 < snd e) (A v) /\ 0 <= final v) /\
  depth_seq 2 A final 2 0 = 2 /\ depth_seq 2 A final 2 1 = 1.
Proof.
  cbv zeta. split.
  - intros v Hv. destruct v; split; repeat constructor; simpl; lra.
  - unfold depth_seq, total, entry. cbn. repeat (destruct (Req_EM_T _ 0); try lra); split; field.
Qed.

(** On the graphs of this library the call never returns: their adjacency matrices are sparse arrays, and
    the row sum of a sparse array has no attribute [A1]. *)
Theorem C22_library_graph_refuted : exists e, forall N A final m tol,
  graph_trophic_depth N A final m tol = Raise e.
Proof. exists AttributeError. reflexivity. Qed.
Print Assumptions C22_library_graph_refuted.

(** A vertex without links, even to the final vertex, gets depth zero rather than one. *)
Theorem C22_isolated_refuted : exists N A final m tol r w,
  trophic_depth true N A final m tol = Ok (r, w) /\ (0 < N)%nat /\ A 0%nat = [] /\ r 0%nat = Fin 0.
Proof.
  destruct (trophic_result 1 (fun _ => []) (fun _ => 0) 1 1) as [r [n [v [E [S [_ K]]]]]]; [intros; constructor | lia|].
  exists 1%nat, (fun _ => []), (fun _ => 0), 1%nat, 1, r, v. split; [exact E|]. split; [lia|]. split; [reflexivity|].
  assert (n = 1%nat) by (destruct S as [? _]; lia). subst n. rewrite K by lia. f_equal.
  unfold depth_seq, total, entry. cbn. destruct (Req_EM_T _ 0); [lra|]. lra.
Qed.
Print Assumptions C22_isolated_refuted.

(** With [max_iter = 0] the unbound loop variable is used. *)
Theorem C22_no_iterations_refuted : exists max_iter, forall N A final tol,
  trophic_depth true N A final max_iter tol = Raise UnboundLocalError.
Proof. exists 0%nat. reflexivity. Qed.
Print Assumptions C22_no_iterations_refuted.
