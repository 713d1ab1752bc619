(** Properties of the multi-label objects: C71, C72. *)
From Verif Require Import Base Num Spec Kernels KernelFacts MultiKernels MultiFacts Prob Ensemble EnsembleFacts
  EnsembleProps Lib Ids Graphs DenseGraphs Spark EnsembleState Models ModelFacts StateFacts StateProps SparkFacts
  SparkMeasures SparkConfusion SparkLib Layers LayerFacts LayerProps LayerLib PropLayers MultiState MultiStateFacts
  MultiStateProps MultiLik.

(** * C71: label-resolved measures of an object *)

(** Any mixture of inherited and label-resolved queries, with any recompute flags, on a new object: every
    answer is that of the current parameters, and the parameters and the self-loop option stay. *)
Theorem C71_history : forall u g d own b qs, library_multi u g -> (forall k, (k < u_L u)%nat -> nonneg (d k)) ->
  (2 <= u_N u)%nat -> Forall (valid_lquery b own) qs ->
  let r := u_asks u qs (new_obj (Some d) own) in
  Forall2 (correct_multi u g d own) qs (fst r) /\
  a_param (fst (snd r)) = Some d /\ a_selfloops (fst (snd r)) = own.
Proof.
  intros u g d own b qs Hu Hd HN V.
  destruct (u_edges_spec u g Hu d own Hd) as (e & E1 & E2).
  destruct (u_degrees_spec u g Hu d own Hd) as (x & y & z & D1 & D2).
  exact (multi_history u g d own Hu Hd _ _ true e x y z E1 D1 E2 D2 b qs HN V).
Qed.
Print Assumptions C71_history.

(** With the recompute flag the answer is that of the current parameters whatever the attributes hold,
    for instance after a second fit. *)
Theorem C71_recompute : forall u g d s q, library_multi u g -> (forall k, (k < u_L u)%nat -> nonneg (d k)) ->
  recomputing q ->
  correct_multi u g d (a_selfloops (fst s)) q (fst (u_ask u q (refit s d))).
Proof.
  intros u g d s q Hu Hd Hq.
  destruct (u_edges_spec u g Hu d (a_selfloops (fst s)) Hd) as (e & E1 & E2).
  destruct (u_degrees_spec u g Hu d (a_selfloops (fst s)) Hd) as (x & y & z & D1 & D2).
  apply (multi_recompute u g d _ _ _ true e x y z E1 D1 E2 D2 q (refit s d)); try reflexivity. exact Hq.
Qed.
Print Assumptions C71_recompute.

(** A query for a label-resolved measure leaves the other attributes of the object alone, and the other
    way round. *)
Theorem C71_separate : forall u q s,
  match q with
  | LBase b => snd (snd (u_ask u q s)) = snd s /\ fst (snd (u_ask u q s)) = snd (u_query u b (fst s))
  | _ => fst (snd (u_ask u q s)) = fst s
  end.
Proof.
  intros u q s. pose proof (lquery_separate _ _ _ (u_edges_label u) (u_degrees_label u) (u_query u) true q s) as H.
  cbv zeta in H. destruct q; try exact H. unfold u_ask. rewrite H. split; reflexivity.
Qed.
Print Assumptions C71_separate.

Definition ex_multi : multi := multi_fitness 2 1 (ex_table 2) (ex_table 2) (fun _ _ => Fin 1).
Lemma ex_multi_ok : library_multi ex_multi logistic.
Proof. apply lm_fitness; try (apply ex_table_ok; lia); reflexivity. Qed.
Lemma ex_multi_prob : forall r i j, 0 < r -> (i < 2)%nat -> (j < 2)%nat ->
  layer_prob logistic (fun _ => Fin r) (ex_table 2) (ex_table 2) 0 i j = r / (1 + r).
Proof.
  intros r i j Hr Hi Hj. unfold layer_prob, link_prob, label_value.
  destruct i as [|[|i]]; [| |lia]; (destruct j as [|[|j]]; [| |lia]);
    cbn; unfold logistic, Rdiv; rewrite ?Rmult_1_r;
    destruct (Reqb_spec r 0); try lra; destruct (Reqb_spec 1 0); try lra; reflexivity.
Qed.

Example C71_case : library_multi ex_multi logistic /\ (forall k, (k < u_L ex_multi)%nat -> nonneg (Fin 1)) /\
  Forall (valid_lquery true false) [LOut false; LBase (QDegree Dout false); LEdges false; LDegree true;
    LBase (QNNDegree Dout Din (Some true) true false); LIn false] /\
  pair_sum 2 false (layer_prob logistic (fun _ => Fin 1) (ex_table 2) (ex_table 2) 0) = 1 /\
  recomputing (LOut true).
Proof.
  split; [exact ex_multi_ok|]. split; [intros k _; cbn; lra|].
  split; [|split; [unfold pair_sum; cbn; rewrite !ex_multi_prob by (lra || lia); lra | reflexivity]].
  repeat (apply Forall_cons || apply Forall_nil); cbn; try exact I; try discriminate. repeat split; discriminate.
Qed.

(** Without the recompute flag the values of the first fit are returned after a second one, here the
    expected number of links of the label, 1 instead of 3/2. *)
Theorem C71_stale_refuted : exists s1 e e' s2,
  u_ask ex_multi (LEdges false) (new_obj (Some (fun _ => Fin 1)) false) = (Ok (AEdges e), s1) /\
  u_ask ex_multi (LEdges false) (refit s1 (fun _ => Fin 3)) = (Ok (AEdges e'), s2) /\
  e' 0%nat = 1 /\ pair_sum 2 false (layer_prob logistic (fun _ => Fin 3) (ex_table 2) (ex_table 2) 0) = 3 / 2.
Proof.
  destruct (u_edges_spec ex_multi logistic ex_multi_ok (fun _ => Fin 1) false (fun k _ => ltac:(cbn; lra))) as (e & E1 & E2).
  exists (new_ens (Some (fun _ => Fin 1)) false, mkLab (Some e) None None None), e, e. eexists. split; [|split; [reflexivity|]].
  - unfold u_ask, run_lquery, lbl_num_edges, new_obj. cbn [fst snd a_param new_ens is_none b_edges no_lab orb a_selfloops].
    rewrite E1. reflexivity.
  - rewrite (E2 0%nat) by (cbn; lia). cbn [ex_multi u_N u_L u_xs u_ys multi_fitness].
    unfold pair_sum; cbn; rewrite !ex_multi_prob by (lra || lia); split; lra.
Qed.
Print Assumptions C71_stale_refuted.

(** The dense module.  Full statement: without [edges_defined] (the expected number of links by label
    only makes sense with as many labels as vertices, see C53). *)
Theorem C71_dense_history_partial : forall v g d own b qs, library_dense_multi v g ->
  (forall k, (k < v_L v)%nat -> nonneg (d k)) -> (2 <= v_N v)%nat ->
  Forall (valid_lquery b own) qs -> Forall (edges_defined v) qs ->
  let r := v_asks v qs (new_obj (Some d) own) in
  Forall2 (correct_dense_multi v g d own) qs (fst r) /\
  a_param (fst (snd r)) = Some d /\ a_selfloops (fst (snd r)) = own.
Proof. exact (fun v g d own b qs Hv Hd => dense_multi_history v g d own Hv Hd b qs). Qed.
Print Assumptions C71_dense_history_partial.

Example C71_dense_case :
  let v := multi_fitness_dense 2 2 (fun _ _ => Fin 1) (fun _ _ => Fin 1) (fun _ _ => Fin 1) in
  library_dense_multi v logistic /\ Forall (edges_defined v) [LEdges false; LOut true] /\
  link_prob logistic [Fin 1; Fin 1; Fin 1; Fin 1] = 1 / 2.
Proof.
  cbv zeta. split; [|split].
  - apply ld_fitness. intros; cbn; lra.
  - repeat (apply Forall_cons || apply Forall_nil); cbn; auto.
  - unfold link_prob. cbn. destruct (Reqb_spec 1 0); [lra|]. cbn. unfold logistic. lra.
Qed.

(** The Spark module, label-resolved queries ([base]: any inherited part), when some label has an
    admissible pair of stored fitnesses. *)
Theorem C71_spark_history_partial : forall u g d own base qs, library_multi u g -> (forall k, (k < u_L u)%nat -> nonneg (d k)) ->
  some_pair u own -> Forall label_query qs ->
  let r := run_lqueries (w_edges_label u) (w_degrees_label u) base false qs (new_obj (Some d) own) in
  Forall2 (correct_multi u g d own) qs (fst r) /\
  fst (snd r) = new_ens (Some d) own.
Proof.
  intros u g d own base qs Hu Hd Hsp V. cbv zeta.
  destruct (w_edges_spec u g Hu d own Hd) as (e & E1 & E2).
  destruct (w_degrees_spec u g Hu d own Hd Hsp) as (x & y & z & D1 & D2).
  destruct (lhistory_now _ _ _ (w_edges_label u) (w_degrees_label u) base false d own (Ok e) (Ok (x, y, z)) E1 D1
    (fun s => s = new_ens (Some d) own) (fun _ => Raise AttributeError) (fun _ => False)
    (fun s I => ltac:(rewrite I; split; reflexivity)) (fun q s I V => False_ind _ V) qs (new_obj (Some d) own)) as [H1 H2].
  - reflexivity.
  - apply no_lab_ok.
  - eapply Forall_impl; [|exact V]. intros q. destruct q; cbn; auto.
  - rewrite H1. split; [|exact H2].
    apply Forall2_map_r. eapply Forall_impl; [|exact V]. intros q Hq.
    apply (label_now (u_N u) (u_L u) own _ _ _ _ e x y z _ _ E2 D2 (fun _ => False)).
    + intros ? [].
    + destruct q; exact Hq.
Qed.
Print Assumptions C71_spark_history_partial.

Example C71_spark_case : library_multi ex_multi logistic /\ some_pair ex_multi false /\
  Forall label_query [LOut false; LEdges true; LIn true].
Proof.
  split; [exact ex_multi_ok|]. split.
  - exists 0%nat, 0%nat, 1%nat. cbn. repeat split; try lia; cbn; auto.
  - repeat (apply Forall_cons || apply Forall_nil); exact I.
Qed.

(** The total over the blocks of vertices, when it is computed. *)
Theorem C71_spark_total : forall u g d s B recompute, library_multi u g -> (forall k, (k < u_L u)%nat -> nonneg (d k)) ->
  (1 <= B)%nat -> a_param (fst s) = Some d -> recompute = true \/ b_edges (snd s) = None ->
  fst (spark_num_edges (E := nat -> R) (D := nat -> nat -> R) (w_total u B) recompute s)
  = Ok (pair_sum (u_N u) (a_selfloops (fst s)) (some_layer g (u_L u) d (u_xs u) (u_ys u))).
Proof.
  intros u g d s B recompute Hu Hd HB Hp Hr. unfold spark_num_edges. rewrite Hp.
  assert (X : is_none (b_edges (snd s)) || recompute = true).
  { destruct Hr as [->| ->]; [apply orb_true_r | reflexivity]. }
  rewrite X. cbn. f_equal. exact (proj1 (s_edges_spec _ _ (multi_spark_model u g d Hu Hd) B HB (a_selfloops (fst s)))).
Qed.
Print Assumptions C71_spark_total.

(** The total after the label-resolved query fails: the test is on the wrong attribute. *)
Theorem C71_spark_edges_refuted : exists e s1 s2, let base := u_query ex_multi in
  run_lquery (w_edges_label ex_multi) (w_degrees_label ex_multi) base false (LEdges false)
    (new_obj (Some (fun _ => Fin 1)) false) = (Ok (AEdges e), s1) /\
  spark_num_edges (w_total ex_multi 1) false s1 = (Raise AttributeError, s2) /\
  fst (spark_num_edges (E := nat -> R) (D := nat -> nat -> R) (w_total ex_multi 1) false (new_obj (Some (fun _ => Fin 1)) false)) = Ok 1.
Proof.
  assert (H1 : forall k, (k < u_L ex_multi)%nat -> nonneg (Fin 1)) by (intros; cbn; lra).
  do 3 eexists. cbv zeta. split; [reflexivity|]. split; [reflexivity|].
  rewrite (C71_spark_total ex_multi logistic (fun _ => Fin 1)); [|exact ex_multi_ok | exact H1 | cbn; lia | reflexivity | right; reflexivity].
  f_equal. cbn [ex_multi u_N u_L u_xs u_ys multi_fitness new_obj fst a_selfloops new_ens].
  unfold pair_sum, some_layer, any_layer; cbn; rewrite !ex_multi_prob by (lra || lia); lra.
Qed.
Print Assumptions C71_spark_edges_refuted.

(** The recompute flag of the out- and in-degrees by label does nothing once they exist: here after a
    second fit the out-degree of the first one is returned (2 * 1/2, instead of 2 * 3/4). *)
Theorem C71_spark_recompute_refuted : exists a a' s1 s2, let base := u_query ex_multi in
  let ask := run_lquery (w_edges_label ex_multi) (w_degrees_label ex_multi) base false in
  ask (LOut true) (new_obj (Some (fun _ => Fin 1)) false) = (Ok (ADegrees a), s1) /\
  ask (LOut true) (refit s1 (fun _ => Fin 3)) = (Ok (ADegrees a'), s2) /\
  a' 0%nat 0%nat = 1 /\
  exists b, fst (u_ask ex_multi (LOut true) (refit s1 (fun _ => Fin 3))) = Ok (ADegrees b) /\ b 0%nat 0%nat = 3 / 2.
Proof.
  assert (H1 : forall k, (k < u_L ex_multi)%nat -> nonneg (Fin 1)) by (intros; cbn; lra).
  assert (H3 : forall k, (k < u_L ex_multi)%nat -> nonneg (Fin 3)) by (intros; cbn; lra).
  assert (Hsp : some_pair ex_multi false) by exact (proj1 (proj2 C71_spark_case)).
  destruct (w_degrees_spec ex_multi logistic ex_multi_ok (fun _ => Fin 1) false H1 Hsp) as (x & y & z & D1 & D2).
  exists y, y, (new_ens (Some (fun _ => Fin 1)) false, mkLab None (Some x) (Some y) (Some z)). eexists. cbv zeta.
  split; [|split; [reflexivity|split]].
  - unfold run_lquery, lbl_out, lbl_degree, new_obj.
    cbn [fst snd a_param new_ens is_none b_out b_degree no_lab orb andb a_selfloops].
    rewrite D1. reflexivity.
  - rewrite (proj1 (proj2 (D2 0%nat 0%nat ltac:(cbn; lia) ltac:(cbn; lia)))).
    unfold counted, out_link. cbn [ex_multi u_N u_L u_xs u_ys multi_fitness]. cbn. rewrite !ex_multi_prob by (lra || lia). lra.
  - pose proof (C71_recompute ex_multi logistic (fun _ => Fin 3)
      (new_ens (Some (fun _ => Fin 1)) false, mkLab None (Some x) (Some y) (Some z)) (LOut true) ex_multi_ok H3 eq_refl) as C.
    cbn [correct_multi correct_label] in C. destruct C as (b & B1 & B2). exists b. split; [exact B1|].
    rewrite (B2 0%nat 0%nat) by (cbn; lia).
    unfold counted, out_link. cbn [ex_multi u_N u_L u_xs u_ys multi_fitness]. cbn. rewrite !ex_multi_prob by (lra || lia). lra.
Qed.
Print Assumptions C71_spark_recompute_refuted.

(** Without any admissible pair the degrees by label are an error in the Spark module, zero in the
    sparse one. *)
Theorem C71_spark_empty_refuted : exists u d a s,
  library_multi u logistic /\ (forall k, (k < u_L u)%nat -> nonneg (d k)) /\
  (forall base, fst (run_lquery (w_edges_label u) (w_degrees_label u) base false (LDegree false) (new_obj (Some d) false))
     = Raise IndexError) /\
  u_ask u (LDegree false) (new_obj (Some d) false) = (Ok (ADegrees a), s) /\
  forall v, (v < 2)%nat -> a v 0%nat = 0.
Proof.
  set (t := [([0%nat], [Fin 1]); ([], [])] : list (list nat * list num)).
  assert (T : label_table 1 t).
  { repeat split; try discriminate; repeat constructor; simpl; try lia; lra. }
  assert (U : library_multi (multi_fitness 2 1 t t (fun _ _ => Fin 1)) logistic) by (apply lm_fitness; try exact T; reflexivity).
  assert (H1 : forall k, (k < 1)%nat -> nonneg (Fin 1)) by (intros; cbn; lra).
  destruct (u_degrees_spec _ logistic U (fun _ => Fin 1) false H1) as (x & y & z & D1 & D2).
  exists (multi_fitness 2 1 t t (fun _ _ => Fin 1)), (fun _ => Fin 1), x. eexists.
  split; [exact U|]. split; [exact H1|]. split; [intros base; reflexivity|]. split.
  - unfold u_ask, run_lquery, lbl_degree, new_obj. cbn [fst snd a_param new_ens is_none b_degree no_lab orb a_selfloops].
    rewrite D1. reflexivity.
  - intros v Hv. rewrite (proj1 (D2 v 0%nat Hv ltac:(cbn; lia))).
    unfold counted. cbn [u_N u_L u_xs u_ys multi_fitness]. unfold t. destruct v as [|[|v]]; [| |lia]; cbn; lra.
Qed.
Print Assumptions C71_spark_empty_refuted.

(** * C72: graph arguments of log_likelihood *)

(** A graph with labels, given as a library object, a 3-dimensional array or a list of matrices. *)
Theorem C72_tensor : forall u g d arg selfloops s Gs, library_multi u g -> (forall k, (k < u_L u)%nat -> nonneg (d k)) ->
  a_param s = Some d -> length Gs = u_L u ->
  let sl := match selfloops with None => a_selfloops s | Some b => b end in
  (forall G i j, In G Gs -> In (i, j) G -> (i < u_N u)%nat /\ (j < u_N u)%nat /\ allowed sl i j = true) ->
  tensor_form (u_N u) arg Gs ->
  exists l, u_log_likelihood u arg selfloops s = Ok l /\
    log_of (prodn (u_L u) (fun k => graph_weight (u_N u) sl (layer_prob g d (u_xs u) (u_ys u) k) (nth k Gs []))) l.
Proof. exact (fun u g d arg selfloops s Gs Hu Hd => u_tensor_spec u g Hu d Hd arg selfloops s Gs). Qed.
Print Assumptions C72_tensor.

(** A graph without labels: the likelihood of the projection. *)
Theorem C72_matrix : forall u g d arg selfloops s G, library_multi u g -> (forall k, (k < u_L u)%nat -> nonneg (d k)) ->
  a_param s = Some d -> (forall i j, In (i, j) G -> (i < u_N u)%nat /\ (j < u_N u)%nat) -> flat_form (u_N u) arg G ->
  exists l, u_log_likelihood u arg selfloops s = Ok l /\
    log_of (graph_weight (u_N u) (match selfloops with None => a_selfloops s | Some b => b end)
              (fun i j => 1 - prodn (u_L u) (fun k => 1 - layer_prob g d (u_xs u) (u_ys u) k i j)) G) l.
Proof. exact (fun u g d arg selfloops s G Hu Hd => u_flat_spec u g Hu d Hd arg selfloops s G). Qed.
Print Assumptions C72_matrix.

(** The Spark module, any number of blocks. *)
Theorem C72_spark_tensor : forall u g d B arg selfloops s Gs, library_multi u g -> (forall k, (k < u_L u)%nat -> nonneg (d k)) ->
  a_param s = Some d -> length Gs = u_L u ->
  let sl := match selfloops with None => a_selfloops s | Some b => b end in
  (forall G i j, In G Gs -> In (i, j) G -> (i < u_N u)%nat /\ (j < u_N u)%nat /\ allowed sl i j = true) ->
  tensor_form (u_N u) arg Gs ->
  exists l, w_log_likelihood u B arg selfloops s = Ok l /\
    log_of (prodn (u_L u) (fun k => graph_weight (u_N u) sl (layer_prob g d (u_xs u) (u_ys u) k) (nth k Gs []))) l.
Proof. exact (fun u g d B arg selfloops s Gs Hu Hd => w_tensor_spec u g Hu d Hd B arg selfloops s Gs). Qed.
Print Assumptions C72_spark_tensor.

Theorem C72_spark_matrix : forall u g d B arg selfloops s G, library_multi u g -> (forall k, (k < u_L u)%nat -> nonneg (d k)) ->
  (1 <= B)%nat -> a_param s = Some d -> (forall i j, In (i, j) G -> (i < u_N u)%nat /\ (j < u_N u)%nat) ->
  flat_form (u_N u) arg G ->
  exists l, w_log_likelihood u B arg selfloops s = Ok l /\
    log_of (graph_weight (u_N u) (match selfloops with None => a_selfloops s | Some b => b end)
              (fun i j => 1 - prodn (u_L u) (fun k => 1 - layer_prob g d (u_xs u) (u_ys u) k i j)) G) l.
Proof. exact (fun u g d B arg selfloops s G Hu Hd => w_flat_spec u g Hu d Hd B arg selfloops s G). Qed.
Print Assumptions C72_spark_matrix.

(** The dense module; links that are not admissible are left out. *)
Theorem C72_dense_tensor : forall v g d arg selfloops s Gs, library_dense_multi v g -> (forall k, (k < v_L v)%nat -> nonneg (d k)) ->
  a_param s = Some d -> length Gs = v_L v -> dense_tensor_form (v_N v) arg Gs ->
  exists l, v_log_likelihood v arg selfloops s = Ok l /\
    log_of (prodn (v_L v) (fun k => graph_weight (v_N v) (match selfloops with None => a_selfloops s | Some b => b end)
              (fun i j => link_prob g [d k; v_x v i k; v_y v j k; Fin 1]) (nth k Gs []))) l.
Proof. exact (fun v g d arg selfloops s Gs Hv Hd => v_tensor_spec v g Hv d Hd arg selfloops s Gs). Qed.
Print Assumptions C72_dense_tensor.

Theorem C72_dense_matrix : forall v g d arg selfloops s G, library_dense_multi v g -> (forall k, (k < v_L v)%nat -> nonneg (d k)) ->
  a_param s = Some d -> dense_flat_form (v_N v) arg G ->
  exists l, v_log_likelihood v arg selfloops s = Ok l /\
    log_of (graph_weight (v_N v) (match selfloops with None => a_selfloops s | Some b => b end)
              (fun i j => 1 - prodn (v_L v) (fun k => 1 - link_prob g [d k; v_x v i k; v_y v j k; Fin 1])) G) l.
Proof. exact (fun v g d arg selfloops s G Hv Hd => v_flat_spec v g Hv d Hd arg selfloops s G). Qed.
Print Assumptions C72_dense_matrix.

(** The link 0 -> 1 as a list of one sparse matrix, an array, and a matrix. *)
Example C72_case :
  let a := fun i j : nat => if Nat.eqb i 0 && Nat.eqb j 1 then 5 else 0 in
  let e := fun i : nat => if Nat.eqb i 0 then [(1%nat, 5)] else [] in
  tensor_form 2 (GList [MStored 2 2 e]) [[(0, 1)%nat]] /\ tensor_form 2 (GArray3 1 2 2 (fun _ => a)) [[(0, 1)%nat]] /\
  flat_form 2 (GMatrix (MArray 2 2 a)) [(0, 1)%nat] /\ flat_form 2 (GMatrix (MStored 2 2 e)) [(0, 1)%nat] /\
  dense_tensor_form 2 (HArray3 1 2 2 (fun _ => a)) [[(0, 1)%nat]] /\
  dense_flat_form 2 (HMatrix (MStored 2 2 e)) [(0, 1)%nat] /\ allowed false 0 1 = true.
Proof.
  cbv zeta.
  assert (HA : forall i j, (i < 2)%nat -> (j < 2)%nat ->
    ((if Nat.eqb i 0 && Nat.eqb j 1 then 5 else 0) <> 0 <-> In (i, j) [(0, 1)%nat])).
  { intros i j Hi Hj. destruct i as [|[|i]]; [| |lia]; (destruct j as [|[|j]]; [| |lia]); cbn;
      (split; [intros H; try (exfalso; lra); auto | intros [H|[]]; try discriminate H; lra]). }
  assert (HE : matrix_form 2 (MStored 2 2 (fun i : nat => if Nat.eqb i 0 then [(1%nat, 5)] else [])) [(0, 1)%nat]).
  { cbn. split; [reflexivity|]. split; [reflexivity|]. split.
    - intros i x Hi Hx. destruct i as [|[|i]]; [| |lia]; cbn in Hx; [|contradiction]. destruct Hx as [<-|[]]. cbn. split; [lia|lra].
    - intros i j Hi Hj. destruct i as [|[|i]]; [| |lia]; cbn.
      + split; [intros (v & [H|[]]); injection H as <- <-; auto | intros [H|[]]; injection H as <-; exists 5; auto].
      + split; [intros (v & []) | intros [H|[]]; discriminate H]. }
  assert (HL : forall l i j, (l < 1)%nat -> (i < 2)%nat -> (j < 2)%nat ->
    ((if Nat.eqb i 0 && Nat.eqb j 1 then 5 else 0) <> 0 <-> In (i, j) (nth l [[(0, 1)%nat]] []))).
  { intros l i j Hl. destruct l as [|l]; [|lia]. apply HA. }
  split; [|split; [|split; [|split; [|split; [|split]]]]].
  - cbn. constructor; [exact HE | constructor].
  - cbn. split; [reflexivity|]. intros l Hl. split; [reflexivity|]. split; [reflexivity|]. intros i j. apply (HL l i j Hl).
  - cbn. split; [reflexivity|]. split; [reflexivity|]. exact HA.
  - exact HE.
  - cbn [dense_tensor_form length]. split; [reflexivity|]. split; [reflexivity|]. split; [reflexivity|]. exact HL.
  - split; [exact HE|]. intros i Hi. destruct i; cbn; repeat constructor; auto.
  - reflexivity.
Qed.

(** What is rejected, and how. *)
Theorem C72_rejected : forall u B v s selfloops,
  (a_param s = None -> forall g h, u_log_likelihood u g selfloops s = Raise GenericException /\
     w_log_likelihood u B g selfloops s = Raise GenericException /\ v_log_likelihood v h selfloops s = Raise GenericException) /\
  (forall d, a_param s = Some d ->
     (forall g, In g [GArrayN; GOther] -> u_log_likelihood u g selfloops s = Raise ValueError /\
        w_log_likelihood u B g selfloops s = Raise ValueError) /\
     (forall h, In h [HArrayN; HOther] -> v_log_likelihood v h selfloops s = Raise ValueError) /\
     (forall l, length l <> u_L u -> u_log_likelihood u (GList l) selfloops s = Raise ValueError /\
        w_log_likelihood u B (GList l) selfloops s = Raise ValueError) /\
     (forall k r c a, k <> u_L u -> u_log_likelihood u (GArray3 k r c a) selfloops s = Raise ValueError /\
        w_log_likelihood u B (GArray3 k r c a) selfloops s = Raise ValueError) /\
     (forall k r c a, k <> v_L v \/ r <> v_N v \/ c <> v_N v ->
        v_log_likelihood v (HArray3 k r c a) selfloops s = Raise ValueError) /\
     (forall r c a, r <> u_N u \/ c <> u_N u -> u_log_likelihood u (GMatrix (MArray r c a)) selfloops s = Raise ValueError /\
        w_log_likelihood u B (GMatrix (MArray r c a)) selfloops s = Raise ValueError) /\
     (forall r c a, r <> v_N v \/ c <> v_N v -> v_log_likelihood v (HMatrix (MArray r c a)) selfloops s = Raise ValueError)).
Proof.
  assert (NE : forall r c n, r <> n \/ c <> n -> Nat.eqb r n && Nat.eqb c n = false).
  { intros r c n H. destruct (Nat.eqb_spec r n), (Nat.eqb_spec c n); try reflexivity. lia. }
  intros u B v s selfloops. split.
  - intros Hp g h. unfold u_log_likelihood, w_log_likelihood, v_log_likelihood. rewrite Hp. repeat split; reflexivity.
  - intros d Hp. unfold u_log_likelihood, w_log_likelihood, v_log_likelihood. rewrite Hp.
    split; [|split; [|split; [|split; [|split; [|split]]]]].
    + intros g [<-|[<-|[]]]; split; reflexivity.
    + intros h [<-|[<-|[]]]; reflexivity.
    + intros l Hl. cbn [read_graph bind]. unfold log_likelihood_tensor. rewrite map_length.
      apply Nat.eqb_neq in Hl. rewrite Hl. split; reflexivity.
    + intros k r c a Hk. cbn [read_graph bind]. unfold log_likelihood_tensor. rewrite map_length, seq_length.
      apply Nat.eqb_neq in Hk. rewrite Hk. split; reflexivity.
    + intros k r c a H. replace (Nat.eqb k (v_L v) && Nat.eqb r (v_N v) && Nat.eqb c (v_N v)) with false; [reflexivity|].
      symmetry. destruct (Nat.eqb_spec k (v_L v)), (Nat.eqb_spec r (v_N v)), (Nat.eqb_spec c (v_N v)); try reflexivity. lia.
    + intros r c a H. cbn [read_graph bind csr_layer l_rows l_cols]. rewrite (NE _ _ _ H). split; reflexivity.
    + intros r c a H. cbn [matrix_shape fst snd]. rewrite (NE _ _ _ H). reflexivity.
Qed.
Print Assumptions C72_rejected.

Example C72_rejected_case : a_param (new_ens (Some (fun _ : nat => Fin 1)) true) = Some (fun _ => Fin 1) /\
  a_param (new_ens (P := nat -> num) None true) = None /\ length (@nil matrix_arg) <> u_L ex_multi.
Proof. repeat split; discriminate. Qed.

(** The right number of layers with a wrong shape fails while the message is put together, and a list of
    sparse layers always fails in the dense module. *)
Theorem C72_shape_refuted : exists u d t, library_multi u logistic /\ length t = u_L u /\
  forall own selfloops B, u_log_likelihood u (GList t) selfloops (new_ens (Some d) own) = Raise AttributeError /\
    w_log_likelihood u B (GList t) selfloops (new_ens (Some d) own) = Raise AttributeError.
Proof.
  exists ex_multi, (fun _ => Fin 1), [MArray 3 2 (fun _ _ => 0)]. split; [exact ex_multi_ok|]. split; [reflexivity|].
  intros own selfloops B. split; reflexivity.
Qed.
Print Assumptions C72_shape_refuted.

Theorem C72_dense_list_refuted : exists v d l, library_dense_multi v logistic /\ length l = v_L v /\
  (exists G, Forall2 (matrix_form (v_N v)) l G) /\
  (forall own selfloops, v_log_likelihood v (HSparseList l) selfloops (new_ens (Some d) own) = Raise AttributeError /\
    v_log_likelihood v HEmptyList selfloops (new_ens (Some d) own) = Raise IndexError).
Proof.
  exists (multi_fitness_dense 2 1 (fun _ _ => Fin 1) (fun _ _ => Fin 1) (fun _ _ => Fin 1)), (fun _ => Fin 1),
    [MStored 2 2 (fun i : nat => if Nat.eqb i 0 then [(1%nat, 5)] else [])].
  split; [apply ld_fitness; intros; cbn; lra|]. split; [reflexivity|]. split.
  - exists [[(0, 1)%nat]]. exact (proj1 C72_case).
  - intros own selfloops. split; reflexivity.
Qed.
Print Assumptions C72_dense_list_refuted.

(** A stored zero counts as a link: the matrix below has no non-zero entry, and the likelihood is that of
    the graph with the link 0 -> 1 (3/16 instead of 1/16). *)
Theorem C72_stored_zero_refuted : exists m l, matrix_at m = (fun _ _ => 0) /\ matrix_shape m = (2%nat, 2%nat) /\
  u_log_likelihood ex_multi (GMatrix m) None (new_ens (Some (fun _ => Fin 3)) false) = Ok l /\
  log_of (3 / 16) l /\
  graph_weight 2 false (some_layer logistic 1 (fun _ => Fin 3) (ex_table 2) (ex_table 2)) [] = 1 / 16.
Proof.
  assert (H3 : forall k, (k < u_L ex_multi)%nat -> nonneg (Fin 3)) by (intros; cbn; lra).
  set (e := fun (x : R) (i : nat) => if Nat.eqb i 0 then [(1%nat, x)] else []).
  assert (FF : flat_form 2 (GMatrix (MStored 2 2 (e 5))) [(0, 1)%nat]) by exact (proj1 (proj2 (proj2 (proj2 C72_case)))).
  destruct (C72_matrix ex_multi logistic (fun _ => Fin 3) (GMatrix (MStored 2 2 (e 5))) None
    (new_ens (Some (fun _ => Fin 3)) false) [(0, 1)%nat] ex_multi_ok H3 eq_refl) as (l & E & LL); [|exact FF|].
  { intros i j [H|[]]. injection H as <- <-. cbn. lia. }
  exists (MStored 2 2 (e 0)), l. split; [|split; [reflexivity|split; [|split]]].
  - apply FunctionalExtensionality.functional_extensionality. intros i.
    apply FunctionalExtensionality.functional_extensionality. intros j. cbn [matrix_at]. unfold e.
    destruct (Nat.eqb i 0); cbn; [destruct j as [|[|j]]|]; reflexivity.
  - rewrite <- E. unfold u_log_likelihood. cbn [a_param new_ens read_graph bind csr_layer l_rows l_cols l_row].
    f_equal.
  - match type of LL with log_of ?x _ => replace (3 / 16) with x; [exact LL|] end.
    unfold graph_weight. cbn. rewrite !ex_multi_prob by (lra || lia). lra.
  - unfold graph_weight, some_layer, any_layer. cbn. rewrite !ex_multi_prob by (lra || lia). lra.
Qed.
Print Assumptions C72_stored_zero_refuted.
