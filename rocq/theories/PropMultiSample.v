(** Properties of the samples of the multi-label objects: C73. *)
From Verif Require Import Base Num Spec Kernels KernelFacts MultiKernels MultiFacts Prob Ensemble EnsembleFacts
  EnsembleProps Lib LibFacts Ids Graphs DenseGraphs Spark EnsembleState Models ModelFacts StateFacts StateProps
  Layers LayerFacts LayerProps LayerLib PropLayers MultiState MultiStateFacts MultiStateProps PropMultiState MultiSample.

(** * C73: options of sample *)

(** Without weights: the links of the layers are independent with the documented probabilities, each link
    has weight one, whatever (accepted) strengths are given.  [sampled_links] states the distribution of
    the links and that no run fails. *)
Theorem C73_binary : forall u g d s so si arg So Si, library_multi u g -> (forall k, (k < u_L u)%nat -> nonneg (d k)) ->
  a_param s = Some d -> strength_form (u_N u) (u_L u) (u_xs u) so So -> strength_form (u_N u) (u_L u) (u_ys u) si Si ->
  exists m, u_sample u WNone so si arg s = Ok m /\ w_sample u WNone so si arg s = Ok m /\
  sampled_links u g d (a_selfloops s) m /\
  forall r, outcome m r -> exists H, r = Ok H /\ forall k e, In e (nth k H []) -> snd e = 1.
Proof.
  intros u g d s so si arg So Si U Hd Hp F1 F2. destruct (binary_samples u g d s so si arg So Si U Hd Hp F1 F2) as (m & E & H1 & H2).
  exists m. split; [exact E|]. split; [unfold w_sample; rewrite E; reflexivity|]. split; assumption.
Qed.
Print Assumptions C73_binary.

(** With CReMB weights: the same links, and the expected weight of a pair in a layer is the product of its
    strengths over the total of the layer. *)
Theorem C73_cremb : forall u g d s so si arg So Si, library_multi u g -> (forall k, (k < u_L u)%nat -> nonneg (d k)) ->
  a_param s = Some d -> strength_form (u_N u) (u_L u) (u_xs u) so So -> strength_form (u_N u) (u_L u) (u_ys u) si Si ->
  (forall i k, label_stored (u_xs u) i k -> has_strength (u_xs u) so i k) ->
  (forall i k, label_stored (u_ys u) i k -> has_strength (u_ys u) si i k) ->
  (forall k, (k < u_L u)%nat -> sumn (u_N u) (fun i => So i k) <> 0 /\
     Rabs (1 - sumn (u_N u) (fun i => Si i k) / sumn (u_N u) (fun i => So i k)) < 1 / 1000000) ->
  exists m, u_sample u WCremb so si arg s = Ok m /\ w_sample u WCremb so si arg s = Ok m /\
  sampled_links u g d (a_selfloops s) m /\
  forall k i j, (k < u_L u)%nat -> (i < u_N u)%nat -> (j < u_N u)%nat -> allowed (a_selfloops s) i j = true ->
    (So i k * Si j k <> 0 -> layer_prob g d (u_xs u) (u_ys u) k i j <> 0) ->
    expect m (fun r => match r with Ok H => w_pair i j (nth k H []) | Raise _ => 0 end)
    = So i k * Si j k / sumn (u_N u) (fun i => So i k).
Proof.
  intros u g d s so si arg So Si U Hd Hp F1 F2 I1 I2 HT.
  destruct (cremb_samples u g d s so si arg So Si U Hd Hp F1 F2 I1 I2 HT) as (m & E & H1 & H2).
  exists m. split; [exact E|]. split; [unfold w_sample; rewrite E; reflexivity|]. split; assumption.
Qed.
Print Assumptions C73_cremb.

(** With self-loops and equal totals the expected strengths by label are the given ones. *)
Theorem C73_strengths : forall u g d s so si arg So Si, library_multi u g -> (forall k, (k < u_L u)%nat -> nonneg (d k)) ->
  a_param s = Some d -> a_selfloops s = true ->
  strength_form (u_N u) (u_L u) (u_xs u) so So -> strength_form (u_N u) (u_L u) (u_ys u) si Si ->
  (forall i k, label_stored (u_xs u) i k -> has_strength (u_xs u) so i k) ->
  (forall i k, label_stored (u_ys u) i k -> has_strength (u_ys u) si i k) ->
  (forall k, (k < u_L u)%nat -> sumn (u_N u) (fun i => So i k) <> 0 /\
     sumn (u_N u) (fun i => Si i k) = sumn (u_N u) (fun i => So i k)) ->
  (forall k i j, (k < u_L u)%nat -> (i < u_N u)%nat -> (j < u_N u)%nat -> So i k * Si j k <> 0 ->
     layer_prob g d (u_xs u) (u_ys u) k i j <> 0) ->
  exists m, u_sample u WCremb so si arg s = Ok m /\
  forall k, (k < u_L u)%nat ->
    (forall i, (i < u_N u)%nat -> expect m (fun r => match r with Ok H => sumn (u_N u) (fun j => w_pair i j (nth k H [])) | Raise _ => 0 end)
      = So i k) /\
    (forall j, (j < u_N u)%nat -> expect m (fun r => match r with Ok H => sumn (u_N u) (fun i => w_pair i j (nth k H [])) | Raise _ => 0 end)
      = Si j k).
Proof. exact cremb_strengths_layer. Qed.
Print Assumptions C73_strengths.

(** The model's own fitnesses, an array and a sparse array as strengths. *)
Example C73_case : library_multi ex_multi logistic /\
  strength_form 2 1 (ex_table 2) StNone (fun _ _ => 1) /\
  strength_form 2 1 (ex_table 2) (StArray 2 1 (fun i _ => INR i + 1)) (fun i _ => INR i + 1) /\
  strength_form 2 1 (ex_table 2) (StSparse 2 1 (fun _ => [(0%nat, 2); (1%nat, 1)])) (fun i _ => match i with O => 2 | _ => 1 end) /\
  (forall i k, label_stored (ex_table 2) i k -> has_strength (ex_table 2) (StArray 2 1 (fun i _ => INR i + 1)) i k) /\
  (forall i k, label_stored (ex_table 2) i k -> has_strength (ex_table 2) (StSparse 2 1 (fun _ => [(0%nat, 2); (1%nat, 1)])) i k) /\
  sumn 2 (fun i => INR i + 1) = 3 /\ sumn 2 (fun i => match i with O => 2 | _ => 1 end) = 3 /\
  layer_prob logistic (fun _ => Fin 1) (ex_table 2) (ex_table 2) 0 0 1 <> 0.
Proof.
  split; [exact ex_multi_ok|]. split.
  { apply sf_own. intros i k Hi Hk. replace k with 0%nat by lia. destruct i as [|[|i]]; [reflexivity|reflexivity|lia]. }
  split; [apply sf_array|]. split.
  { apply sf_sparse.
    - intros k Hk. split; [repeat constructor; simpl; intuition discriminate | repeat constructor; simpl; lia].
    - intros i k Hi Hk. destruct i as [|[|i]]; [| |lia]; unfold entry; simpl; lra. }
  split; [intros i k _; cbn; pose proof (pos_INR i); lra|]. split.
  { intros i k H. destruct i as [|[|i]]; simpl; auto. unfold label_stored, ex_table in H. simpl in H. destruct i; contradiction. }
  split; [simpl; lra|]. split; [simpl; lra|]. rewrite ex_multi_prob by (lra || lia). lra.
Qed.

(** Layers whose strengths do not add up to the same (non-zero) total: no sample is returned. *)
Theorem C73_unbalanced : forall u g d s so si arg So Si k, library_multi u g ->
  a_param s = Some d -> strength_form (u_N u) (u_L u) (u_xs u) so So -> strength_form (u_N u) (u_L u) (u_ys u) si Si ->
  (k < u_L u)%nat -> (sumn (u_N u) (fun i => So i k) = 0 \/
     1 / 1000000 <= Rabs (1 - sumn (u_N u) (fun i => Si i k) / sumn (u_N u) (fun i => So i k))) ->
  exists m, u_sample u WCremb so si arg s = Ok m /\ forall r, outcome m r -> exists e, r = Raise e.
Proof. exact unbalanced_samples. Qed.
Print Assumptions C73_unbalanced.

Example C73_unbalanced_case : (0 < u_L ex_multi)%nat /\
  strength_form 2 1 (ex_table 2) (StArray 2 1 (fun _ _ => 2)) (fun _ _ => 2) /\
  1 / 1000000 <= Rabs (1 - sumn 2 (fun _ => 2) / sumn 2 (fun _ => 1)).
Proof.
  split; [simpl; lia|]. split; [apply sf_array|]. simpl. replace (1 - (0 + 2 + 2) / (0 + 1 + 1)) with (- 1) by field.
  rewrite Rabs_left; lra.
Qed.

(** What is rejected, and how: an object that is not fitted, strengths of another type or shape, unknown
    weights. *)
Theorem C73_rejected : forall u g v w arg s, library_multi u g ->
  (a_param s = None -> forall so si, u_sample u w so si arg s = Raise GenericException /\
     w_sample u w so si arg s = Raise GenericException /\ v_sample v w so si arg s = Raise GenericException) /\
  (forall d, a_param s = Some d -> forall so si So Si,
     let wrong N L := fun x => exists r c, (r <> N \/ c <> L) /\ ((exists a, x = StArray r c a) \/ exists e, x = StSparse r c e) in
     let out_ok := strength_form (u_N u) (u_L u) (u_xs u) so So in
     let in_ok := strength_form (u_N u) (u_L u) (u_ys u) si Si in
     (so = StOther -> u_sample u w so si arg s = Raise ValueError /\ w_sample u w so si arg s = Raise ValueError) /\
     (wrong (u_N u) (u_L u) so -> u_sample u w so si arg s = Raise AssertionError /\ w_sample u w so si arg s = Raise AssertionError) /\
     (out_ok -> si = StOther -> u_sample u w so si arg s = Raise ValueError /\ w_sample u w so si arg s = Raise ValueError) /\
     (out_ok -> wrong (u_N u) (u_L u) si -> u_sample u w so si arg s = Raise AssertionError /\ w_sample u w so si arg s = Raise AssertionError) /\
     (out_ok -> in_ok -> w = WOther -> w_sample u w so si arg s = Raise ValueError /\
        ((0 < u_L u)%nat -> exists m, u_sample u w so si arg s = Ok m /\ forall r, outcome m r -> r = Raise ValueError)) /\
     (so = StOther -> v_sample v w so si arg s = Raise ValueError) /\
     (wrong (v_N v) (v_L v) so -> v_sample v w so si arg s = Raise AssertionError) /\
     (w = WOther -> so = StNone -> si = StNone -> v_sample v w so si arg s = Raise ValueError)).
Proof.
  intros u g v w arg s U. destruct (multi_tables u g U) as (Tx & Ty & Nx & Ny). split.
  - intros Hp so si. unfold w_sample, u_sample, v_sample. rewrite Hp. repeat split.
  - intros d Hp so si So Si wrong out_ok in_ok.
    assert (SW : forall N L own x, wrong N L x -> strength_layers N L own x = Raise AssertionError /\ dense_strength N L x = Raise AssertionError).
    { intros N L own x (r & c & Hn & Hx). assert (E : Nat.eqb r N && Nat.eqb c L = false).
      { apply andb_false_iff. destruct Hn as [Hn|Hn]; [left | right]; apply Nat.eqb_neq; exact Hn. }
      destruct Hx as [[a ->]|[a ->]]; unfold strength_layers, dense_strength; rewrite E; split; reflexivity. }
    unfold w_sample, u_sample, v_sample. rewrite Hp.
    rewrite (table_layers (u_L u) _ Tx), (table_layers (u_L u) _ Ty). cbn [bind].
    split; [intros ->; split; reflexivity|].
    split; [intros H; rewrite (proj1 (SW _ _ _ _ H)); split; reflexivity|].
    assert (OK1 : out_ok -> exists f, strength_layers (u_N u) (u_L u) (map (fun l => tuple_of (column (map zip (u_xs u)) l)) (seq 0 (u_L u))) so = Ok f)
      by (intros H; apply (accepted_strengths _ _ _ _ _ Tx Nx H)).
    assert (OK2 : in_ok -> exists f, strength_layers (u_N u) (u_L u) (map (fun l => tuple_of (column (map zip (u_ys u)) l)) (seq 0 (u_L u))) si = Ok f)
      by (intros H; apply (accepted_strengths _ _ _ _ _ Ty Ny H)).
    split; [intros H1 ->; destruct (OK1 H1) as [f ->]; cbn [bind]; split; reflexivity|].
    split; [intros H1 H2; destruct (OK1 H1) as [f ->]; cbn [bind]; rewrite (proj1 (SW _ _ _ _ H2)); split; reflexivity|].
    split.
    { intros H1 H2 ->. destruct (OK1 H1) as [f1 ->]. destruct (OK2 H2) as [f2 ->]. cbn [bind]. split; [reflexivity|].
      intros HL. eexists. split; [reflexivity|]. destruct (u_L u) as [|L] eqn:EL; [lia|]. cbn [seq].
      rewrite (steps_fail _ _ 0%nat (seq 1 L) ValueError) by reflexivity. intros r H. exact H. }
    split; [intros ->; reflexivity|]. split; [intros H; rewrite (proj2 (SW _ _ [] _ H)); reflexivity|].
    intros -> -> ->. reflexivity.
Qed.
Print Assumptions C73_rejected.

Example C73_rejected_case : library_multi ex_multi logistic /\ (0 < u_L ex_multi)%nat /\
  strength_form 2 1 (ex_table 2) (StArray 2 1 (fun _ _ => 2)) (fun _ _ => 2) /\
  a_param (new_ens (P := nat -> num) None false) = None /\ (1 <> u_N ex_multi)%nat.
Proof. split; [exact ex_multi_ok|]. split; [simpl; lia|]. split; [apply sf_array|]. split; [reflexivity | simpl; lia]. Qed.

(** The dense module without weights: triples (label, (row, column)), split into layers by [slices]. *)
Theorem C73_dense_binary : forall v g d s so si arg, library_dense_multi v g -> (forall k, (k < v_L v)%nat -> nonneg (d k)) ->
  a_param s = Some d ->
  (forall x, In x [so; si] -> x = StNone \/ (exists a, x = StArray (v_N v) (v_L v) a) \/ exists e, x = StSparse (v_N v) (v_L v) e) ->
  exists m, v_sample v WNone so si arg s = Ok m /\
  forall Gs, length Gs = v_L v -> (forall G, In G Gs -> In G (all_graphs (v_N v) (a_selfloops s))) ->
  prob m (fun t => tensor_eqb (slices (v_L v) t) Gs)
  = prodn (v_L v) (fun k => graph_weight (v_N v) (a_selfloops s) (fun i j => link_prob g [d k; v_x v i k; v_y v j k; Fin 1]) (nth k Gs [])).
Proof.
  intros v g d s so si arg V Hd Hp HS. destruct (dense_multi_kernels v g V) as [K X].
  assert (D : forall x, In x [so; si] -> dense_strength (v_N v) (v_L v) x = Ok tt).
  { intros x Hx. destruct (HS x Hx) as [->|[[a ->]|[a ->]]]; unfold dense_strength; rewrite ?Nat.eqb_refl; reflexivity. }
  unfold v_sample. rewrite Hp, (D so), (D si) by (simpl; auto). cbn [bind]. eexists. split; [reflexivity|].
  apply (dense_sample_spec g _ _ _ K); assumption.
Qed.
Print Assumptions C73_dense_binary.

Example C73_dense_case :
  let v := multi_fitness_dense 2 2 (fun _ _ => Fin 1) (fun _ _ => Fin 1) (fun _ _ => Fin 1) in
  library_dense_multi v logistic /\ In [(0, 1)]%nat (all_graphs 2 false) /\
  graph_weight 2 false (fun i j => link_prob logistic [Fin 1; Fin 1; Fin 1; Fin 1]) [(0, 1)]%nat = 1 / 4.
Proof.
  split; [apply ld_fitness; intros; simpl; lra|]. split; [cbn; auto|].
  assert (E : link_prob logistic [Fin 1; Fin 1; Fin 1; Fin 1] = 1 / 2).
  { unfold link_prob. cbn [existsb is_zero is_infinite prodl toR]. rewrite (Reqb_false 1 0) by lra. cbn. unfold logistic. field. }
  unfold graph_weight; simpl. rewrite !E. field.
Qed.

(** The dense module cannot sample CReMB weights: the method it calls does not exist. *)
Theorem C73_dense_cremb_refuted : exists v d, library_dense_multi v logistic /\
  (forall k, (k < v_L v)%nat -> nonneg (d k)) /\
  forall own arg, v_sample v WCremb StNone StNone arg (new_ens (Some d) own) = Raise AttributeError.
Proof.
  exists (multi_fitness_dense 2 1 (fun _ _ => Fin 1) (fun _ _ => Fin 1) (fun _ _ => Fin 1)), (fun _ => Fin 1).
  split; [apply ld_fitness; intros; simpl; lra|]. split; [intros; simpl; lra | reflexivity].
Qed.
Print Assumptions C73_dense_cremb_refuted.

(** One label without any strength, on both sides, makes the whole sample fail although the totals are
    equal. *)
Theorem C73_empty_label_refuted : exists u d S, library_multi u logistic /\ (forall k, (k < u_L u)%nat -> nonneg (d k)) /\
  strength_form (u_N u) (u_L u) (u_xs u) StNone S /\ strength_form (u_N u) (u_L u) (u_ys u) StNone S /\
  (exists k, (k < u_L u)%nat /\ sumn (u_N u) (fun i => S i k) <> 0) /\
  forall own arg, exists m, u_sample u WCremb StNone StNone arg (new_ens (Some d) own) = Ok m /\
    forall r, outcome m r -> exists e, r = Raise e.
Proof.
  set (t := [([0%nat], [Fin 1]); ([0%nat], [Fin 1])] : list tuple).
  assert (T : label_table 2 t).
  { repeat split; try discriminate; repeat constructor; simpl; try lia; lra. }
  set (S := fun i k : nat => match k with O => 1 | _ => 0 end).
  assert (U : library_multi (multi_fitness 2 2 t t (fun _ _ => Fin 1)) logistic) by (apply lm_fitness; try exact T; reflexivity).
  assert (F : strength_form 2 2 t StNone S).
  { apply sf_own. intros i k Hi Hk. destruct i as [|[|i]]; [| |lia]; (destruct k as [|[|k]]; [| |lia]); reflexivity. }
  exists (multi_fitness 2 2 t t (fun _ _ => Fin 1)), (fun _ => Fin 1), S. split; [exact U|]. split; [intros; simpl; lra|].
  split; [exact F|]. split; [exact F|]. split; [exists 0%nat; split; [simpl; lia | simpl; lra]|].
  intros own arg. apply (C73_unbalanced _ logistic (fun _ => Fin 1) (new_ens (Some (fun _ => Fin 1)) own) StNone StNone arg S S 1 U eq_refl F F).
  - simpl; lia.
  - left. simpl. lra.
Qed.
Print Assumptions C73_empty_label_refuted.
