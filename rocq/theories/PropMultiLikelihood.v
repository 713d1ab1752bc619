(** Property C91: the likelihood of an observed multi-label graph under the model fitted to it. *)
From Coq Require Import ZArith String Classical_Prop.
From Verif Require Import Base Num Spec Kernels KernelFacts MultiKernels MultiFacts Prob Ensemble EnsembleFacts EnsembleState
  Models ModelFacts Solver SolverFacts SolverConcave Fit FitFacts FitModels FitLib Layers LayerFacts LayerProps LayerLib LayerFit
  FitStart PropLayers FitState PropFitState Ids IdFacts Graphs GraphFacts PropTables PropGraph PropLabelValues
  PropEnsemble MultiState MultiStateFacts MultiLik Construct ConstructFacts PropConstruct Pipeline PropPipeline PropLikelihood
  MultiPipeline PropMultiPipeline.
Import Num Spec.

Open Scope R_scope.
Open Scope string_scope.
Open Scope list_scope.

(** The links of every label. *)
Definition observed_layers (N : nat) (L : list spm) (sl : bool) : list (list (nat * nat)) :=
  map (fun k => observed_links N (label_graph L k) sl) (seq 0 (length L)).

Lemma observed_nth : forall N L sl k, (k < length L)%nat -> nth k (observed_layers N L sl) [] = observed_links N (label_graph L k) sl.
Proof.
  intros N L sl k Hk. unfold observed_layers. rewrite nth_indep with (d' := observed_links N (label_graph L 0) sl) by (rewrite map_length, seq_length; exact Hk).
  rewrite (map_nth (fun k => observed_links N (label_graph L k) sl) (seq 0 (length L)) 0%nat). rewrite seq_nth by exact Hk. reflexivity.
Qed.

Lemma skipn_skipn_ : forall a n (l : list spm), skipn a (skipn n l) = skipn (a + n) l.
Proof.
  intros a n. revert a. induction n as [|n IH]; intros a l; [rewrite Nat.add_0_r; reflexivity|]. rewrite <- plus_n_Sm. destruct l; [rewrite !skipn_nil; reflexivity|].
  cbn [skipn]. apply IH.
Qed.

(** The graph object is read as those links. *)
Lemma observed_form : forall w N L gr sl, library_graph w N (SMultiDiGraph L) gr ->
  (forall k, (k < length L)%nat -> loops_counted N (label_graph L k) sl) ->
  tensor_form N (GGraph N (SMultiDiGraph L)) (observed_layers N L sl).
Proof.
  intros w N L gr sl H Lc. pose proof (library_valid _ _ _ _ H) as V. cbn [tensor_form]. split; [reflexivity|]. split; [exists w, gr; exact H|].
  assert (F : forall n m, (n + m = length L)%nat ->
    Forall2 (fun A G => forall i j, (i < N)%nat -> (j < N)%nat -> (0 < W A i j <-> In (i, j) G)) (skipn n L)
      (map (fun k => observed_links N (label_graph L k) sl) (seq n m))).
  { intros n m. revert n. induction m as [|m IH]; intros n E.
    - rewrite skipn_all2 by lia. constructor.
    - destruct (skipn n L) as [|A t] eqn:Es; [apply (f_equal (@length _)) in Es; rewrite skipn_length in Es; simpl in Es; lia|].
      assert (EA : nth n L (mkSpm false (fun _ => [])) = A).
      { rewrite <- (firstn_skipn n L) at 1. rewrite app_nth2; rewrite firstn_length_le by lia; [|lia]. rewrite Nat.sub_diag, Es. reflexivity. }
      cbn [seq map]. constructor.
      + intros i j Hi Hj. rewrite observed_mem. unfold label_graph. rewrite EA. cbn [link].
        assert (W0 : 0 <= W A i j).
        { apply (link_nonneg w N (SDiGraph A)); [|exact Hi]. rewrite <- EA. apply (label_valid w N L n V). lia. }
        split.
        * intros Hw. repeat split; try assumption; [|lra].
          unfold allowed. destruct (Lc n ltac:(lia)) as [-> | Z]; [apply orb_true_r|]. unfold label_graph in Z. rewrite EA in Z. cbn [link] in Z.
          destruct (Nat.eqb_spec i j) as [->|Hn]; [rewrite (Z j Hj) in Hw; lra | reflexivity].
        * intros (_ & _ & _ & Hn). lra.
      + replace t with (skipn (S n) L); [apply IH; lia|].
        change (S n) with (1 + n)%nat. rewrite <- (skipn_skipn_ 1 n), Es. reflexivity. }
  apply (F 0%nat (length L)). lia.
Qed.

Lemma observed_range : forall N L sl G i j, In G (observed_layers N L sl) -> In (i, j) G ->
  (i < N)%nat /\ (j < N)%nat /\ allowed sl i j = true.
Proof.
  intros N L sl G i j HG Hij. unfold observed_layers in HG. apply in_map_iff in HG. destruct HG as (k & <- & _). apply observed_mem in Hij. tauto.
Qed.

(** The object built from the graph is a model of the library. *)
Lemma object_library : forall inv w N L sl pl st, valid w N (SMultiDiGraph L) -> (1 <= N)%nat -> holds_graph w N L sl pl st ->
  library_multi (multi_object inv st) (prob_of inv).
Proof.
  intros inv w N L sl pl st V HN (E1 & E2 & Ho & Hi & _). unfold multi_object, prob_of. rewrite E1, E2.
  destruct (rows_table N (length L) _ _ (out_nonneg w N L V) Ho HN) as (Tx & _ & Nx).
  destruct (rows_table N (length L) _ _ (in_nonneg w N L V) Hi HN) as (Ty & _ & Ny).
  destruct inv; constructor; assumption.
Qed.

Lemma object_prob : forall inv w N L sl pl st ds k i j, valid w N (SMultiDiGraph L) -> holds_graph w N L sl pl st ->
  (k < length L)%nat -> (i < N)%nat -> (j < N)%nat ->
  layer_prob (prob_of inv) (fun k => Fin (ds k)) (u_xs (multi_object inv st)) (u_ys (multi_object inv st)) k i j
  = link_prob (prob_of inv) [Fin (ds k); Fin (strength_out w N (label_graph L k) i); Fin (strength_in w N (label_graph L k) j); Fin 1].
Proof.
  intros inv w N L sl pl st ds k i j V (E1 & E2 & Ho & Hi & _) Hk Hi' Hj. unfold layer_prob, label_value.
  assert (X : u_xs (multi_object inv st) = map (@split nat num) (ms_out st)) by (unfold multi_object; destruct inv; reflexivity).
  assert (Y : u_ys (multi_object inv st) = map (@split nat num) (ms_in st)) by (unfold multi_object; destruct inv; reflexivity).
  rewrite X, Y, !rows_vec. rewrite (rows_lookup N _ _ _ (out_nonneg w N L V) Ho), (rows_lookup N _ _ _ (in_nonneg w N L V) Hi) by assumption. reflexivity.
Qed.

(** * C91: the likelihood of the graph is the product over the labels *)

(** The probability that the model of one label gives to the links of that label. *)
Definition label_likelihood (inv w : bool) (N : nat) (L : list spm) (sl : bool) (d : R) (k : nat) : R :=
  toR (nexp (m_likelihood (model_of inv w N (label_graph L k) d) (observed_links N (label_graph L k) sl) sl)).

Lemma label_weight : forall inv w N L sl d k, valid w N (SMultiDiGraph L) -> (k < length L)%nat -> 0 <= d ->
  label_likelihood inv w N L sl d k = graph_weight N sl (fun i j => link_prob (prob_of inv)
    [Fin d; Fin (strength_out w N (label_graph L k) i); Fin (strength_in w N (label_graph L k) j); Fin 1]) (observed_links N (label_graph L k) sl).
Proof.
  intros inv w N L sl d k V Hk Hd. unfold label_likelihood.
  pose proof (lib_likelihood_exp _ _ (model_library inv w N _ d (label_valid w N L k V Hk) Hd) sl (observed_links N (label_graph L k) sl)) as E.
  rewrite E. rewrite model_N. reflexivity.
Qed.

Theorem C91_product : forall inv w N L gr kw sl pl ds a, library_graph w N (SMultiDiGraph L) gr -> L <> [] -> (1 <= N)%nat ->
  moptions kw sl pl -> (forall k, (k < length L)%nat -> 0 <= ds k) -> (forall k, (k < length L)%nat -> loops_counted N (label_graph L k) sl) ->
  a_param a = Some (fun k => Fin (ds k)) -> a_selfloops a = sl ->
  exists o l, multi_of N (SMultiDiGraph L) kw = Ok o /\
    u_log_likelihood (multi_object inv o) (GGraph N (SMultiDiGraph L)) None a = Ok l /\
    (forall B, w_log_likelihood (multi_object inv o) B (GGraph N (SMultiDiGraph L)) None a = Ok l) /\
    log_of (prodn (length L) (fun k => label_likelihood inv w N L sl (ds k) k)) l.
Proof.
  intros inv w N L gr kw sl pl ds a H HL HN O Hd Lc Ea Es. pose proof (library_valid _ _ _ _ H) as V.
  destruct (C88_accept w N _ gr kw sl pl H O) as (_ & _ & A). destruct (A L eq_refl HL) as [A1 _]. destruct (A1 HN) as (o & Eo & HG).
  pose proof (object_library inv w N L sl pl o V HN HG) as Hu.
  assert (EN : u_N (multi_object inv o) = N) by (destruct HG as (E & _); unfold multi_object; destruct inv; exact E).
  assert (EL : u_L (multi_object inv o) = length L) by (destruct HG as (_ & E & _); unfold multi_object; destruct inv; exact E).
  assert (Hn : forall k, (k < u_L (multi_object inv o))%nat -> nonneg (Fin (ds k))) by (intros k Hk; rewrite EL in Hk; exact (Hd k Hk)).
  assert (Ef : effective_loops None a = sl) by exact Es.
  assert (LG : length (observed_layers N L sl) = u_L (multi_object inv o)) by (unfold observed_layers; rewrite map_length, seq_length; symmetry; exact EL).
  assert (R : forall G i j, In G (observed_layers N L sl) -> In (i, j) G ->
     (i < u_N (multi_object inv o))%nat /\ (j < u_N (multi_object inv o))%nat /\ allowed (effective_loops None a) i j = true)
    by (rewrite EN, Ef; apply observed_range).
  assert (T : tensor_form (u_N (multi_object inv o)) (GGraph N (SMultiDiGraph L)) (observed_layers N L sl)) by (rewrite EN; exact (observed_form w N L gr sl H Lc)).
  assert (Pr : prodn (u_L (multi_object inv o)) (fun k => graph_weight (u_N (multi_object inv o)) (effective_loops None a)
     (layer_prob (prob_of inv) (fun k => Fin (ds k)) (u_xs (multi_object inv o)) (u_ys (multi_object inv o)) k) (nth k (observed_layers N L sl) []))
     = prodn (length L) (fun k => label_likelihood inv w N L sl (ds k) k)).
  { rewrite EL, EN, Ef. apply prodn_ext. intros k Hk. rewrite label_weight by auto. rewrite observed_nth by exact Hk. apply graph_weight_ext.
    intros i j Hi Hj. apply (object_prob inv w N L sl pl o ds k i j V HG Hk Hi Hj). }
  destruct (u_tensor_spec _ _ Hu _ Hn (GGraph N (SMultiDiGraph L)) None a (observed_layers N L sl) Ea LG R T) as (l & E1 & E2). rewrite Pr in E2.
  exists o, l. split; [exact Eo|]. split; [exact E1|]. split; [|exact E2]. intros B.
  destruct (w_tensor_spec _ _ Hu _ Hn B (GGraph N (SMultiDiGraph L)) None a (observed_layers N L sl) Ea LG R T) as (l2 & E3 & E4). rewrite Pr in E4.
  rewrite E3. f_equal. destruct E2 as [[P1 ->] | [P1 ->]], E4 as [[P2 ->] | [P2 ->]]; try lra; reflexivity.
Qed.
Print Assumptions C91_product.

(** * C91: the parameters of maximal likelihood *)

Lemma prodn_positive : forall n f, (forall k, (k < n)%nat -> 0 < f k) -> 0 < prodn n f.
Proof.
  intros n f. induction n as [|n IH]; intros H; cbn [prodn]; [lra|]. apply Rmult_lt_0_compat; [apply IH; intros; apply H; lia | apply H; lia].
Qed.

Lemma prodn_ln : forall n f, (forall k, (k < n)%nat -> 0 < f k) -> ln (prodn n f) = sumn n (fun k => ln (f k)).
Proof.
  intros n f. induction n as [|n IH]; intros H; cbn [prodn sumn]; [apply ln_1|].
  rewrite ln_mult; [rewrite IH by (intros; apply H; lia); reflexivity | apply prodn_positive; intros; apply H; lia | apply H; lia].
Qed.

Lemma prodn_less : forall n f g, (forall k, (k < n)%nat -> 0 <= f k <= g k /\ 0 < g k) -> (exists k, (k < n)%nat /\ f k < g k) -> prodn n f < prodn n g.
Proof.
  intros n f g. induction n as [|n IH]; intros H (k & Hk & Hl); [lia|]. cbn [prodn].
  destruct (H n ltac:(lia)) as [[F0 Fg] G0].
  assert (G : 0 < prodn n g) by (apply prodn_positive; intros j Hj; apply H; lia).
  assert (F : prodn n f <= prodn n g) by (apply prodn_mono; intros j Hj; apply H; lia).
  assert (F1 : 0 <= prodn n f).
  { clear - H. induction n as [|m IHm]; cbn [prodn]; [lra|]. apply Rmult_le_pos; [apply IHm; intros j Hj; apply H; lia | apply H; lia]. }
  destruct (Nat.eq_dec k n) as [->|Hn].
  - apply Rle_lt_trans with (prodn n g * f n); [apply Rmult_le_compat_r; assumption | apply Rmult_lt_compat_l; assumption].
  - assert (S : prodn n f < prodn n g) by (apply IH; [intros j Hj; apply H; lia | exists k; split; [lia | exact Hl]]).
    apply Rle_lt_trans with (prodn n f * g n); [apply Rmult_le_compat_l; assumption | apply Rmult_lt_compat_r; assumption].
Qed.

(** One label, from C89. *)
Lemma label_bound : forall w N L sl d d' k, valid w N (SMultiDiGraph L) -> (k < length L)%nat -> loops_counted N (label_graph L k) sl ->
  0 < d -> 0 < d' ->
  0 < label_likelihood false w N L sl d k /\ 0 < label_likelihood false w N L sl d' k /\
  ln (label_likelihood false w N L sl d' k) - ln (label_likelihood false w N L sl d k)
    <= (links N (label_graph L k) - m_edges (model_of false w N (label_graph L k) d) sl) * ln (d' / d).
Proof.
  intros w N L sl d d' k V Hk Lc Hd Hd'. destruct (observed_possible w N (label_graph L k) sl (label_valid w N L k V Hk)) as [F P].
  destruct (C89_bound N sl _ _ _ _ d d' F P Hd Hd') as (l & l' & L1 & L2 & B). rewrite (observed_edges N _ sl Lc) in B.
  change (fitness_at N (strength_out w N (label_graph L k)) (strength_in w N (label_graph L k)) (fun _ _ => 1)) with (model_of false w N (label_graph L k)) in *.
  unfold label_likelihood. rewrite L1, L2. cbn [nexp toR]. rewrite !ln_exp. split; [apply exp_pos|]. split; [apply exp_pos | exact B].
Qed.

Theorem C91_bound : forall w N L gr kw sl pl ds ds' a a', library_graph w N (SMultiDiGraph L) gr -> L <> [] -> (1 <= N)%nat ->
  moptions kw sl pl -> (forall k, (k < length L)%nat -> 0 < ds k /\ 0 < ds' k) ->
  (forall k, (k < length L)%nat -> loops_counted N (label_graph L k) sl) ->
  a_param a = Some (fun k => Fin (ds k)) -> a_selfloops a = sl -> a_param a' = Some (fun k => Fin (ds' k)) -> a_selfloops a' = sl ->
  exists o l l', multi_of N (SMultiDiGraph L) kw = Ok o /\
    u_log_likelihood (multi_object false o) (GGraph N (SMultiDiGraph L)) None a = Ok (Fin l) /\
    u_log_likelihood (multi_object false o) (GGraph N (SMultiDiGraph L)) None a' = Ok (Fin l') /\
    l' - l <= sumn (length L) (fun k => (links N (label_graph L k) - m_edges (model_of false w N (label_graph L k) (ds k)) sl) * ln (ds' k / ds k)).
Proof.
  intros w N L gr kw sl pl ds ds' a a' H HL HN O Hd Lc Ea Es Ea' Es'. pose proof (library_valid _ _ _ _ H) as V.
  destruct (C91_product false w N L gr kw sl pl ds a H HL HN O (fun k Hk => Rlt_le _ _ (proj1 (Hd k Hk))) Lc Ea Es) as (o & l & E1 & E2 & _ & E3).
  destruct (C91_product false w N L gr kw sl pl ds' a' H HL HN O (fun k Hk => Rlt_le _ _ (proj2 (Hd k Hk))) Lc Ea' Es') as (o' & l' & E1' & E2' & _ & E3').
  assert (o' = o) by congruence. subst o'.
  assert (B : forall k, (k < length L)%nat -> 0 < label_likelihood false w N L sl (ds k) k /\ 0 < label_likelihood false w N L sl (ds' k) k /\
    ln (label_likelihood false w N L sl (ds' k) k) - ln (label_likelihood false w N L sl (ds k) k)
    <= (links N (label_graph L k) - m_edges (model_of false w N (label_graph L k) (ds k)) sl) * ln (ds' k / ds k))
    by (intros k Hk; destruct (Hd k Hk); apply label_bound; auto).
  pose proof (prodn_positive (length L) (fun k => label_likelihood false w N L sl (ds k) k) (fun k Hk => proj1 (B k Hk))) as P1.
  pose proof (prodn_positive (length L) (fun k => label_likelihood false w N L sl (ds' k) k) (fun k Hk => proj1 (proj2 (B k Hk)))) as P2.
  destruct E3 as [[_ E3] | [E3 _]]; [|lra]. destruct E3' as [[_ E3'] | [E3' _]]; [|lra].
  rewrite prodn_ln in E3 by (intros k Hk; apply B; exact Hk). rewrite prodn_ln in E3' by (intros k Hk; apply B; exact Hk). subst l l'.
  eexists o, _, _. split; [exact E1|]. split; [exact E2|]. split; [exact E2'|]. rewrite <- sumn_minus. apply sumn_le. intros k Hk. apply B. exact Hk.
Qed.
Print Assumptions C91_bound.

(** Parameters at which every label has its observed number of links on average are the only ones of maximal likelihood. *)
Theorem C91_maximum : forall w N L gr kw sl pl ds ds' a a', library_graph w N (SMultiDiGraph L) gr -> L <> [] -> (1 <= N)%nat ->
  moptions kw sl pl -> (forall k, (k < length L)%nat -> loops_counted N (label_graph L k) sl /\ 0 < links N (label_graph L k)) ->
  (forall k, (k < length L)%nat -> 0 < ds k /\ m_edges (model_of false w N (label_graph L k) (ds k)) sl = links N (label_graph L k)) ->
  (forall k, (k < length L)%nat -> 0 <= ds' k) -> (exists k, (k < length L)%nat /\ ds' k <> ds k) ->
  a_param a = Some (fun k => Fin (ds k)) -> a_selfloops a = sl -> a_param a' = Some (fun k => Fin (ds' k)) -> a_selfloops a' = sl ->
  exists o l l', multi_of N (SMultiDiGraph L) kw = Ok o /\
    u_log_likelihood (multi_object false o) (GGraph N (SMultiDiGraph L)) None a = Ok l /\
    u_log_likelihood (multi_object false o) (GGraph N (SMultiDiGraph L)) None a' = Ok l' /\ nltb l' l = true.
Proof.
  intros w N L gr kw sl pl ds ds' a a' H HL HN O Lc Hd Hd' Hne Ea Es Ea' Es'. pose proof (library_valid _ _ _ _ H) as V.
  destruct (C91_product false w N L gr kw sl pl ds a H HL HN O (fun k Hk => Rlt_le _ _ (proj1 (Hd k Hk))) (fun k Hk => proj1 (Lc k Hk)) Ea Es) as (o & l & E1 & E2 & _ & E3).
  destruct (C91_product false w N L gr kw sl pl ds' a' H HL HN O Hd' (fun k Hk => proj1 (Lc k Hk)) Ea' Es') as (o' & l' & E1' & E2' & _ & E3').
  assert (o' = o) by congruence. subst o'. exists o, l, l'. split; [exact E1|]. split; [exact E2|]. split; [exact E2'|].
  assert (P : forall k, (k < length L)%nat -> 0 < label_likelihood false w N L sl (ds k) k)
    by (intros k Hk; apply (label_bound w N L sl (ds k) (ds k) k); [exact V | exact Hk | apply Lc; exact Hk | apply Hd; exact Hk ..]).
  assert (Z : forall k, (k < length L)%nat -> 0 <= label_likelihood false w N L sl (ds' k) k /\
    (ds' k <> ds k -> label_likelihood false w N L sl (ds' k) k < label_likelihood false w N L sl (ds k) k)).
  { intros k Hk. destruct (Lc k Hk) as [Lk Pk]. destruct (Hd k Hk) as [D E]. pose proof (label_valid w N L k V Hk) as Vk.
    pose proof (lib_likelihood _ _ (model_library false w N _ _ Vk (Hd' k Hk)) sl (observed_links N (label_graph L k) sl)) as Q.
    assert (Q0 : 0 <= label_likelihood false w N L sl (ds' k) k).
    { unfold label_likelihood. destruct Q as [[_ ->] | [_ ->]]; cbn [nexp toR]; [left; apply exp_pos | lra]. }
    split; [exact Q0|]. intros Hn. destruct (observed_possible w N (label_graph L k) sl Vk) as [F Po].
    assert (G0 : observed_links N (label_graph L k) sl <> []).
    { intros E0. pose proof (observed_edges N _ sl Lk) as Eo. rewrite E0 in Eo. unfold g_edges in Eo.
      rewrite <- Eo in Pk. rewrite (sumn_ext N _ (fun _ => 0)) in Pk by (intros i _; apply sumn_0). rewrite sumn_0 in Pk. lra. }
    pose proof (C89_maximum N sl _ _ _ (observed_links N (label_graph L k) sl) (ds k) F Po G0 D) as Mx.
    change (fitness_at N (strength_out w N (label_graph L k)) (strength_in w N (label_graph L k)) (fun _ _ => 1)) with (model_of false w N (label_graph L k)) in Mx.
    specialize (Mx (eq_trans E (eq_sym (observed_edges N _ sl Lk))) (ds' k) (Hd' k Hk) Hn).
    specialize (P k Hk). unfold label_likelihood in *.
    pose proof (lib_likelihood _ _ (model_library false w N _ _ Vk (Rlt_le _ _ D)) sl (observed_links N (label_graph L k) sl)) as Q'.
    destruct Q' as [[_ Q'] | [_ Q']]; rewrite Q' in *; cbn [nexp toR] in *; [|lra].
    destruct Q as [[_ Q] | [_ Q]]; rewrite Q in *; cbn [nexp toR] in *; [|exact P].
    apply exp_increasing. cbn [nltb] in Mx. destruct (Rltb_spec (ln (graph_weight (m_N (model_of false w N (label_graph L k) (ds' k))) sl (fun i j : nat => link_prob (if false then poissonian else logistic) [Fin (ds' k); Fin (strength_out w N (label_graph L k) i); Fin (strength_in w N (label_graph L k) j); Fin 1]) (observed_links N (label_graph L k) sl)))
      (ln (graph_weight (m_N (model_of false w N (label_graph L k) (ds k))) sl (fun i j : nat => link_prob (if false then poissonian else logistic) [Fin (ds k); Fin (strength_out w N (label_graph L k) i); Fin (strength_in w N (label_graph L k) j); Fin 1]) (observed_links N (label_graph L k) sl)))); [assumption | discriminate]. }
  assert (S : prodn (length L) (fun k => label_likelihood false w N L sl (ds' k) k) < prodn (length L) (fun k => label_likelihood false w N L sl (ds k) k)).
  { apply prodn_less.
    - intros k Hk. destruct (Z k Hk) as [Z0 Z1]. split; [|apply P; exact Hk]. split; [exact Z0|].
      destruct (Req_dec (ds' k) (ds k)) as [->|Hn]; [right; reflexivity | left; apply Z1; exact Hn].
    - destruct Hne as (k & Hk & Hn). exists k. split; [exact Hk | apply Z; assumption]. }
  destruct E3 as [[P1 ->] | [E3 _]]; [|pose proof (prodn_positive _ _ P); lra].
  destruct E3' as [[P2 ->] | [_ ->]]; [|reflexivity]. cbn [nltb]. apply Rltb_true. apply ln_increasing; assumption.
Qed.
Print Assumptions C91_maximum.

(** After a converged fit label by label no other parameters are more likely by more than the tolerances allow. *)
Theorem C91_fitted : forall w N L gr kw sl st x0 at_ rho mi, library_graph w N (SMultiDiGraph L) gr -> L <> [] -> (1 <= N)%nat ->
  moptions kw sl true -> starts (length L) st x0 -> (forall k, (k < length L)%nat -> 0 <= x0 k) -> 0 < at_ -> 0 <= rho ->
  (forall k, (k < length L)%nat -> loops_counted N (label_graph L k) sl) ->
  exists o ds sols, multi_of N (SMultiDiGraph L) kw = Ok o /\
    fit_multi_object (pair_jac false) (label_jac false) o st Density (Fin at_) (Fin rho) mi
      = Some (Ok tt, mkFit (Some (map Fin ds)) (Some (LabelFits (map Some sols)))) /\ length ds = length L /\ length sols = length L /\
    ((forall k, (k < length L)%nat -> 0 < nth k ds 0) -> (forall sol, In sol sols -> sol_converged sol = true) ->
     forall ds' a a', (forall k, (k < length L)%nat -> 0 < ds' k) ->
     a_param a = Some (fun k => Fin (nth k ds 0)) -> a_selfloops a = sl -> a_param a' = Some (fun k => Fin (ds' k)) -> a_selfloops a' = sl ->
     exists l l', u_log_likelihood (multi_object false o) (GGraph N (SMultiDiGraph L)) None a = Ok (Fin l) /\
       u_log_likelihood (multi_object false o) (GGraph N (SMultiDiGraph L)) None a' = Ok (Fin l') /\
       l' <= l + sumn (length L) (fun k => (at_ + rho * links N (label_graph L k)) * Rabs (ln (ds' k / nth k ds 0)))).
Proof.
  intros w N L gr kw sl st x0 at_ rho mi H HL HN O S Hx Ha Hr Lc. pose proof (library_valid _ _ _ _ H) as V.
  destruct (C88_fitted false w N L gr kw sl st x0 at_ rho mi H HL HN O S Hx Ha Hr) as (o & ds & sols & E1 & E2 & L1 & L2 & C).
  exists o, ds, sols. repeat (split; [assumption|]). intros Hp Hc ds' a a' Hd' Ea Es Ea' Es'.
  destruct (C91_bound w N L gr kw sl true (fun k => nth k ds 0) ds' a a' H HL HN O (fun k Hk => conj (Hp k Hk) (Hd' k Hk)) Lc Ea Es Ea' Es')
    as (o' & l & l' & E1' & B1 & B2 & B3). assert (o' = o) by congruence. subst o'.
  exists l, l'. split; [exact B1|]. split; [exact B2|].
  apply Rle_trans with (l + sumn (length L) (fun k => (links N (label_graph L k) - m_edges (model_of false w N (label_graph L k) (nth k ds 0)) sl) * ln (ds' k / nth k ds 0))); [lra|].
  apply Rplus_le_compat_l, sumn_le. intros k Hk. destruct (C k Hk) as (Dk & sol & En & Cv). cbv zeta in Cv.
  pose proof (proj1 Cv (Hc sol (nth_error_In _ _ En))) as Q.
  pose proof (C37_expected_means _ _ sl (model_library false w N _ _ (label_valid w N L k V Hk) Dk)) as M. cbv zeta in M.
  destruct (m_degrees _ sl) as [[dd dout] din]. destruct M as [M _]. rewrite model_N in M. rewrite <- M in Q.
  eapply Rle_trans; [apply Rle_abs|]. rewrite Rabs_mult. apply Rmult_le_compat_r; [apply Rabs_pos|]. rewrite Rabs_minus_sym. exact Q.
Qed.
Print Assumptions C91_fitted.

(** * Examples *)

(** The graph of C88_labels_refuted, whose labels have 2 of the 3 links their strengths allow: with the parameters 2 and 2 every
    label has 2 links on average. *)
Example C91_case : library_graph true 3 (SMultiDiGraph apart) None /\ apart <> [] /\ moptions [] false true /\
  (forall k, (k < length apart)%nat -> loops_counted 3 (label_graph apart k) false /\ 0 < links 3 (label_graph apart k)) /\
  (forall k, (k < length apart)%nat -> 0 < 2 /\ m_edges (model_of false true 3 (label_graph apart k) 2) false = links 3 (label_graph apart k)) /\
  starts (length apart) NoStart (fun _ => 0) /\ observed_layers 3 apart false = [[(0, 1); (1, 2)]; [(0, 2); (1, 0)]]%nat.
Proof.
  pose proof apart_library as H. pose proof (library_valid _ _ _ _ H) as V.
  assert (L0 : links 3 (label_graph apart 0) = 2).
  { unfold links; cbn [sumn]; rewrite !apart_link0 by lia; cbn; rewrite ?Rplus_0_r, ?Rplus_0_l, ?present_0, ?present_pos by lra; lra. }
  assert (L1 : links 3 (label_graph apart 1) = 2).
  { unfold links; cbn [sumn]; rewrite !apart_link1 by lia; cbn; rewrite ?Rplus_0_r, ?Rplus_0_l, ?present_0, ?present_pos by lra; lra. }
  split; [exact H|]. split; [discriminate|]. split; [split; [constructor|]; split; [intros n v []|]; split; reflexivity|]. split; [|split; [|split]].
  - intros k Hk. destruct k as [|[|k]]; [| |cbn in Hk; lia].
    + split; [|rewrite L0; lra]. right. intros i Hi. rewrite apart_link0 by exact Hi. destruct i as [|[|[|i]]]; try lia; cbn; lra.
    + split; [|rewrite L1; lra]. right. intros i Hi. rewrite apart_link1 by exact Hi. destruct i as [|[|[|i]]]; try lia; cbn; lra.
  - intros k Hk. split; [lra|]. rewrite (model_edges false true 3 _ _ false (label_valid true 3 apart k V Hk)) by lra.
    assert (Z : forall x y, x = 0 \/ y = 0 -> link_prob (prob_of false) [Fin 2; Fin x; Fin y; Fin 1] = 0).
    { intros x y [-> | ->]; unfold link_prob; cbn [existsb is_zero]; rewrite (Reqb_true 0 0 eq_refl), ?orb_true_r; reflexivity. }
    assert (T : link_prob (prob_of false) [Fin 2; Fin 1; Fin 1; Fin 1] = 2 / 3).
    { unfold link_prob, prob_of, logistic. cbn [existsb is_zero is_infinite prodl toR orb]. rewrite !Reqb_false by lra. cbn [orb]. lra. }
    destruct k as [|[|k]]; [| |cbn in Hk; lia].
    + assert (So0 : forall i, (i < 3)%nat -> strength_out true 3 (label_graph apart 0) i = nth i [1; 1; 0] 0).
      { intros i Hi. unfold strength_out, weight. cbn [sumn]. rewrite !apart_link0 by lia. destruct i as [|[|[|i]]]; [| | |lia]; cbn; lra. }
      assert (Si0 : forall i, (i < 3)%nat -> strength_in true 3 (label_graph apart 0) i = nth i [0; 1; 1] 0).
      { intros i Hi. unfold strength_in, weight. cbn [sumn]. rewrite !apart_link0 by lia. destruct i as [|[|[|i]]]; [| | |lia]; cbn; lra. }
      rewrite L0. unfold pair_sum. cbn [sumn allowed Nat.eqb negb orb]. rewrite !So0, !Si0 by lia. cbn [nth]. rewrite T, !Z by (try (left; reflexivity); right; reflexivity). lra.
    + assert (So1 : forall i, (i < 3)%nat -> strength_out true 3 (label_graph apart 1) i = nth i [1; 1; 0] 0).
      { intros i Hi. unfold strength_out, weight. cbn [sumn]. rewrite !apart_link1 by lia. destruct i as [|[|[|i]]]; [| | |lia]; cbn; lra. }
      assert (Si1 : forall i, (i < 3)%nat -> strength_in true 3 (label_graph apart 1) i = nth i [1; 0; 1] 0).
      { intros i Hi. unfold strength_in, weight. cbn [sumn]. rewrite !apart_link1 by lia. destruct i as [|[|[|i]]]; [| | |lia]; cbn; lra. }
      rewrite L1. unfold pair_sum. cbn [sumn allowed Nat.eqb negb orb]. rewrite !So1, !Si1 by lia. cbn [nth]. rewrite T, !Z by (try (left; reflexivity); right; reflexivity). lra.
  - right; right; auto.
  - unfold observed_layers, observed_links. cbn [length apart seq map pairs list_prod app filter allowed fst snd Nat.eqb negb orb].
    change [coo_tocsr false 3 apart0; coo_tocsr false 3 apart1] with apart. rewrite !apart_link0, !apart_link1 by lia.
    cbn [suml apart0 apart1 hits fst snd Nat.eqb andb]. rewrite ?Rplus_0_r, ?Rplus_0_l, !(Reqb_true 0 0 eq_refl), !Reqb_false by lra. reflexivity.
Qed.

(** * One parameter for all labels *)

(** Two vertices; the link from 0 to 1 can have one label, the one from 1 to 0 two labels, all with product of fitnesses one.  For
    the graph with the link 0 -> 1 the parameter that gives one linked pair on average is not the one of maximal likelihood. *)
Definition pair_model (d : R) : model := MultiFitnessModel 2 (fun _ => Fin d)
  (fun i => if Nat.eqb i 0 then [(0%nat, Fin 1)] else [(0%nat, Fin 1); (1%nat, Fin 1)])
  (fun j => if Nat.eqb j 1 then [(0%nat, Fin 1)] else [(0%nat, Fin 1); (1%nat, Fin 1)]).

Theorem C91_shared_refuted : exists G d d' l l', In G (all_graphs 2 false) /\ 0 < d /\ 0 < d' /\
  m_edges (pair_model d) false = g_edges 2 G /\
  m_likelihood (pair_model d) G false = Fin l /\ m_likelihood (pair_model d') G false = Fin l' /\ l < l'.
Proof.
  set (d := (sqrt 5 - 1) / 2). exists [(0%nat, 1%nat)], d, (1 / 2).
  assert (S : sqrt 5 * sqrt 5 = 5) by (apply sqrt_sqrt; lra). pose proof (sqrt_pos 5) as S0.
  assert (S1 : 2.23 < sqrt 5 < 2.24). { split; apply Rnot_le_lt; intros K; nra. }
  assert (Hd : 0.61 < d < 0.62) by (unfold d; lra). assert (Ed : d * (1 + d) = 1) by (unfold d; nra).
  set (xs := fun i : nat => if Nat.eqb i 0 then [(0%nat, Fin 1)] else [(0%nat, Fin 1); (1%nat, Fin 1)]).
  set (ys := fun j : nat => if Nat.eqb j 1 then [(0%nat, Fin 1)] else [(0%nat, Fin 1); (1%nat, Fin 1)]).
  assert (Lib : forall r, 0 <= r -> library_model (pair_model r)
    (fun i j => any_layer 2 (fun k => link_prob logistic [Fin r; lookup k (xs i); lookup k (ys j); Fin 1]))).
  { intros r Hr. apply (lib_multi_fitness 2 2 (fun _ => Fin r) xs ys); [intros; exact Hr|].
    assert (Q : forall b : bool, canonical 2 (if b then [(0%nat, Fin 1)] else [(0%nat, Fin 1); (1%nat, Fin 1)]) /\
       all_nonneg (if b then [(0%nat, Fin 1)] else [(0%nat, Fin 1); (1%nat, Fin 1)])).
    { intros b. assert (N1 : nonneg (Fin 1)) by (cbn; lra). split.
      - unfold canonical. destruct b; cbn; repeat split; repeat (constructor; cbn; try lia).
      - unfold all_nonneg. destruct b; repeat (constructor; try exact N1). }
    intros i _. split; [apply Q|]. split; [apply Q|]. split; apply Q. }
  assert (T : forall r, 0 < r -> link_prob logistic [Fin r; Fin 1; Fin 1; Fin 1] = r / (1 + r)).
  { intros r Hr. unfold link_prob, logistic. cbn [existsb is_zero is_infinite prodl toR orb]. rewrite !Reqb_false by lra. cbn [orb].
    rewrite !Rmult_1_r. reflexivity. }
  assert (Z : forall r y, link_prob logistic [Fin r; Fin 0; y; Fin 1] = 0).
  { intros r y. unfold link_prob. cbn [existsb is_zero]. rewrite (Reqb_true 0 0 eq_refl), orb_true_r. reflexivity. }
  assert (Lk : forall r, 0 < r -> m_likelihood (pair_model r) [(0%nat, 1%nat)] false = Fin (ln (r / (1 + r) * (1 / (1 + r) * (1 / (1 + r)))))).
  { intros r Hr. pose proof (lib_likelihood _ _ (Lib r ltac:(lra)) false [(0%nat, 1%nat)]) as L.
    assert (E : graph_weight 2 false (fun i j => any_layer 2 (fun k => link_prob logistic [Fin r; lookup k (xs i); lookup k (ys j); Fin 1])) [(0%nat, 1%nat)]
       = r / (1 + r) * (1 / (1 + r) * (1 / (1 + r)))).
    { unfold graph_weight, any_layer, allowed, mem, pair_eqb, xs, ys. cbn [prodn existsb Nat.eqb negb orb andb fst snd lookup].
      rewrite T, Z by exact Hr. field. lra. }
    change (m_N (pair_model r)) with 2%nat in L. rewrite E in L.
    assert (0 < r / (1 + r) * (1 / (1 + r) * (1 / (1 + r)))).
    { repeat apply Rmult_lt_0_compat; try lra; apply Rinv_0_lt_compat; lra. }
    destruct L as [[_ L] | [L _]]; [exact L | lra]. }
  eexists _, _. split; [right; left; reflexivity|]. split; [lra|]. split; [lra|]. split; [|split; [apply Lk; lra|]; split; [apply Lk; lra|]].
  - pose proof (C36_edges_degrees _ _ false (Lib d ltac:(lra))) as M. cbv zeta in M.
    destruct (m_degrees _ false) as [[a b] c]. destruct M as [M _]. rewrite M. change (m_N (pair_model d)) with 2%nat.
    unfold pair_sum, any_layer, g_edges, allowed, mem, pair_eqb, xs, ys. cbn [sumn prodn existsb Nat.eqb negb orb andb fst snd lookup b2r]. rewrite T, Z by lra.
    assert (E1 : d / (1 + d) = d * d). { apply Rmult_eq_reg_r with (1 + d); [|lra]. replace (d / (1 + d) * (1 + d)) with d by (field; lra). nra. }
    rewrite E1. nra.
  - apply ln_increasing.
    + repeat apply Rmult_lt_0_compat; try lra; apply Rinv_0_lt_compat; lra.
    + assert (E1 : 1 / (1 + d) = d) by (apply Rmult_eq_reg_r with (1 + d); [rewrite Ed; field; lra | lra]).
      replace (d / (1 + d)) with (d * (1 / (1 + d))) by (field; lra). rewrite E1. assert (d > 0.618) by (unfold d; nra). 
      assert (d < 0.6181) by (unfold d; nra). nra.
Qed.
Print Assumptions C91_shared_refuted.
