(** Properties of the export to networkx: C18. *)
From Verif Require Import Base Num Spec Ids Ensemble Lib IdFacts Graphs GraphFacts DenseGraphs DenseFacts Networkx PropTables PropGraph PropDense.

(** The edge list of the exported graph holds ((i, j, key), weight); [NoDup (map fst G)] says no edge
    occurs twice.  [link s i j] is the stored weight from [i] to [j] (see C05_links); undirected edges
    are written with i <= j. *)

Lemma nx_entries_in : forall N k A, wf N A -> forall i j l x,
  In ((i, j, l), x) (nx_entries N k A) <-> l = k /\ (i < N)%nat /\ (j < N)%nat /\ W A i j = x /\ x <> 0.
Proof.
  intros N k A HA i j l x. unfold nx_entries. rewrite in_flat_map. split.
  - intros [i' [Hi I]]. apply in_seq in Hi. apply in_map_iff in I as [[j' y] [E I]]. cbn [fst snd] in E. injection E as -> -> -> ->.
    destruct (HA i) as [_ F]; [lia|]. rewrite Forall_forall in F. destruct (F _ I) as [B [P _]]. cbn in B, P.
    split; [reflexivity|]. split; [lia|]. split; [exact B|]. split; [apply entry_in; [apply (wf_nodup N A HA); lia|exact I]|lra].
  - intros [-> [Hi [Hj [E P]]]]. exists i. split; [apply in_seq; lia|]. apply in_map_iff. exists (j, x). split; [reflexivity|].
    assert (Hin : In j (map fst (sp_row A i))).
    { apply (wf_pos_in N A HA i j Hi). pose proof (wf_nonneg N A HA i j Hi). lra. }
    apply in_map_iff in Hin as [[j' y] [Ej I]]. cbn in Ej. subst j'.
    rewrite (entry_in _ j y) in E; [subst y; exact I|apply (wf_nodup N A HA i Hi)|exact I].
Qed.

Lemma nx_nonzero_in : forall N k D i j l x,
  In ((i, j, l), x) (nx_nonzero N k D) <-> l = k /\ (i < N)%nat /\ (j < N)%nat /\ D i j = x /\ x <> 0.
Proof.
  intros N k D i j l x. unfold nx_nonzero. rewrite in_flat_map. split.
  - intros [i' [Hi I]]. apply in_seq in Hi. apply in_map_iff in I as [j' [E I]]. injection E as -> -> -> <-.
    apply filter_In in I as [I P]. apply in_seq in I. destruct (Reqb_spec (D i j) 0) as [|P']; [discriminate P|]. repeat split; try lia. exact P'.
  - intros [-> [Hi [Hj [<- P]]]]. exists i. split; [apply in_seq; lia|]. apply in_map_iff. exists j. split; [reflexivity|].
    apply filter_In. split; [apply in_seq; lia|]. destruct (Reqb_spec (D i j) 0); [contradiction|reflexivity].
Qed.

Lemma nx_id_eq : forall i j k i' j' k', nx_id true (i, j, k) = nx_id true (i', j', k') -> k = k' /\ ((i = i' /\ j = j') \/ (i = j' /\ j = i')).
Proof. intros i j k i' j' k' H. unfold nx_id in H. cbn [fst snd] in H. injection H as H1 H2 ->. split; [reflexivity|]. lia. Qed.

(** Directed: entries with distinct positions. *)
Lemma nx_directed : forall l (V : nat -> nat -> nat -> R) (P : nat -> nat -> nat -> Prop),
  (forall i j k x, In ((i, j, k), x) l <-> P i j k /\ V i j k = x /\ x <> 0) ->
  let G := nx_add false l [] in
  NoDup (map fst G) /\ forall i j k x, In ((i, j, k), x) G <-> P i j k /\ V i j k = x /\ x <> 0.
Proof.
  intros l V P H G. destruct (nx_add_in false l []) as [A B]; [constructor| |intros a p _ []|].
  - intros [[[i j] k] x] [[[i' j'] k'] x'] Ha Hb E. cbn in E. injection E as -> -> ->. apply H in Ha, Hb. cbn. destruct Ha as [_ [<- _]], Hb as [_ [<- _]]. reflexivity.
  - split; [exact A|]. intros i j k x. unfold G. rewrite B. rewrite <- H. split.
    + intros [[]|[[e y] [Hin [E1 E2]]]]. cbn in E1, E2. subst. exact Hin.
    + intros Hin. right. exists ((i, j, k), x). auto.
Qed.

(** Undirected: the value must be symmetric where both entries are present. *)
Lemma nx_undirected : forall l (V : nat -> nat -> nat -> R) (P : nat -> nat -> nat -> Prop),
  (forall i j k x, In ((i, j, k), x) l <-> P i j k /\ V i j k = x /\ x <> 0) ->
  (forall i j k, P i j k -> P j i k) ->
  (forall i j k, P i j k -> i <> j -> V i j k <> 0 -> V j i k <> 0 -> V i j k = V j i k) ->
  let G := nx_add true l [] in
  NoDup (map fst G) /\
  forall i j k x, In ((i, j, k), x) G <-> (i <= j)%nat /\ P i j k /\ x <> 0 /\ (V i j k = x \/ V j i k = x).
Proof.
  intros l V P H Sp Sv G. destruct (nx_add_in true l []) as [A B]; [constructor| |intros a p _ []|].
  - intros [[[i j] k] x] [[[i' j'] k'] x'] Ha Hb E. cbn [fst] in E. apply nx_id_eq in E as [-> E]. apply H in Ha, Hb. cbn.
    destruct Ha as [Pa [<- Na]], Hb as [Pb [<- Nb]]. destruct E as [[-> ->]|[-> ->]]; [reflexivity|].
    destruct (Nat.eq_dec i' j') as [->|D]; [reflexivity|]. apply Sv; [exact Pa|congruence|exact Na|exact Nb].
  - split; [exact A|]. intros i j k x. unfold G. rewrite B. split.
    + intros [[]|[[[[i' j'] k'] y] [Hin [E1 E2]]]]. cbn [fst snd] in E1, E2. subst y. apply H in Hin as [Pi [Ei Ni]].
      unfold nx_id in E1. cbn [fst snd] in E1. injection E1 as E1 E2 ->. split; [lia|].
      destruct (Nat.le_ge_cases i' j') as [Q|Q].
      * rewrite Nat.min_l in E1 by exact Q. rewrite Nat.max_r in E2 by exact Q. subst i' j'. auto.
      * rewrite Nat.min_r in E1 by exact Q. rewrite Nat.max_l in E2 by exact Q. subst i' j'. split; [apply Sp, Pi|]. auto.
    + intros [Q [Pi [Ni E]]]. right. destruct E as [E|E].
      * exists ((i, j, k), x). split; [apply H; auto|]. split; [|reflexivity]. unfold nx_id. cbn [fst snd]. rewrite Nat.min_l, Nat.max_r by exact Q. reflexivity.
      * exists ((j, i, k), x). split; [apply H; auto|]. split; [|reflexivity]. unfold nx_id. cbn [fst snd]. rewrite Nat.min_r, Nat.max_l by exact Q. reflexivity.
Qed.

(** ** Simple graphs *)

Theorem C18_digraph : forall w N A gr G, library_graph w N (SDiGraph A) gr -> to_networkx N (SDiGraph A) = Ok G ->
  NoDup (map fst G) /\
  forall i j k x, In ((i, j, k), x) G <-> k = 0%nat /\ (i < N)%nat /\ (j < N)%nat /\ link (SDiGraph A) i j = x /\ x <> 0.
Proof.
  intros w N A gr G H E. injection E as <-. apply library_valid in H. inversion H as [|? ? [HA _] _]; subst.
  destruct (nx_directed (nx_entries N 0 A) (fun i j _ => W A i j) (fun i j k => k = 0%nat /\ (i < N)%nat /\ (j < N)%nat)) as [D M].
  - intros. rewrite (nx_entries_in N 0 A HA). tauto.
  - split; [exact D|]. intros i j k x. rewrite M. cbn [link]. tauto.
Qed.
Print Assumptions C18_digraph.

(** Full property: also for unweighted graphs, see [C18_unweighted_refuted]. *)
Theorem C18_graph_partial : forall N A gr G, library_graph true N (SGraph A) gr -> to_networkx N (SGraph A) = Ok G ->
  NoDup (map fst G) /\
  forall i j k x, In ((i, j, k), x) G <-> k = 0%nat /\ (i <= j < N)%nat /\ both_ways (link (SGraph A)) i j = x /\ x <> 0.
Proof.
  intros N A gr G H E. apply library_valid in H. unfold to_networkx in E.
  destruct (adjacency_matrix N (SGraph A) false true) as [B|] eqn:EB; [|discriminate E]. cbn [bind] in E. injection E as <-.
  destruct (adjacency_spec true N _ false true B H EB) as [HB V]. unfold view in V. cbn [andb] in V.
  destruct (nx_undirected (nx_entries N 0 B) (fun i j _ => W B i j) (fun i j k => k = 0%nat /\ (i < N)%nat /\ (j < N)%nat)) as [D M].
  - intros. rewrite (nx_entries_in N 0 B HB). tauto.
  - intros i j k. tauto.
  - intros i j k [_ [Hi Hj]] _ _ _. rewrite !V by assumption. apply both_ways_sym.
  - split; [exact D|]. intros i j k x. rewrite M. split.
    + intros [Q [[Ek [Hi Hj]] [Nz X]]]. split; [exact Ek|]. split; [lia|]. split; [|exact Nz].
      rewrite !V in X by assumption. rewrite (both_ways_sym _ j i) in X. tauto.
    + intros [Ek [Hij [X Nz]]]. rewrite (V i j) by lia. split; [lia|]. split; [lia|]. auto.
Qed.
Print Assumptions C18_graph_partial.

(** Unweighted: pairs of distinct vertices. *)
Theorem C18_unweighted_partial : forall N A gr G, library_graph false N (SGraph A) gr -> to_networkx N (SGraph A) = Ok G ->
  NoDup (map fst G) /\
  forall i j k x, i <> j -> (In ((i, j, k), x) G <-> k = 0%nat /\ (i <= j < N)%nat /\ neighbours (link (SGraph A)) i j = x /\ x <> 0).
Proof.
  intros N A gr G H E. apply library_valid in H. unfold to_networkx in E.
  destruct (adjacency_matrix N (SGraph A) false true) as [B|] eqn:EB; [|discriminate E]. cbn [bind] in E. injection E as <-.
  destruct (adjacency_spec false N _ false true B H EB) as [HB V]. unfold view in V. cbn [andb] in V.
  assert (V' : forall i j, (i < N)%nat -> (j < N)%nat -> i <> j -> W B i j = neighbours (link (SGraph A)) i j).
  { intros i j Hi Hj Hd. rewrite V by assumption. apply Nat.eqb_neq in Hd. rewrite Hd. reflexivity. }
  destruct (nx_undirected (nx_entries N 0 B) (fun i j _ => W B i j) (fun i j k => k = 0%nat /\ (i < N)%nat /\ (j < N)%nat)) as [D M].
  - intros. rewrite (nx_entries_in N 0 B HB). tauto.
  - intros i j k. tauto.
  - intros i j k [_ [Hi Hj]] Hd _ _. rewrite !V' by auto. apply neighbours_sym.
  - split; [exact D|]. intros i j k x Hd. rewrite M. split.
    + intros [Q [[Ek [Hi Hj]] [Nz X]]]. split; [exact Ek|]. split; [lia|]. split; [|exact Nz].
      rewrite !V' in X by auto. rewrite (neighbours_sym _ j i) in X. tauto.
    + intros [Ek [Hij [X Nz]]]. rewrite (V' i j) by (lia || assumption). split; [lia|]. split; [lia|]. auto.
Qed.
Print Assumptions C18_unweighted_partial.

Theorem C18_unweighted_refuted : exists A gr, library_graph false 2 (SGraph A) gr /\ link (SGraph A) 0 0 = 1 /\
  to_networkx 2 (SGraph A) = Ok [].
Proof.
  destruct (one_edge_library false 0 0) as [A [gr [G [_ EA]]]]; [lia|lia|]. exists A, gr. split; [exact G|].
  assert (L : link (SGraph A) 0 0 = 1) by (cbn [link]; rewrite EA; cbn [negb]; rewrite coo_bool_entry by lia; reflexivity).
  split; [exact L|]. pose proof (library_valid _ _ _ _ G) as H. unfold to_networkx.
  destruct (adjacency_matrix 2 (SGraph A) false true) as [B|] eqn:EB; [|discriminate EB]. cbn [bind]. f_equal.
  destruct (adjacency_spec false 2 _ false true B H EB) as [HB V]. unfold view in V. cbn [andb] in V.
  assert (Z : nx_entries 2 0 B = []).
  { destruct (nx_entries 2 0 B) as [|[[[i j] k] x] t] eqn:Q; [reflexivity|exfalso].
    assert (I : In ((i, j, k), x) (nx_entries 2 0 B)) by (rewrite Q; left; reflexivity).
    apply (nx_entries_in 2 0 B HB) in I as [_ [Hi [Hj [X Nz]]]]. apply Nz. rewrite <- X, V by assumption.
    destruct (Nat.eqb_spec i j); [reflexivity|]. unfold neighbours, both_ways. destruct (Nat.eqb_spec i j); [contradiction|].
    cbn [link]. rewrite EA. cbn [negb]. rewrite !coo_bool_entry by assumption.
    destruct i as [|[|i]], j as [|[|j]]; try lia; cbn; rewrite Rplus_0_r; apply present_0. }
  rewrite Z. reflexivity.
Qed.
Print Assumptions C18_unweighted_refuted.

Example C18_simple_case : exists A gr G, library_graph true 3 (SDiGraph A) gr /\ library_graph true 3 (SGraph A) gr /\
  to_networkx 3 (SDiGraph A) = Ok G /\ In ((2, 2, 0)%nat, 4) G.
Proof.
  destruct ex_library as [A [L [b [lab [G1 [G2 [_ [_ [H _]]]]]]]]]. eexists A, (grouping_of b), _. split; [exact G2|]. split; [exact G1|]. split; [reflexivity|].
  destruct (C18_digraph _ _ _ _ _ G2 eq_refl) as [_ M]. apply M. clear M.
  split; [reflexivity|]. split; [lia|]. split; [lia|]. split; [|lra].
  assert (T : dict_get Nat.leb (b_ids b) 30%nat = Some 2%nat).
  { apply simple_pieces in H as [H _]. destruct (build Nat.leb Nat.leb nat_order nat_order true false true ex_v ex_e ex_nodup (ex_rows true)) as [gr [H' _]].
    rewrite H' in H. injection H as <-. reflexivity. }
  destruct (C05_summed _ _ _ _ _ _ _ _ _ _ _ _ _ nat_order nat_order H _ _ _ _ T T) as [_ [V _]]. cbn [link]. rewrite V by reflexivity. cbn. lra.
Qed.

Example C18_unweighted_case : exists A gr G, library_graph false 2 (SGraph A) gr /\ to_networkx 2 (SGraph A) = Ok G /\ In ((0, 1, 0)%nat, 1) G.
Proof.
  destruct (one_edge_library false 1 0) as [A [gr [G1 [_ EA]]]]; [lia|lia|]. eexists A, gr, _. split; [exact G1|]. split; [reflexivity|].
  destruct (C18_unweighted_partial _ _ _ _ G1 eq_refl) as [_ M]. apply M; [lia|]. split; [reflexivity|]. split; [lia|]. split; [|lra].
  unfold neighbours, both_ways. cbn [link Nat.eqb]. rewrite EA. cbn [negb]. rewrite !coo_bool_entry by lia. cbn. apply present_pos. lra.
Qed.

(** ** Multigraphs *)

Definition layer (L : list spm) (l : nat) : spm := nth l L (mkSpm true (fun _ => [])).

Lemma nx_layers_in : forall w N s L, valid w N s -> layers s = L -> forall i j k x,
  In ((i, j, k), x) (flat_map (fun p => nx_entries N (fst p) (snd p)) (combine (seq 0 (length L)) L)) <->
  ((k < length L)%nat /\ (i < N)%nat /\ (j < N)%nat) /\ W (layer L k) i j = x /\ x <> 0.
Proof.
  intros w N s L H HL i j k x. unfold valid in H. rewrite HL, Forall_forall in H. rewrite in_flat_map.
  assert (HW : forall l A, In (l, A) (combine (seq 0 (length L)) L) -> wf N A) by (intros l A I; apply H; apply in_combine_r in I; exact I).
  split.
  - intros [[l A] [I Ie]]. cbn [fst snd] in Ie. pose proof (HW _ _ I) as HA. apply (nx_entries_in N l A HA) in Ie.
    apply (in_combine_seq L 0 l A (mkSpm true (fun _ => []))) in I as [Hl EA]. rewrite Nat.sub_0_r in EA. unfold layer.
    destruct Ie as [-> [Hi [Hj [X Nz]]]]. rewrite EA. repeat split; try lia; assumption.
  - intros [[Hk [Hi Hj]] [X Nz]]. exists (k, layer L k). 
    assert (I : In (k, layer L k) (combine (seq 0 (length L)) L)).
    { apply (in_combine_seq L 0 k _ (mkSpm true (fun _ => []))). rewrite Nat.sub_0_r. split; [lia|reflexivity]. }
    split; [exact I|]. cbn [fst snd]. apply nx_entries_in; [exact (HW _ _ I)|]. auto.
Qed.

Theorem C18_multidigraph : forall w N L gr G, library_graph w N (SMultiDiGraph L) gr -> to_networkx N (SMultiDiGraph L) = Ok G ->
  NoDup (map fst G) /\
  forall i j k x, In ((i, j, k), x) G <->
    ((k < length L)%nat /\ (i < N)%nat /\ (j < N)%nat) /\ entry (sp_row (layer L k) i) j = x /\ x <> 0.
Proof.
  intros w N L gr G H E. injection E as <-. apply library_valid in H. rewrite nx_layers.
  exact (nx_directed _ (fun i j k => W (layer L k) i j) (fun i j k => (k < length L)%nat /\ (i < N)%nat /\ (j < N)%nat) (nx_layers_in w N _ L H eq_refl)).
Qed.
Print Assumptions C18_multidigraph.

(** Full property: whatever the orientations.  Here, when no label has rows in both orientations between
    the same two vertices; see [C18_multigraph_refuted]. *)
Theorem C18_multigraph_partial : forall w N L gr G, library_graph w N (SMultiGraph L) gr -> to_networkx N (SMultiGraph L) = Ok G ->
  (forall i j k, (k < length L)%nat -> (i < N)%nat -> (j < N)%nat -> i <> j ->
     entry (sp_row (layer L k) i) j = 0 \/ entry (sp_row (layer L k) j) i = 0) ->
  NoDup (map fst G) /\
  forall i j k x, In ((i, j, k), x) G <->
    (k < length L)%nat /\ (i <= j < N)%nat /\ both_ways (fun a b => entry (sp_row (layer L k) a) b) i j = x /\ x <> 0.
Proof.
  intros w N L gr G H E One. injection E as <-. apply library_valid in H. rewrite nx_layers.
  destruct (nx_undirected _ (fun i j k => W (layer L k) i j) (fun i j k => (k < length L)%nat /\ (i < N)%nat /\ (j < N)%nat) (nx_layers_in w N _ L H eq_refl)) as [D M].
  - intros i j k. tauto.
  - intros i j k [Hk [Hi Hj]] Hd N1 N2. destruct (One i j k Hk Hi Hj Hd); contradiction.
  - split; [exact D|]. intros i j k x. rewrite M. unfold both_ways. split.
    + intros [Q [[Hk [Hi Hj]] [Nz X]]]. split; [exact Hk|]. split; [lia|]. split; [|exact Nz].
      destruct (Nat.eqb_spec i j) as [->|Hd]; [tauto|]. destruct (One i j k Hk Hi Hj Hd) as [Z|Z], X as [X|X]; lra.
    + intros [Hk [Hij [X Nz]]]. split; [lia|]. split; [lia|]. split; [exact Nz|].
      destruct (Nat.eqb_spec i j) as [->|Hd]; [tauto|]. destruct (One i j k) as [Z|Z]; [lia|lia|lia|exact Hd| |]; rewrite Z in X; [right|left]; lra.
Qed.
Print Assumptions C18_multigraph_partial.

(** Two vertices and one label; one row, or one row in each direction. *)
Definition one_row : list (erow nat nat) := [mkRow 1%nat 0%nat (3/2) 5%nat].
Definition both_rows : list (erow nat nat) := [mkRow 0%nat 1%nat (3/2) 5%nat; mkRow 1%nat 0%nat 2 5%nat].

Lemma two_multi : forall e, (forall r, In r e -> In (r_src r) (map fst two_v) /\ In (r_dst r) (map fst two_v) /\ (true = true -> 0 < r_weight r)) ->
  exists gr, let d := enum_of Nat.leb (map fst two_v) in let lab := enum_of Nat.leb (map r_label e) in
    let L := map (fun lbl => coo_tocsr false 2
        (map snd (filter (fun p => Nat.eqb (fst p) lbl)
           (map (fun r => (mapped (dict_get Nat.leb lab (r_label r)),
                           (mapped (dict_get Nat.leb d (r_src r)), mapped (dict_get Nat.leb d (r_dst r)), r_weight r))) e)))) (seq 0 (length lab)) in
    library_graph true 2 (SMultiGraph L) gr /\ library_graph true 2 (SMultiDiGraph L) gr.
Proof.
  intros e He. assert (HN : NoDup (map fst two_v)) by (repeat (constructor; [cbn; intuition lia|]); constructor).
  destruct (build_multigraph Nat.leb Nat.leb Nat.leb nat_order nat_order nat_order false false true two_v e HN He) as [gr [_ H]]. cbv zeta in H.
  eexists. cbv zeta. split.
  - eapply built; [exact nat_order|exact nat_order|exact nat_order|exact (of_multigraph _ _ _ _ _ _ _ _ _ _ _ _ H)|reflexivity|reflexivity].
  - eapply built; [exact nat_order|exact nat_order|exact nat_order|exact (of_multidigraph _ _ _ _ _ _ _ _ _ _ _ _ H)|reflexivity|reflexivity].
Qed.

Example C18_multigraph_case : exists L gr G, library_graph true 2 (SMultiGraph L) gr /\ to_networkx 2 (SMultiGraph L) = Ok G /\
  (forall i j k, (k < length L)%nat -> (i < 2)%nat -> (j < 2)%nat -> i <> j ->
     entry (sp_row (layer L k) i) j = 0 \/ entry (sp_row (layer L k) j) i = 0) /\ G = [((0, 1, 0)%nat, 3/2)].
Proof.
  destruct (two_multi one_row) as [gr [G1 _]]; [intros r [<-|[]]; cbn; split; [lia|]; split; [lia|]; intros _; lra|].
  eexists _, gr, _. split; [exact G1|]. split; [reflexivity|]. split.
  - intros i j k Hk Hi Hj Hd. cbn in Hk. assert (k = 0%nat) by lia. subst k. destruct i as [|[|i]], j as [|[|j]]; try lia; [left|right]; reflexivity.
  - cbn. do 2 f_equal. lra.
Qed.

(** Rows of the same label in both directions have the same key: the weight of the pair is 2 instead of
    3/2 + 2.  The directed multigraph on the same rows has both edges. *)
Theorem C18_multigraph_refuted : exists L gr, library_graph true 2 (SMultiGraph L) gr /\ library_graph true 2 (SMultiDiGraph L) gr /\
  both_ways (fun a b => entry (sp_row (layer L 0) a) b) 0 1 = 7/2 /\
  to_networkx 2 (SMultiGraph L) = Ok [((0, 1, 0)%nat, 2)] /\
  to_networkx 2 (SMultiDiGraph L) = Ok [((0, 1, 0)%nat, 3/2); ((1, 0, 0)%nat, 2)].
Proof.
  destruct (two_multi both_rows) as [gr [G1 G2]]; [intros r [<-|[<-|[]]]; cbn; (split; [lia|]; split; [lia|]; intros _; lra)|].
  eexists _, gr. split; [exact G1|]. split; [exact G2|]. split; [|split].
  - unfold both_ways, layer. cbn. lra.
  - cbn. do 3 f_equal. lra.
  - cbn. f_equal. f_equal; [f_equal; lra|]. do 2 f_equal. lra.
Qed.
Print Assumptions C18_multigraph_refuted.

(** ** Dense graphs *)

Theorem C18_dense_digraph : forall w N D gr, library_dense w N (DDiGraph D) gr ->
  let G := d_to_networkx N w (DDiGraph D) in
  NoDup (map fst G) /\
  forall i j k x, In ((i, j, k), x) G <-> k = 0%nat /\ (i < N)%nat /\ (j < N)%nat /\ dlink (DDiGraph D) i j = x /\ x <> 0.
Proof.
  intros w N D gr _ G.
  destruct (nx_directed (nx_nonzero N 0 D) (fun i j _ => D i j) (fun i j k => k = 0%nat /\ (i < N)%nat /\ (j < N)%nat)) as [U M].
  - intros. rewrite nx_nonzero_in. tauto.
  - split; [exact U|]. intros i j k x. unfold G, d_to_networkx. rewrite M. cbn [dlink]. tauto.
Qed.
Print Assumptions C18_dense_digraph.

(** Weighted graphs have the weights added, unweighted graphs 1 for each pair. *)
Theorem C18_dense_graph : forall w N D gr, library_dense w N (DGraph D) gr ->
  let G := d_to_networkx N w (DGraph D) in
  NoDup (map fst G) /\
  forall i j k x, In ((i, j, k), x) G <-> k = 0%nat /\ (i <= j < N)%nat /\
    (if w then both_ways (dlink (DGraph D)) i j else neighbours (dlink (DGraph D)) i j) = x /\ x <> 0.
Proof.
  intros w N D gr H G. apply library_dense_valid in H. pose proof (fun i j => d_view w (DGraph D) false true i j H) as V. cbn [andb d_multi] in V.
  assert (Sym : forall i j, d_adjacency w (DGraph D) false true i j = d_adjacency w (DGraph D) false true j i).
  { intros i j. rewrite !V. destruct w; [apply both_ways_sym|apply neighbours_sym]. }
  destruct (nx_undirected (nx_nonzero N 0 (d_adjacency w (DGraph D) false true)) (fun i j _ => d_adjacency w (DGraph D) false true i j) (fun i j k => k = 0%nat /\ (i < N)%nat /\ (j < N)%nat)) as [U M].
  - intros. rewrite nx_nonzero_in. tauto.
  - intros i j k. tauto.
  - intros i j k _ _ _ _. apply Sym.
  - split; [exact U|]. intros i j k x. unfold G. unfold d_to_networkx. rewrite M, (Sym j i), V. split.
    + intros [Q [[Ek [Hi Hj]] [Nz X]]]. split; [exact Ek|]. split; [lia|]. tauto.
    + intros [Ek [Hij [X Nz]]]. split; [lia|]. split; [lia|]. tauto.
Qed.
Print Assumptions C18_dense_graph.

Lemma d_layers_in : forall N n (D : nat -> mat) i j k x,
  In ((i, j, k), x) (flat_map (fun l => nx_nonzero N l (D l)) (seq 0 n)) <->
  ((k < n)%nat /\ (i < N)%nat /\ (j < N)%nat) /\ D k i j = x /\ x <> 0.
Proof.
  intros N n D i j k x. rewrite in_flat_map. split.
  - intros [l [I Ie]]. apply in_seq in I. apply nx_nonzero_in in Ie as [-> [Hi [Hj [X Nz]]]]. repeat split; try lia; assumption.
  - intros [[Hk [Hi Hj]] [X Nz]]. exists k. split; [apply in_seq; lia|]. apply nx_nonzero_in. auto.
Qed.

Theorem C18_dense_multidigraph : forall w N n D gr, library_dense w N (DMultiDiGraph n D) gr ->
  let G := d_to_networkx N w (DMultiDiGraph n D) in
  NoDup (map fst G) /\
  forall i j k x, In ((i, j, k), x) G <-> ((k < n)%nat /\ (i < N)%nat /\ (j < N)%nat) /\ D k i j = x /\ x <> 0.
Proof.
  intros w N n D gr _ G.
  exact (nx_directed _ (fun i j k => D k i j) (fun i j k => (k < n)%nat /\ (i < N)%nat /\ (j < N)%nat) (d_layers_in N n D)).
Qed.
Print Assumptions C18_dense_multidigraph.

(** Same restriction as for sparse multigraphs. *)
Theorem C18_dense_multigraph_partial : forall w N n D gr, library_dense w N (DMultiGraph n D) gr ->
  (forall i j k, (k < n)%nat -> (i < N)%nat -> (j < N)%nat -> i <> j -> D k i j = 0 \/ D k j i = 0) ->
  let G := d_to_networkx N w (DMultiGraph n D) in
  NoDup (map fst G) /\
  forall i j k x, In ((i, j, k), x) G <-> (k < n)%nat /\ (i <= j < N)%nat /\ both_ways (D k) i j = x /\ x <> 0.
Proof.
  intros w N n D gr _ One G.
  destruct (nx_undirected _ (fun i j k => D k i j) (fun i j k => (k < n)%nat /\ (i < N)%nat /\ (j < N)%nat) (d_layers_in N n D)) as [U M].
  - intros i j k. tauto.
  - intros i j k [Hk [Hi Hj]] Hd N1 N2. destruct (One i j k Hk Hi Hj Hd); contradiction.
  - split; [exact U|]. intros i j k x. unfold G, d_to_networkx. rewrite M. unfold both_ways. split.
    + intros [Q [[Hk [Hi Hj]] [Nz X]]]. split; [exact Hk|]. split; [lia|]. split; [|exact Nz].
      destruct (Nat.eqb_spec i j) as [->|Hd]; [tauto|]. destruct (One i j k Hk Hi Hj Hd) as [Z|Z], X as [X|X]; lra.
    + intros [Hk [Hij [X Nz]]]. split; [lia|]. split; [lia|]. split; [exact Nz|].
      destruct (Nat.eqb_spec i j) as [->|Hd]; [tauto|]. destruct (One i j k) as [Z|Z]; [lia|lia|lia|exact Hd| |]; rewrite Z in X; [right|left]; lra.
Qed.
Print Assumptions C18_dense_multigraph_partial.

Example C18_dense_case : exists D gr, library_dense true 2 (DGraph D) gr /\ library_dense true 2 (DDiGraph D) gr /\
  In ((0, 1, 0)%nat, 7/2) (d_to_networkx 2 true (DGraph D)).
Proof.
  destruct (dense_two_library true [(0%nat, 1%nat, 3/2); (1%nat, 0%nat, 2); (1%nat, 1%nat, 5)]) as [g [_ [G1 G2]]]; [small_rows|].
  eexists _, _. split; [exact G1|]. split; [exact G2|].
  destruct (C18_dense_graph _ _ _ _ G1) as [_ M]. apply M. split; [reflexivity|]. split; [lia|]. split; [|lra]. unfold both_ways. cbn. lra.
Qed.

Lemma dense_both : exists D gr, library_dense true 2 (DMultiGraph 1 D) gr /\ library_dense true 2 (DMultiDiGraph 1 D) gr /\
  forall i j, D 0%nat i j = assign_all [(0%nat, 1%nat, 3/2); (1%nat, 0%nat, 2)] i j.
Proof.
  assert (HN : NoDup (map fst two_v)) by (repeat (constructor; [cbn; intuition lia|]); constructor).
  assert (HE : forall r, In r both_rows -> In (r_src r) (map fst two_v) /\ In (r_dst r) (map fst two_v) /\ (true = true -> 0 < r_weight r)).
  { intros r [<-|[<-|[]]]; cbn; (split; [lia|]; split; [lia|]; intros _; lra). }
  destruct (dense_build Nat.leb Nat.leb Nat.leb nat_order nat_order true false true two_v both_rows HN HE) as [gr [_ [_ [L H]]]].
  cbv zeta in H. exists L. eexists. split; [|split].
  - eapply (dbuilt _ _ _ _ nat nat nat Nat.leb Nat.leb Nat.leb true false false two_v both_rows _ nat_order nat_order nat_order);
      [exact (of_dense_multi _ _ _ _ _ _ _ _ _ _ _ _ H) | reflexivity | reflexivity].
  - eapply (dbuilt _ _ _ _ nat nat nat Nat.leb Nat.leb Nat.leb true false false two_v both_rows _ nat_order nat_order nat_order);
      [exact (of_dense_multidi _ _ _ _ _ _ _ _ _ _ _ _ H) | reflexivity | reflexivity].
  - destruct (dense_multi_pieces Nat.leb Nat.leb Nat.leb nat_order nat_order nat_order _ _ _ _ _ _ _ _ _ H) as [_ [_ E]]. intros i j. rewrite E. reflexivity.
Qed.

Example C18_dense_multigraph_case : exists n D gr, library_dense true 3 (DMultiGraph n D) gr /\
  (forall i j k, (k < n)%nat -> (i < 3)%nat -> (j < 3)%nat -> i <> j -> D k i j = 0 \/ D k j i = 0) /\ D 0%nat 2%nat 0%nat = 1.
Proof.
  destruct (dense_build Nat.leb Nat.leb Nat.leb nat_order nat_order true false true ex_v [mkRow 10%nat 20%nat 1 2%nat; mkRow 30%nat 10%nat 1 2%nat] ex_nodup) as [gr [_ [_ [L H]]]].
  - intros r [<-|[<-|[]]]; cbn; (split; [lia|]; split; [lia|]; intros _; lra).
  - cbv zeta in H. exists 1%nat, L. eexists. split; [|].
    + eapply (dbuilt _ _ _ _ nat nat nat Nat.leb Nat.leb Nat.leb true false false ex_v _ _ nat_order nat_order nat_order);
      [exact (of_dense_multi _ _ _ _ _ _ _ _ _ _ _ _ H) | reflexivity | reflexivity].
    + destruct (dense_multi_pieces Nat.leb Nat.leb Nat.leb nat_order nat_order nat_order _ _ _ _ _ _ _ _ _ H) as [_ [_ E]]. rewrite E. split; [|reflexivity].
      intros i j k Hk Hi Hj Hd. assert (k = 0%nat) by lia. subst k.
      destruct i as [|[|[|i]]], j as [|[|[|j]]]; try lia; rewrite !E; first [left; reflexivity | right; reflexivity].
Qed.

(** The same loss as for sparse multigraphs. *)
Theorem C18_dense_multigraph_refuted : exists D gr, library_dense true 2 (DMultiGraph 1 D) gr /\ library_dense true 2 (DMultiDiGraph 1 D) gr /\
  both_ways (D 0%nat) 0 1 = 7/2 /\
  d_to_networkx 2 true (DMultiGraph 1 D) = [((0, 1, 0)%nat, 2)] /\
  d_to_networkx 2 true (DMultiDiGraph 1 D) = [((0, 1, 0)%nat, 3/2); ((1, 0, 0)%nat, 2)].
Proof.
  destruct dense_both as [D [gr [G1 [G2 E]]]]. exists D, gr. split; [exact G1|]. split; [exact G2|].
  split; [unfold both_ways; cbn [Nat.eqb]; rewrite !E; cbn; lra|].
  assert (Q : nx_nonzero 2 0 (D 0%nat) = [((0, 1, 0)%nat, 3/2); ((1, 0, 0)%nat, 2)]).
  { unfold nx_nonzero. cbn [seq flat_map filter]. rewrite !E. cbn. rewrite !(Reqb_true 0 0) by reflexivity. rewrite !Reqb_false by lra. cbn. rewrite !E. reflexivity. }
  cbn [d_to_networkx seq flat_map]. rewrite Q. split; reflexivity.
Qed.
Print Assumptions C18_dense_multigraph_refuted.
