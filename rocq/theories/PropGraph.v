(** Properties of the measures of sparse graphs: C05 (links), C08 to C11, C13, C14 and C16. *)
From Verif Require Import Base Num Spec Ids Ensemble Lib IdFacts Graphs GraphFacts PropTables.

(** [link s i j] is the weight of the links from [i] to [j] (one per row of the edge table, or one per
    label when unweighted); [C05_links] says what it is in terms of the tables. *)

(** * C05 *)

Theorem C05_links : forall (ID G Lb : Type) leb_id leb_g leb_l grouped sl dl w (v : list (ID * G)) (e : list (erow ID Lb)) b s,
  total_order leb_id -> total_order leb_g -> total_order leb_l ->
  graph_of leb_id leb_g leb_l grouped sl dl w v e b s ->
  forall x y i j, dict_get leb_id (b_ids b) x = Some i -> dict_get leb_id (b_ids b) y = Some j ->
  let rows := filter (fun r => eq_key leb_id x (r_src r) && eq_key leb_id y (r_dst r)) e in
  (present (link s i j) = if rows then 0 else 1) /\ (w = true -> link s i j = suml r_weight rows).
Proof.
  intros ID G Lb leb_id leb_g leb_l grouped sl dl w v e b s Oi Og Ol H x y i j Hx Hy rows.
  destruct (link_rows leb_id leb_g leb_l Oi Og Ol _ _ _ _ _ _ b s H x y i j Hx Hy) as [C1 C2]. split.
  - rewrite C1. unfold rows. clear. induction e as [|r e IH]; [reflexivity|]. cbn [existsb filter]. unfold row_matches at 1.
    destruct (_ && _); [reflexivity | exact IH].
  - intros Hw. rewrite C2 by exact Hw. unfold rows. rewrite suml_filter. reflexivity.
Qed.
Print Assumptions C05_links.

(** The example graph as the four classes. *)
Lemma ex_library : exists A L b lab, let gr := grouping_of b in
  library_graph true 3 (SGraph A) gr /\ library_graph true 3 (SDiGraph A) gr /\
  library_graph true 3 (SMultiGraph L) gr /\ library_graph true 3 (SMultiDiGraph L) gr /\
  sparse_graph Nat.leb Nat.leb true false false true ex_v ex_e = Ok (b, A) /\
  sparse_multigraph Nat.leb Nat.leb Nat.leb true false false true ex_v ex_e = Ok (b, lab, L).
Proof.
  destruct (build Nat.leb Nat.leb nat_order nat_order true false true ex_v ex_e ex_nodup (ex_rows true)) as [gr [H _]].
  pose proof (C02_accepted nat nat nat Nat.leb Nat.leb true false false true ex_v ex_e nat_order nat_order) as [_ C].
  destruct C as [b [A HA]]; [split; [exact ex_nodup|]; split; [reflexivity | apply ex_rows]|].
  pose proof (C02_accepted_multi nat nat nat Nat.leb Nat.leb Nat.leb true false false true ex_v ex_e nat_order nat_order nat_order) as [_ C].
  destruct C as [b' [lab [L HL]]]; [split; [exact ex_nodup|]; split; [reflexivity | apply ex_rows]|].
  assert (b' = b). { apply simple_pieces in HA as [HA _]. apply (multi_pieces _ _ _ nat_order nat_order nat_order) in HL as [HL _]. congruence. }
  subst b'. assert (N : b_n b = 3%nat). { apply simple_pieces in HA as [HA _]. rewrite H in HA. injection HA as <-. reflexivity. }
  exists A, L, b, lab. cbv zeta.
  repeat split; [| | | |exact HA|exact HL];
  (eapply (built _ _ _ _ nat nat nat Nat.leb Nat.leb Nat.leb true false false ex_v ex_e b nat_order nat_order nat_order);
    [|symmetry; exact N|reflexivity]).
  - apply of_graph, HA.
  - apply of_digraph, HA.
  - eapply of_multigraph, HL.
  - eapply of_multidigraph, HL.
Qed.

(** * C08: undirected views *)

(** Full property: also the diagonal of the weighted view of an unweighted graph; see
    [C08_unweighted_refuted].  The directed view of an undirected graph: [C08_directed_view_refuted]. *)
Theorem C08_undirected_partial : forall w N s gr wt A, library_graph w N s gr ->
  adjacency_matrix N s false wt = Ok A -> forall i j, (i < N)%nat -> (j < N)%nat ->
  entry (sp_row A i) j = entry (sp_row A j) i /\
  (wt = false -> entry (sp_row A i) j = neighbours (link s) i j) /\
  (wt = true -> w = true -> entry (sp_row A i) j = both_ways (link s) i j) /\
  (wt = true -> w = false -> i <> j -> entry (sp_row A i) j = neighbours (link s) i j).
Proof.
  intros w N s gr wt A HG HA i j Hi Hj. apply library_valid in HG. destruct (adjacency_spec w N s false wt A HG HA) as [_ V].
  rewrite (V i j Hi Hj), (V j i Hj Hi). unfold view. cbn [andb].
  split; [|split; [intros ->; reflexivity|split; [intros -> ->; reflexivity|]]].
  - rewrite (both_ways_sym (link s) i j), (neighbours_sym (link s) i j), (Nat.eqb_sym j i). reflexivity.
  - intros -> -> Hne. apply Nat.eqb_neq in Hne. rewrite Hne. reflexivity.
Qed.
Print Assumptions C08_undirected_partial.

Example C08_case : exists s gr A, library_graph true 3 s gr /\ adjacency_matrix 3 s false true = Ok A /\
  entry (sp_row A 0%nat) 1%nat = 9/2 /\ entry (sp_row A 2%nat) 2%nat = 4.
Proof.
  destruct ex_library as [A [L [b [lab [_ [G2 [_ [_ [H _]]]]]]]]]. exists (SDiGraph A), (grouping_of b).
  eexists. split; [exact G2|]. split; [reflexivity|].
  assert (T : dict_get Nat.leb (b_ids b) 10%nat = Some 0%nat /\ dict_get Nat.leb (b_ids b) 20%nat = Some 1%nat /\ dict_get Nat.leb (b_ids b) 30%nat = Some 2%nat).
  { apply simple_pieces in H as [H _]. destruct (build Nat.leb Nat.leb nat_order nat_order true false true ex_v ex_e ex_nodup (ex_rows true)) as [gr [H' _]].
    rewrite H' in H. injection H as <-. repeat split. }
  destruct T as [T0 [T1 T2]].
  destruct (C05_summed _ _ _ _ _ _ _ _ _ _ _ _ _ nat_order nat_order H _ _ _ _ T0 T1) as [_ [V1 _]].
  destruct (C05_summed _ _ _ _ _ _ _ _ _ _ _ _ _ nat_order nat_order H _ _ _ _ T1 T0) as [_ [V2 _]].
  destruct (C05_summed _ _ _ _ _ _ _ _ _ _ _ _ _ nat_order nat_order H _ _ _ _ T2 T2) as [_ [V3 _]].
  destruct (C08_undirected_partial true 3 (SDiGraph A) _ true _ G2 eq_refl 0%nat 1%nat) as [_ [_ [E1 _]]]; [lia|lia|].
  destruct (C08_undirected_partial true 3 (SDiGraph A) _ true _ G2 eq_refl 2%nat 2%nat) as [_ [_ [E2 _]]]; [lia|lia|].
  rewrite E1, E2 by reflexivity. unfold both_ways, link. cbn [Nat.eqb]. rewrite V1, V2, V3 by reflexivity. cbn. split; lra.
Qed.

Lemma one_edge_library : forall w x y, (x < 2)%nat -> (y < 2)%nat -> exists A gr,
  library_graph w 2 (SGraph A) gr /\ library_graph w 2 (SDiGraph A) gr /\ A = coo_tocsr (negb w) 2 [(x, y, 1)].
Proof.
  intros w x y Hx Hy. set (v := [(0, 0); (1, 0)]%nat). set (e := [mkRow x y 1 0%nat]).
  destruct (build_graph Nat.leb Nat.leb Nat.leb nat_order nat_order false false w v e) as [gr [_ [H1 H2]]].
  - repeat (constructor; [cbn; intuition lia|]). constructor.
  - intros r [<-|[]]. cbn. split; [lia|]. split; [lia|]. intros _. lra.
  - eexists _, _. split; [|split].
    + eapply built; [exact nat_order|exact nat_order|exact nat_order|exact H1|reflexivity|reflexivity].
    + eapply built; [exact nat_order|exact nat_order|exact nat_order|exact H2|reflexivity|reflexivity].
    + destruct x as [|[|x]], y as [|[|y]]; try lia; destruct w; reflexivity.
Qed.

(** The weighted view of an unweighted graph loses its self-loops: the boolean difference of the
    diagonal with itself is zero. *)
Theorem C08_unweighted_refuted : exists s gr A, library_graph false 2 s gr /\ adjacency_matrix 2 s false true = Ok A /\
  link s 0 0 = 1 /\ entry (sp_row A 0%nat) 0%nat = 0.
Proof.
  destruct (one_edge_library false 0 0) as [A [gr [G1 [_ ->]]]]; [lia|lia|]. eexists _, gr, _. split; [exact G1|]. split; [reflexivity|]. split.
  - unfold link. rewrite coo_bool_entry by lia. reflexivity.
  - destruct (adjacency_spec false 2 _ false true _ (library_valid _ _ _ _ G1) eq_refl) as [_ V]. rewrite V by lia. reflexivity.
Qed.
Print Assumptions C08_unweighted_refuted.

(** The flag [directed] is ignored by undirected graphs: a graph with a single edge has two entries. *)
Theorem C08_directed_view_refuted : exists s gr A, library_graph true 2 s gr /\ num_edges 2 s = Ok 1 /\
  adjacency_matrix 2 s true true = Ok A /\ entry (sp_row A 0%nat) 1%nat = 1 /\ entry (sp_row A 1%nat) 0%nat = 1.
Proof.
  destruct (one_edge_library true 0 1) as [A [gr [G1 [_ ->]]]]; [lia|lia|]. cbn [negb] in G1.
  pose proof (library_valid _ _ _ _ G1) as Vd.
  eexists _, gr, _. split; [exact G1|]. split; [|split; [reflexivity|]].
  - unfold num_edges. cbn [is_directed]. cbn [adjacency_matrix bind]. f_equal. unfold halved.
    rewrite (all_view true 2 _ Vd false false _ eq_refl), (diag_view true 2 _ Vd false false _ eq_refl).
    unfold view, neighbours, both_ways, link. cbn [sumn andb Nat.eqb is_directed].
    rewrite !coo_entry by lia. cbn. rewrite !Rplus_0_l, !Rplus_0_r, present_0, present_pos by lra. lra.
  - destruct (adjacency_spec true 2 _ true true _ Vd eq_refl) as [_ V]. rewrite !V by lia.
    unfold view, both_ways, link. cbn [sumn andb Nat.eqb is_directed]. rewrite !coo_entry by lia. cbn. split; lra.
Qed.
Print Assumptions C08_directed_view_refuted.

(** * C09: degrees *)

(** Graphs with at least one label have all their measures. *)
Theorem C09_defined : forall N s, layers s <> [] ->
  (exists m, num_edges N s = Ok m) /\ (exists t, total_weight N s = Ok t) /\
  (exists d, degree N s = Ok d) /\ (exists t, strength N s = Ok t) /\
  (is_directed s = true -> (exists o, out_degree N s = Ok o) /\ (exists i, in_degree N s = Ok i) /\
     (exists o, out_strength N s = Ok o) /\ (exists i, in_strength N s = Ok i)).
Proof.
  intros N s Hl. unfold num_edges, total_weight, degree, strength, out_degree, in_degree, out_strength, in_strength.
  destruct (adjacency_ok N s true true Hl) as [A1 E1]. destruct (adjacency_ok N s true false Hl) as [A2 E2].
  destruct (adjacency_ok N s false true Hl) as [A3 E3]. destruct (adjacency_ok N s false false Hl) as [A4 E4].
  rewrite E1, E2, E3, E4. cbn [bind]. repeat split; try (destruct (is_directed s); eexists; reflexivity); try (eexists; reflexivity);
  rewrite H; eexists; reflexivity.
Qed.
Print Assumptions C09_defined.

Theorem C09_directed : forall w N s gr m d o i, library_graph w N s gr -> is_directed s = true ->
  num_edges N s = Ok m -> degree N s = Ok d -> out_degree N s = Ok o -> in_degree N s = Ok i ->
  sumn N o = m /\ sumn N i = m /\ m = sumn N (fun x => sumn N (fun y => present (link s x y))) /\
  forall v, (v < N)%nat -> o v <= d v /\ i v <= d v /\ d v <= o v + i v.
Proof.
  intros w N s gr m d o i HG Hd Hm Hdeg Ho Hi. apply library_valid in HG.
  unfold num_edges in Hm. unfold out_degree, guard in Ho. unfold in_degree, guard in Hi. unfold degree in Hdeg. rewrite Hd in Hm, Ho, Hi.
  destruct (adjacency_matrix N s true false) as [A|] eqn:EA; [|discriminate]. cbn [bind] in *.
  destruct (adjacency_matrix N s false false) as [B|] eqn:EB; [|discriminate]. cbn [bind] in *.
  injection Hm as <-. injection Ho as <-. injection Hi as <-. injection Hdeg as <-.
  assert (V : forall x y, view w (is_directed s) (link s) true false x y = present (link s x y)).
  { intros x y. rewrite Hd. reflexivity. }
  assert (E : sum_all N A = sumn N (fun x => sumn N (fun y => present (link s x y)))).
  { rewrite (all_view w N s HG _ _ _ EA). apply sumn_ext. intros x _. apply sumn_ext. intros y _. apply V. }
  split; [|split; [|split; [exact E|]]].
  - rewrite E. apply sumn_ext. intros x Hx. rewrite (axis1_view w N s HG _ _ _ EA x Hx). apply sumn_ext. intros y _. apply V.
  - rewrite E, sumn_swap. apply sumn_ext. intros x Hx. rewrite (axis0_view w N s HG _ _ _ EA x Hx). apply sumn_ext. intros y _. apply V.
  - intros v Hv. rewrite (axis1_view w N s HG _ _ _ EA v Hv), (axis0_view w N s HG _ _ _ EA v Hv), (axis0_view w N s HG _ _ _ EB v Hv).
    rewrite <- sumn_plus.
    assert (B3 : forall y, (y < N)%nat -> present (link s v y) <= neighbours (link s) y v /\ present (link s y v) <= neighbours (link s) y v /\
        neighbours (link s) y v <= present (link s v y) + present (link s y v)).
    { intros y Hy. rewrite neighbours_sym. apply neighbours_bounds; eapply link_nonneg; eassumption. }
    split; [|split]; apply sumn_le; intros y Hy; specialize (B3 y Hy); rewrite ?V; unfold view; cbn [andb]; tauto.
Qed.
Print Assumptions C09_directed.

Theorem C09_undirected : forall w N s gr m d, library_graph w N s gr -> is_directed s = false ->
  num_edges N s = Ok m -> degree N s = Ok d ->
  sumn N d = 2 * m - sumn N (fun v => present (link s v v)).
Proof.
  intros w N s gr m d HG Hd Hm Hdeg. apply library_valid in HG. unfold num_edges in Hm. unfold degree in Hdeg. rewrite Hd in Hm.
  destruct (adjacency_matrix N s false false) as [A|] eqn:EA; [|discriminate]. cbn [bind] in *. injection Hm as <-. injection Hdeg as <-.
  unfold halved. rewrite (all_view w N s HG _ _ _ EA), (diag_view w N s HG _ _ _ EA).
  assert (D : sumn N (fun i => view w (is_directed s) (link s) false false i i) = sumn N (fun v => present (link s v v))).
  { apply sumn_ext. intros v _. unfold view, neighbours, both_ways. cbn [andb]. rewrite Nat.eqb_refl. reflexivity. }
  rewrite D. rewrite (sumn_ext _ (sum_axis0 N A) (fun x => sumn N (fun y => view w (is_directed s) (link s) false false y x))).
  2:{ intros x Hx. apply (axis0_view w N s HG _ _ _ EA x Hx). }
  rewrite sumn_swap. lra.
Qed.
Print Assumptions C09_undirected.

Example C09_case : exists s gr m o, library_graph true 3 s gr /\ num_edges 3 s = Ok m /\ out_degree 3 s = Ok o /\ is_directed s = true.
Proof.
  destruct ex_library as [A [L [b [lab [_ [G2 _]]]]]]. exists (SDiGraph A), (grouping_of b).
  destruct (C09_defined 3 (SDiGraph A)) as [[m Hm] [_ [_ [_ C]]]]; [discriminate|]. destruct (C eq_refl) as [[o Ho] _].
  exists m, o. auto.
Qed.

(** * C10: strengths *)

Theorem C10_directed : forall (ID G Lb : Type) leb_id leb_g leb_l grouped sl dl (v : list (ID * G)) (e : list (erow ID Lb)) b s t o i,
  total_order leb_id -> total_order leb_g -> total_order leb_l ->
  graph_of leb_id leb_g leb_l grouped sl dl true v e b s -> is_directed s = true ->
  total_weight (b_n b) s = Ok t -> out_strength (b_n b) s = Ok o -> in_strength (b_n b) s = Ok i ->
  sumn (b_n b) o = t /\ sumn (b_n b) i = t /\ t = suml r_weight e.
Proof.
  intros ID G Lb leb_id leb_g leb_l grouped sl dl v e b s t o i Oi Og Ol HG Hd Ht Ho Hi.
  pose proof (link_total leb_id leb_g leb_l Oi Og Ol _ _ _ _ _ _ _ HG) as LT.
  apply built_tables in HG as [_ HG]; [|assumption|assumption|assumption]. set (N := b_n b) in *.
  unfold total_weight in Ht. unfold out_strength, guard in Ho. unfold in_strength, guard in Hi. rewrite Hd in Ht, Ho, Hi.
  destruct (adjacency_matrix N s true true) as [A|] eqn:EA; [|discriminate]. cbn [bind] in *.
  injection Ht as <-. injection Ho as <-. injection Hi as <-.
  assert (V : forall x y, view true (is_directed s) (link s) true true x y = link s x y).
  { intros x y. rewrite Hd. reflexivity. }
  assert (E : sum_all N A = suml r_weight e).
  { rewrite <- LT, (all_view true N s HG _ _ _ EA). apply sumn_ext. intros x _. apply sumn_ext. intros y _. apply V. }
  split; [|split; [|exact E]].
  - rewrite E, <- LT. apply sumn_ext. intros x Hx. rewrite (axis1_view true N s HG _ _ _ EA x Hx). apply sumn_ext. intros y _. apply V.
  - rewrite E, <- LT, sumn_swap. apply sumn_ext. intros x Hx. rewrite (axis0_view true N s HG _ _ _ EA x Hx). apply sumn_ext. intros y _. apply V.
Qed.
Print Assumptions C10_directed.

Theorem C10_undirected : forall (ID G Lb : Type) leb_id leb_g leb_l grouped sl dl (v : list (ID * G)) (e : list (erow ID Lb)) b s t q,
  total_order leb_id -> total_order leb_g -> total_order leb_l ->
  graph_of leb_id leb_g leb_l grouped sl dl true v e b s ->
  strength (b_n b) s = Ok q -> total_weight (b_n b) s = Ok t ->
  t = suml r_weight e /\ sumn (b_n b) q = 2 * t - sumn (b_n b) (fun x => link s x x).
Proof.
  intros ID G Lb leb_id leb_g leb_l grouped sl dl v e b s t q Oi Og Ol HG Hq Ht.
  pose proof (link_total leb_id leb_g leb_l Oi Og Ol _ _ _ _ _ _ _ HG) as LT.
  apply built_tables in HG as [_ HG]; [|assumption|assumption|assumption]. set (N := b_n b) in *.
  unfold strength in Hq. unfold total_weight in Ht.
  destruct (adjacency_matrix N s false true) as [A|] eqn:EA; [|discriminate]. cbn [bind] in *. injection Hq as <-.
  pose proof (both_ways_total N (link s)) as BT.
  assert (T : t = suml r_weight e).
  { destruct (is_directed s) eqn:Hd.
    - destruct (adjacency_matrix N s true true) as [B|] eqn:EB; [|discriminate]. cbn [bind] in Ht. injection Ht as <-.
      rewrite <- LT, (all_view true N s HG _ _ _ EB). rewrite Hd. reflexivity.
    - injection Ht as <-. unfold halved. rewrite (all_view true N s HG _ _ _ EA), (diag_view true N s HG _ _ _ EA).
      unfold view. cbn [andb]. rewrite <- LT.
      rewrite (sumn_ext N (fun i => both_ways (link s) i i) (fun i => link s i i)) by (intros i _; unfold both_ways; rewrite Nat.eqb_refl; reflexivity).
      rewrite BT. lra. }
  split; [exact T|]. rewrite T, <- LT, <- BT.
  rewrite (sumn_ext N (sum_axis1 A) (fun i => sumn N (fun j => both_ways (link s) i j))); [lra|].
  intros i Hi. rewrite (axis1_view true N s HG _ _ _ EA i Hi). reflexivity.
Qed.
Print Assumptions C10_undirected.

Example C10_case : exists s gr t, library_graph true 3 s gr /\ total_weight 3 s = Ok t /\ t = 19/2.
Proof.
  destruct ex_library as [A [L [b [lab [_ [G2 [_ [_ [H _]]]]]]]]]. exists (SDiGraph A), (grouping_of b).
  destruct (C09_defined 3 (SDiGraph A)) as [_ [[t Ht] [_ [[q Hq] _]]]]; [discriminate|]. exists t. split; [exact G2|]. split; [exact Ht|].
  assert (N : b_n b = 3%nat).
  { apply simple_pieces in H as [H _]. apply (read_tables_ok _ _ nat_order nat_order) in H as [_ [_ [_ [-> _]]]]. reflexivity. }
  destruct (C10_undirected nat nat nat Nat.leb Nat.leb Nat.leb true false false ex_v ex_e b (SDiGraph A) t q nat_order nat_order nat_order) as [-> _].
  - apply of_digraph, H.
  - rewrite N. exact Hq.
  - rewrite N. exact Ht.
  - cbn. lra.
Qed.

(** * C11: groups *)

Theorem C11_degree : forall w N s M g B d, library_graph w N s (Some (M, g)) ->
  degree_by_group N s (Some (M, g)) = Ok B -> degree N s = Ok d -> forall i, (i < N)%nat ->
  (forall k, (k < M)%nat -> entry (sp_row B i) k = sumn N (fun j => if Nat.eqb (g j) k then neighbours (link s) i j else 0)) /\
  sumn M (fun k => entry (sp_row B i) k) = d i.
Proof.
  intros w N s M g B d HG HB Hd i Hi. pose proof (library_groups _ _ _ _ _ HG) as Hg. apply library_valid in HG.
  unfold degree_by_group in HB. unfold degree in Hd.
  destruct (adjacency_matrix N s false false) as [A|] eqn:EA; [|discriminate]. cbn [bind] in *. injection Hd as <-.
  destruct (adjacency_spec w N s false false A HG EA) as [WA VA].
  assert (E : forall k, (k < M)%nat -> entry (sp_row B i) k = sumn N (fun j => if Nat.eqb (g j) k then neighbours (link s) i j else 0)).
  { intros k Hk. rewrite (by_group_entry N A M g to_int64 B WA HB) by (first [assumption | right; split; [reflexivity | eapply adjacency_bool; eassumption]]).
    apply sumn_ext. intros j Hj. rewrite VA by assumption. reflexivity. }
  split; [exact E|]. rewrite (sumn_ext M (fun k => entry (sp_row B i) k) _ E), group_partition by exact Hg.
  rewrite (axis0_view w N s HG _ _ _ EA i Hi). apply sumn_ext. intros j _. unfold view. cbn [andb]. apply neighbours_sym.
Qed.
Print Assumptions C11_degree.

Theorem C11_strength : forall N s M g B d, library_graph true N s (Some (M, g)) ->
  strength_by_group N s (Some (M, g)) = Ok B -> strength N s = Ok d -> forall i, (i < N)%nat ->
  (forall k, (k < M)%nat -> entry (sp_row B i) k = sumn N (fun j => if Nat.eqb (g j) k then both_ways (link s) i j else 0)) /\
  sumn M (fun k => entry (sp_row B i) k) = d i.
Proof.
  intros N s M g B d HG HB Hd i Hi. pose proof (library_groups _ _ _ _ _ HG) as Hg. apply library_valid in HG.
  unfold strength_by_group in HB. unfold strength in Hd.
  destruct (adjacency_matrix N s false true) as [A|] eqn:EA; [|discriminate]. cbn [bind] in *. injection Hd as <-.
  destruct (adjacency_spec true N s false true A HG EA) as [WA VA].
  assert (E : forall k, (k < M)%nat -> entry (sp_row B i) k = sumn N (fun j => if Nat.eqb (g j) k then both_ways (link s) i j else 0)).
  { intros k Hk. rewrite (by_group_entry N A M g to_float64 B WA HB) by auto.
    apply sumn_ext. intros j Hj. rewrite VA by assumption. reflexivity. }
  split; [exact E|]. rewrite (sumn_ext M (fun k => entry (sp_row B i) k) _ E), group_partition by exact Hg.
  rewrite (axis1_view true N s HG _ _ _ EA i Hi). reflexivity.
Qed.
Print Assumptions C11_strength.

Theorem C11_out_in_degree : forall w N s M g Bo Bi o n, library_graph w N s (Some (M, g)) ->
  out_degree_by_group N s (Some (M, g)) = Ok Bo -> in_degree_by_group N s (Some (M, g)) = Ok Bi ->
  out_degree N s = Ok o -> in_degree N s = Ok n -> forall i, (i < N)%nat ->
  (forall k, (k < M)%nat ->
     entry (sp_row Bo i) k = sumn N (fun j => if Nat.eqb (g j) k then present (link s i j) else 0) /\
     entry (sp_row Bi i) k = sumn N (fun j => if Nat.eqb (g j) k then present (link s j i) else 0)) /\
  sumn M (fun k => entry (sp_row Bo i) k) = o i /\ sumn M (fun k => entry (sp_row Bi i) k) = n i.
Proof.
  intros w N s M g Bo Bi o n HG HBo HBi Ho Hn i Hi. pose proof (library_groups _ _ _ _ _ HG) as Hg. apply library_valid in HG.
  unfold out_degree_by_group, guard in HBo. unfold in_degree_by_group, guard in HBi. unfold out_degree, guard in Ho. unfold in_degree, guard in Hn.
  destruct (is_directed s) eqn:Hd; [|discriminate].
  destruct (adjacency_matrix N s true false) as [A|] eqn:EA; [|discriminate]. cbn [bind] in *. injection Ho as <-. injection Hn as <-.
  destruct (adjacency_spec w N s true false A HG EA) as [WA VA]. rewrite Hd in VA.
  pose proof (adjacency_bool _ _ _ _ _ HG EA) as Hb.
  assert (Eo : forall k, (k < M)%nat -> entry (sp_row Bo i) k = sumn N (fun j => if Nat.eqb (g j) k then present (link s i j) else 0)).
  { intros k Hk. rewrite (by_group_entry N A M g to_int64 Bo WA HBo) by auto.
    apply sumn_ext. intros j Hj. rewrite VA by assumption. reflexivity. }
  assert (Ei : forall k, (k < M)%nat -> entry (sp_row Bi i) k = sumn N (fun j => if Nat.eqb (g j) k then present (link s j i) else 0)).
  { intros k Hk. rewrite (by_group_entry N (sp_T N A) M g to_int64 Bi (T_wf N A WA) HBi) by auto.
    apply sumn_ext. intros j Hj. rewrite T_entry, VA by assumption. reflexivity. }
  split; [auto|]. rewrite (sumn_ext M (fun k => entry (sp_row Bo i) k) _ Eo), (sumn_ext M (fun k => entry (sp_row Bi i) k) _ Ei), !group_partition by exact Hg.
  rewrite (axis1_view w N s HG _ _ _ EA i Hi), (axis0_view w N s HG _ _ _ EA i Hi), Hd. split; reflexivity.
Qed.
Print Assumptions C11_out_in_degree.

Theorem C11_out_in_strength : forall N s M g Bo Bi o n, library_graph true N s (Some (M, g)) ->
  out_strength_by_group N s (Some (M, g)) = Ok Bo -> in_strength_by_group N s (Some (M, g)) = Ok Bi ->
  out_strength N s = Ok o -> in_strength N s = Ok n -> forall i, (i < N)%nat ->
  (forall k, (k < M)%nat ->
     entry (sp_row Bo i) k = sumn N (fun j => if Nat.eqb (g j) k then link s i j else 0) /\
     entry (sp_row Bi i) k = sumn N (fun j => if Nat.eqb (g j) k then link s j i else 0)) /\
  sumn M (fun k => entry (sp_row Bo i) k) = o i /\ sumn M (fun k => entry (sp_row Bi i) k) = n i.
Proof.
  intros N s M g Bo Bi o n HG HBo HBi Ho Hn i Hi. pose proof (library_groups _ _ _ _ _ HG) as Hg. apply library_valid in HG.
  unfold out_strength_by_group, guard in HBo. unfold in_strength_by_group, guard in HBi. unfold out_strength, guard in Ho. unfold in_strength, guard in Hn.
  destruct (is_directed s) eqn:Hd; [|discriminate].
  destruct (adjacency_matrix N s true true) as [A|] eqn:EA; [|discriminate]. cbn [bind] in *. injection Ho as <-. injection Hn as <-.
  destruct (adjacency_spec true N s true true A HG EA) as [WA VA]. rewrite Hd in VA.
  assert (Eo : forall k, (k < M)%nat -> entry (sp_row Bo i) k = sumn N (fun j => if Nat.eqb (g j) k then link s i j else 0)).
  { intros k Hk. rewrite (by_group_entry N A M g to_float64 Bo WA HBo) by auto.
    apply sumn_ext. intros j Hj. rewrite VA by assumption. reflexivity. }
  assert (Ei : forall k, (k < M)%nat -> entry (sp_row Bi i) k = sumn N (fun j => if Nat.eqb (g j) k then link s j i else 0)).
  { intros k Hk. rewrite (by_group_entry N (sp_T N A) M g to_float64 Bi (T_wf N A WA) HBi) by auto.
    apply sumn_ext. intros j Hj. rewrite T_entry, VA by assumption. reflexivity. }
  split; [auto|]. rewrite (sumn_ext M (fun k => entry (sp_row Bo i) k) _ Eo), (sumn_ext M (fun k => entry (sp_row Bi i) k) _ Ei), !group_partition by exact Hg.
  rewrite (axis1_view true N s HG _ _ _ EA i Hi), (axis0_view true N s HG _ _ _ EA i Hi), Hd. split; reflexivity.
Qed.
Print Assumptions C11_out_in_strength.

Example C11_case : exists s M g B o, library_graph true 3 s (Some (M, g)) /\ out_strength_by_group 3 s (Some (M, g)) = Ok B /\
  out_strength 3 s = Ok o /\ M = 2%nat.
Proof.
  destruct ex_library as [A [L [b [lab [_ [G2 [_ [_ [H _]]]]]]]]].
  pose proof (C04_case) as [b' [names [Hb [Hg _]]]]. apply simple_pieces in H as [H _]. rewrite Hb in H. injection H as ->.
  exists (SDiGraph A), (length names), (fun i => nth i [0; 1; 1]%nat 0%nat). eexists _, _.
  assert (E : grouping_of b = Some (length names, fun i => nth i [0; 1; 1]%nat 0%nat)) by (unfold grouping_of; rewrite Hg; reflexivity).
  rewrite <- E. split; [exact G2|]. rewrite E. split; [reflexivity|]. split; [reflexivity|].
  destruct (read_tables_ok _ _ nat_order nat_order _ _ _ _ _ _ _ Hb) as [_ [_ [_ [_ [[gd [ga [Eg [[_ [_ [E3 [E4 _]]]] [_ Hga]]]]] _]]]]].
  rewrite Eg in Hg. injection Hg as -> ->.
  destruct (Hga (30, 7)%nat) as [k1 [G1 N1]]; [cbn; tauto|]. destruct (Hga (10, 5)%nat) as [k2 [G2' N2]]; [cbn; tauto|].
  destruct (Nat.lt_ge_cases (length names) 2) as [C|C].
  - destruct (read_tables_ok _ _ nat_order nat_order _ _ _ _ _ _ _ Hb) as [_ [_ [_ [_ [[gd' [ga' [Eg' [[_ [F2 _]] _]]]] _]]]]].
    rewrite Eg in Eg'. injection Eg' as <- <-. pose proof (F2 _ _ G1). pose proof (F2 _ _ G2').
    assert (k1 = k2) by lia. subst. discriminate (E4 _ _ _ G1 G2').
  - destruct (Nat.eq_dec (length names) 2) as [|C']; [assumption|].
    destruct (E3 0%nat) as [x0 [I0 X0]]; [lia|]. destruct (E3 1%nat) as [x1 [I1 X1]]; [lia|]. destruct (E3 2%nat) as [x2 [I2 X2]]; [lia|].
    cbn in I0, I1, I2. assert (x0 <> x1) by congruence. assert (x0 <> x2) by congruence. assert (x1 <> x2) by congruence. intuition lia.
Qed.

(** * C13: labels *)

(** For weighted graphs the strengths and total weights by label add up to the plain ones. *)
Theorem C13_strength : forall N s gr S q, library_graph true N s gr ->
  strength_by_label N s = Ok S -> strength N s = Ok q -> forall i, (i < N)%nat -> suml (fun f => f i) S = q i.
Proof.
  intros N s gr S q HG HS Hq i Hi. pose proof (library_valid _ _ _ _ HG) as HV. unfold strength in Hq.
  destruct (adjacency_matrix N s false true) as [A|] eqn:EA; [|discriminate]. cbn [bind] in Hq. injection Hq as <-.
  rewrite (axis1_view true N s HV _ _ _ EA i Hi). unfold valid in HV.
  destruct s as [X|X|L|L]; cbn [strength_by_label] in HS; try discriminate; injection HS as <-; cbn [layers] in HV;
  (rewrite ?multigraph_tensor_map, ?multidigraph_tensor_map, !suml_map;
   transitivity (suml (fun A => sumn N (fun j => view true false (fun i j => W A i j) false true i j)) L);
   [ apply suml_ext; intros B HB; rewrite Forall_forall in HV; destruct (HV B HB) as [WB BB];
     rewrite (axis1_sum N); [|exact (symmetrize_wf N B WB)|exact Hi]; apply sumn_ext; intros j Hj;
     apply (layer_view true N B false true i j WB BB Hi Hj)
   | rewrite suml_sumn_swap; apply sumn_ext; intros j Hj;
     destruct (view_union true false N L false true i j HV Hi Hj) as [E _]; rewrite E by reflexivity; reflexivity ]).
Qed.
Print Assumptions C13_strength.

Theorem C13_out_in_strength : forall N s gr So Si o n, library_graph true N s gr ->
  out_strength_by_label N s = Ok So -> in_strength_by_label N s = Ok Si ->
  out_strength N s = Ok o -> in_strength N s = Ok n -> forall i, (i < N)%nat ->
  suml (fun f => f i) So = o i /\ suml (fun f => f i) Si = n i.
Proof.
  intros N s gr So Si o n HG HSo HSi Ho Hn i Hi. pose proof (library_valid _ _ _ _ HG) as HV.
  destruct s as [X|X|L|L]; cbn [out_strength_by_label in_strength_by_label] in *; try discriminate. injection HSo as <-. injection HSi as <-.
  unfold out_strength, in_strength, guard in *. cbn [is_directed] in *.
  destruct (adjacency_matrix N (SMultiDiGraph L) true true) as [A|] eqn:EA; [|discriminate]. cbn [bind] in *. injection Ho as <-. injection Hn as <-.
  rewrite (axis1_view true N _ HV _ _ _ EA i Hi), (axis0_view true N _ HV _ _ _ EA i Hi).
  rewrite !multidigraph_tensor_map, !suml_map. unfold view, digraph_adjacency. cbn [andb is_directed link].
  unfold valid in HV. cbn [layers] in HV. rewrite Forall_forall in HV. split.
  - rewrite <- suml_sumn_swap. apply suml_ext. intros B HB. apply axis1_sum; [apply HV, HB | exact Hi].
  - rewrite <- suml_sumn_swap. apply suml_ext. intros B HB. apply axis0_sum.
Qed.
Print Assumptions C13_out_in_strength.

Theorem C13_total_weight : forall N s gr T t, library_graph true N s gr ->
  total_weight_label N s = Ok T -> total_weight N s = Ok t -> suml (fun x => x) T = t.
Proof.
  intros N s gr T t HG HT Ht. pose proof (library_valid _ _ _ _ HG) as HV.
  pose proof HV as HV'. unfold valid in HV'. unfold total_weight in Ht.
  destruct s as [X|X|L|L]; cbn [total_weight_label is_directed layers] in *; try discriminate; injection HT as <-.
  - destruct (adjacency_matrix N (SMultiGraph L) false true) as [A|] eqn:EA; [|discriminate]. cbn [bind] in Ht. injection Ht as <-.
    unfold halved. rewrite (all_view true N _ HV _ _ _ EA), (diag_view true N _ HV _ _ _ EA).
    rewrite multigraph_tensor_map, !suml_map. rewrite Forall_forall in HV'.
    rewrite (suml_ext _ _ (fun A => sumn N (fun i => sumn N (fun j => W A i j)))).
    2:{ intros B HB. destruct (HV' B HB) as [WB BB].
        pose proof (both_ways_total N (fun i j => W B i j)) as BT.
        assert (WS : wf N (graph_adjacency N B false true)) by exact (symmetrize_wf N B WB).
        rewrite (all_sum N _ WS), vec_sum_eq.
        rewrite (sumn_ext N (sp_diagonal _) (fun i => W B i i)).
        2:{ intros i Hi. unfold sp_diagonal. rewrite (wf_get N _ WS) by exact Hi. rewrite (proj2 (layer_view true N B false true i i WB BB Hi Hi)).
            unfold view, both_ways. cbn [andb]. rewrite Nat.eqb_refl. reflexivity. }
        rewrite (sumn_ext N (fun i => sumn N (fun j => W (graph_adjacency N B false true) i j)) (fun i => sumn N (fun j => both_ways (fun i j => W B i j) i j))).
        2:{ intros i Hi. apply sumn_ext. intros j Hj. apply (layer_view true N B false true i j WB BB Hi Hj). }
        rewrite BT. field. }
    pose proof (both_ways_total N (link (SMultiGraph L))) as BT.
    unfold view. cbn [andb].
    rewrite (sumn_ext N (fun i => both_ways (link (SMultiGraph L)) i i) (fun i => link (SMultiGraph L) i i)) by (intros i _; unfold both_ways; rewrite Nat.eqb_refl; reflexivity).
    rewrite BT. rewrite suml_sumn_swap.
    rewrite (sumn_ext N _ (fun i => sumn N (fun j => link (SMultiGraph L) i j))); [field|].
    intros i Hi. apply suml_sumn_swap.
  - destruct (adjacency_matrix N (SMultiDiGraph L) true true) as [A|] eqn:EA; [|discriminate]. cbn [bind] in Ht. injection Ht as <-.
    rewrite (all_view true N _ HV _ _ _ EA), multidigraph_tensor_map, !suml_map. unfold view, digraph_adjacency. cbn [andb is_directed link].
    rewrite Forall_forall in HV'.
    rewrite (suml_ext _ _ (fun A => sumn N (fun i => sumn N (fun j => W A i j)))) by (intros B HB; apply all_sum, HV', HB).
    rewrite suml_sumn_swap. apply sumn_ext. intros i Hi. apply suml_sumn_swap.
Qed.
Print Assumptions C13_total_weight.

Theorem C13_num_edges : forall w N s gr E m, library_graph w N s gr ->
  num_edges_label N s = Ok E -> num_edges N s = Ok m -> m <= suml (fun x => x) E.
Proof.
  intros w N s gr E m HG HE Hm. pose proof (library_valid _ _ _ _ HG) as HV.
  pose proof HV as HV'. unfold valid in HV'. unfold num_edges in Hm.
  destruct s as [X|X|L|L]; cbn [num_edges_label is_directed layers] in *; try discriminate; injection HE as <-.
  - destruct (adjacency_matrix N (SMultiGraph L) false false) as [A|] eqn:EA; [|discriminate]. cbn [bind] in Hm. injection Hm as <-.
    unfold halved. rewrite (all_view w N _ HV _ _ _ EA), (diag_view w N _ HV _ _ _ EA).
    rewrite multigraph_tensor_map, !suml_map. rewrite Forall_forall in HV'.
    rewrite (suml_ext _ _ (fun A => (sumn N (fun i => sumn N (fun j => neighbours (fun i j => W A i j) i j)) + sumn N (fun i => neighbours (fun i j => W A i j) i i)) * / 2)).
    2:{ intros B HB. destruct (HV' B HB) as [WB BB].
        assert (WS : wf N (graph_adjacency N B false false)) by exact (either_way_wf N B WB).
        rewrite (nnz_sum N _ WS), vec_sum_eq. unfold Rdiv. f_equal. f_equal.
        - apply sumn_ext. intros i Hi. apply sumn_ext. intros j Hj. rewrite (proj2 (layer_view w N B false false i j WB BB Hi Hj)).
          unfold view. cbn [andb]. apply present_idem.
        - apply sumn_ext. intros i Hi. unfold sp_diagonal. rewrite (wf_get N _ WS) by exact Hi.
          rewrite (proj2 (layer_view w N B false false i i WB BB Hi Hi)). reflexivity. }
    rewrite suml_scal_r. unfold Rdiv. apply Rmult_le_compat_r; [lra|]. rewrite suml_plus. unfold view. cbn [andb].
    assert (P : forall i j, neighbours (link (SMultiGraph L)) i j <= suml (fun A => neighbours (fun i j => W A i j) i j) L).
    { intros i j. unfold neighbours. change (link (SMultiGraph L)) with (fun i j => suml (fun A : spm => W A i j) L). rewrite <- both_ways_sum. apply present_suml_le. }
    apply Rplus_le_compat.
    + rewrite suml_sumn_swap. apply sumn_le. intros i Hi. rewrite suml_sumn_swap. apply sumn_le. intros j Hj. apply P.
    + rewrite suml_sumn_swap. apply sumn_le. intros i Hi. apply P.
  - destruct (adjacency_matrix N (SMultiDiGraph L) true false) as [A|] eqn:EA; [|discriminate]. cbn [bind] in Hm. injection Hm as <-.
    rewrite (all_view w N _ HV _ _ _ EA), multidigraph_tensor_map, !suml_map. rewrite Forall_forall in HV'.
    rewrite (suml_ext _ _ (fun A => sumn N (fun i => sumn N (fun j => present (W A i j))))).
    2:{ intros B HB. destruct (HV' B HB) as [WB BB]. change (digraph_adjacency N B true false) with (sp_nonzero B).
        rewrite (nnz_sum N _ (nonzero_wf N B WB)). apply sumn_ext. intros i Hi. apply sumn_ext. intros j Hj.
        rewrite (nonzero_entry N) by assumption. apply present_idem. }
    unfold view. cbn [andb is_directed link].
    rewrite suml_sumn_swap. apply sumn_le. intros i Hi. rewrite suml_sumn_swap. apply sumn_le. intros j Hj. apply present_suml_le.
Qed.
Print Assumptions C13_num_edges.

Example C13_case : exists s gr S q T, library_graph true 3 s gr /\ strength_by_label 3 s = Ok S /\ strength 3 s = Ok q /\
  total_weight_label 3 s = Ok T /\ length T = 2%nat.
Proof.
  destruct ex_library as [A [L [b [lab [_ [_ [G3 [_ [_ H]]]]]]]]]. exists (SMultiGraph L), (grouping_of b).
  assert (LL : length L = 2%nat).
  { destruct (build_multigraph Nat.leb Nat.leb Nat.leb nat_order nat_order nat_order true false true ex_v ex_e ex_nodup (ex_rows true)) as [gr [_ H']].
    rewrite H' in H. injection H as _ _ <-. reflexivity. }
  destruct (C09_defined 3 (SMultiGraph L)) as [_ [_ [_ [[q Hq] _]]]]; [destruct L; discriminate|].
  eexists _, q, _. split; [exact G3|]. split; [reflexivity|]. split; [exact Hq|]. split; [reflexivity|].
  rewrite map_length, multigraph_tensor_map, map_length. exact LL.
Qed.

(** For unweighted multi graphs the flattened matrix is the disjunction of the label matrices: the
    label-resolved strengths and total weights add up to more than the plain ones. *)
Theorem C13_unweighted_refuted : exists s gr S q T t, library_graph false 2 s gr /\
  strength_by_label 2 s = Ok S /\ strength 2 s = Ok q /\ suml (fun f => f 0%nat) S = 2 /\ q 0%nat = 1 /\
  total_weight_label 2 s = Ok T /\ total_weight 2 s = Ok t /\ suml (fun x => x) T = 2 /\ t = 1.
Proof.
  set (v := [(0, 0); (1, 0)]%nat). set (e := [mkRow 0%nat 1%nat 1 0%nat; mkRow 0%nat 1%nat 1 1%nat]).
  assert (HN : NoDup (map fst v)) by (repeat (constructor; [cbn; intuition lia|]); constructor).
  assert (HE : forall r, In r e -> In (r_src r) (map fst v) /\ In (r_dst r) (map fst v) /\ (false = true -> 0 < r_weight r)).
  { intros r [<-|[<-|[]]]; cbn; (split; [lia|]; split; [lia|]; discriminate). }
  destruct (build_multigraph Nat.leb Nat.leb Nat.leb nat_order nat_order nat_order false false false v e HN HE) as [gr [_ H]]. cbv zeta in H.
  pose proof (of_multigraph Nat.leb Nat.leb Nat.leb false false false false v e _ _ _ H) as HG.
  assert (G : library_graph false 2 (SMultiGraph [coo_tocsr true 2 [(0%nat, 1%nat, 1)]; coo_tocsr true 2 [(0%nat, 1%nat, 1)]]) None).
  { eapply (built _ _ _ _ nat nat nat Nat.leb Nat.leb Nat.leb false false false v e); [exact nat_order|exact nat_order|exact nat_order|exact HG|reflexivity|].
    destruct (build Nat.leb Nat.leb nat_order nat_order false false false v e HN HE) as [gr' [H' ->]].
    unfold sparse_multigraph in H. rewrite H' in H. cbn [bind] in H. injection H as <-. reflexivity. }
  set (A := coo_tocsr true 2 [(0%nat, 1%nat, 1)]) in *. pose proof (library_valid _ _ _ _ G) as HV.
  assert (WA : wf 2 A). { unfold valid in HV. apply Forall_inv in HV. apply HV. }
  assert (E : forall i j, (i < 2)%nat -> (j < 2)%nat -> W A i j = if Nat.eqb i 0 && Nat.eqb j 1 then 1 else 0).
  { intros i j Hi Hj. unfold A. rewrite coo_bool_entry by exact Hj. destruct i as [|[|i]]; destruct j as [|[|j]]; try lia; reflexivity. }
  assert (ES : forall i j, (i < 2)%nat -> (j < 2)%nat -> W (symmetrize 2 A) i j = if Nat.eqb i j then 0 else 1).
  { intros i j Hi Hj. rewrite symmetrize_entry by assumption. cbn [sp_bool A coo_tocsr]. rewrite !E by assumption.
    destruct i as [|[|i]]; destruct j as [|[|j]]; try lia; cbn; [reflexivity|rewrite Rplus_0_r; apply present_pos; lra|rewrite Rplus_0_l; apply present_pos; lra|reflexivity]. }
  assert (WS : wf 2 (symmetrize 2 A)) by (apply symmetrize_wf, WA).
  exists (SMultiGraph [A; A]), None. eexists _, _, _, _. split; [exact G|]. split; [reflexivity|]. split; [reflexivity|].
  cbn [multigraph_tensor map suml].
  assert (F : valid false 2 (SMultiGraph [A; A])) by exact HV.
  split; [|split; [|split; [reflexivity|split; [reflexivity|split]]]].
  - rewrite (axis1_sum 2 _ WS) by lia. cbn [sumn]. rewrite !ES by lia. cbn. lra.
  - rewrite (axis1_view false 2 _ F false true _ eq_refl) by lia. unfold view, neighbours, both_ways, link. cbn [andb is_directed sumn Nat.eqb suml].
    rewrite !E by lia. cbn. rewrite present_pos by lra. lra.
  - cbn [multigraph_tensor map suml]. unfold halved. rewrite !(all_sum 2 _ WS), !vec_sum_eq. cbn [sumn]. unfold sp_diagonal.
    rewrite !(wf_get 2 _ WS), !ES by lia. cbn. lra.
  - unfold halved. rewrite (all_view false 2 _ F false true _ eq_refl), (diag_view false 2 _ F false true _ eq_refl).
    unfold view, neighbours, both_ways, link. cbn [andb is_directed sumn Nat.eqb suml]. rewrite !E by lia. cbn.
    rewrite !(present_pos (0 + (0 + 0) + _)), ?present_pos by lra. lra.
Qed.
Print Assumptions C13_unweighted_refuted.

(** * C14: the tensor *)

(** Summed over labels the tensor gives the weighted matrix, and its union gives the unweighted one. *)
Theorem C14_tensor : forall w N s gr d x A T, library_graph w N s gr -> adjacency_matrix N s d x = Ok A ->
  ((exists L, s = SMultiGraph L /\ T = multigraph_tensor N L d x) \/ (exists L, s = SMultiDiGraph L /\ T = multidigraph_tensor N L d x)) ->
  forall i j, (i < N)%nat -> (j < N)%nat ->
  (w = true -> x = true -> suml (fun B => entry (sp_row B i) j) T = entry (sp_row A i) j) /\
  (x = false -> present (suml (fun B => entry (sp_row B i) j) T) = entry (sp_row A i) j).
Proof.
  intros w N s gr d x A T HG EA HT i j Hi Hj. pose proof (library_valid _ _ _ _ HG) as HV.
  destruct (adjacency_spec w N s d x A HV EA) as [WA VA]. rewrite VA by assumption. unfold valid in HV.
  assert (P : forall c L, Forall (fun A => wf N A /\ sp_bool A = negb w) L ->
    let S := suml (fun A => view w c (fun i j => W A i j) d x i j) L in
    let V := view w c (fun i j => suml (fun A => W A i j) L) d x i j in
    (w = true -> x = true -> S = V) /\ (x = false -> present S = V)).
  { intros c L HL. destruct (view_union w c N L d x i j HL Hi Hj) as [U1 U2]. cbv zeta. split.
    - intros -> ->. apply U1. reflexivity.
    - intros ->. rewrite U2. unfold view, neighbours. destruct (d && c); cbn [andb]; apply present_idem. }
  destruct HT as [[L [-> ->]]|[L [-> ->]]]; cbn [layers] in HV; cbn [is_directed].
  - specialize (P false L HV). rewrite multigraph_tensor_map, suml_map.
    rewrite (suml_ext _ _ (fun A => view w false (fun i j => W A i j) d x i j)); [exact P|].
    intros B HB. rewrite Forall_forall in HV. destruct (HV B HB) as [WB BB]. apply (layer_view w N B d x i j WB BB Hi Hj).
  - specialize (P true L HV). rewrite multidigraph_tensor_map, suml_map.
    rewrite (suml_ext _ _ (fun A => view w true (fun i j => W A i j) d x i j)); [exact P|].
    intros B HB. rewrite Forall_forall in HV. destruct (HV B HB) as [WB BB]. apply (layer_view w N B d x i j WB BB Hi Hj).
Qed.
Print Assumptions C14_tensor.

Example C14_case : exists L gr A, library_graph true 3 (SMultiDiGraph L) gr /\ adjacency_matrix 3 (SMultiDiGraph L) false true = Ok A.
Proof.
  destruct ex_library as [A [L [b [lab [_ [_ [_ [G4 [_ H]]]]]]]]]. exists L, (grouping_of b).
  destruct (adjacency_ok 3 (SMultiDiGraph L) false true) as [B HB]; [|eauto].
  destruct (build_multigraph Nat.leb Nat.leb Nat.leb nat_order nat_order nat_order true false true ex_v ex_e ex_nodup (ex_rows true)) as [gr [_ H']].
  rewrite H' in H. injection H as _ _ <-. discriminate.
Qed.

(** * C16: nearest neighbours *)

(** Full property: for every vertex; here, when self-loops are excluded, for vertices without one. *)
Theorem C16_mean_partial : forall w N s gr prop ndir sl, library_graph w N s gr -> layers s <> [] ->
  (is_directed s = true -> ndir <> Dother) ->
  exists f, average_nn_property N s N prop ndir (Some sl) = Ok f /\
  forall i, (i < N)%nat -> (sl = true \/ link s i i = 0) ->
    f i = if Req_EM_T (nb_degree N sl (nbr s ndir) i) 0 then 0
          else nb_total N sl (nbr s ndir) prop i / nb_degree N sl (nbr s ndir) i.
Proof.
  intros w N s gr prop ndir sl HG Hl Hd. apply library_valid in HG.
  destruct (nn_property_val w N s prop ndir sl HG Hl Hd) as [f [Hf Vf]]. exists f. split; [exact Hf|]. intros i Hi Hs. rewrite Vf by exact Hi.
  assert (D : nb_degree N sl (nbr s ndir) i = sumn N (fun j => nbr s ndir i j)).
  { unfold nb_degree. apply sumn_ext. intros j Hj. unfold allowed. destruct (Nat.eqb_spec i j) as [<-|_]; [|reflexivity].
    destruct Hs as [->|Hs]; [reflexivity|]. destruct sl; [reflexivity|]. cbn [negb orb].
    unfold nbr, neighbours, both_ways. rewrite Nat.eqb_refl, Hs, present_0. destruct (is_directed s), ndir; reflexivity. }
  rewrite D. reflexivity.
Qed.
Print Assumptions C16_mean_partial.

Example C16_case : exists s gr f, library_graph true 3 s gr /\ average_nn_property 3 s 3 INR Dout (Some true) = Ok f /\
  (exists i, (i < 3)%nat /\ link s i i = 0).
Proof.
  destruct ex_library as [A [L [b [lab [_ [G2 [_ [_ [H _]]]]]]]]]. exists (SDiGraph A), (grouping_of b).
  destruct (C16_mean_partial true 3 (SDiGraph A) _ INR Dout true G2) as [f [Hf _]]; [discriminate|discriminate|].
  exists f. split; [exact G2|]. split; [exact Hf|]. exists 0%nat. split; [lia|].
  assert (T : dict_get Nat.leb (b_ids b) 10%nat = Some 0%nat).
  { apply simple_pieces in H as [H _]. destruct (build Nat.leb Nat.leb nat_order nat_order true false true ex_v ex_e ex_nodup (ex_rows true)) as [gr [H' _]].
    rewrite H' in H. injection H as <-. reflexivity. }
  destruct (C05_summed _ _ _ _ _ _ _ _ _ _ _ _ _ nat_order nat_order H _ _ _ _ T T) as [_ [V _]]. cbn [link]. rewrite V by reflexivity. reflexivity.
Qed.

(** A self-loop is left out of the sum but still counted in the degree: vertex 0, with a self-loop and
    one other neighbour, gets half of the property of that neighbour. *)
Theorem C16_selfloop_refuted : exists s gr f prop, library_graph true 2 s gr /\
  average_nn_property 2 s 2 prop Dout (Some false) = Ok f /\
  nb_degree 2 false (nbr s Dout) 0 = 1 /\ nb_total 2 false (nbr s Dout) prop 0 = 6 /\ f 0%nat = 3.
Proof.
  set (v := [(0, 0); (1, 0)]%nat). set (e := [mkRow 0%nat 0%nat 1 0%nat; mkRow 0%nat 1%nat 1 0%nat]).
  destruct (build_graph Nat.leb Nat.leb Nat.leb nat_order nat_order false false true v e) as [gr [_ [_ H]]].
  - repeat (constructor; [cbn; intuition lia|]). constructor.
  - intros r [<-|[<-|[]]]; cbn; (split; [lia|]; split; [lia|]; intros _; lra).
  - set (A := coo_tocsr (negb true) (length v) (inner Nat.leb (enum_of Nat.leb (map fst v)) true e)) in *.
    assert (G : library_graph true 2 (SDiGraph A) (grouping_of (mkBase (length v) (enum_of Nat.leb (map fst v)) gr true (inner Nat.leb (enum_of Nat.leb (map fst v)) true e)))).
    { eapply built; [exact nat_order|exact nat_order|exact nat_order|exact H|reflexivity|reflexivity]. }
    destruct (nn_property_val true 2 (SDiGraph A) (fun _ => 6) Dout false (library_valid _ _ _ _ G)) as [f [Hf Vf]]; [discriminate|discriminate|].
    eexists (SDiGraph A), _, f, (fun _ => 6). split; [exact G|]. split; [exact Hf|].
    assert (E0 : W A 0%nat 0%nat = 1) by (unfold A; cbn [negb]; rewrite coo_entry by (cbn; lia); cbn; lra).
    assert (E1 : W A 0%nat 1%nat = 1) by (unfold A; cbn [negb]; rewrite coo_entry by (cbn; lia); cbn; lra).
    assert (P0 : nbr (SDiGraph A) Dout 0 0 = 1) by (unfold nbr; cbn [is_directed link]; rewrite E0; apply present_pos; lra).
    assert (P1 : nbr (SDiGraph A) Dout 0 1 = 1) by (unfold nbr; cbn [is_directed link]; rewrite E1; apply present_pos; lra).
    unfold nb_degree, nb_total, allowed. rewrite Vf by lia. unfold nb_total, allowed. cbn [sumn Nat.eqb negb orb]. rewrite P0, P1.
    split; [lra|]. split; [lra|]. destruct (Req_EM_T (0 + 1 + 1) 0); lra.
Qed.
Print Assumptions C16_selfloop_refuted.

(** The documented default of the ensembles, [selfloops=None], does not exist for graphs. *)
Theorem C16_none : forall N s prop ndir, average_nn_property N s N prop ndir None = Raise AttributeError.
Proof. intros N s prop ndir. unfold average_nn_property, guard. rewrite Nat.eqb_refl. reflexivity. Qed.
Print Assumptions C16_none.
