(** Properties of dense graphs: C06, C07, C12, C15 and the dense side of C08 to C11, C13, C14 and C16. *)
From Verif Require Import Base Num Spec Ids Ensemble Lib IdFacts Graphs GraphFacts DenseGraphs DenseFacts PropTables PropGraph.

(** [dlink s i j] is the weight stored for the links from [i] to [j], summed over labels; C06 says what
    it is in terms of the tables. *)

(** * C06: parallel edges *)

(** Full property: the entry is the sum of the weights of all rows from x to y; see [C06_refuted].
    What holds: the entry is the weight of the last such row, hence the sum when there is at most one. *)
Theorem C06_last_partial : forall (ID G Lb : Type) leb_id leb_g grouped sl dl w (v : list (ID * G)) (e : list (erow ID Lb)) b D,
  total_order leb_id -> total_order leb_g ->
  dense_graph leb_id leb_g grouped sl dl w v e = Ok (b, D) ->
  forall x y i j, dict_get leb_id (b_ids b) x = Some i -> dict_get leb_id (b_ids b) y = Some j ->
  let between r := eq_key leb_id x (r_src r) && eq_key leb_id y (r_dst r) in
  (existsb between e = false -> D i j = 0) /\
  (forall e1 r e2, e = e1 ++ r :: e2 -> between r = true -> existsb between e2 = false -> D i j = if w then r_weight r else 1).
Proof.
  intros ID G Lb li lg grouped sl dl w v e b D Oi Og H x y i j Hx Hy. cbv zeta.
  exact (dense_last li lg Oi Og _ _ _ _ _ _ b D H x y i j Hx Hy).
Qed.
Print Assumptions C06_last_partial.

Theorem C06_layers_partial : forall (ID G Lb : Type) leb_id leb_g leb_l grouped sl dl w (v : list (ID * G)) (e : list (erow ID Lb)) b lab D,
  total_order leb_id -> total_order leb_g -> total_order leb_l ->
  dense_multigraph leb_id leb_g leb_l grouped sl dl w v e = Ok (b, lab, D) ->
  forall x y z i j l, dict_get leb_id (b_ids b) x = Some i -> dict_get leb_id (b_ids b) y = Some j -> dict_get leb_l lab z = Some l ->
  let between r := eq_key leb_id x (r_src r) && eq_key leb_id y (r_dst r) && eq_key leb_l z (r_label r) in
  (existsb between e = false -> D l i j = 0) /\
  (forall e1 r e2, e = e1 ++ r :: e2 -> between r = true -> existsb between e2 = false -> D l i j = if w then r_weight r else 1).
Proof.
  intros ID G Lb li lg ll grouped sl dl w v e b lab D Oi Og Ol H x y z i j l Hx Hy Hz. cbv zeta.
  exact (dense_layer_last li lg ll Oi Og Ol _ _ _ _ _ _ b lab D H x y z i j l Hx Hy Hz).
Qed.
Print Assumptions C06_layers_partial.

Theorem C06_sum_partial : forall (ID G Lb : Type) leb_id leb_g grouped sl dl (v : list (ID * G)) (e : list (erow ID Lb)) b D,
  total_order leb_id -> total_order leb_g ->
  dense_graph leb_id leb_g grouped sl dl true v e = Ok (b, D) ->
  NoDup (map (fun r => (r_src r, r_dst r)) e) ->
  forall x y i j, dict_get leb_id (b_ids b) x = Some i -> dict_get leb_id (b_ids b) y = Some j ->
  D i j = suml r_weight (filter (fun r => eq_key leb_id x (r_src r) && eq_key leb_id y (r_dst r)) e).
Proof.
  intros ID G Lb li lg grouped sl dl v e b D Oi Og H Hd x y i j Hx Hy.
  assert (HA : exists A, sparse_graph li lg grouped sl dl true v e = Ok (b, A)).
  { apply dense_pieces in H as [H _]. unfold sparse_graph. rewrite H. eexists. reflexivity. }
  destruct HA as [A HA].
  assert (Hj : (j < b_n b)%nat).
  { apply dense_pieces in H as [H _]. destruct (read_tables_ok li lg Oi Og _ _ _ _ _ _ _ H) as [_ [[_ [E2 _]] [El [-> _]]]]. rewrite <- El. eapply E2, Hy. }
  rewrite (dense_sparse li lg Oi Og _ _ _ _ _ _ b A D HA H (fun _ => Hd) i j Hj).
  destruct (simple_cell li lg Oi Og _ _ _ _ _ _ b A HA x y i j Hx Hy) as [_ ->]. rewrite suml_filter. reflexivity.
Qed.
Print Assumptions C06_sum_partial.

(** A vertex pair with rows of weight 1 and 2: the dense graph has an entry 2, the sparse one 3. *)
Definition two_rows : list (nat * nat * R) := [(0%nat, 1%nat, 1); (0%nat, 1%nat, 2)].
Definition as_rows (l : list (nat * nat * R)) : list (erow nat nat) := map (fun t => mkRow (fst (fst t)) (snd (fst t)) (snd t) 0%nat) l.
Definition two_v : list (nat * nat) := [(0, 0); (1, 0)]%nat.

Ltac small_rows := let t := fresh in let H := fresh in
  intros t H; repeat (destruct H as [<-|H]; [cbn; (repeat split; try lia; lra)|]); destruct H.

Theorem C06_refuted : exists b D A,
  dense_graph Nat.leb Nat.leb true false false true two_v (as_rows two_rows) = Ok (b, D) /\
  sparse_graph Nat.leb Nat.leb true false false true two_v (as_rows two_rows) = Ok (b, A) /\
  dict_get Nat.leb (b_ids b) 0%nat = Some 0%nat /\ dict_get Nat.leb (b_ids b) 1%nat = Some 1%nat /\
  suml r_weight (filter (fun r => eq_key Nat.leb 0%nat (r_src r) && eq_key Nat.leb 1%nat (r_dst r)) (as_rows two_rows)) = 3 /\
  entry (sp_row A 0%nat) 1%nat = 3 /\ D 0%nat 1%nat = 2.
Proof.
  destruct (dense_two true two_rows) as [b [H [Hn _]]]; [small_rows|].
  assert (HA : exists A, sparse_graph Nat.leb Nat.leb true false false true two_v (as_rows two_rows) = Ok (b, A)).
  { pose proof H as H'. apply dense_pieces in H' as [H' _]. unfold sparse_graph. unfold two_v, as_rows. rewrite H'. eexists. reflexivity. }
  destruct HA as [A HA].
  assert (Hi : dict_get Nat.leb (b_ids b) 0%nat = Some 0%nat /\ dict_get Nat.leb (b_ids b) 1%nat = Some 1%nat).
  { apply dense_pieces in H as [H _]. destruct (build Nat.leb Nat.leb nat_order nat_order true false true two_v (as_rows two_rows)) as [gr [H' _]].
    - repeat (constructor; [cbn; intuition lia|]). constructor.
    - intros r Hr. cbn in Hr. destruct Hr as [<-|[<-|[]]]; cbn; (split; [lia|]; split; [lia|]; intros _; lra).
    - unfold two_v, as_rows in H'. rewrite H' in H. injection H as <-. split; reflexivity. }
  destruct Hi as [H0 H1]. eexists b, _, A. split; [exact H|]. split; [exact HA|]. split; [exact H0|]. split; [exact H1|].
  destruct (simple_cell Nat.leb Nat.leb nat_order nat_order _ _ _ _ _ _ b A HA _ _ _ _ H0 H1) as [_ ->].
  cbn. repeat split; lra.
Qed.
Print Assumptions C06_refuted.

Example C06_case : exists b D, dense_graph Nat.leb Nat.leb true false false true two_v (as_rows [(0%nat, 1%nat, 3/2); (1%nat, 0%nat, 2)]) = Ok (b, D) /\
  NoDup (map (fun r : erow nat nat => (r_src r, r_dst r)) (as_rows [(0%nat, 1%nat, 3/2); (1%nat, 0%nat, 2)])) /\ D 0%nat 1%nat = 3/2.
Proof.
  destruct (dense_two true [(0%nat, 1%nat, 3/2); (1%nat, 0%nat, 2)]) as [b [H _]]; [small_rows|].
  eexists _, _. split; [exact H|]. split; [|reflexivity].
  cbn. repeat (constructor; [cbn; intuition congruence|]). constructor.
Qed.

(** * C07: dense and sparse *)

(** Both modules accept the same tables, raise the same exceptions and number the vertices alike. *)
Theorem C07_tables : forall (ID G Lb : Type) leb_id leb_g grouped sl dl w (v : list (ID * G)) (e : list (erow ID Lb)),
  (forall x, sparse_graph leb_id leb_g grouped sl dl w v e = Raise x <-> dense_graph leb_id leb_g grouped sl dl w v e = Raise x) /\
  (forall b, (exists A, sparse_graph leb_id leb_g grouped sl dl w v e = Ok (b, A)) <-> (exists D, dense_graph leb_id leb_g grouped sl dl w v e = Ok (b, D))).
Proof.
  intros. unfold sparse_graph, dense_graph. destruct (read_tables leb_id leb_g grouped sl dl w v e) as [b|x]; cbn [bind].
  - split; [split; discriminate|]. intros b'. split; intros [A H]; injection H as <- _; eexists; reflexivity.
  - split; [intros x'; split; intros H; injection H as <-; reflexivity|]. intros b'. split; intros [A H]; discriminate.
Qed.
Print Assumptions C07_tables.

Theorem C07_agree : forall (ID G Lb : Type) leb_id leb_g grouped sl dl w (v : list (ID * G)) (e : list (erow ID Lb)) b A D,
  total_order leb_id -> total_order leb_g ->
  sparse_graph leb_id leb_g grouped sl dl w v e = Ok (b, A) ->
  dense_graph leb_id leb_g grouped sl dl w v e = Ok (b, D) ->
  NoDup (map (fun r => (r_src r, r_dst r)) e) ->
  (forall wt, exists M, adjacency_matrix (b_n b) (SDiGraph A) true wt = Ok M /\
     forall i j, (i < b_n b)%nat -> (j < b_n b)%nat -> entry (sp_row M i) j = d_adjacency w (DDiGraph D) true wt i j) /\
  num_edges (b_n b) (SDiGraph A) = Ok (d_num_edges (b_n b) w (DDiGraph D)) /\
  total_weight (b_n b) (SDiGraph A) = Ok (d_total_weight (b_n b) w (DDiGraph D)).
Proof.
  intros ID G Lb li lg grouped sl dl w v e b A D Oi Og HA HD Hd.
  assert (E : forall i j, (j < b_n b)%nat -> D i j = W A i j) by (intros i j Hj; apply (dense_sparse li lg Oi Og _ _ _ _ _ _ b A D HA HD (fun _ => Hd) i j Hj)).
  assert (Vs : valid w (b_n b) (SDiGraph A)) by (apply (sparse_valid li lg Oi Og _ _ _ _ _ _ _ _ HA)).
  assert (V : forall wt i j, (i < b_n b)%nat -> (j < b_n b)%nat -> view w true (link (SDiGraph A)) true wt i j = d_adjacency w (DDiGraph D) true wt i j).
  { intros wt i j Hi Hj. assert (DV : dvalid w (DDiGraph D)) by (apply (dense_mat_ok li lg Oi Og _ _ _ _ _ _ _ _ HD)).
    rewrite (d_view w (DDiGraph D) true wt i j DV). unfold view. cbn [andb d_directed dlink link]. rewrite E by exact Hj.
    destruct wt; [|reflexivity]. destruct w; [reflexivity|]. cbn [andb]. symmetry. apply (wf_bool (b_n b) A); [apply (Forall_inv Vs) | exact Hi | apply (Forall_inv Vs)]. }
  split; [|split].
  - intros wt. destruct (adjacency_ok (b_n b) (SDiGraph A) true wt) as [M HM]; [discriminate|]. exists M. split; [exact HM|].
    destruct (adjacency_spec w _ _ _ _ _ Vs HM) as [_ VM]. intros i j Hi Hj. rewrite VM by assumption. apply V; assumption.
  - unfold num_edges, d_num_edges. cbn [is_directed d_directed]. destruct (adjacency_ok (b_n b) (SDiGraph A) true false) as [M HM]; [discriminate|]. rewrite HM. cbn [bind]. f_equal.
    rewrite (all_view w _ _ Vs _ _ _ HM), d_sum_eq. apply sumn_ext. intros i Hi. apply sumn_ext. intros j Hj. apply V; assumption.
  - unfold total_weight, d_total_weight. cbn [is_directed d_directed]. destruct (adjacency_ok (b_n b) (SDiGraph A) true true) as [M HM]; [discriminate|]. rewrite HM. cbn [bind]. f_equal.
    rewrite (all_view w _ _ Vs _ _ _ HM), d_sum_eq. apply sumn_ext. intros i Hi. apply sumn_ext. intros j Hj. apply V; assumption.
Qed.
Print Assumptions C07_agree.

Example C07_case : exists b A D, let e := as_rows [(0%nat, 1%nat, 3/2); (1%nat, 0%nat, 2)] in
  sparse_graph Nat.leb Nat.leb true false false true two_v e = Ok (b, A) /\
  dense_graph Nat.leb Nat.leb true false false true two_v e = Ok (b, D) /\ NoDup (map (fun r => (r_src r, r_dst r)) e).
Proof.
  destruct C06_case as [b [D [H [Hn _]]]].
  destruct (proj2 (proj2 (C07_tables nat nat nat Nat.leb Nat.leb true false false true two_v (as_rows [(0%nat, 1%nat, 3/2); (1%nat, 0%nat, 2)])) b)) as [A HA]; [eauto|].
  exists b, A, D. auto.
Qed.

(** The undirected views agree too when the graph is weighted or the unweighted view is asked for. *)
Theorem C07_undirected_partial : forall (ID G Lb : Type) leb_id leb_g grouped sl dl w (v : list (ID * G)) (e : list (erow ID Lb)) b A D,
  total_order leb_id -> total_order leb_g ->
  sparse_graph leb_id leb_g grouped sl dl w v e = Ok (b, A) ->
  dense_graph leb_id leb_g grouped sl dl w v e = Ok (b, D) ->
  NoDup (map (fun r => (r_src r, r_dst r)) e) ->
  (forall wt d, w = true \/ wt = false -> exists M, adjacency_matrix (b_n b) (SGraph A) d wt = Ok M /\
     forall i j, (i < b_n b)%nat -> (j < b_n b)%nat -> entry (sp_row M i) j = d_adjacency w (DGraph D) d wt i j) /\
  (forall wt, w = true \/ wt = false -> exists M, adjacency_matrix (b_n b) (SDiGraph A) false wt = Ok M /\
     forall i j, (i < b_n b)%nat -> (j < b_n b)%nat -> entry (sp_row M i) j = d_adjacency w (DDiGraph D) false wt i j) /\
  num_edges (b_n b) (SGraph A) = Ok (d_num_edges (b_n b) w (DGraph D)) /\
  (w = true -> total_weight (b_n b) (SGraph A) = Ok (d_total_weight (b_n b) w (DGraph D))).
Proof.
  intros ID G Lb li lg grouped sl dl w v e b A D Oi Og HA HD Hd.
  assert (E : forall i j, (j < b_n b)%nat -> D i j = W A i j) by (intros i j Hj; apply (dense_sparse li lg Oi Og _ _ _ _ _ _ b A D HA HD (fun _ => Hd) i j Hj)).
  destruct (sparse_valid li lg Oi Og _ _ _ _ _ _ _ _ HA) as [Vg Vd].
  pose proof (dense_mat_ok li lg Oi Og _ _ _ _ _ _ _ _ HD) as DV.
  assert (BW : forall i j, (i < b_n b)%nat -> (j < b_n b)%nat -> both_ways (fun i j => W A i j) i j = both_ways D i j).
  { intros i j Hi Hj. unfold both_ways. rewrite !E by assumption. reflexivity. }
  assert (V : forall (c d wt : bool) i j, d && c = false -> w = true \/ wt = false -> (i < b_n b)%nat -> (j < b_n b)%nat ->
     view w c (fun i j => W A i j) d wt i j = d_adjacency w (if c then DDiGraph D else DGraph D) d wt i j).
  { intros c d wt i j Hc Hw Hi Hj. rewrite (d_view w (if c then DDiGraph D else DGraph D) d wt i j) by (destruct c; exact DV).
    replace (d_directed (if c then DDiGraph D else DGraph D)) with c by (destruct c; reflexivity).
    replace (dlink (if c then DDiGraph D else DGraph D)) with D by (destruct c; reflexivity).
    replace (d_multi (if c then DDiGraph D else DGraph D)) with false by (destruct c; reflexivity).
    unfold view. rewrite Hc. unfold neighbours. rewrite BW by assumption. destruct wt; [|reflexivity].
    destruct Hw as [->|]; [reflexivity | discriminate]. }
  assert (M1 : forall wt d, w = true \/ wt = false -> exists M, adjacency_matrix (b_n b) (SGraph A) d wt = Ok M /\
     forall i j, (i < b_n b)%nat -> (j < b_n b)%nat -> entry (sp_row M i) j = d_adjacency w (DGraph D) d wt i j).
  { intros wt d Hw. destruct (adjacency_ok (b_n b) (SGraph A) d wt) as [M HM]; [discriminate|]. exists M. split; [exact HM|].
    destruct (adjacency_spec w _ _ _ _ _ Vg HM) as [_ VM]. intros i j Hi Hj. rewrite VM by assumption. apply (V false); [apply andb_false_r | assumption..]. }
  split; [exact M1|]. split; [|split].
  - intros wt Hw. destruct (adjacency_ok (b_n b) (SDiGraph A) false wt) as [M HM]; [discriminate|]. exists M. split; [exact HM|].
    destruct (adjacency_spec w _ _ _ _ _ Vd HM) as [_ VM]. intros i j Hi Hj. rewrite VM by assumption. apply (V true); [reflexivity | assumption..].
  - unfold num_edges, d_num_edges. cbn [is_directed d_directed]. destruct (adjacency_ok (b_n b) (SGraph A) false false) as [M HM]; [discriminate|]. rewrite HM. cbn [bind]. f_equal.
    unfold halved. rewrite (all_view w _ _ Vg _ _ _ HM), (diag_view w _ _ Vg _ _ _ HM), d_halved_eq. f_equal. f_equal.
    + apply sumn_ext. intros i Hi. apply sumn_ext. intros j Hj. apply (V false); auto.
    + apply sumn_ext. intros i Hi. apply (V false); auto.
  - intros Hw. unfold total_weight, d_total_weight. cbn [is_directed d_directed]. destruct (adjacency_ok (b_n b) (SGraph A) false true) as [M HM]; [discriminate|]. rewrite HM. cbn [bind]. f_equal.
    unfold halved. rewrite (all_view w _ _ Vg _ _ _ HM), (diag_view w _ _ Vg _ _ _ HM), d_halved_eq. f_equal. f_equal.
    + apply sumn_ext. intros i Hi. apply sumn_ext. intros j Hj. apply (V false); auto.
    + apply sumn_ext. intros i Hi. apply (V false); auto.
Qed.
Print Assumptions C07_undirected_partial.

(** A self-loop of an unweighted graph: kept by the dense module, lost by the sparse one. *)
Theorem C07_undirected_refuted : exists b A D M, let e := as_rows [(0%nat, 0%nat, 1)] in
  sparse_graph Nat.leb Nat.leb true false false false two_v e = Ok (b, A) /\
  dense_graph Nat.leb Nat.leb true false false false two_v e = Ok (b, D) /\ NoDup (map (fun r => (r_src r, r_dst r)) e) /\
  adjacency_matrix (b_n b) (SDiGraph A) false true = Ok M /\
  entry (sp_row M 0%nat) 0%nat = 0 /\ d_adjacency false (DDiGraph D) false true 0%nat 0%nat = 1.
Proof.
  destruct (dense_two false [(0%nat, 0%nat, 1)]) as [b [H [Hn _]]]; [small_rows|].
  destruct (proj2 (proj2 (C07_tables nat nat nat Nat.leb Nat.leb true false false false two_v (as_rows [(0%nat, 0%nat, 1)])) b)) as [A HA]; [eexists; exact H|].
  destruct (adjacency_ok (b_n b) (SDiGraph A) false true) as [M HM]; [discriminate|].
  destruct (sparse_valid Nat.leb Nat.leb nat_order nat_order _ _ _ _ _ _ _ _ HA) as [_ Vd].
  destruct (adjacency_spec _ _ _ _ _ _ Vd HM) as [_ V].
  eexists b, A, _, M. split; [exact HA|]. split; [exact H|]. split; [repeat constructor; intros []|]. split; [exact HM|].
  split; [rewrite V by (rewrite Hn; lia); reflexivity | reflexivity].
Qed.
Print Assumptions C07_undirected_refuted.

(** * C08: undirected views *)

(** Full property: also the weighted views of multigraphs, see C15, and the directed view of an
    undirected graph, see [C08_dense_directed_view_refuted]. *)
Theorem C08_dense_partial : forall w N s gr wt, library_dense w N s gr -> forall i j,
  let A := d_adjacency w s false wt in
  A i j = A j i /\
  (wt = false -> A i j = neighbours (dlink s) i j) /\
  (wt = true -> w = true -> d_multi s = false -> A i j = both_ways (dlink s) i j) /\
  (wt = true -> w = false -> d_multi s = false -> A i j = neighbours (dlink s) i j).
Proof.
  intros w N s gr wt H i j A. apply library_dense_valid in H. unfold A. rewrite !(d_view w s _ _ _ _ H). cbn [andb].
  split; [|split; [intros ->; reflexivity|split; [intros -> -> ->; reflexivity | intros -> -> ->; reflexivity]]].
  rewrite (both_ways_sym (dlink s) i j), (neighbours_sym (dlink s) i j), (Rplus_comm (dlink s i j)). reflexivity.
Qed.
Print Assumptions C08_dense_partial.

(** Library graphs on two vertices. *)
Lemma dense_two_library : forall (w : bool) (l : list (nat * nat * R)), (forall t, In t l -> (fst (fst t) < 2)%nat /\ (snd (fst t) < 2)%nat /\ 0 < snd t) ->
  let D := assign_all (map (fun t => (fst t, if w then snd t else 1)) l) in
  exists g, (forall i, (i < 2)%nat -> g i = 0%nat) /\
  library_dense w 2 (DGraph D) (Some (1%nat, g)) /\ library_dense w 2 (DDiGraph D) (Some (1%nat, g)).
Proof.
  intros w l Hl D. destruct (dense_two w l Hl) as [b [H [Hn [g [Hg Vg]]]]]. exists g. split; [exact Vg|]. split;
  (eapply (dbuilt _ _ _ _ nat nat nat Nat.leb Nat.leb Nat.leb true false false _ _ b nat_order nat_order nat_order); [|symmetry; exact Hn | symmetry; exact Hg]).
  - apply of_dense, H.
  - apply of_dense_di, H.
Qed.

Example C08_dense_case : exists s gr, library_dense true 2 s gr /\ d_adjacency true s false true 1%nat 0%nat = 7/2 /\ d_adjacency true s false true 1%nat 1%nat = 5.
Proof.
  destruct (dense_two_library true [(0%nat, 1%nat, 3/2); (1%nat, 0%nat, 2); (1%nat, 1%nat, 5)]) as [g [_ [_ G]]]; [small_rows|].
  eexists _, _. split; [exact G|]. split; cbn; lra.
Qed.

Theorem C08_dense_directed_view_refuted : exists s gr, library_dense true 2 s gr /\ d_directed s = false /\ d_num_edges 2 true s = 1 /\
  d_adjacency true s true true 0%nat 1%nat = 1 /\ d_adjacency true s true true 1%nat 0%nat = 1.
Proof.
  destruct (dense_two_library true [(0%nat, 1%nat, 1)]) as [g [_ [G _]]]; [small_rows|].
  eexists _, _. split; [exact G|]. split; [reflexivity|]. pose proof (library_dense_valid _ _ _ _ G) as V. split; [|cbn; split; lra].
  unfold d_num_edges. cbn [d_directed]. rewrite d_halved_eq. cbn [sumn]. rewrite !(d_view _ _ _ _ _ _ V). cbn [andb].
  unfold neighbours, both_ways. cbn. rewrite !Rplus_0_l, !Rplus_0_r, present_0, present_pos by lra. lra.
Qed.
Print Assumptions C08_dense_directed_view_refuted.

(** * C09: degrees *)

Theorem C09_dense_directed : forall w N s gr o i, library_dense w N s gr ->
  d_out_degree N w s = Ok o -> d_in_degree N w s = Ok i ->
  let m := d_num_edges N w s in
  sumn N o = m /\ sumn N i = m /\ m = sumn N (fun x => sumn N (fun y => present (dlink s x y))) /\
  forall v, (v < N)%nat -> o v <= d_degree N w s v /\ i v <= d_degree N w s v /\ d_degree N w s v <= o v + i v.
Proof.
  intros w N s gr o i H Ho Hi m. apply library_dense_valid in H. unfold m, d_num_edges, d_degree.
  unfold d_out_degree, guard in Ho. unfold d_in_degree, guard in Hi.
  destruct (d_directed s) eqn:Hd; [|discriminate]. injection Ho as <-. injection Hi as <-.
  assert (V : forall x y, d_adjacency w s true false x y = present (dlink s x y)).
  { intros x y. rewrite (d_view _ _ _ _ _ _ H), Hd. reflexivity. }
  assert (E : d_sum N (d_adjacency w s true false) = sumn N (fun x => sumn N (fun y => present (dlink s x y)))).
  { rewrite d_sum_eq. apply sumn_ext. intros x _. apply sumn_ext. intros y _. apply V. }
  split; [|split; [|split; [exact E|]]].
  - rewrite E. apply sumn_ext. intros x _. rewrite d_sum1_eq. apply sumn_ext. intros y _. apply V.
  - rewrite E, sumn_swap. apply sumn_ext. intros x _. rewrite d_sum0_eq. apply sumn_ext. intros y _. apply V.
  - intros v Hv. rewrite d_sum1_eq, !d_sum0_eq, <- sumn_plus. pose proof (dlink_nonneg w s H) as NN.
    assert (B3 : forall y, present (dlink s v y) <= neighbours (dlink s) y v /\ present (dlink s y v) <= neighbours (dlink s) y v /\
        neighbours (dlink s) y v <= present (dlink s v y) + present (dlink s y v)).
    { intros y. rewrite neighbours_sym. apply neighbours_bounds; apply NN. }
    split; [|split]; apply sumn_le; intros y Hy; specialize (B3 y); rewrite ?V, (d_view _ _ _ _ _ _ H); cbn [andb]; tauto.
Qed.
Print Assumptions C09_dense_directed.

Theorem C09_dense_undirected : forall w N s gr, library_dense w N s gr -> d_directed s = false ->
  sumn N (d_degree N w s) = 2 * d_num_edges N w s - sumn N (fun v => present (dlink s v v)).
Proof.
  intros w N s gr H Hd. apply library_dense_valid in H. unfold d_num_edges, d_degree. rewrite Hd, d_halved_eq.
  rewrite (sumn_ext N (d_sum0 N _) (fun x => sumn N (fun y => d_adjacency w s false false y x))) by (intros x _; apply d_sum0_eq).
  rewrite sumn_swap.
  rewrite (sumn_ext N (fun i => d_adjacency w s false false i i) (fun v => present (dlink s v v))).
  2:{ intros v _. rewrite (d_view _ _ _ _ _ _ H). cbn [andb]. unfold neighbours, both_ways. rewrite Nat.eqb_refl. reflexivity. }
  lra.
Qed.
Print Assumptions C09_dense_undirected.

Example C09_dense_case : exists s gr o, library_dense true 2 s gr /\ d_out_degree 2 true s = Ok o /\ o 1%nat = 2.
Proof.
  destruct (dense_two_library true [(0%nat, 1%nat, 3/2); (1%nat, 0%nat, 2); (1%nat, 1%nat, 5)]) as [g [_ [_ G]]]; [small_rows|].
  eexists _, _, _. split; [exact G|]. split; [reflexivity|]. rewrite d_sum1_eq. cbn [sumn].
  rewrite !(d_view _ _ _ _ _ _ (library_dense_valid _ _ _ _ G)). cbn. rewrite !present_pos by lra. lra.
Qed.

(** * C10: strengths *)

Theorem C10_dense_directed : forall N s gr w o i, library_dense w N s gr ->
  d_out_strength N w s = Ok o -> d_in_strength N w s = Ok i ->
  let t := d_total_weight N w s in
  sumn N o = t /\ sumn N i = t /\ t = sumn N (fun x => sumn N (fun y => dlink s x y)).
Proof.
  intros N s gr w o i H Ho Hi t. apply library_dense_valid in H. unfold t, d_total_weight.
  unfold d_out_strength, guard in Ho. unfold d_in_strength, guard in Hi.
  destruct (d_directed s) eqn:Hd; [|discriminate]. injection Ho as <-. injection Hi as <-.
  assert (V : forall x y, d_adjacency w s true true x y = dlink s x y).
  { intros x y. rewrite (d_view _ _ _ _ _ _ H), Hd. reflexivity. }
  assert (E : d_sum N (d_adjacency w s true true) = sumn N (fun x => sumn N (fun y => dlink s x y))).
  { rewrite d_sum_eq. apply sumn_ext. intros x _. apply sumn_ext. intros y _. apply V. }
  split; [|split; [|exact E]].
  - rewrite E. apply sumn_ext. intros x _. rewrite d_sum1_eq. apply sumn_ext. intros y _. apply V.
  - rewrite E, sumn_swap. apply sumn_ext. intros x _. rewrite d_sum0_eq. apply sumn_ext. intros y _. apply V.
Qed.
Print Assumptions C10_dense_directed.

(** The total weight is the sum of the weight column.  Full property: for any edge table; see
    [C06_refuted] for tables with repeated pairs. *)
Theorem C10_dense_column_partial : forall (ID G Lb : Type) leb_id leb_g grouped sl dl (v : list (ID * G)) (e : list (erow ID Lb)) b D,
  total_order leb_id -> total_order leb_g ->
  dense_graph leb_id leb_g grouped sl dl true v e = Ok (b, D) -> NoDup (map (fun r => (r_src r, r_dst r)) e) ->
  d_total_weight (b_n b) true (DDiGraph D) = suml r_weight e /\ d_total_weight (b_n b) true (DGraph D) = suml r_weight e.
Proof.
  intros ID G Lb li lg grouped sl dl v e b D Oi Og H Hd. set (N := b_n b).
  destruct (proj2 (proj2 (C07_tables ID G Lb li lg grouped sl dl true v e) b)) as [A HA]; [eauto|].
  assert (E : forall i j, (j < N)%nat -> D i j = W A i j) by (intros i j Hj; apply (dense_sparse li lg Oi Og _ _ _ _ _ _ b A D HA H (fun _ => Hd) i j Hj)).
  assert (LT : sumn N (fun i => sumn N (fun j => D i j)) = suml r_weight e).
  { pose proof HA as HA'. apply simple_pieces in HA' as [Hb EA].
    rewrite (sumn_ext N _ (fun i => sumn N (fun j => W A i j))) by (intros i _; apply sumn_ext; intros j Hj; apply E, Hj).
    rewrite EA. cbn [negb]. unfold N. rewrite coo_total by (eapply (edges_in_range li lg Oi Og); exact Hb).
    destruct (read_tables_ok li lg Oi Og _ _ _ _ _ _ _ Hb) as [_ [_ [_ [_ [_ [_ [_ [_ He]]]]]]]].
    rewrite He. unfold inner. rewrite suml_map. apply suml_ext. reflexivity. }
  pose proof (dense_mat_ok li lg Oi Og _ _ _ _ _ _ _ _ H) as DV. fold N. unfold d_total_weight. cbn [d_directed]. split.
  - rewrite <- LT, d_sum_eq. apply sumn_ext. intros i _. apply sumn_ext. intros j _. apply (d_view true (DDiGraph D) true true i j DV).
  - rewrite d_halved_eq, <- LT.
    rewrite (sumn_ext N _ (fun i => sumn N (fun j => both_ways D i j))) by (intros i _; apply sumn_ext; intros j _; apply (d_view true (DGraph D) false true i j DV)).
    rewrite (sumn_ext N (fun i => d_adjacency true (DGraph D) false true i i) (fun i => D i i)).
    2:{ intros i _. rewrite (d_view true (DGraph D) false true i i DV). cbn. unfold both_ways. rewrite Nat.eqb_refl. reflexivity. }
    rewrite both_ways_total. lra.
Qed.
Print Assumptions C10_dense_column_partial.

Theorem C10_dense_undirected_partial : forall N s gr, library_dense true N s gr -> d_directed s = false -> d_multi s = false ->
  let t := d_total_weight N true s in
  t = sumn N (fun x => sumn N (fun y => dlink s x y)) /\
  sumn N (d_strength N true s) = 2 * t - sumn N (fun x => dlink s x x).
Proof.
  intros N s gr H Hd Hm t. apply library_dense_valid in H. unfold t, d_total_weight, d_strength. rewrite Hd, d_halved_eq.
  rewrite (sumn_ext N (d_sum1 N _) (fun i => sumn N (fun j => d_adjacency true s false true i j))) by (intros x _; apply d_sum1_eq).
  rewrite (sumn_ext N (fun i => sumn N (fun j => d_adjacency true s false true i j)) (fun i => sumn N (fun j => both_ways (dlink s) i j))).
  2:{ intros i _. apply sumn_ext. intros j _. rewrite (d_view _ _ _ _ _ _ H), Hm. reflexivity. }
  rewrite (sumn_ext N (fun i => d_adjacency true s false true i i) (fun i => dlink s i i)).
  2:{ intros i _. rewrite (d_view _ _ _ _ _ _ H), Hm. cbn. unfold both_ways. rewrite Nat.eqb_refl. reflexivity. }
  pose proof (both_ways_total N (dlink s)). split; lra.
Qed.
Print Assumptions C10_dense_undirected_partial.

Example C10_dense_case : exists s gr o, library_dense true 2 s gr /\ d_out_strength 2 true s = Ok o /\ o 1%nat = 7.
Proof.
  destruct (dense_two_library true [(0%nat, 1%nat, 3/2); (1%nat, 0%nat, 2); (1%nat, 1%nat, 5)]) as [g [_ [_ G]]]; [small_rows|].
  eexists _, _, _. split; [exact G|]. split; [reflexivity|]. rewrite d_sum1_eq. cbn. lra.
Qed.

(** * C11 and C12: groups *)

Theorem C11_dense_degree : forall w N s M g B, library_dense w N s (Some (M, g)) ->
  d_degree_by_group N w s (Some (M, g)) = Ok B -> forall i,
  (forall k, B i k = sumn N (fun j => if Nat.eqb (g j) k then neighbours (dlink s) i j else 0)) /\
  sumn M (fun k => B i k) = d_degree N w s i.
Proof.
  intros w N s M g B H HB i. pose proof (library_dense_groups _ _ _ _ _ H) as Hg. apply library_dense_valid in H.
  cbn [d_degree_by_group d_by_group] in HB. injection HB as <-.
  assert (E : forall k, d_sum_by_group N (d_adjacency w s false false) g i k = sumn N (fun j => if Nat.eqb (g j) k then neighbours (dlink s) i j else 0)).
  { intros k. rewrite group_exact by (intros j _; rewrite (d_view _ _ _ _ _ _ H); apply present_integral).
    apply sumn_ext. intros j _. rewrite (d_view _ _ _ _ _ _ H). reflexivity. }
  split; [exact E|]. etransitivity; [apply sumn_ext; intros k _; apply E|]. rewrite group_partition by exact Hg.
  unfold d_degree. rewrite d_sum0_eq. apply sumn_ext. intros j _. rewrite (d_view _ _ _ _ _ _ H). cbn [andb]. apply neighbours_sym.
Qed.
Print Assumptions C11_dense_degree.

Theorem C11_dense_out_in_degree : forall w N s M g Bo Bi o n, library_dense w N s (Some (M, g)) ->
  d_out_degree_by_group N w s (Some (M, g)) = Ok Bo -> d_in_degree_by_group N w s (Some (M, g)) = Ok Bi ->
  d_out_degree N w s = Ok o -> d_in_degree N w s = Ok n -> forall i,
  (forall k, Bo i k = sumn N (fun j => if Nat.eqb (g j) k then present (dlink s i j) else 0) /\
             Bi i k = sumn N (fun j => if Nat.eqb (g j) k then present (dlink s j i) else 0)) /\
  sumn M (fun k => Bo i k) = o i /\ sumn M (fun k => Bi i k) = n i.
Proof.
  intros w N s M g Bo Bi o n H HBo HBi Ho Hn i. pose proof (library_dense_groups _ _ _ _ _ H) as Hg. apply library_dense_valid in H.
  unfold d_out_degree_by_group, guard in HBo. unfold d_in_degree_by_group, guard in HBi. unfold d_out_degree, guard in Ho. unfold d_in_degree, guard in Hn.
  destruct (d_directed s) eqn:Hd; [|discriminate]. cbn [d_by_group] in HBo, HBi. injection HBo as <-. injection HBi as <-. injection Ho as <-. injection Hn as <-.
  assert (V : forall x y, d_adjacency w s true false x y = present (dlink s x y)).
  { intros x y. rewrite (d_view _ _ _ _ _ _ H), Hd. reflexivity. }
  assert (Eo : forall k, d_sum_by_group N (d_adjacency w s true false) g i k = sumn N (fun j => if Nat.eqb (g j) k then present (dlink s i j) else 0)).
  { intros k. rewrite group_exact by (intros j _; rewrite V; apply present_integral). apply sumn_ext. intros j _. rewrite V. reflexivity. }
  assert (Ei : forall k, d_sum_by_group N (fun i j => d_adjacency w s true false j i) g i k = sumn N (fun j => if Nat.eqb (g j) k then present (dlink s j i) else 0)).
  { intros k. rewrite group_exact by (intros j _; rewrite V; apply present_integral). apply sumn_ext. intros j _. rewrite V. reflexivity. }
  split; [auto|]. split.
  - etransitivity; [apply sumn_ext; intros k _; apply Eo|]. rewrite group_partition by exact Hg. rewrite d_sum1_eq. apply sumn_ext. intros j _. symmetry. apply V.
  - etransitivity; [apply sumn_ext; intros k _; apply Ei|]. rewrite group_partition by exact Hg. rewrite d_sum0_eq. apply sumn_ext. intros j _. symmetry. apply V.
Qed.
Print Assumptions C11_dense_out_in_degree.

Example C11_dense_case : exists s g Bo Bi o n, library_dense true 2 s (Some (1%nat, g)) /\
  d_out_degree_by_group 2 true s (Some (1%nat, g)) = Ok Bo /\ d_in_degree_by_group 2 true s (Some (1%nat, g)) = Ok Bi /\
  d_out_degree 2 true s = Ok o /\ d_in_degree 2 true s = Ok n.
Proof.
  destruct (dense_two_library true [(0%nat, 1%nat, 3/2); (1%nat, 0%nat, 2); (1%nat, 1%nat, 5)]) as [g [_ [_ G]]]; [small_rows|].
  eexists _, g, _, _, _, _. split; [exact G|]. repeat split.
Qed.

(** C12.  Full property: for any weights; see [C12_refuted].  What holds: for integer weights. *)
Theorem C12_integer_partial : forall N s M g B, library_dense true N s (Some (M, g)) -> d_multi s = false ->
  (forall i j, exists z : Z, dlink s i j = IZR z) ->
  d_strength_by_group N true s (Some (M, g)) = Ok B -> forall i,
  (forall k, B i k = sumn N (fun j => if Nat.eqb (g j) k then both_ways (dlink s) i j else 0)) /\
  sumn M (fun k => B i k) = d_strength N true s i.
Proof.
  intros N s M g B H Hm HZ HB i. pose proof (library_dense_groups _ _ _ _ _ H) as Hg. apply library_dense_valid in H.
  cbn [d_strength_by_group d_by_group] in HB. injection HB as <-.
  assert (V : forall j, d_adjacency true s false true i j = both_ways (dlink s) i j).
  { intros j. rewrite (d_view _ _ _ _ _ _ H), Hm. reflexivity. }
  assert (E : forall k, d_sum_by_group N (d_adjacency true s false true) g i k = sumn N (fun j => if Nat.eqb (g j) k then both_ways (dlink s) i j else 0)).
  { intros k. rewrite group_exact.
    - apply sumn_ext. intros j _. rewrite V. reflexivity.
    - intros j _. rewrite V. unfold both_ways. destruct (Nat.eqb i j); [apply HZ|].
      destruct (HZ i j) as [a ->], (HZ j i) as [b ->]. exists (a + b)%Z. symmetry. apply plus_IZR. }
  split; [exact E|]. etransitivity; [apply sumn_ext; intros k _; apply E|]. rewrite group_partition by exact Hg.
  unfold d_strength. rewrite d_sum1_eq. apply sumn_ext. intros j _. symmetry. apply V.
Qed.
Print Assumptions C12_integer_partial.

Theorem C12_out_in_integer_partial : forall N s M g Bo Bi o n, library_dense true N s (Some (M, g)) ->
  (forall i j, exists z : Z, dlink s i j = IZR z) ->
  d_out_strength_by_group N true s (Some (M, g)) = Ok Bo -> d_in_strength_by_group N true s (Some (M, g)) = Ok Bi ->
  d_out_strength N true s = Ok o -> d_in_strength N true s = Ok n -> forall i,
  (forall k, Bo i k = sumn N (fun j => if Nat.eqb (g j) k then dlink s i j else 0) /\
             Bi i k = sumn N (fun j => if Nat.eqb (g j) k then dlink s j i else 0)) /\
  sumn M (fun k => Bo i k) = o i /\ sumn M (fun k => Bi i k) = n i.
Proof.
  intros N s M g Bo Bi o n H HZ HBo HBi Ho Hn i. pose proof (library_dense_groups _ _ _ _ _ H) as Hg. apply library_dense_valid in H.
  unfold d_out_strength_by_group, guard in HBo. unfold d_in_strength_by_group, guard in HBi. unfold d_out_strength, guard in Ho. unfold d_in_strength, guard in Hn.
  destruct (d_directed s) eqn:Hd; [|discriminate]. cbn [d_by_group] in HBo, HBi. injection HBo as <-. injection HBi as <-. injection Ho as <-. injection Hn as <-.
  assert (V : forall x y, d_adjacency true s true true x y = dlink s x y).
  { intros x y. rewrite (d_view _ _ _ _ _ _ H), Hd. reflexivity. }
  assert (Eo : forall k, d_sum_by_group N (d_adjacency true s true true) g i k = sumn N (fun j => if Nat.eqb (g j) k then dlink s i j else 0)).
  { intros k. rewrite group_exact by (intros j _; rewrite V; apply HZ). apply sumn_ext. intros j _. rewrite V. reflexivity. }
  assert (Ei : forall k, d_sum_by_group N (fun i j => d_adjacency true s true true j i) g i k = sumn N (fun j => if Nat.eqb (g j) k then dlink s j i else 0)).
  { intros k. rewrite group_exact by (intros j _; rewrite V; apply HZ). apply sumn_ext. intros j _. rewrite V. reflexivity. }
  split; [auto|]. split.
  - etransitivity; [apply sumn_ext; intros k _; apply Eo|]. rewrite group_partition by exact Hg. rewrite d_sum1_eq. apply sumn_ext. intros j _. symmetry. apply V.
  - etransitivity; [apply sumn_ext; intros k _; apply Ei|]. rewrite group_partition by exact Hg. rewrite d_sum0_eq. apply sumn_ext. intros j _. symmetry. apply V.
Qed.
Print Assumptions C12_out_in_integer_partial.

Example C12_case : exists s g B, library_dense true 2 s (Some (1%nat, g)) /\ d_multi s = false /\
  (forall i j, exists z : Z, dlink s i j = IZR z) /\ d_strength_by_group 2 true s (Some (1%nat, g)) = Ok B /\ B 1%nat 0%nat = 8.
Proof.
  destruct (dense_two_library true [(0%nat, 1%nat, 1); (1%nat, 0%nat, 2); (1%nat, 1%nat, 5)]) as [g [Vg [_ G]]]; [small_rows|].
  assert (HZ : forall i j, exists z : Z, dlink (DDiGraph (assign_all (map (fun t : nat * nat * R => (fst t, if true then snd t else 1)) [(0%nat, 1%nat, 1); (1%nat, 0%nat, 2); (1%nat, 1%nat, 5)]))) i j = IZR z).
  { intros i j. cbn [dlink]. destruct (assign_in (map (fun t : nat * nat * R => (fst t, if true then snd t else 1)) [(0%nat, 1%nat, 1); (1%nat, 0%nat, 2); (1%nat, 1%nat, 5)]) i j) as [->|[t [Ht [_ ->]]]].
    - exists 0%Z. reflexivity.
    - cbn in Ht. destruct Ht as [<-|[<-|[<-|[]]]]; cbn [snd]; [exists 1%Z | exists 2%Z | exists 5%Z]; reflexivity. }
  eexists _, g, _. split; [exact G|]. split; [reflexivity|]. split; [exact HZ|]. split; [reflexivity|].
  destruct (C12_integer_partial _ _ _ _ _ G eq_refl HZ eq_refl 1%nat) as [E _]. rewrite E. cbn [sumn]. rewrite !Vg by lia. cbn. lra.
Qed.

(** A link of weight 1/2 counts as nothing. *)
Theorem C12_refuted : exists s g B Bo, library_dense true 2 s (Some (1%nat, g)) /\
  d_strength_by_group 2 true s (Some (1%nat, g)) = Ok B /\ d_strength 2 true s 0 = 1/2 /\ g 0%nat = 0%nat /\ g 1%nat = 0%nat /\ B 0%nat 0%nat = 0 /\
  d_out_strength_by_group 2 true s (Some (1%nat, g)) = Ok Bo /\ Bo 0%nat 0%nat = 0.
Proof.
  destruct (dense_two_library true [(0%nat, 1%nat, 1/2)]) as [g [Vg [_ G]]]; [small_rows|].
  assert (Z0 : Int_part (1/2) = 0%Z).
  { destruct (base_Int_part (1/2)) as [A B]. assert (A' : IZR (Int_part (1/2)) < IZR 1) by lra. assert (B' : IZR (-1) < IZR (Int_part (1/2))) by lra.
    apply lt_IZR in A'. apply lt_IZR in B'. lia. }
  eexists _, g, _, _. split; [exact G|]. split; [reflexivity|]. split; [unfold d_strength; rewrite d_sum1_eq; cbn; lra|].
  split; [apply Vg; lia|]. split; [apply Vg; lia|]. split; [|split; [reflexivity|]].
  - rewrite d_group_val. cbn [sumn]. rewrite !Vg by lia. cbn. unfold to_int64.
    replace (0 + 0 + (1 / 2 + 0)) with (1/2) by lra. rewrite Rltb_false by lra. rewrite Z0. reflexivity.
  - rewrite d_group_val. cbn [sumn]. rewrite !Vg by lia. cbn. unfold to_int64.
    replace (0 + 0 + 1 / 2) with (1/2) by lra. rewrite Rltb_false by lra. rewrite Z0. reflexivity.
Qed.
Print Assumptions C12_refuted.

(** * C15: self-loops of multigraphs *)

(** The example tables of PropTables.v as dense multigraphs; label 0 has the self-loop of vertex 2. *)
Lemma ex_dense : exists L gr, library_dense true 3 (DMultiGraph 2 L) gr /\ library_dense true 3 (DMultiDiGraph 2 L) gr /\
  (forall i j, L 0%nat i j = assign_all [(0%nat, 1%nat, 3/2); (1%nat, 0%nat, 2); (2%nat, 2%nat, 4)] i j) /\
  (forall i j, L 1%nat i j = assign_all [(0%nat, 1%nat, 1); (2%nat, 0%nat, 1)] i j).
Proof.
  destruct (dense_build Nat.leb Nat.leb Nat.leb nat_order nat_order true false true ex_v ex_e ex_nodup (ex_rows true)) as [gr [_ [_ [L H]]]].
  cbv zeta in H. exists L. eexists. split; [|split; [|split]].
  - eapply (dbuilt _ _ _ _ nat nat nat Nat.leb Nat.leb Nat.leb true false false ex_v ex_e _ nat_order nat_order nat_order);
      [exact (of_dense_multi _ _ _ _ _ _ _ _ _ _ _ _ H) | reflexivity | reflexivity].
  - eapply (dbuilt _ _ _ _ nat nat nat Nat.leb Nat.leb Nat.leb true false false ex_v ex_e _ nat_order nat_order nat_order);
      [exact (of_dense_multidi _ _ _ _ _ _ _ _ _ _ _ _ H) | reflexivity | reflexivity].
  - destruct (dense_multi_pieces Nat.leb Nat.leb Nat.leb nat_order nat_order nat_order _ _ _ _ _ _ _ _ _ H) as [_ [_ E]]. intros i j. rewrite E. reflexivity.
  - destruct (dense_multi_pieces Nat.leb Nat.leb Nat.leb nat_order nat_order nat_order _ _ _ _ _ _ _ _ _ H) as [_ [_ E]]. intros i j. rewrite E. reflexivity.
Qed.

(** Full property: the entry (i,i) is the weight of the self-loops of i.  What holds: the other entries,
    the whole unweighted view, and the diagonal of vertices without self-loops. *)
Theorem C15_partial : forall w N s gr, library_dense w N s gr -> d_multi s = true -> forall i j,
  (i <> j \/ dlink s i i = 0 -> d_adjacency w s false true i j = both_ways (dlink s) i j) /\
  d_adjacency w s false false i j = neighbours (dlink s) i j.
Proof.
  intros w N s gr H Hm i j. apply library_dense_valid in H. rewrite !(d_view _ _ _ _ _ _ H), Hm. cbn [andb]. split; [|reflexivity].
  unfold both_ways. destruct (Nat.eqb_spec i j) as [->|_]; [|reflexivity]. intros [C|C]; [contradiction|]. rewrite C. lra.
Qed.
Print Assumptions C15_partial.

(** Every self-loop is counted twice. *)
Theorem C15_doubled : forall w N s gr, library_dense w N s gr -> d_multi s = true -> forall i,
  d_adjacency w s false true i i = 2 * dlink s i i.
Proof. intros w N s gr H Hm i. apply library_dense_valid in H. rewrite (d_view _ _ _ _ _ _ H), Hm. cbn [andb]. lra. Qed.
Print Assumptions C15_doubled.

Theorem C15_refuted : exists s s' gr gr', library_dense true 3 s gr /\ library_dense true 3 s' gr' /\
  d_multi s = true /\ d_multi s' = true /\ d_directed s = false /\ d_directed s' = true /\
  dlink s 2 2 = 4 /\ d_adjacency true s false true 2%nat 2%nat = 8 /\
  dlink s' 2 2 = 4 /\ d_adjacency true s' false true 2%nat 2%nat = 8.
Proof.
  destruct ex_dense as [L [gr [G1 [G2 [E0 E1]]]]]. exists (DMultiGraph 2 L), (DMultiDiGraph 2 L), gr, gr.
  rewrite (C15_doubled _ _ _ _ G1 eq_refl 2%nat), (C15_doubled _ _ _ _ G2 eq_refl 2%nat).
  cbn [dlink sumn]. rewrite !E0, !E1. cbn. repeat split; try assumption; lra.
Qed.
Print Assumptions C15_refuted.

Example C15_case : exists s gr, library_dense true 3 s gr /\ d_multi s = true /\ dlink s 0 0 = 0 /\ d_adjacency true s false true 0%nat 1%nat = 9/2.
Proof.
  destruct ex_dense as [L [gr [G1 [G2 [E0 E1]]]]]. exists (DMultiGraph 2 L), gr. split; [exact G1|]. split; [reflexivity|].
  destruct (C15_partial _ _ _ _ G1 eq_refl 0%nat 1%nat) as [C _]. rewrite C by (left; discriminate).
  unfold both_ways. cbn [dlink sumn Nat.eqb]. rewrite !E0, !E1. cbn. split; lra.
Qed.

(** As a consequence the strengths and the total weight of a dense undirected multigraph are wrong. *)
Theorem C10_dense_multi_refuted : exists s gr, library_dense true 3 s gr /\ d_directed s = false /\
  sumn 3 (fun x => sumn 3 (fun y => dlink s x y)) = 19/2 /\ d_total_weight 3 true s = 27/2 /\ d_strength 3 true s 2 = 9.
Proof.
  destruct ex_dense as [L [gr [G1 [G2 [E0 E1]]]]]. exists (DMultiGraph 2 L), gr. split; [exact G1|]. split; [reflexivity|].
  pose proof (library_dense_valid _ _ _ _ G1) as V.
  unfold d_total_weight, d_strength. cbn [d_directed]. rewrite d_halved_eq, d_sum1_eq. cbn [sumn]. rewrite !(d_view _ _ _ _ _ _ V).
  cbn [andb d_multi dlink sumn]. rewrite !E0, !E1. cbn. repeat split; lra.
Qed.
Print Assumptions C10_dense_multi_refuted.

(** * C13: labels *)

Theorem C13_dense_directed : forall w N n L gr, library_dense w N (DMultiDiGraph n L) gr ->
  exists T, (forall l, d_total_weight_label N w (DMultiDiGraph n L) l = Ok (T l)) /\
  sumn n T = d_total_weight N w (DMultiDiGraph n L) /\
  exists E, (forall l, d_num_edges_label N w (DMultiDiGraph n L) l = Ok (E l)) /\
  d_num_edges N w (DMultiDiGraph n L) <= sumn n E.
Proof.
  intros w N n L gr H. apply library_dense_valid in H. eexists. split; [intros l; reflexivity|]. split.
  - unfold d_total_weight. cbn [d_directed]. rewrite d_sum_eq.
    rewrite (sumn_ext N _ (fun i => sumn n (fun l => sumn N (fun j => L l i j)))).
    2:{ intros i _. rewrite sumn_swap. apply sumn_ext. intros j _. rewrite (d_view _ _ _ _ _ _ H). reflexivity. }
    rewrite sumn_swap. apply sumn_ext. intros l _. apply d_sum_eq.
  - eexists. split; [intros l; reflexivity|]. unfold d_num_edges. cbn [d_directed]. rewrite d_sum_eq.
    rewrite (sumn_ext n _ (fun l => sumn N (fun i => sumn N (fun j => present (L l i j))))).
    2:{ intros l _. rewrite d_sum_eq. apply sumn_ext. intros i _. apply sumn_ext. intros j _. apply nonzero_present. }
    rewrite (sumn_swap n N (fun l i => sumn N (fun j => present (L l i j)))). apply sumn_le. intros i _.
    rewrite (sumn_swap n N (fun l j => present (L l i j))). apply sumn_le. intros j _.
    rewrite (d_view _ _ _ _ _ _ H). cbn [andb d_directed dlink].
    rewrite <- !(suml_seq n). apply present_suml_le.
Qed.
Print Assumptions C13_dense_directed.

(** Full property: also in the presence of self-loops; see [C13_dense_refuted]. *)
Theorem C13_dense_undirected_partial : forall N n L gr, library_dense true N (DMultiGraph n L) gr ->
  (forall l i, L l i i = 0) ->
  exists S, (forall l, d_strength_by_label N true (DMultiGraph n L) l = Ok (S l)) /\
  (forall i, sumn n (fun l => S l i) = d_strength N true (DMultiGraph n L) i) /\
  exists T, (forall l, d_total_weight_label N true (DMultiGraph n L) l = Ok (T l)) /\
  sumn n T = d_total_weight N true (DMultiGraph n L).
Proof.
  intros N n L gr H H0. apply library_dense_valid in H. eexists. split; [intros l; reflexivity|].
  assert (V : forall i j, d_adjacency true (DMultiGraph n L) false true i j = sumn n (fun l => d_tensor true false L false true l i j)).
  { intros i j. rewrite (d_view _ _ _ _ _ _ H). cbn [andb d_multi dlink]. rewrite <- sumn_plus. apply sumn_ext. intros l _.
    rewrite d_tensor_view by apply H. cbn. unfold both_ways. destruct (Nat.eqb_spec i j) as [->|_]; [rewrite H0; lra | reflexivity]. }
  split.
  - intros i. unfold d_strength. rewrite d_sum1_eq. etransitivity; [|apply sumn_ext; intros j _; symmetry; apply V]. rewrite sumn_swap. apply sumn_ext. intros l _. apply d_sum1_eq.
  - eexists. split; [intros l; reflexivity|]. unfold d_total_weight. cbn [d_directed]. rewrite d_halved_eq.
    rewrite (sumn_ext N (fun i => sumn N (fun j => d_adjacency true (DMultiGraph n L) false true i j)) (fun i => sumn n (fun l => sumn N (fun j => d_tensor true false L false true l i j)))).
    2:{ intros i _. etransitivity; [apply sumn_ext; intros j _; apply V | apply sumn_swap]. }
    rewrite (sumn_ext N (fun i => d_adjacency true (DMultiGraph n L) false true i i) _ (fun i _ => V i i)).
    rewrite (sumn_swap N n), (sumn_swap N n), <- sumn_plus. unfold Rdiv. rewrite <- sumn_scal_r. apply sumn_ext. intros l _.
    rewrite d_halved_eq. reflexivity.
Qed.
Print Assumptions C13_dense_undirected_partial.

Theorem C13_dense_refuted : exists n L gr T, library_dense true 3 (DMultiGraph n L) gr /\
  (forall l, d_total_weight_label 3 true (DMultiGraph n L) l = Ok (T l)) /\ sumn n T = 19/2 /\
  d_total_weight 3 true (DMultiGraph n L) = 27/2.
Proof.
  destruct ex_dense as [L [gr [G1 [G2 [E0 E1]]]]]. exists 2%nat, L, gr. eexists. split; [exact G1|]. split; [intros l; reflexivity|].
  pose proof (library_dense_valid _ _ _ _ G1) as V. unfold d_total_weight. cbn [d_directed sumn]. rewrite !d_halved_eq. cbn [sumn].
  rewrite !(d_view _ _ _ _ _ _ V). rewrite !d_tensor_view by apply V. cbn [andb d_multi dlink sumn]. unfold both_ways. cbn [Nat.eqb]. rewrite !E0, !E1. cbn. split; lra.
Qed.
Print Assumptions C13_dense_refuted.

Example C13_dense_case : exists n L gr, library_dense true 3 (DMultiDiGraph n L) gr /\ n = 2%nat /\ d_total_weight 3 true (DMultiDiGraph n L) = 19/2.
Proof.
  destruct ex_dense as [L [gr [G1 [G2 [E0 E1]]]]]. exists 2%nat, L, gr. split; [exact G2|]. split; [reflexivity|].
  unfold d_total_weight. cbn [d_directed]. rewrite d_sum_eq. cbn [sumn]. rewrite !(d_view _ _ _ _ _ _ (library_dense_valid _ _ _ _ G2)).
  cbn [andb d_multi d_directed dlink sumn]. rewrite !E0, !E1. cbn. lra.
Qed.

(** * C14: the tensor *)

(** The layers of the directed tensor are the stored ones (C06 gives their entries); they add up to the
    weighted matrix and their union is the unweighted one. *)
Theorem C14_dense_directed : forall w N n L gr, library_dense w N (DMultiDiGraph n L) gr -> forall i j,
  (forall l, d_tensor w true L true true l i j = L l i j) /\
  sumn n (fun l => d_tensor w true L true true l i j) = d_adjacency w (DMultiDiGraph n L) true true i j /\
  present (sumn n (fun l => d_tensor w true L true false l i j)) = d_adjacency w (DMultiDiGraph n L) true false i j.
Proof.
  intros w N n L gr H i j. apply library_dense_valid in H. rewrite !(d_view _ _ _ _ _ _ H). cbn [andb d_directed dlink].
  split; [reflexivity|]. split; [reflexivity|].
  rewrite (sumn_ext n _ (fun l => present (L l i j))) by (intros l _; apply nonzero_present).
  clear - H. cbn [dvalid] in H. induction n as [|n IH]; [reflexivity|]. cbn [sumn].
  assert (0 <= sumn n (fun l => L l i j)) by (apply sumn_nonneg; intros; apply H).
  rewrite <- (present_sum (sumn n _) (L n i j)) by (assumption || apply H). rewrite <- IH.
  rewrite <- (present_sum (sumn n _) (present (L n i j))), present_idem; [reflexivity | | apply present_range].
  apply sumn_nonneg. intros; apply present_range.
Qed.
Print Assumptions C14_dense_directed.

(** The undirected tensor of a weighted multigraph.  Full property: also on the diagonal; see C15. *)
Theorem C14_dense_undirected_partial : forall N s n L (c : bool) gr, library_dense true N s gr ->
  s = (if c then DMultiDiGraph n L else DMultiGraph n L) -> forall i j, i <> j ->
  (forall l, d_tensor true c L false true l i j = both_ways (L l) i j) /\
  sumn n (fun l => d_tensor true c L false true l i j) = d_adjacency true s false true i j.
Proof.
  intros N s n L c gr H Hs i j Hne. apply library_dense_valid in H.
  assert (HL : forall l, dmat_ok true (L l)) by (subst s; destruct c; exact H).
  assert (E : forall l, d_tensor true c L false true l i j = both_ways (L l) i j) by (intros l; rewrite d_tensor_view by apply HL; reflexivity).
  split; [exact E|]. rewrite (sumn_ext n _ _ (fun l _ => E l)). rewrite (d_view _ _ _ _ _ _ H).
  replace (d_multi s) with true by (subst s; destruct c; reflexivity). cbn [andb].
  replace (dlink s) with (dlink (DMultiGraph n L)) by (subst s; destruct c; reflexivity). cbn [dlink]. rewrite <- sumn_plus.
  apply sumn_ext. intros l _. unfold both_ways. apply Nat.eqb_neq in Hne. rewrite Hne. reflexivity.
Qed.
Print Assumptions C14_dense_undirected_partial.

Example C14_dense_case : exists L gr, library_dense true 3 (DMultiDiGraph 2 L) gr /\ d_tensor true true L true true 0%nat 2%nat 2%nat = 4 /\
  d_tensor true true L false true 0%nat 0%nat 1%nat = 7/2.
Proof.
  destruct ex_dense as [L [gr [G1 [G2 [E0 E1]]]]]. exists L, gr. split; [exact G2|]. 
  destruct (C14_dense_directed _ _ _ _ _ G2 2%nat 2%nat) as [-> _].
  destruct (C14_dense_undirected_partial 3 _ 2 L true _ G2 eq_refl 0%nat 1%nat) as [-> _]; [lia|].
  unfold both_ways. cbn [Nat.eqb]. rewrite !E0. cbn. split; lra.
Qed.

(** * C16: nearest neighbours *)

(** Full property: with [sl = false] the mean over the other neighbours.  What holds: along incoming links
    of a directed graph the value with [sl = true] is returned, and the self-loop stays in the divisor; see
    [C16_dense_in_refuted] (and [C16_selfloop_refuted] for the divisor). *)
Theorem C16_dense_partial : forall w N s gr prop ndir sl, library_dense w N s gr -> (d_directed s = true -> ndir <> Dother) ->
  exists f, d_average_nn_property N w s N prop ndir (Some sl) = Ok f /\
  forall i, (i < N)%nat ->
  let deg := nb_degree N true (dnbr s ndir) i in
  (deg = 0 -> f i = 0) /\
  (deg <> 0 -> sl = true -> f i = nb_total N true (dnbr s ndir) prop i / deg) /\
  (deg <> 0 -> sl = false -> dnbr s ndir i i = 0 -> f i = nb_total N false (dnbr s ndir) prop i / nb_degree N false (dnbr s ndir) i).
Proof.
  intros w N s gr prop ndir sl H Hd. apply library_dense_valid in H.
  destruct (d_nn_val w N s prop ndir sl H Hd) as [f [Hf V]]. exists f. split; [exact Hf|]. intros i Hi deg.
  assert (D : deg = sumn N (fun j => dnbr s ndir i j)) by (unfold deg, nb_degree, allowed; apply sumn_ext; intros j _; rewrite orb_true_r; reflexivity).
  assert (Z : forall b, dnbr s ndir i i = 0 -> nb_total N b (dnbr s ndir) prop i = nb_total N true (dnbr s ndir) prop i /\
              nb_degree N b (dnbr s ndir) i = deg).
  { intros b Hz. unfold deg, nb_total, nb_degree. split; apply sumn_ext; intros j _; unfold allowed;
    destruct (Nat.eqb_spec i j) as [<-|_]; cbn [negb orb]; rewrite ?Hz; destruct b; cbn; lra. }
  specialize (V i Hi). rewrite <- D in V. destruct (Req_EM_T deg 0) as [E|E]; [split; [auto|split; contradiction]|].
  split; [contradiction|]. split.
  - intros _ ->. exact V.
  - intros _ -> Hz. rewrite V. destruct (Z (keeps_self s ndir N false) Hz) as [-> _]. destruct (Z false Hz) as [-> ->]. reflexivity.
Qed.
Print Assumptions C16_dense_partial.

Example C16_dense_case : exists s gr f, library_dense true 2 s gr /\ d_average_nn_property 2 true s 2 (fun i => INR i) Dout (Some true) = Ok f /\ f 1%nat = 1/2.
Proof.
  destruct (dense_two_library true [(0%nat, 1%nat, 3/2); (1%nat, 0%nat, 2); (1%nat, 1%nat, 5)]) as [g [_ [_ G]]]; [small_rows|].
  destruct (C16_dense_partial _ _ _ _ (fun i => INR i) Dout true G) as [f [Hf V]]; [discriminate|].
  eexists _, _, f. split; [exact G|]. split; [exact Hf|]. destruct (V 1%nat) as [_ [C _]]; [lia|].
  assert (P : nb_degree 2 true (dnbr (DDiGraph (assign_all (map (fun t : nat * nat * R => (fst t, if true then snd t else 1)) [(0%nat, 1%nat, 3/2); (1%nat, 0%nat, 2); (1%nat, 1%nat, 5)]))) Dout) 1 = 2).
  { unfold nb_degree, dnbr. cbn. rewrite !present_pos by lra. lra. }
  rewrite C; [|rewrite P; lra | reflexivity]. rewrite P. unfold nb_total, dnbr. cbn. rewrite !present_pos by lra. lra.
Qed.

(** Vertex 0 has a self-loop and an incoming link from 1.  Asked to leave itself out, the sum over
    incoming neighbours still contains the vertex itself (the sum over outgoing ones does not). *)
Theorem C16_dense_in_refuted : exists s gr f prop, library_dense true 2 s gr /\
  d_average_nn_property 2 true s 2 prop Din (Some false) = Ok f /\
  nb_total 2 false (dnbr s Din) prop 0 = 0 /\ nb_degree 2 false (dnbr s Din) 0 = 1 /\ f 0%nat = 3.
Proof.
  destruct (dense_two_library true [(0%nat, 0%nat, 1); (1%nat, 0%nat, 1)]) as [g [_ [_ G]]]; [small_rows|].
  set (prop := fun i : nat => match i with O => 6 | _ => 0 end).
  destruct (d_nn_val _ 2 _ prop Din false (library_dense_valid _ _ _ _ G)) as [f [Hf V]]; [discriminate|].
  eexists _, _, f, prop. split; [exact G|]. split; [exact Hf|].
  split; [unfold nb_total, dnbr; cbn; rewrite !present_pos by lra; lra|].
  split; [unfold nb_degree, dnbr; cbn; rewrite !present_pos by lra; lra|].
  rewrite V by lia. unfold nb_total, dnbr, keeps_self. cbn. rewrite !present_pos by lra. destruct (Req_EM_T _ 0); lra.
Qed.
Print Assumptions C16_dense_in_refuted.
