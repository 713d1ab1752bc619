(** Properties of the cached graph measures: C17. *)
From Coq Require Import String.
From Verif Require Import Base Num Spec Ids Ensemble Lib IdFacts Graphs GraphFacts DenseGraphs DenseFacts GraphState GraphStateFacts PropTables PropGraph PropDense.

(** [sparse_after N s gr qs] is the state of the object after the queries [qs], [no_cache] the state of
    a fresh copy.  Full property: for all [qs] and [q], the answer to [q] is the same in both. *)

(** ** All measures except average_nn_degree: after any queries whatsoever. *)

Theorem C17_measures : forall N s gr qs q, plain q ->
  fst (sparse_ask N s gr q (sparse_after N s gr qs)) = fst (sparse_ask N s gr q no_cache).
Proof.
  intros N s gr qs q P.
  apply (plain_answer N (is_directed s) (sparse_body N s gr) (sparse_nn_body N s) (sparse_compute N s gr)); [apply sparse_body_ok|exact P].
Qed.
Print Assumptions C17_measures.

Theorem C17_dense_measures : forall N w s gr qs q, plain q ->
  fst (dense_ask N w s gr q (dense_after N w s gr qs)) = fst (dense_ask N w s gr q no_cache).
Proof.
  intros N w s gr qs q P.
  apply (plain_answer N (d_directed s) (dense_body N w s gr) (dense_nn_body N w s) (dense_compute N w s gr)); [apply dense_body_ok|exact P].
Qed.
Print Assumptions C17_dense_measures.

(** The answers of a fresh copy are the measures of the other property files. *)
Theorem C17_values : forall N s gr r,
  fst (sparse_ask N s gr (QMeasure MEdges r) no_cache) = ok_num (num_edges N s) /\
  fst (sparse_ask N s gr (QMeasure MWeight r) no_cache) = ok_num (total_weight N s) /\
  fst (sparse_ask N s gr (QMeasure MDegree r) no_cache) = ok_vec (degree N s) /\
  fst (sparse_ask N s gr (QMeasure MStrength r) no_cache) = ok_vec (strength N s) /\
  fst (sparse_ask N s gr (QMeasure MOutDegree r) no_cache) = ok_vec (out_degree N s) /\
  fst (sparse_ask N s gr (QMeasure MInDegree r) no_cache) = ok_vec (in_degree N s) /\
  fst (sparse_ask N s gr (QMeasure MOutStrength r) no_cache) = ok_vec (out_strength N s) /\
  fst (sparse_ask N s gr (QMeasure MInStrength r) no_cache) = ok_vec (in_strength N s) /\
  fst (sparse_ask N s gr (QMeasure MOutDegreeGroup r) no_cache) = ok_sp (out_degree_by_group N s gr) /\
  fst (sparse_ask N s gr (QMeasure MInDegreeGroup r) no_cache) = ok_sp (in_degree_by_group N s gr) /\
  (forall len prop nd sl dr, fst (sparse_ask N s gr (QProperty len prop nd sl dr) no_cache) = ok_vec (average_nn_property N s len prop (dir_of nd) sl)).
Proof. intros. rewrite !sparse_fresh_measure. repeat (split; [reflexivity|]). intros. apply sparse_fresh_property. Qed.
Print Assumptions C17_values.

(** in_degree asked after out_degree, which has filled the cache of in_degree as well. *)
Example C17_measures_case : exists s gr, library_graph true 3 s gr /\
  sparse_after 3 s gr [QMeasure MOutDegree false] "_in_degree"%string <> None /\
  plain (QMeasure MInDegree false).
Proof.
  destruct ex_library as [A [L [b [lab [_ [G2 _]]]]]]. eexists _, _. split; [exact G2|].
  split; [|exact I]. discriminate.
Qed.
Example C17_dense_measures_case : exists s gr, library_dense true 2 s gr /\
  dense_after 2 true s gr [QMeasure MInDegree true] "_out_degree"%string <> None.
Proof.
  destruct (dense_two_library true [(0%nat, 1%nat, 1)]) as [g [_ [_ G2]]]; [small_rows|].
  eexists _, _. split; [exact G2|]. discriminate.
Qed.

(** ** average_nn_degree: when every such query uses the same [selfloops] and documented directions. *)

Theorem C17_nn_degree_partial : forall N s gr sl qs q,
  Forall (nn_uses (is_directed s) sl) qs -> nn_uses (is_directed s) sl q ->
  fst (sparse_ask N s gr q (sparse_after N s gr qs)) = fst (sparse_ask N s gr q no_cache).
Proof.
  intros N s gr sl qs q F U.
  apply (nn_answer N (is_directed s) (sparse_body N s gr) (sparse_nn_body N s) (sparse_compute N s gr) (sparse_body_ok N s gr) (sparse_body_dir N s) sl qs q F U).
Qed.
Print Assumptions C17_nn_degree_partial.

Theorem C17_dense_nn_degree_partial : forall N w s gr sl qs q,
  Forall (nn_uses (d_directed s) sl) qs -> nn_uses (d_directed s) sl q ->
  fst (dense_ask N w s gr q (dense_after N w s gr qs)) = fst (dense_ask N w s gr q no_cache).
Proof.
  intros N w s gr sl qs q F U.
  apply (nn_answer N (d_directed s) (dense_body N w s gr) (dense_nn_body N w s) (dense_compute N w s gr) (dense_body_ok N w s gr) (dense_body_dir N w s) sl qs q F U).
Qed.
Print Assumptions C17_dense_nn_degree_partial.

(** With a recompute flag the cache plays no role, whatever the history and the arguments. *)
Theorem C17_recompute : forall N s gr qs nd dd sl r dr, r || dr = true ->
  let q := QNnDegree nd dd sl r dr in
  fst (sparse_ask N s gr q (sparse_after N s gr qs)) = fst (sparse_ask N s gr q no_cache).
Proof.
  intros N s gr qs nd dd sl r dr Hr.
  apply (recompute_answer N (is_directed s) (sparse_body N s gr) (sparse_nn_body N s) (sparse_compute N s gr) (sparse_body_ok N s gr) qs nd dd sl r dr Hr).
Qed.
Print Assumptions C17_recompute.

Lemma fresh_nn_ok : forall w N s gr nd dd m sl r dr, library_graph w N s gr -> layers s <> [] ->
  degree_of (is_directed s) (dir_of dd) = Some m -> (is_directed s = true -> dir_of nd <> Dother) ->
  exists deg f, sparse_compute N s gr m = Ok (VVec deg) /\ average_nn_property N s N deg (dir_of nd) (Some sl) = Ok f /\
    fst (sparse_ask N s gr (QNnDegree nd dd (Some sl) r dr) no_cache) = Ok (VVec f).
Proof.
  intros w N s gr nd dd m sl r dr G Hl Hm Hd.
  assert (D : exists deg, sparse_compute N s gr m = Ok (VVec deg)).
  { destruct (adjacency_ok N s true false Hl) as [A EA]. destruct (adjacency_ok N s false false Hl) as [B EB].
    unfold degree_of in Hm. destruct (is_directed s) eqn:Ed.
    - destruct (dir_of dd); try discriminate Hm; injection Hm as <-; cbn [sparse_compute]; unfold out_degree, in_degree, degree, guard;
        rewrite ?Ed, ?EA, ?EB; eexists; reflexivity.
    - injection Hm as <-. cbn [sparse_compute]. unfold degree. rewrite EB. eexists. reflexivity. }
  destruct D as [deg D]. destruct (nn_property_val w N s deg (dir_of nd) sl (library_valid _ _ _ _ G) Hl Hd) as [f [Hf _]].
  exists deg, f. split; [exact D|]. split; [exact Hf|]. rewrite sparse_fresh_nn_degree, Hm, D. cbn [bind as_vec]. unfold ok_vec. rewrite Hf. reflexivity.
Qed.

Example C17_nn_degree_case : exists s gr, library_graph true 3 s gr /\
  let q := QNnDegree "out-in" "in" (Some false) false false in
  let q' := QNnDegree "in" "out" (Some false) false true in
  Forall (nn_uses (is_directed s) (Some false)) [q; QMeasure MOutDegree false; q'] /\ nn_uses (is_directed s) (Some false) q /\
  sparse_after 3 s gr [q] "av_out_in_nn_d_in"%string <> None.
Proof.
  destruct ex_library as [A [L [b [lab [_ [G2 _]]]]]]. eexists _, _. split; [exact G2|]. cbv zeta.
  assert (K1 : known_dir "out") by (left; reflexivity). assert (K2 : known_dir "in") by (right; left; reflexivity).
  assert (K3 : known_dir "out-in") by (right; right; reflexivity).
  split; [|split]; [repeat constructor; cbn; intros; assumption|split; [reflexivity|intros _; split; assumption]|].
  destruct (fresh_nn_ok true 3 _ _ "out-in" "in" MInDegree false false false G2) as [deg [f [_ [_ E]]]]; [discriminate|reflexivity|discriminate|].
  destruct (nn_reuse 3 true _ _ "out-in" "in" "out-in" "in" (Some false) (Some false) false false no_cache _ eq_refl E) as [C _].
  unfold sparse_after, after. cbn [for_each fold_left]. intros Q. cbv zeta in C. discriminate (eq_trans (eq_sym Q) C).
Qed.

(** ** What fails *)

(** The name of the cache does not mention [selfloops].  On a graph made of one self-loop, asking with
    self-loops first makes the answer without self-loops 1 instead of 0. *)
Theorem C17_selfloops_refuted : exists s gr f g, library_graph true 2 s gr /\
  let q sl := QNnDegree "out" "out" (Some sl) false false in
  fst (sparse_ask 2 s gr (q false) (sparse_after 2 s gr [q true])) = Ok (VVec f) /\
  fst (sparse_ask 2 s gr (q false) no_cache) = Ok (VVec g) /\ f 0%nat = 1 /\ g 0%nat = 0.
Proof.
  destruct (one_edge_library true 0 0) as [A [gr [_ [G EA]]]]; [lia|lia|]. pose proof (library_valid _ _ _ _ G) as V.
  destruct (fresh_nn_ok true 2 _ _ "out" "out" MOutDegree true false false G) as [deg [f [D [Hf E]]]]; [discriminate|reflexivity|discriminate|].
  destruct (fresh_nn_ok true 2 _ _ "out" "out" MOutDegree false false false G) as [deg' [g [D' [Hg E']]]]; [discriminate|reflexivity|discriminate|].
  rewrite D in D'. injection D' as <-.
  exists (SDiGraph A), gr, f, g. split; [exact G|]. cbv zeta. split; [|split; [exact E'|]].
  - destruct (nn_reuse 2 true _ _ "out" "out" "out" "out" (Some true) (Some false) false false no_cache _ eq_refl E) as [_ C]. exact C.
  - assert (Ew : forall i j, (j < 2)%nat -> W A i j = if Nat.eqb i 0 && Nat.eqb j 0 then 1 else 0).
    { intros i j Hj. rewrite EA. cbn [negb]. rewrite coo_entry by exact Hj. cbn. destruct i, j; cbn; lra. }
    assert (P : forall j, (j < 2)%nat -> nbr (SDiGraph A) Dout 0 j = if Nat.eqb j 0 then 1 else 0).
    { intros j Hj. unfold nbr. cbn [is_directed link]. rewrite Ew by exact Hj. cbn [Nat.eqb andb].
      destruct (Nat.eqb j 0); [apply present_pos; lra | apply present_0]. }
    assert (Dg : deg 0%nat = 1).
    { cbn in D. injection D as <-.
      rewrite (axis1_view true 2 _ V true false) by (reflexivity || lia). 
      unfold view. cbn. rewrite !Ew by lia. cbn. rewrite present_0, present_pos by lra. lra. }
    destruct (nn_property_val true 2 (SDiGraph A) deg Dout true V) as [f' [Hf' Vf]]; [discriminate|discriminate|].
    destruct (nn_property_val true 2 (SDiGraph A) deg Dout false V) as [g' [Hg' Vg]]; [discriminate|discriminate|].
    change (dir_of "out") with Dout in Hf, Hg. rewrite Hf in Hf'. rewrite Hg in Hg'. injection Hf' as <-. injection Hg' as <-.
    rewrite Vf, Vg by lia. unfold nb_total, allowed. cbn [sumn Nat.eqb negb orb]. rewrite !P by lia. cbn [Nat.eqb].
    destruct (Req_EM_T (0 + 1 + 0) 0); [lra|]. rewrite Dg. split; lra.
Qed.
Print Assumptions C17_selfloops_refuted.

(** The name is built with [replace("-", "_")], so the unknown direction "out_in" is an error on a fresh
    graph but is answered once "out-in" has been asked for. *)
Theorem C17_name_refuted : exists s gr f, library_graph true 3 s gr /\
  let q nd := QNnDegree nd "out" (Some false) false false in
  fst (sparse_ask 3 s gr (q "out_in"%string) (sparse_after 3 s gr [q "out-in"%string])) = Ok (VVec f) /\
  fst (sparse_ask 3 s gr (q "out_in"%string) no_cache) = Raise ValueError.
Proof.
  destruct ex_library as [A [L [b [lab [_ [G _]]]]]].
  destruct (fresh_nn_ok true 3 _ _ "out-in" "out" MOutDegree false false false G) as [deg [f [D [_ E]]]]; [discriminate|reflexivity|discriminate|].
  exists (SDiGraph A), (grouping_of b), f. split; [exact G|]. cbv zeta. split.
  - destruct (nn_reuse 3 true _ _ "out-in" "out" "out_in" "out" (Some false) (Some false) false false no_cache _ eq_refl E) as [_ C]. exact C.
  - rewrite sparse_fresh_nn_degree. cbn [is_directed]. change (degree_of true (dir_of "out")) with (Some MOutDegree). cbv iota beta. rewrite D. reflexivity.
Qed.
Print Assumptions C17_name_refuted.
