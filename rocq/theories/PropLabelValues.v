(** The values of the measures by label (C13): each is the measure of the links of that label alone. *)
From Verif Require Import Base Num Spec Ids Ensemble Lib IdFacts Graphs GraphFacts DenseGraphs DenseFacts PropTables PropGraph PropDense.
Import Num Spec.

(** The sum of [f] over the unordered pairs, a vertex with itself included. *)
Definition unordered (N : nat) (f : nat -> nat -> R) : R := sumn N (fun i => sumn (S i) (fun j => f i j)).

Lemma unordered_half : forall N f, (forall i j, f i j = f j i) ->
  (sumn N (fun i => sumn N (fun j => f i j)) + sumn N (fun i => f i i)) / 2 = unordered N f.
Proof.
  intros N f Sy. unfold unordered. induction N as [|N IH]; [cbn; lra|].
  cbn [sumn] in *. rewrite (sumn_ext N (fun i => sumn N (fun j => f i j) + f i N) (fun i => sumn N (fun j => f i j) + f N i)) by (intros; rewrite (Sy i N); reflexivity).
  rewrite (sumn_plus N (fun i => sumn N (fun j => f i j)) (fun i => f N i)). rewrite <- IH. lra.
Qed.

Lemma unordered_total : forall N w, unordered N (both_ways w) = sumn N (fun i => sumn N (fun j => w i j)).
Proof.
  intros N w. rewrite <- unordered_half by (intros; apply both_ways_sym).
  pose proof (both_ways_total N w) as B.
  rewrite (sumn_ext N (fun i => both_ways w i i) (fun i => w i i)) by (intros i _; unfold both_ways; rewrite Nat.eqb_refl; reflexivity). lra.
Qed.

Lemma unordered_ext : forall N f g, (forall i j, (i < N)%nat -> (j < N)%nat -> f i j = g i j) -> unordered N f = unordered N g.
Proof. intros N f g H. unfold unordered. apply sumn_ext. intros i Hi. apply sumn_ext. intros j Hj. apply H; lia. Qed.

(** ** Sparse graphs *)

(** One number, or one vector, for each layer. *)
Definition numbers (V : list R) (L : list spm) (f : (nat -> nat -> R) -> R) : Prop := Forall2 (fun v A => v = f (fun i j => W A i j)) V L.
Definition vectors (N : nat) (V : list (nat -> R)) (L : list spm) (f : (nat -> nat -> R) -> nat -> R) : Prop :=
  Forall2 (fun v A => forall i, (i < N)%nat -> v i = f (fun i j => W A i j) i) V L.

Lemma map_layers : forall (B : Type) (P : B -> spm -> Prop) g L, Forall (fun A => P (g A) A) L -> Forall2 P (map g L) L.
Proof. intros B P g L H. induction H; cbn; constructor; assumption. Qed.

Section Sparse.
Variables (w : bool) (N : nat) (A : spm).
Hypothesis (HA : wf N A) (HB : sp_bool A = negb w).

Lemma lay_view : forall c d x i j, (i < N)%nat -> (j < N)%nat ->
  W (if c : bool then digraph_adjacency N A d x else graph_adjacency N A d x) i j = view w c (fun i j => W A i j) d x i j.
Proof. intros c d x i j Hi Hj. destruct c; apply (layer_view w N A d x i j HA HB Hi Hj). Qed.

Lemma lay_wf : forall c d x, wf N (if c : bool then digraph_adjacency N A d x else graph_adjacency N A d x).
Proof.
  intros c d x. destruct c, d, x; cbn; try exact HA; try (apply symmetrize_wf, HA); try (apply either_way_wf, HA); apply nonzero_wf, HA.
Qed.

Lemma lay_row : forall c d x i, (i < N)%nat -> sum_axis1 (if c : bool then digraph_adjacency N A d x else graph_adjacency N A d x) i
  = sumn N (fun j => view w c (fun i j => W A i j) d x i j).
Proof. intros c d x i Hi. rewrite (axis1_sum N _ (lay_wf c d x) i Hi). apply sumn_ext. intros j Hj. apply lay_view; assumption. Qed.

Lemma lay_col : forall c d x i, (i < N)%nat -> sum_axis0 N (if c : bool then digraph_adjacency N A d x else graph_adjacency N A d x) i
  = sumn N (fun j => view w c (fun i j => W A i j) d x j i).
Proof. intros c d x i Hi. rewrite axis0_sum. apply sumn_ext. intros j Hj. apply lay_view; assumption. Qed.
End Sparse.

(** Undirected multi graphs. *)
Theorem C13_values_undirected : forall w N L gr, library_graph w N (SMultiGraph L) gr ->
  (exists D, degree_by_label N (SMultiGraph L) = Ok D /\ vectors N D L (fun a i => sumn N (fun j => neighbours a i j))) /\
  (exists E, num_edges_label N (SMultiGraph L) = Ok E /\ numbers E L (fun a => unordered N (neighbours a))) /\
  (w = true -> exists S, strength_by_label N (SMultiGraph L) = Ok S /\ vectors N S L (fun a i => sumn N (fun j => both_ways a i j))) /\
  (w = true -> exists T, total_weight_label N (SMultiGraph L) = Ok T /\ numbers T L (fun a => sumn N (fun i => sumn N (fun j => a i j)))).
Proof.
  intros w N L gr HG. pose proof (library_valid _ _ _ _ HG) as HV. unfold valid in HV. cbn [layers] in HV.
  split; [|split; [|split]].
  - eexists. split; [reflexivity|]. unfold vectors. rewrite multigraph_tensor_map, map_map. apply map_layers.
    eapply Forall_impl; [|exact HV]. intros A [WA BA] i Hi. rewrite (lay_row w N A WA BA false false false i Hi). reflexivity.
  - eexists. split; [reflexivity|]. unfold numbers. rewrite multigraph_tensor_map, map_map. apply map_layers.
    eapply Forall_impl; [|exact HV]. intros A [WA BA]. pose proof (lay_wf N A WA false false false) as WF. cbn beta iota in WF.
    rewrite <- unordered_half by (intros; apply neighbours_sym). rewrite (nnz_sum N _ WF), vec_sum_eq. f_equal. f_equal.
    + apply sumn_ext. intros i Hi. apply sumn_ext. intros j Hj. rewrite (lay_view w N A WA BA false false false i j Hi Hj). apply present_idem.
    + apply sumn_ext. intros i Hi. unfold sp_diagonal. rewrite (wf_get N _ WF) by exact Hi. apply (lay_view w N A WA BA false false false i i Hi Hi).
  - intros ->. eexists. split; [reflexivity|]. unfold vectors. rewrite multigraph_tensor_map, map_map. apply map_layers.
    eapply Forall_impl; [|exact HV]. intros A [WA BA] i Hi. rewrite (lay_row true N A WA BA false false true i Hi). reflexivity.
  - intros ->. eexists. split; [reflexivity|]. unfold numbers. rewrite multigraph_tensor_map, map_map. apply map_layers.
    eapply Forall_impl; [|exact HV]. intros A [WA BA]. pose proof (lay_wf N A WA false false true) as WF. cbn beta iota in WF.
    rewrite <- unordered_total, <- unordered_half by (intros; apply both_ways_sym). unfold halved. rewrite (all_sum N _ WF), vec_sum_eq. f_equal. f_equal.
    + apply sumn_ext. intros i Hi. apply sumn_ext. intros j Hj. apply (lay_view true N A WA BA false false true i j Hi Hj).
    + apply sumn_ext. intros i Hi. unfold sp_diagonal. rewrite (wf_get N _ WF) by exact Hi. apply (lay_view true N A WA BA false false true i i Hi Hi).
Qed.
Print Assumptions C13_values_undirected.

(** Directed multi graphs. *)
Theorem C13_values_directed : forall w N L gr, library_graph w N (SMultiDiGraph L) gr ->
  let s := SMultiDiGraph L in
  (exists D, degree_by_label N s = Ok D /\ vectors N D L (fun a i => sumn N (fun j => neighbours a i j))) /\
  (exists D, out_degree_by_label N s = Ok D /\ vectors N D L (fun a i => sumn N (fun j => present (a i j)))) /\
  (exists D, in_degree_by_label N s = Ok D /\ vectors N D L (fun a i => sumn N (fun j => present (a j i)))) /\
  (exists E, num_edges_label N s = Ok E /\ numbers E L (fun a => sumn N (fun i => sumn N (fun j => present (a i j))))) /\
  (w = true ->
    (exists S, strength_by_label N s = Ok S /\ vectors N S L (fun a i => sumn N (fun j => both_ways a i j))) /\
    (exists S, out_strength_by_label N s = Ok S /\ vectors N S L (fun a i => sumn N (fun j => a i j))) /\
    (exists S, in_strength_by_label N s = Ok S /\ vectors N S L (fun a i => sumn N (fun j => a j i))) /\
    (exists T, total_weight_label N s = Ok T /\ numbers T L (fun a => sumn N (fun i => sumn N (fun j => a i j))))).
Proof.
  intros w N L gr HG s. pose proof (library_valid _ _ _ _ HG) as HV. unfold valid in HV. cbn [layers] in HV.
  Ltac layer HV := eexists; split; [reflexivity|]; unfold vectors, numbers; rewrite multidigraph_tensor_map, map_map; apply map_layers;
    eapply Forall_impl; [|exact HV].
  repeat match goal with |- _ /\ _ => split end.
  - layer HV. intros A [WA BA] i Hi. rewrite (lay_row w N A WA BA true false false i Hi). reflexivity.
  - layer HV. intros A [WA BA] i Hi. rewrite (lay_row w N A WA BA true true false i Hi). reflexivity.
  - layer HV. intros A [WA BA] i Hi. rewrite (lay_col w N A WA BA true true false i Hi). reflexivity.
  - layer HV. intros A [WA BA]. rewrite (nnz_sum N _ (lay_wf N A WA true true false)).
    apply sumn_ext. intros i Hi. apply sumn_ext. intros j Hj. rewrite (lay_view w N A WA BA true true false i j Hi Hj). apply present_idem.
  - intros ->. repeat match goal with |- _ /\ _ => split end.
    + layer HV. intros A [WA BA] i Hi. rewrite (lay_row true N A WA BA true false true i Hi). reflexivity.
    + layer HV. intros A [WA BA] i Hi. rewrite (lay_row true N A WA BA true true true i Hi). reflexivity.
    + layer HV. intros A [WA BA] i Hi. rewrite (lay_col true N A WA BA true true true i Hi). reflexivity.
    + layer HV. intros A [WA BA]. rewrite (all_sum N _ (lay_wf N A WA true true true)). reflexivity.
Qed.
Print Assumptions C13_values_directed.

Example C13_values_case : exists L gr, library_graph true 3 (SMultiGraph L) gr /\ library_graph true 3 (SMultiDiGraph L) gr /\ length L = 2%nat.
Proof.
  destruct ex_library as [A [L [b [lab [_ [_ [G3 [G4 [_ H]]]]]]]]]. exists L, (grouping_of b). split; [exact G3|]. split; [exact G4|].
  destruct (build_multigraph Nat.leb Nat.leb Nat.leb nat_order nat_order nat_order true false true ex_v ex_e ex_nodup (ex_rows true)) as [gr [_ H']].
  rewrite H' in H. injection H as _ _ <-. reflexivity.
Qed.

(** ** Dense graphs *)

Theorem C13_dense_values_undirected : forall w N n L gr, library_dense w N (DMultiGraph n L) gr ->
  let s := DMultiGraph n L in forall l,
  (exists D, d_degree_by_label N w s l = Ok D /\ forall i, D i = sumn N (fun j => neighbours (L l) i j)) /\
  d_num_edges_label N w s l = Ok (unordered N (neighbours (L l))) /\
  (exists S, d_strength_by_label N w s l = Ok S /\ forall i, S i = sumn N (fun j => if w then both_ways (L l) i j else neighbours (L l) i j)) /\
  d_total_weight_label N w s l = Ok (if w then sumn N (fun i => sumn N (fun j => L l i j)) else unordered N (neighbours (L l))) /\
  d_out_degree_by_label N w s l = Raise AttributeError /\ d_in_degree_by_label N w s l = Raise AttributeError /\
  d_out_strength_by_label N s l = Raise AttributeError /\ d_in_strength_by_label N s l = Raise AttributeError.
Proof.
  intros w N n L gr HG s l. apply library_dense_valid in HG. cbn [dvalid] in HG. specialize (HG l).
  assert (V := fun x i j => d_tensor_view w false L false x l i j HG).
  assert (H : forall x f, (forall i j, d_tensor w false L false x l i j = f i j) -> (forall i j, f i j = f j i) ->
    d_halved N (d_tensor w false L false x l) = unordered N f).
  { intros x f E Sy. rewrite d_halved_eq, <- unordered_half by exact Sy. f_equal. f_equal; [apply sumn_ext; intros i _; apply sumn_ext; intros j _ | apply sumn_ext; intros i _]; apply E. }
  split; [|split; [|split; [|split; [|repeat split]]]].
  - eexists. split; [reflexivity|]. intros i. rewrite d_sum1_eq. apply sumn_ext. intros j _. rewrite V. reflexivity.
  - cbn [d_num_edges_label s]. f_equal. apply H; [intros; rewrite V; reflexivity | intros; apply neighbours_sym].
  - eexists. split; [reflexivity|]. intros i. rewrite d_sum1_eq. apply sumn_ext. intros j _. rewrite V. reflexivity.
  - cbn [d_total_weight_label s]. f_equal. destruct w.
    + rewrite <- unordered_total. apply H; [intros; rewrite V; reflexivity | intros; apply both_ways_sym].
    + apply H; [intros; rewrite V; reflexivity | intros; apply neighbours_sym].
Qed.
Print Assumptions C13_dense_values_undirected.

Theorem C13_dense_values_directed : forall w N n L gr, library_dense w N (DMultiDiGraph n L) gr ->
  let s := DMultiDiGraph n L in forall l,
  (exists D, d_degree_by_label N w s l = Ok D /\ forall i, D i = sumn N (fun j => neighbours (L l) i j)) /\
  (exists D, d_out_degree_by_label N w s l = Ok D /\ forall i, D i = sumn N (fun j => present (L l i j))) /\
  (exists D, d_in_degree_by_label N w s l = Ok D /\ forall i, D i = sumn N (fun j => present (L l j i))) /\
  d_num_edges_label N w s l = Ok (sumn N (fun i => sumn N (fun j => present (L l i j)))) /\
  (exists S, d_strength_by_label N w s l = Ok S /\ forall i, S i = sumn N (fun j => if w then both_ways (L l) i j else neighbours (L l) i j)) /\
  (exists S, d_out_strength_by_label N s l = Ok S /\ forall i, S i = sumn N (fun j => L l i j)) /\
  (exists S, d_in_strength_by_label N s l = Ok S /\ forall i, S i = sumn N (fun j => L l j i)) /\
  d_total_weight_label N w s l = Ok (sumn N (fun i => sumn N (fun j => L l i j))).
Proof.
  intros w N n L gr HG s l. apply library_dense_valid in HG. cbn [dvalid] in HG. specialize (HG l).
  assert (V := fun d x i j => d_tensor_view w true L d x l i j HG).
  repeat match goal with |- _ /\ _ => split end.
  - eexists. split; [reflexivity|]. intros i. rewrite d_sum1_eq. apply sumn_ext. intros j _. rewrite V. reflexivity.
  - eexists. split; [reflexivity|]. intros i. rewrite d_sum1_eq. apply sumn_ext. intros j _. rewrite V. reflexivity.
  - eexists. split; [reflexivity|]. intros i. rewrite d_sum0_eq. apply sumn_ext. intros j _. rewrite V. reflexivity.
  - cbn [d_num_edges_label s]. f_equal. rewrite d_sum_eq. apply sumn_ext. intros i _. apply sumn_ext. intros j _. rewrite V. reflexivity.
  - eexists. split; [reflexivity|]. intros i. rewrite d_sum1_eq. apply sumn_ext. intros j _. rewrite V. reflexivity.
  - eexists. split; [reflexivity|]. intros i. apply d_sum1_eq.
  - eexists. split; [reflexivity|]. intros i. apply d_sum0_eq.
  - cbn [d_total_weight_label s]. f_equal. rewrite d_sum_eq. apply sumn_ext. intros i _. apply sumn_ext. intros j _. rewrite V. reflexivity.
Qed.
Print Assumptions C13_dense_values_directed.

Example C13_dense_values_case : exists L gr, library_dense true 3 (DMultiGraph 2 L) gr /\ library_dense true 3 (DMultiDiGraph 2 L) gr /\
  d_num_edges_label 3 true (DMultiGraph 2 L) 0 = Ok 2.
Proof.
  destruct ex_dense as [L [gr [G1 [G2 [E0 E1]]]]]. exists L, gr. split; [exact G1|]. split; [exact G2|].
  destruct (C13_dense_values_undirected true 3 2 L gr G1 0%nat) as (_ & E & _). rewrite E. f_equal.
  unfold unordered, neighbours, both_ways. cbn [sumn Nat.eqb]. rewrite !E0. cbn. rewrite ?Rplus_0_l, ?Rplus_0_r, !present_0, !present_pos by lra. lra.
Qed.
