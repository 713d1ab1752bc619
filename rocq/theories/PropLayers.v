(** Properties of the layers of the multi-label models: C52, C53, C54, C55. *)
From Verif Require Import Base Num Spec Kernels KernelFacts MultiKernels MultiFacts Prob Ensemble EnsembleFacts
  EnsembleProps Models Layers LayerFacts LayerProps Solver Fit LayerLib LayerFit.
From Coq Require Import Sorting.Sorted.

(** * C52: conversions of the label properties *)

(** A compressed array with at least one row: the row pointer starts at 0, is nondecreasing and ends at
    the number of stored entries.  Both directions of the conversion are inverse to each other. *)
Theorem C52_round_trip : forall c,
  (2 <= length (c_indptr c))%nat -> nth 0 (c_indptr c) 0%nat = 0%nat ->
  (forall i, (i + 1 < length (c_indptr c))%nat -> (nth i (c_indptr c) 0 <= nth (i + 1) (c_indptr c) 0)%nat) ->
  nth (length (c_indptr c) - 1) (c_indptr c) 0%nat = length (c_indices c) ->
  length (c_data c) = length (c_indices c) ->
  tuple_list_to_csx (csx_to_tuple_list c) = Ok c.
Proof.
  intros c H1 H2 H3 H4 H5. destruct (valid_round c) as (G & Ln & E).
  { unfold valid_csx. auto. }
  rewrite of_tuples_pack; [rewrite E; reflexivity | | exact G].
  intros K. rewrite K in Ln. simpl in Ln. lia.
Qed.
Print Assumptions C52_round_trip.

Theorem C52_round_trip_tuples : forall t, t <> [] -> Forall (fun r => length (fst r) = length (snd r)) t ->
  exists c, tuple_list_to_csx t = Ok c /\ csx_to_tuple_list c = t.
Proof.
  intros t H1 H2. exists (pack t). split; [apply of_tuples_pack; assumption | apply to_tuples_pack; exact H2].
Qed.
Print Assumptions C52_round_trip_tuples.

(** A 3 x 3 matrix with an empty row. *)
Example C52_case :
  let c := mkCsx [Fin 1; Fin 2; Fin 3] [0; 2; 1]%nat [0; 2; 2; 3]%nat in
  (2 <= length (c_indptr c))%nat /\
  (forall i, (i + 1 < length (c_indptr c))%nat -> (nth i (c_indptr c) 0 <= nth (i + 1) (c_indptr c) 0)%nat) /\
  csx_to_tuple_list c = [([0; 2]%nat, [Fin 1; Fin 2]); ([], []); ([1]%nat, [Fin 3])] /\
  tuple_list_to_csx (csx_to_tuple_list c) = Ok c.
Proof.
  split; [simpl; lia|]. split; [intros i Hi; simpl in Hi; destruct i as [|[|[|i]]]; simpl; lia|]. split; reflexivity.
Qed.

(** The by-layer form: label [k] lists, in increasing order, the vertices with an entry for [k] and
    their values. *)
Theorem C52_transpose : forall L t, t <> [] -> Forall (fun r => length (fst r) = length (snd r)) t ->
  Forall (fun r => canonical L (row_vec r)) t ->
  exists ls, by_layer L t = Ok ls /\ length ls = L /\
  forall k, (k < L)%nat -> canonical (length t) (row_vec (nth k ls ([], []))) /\
    (forall i, label_stored ls k i <-> label_stored t i k) /\
    (forall i, label_value ls k i = label_value t i k).
Proof.
  intros L t H1 H2 H3. rewrite by_layer_spec by assumption.
  eexists. split; [reflexivity|]. split; [rewrite map_length, seq_length; reflexivity|]. intros k Hk.
  assert (F : Forall (canonical L) (map zip t)).
  { apply Forall_forall. intros r Hr. apply in_map_iff in Hr. destruct Hr as (u & <- & Hu).
    exact (proj1 (Forall_forall _ _) H3 u Hu). }
  assert (E : row_vec (nth k (map (fun l => tuple_of (column (map zip t) l)) (seq 0 L)) ([], [])) = column (map zip t) k)
    by (apply nth_layers; exact Hk).
  assert (En : forall i, nth i (map zip t) [] = row_vec (nth i t ([], []))).
  { intros i. change (@nil (nat * num)) with (zip ([], [])). apply map_nth. }
  destruct (column_spec (map zip t) L k F) as (C1 & C2 & C3). rewrite map_length in C1, C2, C3.
  split; [exact (eq_ind_r (canonical (length t)) C1 E)|].
  assert (S : forall i, In i (map fst (column (map zip t) k)) <-> In k (map fst (row_vec (nth i t ([], []))))).
  { intros i. rewrite C3, En. split; [tauto|]. intros H. split; [|exact H].
    destruct (Nat.lt_ge_cases i (length t)) as [Hi|Hi]; [exact Hi|]. rewrite nth_overflow in H by exact Hi. contradiction. }
  split; [intros i; exact (eq_ind_r (fun r => In i (map fst r) <-> label_stored t i k) (S i) E)|].
  intros i. etransitivity; [exact (f_equal (lookup i) E)|]. unfold label_value.
  destruct (Nat.lt_ge_cases i (length t)) as [Hi|Hi].
  - rewrite C2 by exact Hi. rewrite En. reflexivity.
  - rewrite (nth_overflow t) by exact Hi. simpl. apply lookup_notin. intros KK. apply (proj1 (C3 i)) in KK. destruct KK as [KK _]. exact (Nat.lt_irrefl _ (Nat.lt_le_trans _ _ _ KK Hi)).
Qed.
Print Assumptions C52_transpose.

Example C52_transpose_case :
  let t := [([0; 2]%nat, [Fin 1; Fin 2]); ([], []); ([0]%nat, [Fin 3])] in
  Forall (fun r => canonical 3 (row_vec r)) t /\
  by_layer 3 t = Ok [([0; 2]%nat, [Fin 1; Fin 3]); ([], []); ([0]%nat, [Fin 2])].
Proof.
  split; [|reflexivity].
  repeat constructor; simpl; try lia.
Qed.

(** An array without rows cannot be converted back. *)
Theorem C52_no_rows_refuted : exists c,
  c_indptr c = [0%nat] /\ c_data c = [] /\ c_indices c = [] /\
  csx_to_tuple_list c = [] /\ tuple_list_to_csx (csx_to_tuple_list c) = Raise IndexError.
Proof. exists (mkCsx [] [] [0%nat]). repeat split. Qed.
Print Assumptions C52_no_rows_refuted.

(** * C53: expected degrees by label *)

(** The expected number of links of each label. *)
Theorem C53_edges : forall g p lp l1p, layer_kernels g p lp l1p ->
  forall z L N d xs ys sl, label_table L xs -> label_table L ys -> length xs = N -> length ys = N ->
  (forall k, (k < L)%nat -> nonneg (d k)) ->
  exists e, expected_num_edges_label p z L xs ys (Some d) sl = Ok e /\
  forall k, (k < L)%nat -> e k = pair_sum N sl (layer_prob g d xs ys k).
Proof.
  intros g p lp l1p K z L N d xs ys sl Tx Ty Nx Ny Hd.
  exact (edges_label_spec g p lp l1p K z L N d xs ys Tx Ty Nx Ny Hd sl).
Qed.
Print Assumptions C53_edges.

(** What the computed degrees are in general: the pair {v,j} is counted once for each orientation for
    which both fitnesses are stored. *)
Theorem C53_degrees_computed : forall g p lp l1p, layer_kernels g p lp l1p ->
  forall z L N d xs ys sl, label_table L xs -> label_table L ys -> length xs = N -> length ys = N ->
  (forall k, (k < L)%nat -> nonneg (d k)) ->
  exists a b c, expected_degrees_by_label p z L xs ys (Some d) sl = Ok (a, b, c) /\
  forall v k, (v < N)%nat -> (k < L)%nat ->
    let q := layer_prob g d xs ys k in
    let has := fun t i => existsb (Nat.eqb k) (map fst (row_vec (nth i t ([], [])))) in
    let times := fun j => b2r (has xs v && has ys j) + b2r (has xs j && has ys v) in
    let measure := fun l : nat -> nat -> R =>
      sumn N (fun j => if Nat.eqb v j then (if sl then q v v else 0) else times j * l v j) in
    a v k = measure (either_link q) /\ b v k = measure (out_link q) /\ c v k = measure (in_link q).
Proof.
  intros g p lp l1p K z L N d xs ys sl Tx Ty Nx Ny Hd.
  destruct (degrees_label_spec g p lp l1p K z L N d xs ys Tx Ty Nx Ny Hd sl) as (a & b & c & E & H).
  exists a, b, c. split; [exact E|]. intros v k Hv Hk q has tm measure.
  destruct (H v k Hv Hk) as (A & B & C). rewrite A, B, C.
  assert (Sx : forall i, stored i (column (map zip xs) k) = has xs i).
  { intros i. pose proof (layer_stored L xs Tx i k) as S. unfold has. unfold label_stored in S.
    destruct (stored i (column (map zip xs) k)), (existsb (Nat.eqb k) (map fst (row_vec (nth i xs ([], []))))) eqn:E2; try reflexivity.
    - pose proof (proj1 S eq_refl) as S1. apply (proj2 (stored_in k (row_vec (nth i xs ([], []))))) in S1.
      unfold stored in S1. congruence.
    - apply S. apply (proj1 (stored_in k (row_vec (nth i xs ([], []))))). exact E2. }
  assert (Sy : forall i, stored i (column (map zip ys) k) = has ys i).
  { intros i. pose proof (layer_stored L ys Ty i k) as S. unfold has. unfold label_stored in S.
    destruct (stored i (column (map zip ys) k)), (existsb (Nat.eqb k) (map fst (row_vec (nth i ys ([], []))))) eqn:E2; try reflexivity.
    - pose proof (proj1 S eq_refl) as S1. apply (proj2 (stored_in k (row_vec (nth i ys ([], []))))) in S1.
      unfold stored in S1. congruence.
    - apply S. apply (proj1 (stored_in k (row_vec (nth i ys ([], []))))). exact E2. }
  assert (Q0 : has xs v && has ys v = false -> q v v = 0).
  { intros H0. unfold q, layer_prob. rewrite <- (layer_lookup L xs Tx), <- (layer_lookup L ys Ty).
    rewrite <- Sx, <- Sy in H0. apply andb_false_iff in H0. unfold link_prob.
    destruct H0 as [H0|H0]; apply stored_false in H0; rewrite H0; cbn [existsb is_zero];
      destruct (Reqb_spec 0 0) as [_|Hn]; try (contradiction Hn; reflexivity); rewrite ?orb_true_r; reflexivity. }
  assert (M : forall h l, (forall j, j <> v -> h v j = l v j) ->
    visited g d xs ys k v sl h = measure l).
  { intros h l Hh. rewrite (visited_count g L N d xs ys Tx Ty Nx Ny k v sl h Hv). unfold measure. apply sumn_ext. intros j Hj.
    rewrite !Sx, !Sy. destruct (Nat.eqb_spec v j) as [<-|Hn].
    - fold q. destruct sl; [|reflexivity]. cbn [andb].
      destruct (has xs v && has ys v) eqn:E3; [reflexivity | symmetry; apply Q0; reflexivity].
    - unfold tm, b2r. rewrite Hh by congruence.
      destruct (has xs v && has ys j), (has xs j && has ys v); ring. }
  repeat split; apply M; intros j Hn; cbv beta.
  - unfold either_link. destruct (Nat.eqb_spec v j); [congruence|]. unfold q. ring.
  - reflexivity.
  - reflexivity.
Qed.
Print Assumptions C53_degrees_computed.

(** Two vertices and one label; a table with both fitnesses for each of the vertices 0..n-1. *)
Definition ex_table (n : nat) : list (list nat * list num) := repeat ([0%nat], [Fin 1]) n.
Lemma ex_table_ok : forall n, (0 < n)%nat -> label_table 1 (ex_table n).
Proof.
  intros n Hn. unfold label_table, ex_table. split; [destruct n; [lia | discriminate]|].
  split; apply Forall_forall; intros r Hr; apply repeat_spec in Hr; subst r; [reflexivity|].
  repeat constructor; simpl; try lia; lra.
Qed.
Lemma ex_layer_prob : layer_prob logistic (fun _ => Fin 1) (ex_table 2) (ex_table 2) 0 0 0 = 1 / 2 /\
  layer_prob logistic (fun _ => Fin 1) (ex_table 2) (ex_table 2) 0 0 1 = 1 / 2 /\
  layer_prob logistic (fun _ => Fin 1) (ex_table 2) (ex_table 2) 0 1 0 = 1 / 2 /\
  layer_prob logistic (fun _ => Fin 1) (ex_table 2) (ex_table 2) 0 1 1 = 1 / 2.
Proof.
  assert (E : link_prob logistic [Fin 1; Fin 1; Fin 1; Fin 1] = 1 / 2).
  { unfold link_prob. cbn [existsb is_zero is_infinite].
    destruct (Reqb_spec 1 0) as [|_]; [lra|]. simpl. unfold logistic. field. }
  unfold layer_prob. repeat split; exact E.
Qed.

Example C53_edges_case : label_table 1 (ex_table 2) /\ length (ex_table 2) = 2%nat /\
  pair_sum 2 false (layer_prob logistic (fun _ => Fin 1) (ex_table 2) (ex_table 2) 0) = 1.
Proof.
  split; [apply ex_table_ok; lia|]. split; [reflexivity|]. unfold pair_sum. simpl.
  destruct ex_layer_prob as (_ & E1 & E2 & _). rewrite E1, E2. field.
Qed.

(** Full statement: the same without the last hypothesis (at most one vertex has both an out- and an
    in-fitness for the label).  It is false, see C53_degrees_refuted and C53_degrees_computed. *)
Theorem C53_degrees_partial : forall g p lp l1p, layer_kernels g p lp l1p ->
  forall z L N d xs ys sl, label_table L xs -> label_table L ys -> length xs = N -> length ys = N ->
  (forall k, (k < L)%nat -> nonneg (d k)) ->
  exists a b c e, expected_degrees_by_label p z L xs ys (Some d) sl = Ok (a, b, c) /\
  expected_num_edges_label p z L xs ys (Some d) sl = Ok e /\
  forall k, (k < L)%nat ->
    (forall i j, i <> j -> label_stored xs i k -> label_stored ys i k -> label_stored xs j k -> label_stored ys j k -> False) ->
    let q := layer_prob g d xs ys k in
    (forall v, (v < N)%nat -> a v k = nb_degree N sl (either_link q) v /\
       b v k = nb_degree N sl (out_link q) v /\ c v k = nb_degree N sl (in_link q) v) /\
    sumn N (fun v => b v k) = e k /\ sumn N (fun v => c v k) = e k.
Proof.
  intros g p lp l1p K z L N d xs ys sl Tx Ty Nx Ny Hd.
  destruct (degrees_label_spec g p lp l1p K z L N d xs ys Tx Ty Nx Ny Hd sl) as (a & b & c & E & H).
  destruct (edges_label_spec g p lp l1p K z L N d xs ys Tx Ty Nx Ny Hd sl) as (e & E' & He).
  exists a, b, c, e. split; [exact E|]. split; [exact E'|]. intros k Hk H1 q.
  assert (D : forall v, (v < N)%nat -> a v k = nb_degree N sl (either_link q) v /\
       b v k = nb_degree N sl (out_link q) v /\ c v k = nb_degree N sl (in_link q) v).
  { intros v Hv. destruct (H v k Hv Hk) as (A & B & C). rewrite A, B, C.
    exact (visited_once g p lp l1p K z L N d xs ys Tx Ty Nx Ny Hd k sl v Hk Hv H1). }
  split; [exact D|]. rewrite (He k Hk). unfold pair_sum. fold q. split.
  - apply sumn_ext. intros v Hv. destruct (D v Hv) as (_ & -> & _). reflexivity.
  - etransitivity; [apply sumn_ext; intros v Hv; destruct (D v Hv) as (_ & _ & ->); reflexivity|].
    unfold nb_degree. rewrite sumn_swap. apply sumn_ext. intros i Hi. apply sumn_ext. intros j Hj.
    rewrite adm_sym. reflexivity.
Qed.
Print Assumptions C53_degrees_partial.

(** Vertex 0 sells to vertex 1. *)
Example C53_degrees_case :
  let xs := [([0%nat], [Fin 1]); ([], [])] in let ys := [([], []); ([0%nat], [Fin 1])] in
  label_table 1 xs /\ label_table 1 ys /\
  (forall i j, i <> j -> label_stored xs i 0 -> label_stored ys i 0 -> label_stored xs j 0 -> label_stored ys j 0 -> False) /\
  nb_degree 2 false (out_link (layer_prob logistic (fun _ => Fin 1) xs ys 0)) 0 = 1 / 2.
Proof.
  repeat split; try discriminate; try (repeat constructor; simpl; try lia; lra).
  - intros i j _ H1 H2 _ _. destruct i as [|[|[|i]]]; simpl in H1, H2; auto.
  - unfold nb_degree. simpl. unfold out_link, layer_prob, label_value, link_prob; simpl.
    repeat match goal with |- context[Reqb ?a ?b] => destruct (Reqb_spec a b); try lra end. simpl. unfold logistic. field.
Qed.

(** With two vertices that have both fitnesses every pair is counted twice: the out-degree is 1
    instead of 1/2 and the out-degrees sum to twice the expected number of links. *)
Theorem C53_degrees_refuted : exists L N d xs ys sl a b c e k v,
  label_table L xs /\ label_table L ys /\ length xs = N /\ length ys = N /\ (k < L)%nat /\ (v < N)%nat /\
  expected_degrees_by_label (fun d x y z => toR (mfit_p_ijk d x y z)) (fun _ _ => Fin 1) L xs ys (Some d) sl = Ok (a, b, c) /\
  expected_num_edges_label (fun d x y z => toR (mfit_p_ijk d x y z)) (fun _ _ => Fin 1) L xs ys (Some d) sl = Ok e /\
  let q := layer_prob logistic d xs ys k in
  a v k = 2 * nb_degree N sl (either_link q) v /\ b v k = 2 * nb_degree N sl (out_link q) v /\
  c v k = 2 * nb_degree N sl (in_link q) v /\ nb_degree N sl (out_link q) v = 1 / 2 /\
  sumn N (fun v => b v k) = 2 * e k /\ e k = 1.
Proof.
  assert (T : label_table 1 (ex_table 2)) by (apply ex_table_ok; lia).
  assert (Hd : forall k, (k < 1)%nat -> nonneg (Fin 1)) by (intros; simpl; lra).
  destruct (C53_degrees_computed _ _ _ _ fitness_kernels (fun _ _ => Fin 1) 1 2 (fun _ => Fin 1) (ex_table 2) (ex_table 2)
    false T T eq_refl eq_refl Hd) as (a & b & c & E & H).
  destruct (C53_edges _ _ _ _ fitness_kernels (fun _ _ => Fin 1) 1 2 (fun _ => Fin 1) (ex_table 2) (ex_table 2)
    false T T eq_refl eq_refl Hd) as (e & E' & He).
  exists 1%nat, 2%nat, (fun _ => Fin 1), (ex_table 2), (ex_table 2), false, a, b, c, e, 0%nat, 0%nat.
  destruct ex_layer_prob as (Q00 & Q01 & Q10 & Q11).
  destruct (H 0%nat 0%nat) as (A & B & C); [lia | lia|].
  destruct (H 1%nat 0%nat) as (_ & B1 & _); [lia | lia|].
  specialize (He 0%nat ltac:(lia)). cbn in A, B, C, B1.
  unfold pair_sum in He. cbn in He. unfold out_link, in_link in *. unfold either_link in A. cbn in A.
  cbn in Q01, Q10. rewrite ?Q01, ?Q10 in A, B, C, B1, He.
  do 8 (split; [solve [assumption | reflexivity | lia]|]).
  cbv zeta. unfold nb_degree, out_link, in_link, either_link. cbn.
  rewrite ?A, ?B, ?C, ?B1, ?He, ?Q01, ?Q10. repeat split; field.
Qed.
Print Assumptions C53_degrees_refuted.

(** The Spark module, one layer given by the stored fitnesses [po] and [pin].  Full statement: without
    the last hypothesis; false, see C53_spark_degrees_refuted. *)
Theorem C53_spark_degrees_partial : forall g p lp l1p, layer_kernels g p lp l1p ->
  forall z N d k po pin sl, canonical N po -> canonical N pin -> all_nonneg po -> all_nonneg pin -> nonneg d ->
  (forall i j, i <> j -> In i (map fst po) -> In i (map fst pin) -> In j (map fst po) -> In j (map fst pin) -> False) ->
  let '(a, b, c) := exp_degrees_layer p z d k po pin sl in
  let q := fun i j => link_prob g [d; lookup i po; lookup j pin; Fin 1] in
  forall v, (v < N)%nat ->
    dok_at a v k = nb_degree N sl (either_link q) v /\
    dok_at b v k = nb_degree N sl (out_link q) v /\
    dok_at c v k = nb_degree N sl (in_link q) v.
Proof.
  intros g p lp l1p K z N d k po pin sl C1 C2 P1 P2 Hd H1.
  destruct (exp_degrees_layer p z d k po pin sl) as [[a b] c] eqn:E. cbv zeta. intros v Hv.
  destruct (layer_kernel_zero g p lp l1p K d) as [Z1 Z2].
  assert (Q : (fun i j => p d (lookup i po) (lookup j pin) (z i j)) = (fun i j => link_prob g [d; lookup i po; lookup j pin; Fin 1])).
  { apply FunctionalExtensionality.functional_extensionality. intros i.
    apply FunctionalExtensionality.functional_extensionality. intros j.
    apply (layer_kernel g p lp l1p K); auto using lookup_nonneg. }
  unfold exp_degrees_layer in E.
  destruct (layer_visits num p z d po pin k k v sl (fun o q0 st =>
      degrees_layer_body p z d k po pin sl (fst o) (snd o) (fst q0) (snd q0) st))
      with (st := ([], [], []) : doks) as (_ & J1 & J2 & J3).
  - intros o q0 Ho Hq. apply (spark_visits num p z N d po pin C1 C2); try assumption.
    intros x y w w'. apply (layer_kernel_dyad g p lp l1p K).
  - split; reflexivity.
  - cbv zeta in J1, J2, J3. rewrite E in J1, J2, J3. cbn [v1 v2 v3] in J1, J2, J3. rewrite Nat.eqb_refl in J1, J2, J3.
    rewrite !dok_at_dget, J1, J2, J3. unfold dget; cbn [find]. rewrite !Rplus_0_l.
    rewrite <- Q. apply (once_degrees num p z N d po pin C1 C2 Z1 Z2 sl v Hv).
    intros j Hj Hn.
    destruct (stored v po && stored j pin && (stored j po && stored v pin)) eqn:E2; [|reflexivity].
    exfalso. apply andb_true_iff in E2. destruct E2 as [E3 E2].
    apply andb_true_iff in E3. apply andb_true_iff in E2. destruct E3 as [E3 E4], E2 as [E2 E5].
    apply (H1 j v Hn); apply stored_in; assumption.
Qed.
Print Assumptions C53_spark_degrees_partial.

Example C53_spark_case :
  let po := [(0%nat, Fin 1)] in let pin := [(1%nat, Fin 1)] in
  canonical 2 po /\ canonical 2 pin /\
  (forall i j, i <> j -> In i (map fst po) -> In i (map fst pin) -> In j (map fst po) -> In j (map fst pin) -> False) /\
  link_prob logistic [Fin 1; lookup 0 po; lookup 1 pin; Fin 1] = 1 / 2.
Proof.
  split; [split; repeat constructor; simpl; lia|]. split; [split; repeat constructor; simpl; lia|]. split.
  - intros i j _ H1 H2 _ _. simpl in *. lia.
  - unfold link_prob; simpl. repeat match goal with |- context[Reqb ?a ?b] => destruct (Reqb_spec a b); try lra end.
    simpl. unfold logistic. field.
Qed.

Theorem C53_spark_degrees_refuted : exists N d k po pin sl v, canonical N po /\ canonical N pin /\ (v < N)%nat /\
  let '(a, b, c) := exp_degrees_layer (fun d x y z => toR (mfit_p_ijk d x y z)) (fun _ _ => Fin 1) d k po pin sl in
  let q := fun i j => link_prob logistic [d; lookup i po; lookup j pin; Fin 1] in
  nb_degree N sl (out_link q) v = 1 / 2 /\ dok_at b v k = 1.
Proof.
  exists 2%nat, (Fin 1), 0%nat, [(0%nat, Fin 1); (1%nat, Fin 1)], [(0%nat, Fin 1); (1%nat, Fin 1)], false, 0%nat.
  split; [split; repeat constructor; simpl; lia|]. split; [split; repeat constructor; simpl; lia|]. split; [lia|].
  assert (P : mfit_p_ijk (Fin 1) (Fin 1) (Fin 1) (Fin 1) = Fin (1 / 2)).
  { rewrite mfit_p_ijk_eq, (view_link_prob fit_p_ij logistic fit_view) by (simpl; lra).
    unfold link_prob; simpl. repeat match goal with |- context[Reqb ?a ?b] => destruct (Reqb_spec a b); try lra end.
    simpl. f_equal. unfold logistic. field. }
  unfold exp_degrees_layer, for_each, degrees_layer_body. cbn -[mfit_p_ijk link_prob toR]. rewrite P. cbn -[link_prob].
  split.
  - unfold nb_degree, out_link. cbn -[link_prob].
    unfold link_prob; simpl. repeat match goal with |- context[Reqb ?a ?b] => destruct (Reqb_spec a b); try lra end.
    simpl. unfold logistic. field.
  - unfold dok_at; simpl. field.
Qed.
Print Assumptions C53_spark_degrees_refuted.

(** The dense module. *)
Theorem C53_dense_degrees : forall g p lp l1p, layer_kernels g p lp l1p ->
  forall z L N d x y sl, (forall i k, (i < N)%nat -> (k < L)%nat -> nonneg (x i k) /\ nonneg (y i k)) ->
  (forall k, (k < L)%nat -> nonneg (d k)) ->
  forall k, (k < L)%nat ->
  let '(a, b, c) := exp_degrees_label_dense p z N d x y sl k in
  let q := fun i j => link_prob g [d k; x i k; y j k; Fin 1] in
  (forall v, (v < N)%nat -> a v = nb_degree N sl (either_link q) v /\ b v = nb_degree N sl (out_link q) v /\
     c v = nb_degree N sl (in_link q) v) /\
  sumn N b = pair_sum N sl q /\ sumn N c = pair_sum N sl q.
Proof.
  intros g p lp l1p K z L N d x y sl H Hd k Hk.
  assert (D : forall v, (v < N)%nat ->
    let '(a, b, c) := exp_degrees_label_dense p z N d x y sl k in
    let q := fun i j => link_prob g [d k; x i k; y j k; Fin 1] in
    a v = nb_degree N sl (either_link q) v /\ b v = nb_degree N sl (out_link q) v /\ c v = nb_degree N sl (in_link q) v).
  { intros v Hv. apply (dense_degrees_spec g p lp l1p K z L N d x y); auto; intros; apply H; assumption. }
  destruct (exp_degrees_label_dense p z N d x y sl k) as [[a b] c]. cbv zeta in *. split; [exact D|]. unfold pair_sum. split.
  - apply sumn_ext. intros v Hv. destruct (D v Hv) as (_ & -> & _). reflexivity.
  - etransitivity; [apply sumn_ext; intros v Hv; destruct (D v Hv) as (_ & _ & ->); reflexivity|].
    unfold nb_degree. rewrite sumn_swap. apply sumn_ext. intros i Hi. apply sumn_ext. intros j Hj.
    rewrite adm_sym. reflexivity.
Qed.
Print Assumptions C53_dense_degrees.

Example C53_dense_case :
  let x := fun i k : nat => Fin (INR (i + k)) in
  (forall i k, (i < 2)%nat -> (k < 3)%nat -> nonneg (x i k) /\ nonneg (x i k)) /\
  (forall k, (k < 3)%nat -> nonneg (Fin (INR k))).
Proof. split; intros; repeat split; simpl; apply pos_INR. Qed.

(** Full statement: the result has [L] entries whatever [N] is.  The code uses the number of vertices
    as the number of labels, see C53_dense_edges_refuted. *)
Theorem C53_dense_edges_partial : forall g p lp l1p, layer_kernels g p lp l1p ->
  forall z L N d x y sl, N = L -> (forall i k, (i < N)%nat -> (k < L)%nat -> nonneg (x i k) /\ nonneg (y i k)) ->
  (forall k, (k < L)%nat -> nonneg (d k)) ->
  exp_edges_label_dense p z N L d x y sl
  = Ok (map (fun k => pair_sum N sl (fun i j => link_prob g [d k; x i k; y j k; Fin 1])) (seq 0 L)).
Proof.
  intros g p lp l1p K z L N d x y sl E H Hd.
  etransitivity; [apply (dense_edges_spec g p lp l1p K z L N d x y); auto; try lia; intros; apply H; assumption|].
  rewrite E. reflexivity.
Qed.
Print Assumptions C53_dense_edges_partial.

Theorem C53_dense_edges_refuted :
  (exists L N d x y sl, (forall i k, nonneg (x i k) /\ nonneg (y i k)) /\ (forall k, nonneg (d k)) /\
     exp_edges_label_dense (fun d x y z => toR (mfit_p_ijk d x y z)) (fun _ _ => Fin 1) N L d x y sl = Raise IndexError) /\
  (exists L N d x y sl r, (forall i k, nonneg (x i k) /\ nonneg (y i k)) /\ (forall k, nonneg (d k)) /\
     exp_edges_label_dense (fun d x y z => toR (mfit_p_ijk d x y z)) (fun _ _ => Fin 1) N L d x y sl = Ok r /\
     (length r < L)%nat).
Proof.
  split.
  - exists 1%nat, 2%nat, (fun _ => Fin 1), (fun _ _ => Fin 1), (fun _ _ => Fin 1), false.
    repeat split; try (intros; simpl; lra).
  - exists 2%nat, 1%nat, (fun _ => Fin 1), (fun _ _ => Fin 1), (fun _ _ => Fin 1), false. eexists.
    split; [repeat split; intros; simpl; lra|]. split; [intros; simpl; lra|]. split; [reflexivity|]. simpl. lia.
Qed.
Print Assumptions C53_dense_edges_refuted.

(** * C54: likelihood of a tensor *)

(** [Gs] lists the links of each layer.  The likelihood is the logarithm of the product over the labels
    and the admissible pairs of p_ijk or 1 - p_ijk (minus infinity when it is zero). *)
Theorem C54_tensor : forall g p lp l1p, layer_kernels g p lp l1p ->
  forall z L N d xs ys, label_table L xs -> label_table L ys -> length xs = N -> length ys = N ->
  (forall k, (k < L)%nat -> nonneg (d k)) ->
  forall self_selfloops (selfloops : option bool) Gs, length Gs = L ->
  let sl := match selfloops with None => self_selfloops | Some b => b end in
  (forall G i j, In G Gs -> In (i, j) G -> (i < N)%nat /\ (j < N)%nat /\ allowed sl i j = true) ->
  exists l, log_likelihood_tensor lp l1p z N L xs ys (Some d) self_selfloops
              (map (fun G => mkLayer N N (row_of G)) Gs) selfloops = Ok l /\
  log_of (prodn L (fun k => graph_weight N sl (layer_prob g d xs ys k) (nth k Gs []))) l.
Proof. exact tensor_lik_spec. Qed.
Print Assumptions C54_tensor.

(** In particular a link of zero probability gives minus infinity. *)
Theorem C54_impossible : forall g p lp l1p, layer_kernels g p lp l1p ->
  forall z L N d xs ys, label_table L xs -> label_table L ys -> length xs = N -> length ys = N ->
  (forall k, (k < L)%nat -> nonneg (d k)) ->
  forall self_selfloops (selfloops : option bool) Gs, length Gs = L ->
  let sl := match selfloops with None => self_selfloops | Some b => b end in
  (forall G i j, In G Gs -> In (i, j) G -> (i < N)%nat /\ (j < N)%nat /\ allowed sl i j = true) ->
  forall k i j, (k < L)%nat -> In (i, j) (nth k Gs []) -> layer_prob g d xs ys k i j = 0 ->
  log_likelihood_tensor lp l1p z N L xs ys (Some d) self_selfloops
    (map (fun G => mkLayer N N (row_of G)) Gs) selfloops = Ok NInf.
Proof.
  intros g p lp l1p K z L N d xs ys Tx Ty Nx Ny Hd sl0 sl1 Gs HL sl HG k i j Hk Hij Hq.
  destruct (C54_tensor g p lp l1p K z L N d xs ys Tx Ty Nx Ny Hd sl0 sl1 Gs HL HG) as (l & E & Lg).
  rewrite E. f_equal. fold sl in Lg.
  assert (W0 : prodn L (fun k => graph_weight N sl (layer_prob g d xs ys k) (nth k Gs [])) = 0).
  { rewrite <- prodl_seq. apply (prodl_zero _ _ _ k); [apply in_seq; lia|].
    rewrite graph_weight_list. destruct (HG (nth k Gs []) i j) as (Hi & Hj & Ha); [apply nth_In; lia | exact Hij|].
    apply (prodl_zero _ _ _ (i, j)); [apply in_pairs; auto|]. cbn [fst snd].
    replace (mem (i, j) (nth k Gs [])) with true by (symmetry; apply mem_spec; exact Hij). exact Hq. }
  rewrite W0 in Lg. destruct Lg as [[H _]|[_ H]]; [lra | exact H].
Qed.
Print Assumptions C54_impossible.

Example C54_case :
  let Gs := [[(0, 1)]%nat] in
  label_table 1 (ex_table 2) /\ length Gs = 1%nat /\
  (forall G i j, In G Gs -> In (i, j) G -> (i < 2)%nat /\ (j < 2)%nat /\ allowed false i j = true) /\
  log_likelihood_tensor mfit_logp_ijk mfit_log1mp_ijk (fun _ _ => Fin 1) 2 1 (ex_table 2) (ex_table 2)
    (Some (fun _ => Fin 1)) false (map (fun G => mkLayer 2 2 (row_of G)) Gs) None = Ok (Fin (ln (1 / 4))).
Proof.
  assert (T : label_table 1 (ex_table 2)) by (apply ex_table_ok; lia).
  assert (HG : forall G i j, In G [[(0, 1)]%nat] -> In (i, j) G -> (i < 2)%nat /\ (j < 2)%nat /\ allowed false i j = true).
  { intros G i j [<-|[]] [E|[]]. injection E as <- <-. repeat split; lia. }
  split; [exact T|]. split; [reflexivity|]. split; [exact HG|].
  destruct (C54_tensor _ _ _ _ fitness_kernels (fun _ _ => Fin 1) 1 2 (fun _ => Fin 1) (ex_table 2) (ex_table 2) T T eq_refl eq_refl
    ltac:(intros; simpl; lra) false None [[(0, 1)]%nat] eq_refl HG) as (l & E & Lg).
  rewrite E. f_equal. destruct ex_layer_prob as (Q00 & Q01 & Q10 & Q11). unfold graph_weight in Lg. cbn in Lg.
  cbn in Q01, Q10. rewrite Q01, Q10 in Lg. destruct Lg as [[_ H]|[H _]]; [|lra]. rewrite H. do 2 f_equal. field.
Qed.

(** Vertices without a fitness in the layer: a link from such a vertex is impossible. *)
Example C54_impossible_case :
  let xs := [([0%nat], [Fin 1]); ([], [])] in let ys := [([], []); ([0%nat], [Fin 1])] in
  label_table 1 xs /\ label_table 1 ys /\ layer_prob logistic (fun _ => Fin 1) xs ys 0 1 0 = 0.
Proof.
  repeat split; try discriminate; try (repeat constructor; simpl; try lia; lra).
  unfold layer_prob, label_value, link_prob; simpl.
  repeat match goal with |- context[Reqb ?a ?b] => destruct (Reqb_spec a b); try lra end. reflexivity.
Qed.

(** Self-loops in a graph of an ensemble without self-loops are ignored instead of having probability
    zero. *)
Theorem C54_diagonal_refuted : exists L N d xs ys Gs l, label_table L xs /\ label_table L ys /\
  length xs = N /\ length ys = N /\ length Gs = L /\ In (0, 0)%nat (nth 0 Gs []) /\
  log_likelihood_tensor mfit_logp_ijk mfit_log1mp_ijk (fun _ _ => Fin 1) N L xs ys (Some d) false
    (map (fun G => mkLayer N N (row_of G)) Gs) None = Ok (Fin l).
Proof.
  exists 1%nat, 1%nat, (fun _ => Fin 1), (ex_table 1), (ex_table 1), [[(0, 0)]%nat], 0.
  assert (T : label_table 1 (ex_table 1)) by (apply ex_table_ok; lia).
  do 6 (split; [solve [assumption | reflexivity | left; reflexivity]|]).
  unfold log_likelihood_tensor, likelihood_layer, impossible_link, no_fitness. cbn.
  repeat match goal with |- context[Reqb ?a ?b] => destruct (Reqb_spec a b); try lra end.
  cbn. do 2 f_equal. ring.
Qed.
Print Assumptions C54_diagonal_refuted.

(** Rejected tensors: a wrong number of layers, and layers of a wrong shape (for which the code fails
    while building its error message). *)
Theorem C54_rejected : forall lp l1p z N L xs ys d sl g arg,
  (length g <> L -> log_likelihood_tensor (Z:=num) lp l1p z N L xs ys (Some d) sl g arg = Raise ValueError) /\
  (length g = L -> (exists x, In x g /\ (l_rows x <> N \/ l_cols x <> N)) ->
     log_likelihood_tensor (Z:=num) lp l1p z N L xs ys (Some d) sl g arg = Raise AttributeError).
Proof.
  intros lp l1p z N L xs ys d sl g arg. unfold log_likelihood_tensor, guard. split.
  - intros H. destruct (Nat.eqb_spec (length g) L); [contradiction | reflexivity].
  - intros -> (x & Hx & H). rewrite Nat.eqb_refl.
    replace (forallb (fun x : layer => Nat.eqb (l_rows x) N && Nat.eqb (l_cols x) N) g) with false; [reflexivity|].
    symmetry. apply not_true_is_false. intros F. rewrite forallb_forall in F. specialize (F x Hx).
    apply andb_true_iff in F. destruct F as [F1 F2]. apply Nat.eqb_eq in F1. apply Nat.eqb_eq in F2. tauto.
Qed.
Print Assumptions C54_rejected.

Example C54_rejected_case : let x := mkLayer 2 3 (fun _ => []) in
  length [x] = 1%nat /\ In x [x] /\ (l_rows x <> 2%nat \/ l_cols x <> 2%nat).
Proof. repeat split; [left; reflexivity | right; simpl; lia]. Qed.

(** The dense module: [adj k i j] tells whether the pair (i,j) is linked in layer [k]. *)
Theorem C54_dense_tensor : forall g p lp l1p, layer_kernels g p lp l1p ->
  forall z L N d x y, (forall i k, (i < N)%nat -> (k < L)%nat -> nonneg (x i k) /\ nonneg (y i k)) ->
  (forall k, (k < L)%nat -> nonneg (d k)) ->
  forall sl (adj : nat -> nat -> nat -> bool),
  log_of (prodn L (fun k => prodn N (fun i => prodn N (fun j =>
            if allowed sl i j
            then (if adj k i j then link_prob g [d k; x i k; y j k; Fin 1] else 1 - link_prob g [d k; x i k; y j k; Fin 1])
            else 1))))
    (likelihood_tensor_dense lp l1p z N L d x y adj sl).
Proof.
  intros g p lp l1p K z L N d x y H Hd sl adj.
  apply (dense_lik_spec g p lp l1p K z L N d x y); auto; intros; apply H; assumption.
Qed.
Print Assumptions C54_dense_tensor.

(** * C55: sampling of the layers *)

Theorem C55_sample : forall g p lp l1p, layer_kernels g p lp l1p ->
  forall z L N d xs ys, label_table L xs -> label_table L ys -> length xs = N -> length ys = N ->
  (forall k, (k < L)%nat -> nonneg (d k)) ->
  forall sl arg, exists m,
  sample_layers p z L xs ys (Some d) sl arg = Ok m /\
  (forall Gs, length Gs = L -> (forall G, In G Gs -> In G (all_graphs N sl)) ->
     prob m (fun H => tensor_eqb H Gs) = prodn L (fun k => graph_weight N sl (layer_prob g d xs ys k) (nth k Gs []))) /\
  (forall Gs, outcome m Gs -> length Gs = L /\
     forall k, (k < L)%nat -> In (nth k Gs []) (all_graphs N sl) /\
       forall i j, In (i, j) (nth k Gs []) -> 0 < layer_prob g d xs ys k i j).
Proof. exact tensor_sample_spec. Qed.
Print Assumptions C55_sample.

(** No links at vertices without fitness in the layer. *)
Theorem C55_no_fitness : forall g p lp l1p, layer_kernels g p lp l1p ->
  forall z L N d xs ys, label_table L xs -> label_table L ys -> length xs = N -> length ys = N ->
  (forall k, (k < L)%nat -> nonneg (d k)) ->
  forall sl arg m Gs, sample_layers p z L xs ys (Some d) sl arg = Ok m -> outcome m Gs ->
  forall k i j, (k < L)%nat -> In (i, j) (nth k Gs []) -> label_value xs i k <> Fin 0 /\ label_value ys j k <> Fin 0.
Proof.
  intros g p lp l1p K z L N d xs ys Tx Ty Nx Ny Hd sl arg m Gs E O k i j Hk Hij.
  destruct (C55_sample g p lp l1p K z L N d xs ys Tx Ty Nx Ny Hd sl arg) as (m' & E' & _ & H).
  rewrite E in E'. injection E' as <-. destruct (H Gs O) as [_ H']. destruct (H' k Hk) as [_ P].
  specialize (P i j Hij). unfold layer_prob in P.
  split; intros Z; rewrite Z in P; unfold link_prob in P; cbn [existsb is_zero] in P;
    destruct (Reqb_spec 0 0) as [_|n]; try (contradiction n; reflexivity); rewrite ?orb_true_r in P; cbn in P; lra.
Qed.
Print Assumptions C55_no_fitness.

Example C55_case : label_table 1 (ex_table 2) /\ length [[(0, 1)]%nat] = 1%nat /\
  In [(0, 1)]%nat (all_graphs 2 false) /\
  graph_weight 2 false (layer_prob logistic (fun _ => Fin 1) (ex_table 2) (ex_table 2) 0) [(0, 1)]%nat = 1 / 4.
Proof.
  split; [apply ex_table_ok; lia|]. split; [reflexivity|]. split; [vm_compute; auto|].
  destruct ex_layer_prob as (Q00 & Q01 & Q10 & Q11). unfold graph_weight. cbn. cbn in Q01, Q10. rewrite Q01, Q10. field.
Qed.

(** The argument [selfloops] of sample is ignored. *)
Theorem C55_selfloops_refuted : exists L N d xs ys m Gs, label_table L xs /\ label_table L ys /\
  length xs = N /\ length ys = N /\
  sample_layers (fun d x y z => toR (mfit_p_ijk d x y z)) (fun _ _ => Fin 1) L xs ys (Some d) true (Some false) = Ok m /\
  outcome m Gs /\ In (0, 0)%nat (nth 0 Gs []).
Proof.
  exists 1%nat, 1%nat, (fun _ => Fin 1), (ex_table 1), (ex_table 1). eexists. exists [[(0, 0)]%nat].
  assert (T : label_table 1 (ex_table 1)) by (apply ex_table_ok; lia).
  do 4 (split; [solve [assumption | reflexivity]|]). split; [reflexivity|].
  split; [|left; reflexivity]. cbn -[mfit_p_ijk toR]. left. split; [|reflexivity].
  assert (P : mfit_p_ijk (Fin 1) (Fin 1) (Fin 1) (Fin 1) = Fin (1 / 2)).
  { rewrite mfit_p_ijk_eq, (view_link_prob fit_p_ij logistic fit_view) by (simpl; lra).
    unfold link_prob; simpl. repeat match goal with |- context[Reqb ?a ?b] => destruct (Reqb_spec a b); try lra end.
    simpl. f_equal. unfold logistic. field. }
  rewrite P. simpl. lra.
Qed.
Print Assumptions C55_selfloops_refuted.

(** The dense module: triples (label, (row, column)), split into layers by [slices]. *)
Theorem C55_dense_sample : forall g p lp l1p, layer_kernels g p lp l1p ->
  forall z L N d x y, (forall i k, (i < N)%nat -> (k < L)%nat -> nonneg (x i k) /\ nonneg (y i k)) ->
  (forall k, (k < L)%nat -> nonneg (d k)) ->
  forall sl Gs, length Gs = L -> (forall G, In G Gs -> In G (all_graphs N sl)) ->
  prob (binary_sample_tensor p z N L d x y sl) (fun t => tensor_eqb (slices L t) Gs)
  = prodn L (fun k => graph_weight N sl (fun i j => link_prob g [d k; x i k; y j k; Fin 1]) (nth k Gs [])).
Proof. exact dense_sample_spec. Qed.
Print Assumptions C55_dense_sample.

Example C55_dense_case :
  slices 2 [(0, (0, 1)); (1, (1, 0)); (1, (1, 1))]%nat = [[(0, 1)]; [(1, 0); (1, 1)]]%nat /\
  In [(1, 0); (1, 1)]%nat (all_graphs 2 true).
Proof. split; [reflexivity|]. vm_compute. auto 20. Qed.

(** CReMB weights of a layer: when every vertex with a fitness in the layer has a strength, the sampler
    does not fail and the expected weight of each possible pair is s_out(i) s_in(j) / s_tot. *)
Theorem C55_cremb_weight : forall g p lp l1p, layer_kernels g p lp l1p ->
  forall z N d po pin s_out s_in sl, canonical N po -> canonical N pin -> all_nonneg po -> all_nonneg pin -> nonneg d ->
  NoDup (map fst s_out) -> NoDup (map fst s_in) ->
  (forall i, In i (map fst po) -> In i (map fst s_out)) -> (forall i, In i (map fst pin) -> In i (map fst s_in)) ->
  total s_out <> 0 -> Rabs (1 - total s_in / total s_out) < 1 / 1000000 ->
  exists m, cremb_sample_layer p z d po pin s_out s_in sl = Ok m /\
  (forall r, outcome m r -> exists G, r = Ok G) /\
  forall i j, (i < N)%nat -> (j < N)%nat -> allowed sl i j = true ->
  (entry s_out i * entry s_in j <> 0 -> link_prob g [d; lookup i po; lookup j pin; Fin 1] <> 0) ->
  expect m (fun r => match r with Ok G => w_pair i j G | Raise _ => 0 end)
  = entry s_out i * entry s_in j / total s_out.
Proof.
  intros g p lp l1p K z N d po pin s_out s_in sl C1 C2 P1 P2 Hd D1 D2 I1 I2 T0 T1.
  destruct (layer_kernel_zero g p lp l1p K d) as [Z1 Z2].
  destruct (cremb_layer_weight p z N d po pin s_out s_in C1 C2 D1 D2 I1 I2 T0 T1 sl Z1 Z2) as (m & E & H1 & H2).
  exists m. split; [exact E|]. split; [exact H1|]. intros i j Hi Hj Ha Hq. apply H2; try assumption. intros Hs. specialize (Hq Hs).
  destruct (layer_kernel g p lp l1p K d (lookup i po) (lookup j pin) (z i j)) as [-> _]; auto using lookup_nonneg.
Qed.
Print Assumptions C55_cremb_weight.

Example C55_cremb_case :
  let po := [(0%nat, Fin 1)] in let s := [(0%nat, 2); (1%nat, 3)] in
  canonical 2 po /\ all_nonneg po /\ NoDup (map fst s) /\ (forall i, In i (map fst po) -> In i (map fst s)) /\
  total s <> 0 /\ Rabs (1 - total s / total s) < 1 / 1000000.
Proof.
  repeat split; try (repeat constructor; simpl; try lia; lra).
  - intros i [<-|[]]. left; reflexivity.
  - unfold total; simpl. lra.
  - unfold total; simpl. replace (1 - (2 + (3 + 0)) / (2 + (3 + 0))) with 0 by field. rewrite Rabs_R0. lra.
Qed.

(** When only one of the two strengths of a linked pair is stored the sampler fails. *)
Theorem C55_cremb_refuted : exists d po pin s_out s_in m, canonical 2 po /\ canonical 2 pin /\
  total s_out = total s_in /\
  cremb_sample_layer (fun d x y z => toR (mfit_p_ijk d x y z)) (fun _ _ => Fin 1) d po pin s_out s_in false = Ok m /\
  outcome m (Raise IndexError).
Proof.
  exists (Fin 1), [(0%nat, Fin 1)], [(1%nat, Fin 1)], [(1%nat, 2)], [(1%nat, 2)].
  assert (P : mfit_p_ijk (Fin 1) (Fin 1) (Fin 1) (Fin 1) = Fin (1 / 2)).
  { rewrite mfit_p_ijk_eq, (view_link_prob fit_p_ij logistic fit_view) by (simpl; lra).
    unfold link_prob; simpl. repeat match goal with |- context[Reqb ?a ?b] => destruct (Reqb_spec a b); try lra end.
    simpl. f_equal. unfold logistic. field. }
  eexists. split; [split; repeat constructor; simpl; lia|]. split; [split; repeat constructor; simpl; lia|].
  split; [reflexivity|]. unfold cremb_sample_layer, guard. cbn -[mfit_p_ijk toR].
  destruct (Reqb_spec (2 + 0) 0) as [E|_]; [lra|].
  destruct (Rltb_spec (Rabs (1 - (2 + 0) / (2 + 0))) (1 / 1000000)) as [_|E].
  2:{ exfalso. apply E. replace (1 - (2 + 0) / (2 + 0)) with 0 by field. rewrite Rabs_R0. lra. }
  split; [reflexivity|]. cbn -[mfit_p_ijk toR]. left. split; [|reflexivity]. rewrite P. simpl. lra.
Qed.
Print Assumptions C55_cremb_refuted.

(** * C49: one parameter per label *)

(** With a positive absolute tolerance the fit does not fail, and it reports convergence for a label
    exactly when the expected number of edges of the label computed with the fitted parameters is within
    tolerance of the target. *)
Theorem C49_per_label : forall g p lp l1p pj, layer_kernels g p lp l1p -> layer_jac g pj ->
  forall z L N xs ys sl, label_table L xs -> label_table L ys -> length xs = N -> length ys = N ->
  Forall (fun r => all_finite (row_vec r)) xs -> Forall (fun r => all_finite (row_vec r)) ys ->
  forall (T x0 : nat -> R) at_ rho mi, 0 < at_ -> 0 <= rho ->
  (forall k, (k < L)%nat -> 0 <= T k /\ 0 <= x0 k) ->
  exists ds sols e, fit_per_label pj L xs ys sl (Some (fun k => Fin (T k)))
      (Some (Numeric (map (fun k => Fin (x0 k)) (seq 0 L)))) Density (Fin at_) (Fin rho) mi = Ok (map Fin ds, sols) /\
    length ds = L /\ length sols = L /\
    expected_num_edges_label p z L xs ys (Some (fun k => Fin (nth k ds 0))) sl = Ok e /\
    forall k, (k < L)%nat -> 0 <= nth k ds 0 /\
      exists sol, nth_error sols k = Some sol /\
      (sol_converged sol = true <-> Rabs (e k - T k) <= at_ + rho * T k).
Proof. intros g p lp l1p pj K J z L N xs ys sl. exact (per_label_total g p lp l1p pj K J z L N xs ys sl). Qed.
Print Assumptions C49_per_label.

Example C49_per_label_case : label_table 1 (ex_table 2) /\ Forall (fun r => all_finite (row_vec r)) (ex_table 2) /\
  layer_jac logistic fit_p_jac_dense /\ layer_kernels logistic (fun d x y z => toR (mfit_p_ijk d x y z)) mfit_logp_ijk mfit_log1mp_ijk.
Proof.
  split; [apply ex_table_ok; lia|]. split; [|split; constructor].
  repeat constructor; simpl; exists 1; split; try reflexivity; lra.
Qed.
