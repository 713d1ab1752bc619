(** Facts about the blocks of SparkMulti.v: they compute what the row-based blocks of Spark.v compute. *)
From Verif Require Import Base Num Spec Kernels MultiKernels Prob Ensemble EnsembleState Models Layers LayerFacts MultiState
  Spark SparkFacts SparkMulti.
From Coq Require Import FunctionalExtensionality.

(** * Row slices *)

Lemma skipn_skipn' : forall A (l : list A) a b, skipn a (skipn b l) = skipn (a + b) l.
Proof.
  intros A l a b; revert l; induction b as [|b IH]; intros l; [rewrite Nat.add_0_r; reflexivity|].
  rewrite Nat.add_succ_r. destruct l; [rewrite !skipn_nil; reflexivity | apply IH].
Qed.

Lemma slice_slice : forall A (l : list A) m n a b, (m <= a)%nat -> (a <= b)%nat -> (b <= n)%nat ->
  Layers.slice (Layers.slice l m n) (a - m) (b - m) = Layers.slice l a b.
Proof.
  intros A l m n a b H1 H2 H3. unfold Layers.slice. rewrite skipn_firstn_comm, skipn_skipn'.
  rewrite firstn_firstn. replace (Nat.min (b - m - (a - m)) (n - m - (a - m))) with (b - a)%nat by lia.
  replace (a - m + m)%nat with a by lia. reflexivity.
Qed.

Lemma sum_firstn_le : forall ls i j, (i <= j)%nat -> (sum_list (firstn i ls) <= sum_list (firstn j ls))%nat.
Proof.
  induction ls as [|x t IH]; intros i j H; [rewrite !firstn_nil; lia|].
  destruct i; [simpl; lia|]. destruct j; [lia|]. simpl. specialize (IH i j). lia.
Qed.

Definition within (N : nat) (s : span) : Prop := (fst s <= snd s)%nat /\ (snd s <= N)%nat.

Lemma bounds_within : forall N B i, (1 <= B)%nat -> (i < B)%nat -> within N (bounds N B i).
Proof.
  intros N B i HB Hi. unfold within, bounds. pose proof (Nat.mul_div_le N B ltac:(lia)) as H.
  destruct (Nat.eqb i (B - 1)) eqn:E; cbn [fst snd].
  - split; [|lia]. apply Nat.le_trans with (B * (N / B))%nat; [apply Nat.mul_le_mono_r; lia | lia].
  - split; [apply Nat.mul_le_mono_r; lia|].
    apply Nat.le_trans with (B * (N / B))%nat; [apply Nat.mul_le_mono_r; lia | lia].
Qed.

Lemma square_within : forall N B b, (1 <= B)%nat -> In b (square_blocks N B) -> within N (fst b) /\ within N (snd b).
Proof.
  intros N B b HB H. unfold square_blocks in H. apply in_flat_map in H. destruct H as (i & Hi & H).
  apply in_map_iff in H. destruct H as (j & <- & Hj). apply in_seq in Hi, Hj. cbn [fst snd].
  split; apply bounds_within; lia.
Qed.

Lemma triangle_within : forall N B b, (1 <= B)%nat -> In b (triangle_blocks N B) -> within N (fst b) /\ within N (snd b).
Proof.
  intros N B b HB H. unfold triangle_blocks in H. apply in_flat_map in H. destruct H as (i & Hi & H).
  apply in_map_iff in H. destruct H as (j & <- & Hj). apply in_seq in Hi, Hj. cbn [fst snd].
  split; apply bounds_within; lia.
Qed.

(** The rows of a slice of a packed table are the rows of the table. *)
Lemma take_rows_row : forall rows s i, good_rows rows -> within (length rows) s -> (i < len s)%nat ->
  (lbls (take_rows (pack rows) s) i, vals (take_rows (pack rows) s) i) = nth (fst s + i) rows ([], []).
Proof.
  intros rows [a b] i G [H1 H2] Hi. unfold len in Hi. cbn [fst snd] in *.
  assert (E : nth (a + i) (csx_to_tuple_list (pack rows)) ([], []) = nth (a + i) rows ([], []))
    by (rewrite to_tuples_pack by exact G; reflexivity).
  rewrite <- E, to_tuples_map. clear E.
  set (ptr := c_indptr (pack rows)).
  assert (L : length ptr = S (length rows)) by (unfold ptr, pack; cbn [c_indptr]; rewrite prefix_sums_length, map_length; reflexivity).
  assert (M : forall k l, (k <= l)%nat -> (l <= length rows)%nat -> (nth k ptr 0 <= nth l ptr 0)%nat).
  { intros k l Hk Hl. unfold ptr, pack; cbn [c_indptr]. rewrite !prefix_sums_nth by (rewrite map_length; first [exact Hl | exact (Nat.le_trans _ _ _ Hk Hl)]).
    rewrite !Nat.add_0_l. apply sum_firstn_le. exact Hk. }
  rewrite (nth_indep _ ([], []) ((fun k => (Layers.slice (c_indices (pack rows)) (nth k ptr 0%nat) (nth (k + 1) ptr 0%nat),
    Layers.slice (c_data (pack rows)) (nth k ptr 0%nat) (nth (k + 1) ptr 0%nat))) 0%nat)) by (rewrite map_length, seq_length, L; lia).
  rewrite (map_nth (fun k => (Layers.slice (c_indices (pack rows)) (nth k ptr 0%nat) (nth (k + 1) ptr 0%nat),
    Layers.slice (c_data (pack rows)) (nth k ptr 0%nat) (nth (k + 1) ptr 0%nat)))).
  rewrite seq_nth by (rewrite L; lia). cbn [Nat.add].
  assert (T : forall k, (k <= b - a)%nat -> nth k (c_indptr (take_rows (pack rows) (a, b))) 0%nat = (nth (a + k) ptr 0 - nth a ptr 0)%nat).
  { intros k Hk. unfold take_rows. cbn [c_indptr fst snd]. fold ptr.
    rewrite (nth_indep _ 0%nat ((fun k => (nth k ptr 0 - nth a ptr 0)%nat) 0%nat)) by (rewrite map_length, seq_length; unfold len; cbn [fst snd]; lia).
    rewrite (map_nth (fun k => (nth k ptr 0 - nth a ptr 0)%nat)), seq_nth by (unfold len; cbn [fst snd]; lia). reflexivity. }
  unfold lbls, vals. rewrite !T by lia. unfold take_rows. cbn [c_indices c_data fst snd]. fold ptr.
  replace (a + (i + 1))%nat with (a + i + 1)%nat by lia.
  rewrite !slice_slice; try reflexivity; apply M; lia.
Qed.

(** The arrays of a row, paired, are the vertex property of the row. *)
Lemma take_rows_vertex : forall rows s i, good_rows rows -> within (length rows) s -> (i < len s)%nat ->
  combine (lbls (take_rows (pack rows) s) i) (vals (take_rows (pack rows) s) i) = Spark.slice (vertex rows) s i.
Proof.
  intros rows s i G W Hi. pose proof (take_rows_row rows s i G W Hi) as E. unfold Spark.slice, vertex, zip.
  rewrite <- E. reflexivity.
Qed.

(** * Blocks *)
Section Same.
Variables (P : Type) (xs ys : list tuple) (N B : nat).
Hypothesis Gx : good_rows xs.
Hypothesis Gy : good_rows ys.
Hypothesis Lx : length xs = N.
Hypothesis Ly : length ys = N.
Hypothesis HB : (1 <= B)%nat.
Notation tx := (take_rows (pack xs)).
Notation ty := (take_rows (pack ys)).
Notation vx := (vertex xs).
Notation vy := (vertex ys).
Notation no_dyad := (fun _ _ : nat => tt).

Lemma row_x : forall s i, within N s -> (i < len s)%nat -> combine (lbls (tx s) i) (vals (tx s) i) = Spark.slice vx s i.
Proof. intros s i W Hi. apply take_rows_vertex; [exact Gx | rewrite Lx; exact W | exact Hi]. Qed.
Lemma row_y : forall s i, within N s -> (i < len s)%nat -> combine (lbls (ty s) i) (vals (ty s) i) = Spark.slice vy s i.
Proof. intros s i W Hi. apply take_rows_vertex; [exact Gy | rewrite Ly; exact W | exact Hi]. Qed.

Lemma in_range_len : forall i s t, within N s -> within N t -> (i < len s)%nat ->
  forall j, (j < in_range i t (span_eqb s t))%nat -> (j < len t)%nat.
Proof.
  intros i s t Ws Wt Hi j Hj. unfold in_range in Hj. destruct (span_eqb s t) eqn:E; [|exact Hj].
  unfold span_eqb in E. apply andb_prop in E. destruct E as [E1 E2]. apply Nat.eqb_eq in E1, E2.
  unfold len in *. lia.
Qed.

Variable k : P -> svec -> svec -> R.
Notation kz := (fun d x y (_ : unit) => k d x y).

Lemma mspark_edges_eq : forall d sl,
  mspark_edges d (pack xs) (pack ys) N B (on_arrays k) sl = spark_edges d vx vy no_dyad N B kz sl.
Proof.
  intros d sl. unfold mspark_edges, spark_edges. f_equal. apply map_ext_in. intros [s t] Hb.
  destruct (square_within N B _ HB Hb) as [Ws Wt]. cbn [fst snd] in *. unfold mb_edges, b_edges.
  apply for_range_ext. intros i f Hi. apply for_range_ext. intros j f' Hj. unfold on_arrays.
  rewrite row_x, row_y by assumption. reflexivity.
Qed.

Lemma mspark_degrees_eq : forall d sl,
  mspark_degrees d (pack xs) (pack ys) N B (on_arrays k) sl = spark_degrees d vx vy no_dyad N B kz sl.
Proof.
  intros d sl. unfold mspark_degrees, spark_degrees. f_equal. apply map_ext_in. intros [s t] Hb.
  destruct (triangle_within N B _ HB Hb) as [Ws Wt]. cbn [fst snd] in *. unfold mb_degrees, b_degrees.
  apply for_range_ext. intros i f Hi. apply for_range_ext. intros j f' Hj. unfold on_arrays.
  pose proof (in_range_len i s t Ws Wt Hi j Hj) as Hj'.
  rewrite !row_x, !row_y by assumption. reflexivity.
Qed.

Lemma mspark_av_nn_eq : forall d prop nd sl,
  mspark_av_nn d (pack xs) (pack ys) N B (on_arrays k) prop nd sl = spark_av_nn d vx vy no_dyad N B kz prop nd sl.
Proof.
  intros d prop nd sl. unfold mspark_av_nn, spark_av_nn. f_equal. apply map_ext_in. intros [s t] Hb.
  destruct (triangle_within N B _ HB Hb) as [Ws Wt]. cbn [fst snd] in *. unfold mb_av_nn, b_av_nn.
  apply for_range_ext. intros i f Hi. apply for_range_ext. intros j f' Hj. unfold on_arrays.
  pose proof (in_range_len i s t Ws Wt Hi j Hj) as Hj'.
  rewrite !row_x, !row_y by assumption. reflexivity.
Qed.

Lemma mspark_confusion_eq : forall th d row sl,
  mspark_confusion d (pack xs) (pack ys) N B th (on_arrays k) row sl = spark_confusion d vx vy no_dyad N B th kz row sl.
Proof.
  intros th d row sl. unfold mspark_confusion, spark_confusion. f_equal. apply map_ext_in. intros [s t] Hb.
  destruct (square_within N B _ HB Hb) as [Ws Wt]. cbn [fst snd] in *. unfold mb_confusion, b_confusion.
  apply for_range_ext. intros i f Hi. apply for_range_ext. intros j f' Hj. unfold on_arrays.
  rewrite row_x, row_y by assumption. reflexivity.
Qed.

Variable kj : P -> svec -> svec -> num * num.
Lemma mspark_f_jac_eq : forall d sl,
  mspark_f_jac (pack xs) (pack ys) N B (on_arrays kj) d sl = spark_f_jac vx vy N B kj d sl.
Proof.
  intros d sl. unfold mspark_f_jac, spark_f_jac. f_equal. apply map_ext_in. intros [s t] Hb.
  destruct (square_within N B _ HB Hb) as [Ws Wt]. cbn [fst snd] in *. unfold mb_f_jac, b_f_jac.
  apply for_range_ext. intros i f Hi. apply for_range_ext. intros j [f' g'] Hj. unfold on_arrays.
  rewrite row_x, row_y by assumption. reflexivity.
Qed.

Variables kl kl1 : P -> svec -> svec -> num.
Lemma mspark_likelihood_eq : forall d row sl,
  mspark_likelihood d (pack xs) (pack ys) N B (on_arrays kl) (on_arrays kl1) row sl
  = spark_likelihood d vx vy no_dyad N B (fun d x y _ => kl d x y) (fun d x y _ => kl1 d x y) row sl.
Proof.
  intros d row sl. unfold mspark_likelihood, spark_likelihood. f_equal. apply map_ext_in. intros [s t] Hb.
  destruct (square_within N B _ HB Hb) as [Ws Wt]. cbn [fst snd] in *. unfold mb_likelihood, b_likelihood. f_equal.
  assert (FE : forall S T n (b1 b2 : nat -> S -> flow S T) s, (forall i s, (i < n)%nat -> b1 i s = b2 i s) ->
    for_flow n b1 s = for_flow n b2 s).
  { intros S T n b1 b2 s0 H. induction n as [|n IH]; [reflexivity|].
    cbn [for_flow]. rewrite IH by (intros; apply H; lia). destruct (for_flow n b2 s0); [apply H; lia | reflexivity]. }
  apply FE. intros i f Hi. apply FE. intros j f' Hj. unfold on_arrays.
  rewrite row_x, row_y by assumption. reflexivity.
Qed.
End Same.
