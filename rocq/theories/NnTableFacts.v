(** Facts about neighbour averages of property tables: every column of the totals is the total of that
    column, and what the division by the degrees makes of them. *)
From Coq Require Import FunctionalExtensionality.
From Verif Require Import Base Num Spec Ensemble EnsembleFacts EnsembleState Graphs GraphFacts DenseGraphs DenseFacts
  Random Spark SparkState NnTable.
Import Num Spec.

Definition col (k : nat) (t : table) : nat -> R := fun i => t i k.

Lemma col_zero : forall k, col k zero_table = (fun _ => 0).
Proof. reflexivity. Qed.

Lemma col_add : forall k t i r, col k (add_row t i r) = add_at (col k t) i (r k).
Proof.
  intros k t i r. extensionality a. unfold col, add_row, add_at, upd. destruct (Nat.eqb a i); reflexivity.
Qed.

Lemma for_range_view : forall (S T : Type) (view : S -> T) n b b' s,
  (forall i s, (i < n)%nat -> view (b i s) = b' i (view s)) -> view (for_range n b s) = for_range n b' (view s).
Proof.
  intros S T view n b b' s. induction n as [|n IH]; intros H; [reflexivity|]. cbn [for_range].
  rewrite H by lia. rewrite IH; [reflexivity|]. intros i t Hi. apply H; lia.
Qed.

Lemma for_each_view : forall (X S T : Type) (view : S -> T) (l : list X) b b' s,
  (forall x s, view (b x s) = b' x (view s)) -> view (for_each l b s) = for_each l b' (view s).
Proof.
  intros X S T view l b b' s H. revert s. induction l as [|x l IH]; intros s; [reflexivity|]. unfold for_each in *. cbn [fold_left].
  rewrite IH, H. reflexivity.
Qed.

Section Ens.
Variables P X Z : Type.
Variables (p_ij : P -> X -> X -> Z -> R).
Variables (po pin : nat -> X) (z : nat -> nat -> Z) (N : nat).

Lemma nn_body_col : forall k p prop nd i j a,
  col k (nn_body_rows p_ij po pin z p prop nd i j a) = nn_body p_ij p po pin z (col k prop) nd i j (col k a).
Proof. intros k p prop nd i j a. destruct nd; cbn; rewrite ?col_add; reflexivity. Qed.

Lemma exp_rows_col : forall k p prop nd sl,
  exp_av_nn_prop p_ij p po pin z (col k prop) nd N sl =
  match exp_av_nn_rows p_ij po pin z N p prop nd sl with Ok t => Ok (col k t) | Raise e => Raise e end.
Proof.
  intros k p prop nd sl. unfold exp_av_nn_prop, exp_av_nn_rows.
  destruct (bad_dir nd && Nat.leb 2 N); [reflexivity|].
  assert (L : col k (for_range N (fun i a => for_range i (fun j a => nn_body_rows p_ij po pin z p prop nd i j a) a) zero_table)
    = for_range N (fun i a => for_range i (fun j a => nn_body p_ij p po pin z (col k prop) nd i j a) a) (fun _ => 0)).
  { rewrite <- (col_zero k). apply for_range_view. intros i s _. apply for_range_view. intros j t _. apply nn_body_col. }
  destruct sl.
  - destruct (Nat.eqb N 1); [reflexivity|]. f_equal. rewrite <- L. symmetry. apply for_range_view. intros i s _. rewrite col_add. reflexivity.
  - f_equal. symmetry. exact L.
Qed.

Lemma b_rows_col : forall k p b xi xj yj yi prop nd sl,
  col k (b_av_nn_rows p_ij z p b xi xj yj yi prop nd sl) = b_av_nn p_ij p b xi xj yj yi z (col k prop) nd sl.
Proof.
  intros k p [bo bi] xi xj yj yi prop nd sl. unfold b_av_nn_rows, b_av_nn. rewrite <- (col_zero k).
  apply for_range_view. intros i s _. apply for_range_view. intros j t _.
  destruct (negb _); [destruct nd | destruct sl]; rewrite ?col_add; reflexivity.
Qed.

Lemma spark_rows_col : forall B k p prop nd sl,
  col k (spark_av_nn_rows p_ij po pin z N B p prop nd sl) = spark_av_nn p po pin z N B p_ij (col k prop) nd sl.
Proof.
  intros B k p prop nd sl. unfold spark_av_nn_rows, spark_av_nn, rdd_fold.
  assert (G : forall l t, col k (fold_left (fun a b v k => a v k + b v k) l t)
    = fold_left (fun a b v => a v + b v) (map (col k) l) (col k t)).
  { induction l as [|b l IH]; intros t; [reflexivity|]. cbn [map fold_left]. rewrite IH. reflexivity. }
  rewrite G, col_zero. f_equal. rewrite !map_map. apply map_ext. intros b. rewrite <- b_rows_col. reflexivity.
Qed.
End Ens.

Lemma av_rows_col : forall N row prop sl k, col k (av_nn_rows N row prop sl) = av_nn_prop N row (col k prop) sl.
Proof.
  intros N row prop sl k. unfold av_nn_rows, av_nn_prop. rewrite <- (col_zero k).
  apply for_range_view. intros i s _. apply for_each_view. intros e t. destruct (_ || _); [rewrite col_add; reflexivity | reflexivity].
Qed.

Lemma d_av_rows_col : forall N A tr prop sl k i, d_av_nn_rows N A tr prop sl i k = d_av_nn_prop N A tr (col k prop) sl i.
Proof. reflexivity. Qed.

(** * The division *)

(** The vertices with a non-empty neighbourhood, in order; [D] is the degree. *)
Definition nonempty (N : nat) (D : nat -> R) : list nat :=
  filter (fun v => if Req_EM_T (D v) 0 then false else true) (seq 0 N).

(** What a caller gets for a table of [K] columns with neighbourhood totals [T] and degrees [D]: with a single
    non-empty neighbourhood, the averages; with as many columns as non-empty neighbourhoods, column [k] divided by
    the degree of the [k]-th vertex among those with a non-empty neighbourhood; ValueError otherwise. *)
Definition table_outcome (N K : nat) (T : table) (D : nat -> R) (r : res table) : Prop :=
  let ne := nonempty N D in
  (length ne = 1%nat -> exists a, r = Ok a /\ forall i k, (i < N)%nat -> (k < K)%nat ->
     a i k = if Req_EM_T (D i) 0 then 0 else T i k / D i) /\
  (length ne <> 1%nat -> length ne = K -> exists a, r = Ok a /\ forall i k, (i < N)%nat -> (k < K)%nat ->
     a i k = if Req_EM_T (D i) 0 then 0 else T i k / D (nth k ne 0%nat)) /\
  (length ne <> 1%nat -> length ne <> K -> r = Raise ValueError).

Lemma filter_ext_seq : forall (f g : nat -> bool) n a, (forall v, (a <= v < a + n)%nat -> f v = g v) ->
  filter f (seq a n) = filter g (seq a n).
Proof.
  intros f g n. induction n as [|n IH]; intros a H; [reflexivity|]. cbn [seq filter]. rewrite H by lia.
  rewrite IH by (intros; apply H; lia). reflexivity.
Qed.

Lemma selected_nonempty : forall N deg D, (forall i, (i < N)%nat -> deg i = D i) -> selected N deg = nonempty N D.
Proof.
  intros N deg D H. unfold selected, nonempty. apply filter_ext_seq. intros v Hv. rewrite H by lia.
  unfold Reqb. destruct (Req_EM_T (D v) 0); reflexivity.
Qed.

Lemma in_nonempty : forall N D i, In i (nonempty N D) <-> (i < N)%nat /\ D i <> 0.
Proof.
  intros N D i. unfold nonempty. rewrite filter_In, in_seq. destruct (Req_EM_T (D i) 0); split; intros [A B]; try discriminate; try contradiction;
    split; auto; lia.
Qed.

Lemma nth_nonempty : forall N D k, (k < length (nonempty N D))%nat -> (nth k (nonempty N D) 0 < N)%nat /\ D (nth k (nonempty N D) 0%nat) <> 0.
Proof. intros N D k H. apply in_nonempty. apply nth_In. exact H. Qed.

Lemma divide_outcome : forall N K av deg T D,
  (forall i k, (i < N)%nat -> (k < K)%nat -> av i k = T i k) -> (forall i, (i < N)%nat -> deg i = D i) ->
  (forall i k, (i < N)%nat -> (k < K)%nat -> D i = 0 -> T i k = 0) ->
  table_outcome N K T D (divide_table N K av deg).
Proof.
  intros N K av deg T D HT HD HZ. unfold divide_table, guard.
  replace (forallb _ (seq 0 N)) with true.
  2:{ symmetry. apply forallb_forall. intros i Hi. apply in_seq in Hi. rewrite HD by lia.
      destruct (Reqb_spec (D i) 0) as [E|]; [|reflexivity]. cbn [negb orb]. apply forallb_forall. intros k Hk. apply in_seq in Hk.
      apply Reqb_true. rewrite HT by lia. apply HZ; [lia|lia|exact E]. }
  rewrite (selected_nonempty N deg D HD). unfold table_outcome. set (ne := nonempty N D). cbv zeta.
  split; [|split].
  - intros E. rewrite E. cbn [Nat.eqb]. eexists. split; [reflexivity|]. intros i k Hi Hk. cbn beta. rewrite HD by exact Hi.
    unfold Reqb. destruct (Req_EM_T (D i) 0) as [E0|E0]; [rewrite HT by assumption; apply HZ; assumption|].
    rewrite HT by assumption.
    assert (I : In i ne) by (apply in_nonempty; auto). destruct ne as [|x [|y l]]; cbn in E; try discriminate.
    destruct I as [->|[]]. cbn [nth]. rewrite HD by exact Hi. reflexivity.
  - intros E1 EK. apply Nat.eqb_neq in E1. rewrite E1. rewrite <- EK, Nat.eqb_refl. eexists. split; [reflexivity|].
    intros i k Hi Hk. rewrite EK in Hk. cbn beta. rewrite HD by exact Hi.
    unfold Reqb. destruct (Req_EM_T (D i) 0) as [E0|E0]; [rewrite HT by assumption; apply HZ; assumption|].
    rewrite HT by assumption. rewrite (HD (nth k ne 0%nat)); [reflexivity|]. apply (nth_nonempty N D k). fold ne. lia.
  - intros E1 EK. apply Nat.eqb_neq in E1. apply Nat.eqb_neq in EK. rewrite E1, EK. reflexivity.
Qed.

Lemma nonempty_single : forall N D v, (v < N)%nat -> (forall w, (w < N)%nat -> (D w <> 0 <-> w = v)) -> length (nonempty N D) = 1%nat.
Proof.
  intros N D v Hv U. unfold nonempty. set (f := fun w => if Req_EM_T (D w) 0 then false else true).
  assert (F : forall n x, (x + n <= N)%nat -> length (filter f (seq x n)) = if Nat.leb x v && Nat.ltb v (x + n) then 1%nat else 0%nat).
  { induction n as [|n IH]; intros x Hx.
    - cbn [seq filter length]. destruct (Nat.leb_spec x v); [|reflexivity]. destruct (Nat.ltb_spec v (x + 0)); [lia|reflexivity].
    - cbn [seq filter]. assert (Fx : f x = Nat.eqb x v).
      { unfold f. pose proof (U x ltac:(lia)) as Ux. destruct (Req_EM_T (D x) 0) as [Ez|Ez], (Nat.eqb_spec x v) as [Exv|Exv]; try reflexivity;
          exfalso; tauto. }
      rewrite Fx. destruct (Nat.eqb_spec x v) as [Exv|Exv]; cbn [length]; rewrite IH by lia;
        destruct (Nat.leb_spec (S x) v), (Nat.leb_spec x v), (Nat.ltb_spec v (S x + n)), (Nat.ltb_spec v (x + S n)); cbn [andb]; try lia; reflexivity. }
  rewrite F by lia. cbn [Nat.leb andb]. destruct (Nat.ltb_spec v (0 + N)); [reflexivity|lia].
Qed.
