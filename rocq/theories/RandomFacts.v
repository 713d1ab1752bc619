(** Facts about the RandomDiGraph model. *)
From Verif Require Import Base Num Spec Prob Ensemble EnsembleFacts EnsembleProps EnsembleState Random.

Lemma pairs_of_pos : forall N sl, (1 <= N)%nat -> (sl = false -> (2 <= N)%nat) -> 0 < pairs_of N sl.
Proof.
  intros N sl H1 H2. unfold pairs_of. assert (1 <= INR N) by (apply (le_INR 1); exact H1). destruct sl.
  - nra.
  - assert (2 <= INR N) by (apply (le_INR 2); auto). nra.
Qed.

(** Number of admissible pairs. *)
Lemma pair_count : forall N sl c, pair_sum N sl (fun _ _ => c) = pairs_of N sl * c.
Proof.
  intros N sl c. unfold pair_sum, pairs_of.
  assert (E : forall i, (i < N)%nat -> sumn N (fun j => if allowed sl i j then c else 0) = INR N * c - if sl then 0 else c).
  { intros i Hi. rewrite (sumn_ext N _ (fun j => c - (if Nat.eqb j i then (if sl then 0 else c) else 0))).
    - rewrite sumn_minus, sumn_const, (sumn_delta N i (fun _ => if sl then 0 else c)). apply Nat.ltb_lt in Hi. rewrite Hi. reflexivity.
    - intros j _. unfold allowed. rewrite (Nat.eqb_sym i j). destruct (Nat.eqb j i), sl; simpl; lra. }
  rewrite (sumn_ext N _ _ (fun i Hi => E i Hi)). rewrite sumn_const. destruct sl; ring.
Qed.

Lemma nb_count : forall N sl (l : nat -> nat -> R) v c d, (v < N)%nat ->
  (forall j, l v j = if Nat.eqb v j then d else c) ->
  nb_degree N sl l v = (INR N - 1) * c + if sl then d else 0.
Proof.
  intros N sl l v c d Hv H. unfold nb_degree.
  rewrite (sumn_ext N _ (fun j => c + (if Nat.eqb j v then ((if sl then d else 0) - c) else 0))).
  - rewrite sumn_plus, sumn_const, (sumn_delta N v (fun _ => (if sl then d else 0) - c)).
    apply Nat.ltb_lt in Hv. rewrite Hv. destruct sl; ring.
  - intros j _. rewrite H. unfold allowed. rewrite (Nat.eqb_sym j v). destruct (Nat.eqb v j), sl; simpl; lra.
Qed.

Lemma nb_tot : forall N sl (l : nat -> nat -> R) prop v c d, (v < N)%nat ->
  (forall j, l v j = if Nat.eqb v j then d else c) ->
  nb_total N sl l prop v = sumn N (fun j => c * prop j) - c * prop v + if sl then d * prop v else 0.
Proof.
  intros N sl l prop v c d Hv H. unfold nb_total.
  rewrite (sumn_ext N _ (fun j => c * prop j + (if Nat.eqb j v then ((if sl then d * prop v else 0) - c * prop v) else 0))).
  - rewrite sumn_plus, (sumn_delta N v (fun _ => (if sl then d * prop v else 0) - c * prop v)).
    apply Nat.ltb_lt in Hv. rewrite Hv. destruct sl; ring.
  - intros j _. rewrite H. unfold allowed. rewrite (Nat.eqb_sym j v).
    destruct (Nat.eqb_spec v j) as [<-|]; destruct sl; simpl; lra.
Qed.

Lemma np_sum_fin : forall n f, np_sum n (fun i => Fin (f i)) = Fin (sumn n f).
Proof. intros n f. unfold np_sum. induction n as [|n IH]; simpl; [reflexivity|]. rewrite IH. reflexivity. Qed.

(** ** Likelihood *)

Lemma nnz_length : forall n (row : nat -> list nat), INR (nnz n row) = sumn n (fun i => INR (length (row i))).
Proof.
  intros n row. unfold nnz. induction n as [|n IH]; simpl; [reflexivity|]. rewrite plus_INR, IH. reflexivity.
Qed.

Lemma diag_zero : forall n row, diag_count n row = 0%nat <-> forall i, (i < n)%nat -> ~ In i (row i).
Proof.
  intros n row. unfold diag_count. induction n as [|n IH]; simpl.
  - split; [intros _ i Hi; lia | reflexivity].
  - split.
    + intros H i Hi K. assert (H1 : for_range n (fun i k => (k + length (filter (Nat.eqb i) (row i)))%nat) 0%nat = 0%nat) by lia.
      destruct (Nat.eq_dec i n) as [->|Hne].
      * assert (H2 : In n (filter (Nat.eqb n) (row n))) by (apply filter_In; split; [exact K | apply Nat.eqb_refl]).
        destruct (filter _ _); [contradiction | simpl in H; lia].
      * apply (proj1 IH H1 i ltac:(lia)). exact K.
    + intros H. rewrite (proj2 IH) by (intros i Hi; apply H; lia). simpl.
      destruct (filter (Nat.eqb n) (row n)) as [|x l] eqn:E; [reflexivity|].
      assert (K : In x (filter (Nat.eqb n) (row n))) by (rewrite E; left; reflexivity).
      apply filter_In in K. destruct K as [K1 K2]. apply Nat.eqb_eq in K2. subst x. exfalso. apply (H n); [lia | exact K1].
Qed.

Lemma in_row_of : forall G i j, In j (row_of G i) <-> In (i, j) G.
Proof.
  intros G i j. unfold row_of. rewrite in_map_iff. split.
  - intros [[a b] [<- H]]. apply filter_In in H. destruct H as [H1 H2]. apply Nat.eqb_eq in H2. simpl in *. subst. exact H1.
  - intros H. exists (i, j). split; [reflexivity|]. apply filter_In. split; [exact H | apply Nat.eqb_refl].
Qed.

Lemma length_suml : forall A (l : list A), INR (length l) = suml (fun _ => 1) l.
Proof. intros A l. induction l as [|x l IH]; [reflexivity|]. cbn [length suml]. rewrite S_INR, IH. lra. Qed.

(** Every link of [G] is in exactly one row. *)
Lemma nnz_row_of : forall N G, (forall e, In e G -> (fst e < N)%nat) -> nnz N (row_of G) = length G.
Proof.
  intros N G H. apply INR_eq. rewrite nnz_length.
  rewrite (sumn_ext N _ (fun i => suml (fun e => if Nat.eqb (fst e) i then 1 else 0) G)).
  - rewrite length_suml. induction G as [|e G IH]; simpl; [apply sumn_0|].
    rewrite sumn_plus, IH by (intros e' K; apply H; right; exact K).
    rewrite (sumn_delta' N (fst e) (fun _ => 1)).
    assert (K : (fst e < N)%nat) by (apply H; left; reflexivity). apply Nat.ltb_lt in K. rewrite K. reflexivity.
  - intros i _. unfold row_of. rewrite map_length, length_suml, suml_filter. reflexivity.
Qed.

Lemma prodl_count : forall (l : list (nat * nat)) (f : nat * nat -> bool) p r,
  prodl (fun e => if f e then p else r) l = p ^ length (filter f l) * r ^ length (filter (fun e => negb (f e)) l).
Proof.
  induction l as [|e l IH]; intros f p r; simpl; [ring|]. rewrite IH. destruct (f e); simpl; ring.
Qed.

Lemma filter_neg_length : forall A (f : A -> bool) l,
  (length (filter f l) + length (filter (fun e => negb (f e)) l) = length l)%nat.
Proof. induction l as [|x l IH]; simpl; [reflexivity|]. destruct (f x); simpl; lia. Qed.

Lemma filter_mem_length : forall N sl G, In G (all_graphs N sl) ->
  length (filter (fun e => mem e G) (pairs N sl)) = length G.
Proof.
  intros N sl G H. unfold all_graphs in H. pose proof (NoDup_pairs N sl) as ND. revert G H.
  induction (pairs N sl) as [|e l IH]; intros G H.
  - simpl in H. destruct H as [<-|[]]. reflexivity.
  - inversion ND; subst. simpl in H. apply in_app_iff in H. destruct H as [H|H].
    + apply in_map_iff in H. destruct H as [G' [<- HG']]. cbn [filter].
      assert (M : mem e (e :: G') = true) by (apply mem_spec; left; reflexivity). rewrite M. cbn [length]. f_equal.
      rewrite <- (IH H3 G' HG'). f_equal. apply filter_ext_in. intros f Hf. unfold mem. simpl.
      destruct (pair_eqb_spec f e) as [->|]; [contradiction | reflexivity].
    + cbn [filter]. assert (M : mem e G = false).
      { apply mem_false. intros K. apply H2. eapply sublists_incl; eassumption. }
      rewrite M. apply IH; assumption.
Qed.

(** Weight of a graph under the constant probability. *)
Lemma const_weight : forall N sl p G, In G (all_graphs N sl) ->
  graph_weight N sl (fun _ _ => p) G = p ^ length G * (1 - p) ^ (length (pairs N sl) - length G).
Proof.
  intros N sl p G H. rewrite graph_weight_list. cbn beta. rewrite (prodl_count _ (fun e => mem e G)).
  rewrite (filter_mem_length N sl G H). do 2 f_equal.
  pose proof (filter_neg_length _ (fun e => mem e G) (pairs N sl)). cbv beta in *. rewrite (filter_mem_length N sl G H) in H0. lia.
Qed.

Lemma pairs_length : forall N sl, INR (length (pairs N sl)) = pairs_of N sl.
Proof.
  intros N sl. rewrite length_suml. rewrite <- (pair_sum_list N sl (fun _ _ => 1)), pair_count. ring.
Qed.

Lemma graph_length : forall N sl G, In G (all_graphs N sl) -> (length G <= length (pairs N sl))%nat.
Proof.
  intros N sl G H. rewrite <- (filter_mem_length N sl G H).
  generalize (filter_neg_length _ (fun e => mem e G) (pairs N sl)). intros E. rewrite <- E. apply Nat.le_add_r.
Qed.

Lemma ln_pow : forall x n, 0 < x -> ln (x ^ n) = INR n * ln x.
Proof.
  intros x n Hx. induction n as [|n IH]; [simpl; rewrite ln_1; ring|].
  rewrite S_INR. simpl. rewrite ln_mult by (try apply pow_lt; exact Hx). rewrite IH. ring.
Qed.

Lemma rnd_binary_eq : forall p N sl, rnd_binary_sample p N sl
  = binary_sample (fun (p : R) (_ _ _ : unit) => p) p (fun _ => tt) (fun _ => tt) (fun _ _ => tt) N sl.
Proof. reflexivity. Qed.

Lemma rnd_sample_prob : forall p N sl G, In G (all_graphs N sl) ->
  prob (rnd_binary_sample p N sl) (fun H => list_eqb H G) = graph_weight N sl (fun _ _ => p) G.
Proof.
  intros p N sl G H. rewrite rnd_binary_eq, binary_sample_bern. unfold prob.
  rewrite (bern_sublists _ _ _ _ _ _ (NoDup_pairs N sl)). cbn [app].
  rewrite graph_weight_lweight.
  rewrite <- (sum_indicator (sublists (pairs N sl)) (lweight (fun _ => p) (pairs N sl)) G).
  - apply suml_ext. intros G' _. rewrite map_id. reflexivity.
  - apply NoDup_sublists, NoDup_pairs.
  - exact H.
Qed.
