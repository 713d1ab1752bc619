(** Facts about the conversions and layer computations of Layers.v. *)
From Verif Require Import Base Num Spec Kernels KernelFacts MultiKernels MultiFacts Prob Ensemble EnsembleFacts
  EnsembleProps Layers.
From Coq Require Import Sorting.Sorted.

(** ** Slices *)

Lemma set_slice_app : forall A (a x : list A) z k, (length x <= k)%nat ->
  set_slice (a ++ repeat z k) (length a) x = (a ++ x) ++ repeat z (k - length x).
Proof.
  intros A a x z k H. unfold set_slice.
  rewrite firstn_app, Nat.sub_diag, firstn_all, firstn_O, app_nil_r.
  rewrite skipn_app, skipn_all2 by lia. simpl.
  replace (length a + length x - length a)%nat with (length x) by lia.
  replace k with (length x + (k - length x))%nat at 1 by lia.
  rewrite repeat_app, skipn_app, skipn_all2 by (rewrite repeat_length; lia).
  rewrite repeat_length, Nat.sub_diag. simpl. rewrite app_assoc. reflexivity.
Qed.

Definition sum_list (l : list nat) : nat := fold_right Nat.add 0%nat l.

Lemma prefix_sums_length : forall ls n, length (prefix_sums n ls) = S (length ls).
Proof. induction ls as [|x t IH]; intros n; simpl; [reflexivity | rewrite IH; reflexivity]. Qed.

Lemma prefix_sums_snoc : forall ls n x,
  prefix_sums n (ls ++ [x]) = prefix_sums n ls ++ [(n + sum_list ls + x)%nat].
Proof.
  induction ls as [|y t IH]; intros n x; simpl.
  - rewrite Nat.add_0_r. reflexivity.
  - rewrite IH. replace (n + y + sum_list t + x)%nat with (n + (y + sum_list t) + x)%nat by lia. reflexivity.
Qed.

Lemma prefix_sums_nth : forall ls n k, (k <= length ls)%nat ->
  nth k (prefix_sums n ls) 0%nat = (n + sum_list (firstn k ls))%nat.
Proof.
  induction ls as [|y t IH]; intros n k H; simpl in *.
  - assert (k = 0)%nat by lia. subst. simpl. lia.
  - destruct k; simpl; [lia|]. rewrite IH by lia. lia.
Qed.

Lemma sum_list_app : forall a b, sum_list (a ++ b) = (sum_list a + sum_list b)%nat.
Proof. induction a; intros b; simpl; [reflexivity | rewrite IHa; lia]. Qed.

Lemma concat_length : forall A (xs : list (list A)), length (concat xs) = sum_list (map (@length A) xs).
Proof. induction xs; simpl; [reflexivity | rewrite app_length, IHxs; reflexivity]. Qed.

(** The slices of a concatenation delimited by the prefix sums of the lengths. *)
Lemma slice_concat : forall A (xs : list (list A)) k, (k < length xs)%nat ->
  slice (concat xs) (sum_list (map (@length A) (firstn k xs))) (sum_list (map (@length A) (firstn (k + 1) xs)))
  = nth k xs [].
Proof.
  induction xs as [|x xs IH]; intros k H; simpl in H; [lia|].
  destruct k as [|k].
  - simpl. unfold slice. simpl. rewrite Nat.add_0_r, Nat.sub_0_r.
    rewrite firstn_app, Nat.sub_diag, firstn_all. simpl. apply app_nil_r.
  - simpl. rewrite <- (IH k) by lia. unfold slice.
    replace (length x + sum_list (map (length (A:=A)) (firstn (k + 1) xs)) -
             (length x + sum_list (map (length (A:=A)) (firstn k xs))))%nat
      with (sum_list (map (length (A:=A)) (firstn (k + 1) xs)) - sum_list (map (length (A:=A)) (firstn k xs)))%nat by lia.
    f_equal. rewrite skipn_app. rewrite skipn_all2 by lia. simpl. f_equal. lia.
Qed.

(** ** Packing *)

Definition pack (rows : list tuple) : csx :=
  mkCsx (concat (map snd rows)) (concat (map fst rows)) (prefix_sums 0 (map (fun t => length (fst t)) rows)).

Definition good_rows (rows : list tuple) : Prop := Forall (fun t => length (fst t) = length (snd t)) rows.

Lemma for_each_cons : forall X S (x : X) l (b : X -> S -> S) s, for_each (x :: l) b s = for_each l b (b x s).
Proof. reflexivity. Qed.

Lemma for_each_append : forall A B (f : A -> B) l acc,
  for_each l (fun i res => res ++ [f i]) acc = acc ++ map f l.
Proof.
  intros A B f l; unfold for_each; induction l as [|x l IH]; intros acc; simpl; [rewrite app_nil_r; reflexivity|].
  rewrite IH, <- app_assoc. reflexivity.
Qed.

Lemma to_tuples_map : forall c, csx_to_tuple_list c
  = map (fun i => (slice (c_indices c) (nth i (c_indptr c) 0%nat) (nth (i + 1) (c_indptr c) 0%nat),
                   slice (c_data c) (nth i (c_indptr c) 0%nat) (nth (i + 1) (c_indptr c) 0%nat)))
        (seq 0 (length (c_indptr c) - 1)).
Proof. intros c. unfold csx_to_tuple_list. 
  exact (for_each_append nat tuple
    (fun i => (slice (c_indices c) (nth i (c_indptr c) 0%nat) (nth (i + 1) (c_indptr c) 0%nat),
               slice (c_data c) (nth i (c_indptr c) 0%nat) (nth (i + 1) (c_indptr c) 0%nat)))
    (seq 0 (length (c_indptr c) - 1)) []).
Qed.

Lemma csr_rows_zip : forall c, csr_rows c = map zip (csx_to_tuple_list c).
Proof. intros c. rewrite to_tuples_map, map_map. reflexivity. Qed.

Lemma nth_map' : forall A B (f : A -> B) l k d d', f d = d' -> nth k (map f l) d' = f (nth k l d).
Proof. intros A B f l k d d' <-. apply map_nth. Qed.

Lemma list_eq_nth : forall A (l m : list A) d, length l = length m ->
  (forall k, (k < length l)%nat -> nth k l d = nth k m d) -> l = m.
Proof. intros A l m d Hl H. apply (nth_ext l m d d Hl). exact H. Qed.

Lemma to_tuples_pack : forall rows, good_rows rows -> csx_to_tuple_list (pack rows) = rows.
Proof.
  intros rows G. rewrite to_tuples_map. unfold pack; cbn [c_indices c_data c_indptr].
  rewrite prefix_sums_length, map_length. simpl. rewrite Nat.sub_0_r.
  apply (list_eq_nth _ _ _ ([], [])).
  { rewrite map_length, seq_length. reflexivity. }
  rewrite map_length, seq_length. intros k Hk.
  match goal with |- context[map ?f (seq 0 _)] => set (f0 := f) end.
  rewrite (nth_indep _ _ (f0 0%nat)) by (rewrite map_length, seq_length; exact Hk).
  rewrite map_nth, seq_nth by exact Hk. rewrite Nat.add_0_l. unfold f0; clear f0.
  rewrite !prefix_sums_nth by (rewrite map_length; lia). rewrite !Nat.add_0_l.
  assert (E1 : forall m, firstn m (map (fun t : tuple => length (fst t)) rows)
                  = map (@length nat) (firstn m (map fst rows))).
  { intros m. rewrite !firstn_map, map_map. reflexivity. }
  assert (E2 : forall m, firstn m (map (fun t : tuple => length (fst t)) rows)
                  = map (@length num) (firstn m (map snd rows))).
  { intros m. rewrite !firstn_map, map_map. apply map_ext_in. intros t Ht.
    apply (proj1 (Forall_forall _ _) G). rewrite <- (firstn_skipn m rows). apply in_or_app. left; exact Ht. }
  assert (S1 : slice (concat (map fst rows)) (sum_list (firstn k (map (fun t : tuple => length (fst t)) rows)))
                 (sum_list (firstn (k + 1) (map (fun t : tuple => length (fst t)) rows))) = fst (nth k rows ([], []))).
  { rewrite !E1, slice_concat by (rewrite map_length; exact Hk). apply nth_map'. reflexivity. }
  assert (S2 : slice (concat (map snd rows)) (sum_list (firstn k (map (fun t : tuple => length (fst t)) rows)))
                 (sum_list (firstn (k + 1) (map (fun t : tuple => length (fst t)) rows))) = snd (nth k rows ([], []))).
  { rewrite !E2, slice_concat by (rewrite map_length; exact Hk). apply nth_map'. reflexivity. }
  etransitivity; [exact (f_equal2 pair S1 S2)|]. symmetry; apply surjective_pairing.
Qed.

Lemma nnz_sum : forall (rows : list tuple) n,
  for_each rows (fun t nnz => (nnz + length (fst t))%nat) n = (n + sum_list (map (fun t => length (fst t)) rows))%nat.
Proof.
  intros rows; unfold for_each; induction rows as [|t rows IH]; intros n; simpl; [lia | rewrite IH; lia].
Qed.

Lemma of_tuples_pack : forall rows, rows <> [] -> good_rows rows -> tuple_list_to_csx rows = Ok (pack rows).
Proof.
  intros rows Hne G. unfold tuple_list_to_csx. rewrite nnz_sum.
  match goal with |- context[for_each _ ?b (_, _, _, _)] => set (body := b) end.
  set (lens := map (fun t : tuple => length (fst t))).
  assert (Loop : forall todo done_, good_rows todo ->
    for_each (combine (seq (length done_) (length todo)) todo) body
      (prefix_sums 0 (lens done_) ++ repeat 0%nat (length todo),
       concat (map fst done_) ++ repeat 0%nat (sum_list (lens todo)),
       concat (map snd done_) ++ repeat (Fin 0) (sum_list (lens todo)),
       sum_list (lens done_))
    = (prefix_sums 0 (lens (done_ ++ todo)), concat (map fst (done_ ++ todo)), concat (map snd (done_ ++ todo)),
       sum_list (lens (done_ ++ todo)))
    \/ length (concat (map fst done_)) <> sum_list (lens done_)
    \/ length (concat (map snd done_)) <> sum_list (lens done_)).
  { induction todo as [|[x y] todo IH]; intros done_ Gt.
    - left. cbn. rewrite !app_nil_r. reflexivity.
    - inversion Gt as [|? ? Gx Gt']; subst. cbn [fst snd] in Gx.
      destruct (Nat.eq_dec (length (concat (map fst done_))) (sum_list (lens done_))) as [D1|D1];
        [|right; left; exact D1].
      destruct (Nat.eq_dec (length (concat (map snd done_))) (sum_list (lens done_))) as [D2|D2];
        [|right; right; exact D2].
      assert (LP : length (prefix_sums 0 (lens done_)) = (length done_ + 1)%nat).
      { rewrite prefix_sums_length. unfold lens. rewrite map_length. lia. }
      assert (Step : body (length done_, (x, y))
         (prefix_sums 0 (lens done_) ++ repeat 0%nat (length ((x, y) :: todo)),
          concat (map fst done_) ++ repeat 0%nat (sum_list (lens ((x, y) :: todo))),
          concat (map snd done_) ++ repeat (Fin 0) (sum_list (lens ((x, y) :: todo))),
          sum_list (lens done_))
         = (prefix_sums 0 (lens (done_ ++ [(x, y)])) ++ repeat 0%nat (length todo),
            concat (map fst (done_ ++ [(x, y)])) ++ repeat 0%nat (sum_list (lens todo)),
            concat (map snd (done_ ++ [(x, y)])) ++ repeat (Fin 0) (sum_list (lens todo)),
            sum_list (lens (done_ ++ [(x, y)])))).
      { unfold body. cbv beta iota zeta. unfold set_nth.
        assert (L1 : lens (done_ ++ [(x, y)]) = lens done_ ++ [length x]) by (unfold lens; rewrite map_app; reflexivity).
        assert (L2 : sum_list (lens ((x, y) :: todo)) = (length x + sum_list (lens todo))%nat) by reflexivity.
        rewrite L1, L2, prefix_sums_snoc, sum_list_app, <- LP, set_slice_app by (simpl; lia).
        assert (I1 : set_slice (concat (map fst done_) ++ repeat 0%nat (length x + sum_list (lens todo)))
                       (sum_list (lens done_)) x
                     = (concat (map fst done_) ++ x) ++ repeat 0%nat (sum_list (lens todo))).
        { rewrite <- D1, set_slice_app by lia. do 2 f_equal. lia. }
        assert (I2 : set_slice (concat (map snd done_) ++ repeat (Fin 0) (length x + sum_list (lens todo)))
                       (sum_list (lens done_)) y
                     = (concat (map snd done_) ++ y) ++ repeat (Fin 0) (sum_list (lens todo))).
        { rewrite <- D2, set_slice_app by lia. do 2 f_equal. lia. }
        rewrite I1, I2.
        rewrite !map_app, !concat_app. cbn [map concat fst snd length sum_list fold_right].
        rewrite !app_nil_r, Nat.add_0_r, Nat.sub_succ, Nat.sub_0_r.
        reflexivity. }
      change (combine (seq (length done_) (length ((x, y) :: todo))) ((x, y) :: todo))
        with ((length done_, (x, y)) :: combine (seq (S (length done_)) (length todo)) todo).
      destruct (IH (done_ ++ [(x, y)]) Gt') as [E|[E|E]].
      + left. rewrite for_each_cons.
        etransitivity; [exact (f_equal (for_each (combine (seq (S (length done_)) (length todo)) todo) body) Step)|].
        rewrite app_length, <- app_assoc in E. cbn [length] in E. rewrite Nat.add_1_r in E. exact E.
      + exfalso. apply E. unfold lens. rewrite !map_app, concat_app, app_length, sum_list_app. simpl.
        rewrite app_nil_r, Nat.add_0_r. exact (f_equal (fun n => (n + length x)%nat) D1).
      + exfalso. apply E. unfold lens. rewrite !map_app, concat_app, app_length, sum_list_app. simpl.
        rewrite app_nil_r, Nat.add_0_r, <- Gx. exact (f_equal (fun n => (n + length x)%nat) D2). }
  destruct rows as [|t0 rows]; [congruence|].
  destruct (Loop (t0 :: rows) [] G) as [E|[E|E]]; [| exfalso; apply E; reflexivity | exfalso; apply E; reflexivity].
  cbv iota. rewrite Nat.add_0_l. unfold lens in E.
  replace (length (t0 :: rows) + 1)%nat with (S (length (t0 :: rows))) by lia.
  exact (f_equal (fun st => let '(a, b, c, _) := st in Ok (mkCsx c b a)) E).
Qed.

(** A valid compressed array is the packing of its rows. *)
Definition valid_csx (c : csx) : Prop :=
  (2 <= length (c_indptr c))%nat /\ nth 0 (c_indptr c) 0%nat = 0%nat /\
  (forall i, (i + 1 < length (c_indptr c))%nat -> (nth i (c_indptr c) 0 <= nth (i + 1) (c_indptr c) 0)%nat) /\
  nth (length (c_indptr c) - 1) (c_indptr c) 0%nat = length (c_indices c) /\
  length (c_data c) = length (c_indices c).

Fixpoint cuts {A} (l : list A) (a : nat) (rest : list nat) : list (list A) :=
  match rest with [] => [] | b :: t => slice l a b :: cuts l b t end.

Lemma cuts_map : forall A (l : list A) rest a,
  map (fun i => slice l (nth i (a :: rest) 0%nat) (nth (i + 1) (a :: rest) 0%nat)) (seq 0 (length rest))
  = cuts l a rest.
Proof.
  intros A l rest; induction rest as [|b t IH]; intros a; [reflexivity|].
  simpl length. rewrite <- cons_seq. simpl map at 1. cbn [cuts]. f_equal.
  rewrite <- seq_shift, map_map. rewrite <- IH. apply map_ext. intros i. reflexivity.
Qed.

Definition chain (a : nat) (rest : list nat) (n : nat) : Prop :=
  (forall i, (i < length rest)%nat -> (nth i (a :: rest) 0 <= nth (i + 1) (a :: rest) 0)%nat) /\
  nth (length rest) (a :: rest) 0%nat = n.

Lemma skipn_skipn' : forall A x y (l : list A), skipn x (skipn y l) = skipn (x + y) l.
Proof.
  intros A x y; induction y as [|y IH]; intros l; [rewrite Nat.add_0_r; reflexivity|].
  rewrite Nat.add_succ_r. destruct l as [|a l]; [destruct x; reflexivity | apply IH].
Qed.

Lemma slice_all : forall A (l : list A) a b c, (a <= b <= c)%nat -> slice l a b ++ slice l b c = slice l a c.
Proof.
  intros A l a b c H. unfold slice.
  replace (skipn b l) with (skipn (b - a) (skipn a l)) by (rewrite skipn_skipn'; replace (b - a + a)%nat with b by lia; reflexivity).
  remember (skipn a l) as r.
  rewrite <- (firstn_skipn (b - a) (firstn (c - a) r)).
  rewrite firstn_firstn, Nat.min_l by lia. rewrite skipn_firstn_comm.
  replace (c - a - (b - a))%nat with (c - b)%nat by lia. reflexivity.
Qed.

Lemma slice_length : forall A (l : list A) a b, (a <= b <= length l)%nat -> length (slice l a b) = (b - a)%nat.
Proof. intros A l a b H. unfold slice. rewrite firstn_length, skipn_length. lia. Qed.

Lemma chain_tail : forall a b t n, chain a (b :: t) n -> (a <= b)%nat /\ chain b t n.
Proof.
  intros a b t n [H1 H2]. split; [apply (H1 0%nat); simpl; lia|].
  split; [|exact H2]. intros i Hi. apply (H1 (S i)). simpl; lia.
Qed.

Lemma chain_le : forall rest a n, chain a rest n -> (a <= n)%nat.
Proof.
  induction rest as [|b t IH]; intros a n H.
  - destruct H as [_ H]. simpl in H. lia.
  - apply chain_tail in H. destruct H as [H1 H2]. apply IH in H2. lia.
Qed.

Lemma cuts_concat : forall A (l : list A) rest a n, chain a rest n -> concat (cuts l a rest) = slice l a n.
Proof.
  intros A l rest; induction rest as [|b t IH]; intros a n H.
  - destruct H as [_ H]. simpl in *. subst. unfold slice. rewrite Nat.sub_diag. reflexivity.
  - apply chain_tail in H. destruct H as [H1 H2]. cbn [cuts concat]. rewrite (IH b n H2).
    apply slice_all. apply chain_le in H2. lia.
Qed.

Lemma cuts_prefix : forall A (l : list A) rest a, chain a rest (length l) ->
  prefix_sums a (map (@length A) (cuts l a rest)) = a :: rest.
Proof.
  intros A l rest; induction rest as [|b t IH]; intros a H; [reflexivity|].
  apply chain_tail in H. destruct H as [H1 H2]. cbn [cuts map prefix_sums].
  pose proof (chain_le _ _ _ H2) as H3.
  rewrite slice_length by lia. replace (a + (b - a))%nat with b by lia. rewrite IH by exact H2. reflexivity.
Qed.

Lemma cuts_length : forall A B (l : list A) (m : list B) rest a, length l = length m -> chain a rest (length l) ->
  map (@length A) (cuts l a rest) = map (@length B) (cuts m a rest).
Proof.
  intros A B l m rest; induction rest as [|b t IH]; intros a Hl H; [reflexivity|].
  apply chain_tail in H. destruct H as [H1 H2]. pose proof (chain_le _ _ _ H2) as H3. cbn [cuts map].
  rewrite !slice_length by lia. rewrite IH by assumption. reflexivity.
Qed.

Lemma combine_map_fst : forall A B C (f : C -> A) (g : C -> B) l, map fst (map (fun i => (f i, g i)) l) = map f l.
Proof. intros. rewrite map_map. reflexivity. Qed.

Lemma valid_round : forall c, valid_csx c ->
  good_rows (csx_to_tuple_list c) /\ length (csx_to_tuple_list c) = (length (c_indptr c) - 1)%nat /\
  pack (csx_to_tuple_list c) = c.
Proof.
  intros [d ix ptr] (H1 & H2 & H3 & H4 & H5); cbn [c_data c_indices c_indptr] in *.
  destruct ptr as [|a rest]; [simpl in H1; lia|]. simpl in H2; subst a.
  assert (Ch : chain 0 rest (length ix)).
  { split.
    - intros i Hi. apply H3. simpl. lia.
    - rewrite <- H4. f_equal. simpl. lia. }
  rewrite to_tuples_map. cbn [c_data c_indices c_indptr].
  replace (length (0%nat :: rest) - 1)%nat with (length rest) by (simpl; lia).
  match goal with |- context[map ?f (seq 0 (length rest))] => set (T := map f (seq 0 (length rest))) end.
  assert (F1 : map fst T = cuts ix 0 rest) by (unfold T; rewrite map_map; apply cuts_map).
  assert (F2 : map snd T = cuts d 0 rest) by (unfold T; rewrite map_map; apply cuts_map).
  assert (Lens : map (fun t => length (fst t)) T = map (fun t => length (snd t)) T).
  { rewrite <- (map_map fst (@length nat)), <- (map_map snd (@length num)), F1, F2.
    apply cuts_length; [congruence | exact Ch]. }
  split; [|split].
  - unfold good_rows. revert Lens. clearbody T. clear. induction T as [|t T IH]; intros E; [constructor|].
    simpl in E; injection E as E1 E2. constructor; auto.
  - unfold T. rewrite map_length, seq_length. reflexivity.
  - unfold pack. rewrite F1, F2, <- (map_map fst (@length nat)), F1.
    rewrite (cuts_concat _ ix rest 0%nat _ Ch).
    rewrite (cuts_concat _ d rest 0%nat (length ix) Ch).
    rewrite (cuts_prefix _ ix rest 0%nat Ch).
    unfold slice. rewrite Nat.sub_0_r. cbn [skipn].
    rewrite (firstn_all2 d) by lia. rewrite (firstn_all2 ix) by lia. reflexivity.
Qed.

(** ** By-layer form *)

Definition tuple_of (v : svec) : tuple := (map fst v, map snd v).

Lemma zip_tuple_of : forall v, zip (tuple_of v) = v.
Proof.
  intros v. unfold zip, tuple_of; simpl. induction v as [|[a b] t IH]; simpl; [reflexivity | rewrite IH; reflexivity].
Qed.

Lemma good_tuple_of : forall vs, good_rows (map tuple_of vs).
Proof.
  intros vs. unfold good_rows. apply Forall_forall. intros t Ht. apply in_map_iff in Ht.
  destruct Ht as (v & <- & _). unfold tuple_of; simpl. rewrite !map_length. reflexivity.
Qed.

Lemma tocsc_pack : forall L c, tocsc L c = pack (map tuple_of (map (column (csr_rows c)) (seq 0 L))).
Proof.
  intros L c. unfold tocsc, pack. rewrite !map_map. f_equal. f_equal.
  apply map_ext. intros l. cbn. rewrite map_length. reflexivity.
Qed.

Lemma by_layer_spec : forall L rows, rows <> [] -> good_rows rows ->
  by_layer L rows = Ok (map (fun l => tuple_of (column (map zip rows) l)) (seq 0 L)).
Proof.
  intros L rows Hne G. unfold by_layer. rewrite of_tuples_pack by assumption. cbn [bind].
  rewrite tocsc_pack, to_tuples_pack by apply good_tuple_of.
  rewrite csr_rows_zip, to_tuples_pack by exact G. rewrite map_map. reflexivity.
Qed.

Lemma nth_layers : forall rows L k, (k < L)%nat ->
  zip (nth k (map (fun l => tuple_of (column rows l)) (seq 0 L)) ([], [])) = column rows k.
Proof.
  intros rows L k Hk.
  rewrite (nth_indep _ _ (tuple_of (column rows 0%nat))) by (rewrite map_length, seq_length; exact Hk).
  rewrite (map_nth (fun l => tuple_of (column rows l))), seq_nth by exact Hk. apply zip_tuple_of.
Qed.

(** The entries with label [l] of a row. *)
Lemma lookup_notin : forall k xs, ~ In k (map fst xs) -> lookup k xs = Fin 0.
Proof.
  intros k xs; induction xs as [|[a v] t IH]; intros H; simpl in *; [reflexivity|].
  destruct (Nat.eqb_spec a k) as [->|Hn]; [exfalso; apply H; left; reflexivity | apply IH; tauto].
Qed.

Lemma sorted_nodup : forall l, StronglySorted lt l -> NoDup l.
Proof.
  induction 1 as [|a l H1 IH H2]; constructor; [|exact IH].
  intros Hi. rewrite Forall_forall in H2. specialize (H2 a Hi). lia.
Qed.

Lemma filter_label : forall l row, NoDup (map fst row) ->
  filter (fun e => Nat.eqb (fst e) l) row = if existsb (Nat.eqb l) (map fst row) then [(l, lookup l row)] else [].
Proof.
  intros l row; induction row as [|[a v] t IH]; intros ND; [reflexivity|]. inversion ND; subst. simpl.
  rewrite (Nat.eqb_sym l a). destruct (Nat.eqb_spec a l) as [->|Hn]; simpl.
  - rewrite IH by assumption.
    destruct (existsb (Nat.eqb l) (map fst t)) eqn:E; [|reflexivity].
    apply existsb_exists in E. destruct E as (x & Hx & Ex). apply Nat.eqb_eq in Ex. subst x. contradiction.
  - apply IH; assumption.
Qed.

Definition column_from (s : nat) (rows : list svec) (l : nat) : svec :=
  flat_map (fun ir => map (fun e => (fst ir, snd e)) (filter (fun e => Nat.eqb (fst e) l) (snd ir)))
    (combine (seq s (length rows)) rows).

Lemma column_from_0 : forall rows l, column rows l = column_from 0 rows l. Proof. reflexivity. Qed.

Lemma column_from_cons : forall s r rows l, NoDup (map fst r) ->
  column_from s (r :: rows) l
  = (if existsb (Nat.eqb l) (map fst r) then [(s, lookup l r)] else []) ++ column_from (S s) rows l.
Proof.
  intros s r rows l ND. unfold column_from at 1. cbn [length seq combine flat_map fst snd].
  rewrite filter_label by exact ND. destruct (existsb (Nat.eqb l) (map fst r)); reflexivity.
Qed.

Lemma column_from_fst : forall rows s l i, In i (map fst (column_from s rows l)) -> (s <= i < s + length rows)%nat.
Proof.
  intros rows s l i H. unfold column_from in H. apply in_map_iff in H. destruct H as ([a v] & <- & H).
  apply in_flat_map in H. destruct H as ([k r] & Hk & H). apply in_map_iff in H. destruct H as (e & E & _).
  injection E as <- _. apply in_combine_l in Hk. apply in_seq in Hk. exact Hk.
Qed.

Lemma column_canonical : forall rows s l, Forall (fun r => NoDup (map fst r)) rows ->
  StronglySorted lt (map fst (column_from s rows l)) /\
  (forall i, lookup (s + i) (column_from s rows l) = if Nat.ltb i (length rows) then lookup l (nth i rows []) else Fin 0) /\
  (forall i, In (s + i)%nat (map fst (column_from s rows l)) <-> ((i < length rows)%nat /\ In l (map fst (nth i rows [])))).
Proof.
  induction rows as [|r rows IH]; intros s l F.
  - simpl. split; [constructor|]. split; [intros i; reflexivity|]. intros i; simpl. split; [tauto | lia].
  - inversion F as [|? ? ND F']; subst. destruct (IH (S s) l F') as (I1 & I2 & I3).
    rewrite column_from_cons by exact ND.
    assert (Hs : ~ In s (map fst (column_from (S s) rows l))).
    { intros H. apply column_from_fst in H. lia. }
    assert (Hex : existsb (Nat.eqb l) (map fst r) = true <-> In l (map fst r)).
    { rewrite existsb_exists. split; [intros (x & H1 & H2); apply Nat.eqb_eq in H2; subst; exact H1 |
        intros H; exists l; split; [exact H | apply Nat.eqb_refl]]. }
    split; [|split].
    + destruct (existsb (Nat.eqb l) (map fst r)); simpl; [|exact I1]. constructor; [exact I1|].
      apply Forall_forall. intros i Hi. apply column_from_fst in Hi. lia.
    + intros i. destruct i as [|i].
      * rewrite Nat.add_0_r. simpl. destruct (existsb (Nat.eqb l) (map fst r)) eqn:E; simpl.
        -- rewrite Nat.eqb_refl. reflexivity.
        -- rewrite lookup_notin by exact Hs. symmetry. apply lookup_notin. intros K. apply Hex in K. congruence.
      * rewrite Nat.add_succ_r, <- Nat.add_succ_l.
        assert (E : lookup (S s + i) ((if existsb (Nat.eqb l) (map fst r) then [(s, lookup l r)] else [])
                     ++ column_from (S s) rows l) = lookup (S s + i) (column_from (S s) rows l)).
        { destruct (existsb (Nat.eqb l) (map fst r)); simpl; [|reflexivity].
          destruct (Nat.eqb_spec s (S (s + i))); [lia | reflexivity]. }
        rewrite E, I2. reflexivity.
    + intros i. destruct i as [|i].
      * rewrite Nat.add_0_r. simpl nth. destruct (existsb (Nat.eqb l) (map fst r)) eqn:E; simpl.
        -- split; [intros _; split; [lia | apply Hex; reflexivity] | intros _; left; reflexivity].
        -- split; [intros K; contradiction |]. intros [_ K]. apply Hex in K. congruence.
      * rewrite Nat.add_succ_r, <- Nat.add_succ_l. simpl nth.
        assert (E : In (S s + i)%nat (map fst ((if existsb (Nat.eqb l) (map fst r) then [(s, lookup l r)] else [])
                     ++ column_from (S s) rows l)) <-> In (S s + i)%nat (map fst (column_from (S s) rows l))).
        { destruct (existsb (Nat.eqb l) (map fst r)); simpl; [|tauto].
          split; [intros [K|K]; [lia | exact K] | right; assumption]. }
        rewrite E, I3. simpl. split; intros [K1 K2]; (split; [lia | exact K2]).
Qed.

Lemma column_spec : forall rows L l, Forall (canonical L) rows ->
  canonical (length rows) (column rows l) /\
  (forall i, (i < length rows)%nat -> lookup i (column rows l) = lookup l (nth i rows [])) /\
  (forall i, In i (map fst (column rows l)) <-> ((i < length rows)%nat /\ In l (map fst (nth i rows [])))).
Proof.
  intros rows L l F.
  assert (F' : Forall (fun r => NoDup (map fst r)) rows).
  { apply Forall_forall. intros r Hr. rewrite Forall_forall in F. apply sorted_nodup. apply (F r Hr). }
  destruct (column_canonical rows 0 l F') as (C1 & C2 & C3). rewrite <- column_from_0 in *.
  split; [|split; [|exact C3]].
  - split; [exact C1|]. apply Forall_forall. intros e He.
    assert (Hi : In (fst e) (map fst (column rows l))) by (apply in_map; exact He).
    rewrite column_from_0 in Hi. apply column_from_fst in Hi. exact (proj2 Hi).
  - intros i Hi. specialize (C2 i). simpl in C2. rewrite C2.
    destruct (Nat.ltb_spec i (length rows)); [reflexivity | lia].
Qed.
