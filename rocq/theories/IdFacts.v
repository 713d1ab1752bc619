(** Lemmas about Ids.v. *)
From Verif Require Import Base Num Spec Ids.
From Coq Require Import ZArith Sorting.Sorted Sorting.Permutation.

Section Order.
Context {K : Type} (leb : K -> K -> bool) (ord : total_order leb).

Lemma leb_refl : forall x, leb x x = true.
Proof. intros x. destruct ord as [T _]. destruct (T x x); assumption. Qed.

Lemma same_spec : forall x y, reflect (x = y) (same leb x y).
Proof.
  intros x y. unfold same. destruct ord as [T [Tr A]].
  destruct (leb x y) eqn:E1; destruct (leb y x) eqn:E2; cbn; constructor; try (apply A; assumption);
    intros ->; rewrite leb_refl in *; discriminate.
Qed.

Lemma same_refl : forall x, same leb x x = true.
Proof. intros x. unfold same. rewrite leb_refl. reflexivity. Qed.

Definition ltk (x y : K) : Prop := leb x y = true /\ x <> y.

Lemma insert_in : forall x y l, In y (insert_unique leb x l) <-> y = x \/ In y l.
Proof.
  intros x y l. induction l as [|z l IH]; cbn [insert_unique].
  - cbn. intuition.
  - destruct (leb x z) eqn:E1; [destruct (leb z x) eqn:E2|].
    + destruct ord as [_ [_ A]]. rewrite (A x z E1 E2). cbn. intuition.
    + cbn. intuition.
    + cbn. rewrite IH. intuition.
Qed.

Lemma unique_in : forall col x, In x (np_unique leb col) <-> In x col.
Proof.
  intros col x. induction col as [|y col IH]; cbn; [reflexivity|].
  rewrite insert_in, IH. intuition.
Qed.

Lemma insert_sorted : forall x l, StronglySorted ltk l -> StronglySorted ltk (insert_unique leb x l).
Proof.
  intros x l H. destruct ord as [T [Tr A]].
  induction H as [|y l Hl IH Hy]; cbn [insert_unique].
  - constructor; constructor.
  - destruct (leb x y) eqn:E1; [destruct (leb y x) eqn:E2|].
    + constructor; assumption.
    + assert (x <> y) by (intros ->; rewrite E1 in E2; discriminate).
      constructor; [constructor; assumption|]. constructor; [split; assumption|].
      apply Forall_forall. intros z Hz. rewrite Forall_forall in Hy. destruct (Hy z Hz) as [L N].
      split; [eapply Tr; eassumption|]. intros ->. apply N, A; assumption.
    + constructor; [exact IH|]. apply Forall_forall. intros z Hz. rewrite insert_in in Hz.
      destruct Hz as [-> | Hz].
      * destruct (T x y) as [H|H]; [rewrite E1 in H; discriminate|]. split; [exact H|].
        intros ->. rewrite H in E1. discriminate.
      * rewrite Forall_forall in Hy. apply Hy, Hz.
Qed.

Lemma unique_sorted : forall col, StronglySorted ltk (np_unique leb col).
Proof. induction col as [|x col IH]; cbn; [constructor | apply insert_sorted, IH]. Qed.

Lemma sorted_nodup : forall l, StronglySorted ltk l -> NoDup l.
Proof.
  intros l H. induction H as [|y l Hl IH Hy]; constructor; [|exact IH].
  intros Hin. rewrite Forall_forall in Hy. destruct (Hy y Hin) as [_ N]. apply N; reflexivity.
Qed.

Lemma unique_nodup : forall col, NoDup (np_unique leb col).
Proof. intros col. apply sorted_nodup, unique_sorted. Qed.

Lemma count_one : forall col, NoDup col -> forall x, In x col -> count_of leb col x = 1%nat.
Proof.
  intros col H. unfold count_of. induction H as [|y col Hn Hd IH]; intros x Hx; [destruct Hx|].
  cbn [filter]. destruct (same_spec x y) as [->|Hne].
  - cbn [length]. f_equal. rewrite (proj2 (length_zero_iff_nil _)); [reflexivity|].
    destruct (filter (same leb y) col) as [|z t] eqn:E; [reflexivity|].
    assert (Hz : In z (filter (same leb y) col)) by (rewrite E; left; reflexivity).
    apply filter_In in Hz as [Hz Hs]. destruct (same_spec y z); [subst; contradiction | discriminate].
  - apply IH. destruct Hx as [->|Hx]; [contradiction | exact Hx].
Qed.

Lemma count_pos : forall col x, In x col -> (1 <= count_of leb col x)%nat.
Proof.
  intros col x Hx. unfold count_of. destruct (filter (same leb x) col) as [|z t] eqn:E; [|cbn; lia].
  assert (H : In x (filter (same leb x) col)) by (apply filter_In; split; [exact Hx | apply same_refl]).
  rewrite E in H. destruct H.
Qed.

Lemma one_nodup : forall col, (forall x, In x col -> count_of leb col x = 1%nat) -> NoDup col.
Proof.
  induction col as [|y col IH]; intros H; [constructor|].
  constructor.
  - intros Hin. specialize (H y (or_introl eq_refl)). unfold count_of in H. cbn [filter] in H.
    rewrite same_refl in H. cbn [length] in H. pose proof (count_pos col y Hin). unfold count_of in *. lia.
  - apply IH. intros x Hx. specialize (H x (or_intror Hx)). pose proof (count_pos col x Hx).
    unfold count_of in *. cbn [filter] in H. destruct (same leb x y); cbn [length] in H; lia.
Qed.

Lemma check_counts : forall col,
  forallb (fun x => Nat.eqb (count_of leb col x) 1) (np_unique leb col) = true <-> NoDup col.
Proof.
  intros col. rewrite forallb_forall. split.
  - intros H. apply one_nodup. intros x Hx. apply Nat.eqb_eq, H, unique_in, Hx.
  - intros H x Hx. apply Nat.eqb_eq, count_one; [exact H | apply unique_in, Hx].
Qed.

Lemma unique_length : forall col, NoDup col -> length (np_unique leb col) = length col.
Proof.
  intros col H. apply Permutation_length, NoDup_Permutation; [apply unique_nodup | exact H | apply unique_in].
Qed.

(** Positions in the dictionary built by enumerating [ids]. *)
Lemma get_enum : forall ids s x i, NoDup ids ->
  (dict_get leb (combine ids (seq s (length ids))) x = Some i <->
   (s <= i)%nat /\ nth_error ids (i - s) = Some x).
Proof.
  induction ids as [|y ids IH]; intros s x i H; cbn [length seq combine dict_get].
  - split; [discriminate|]. intros [_ E]. destruct (i - s)%nat; discriminate.
  - inversion H as [|a b Hn Hd]; subst. destruct (same_spec x y) as [->|Hne].
    + split.
      * intros E. injection E as <-. rewrite Nat.sub_diag. split; [lia | reflexivity].
      * intros [Hi E]. f_equal. destruct (i - s)%nat eqn:D; [lia|]. cbn in E. apply nth_error_In in E. contradiction.
    + rewrite IH by exact Hd. split.
      * intros [Hi E]. split; [lia|]. replace (i - s)%nat with (S (i - S s)) by lia. exact E.
      * intros [Hi E]. destruct (i - s)%nat eqn:D; [cbn in E; injection E as ->; contradiction|].
        cbn in E. split; [lia|]. replace (i - S s)%nat with n by lia. exact E.
Qed.

Lemma get_none : forall ids s x, dict_get leb (combine ids (seq s (length ids))) x = None <-> ~ In x ids.
Proof.
  induction ids as [|y ids IH]; intros s x; cbn [length seq combine dict_get]; [cbn; tauto|].
  destruct (same_spec x y) as [->|Hne].
  - cbn. split; [discriminate | intros H; exfalso; apply H; left; reflexivity].
  - rewrite IH. cbn. intuition.
Qed.

Lemma sorted_nth : forall l i j x y, StronglySorted ltk l ->
  nth_error l i = Some x -> nth_error l j = Some y -> leb x y = true -> (i <= j)%nat.
Proof.
  intros l i j x y H. revert i j. induction H as [|z l Hl IH Hz]; intros i j Ei Ej Hle.
  - destruct i; discriminate.
  - destruct i as [|i]; [lia|]. destruct j as [|j].
    + cbn in Ei, Ej. injection Ej as ->. apply nth_error_In in Ei. rewrite Forall_forall in Hz.
      destruct (Hz x Ei) as [L N]. exfalso. apply N. destruct ord as [_ [_ A]]. apply A; assumption.
    + cbn in Ei, Ej. specialize (IH i j Ei Ej Hle). lia.
Qed.

(** What a generated dictionary is. *)
Definition enumerates (d : dict K) (col : list K) : Prop :=
  (forall x, In x col <-> exists i, dict_get leb d x = Some i) /\
  (forall x i, dict_get leb d x = Some i -> (i < length d)%nat) /\
  (forall i, (i < length d)%nat -> exists x, In x col /\ dict_get leb d x = Some i) /\
  (forall x y i, dict_get leb d x = Some i -> dict_get leb d y = Some i -> x = y) /\
  (forall x y i j, dict_get leb d x = Some i -> dict_get leb d y = Some j -> leb x y = true -> (i <= j)%nat).

Lemma generate_enumerates : forall col c d, generate_id_dict leb col c = Ok d ->
  enumerates d col /\ (c = true -> NoDup col /\ length d = length col).
Proof.
  intros col c d. unfold generate_id_dict, guard.
  destruct (negb c || forallb _ _) eqn:E; [|discriminate]. intros H. injection H as <-.
  pose proof (unique_nodup col) as Hnd.
  assert (Hlen : length (combine (np_unique leb col) (seq 0 (length (np_unique leb col)))) = length (np_unique leb col))
    by (rewrite combine_length, seq_length; lia).
  split.
  - repeat split.
    + intros Hx. destruct (dict_get leb (combine (np_unique leb col) (seq 0 (length (np_unique leb col)))) x) as [i|] eqn:G; [exists i; reflexivity|].
      apply (proj1 (get_none _ _ _)) in G. exfalso. apply G, unique_in, Hx.
    + intros [i G]. apply (proj1 (get_enum _ _ _ _ Hnd)) in G as [_ G]. apply nth_error_In in G. apply unique_in, G.
    + intros x i G. apply (proj1 (get_enum _ _ _ _ Hnd)) in G as [_ G]. rewrite Nat.sub_0_r in G.
      rewrite Hlen. apply nth_error_Some. rewrite G. discriminate.
    + intros i Hi. rewrite Hlen in Hi. destruct (nth_error (np_unique leb col) i) as [x|] eqn:G.
      * exists x. split; [apply unique_in; eapply nth_error_In; exact G|].
        apply (proj2 (get_enum _ _ _ _ Hnd)). rewrite Nat.sub_0_r. split; [lia | exact G].
      * apply nth_error_None in G. lia.
    + intros x y i Gx Gy. apply (proj1 (get_enum _ _ _ _ Hnd)) in Gx as [_ Gx].
      apply (proj1 (get_enum _ _ _ _ Hnd)) in Gy as [_ Gy]. rewrite Gx in Gy. injection Gy as ->. reflexivity.
    + intros x y i j Gx Gy L. apply (proj1 (get_enum _ _ _ _ Hnd)) in Gx as [_ Gx].
      apply (proj1 (get_enum _ _ _ _ Hnd)) in Gy as [_ Gy]. rewrite Nat.sub_0_r in Gx, Gy.
      eapply sorted_nth; eauto. apply unique_sorted.
  - intros ->. cbn in E. apply (proj1 (check_counts _)) in E. split; [exact E|].
    rewrite Hlen. apply unique_length, E.
Qed.

Lemma generate_false_ok : forall col, exists d, generate_id_dict leb col false = Ok d.
Proof. intros col. eexists. reflexivity. Qed.

Lemma generate_true_ok : forall col, NoDup col <-> exists d, generate_id_dict leb col true = Ok d.
Proof.
  intros col. unfold generate_id_dict, guard. cbn [negb orb]. rewrite <- check_counts.
  destruct (forallb _ _); split; intros H; try discriminate; try reflexivity.
  - eexists; reflexivity.
  - destruct H; discriminate.
Qed.
End Order.

(** * Index widths *)

Lemma ceil_le : forall x z, (np_ceil x <= z)%Z <-> x <= IZR z.
Proof.
  intros x z. unfold np_ceil. destruct (base_Int_part (- x)) as [L U]. split.
  - intros H. assert (IZR (- Int_part (- x)) <= IZR z) by (apply IZR_le; exact H). rewrite opp_IZR in H0. lra.
  - intros H. assert (H0 : IZR (- Int_part (- x)) < IZR (z + 1)) by (rewrite opp_IZR, plus_IZR; lra).
    apply lt_IZR in H0. lia.
Qed.

Lemma ln2_pos : 0 < ln 2.
Proof. rewrite <- ln_1. apply ln_increasing; lra. Qed.

Lemma log2_le : forall x y, 0 < x -> (np_log2 x <= y <-> x <= exp (y * ln 2)).
Proof.
  intros x y Hx. unfold np_log2. pose proof ln2_pos. split; intros H0.
  - rewrite <- (exp_ln x Hx). assert (ln x <= y * ln 2).
    { apply (Rmult_le_compat_r (ln 2)) in H0; [|lra]. unfold Rdiv in H0. rewrite Rmult_assoc, Rinv_l, Rmult_1_r in H0; lra. }
    destruct H1 as [H1|H1]; [left; apply exp_increasing, H1 | right; rewrite H1; reflexivity].
  - assert (ln x <= y * ln 2).
    { rewrite <- (ln_exp (y * ln 2)). destruct H0 as [H0|H0]; [left; apply ln_increasing; assumption | right; rewrite H0; reflexivity]. }
    apply (Rmult_le_reg_r (ln 2)); [lra|]. unfold Rdiv. rewrite Rmult_assoc, Rinv_l, Rmult_1_r; lra.
Qed.

Lemma exp_pow2 : forall k, exp (INR k * ln 2) = 2 ^ k.
Proof.
  induction k as [|k IH]; [cbn; rewrite Rmult_0_l; apply exp_0|].
  rewrite S_INR, Rmult_plus_distr_r, exp_plus, IH, Rmult_1_l, exp_ln by lra. cbn. ring.
Qed.

Lemma bytes_fit : forall n k, (0 < n)%nat ->
  ((np_ceil (np_log2 (np_log2 (INR n + 1) / 8)) <= Z.of_nat k)%Z <-> (n < 256 ^ (2 ^ k))%nat).
Proof.
  intros n k Hn. pose proof ln2_pos as L2.
  assert (Hn' : 1 <= INR n) by (apply (le_INR 1); lia).
  assert (Hlog : 0 < np_log2 (INR n + 1)).
  { unfold np_log2. apply Rdiv_lt_0_compat; [|exact L2]. rewrite <- ln_1. apply ln_increasing; lra. }
  rewrite ceil_le, <- INR_IZR_INZ, log2_le by lra. rewrite exp_pow2.
  assert (E : np_log2 (INR n + 1) / 8 <= 2 ^ k <-> np_log2 (INR n + 1) <= INR (8 * 2 ^ k)).
  { rewrite mult_INR, pow_INR. replace (INR 2) with 2 by (cbn; lra). replace (INR 8) with 8 by (cbn; lra). split; lra. }
  rewrite E, log2_le by lra. rewrite exp_pow2, pow_mult.
  replace ((2 ^ 8)%R) with (INR 256) by (rewrite INR_IZR_INZ; cbn; lra).
  rewrite <- pow_INR, <- S_INR. split.
  - intros H. apply INR_le in H. lia.
  - intros H. apply le_INR. lia.
Qed.

Lemma int_part_pow : forall k, Int_part (2 ^ k) = Z.of_nat (2 ^ k).
Proof.
  intros k. replace (2 ^ k) with (INR (2 ^ k)) by (rewrite pow_INR; cbn [INR]; f_equal; lra).
  rewrite INR_IZR_INZ. destruct (base_Int_part (IZR (Z.of_nat (2 ^ k)))) as [L U].
  apply le_IZR in L. assert (IZR (Z.of_nat (2 ^ k)) < IZR (Int_part (IZR (Z.of_nat (2 ^ k))) + 1)) by (rewrite plus_IZR; lra).
  apply lt_IZR in H. lia.
Qed.

Lemma int_part_1 : Int_part 1 = 1%Z.
Proof. replace 1 with (2 ^ 0) by reflexivity. rewrite int_part_pow. reflexivity. Qed.

(** The width is a power of two, fits, and no smaller one does. *)
Lemma num_bytes_spec : forall n, exists k,
  get_num_bytes n = (2 ^ k)%nat /\ (n < 256 ^ (2 ^ k))%nat /\
  (forall k', (n < 256 ^ (2 ^ k'))%nat -> (k <= k')%nat).
Proof.
  intros n. unfold get_num_bytes. destruct n as [|n].
  - exists 0%nat. cbv zeta. replace (np_log2 (INR 0 + 1) / 8) with 0.
    2: { cbn [INR]. rewrite Rplus_0_l. unfold np_log2. rewrite ln_1. unfold Rdiv. lra. }
    rewrite Reqb_true by reflexivity. rewrite Rmax_right by lra. rewrite int_part_1.
    repeat split; [cbn; lia | intros; lia].
  - cbv zeta. remember (np_ceil (np_log2 (np_log2 (INR (S n) + 1) / 8))) as z eqn:Ez.
    assert (Hz : forall k, (z <= Z.of_nat k)%Z <-> (S n < 256 ^ (2 ^ k))%nat) by (intros k; subst z; apply bytes_fit; lia).
    rewrite Reqb_false.
    2: { pose proof ln2_pos. assert (0 < np_log2 (INR (S n) + 1)); [|lra].
         unfold np_log2. apply Rdiv_lt_0_compat; [|exact H]. rewrite <- ln_1. apply ln_increasing; [lra|].
         pose proof (lt_0_INR (S n) (Nat.lt_0_succ n)). lra. }
    destruct (Z_le_gt_dec z 0) as [Hle|Hgt].
    + exists 0%nat. assert (powerRZ 2 z <= 1).
      { destruct z as [|p|p]; [cbn; lra | lia|]. cbn. rewrite <- Rinv_1. apply Rinv_le_contravar; [lra|]. apply pow_R1_Rle; lra. }
      rewrite Rmax_right by assumption. rewrite int_part_1.
      repeat split; [apply Hz; exact Hle | intros; lia].
    + exists (Z.to_nat z). assert (Hzn : z = Z.of_nat (Z.to_nat z)) by (rewrite Z2Nat.id; lia).
      assert (Hp : powerRZ 2 z = 2 ^ Z.to_nat z) by (rewrite Hzn at 1; rewrite <- pow_powerRZ; reflexivity).
      rewrite Hp, Rmax_left by (apply pow_R1_Rle; lra). rewrite int_part_pow, Nat2Z.id.
      repeat split; [apply Hz; lia|]. intros k' H. apply Hz in H. lia.
Qed.

Lemma astype_id : forall n x, (x <= n)%nat -> astype_u (get_num_bytes n) x = x.
Proof.
  intros n x H. destruct (num_bytes_spec n) as [k [E [F _]]]. unfold astype_u. rewrite E. apply Nat.mod_small. lia.
Qed.

(** * Sorting the vertex table *)

Section Sorting.
Context {ID G : Type}.

Lemma insert_row_perm : forall k (r : ID * G) l, Permutation ((k, r) :: l) (insert_row k r l).
Proof.
  intros k r l. induction l as [|[k' r'] l IH]; cbn [insert_row]; [apply Permutation_refl|].
  destruct (Nat.leb k k'); [apply Permutation_refl|].
  eapply Permutation_trans; [apply perm_swap|]. apply perm_skip, IH.
Qed.

Lemma sort_index_perm : forall l : list (nat * (ID * G)), Permutation l (sort_index l).
Proof.
  induction l as [|[k r] l IH]; cbn; [apply Permutation_refl|].
  eapply Permutation_trans; [apply perm_skip, IH | apply insert_row_perm].
Qed.

Lemma insert_row_sorted : forall k (r : ID * G) l, StronglySorted le (map fst l) ->
  StronglySorted le (map fst (insert_row k r l)).
Proof.
  intros k r l. induction l as [|[k' r'] l IH]; cbn [insert_row map fst]; intros H; [constructor; constructor|].
  inversion H as [|a b Hl Hk]; subst. destruct (Nat.leb_spec k k') as [L|L]; cbn [map fst].
  - constructor; [exact H|]. constructor; [exact L|]. rewrite Forall_forall in *. intros x Hx. specialize (Hk x Hx). lia.
  - constructor; [apply IH, Hl|]. rewrite Forall_forall in *. intros x Hx.
    apply (Permutation_in x (Permutation_map fst (Permutation_sym (insert_row_perm k r l)))) in Hx.
    cbn in Hx. destruct Hx as [<-|Hx]; [lia | apply Hk, Hx].
Qed.

Lemma sort_index_sorted : forall l : list (nat * (ID * G)), StronglySorted le (map fst (sort_index l)).
Proof. induction l as [|[k r] l IH]; cbn; [constructor | apply insert_row_sorted, IH]. Qed.
End Sorting.

Lemma sorted_le_seq : forall l s, StronglySorted le l -> Permutation l (seq s (length l)) -> l = seq s (length l).
Proof.
  induction l as [|x l IH]; intros s H P; [reflexivity|]. cbn [length seq] in *.
  inversion H as [|a b Hl Hx]; subst. rewrite Forall_forall in Hx.
  assert (x = s).
  { assert (H1 : In x (s :: seq (S s) (length l))) by (eapply Permutation_in; [exact P | left; reflexivity]).
    assert (H2 : In s (x :: l)) by (eapply Permutation_in; [apply Permutation_sym, P | left; reflexivity]).
    destruct H1 as [H1|H1]; [symmetry; exact H1|]. apply in_seq in H1.
    destruct H2 as [H2|H2]; [exact H2|]. specialize (Hx s H2). lia. }
  subst x. f_equal. apply IH; [exact Hl|]. eapply Permutation_cons_inv, P.
Qed.

Lemma nth_of_keys : forall (A : Type) (l : list (nat * A)) s k r,
  map fst l = seq s (length l) -> In (k, r) l -> (s <= k)%nat /\ nth_error (map snd l) (k - s) = Some r.
Proof.
  intros A. induction l as [|[k' r'] l IH]; intros s k r E H; [destruct H|].
  cbn [map fst length seq] in E. injection E as E1 E2. subst k'. destruct H as [H|H].
  - injection H as -> ->. rewrite Nat.sub_diag. split; [lia | reflexivity].
  - destruct (IH (S s) k r E2 H) as [L N]. split; [lia|].
    replace (k - s)%nat with (S (k - S s)) by lia. exact N.
Qed.

(** * Reading the tables *)

Section Tables.
Context {ID G Lb : Type} (leb_id : ID -> ID -> bool) (leb_g : G -> G -> bool) (leb_l : Lb -> Lb -> bool).
Context (oid : total_order leb_id) (og : total_order leb_g) (ol : total_order leb_l).

Notation idx d x := (mapped (dict_get leb_id d x)).

Lemma sorted_rows : forall (v : list (ID * G)) d, enumerates leb_id d (map fst v) -> length d = length v ->
  NoDup (map fst v) ->
  let rows := map snd (sort_index (map (fun r => (idx d (fst r), r)) v)) in
  length rows = length v /\ (forall r, In r v -> nth_error rows (idx d (fst r)) = Some r) /\
  (forall r, In r rows <-> In r v).
Proof.
  intros v d [E1 [E2 [E3 [E4 E5]]]] Hlen Hnd. set (l := map (fun r => (idx d (fst r), r)) v).
  assert (Hl : length (sort_index l) = length v).
  { rewrite <- (Permutation_length (sort_index_perm l)). unfold l. apply map_length. }
  assert (Hget : forall r, In r v -> dict_get leb_id d (fst r) = Some (idx d (fst r))).
  { intros r Hr. destruct (proj1 (E1 (fst r)) (in_map fst _ _ Hr)) as [i Hi]. rewrite Hi. reflexivity. }
  assert (Hkeys : map fst (sort_index l) = seq 0 (length (sort_index l))).
  { assert (Hm : length (sort_index l) = length (map fst (sort_index l))) by (rewrite map_length; reflexivity).
    rewrite Hm. apply sorted_le_seq; [apply sort_index_sorted|].
    rewrite <- Hm, Hl. apply Permutation_trans with (map fst l).
    - apply Permutation_map, Permutation_sym, sort_index_perm.
    - unfold l. rewrite map_map. cbn [fst].
      apply NoDup_Permutation; [|apply seq_NoDup|].
      + assert (Hmap : forall u, (forall r, In r u -> In r v) -> NoDup (map fst u) -> NoDup (map (fun r => idx d (fst r)) u)).
        { induction u as [|r u IHu]; intros Hin Hn; cbn [map]; [constructor|]. cbn [map] in Hn. inversion Hn as [|a b Hn1 Hn2]; subst.
          constructor; [|apply IHu; [intros r' Hr'; apply Hin; right; exact Hr' | exact Hn2]].
          intros Hx. apply in_map_iff in Hx as [r' [Er Hr']]. apply Hn1. apply in_map_iff. exists r'. split; [|exact Hr'].
          apply (E4 _ _ (idx d (fst r))); [rewrite Hget by (apply Hin; right; exact Hr'); rewrite Er; reflexivity | apply Hget, Hin; left; reflexivity]. }
        apply Hmap; [auto | exact Hnd].
      + intros k. rewrite in_map_iff, in_seq. split.
        * intros [r [<- Hr]]. specialize (E2 _ _ (Hget r Hr)). lia.
        * intros Hk. destruct (E3 k) as [x [Hx Gx]]; [lia|]. apply in_map_iff in Hx as [r [<- Hr]].
          exists r. split; [rewrite Gx; reflexivity | exact Hr]. }
  cbv zeta. split; [rewrite map_length; exact Hl|]. split.
  - intros r Hr. destruct (nth_of_keys _ (sort_index l) 0 (idx d (fst r)) r Hkeys) as [_ N].
    + eapply Permutation_in; [apply sort_index_perm|]. unfold l. apply in_map_iff. exists r. split; [reflexivity | exact Hr].
    + rewrite Nat.sub_0_r in N. exact N.
  - intros r. rewrite in_map_iff. split.
    + intros [[k r'] [Er Hr]]. cbn in Er. subst r'. eapply Permutation_in in Hr; [|apply Permutation_sym, sort_index_perm].
      unfold l in Hr. apply in_map_iff in Hr as [r' [Er Hr]]. injection Er as _ ->. exact Hr.
    + intros Hr. exists (idx d (fst r), r). split; [reflexivity|]. eapply Permutation_in; [apply sort_index_perm|].
      unfold l. apply in_map_iff. exists r. split; [reflexivity | exact Hr].
Qed.

(** The internal edge list, once everything is found. *)
Definition inner (d : dict ID) (weighted : bool) (e : list (erow ID Lb)) : list (nat * nat * R) :=
  map (fun r => (idx d (r_src r), idx d (r_dst r), if weighted then r_weight r else 1)) e.

Definition known (d : dict ID) (x : ID) : bool := found (dict_get leb_id d x).

Lemma any_isnan_map : forall d (f : erow ID Lb -> ID) e,
  any_isnan (map (fun r => dict_get leb_id d (f r)) e)
  = match e with
    | [] => Ok false
    | _ => if existsb (fun r => known d (f r)) e then Ok (negb (forallb (fun r => known d (f r)) e)) else Raise TypeError
    end.
Proof.
  intros d f e. destruct e as [|r0 e0]; [reflexivity|]. set (e := r0 :: e0).
  assert (H1 : forall l : list (erow ID Lb), existsb found (map (fun r => dict_get leb_id d (f r)) l) = existsb (fun r => known d (f r)) l).
  { induction l as [|r l IH]; cbn; [reflexivity | rewrite IH; reflexivity]. }
  assert (H2 : forall l : list (erow ID Lb), existsb (fun o => negb (found o)) (map (fun r => dict_get leb_id d (f r)) l) = negb (forallb (fun r => known d (f r)) l)).
  { induction l as [|r l IH]; cbn; [reflexivity|]. rewrite IH, negb_andb. reflexivity. }
  change (any_isnan (map (fun r => dict_get leb_id d (f r)) e))
    with (if existsb found (map (fun r => dict_get leb_id d (f r)) e)
          then Ok (existsb (fun o => negb (found o)) (map (fun r => dict_get leb_id d (f r)) e)) else Raise TypeError).
  rewrite H1, H2. reflexivity.
Qed.

Lemma combine_map : forall (X A B : Type) (f : X -> A) (g : X -> B) l,
  combine (map f l) (map g l) = map (fun x => (f x, g x)) l.
Proof. intros X A B f g l. induction l as [|x l IH]; cbn; [reflexivity | rewrite IH; reflexivity]. Qed.

Definition groups_ok (d : dict ID) (v : list (ID * G)) (grouped : bool) (gr : option (dict G * list nat)) : Prop :=
  if grouped then exists gd ga, gr = Some (gd, ga) /\ enumerates leb_g gd (map snd v) /\ length ga = length v /\
    (forall r, In r v -> exists k, dict_get leb_g gd (snd r) = Some k /\ nth_error ga (idx d (fst r)) = Some k)
  else gr = None.

Lemma groups_step : forall (v : list (ID * G)) d grouped, enumerates leb_id d (map fst v) -> length d = length v ->
  NoDup (map fst v) ->
  exists gr, groups_ok d v grouped gr /\
  (let v' := map snd (sort_index (map (fun r => (idx d (fst r), r)) v)) in
   if grouped then
      do group_dict <- generate_id_dict leb_g (map snd v') false ;
      let num_bytes := get_num_bytes (length group_dict) in
      Ok (Some (group_dict, map (fun r => astype_u num_bytes (mapped (dict_get leb_g group_dict (snd r)))) v'))
    else Ok None) = Ok gr.
Proof.
  intros v d grouped E Hlen Hnd. destruct grouped; [|exists None; split; reflexivity].
  destruct (sorted_rows v d E Hlen Hnd) as [L [N I]]. cbv zeta in *.
  set (rows := map snd (sort_index (map (fun r => (idx d (fst r), r)) v))) in *.
  destruct (generate_false_ok leb_g (map snd rows)) as [gd Hgd]. rewrite Hgd. cbn [bind].
  eexists. split; [|reflexivity]. exists gd. eexists. split; [reflexivity|].
  destruct (generate_enumerates leb_g og _ _ _ Hgd) as [Eg _].
  assert (Eg' : enumerates leb_g gd (map snd v)).
  { destruct Eg as [A1 [A2 [A3 [A4 A5]]]].
    assert (Hin : forall x, In x (map snd rows) <-> In x (map snd v)).
    { intros x. rewrite !in_map_iff. split; intros [r [Er Hr]]; exists r; split; try exact Er; apply I, Hr. }
    split; [intros x; rewrite <- Hin; apply A1|]. split; [exact A2|]. split; [|split; assumption].
    intros i Hi. destruct (A3 i Hi) as [x [Hx Gx]]. exists x. split; [apply Hin, Hx | exact Gx]. }
  split; [exact Eg'|]. split; [rewrite map_length; exact L|].
  intros r Hr. destruct Eg' as [A1 [A2 _]]. destruct (proj1 (A1 (snd r)) (in_map snd _ _ Hr)) as [k Hk].
  exists k. split; [exact Hk|]. rewrite nth_error_map, N by exact Hr. cbn [option_map]. rewrite Hk. cbn [mapped].
  rewrite astype_id; [reflexivity|]. specialize (A2 _ _ Hk). lia.
Qed.

(** Everything the constructor does, case by case. *)
Lemma read_tables_eq : forall grouped sl dl w v (e : list (erow ID Lb)),
  (~ NoDup (map fst v) /\ read_tables leb_id leb_g grouped sl dl w v e = Raise GenericException) \/
  exists d gr, NoDup (map fst v) /\ generate_id_dict leb_id (map fst v) true = Ok d /\
    enumerates leb_id d (map fst v) /\ length d = length v /\ groups_ok d v grouped gr /\
    read_tables leb_id leb_g grouped sl dl w v e
    = guard (Bool.eqb sl dl) ValueError
       (do nan_src <- any_isnan (map (fun r => dict_get leb_id d (r_src r)) e) ;
        do nan_any <- (if nan_src then Ok true else any_isnan (map (fun r => dict_get leb_id d (r_dst r)) e)) ;
        guard (negb nan_any) AssertionError
          (guard (negb w || forallb (fun r => Rltb 0 (r_weight r)) e) AssertionError
             (Ok (mkBase (length v) d gr w (inner d w e))))).
Proof.
  intros grouped sl dl w v e. unfold read_tables. cbv zeta.
  destruct (generate_id_dict leb_id (map fst v) true) as [d|x] eqn:Ed.
  2: { left. split; [|reflexivity]. intros H. destruct (proj1 (generate_true_ok leb_id oid _) H) as [d Hd]. rewrite Hd in Ed. discriminate. }
  right. destruct (generate_enumerates leb_id oid _ _ _ Ed) as [E En]. destruct (En eq_refl) as [Hnd Hlen]. rewrite map_length in Hlen.
  destruct (groups_step v d grouped E Hlen Hnd) as [gr [Hgr Hstep]]. exists d, gr.
  split; [exact Hnd|]. split; [reflexivity|]. split; [exact E|]. split; [exact Hlen|]. split; [exact Hgr|].
  cbn [bind]. cbv zeta in Hstep. rewrite Hstep. cbn [bind]. f_equal.
  destruct (any_isnan (map (fun r => dict_get leb_id d (r_src r)) e)) as [ns|x]; cbn [bind]; [|reflexivity].
  destruct (if ns then Ok true else any_isnan (map (fun r => dict_get leb_id d (r_dst r)) e)) as [na|x]; cbn [bind]; [|reflexivity].
  f_equal. f_equal.
  - destruct w; cbn [negb orb]; [|reflexivity]. induction e as [|r e' IH]; cbn; [reflexivity | rewrite IH; reflexivity].
  - f_equal. f_equal. unfold inner. destruct w; rewrite !map_map, !combine_map; apply map_ext; intros r.
    + assert (A : forall x, astype_u (get_num_bytes (length v)) (idx d x) = idx d x).
      { intros x. apply astype_id. destruct (dict_get leb_id d x) as [i|] eqn:Ex; cbn [mapped]; [|lia].
        destruct E as [_ [E2 _]]. specialize (E2 _ _ Ex). lia. }
      rewrite !A. reflexivity.
    + assert (A : forall x, astype_u (get_num_bytes (length v)) (idx d x) = idx d x).
      { intros x. apply astype_id. destruct (dict_get leb_id d x) as [i|] eqn:Ex; cbn [mapped]; [|lia].
        destruct E as [_ [E2 _]]. specialize (E2 _ _ Ex). lia. }
      rewrite !A. reflexivity.
Qed.

Lemma known_in : forall d col x, enumerates leb_id d col -> (known d x = true <-> In x col).
Proof.
  intros d col x [E1 _]. unfold known. rewrite E1. destruct (dict_get leb_id d x) as [i|]; cbn [found].
  - split; [intros _; exists i; reflexivity | reflexivity].
  - split; [discriminate | intros [i H]; discriminate].
Qed.

(** What a successful construction guarantees. *)
Lemma read_tables_ok : forall grouped sl dl w v (e : list (erow ID Lb)) b,
  read_tables leb_id leb_g grouped sl dl w v e = Ok b ->
  NoDup (map fst v) /\ enumerates leb_id (b_ids b) (map fst v) /\ length (b_ids b) = length v /\ b_n b = length v /\
  groups_ok (b_ids b) v grouped (b_groups b) /\ b_weighted b = w /\ sl = dl /\
  (forall r, In r e -> In (r_src r) (map fst v) /\ In (r_dst r) (map fst v) /\ (w = true -> 0 < r_weight r)) /\
  b_edges b = inner (b_ids b) w e.
Proof.
  intros grouped sl dl w v e b H.
  destruct (read_tables_eq grouped sl dl w v e) as [[_ Hr]|[d [gr [Hnd [Hd [E [Hlen [Hgr Hr]]]]]]]].
  { rewrite Hr in H. discriminate. }
  rewrite Hr in H. unfold guard in H. destruct (Bool.eqb sl dl) eqn:Esd; [|discriminate]. apply eqb_prop in Esd.
  rewrite !any_isnan_map in H.
  assert (Hall : (w = true -> forall r, In r e -> 0 < r_weight r) /\ (forall r, In r e -> known d (r_src r) = true /\ known d (r_dst r) = true)
                 /\ b = mkBase (length v) d gr w (inner d w e)).
  { destruct e as [|r0 e0].
    - cbn in H. rewrite orb_true_r in H. injection H as <-. repeat split; intros; try contradiction; destruct H0.
    - set (e := r0 :: e0) in *. destruct (existsb (fun r => known d (r_src r)) e) eqn:X1; [|discriminate].
      cbn [bind] in H. destruct (forallb (fun r => known d (r_src r)) e) eqn:X2; cbn [negb bind] in H; [|discriminate].
      destruct (existsb (fun r => known d (r_dst r)) e) eqn:X3; [|discriminate].
      destruct (forallb (fun r => known d (r_dst r)) e) eqn:X4; cbn [negb bind] in H; [|discriminate].
      destruct (negb w || forallb (fun r => Rltb 0 (r_weight r)) e) eqn:X5; [|discriminate]. injection H as <-.
      rewrite forallb_forall in X2, X4. split; [|split; [|reflexivity]].
      + intros -> r Hin. cbn in X5. apply andb_prop in X5.
        assert (X6 : forallb (fun r => Rltb 0 (r_weight r)) e = true) by (cbn; apply andb_true_intro; exact X5).
        rewrite forallb_forall in X6. specialize (X6 r Hin). destruct (Rltb_spec 0 (r_weight r)); [assumption | discriminate].
      + intros r Hin. split; [apply X2, Hin | apply X4, Hin]. }
  destruct Hall as [Hw [Hk ->]]. cbn [b_ids b_n b_groups b_weighted b_edges].
  split; [exact Hnd|]. split; [exact E|]. split; [exact Hlen|]. split; [reflexivity|]. split; [exact Hgr|].
  split; [reflexivity|]. split; [exact Esd|]. split; [|reflexivity].
  intros r Hin. destruct (Hk r Hin) as [K1 K2]. split; [apply (known_in d _ _ E), K1|].
  split; [apply (known_in d _ _ E), K2 | intros W; apply Hw; assumption].
Qed.
End Tables.
