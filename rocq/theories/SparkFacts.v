(** Facts on the Spark partitions and folds. *)
From Coq Require Import ZArith Permutation FunctionalExtensionality.
From Verif Require Import Base Num Spec Prob Ensemble EnsembleFacts Fit Spark.

(** * Lists of cells *)

Lemma suml_perm : forall A (f : A -> R) l l', Permutation l l' -> suml f l = suml f l'.
Proof.
  intros A f l l' H; induction H; simpl; [reflexivity | rewrite IHPermutation; reflexivity | ring
    | rewrite IHPermutation1; exact IHPermutation2].
Qed.

Lemma prodl_perm : forall A (f : A -> R) l l', Permutation l l' -> prodl f l = prodl f l'.
Proof.
  intros A f l l' H; induction H; simpl; [reflexivity | rewrite IHPermutation; reflexivity | ring
    | rewrite IHPermutation1; exact IHPermutation2].
Qed.

Definition indices (s : span) : list nat := seq (fst s) (len s).

Lemma seq_cat : forall a n m, seq a n ++ seq (a + n) m = seq a (n + m).
Proof. intros a n m. symmetry. apply seq_app. Qed.

Lemma bounds_lt : forall N B i, (i < B - 1)%nat -> bounds N B i = ((i * (N / B))%nat, ((i + 1) * (N / B))%nat).
Proof. intros N B i H. unfold bounds. replace (Nat.eqb i (B - 1)) with false by (symmetry; apply Nat.eqb_neq; lia). reflexivity. Qed.

Lemma bounds_last : forall N B, bounds N B (B - 1) = (((B - 1) * (N / B))%nat, N).
Proof. intros N B. unfold bounds. rewrite Nat.eqb_refl. reflexivity. Qed.

Lemma bounds_fst : forall N B i, fst (bounds N B i) = (i * (N / B))%nat.
Proof. intros N B i. unfold bounds. destruct (Nat.eqb i (B - 1)); reflexivity. Qed.

Lemma step_le : forall N B, (1 <= B)%nat -> ((B - 1) * (N / B) <= N)%nat.
Proof.
  intros N B HB. pose proof (Nat.mul_div_le N B). 
  apply Nat.le_trans with (B * (N / B))%nat; [apply Nat.mul_le_mono_r; lia | apply H; lia].
Qed.

Lemma spans_prefix : forall N B k, (k <= B - 1)%nat ->
  flat_map (fun i => indices (bounds N B i)) (seq 0 k) = seq 0 (k * (N / B)).
Proof.
  intros N B k; induction k as [|k IH]; intros Hk; [reflexivity|].
  rewrite seq_S, flat_map_app, IH by lia. simpl flat_map. rewrite app_nil_r.
  rewrite bounds_lt by lia. unfold indices, len; simpl fst; simpl snd.
  replace ((k + 1) * (N / B) - k * (N / B))%nat with (N / B)%nat by nia.
  change (seq (k * (N / B)) (N / B)) with (seq (0 + k * (N / B)) (N / B)).
  rewrite seq_cat. f_equal. simpl. lia.
Qed.

Lemma spans_cover : forall N B, (1 <= B)%nat ->
  flat_map (fun i => indices (bounds N B i)) (seq 0 B) = seq 0 N.
Proof.
  intros N B HB.
  assert (E : seq 0 B = seq 0 (B - 1) ++ [(B - 1)%nat]).
  { change [(B - 1)%nat] with [(0 + (B - 1))%nat]. rewrite <- seq_S. f_equal. lia. }
  rewrite E, flat_map_app, spans_prefix by lia. simpl flat_map. rewrite app_nil_r.
  rewrite bounds_last. unfold indices, len; simpl fst; simpl snd.
  pose proof (step_le N B HB).
  change (seq ((B - 1) * (N / B)) (N - (B - 1) * (N / B))) with (seq (0 + (B - 1) * (N / B)) (N - (B - 1) * (N / B))).
  rewrite seq_cat. f_equal. lia.
Qed.

Definition cells (b : block) : list (nat * nat) := list_prod (indices (fst b)) (indices (snd b)).

Lemma list_prod_app_l : forall A B (l1 l2 : list A) (m : list B),
  list_prod (l1 ++ l2) m = list_prod l1 m ++ list_prod l2 m.
Proof. intros A B l1; induction l1 as [|x l1 IH]; intros l2 m; simpl; [reflexivity | rewrite IH, app_assoc; reflexivity]. Qed.

Lemma list_prod_nil_r : forall A B (l : list A), list_prod l (@nil B) = [].
Proof. intros A B l; induction l as [|x l IH]; simpl; auto. Qed.

Lemma list_prod_app_r : forall A B (l : list A) (m1 m2 : list B),
  Permutation (list_prod l (m1 ++ m2)) (list_prod l m1 ++ list_prod l m2).
Proof.
  intros A B l; induction l as [|x l IH]; intros m1 m2; simpl; [constructor|].
  rewrite map_app. rewrite (IH m1 m2). rewrite <- !app_assoc. apply Permutation_app_head.
  rewrite !app_assoc. apply Permutation_app_tail, Permutation_app_comm.
Qed.

Lemma list_prod_flat_r : forall A B (l : list A) (f : nat -> list B) (js : list nat),
  Permutation (flat_map (fun j => list_prod l (f j)) js) (list_prod l (flat_map f js)).
Proof.
  intros A B l f js; induction js as [|j js IH]; simpl.
  - rewrite list_prod_nil_r. constructor.
  - rewrite list_prod_app_r, IH. reflexivity.
Qed.

Lemma list_prod_flat_l : forall A B (m : list B) (f : nat -> list A) (is : list nat),
  flat_map (fun i => list_prod (f i) m) is = list_prod (flat_map f is) m.
Proof.
  intros A B m f is; induction is as [|i is IH]; simpl; [reflexivity|]. rewrite list_prod_app_l, IH. reflexivity.
Qed.

Lemma flat_map_perm : forall A B (f g : A -> list B) l, (forall x, In x l -> Permutation (f x) (g x)) ->
  Permutation (flat_map f l) (flat_map g l).
Proof.
  intros A B f g l; induction l as [|x l IH]; intros H; simpl; [constructor|].
  apply Permutation_app; [apply H; left; reflexivity | apply IH; intros y Hy; apply H; right; exact Hy].
Qed.

Lemma flat_map_flat_map : forall A B C (f : B -> list C) (g : A -> list B) l,
  flat_map f (flat_map g l) = flat_map (fun x => flat_map f (g x)) l.
Proof. intros A B C f g l; induction l as [|x l IH]; simpl; [reflexivity | rewrite flat_map_app, IH; reflexivity]. Qed.

Lemma flat_map_map : forall A B C (f : B -> list C) (g : A -> B) l,
  flat_map f (map g l) = flat_map (fun x => f (g x)) l.
Proof. intros A B C f g l; induction l as [|x l IH]; simpl; [reflexivity | rewrite IH; reflexivity]. Qed.

(** The square partition visits every ordered pair exactly once. *)
Lemma square_cells : forall N B, (1 <= B)%nat ->
  Permutation (flat_map cells (square_blocks N B)) (list_prod (seq 0 N) (seq 0 N)).
Proof.
  intros N B HB. unfold square_blocks. rewrite flat_map_flat_map.
  rewrite (flat_map_perm _ _ _ (fun i => list_prod (indices (bounds N B i)) (seq 0 N))).
  - rewrite list_prod_flat_l, spans_cover by exact HB. reflexivity.
  - intros i _. rewrite flat_map_map. unfold cells; simpl fst; simpl snd.
    rewrite (list_prod_flat_r _ _ (indices (bounds N B i)) (fun j => indices (bounds N B j))).
    rewrite spans_cover by exact HB. reflexivity.
Qed.

(** The cells visited by a block of the triangular partition. *)
Definition tri_cells (b : block) : list (nat * nat) :=
  flat_map (fun i => map (fun j => (fst (fst b) + i, fst (snd b) + j)%nat)
    (seq 0 (in_range i (snd b) (span_eqb (fst b) (snd b))))) (seq 0 (len (fst b))).

Definition below (i : nat) : list (nat * nat) := map (pair i) (seq 0 (S i)).

Lemma map_seq_shift : forall a n, map (fun j => (a + j)%nat) (seq 0 n) = seq a n.
Proof.
  intros a n. revert a; induction n as [|n IH]; intros a; [reflexivity|].
  rewrite !seq_S, map_app, IH. simpl. reflexivity.
Qed.

Lemma list_prod_flat : forall A B (l : list A) (m : list B), list_prod l m = flat_map (fun i => map (pair i) m) l.
Proof. intros A B l m; induction l as [|x l IH]; simpl; [reflexivity | rewrite IH; reflexivity]. Qed.

Lemma tri_cells_rect : forall b, span_eqb (fst b) (snd b) = false -> tri_cells b = cells b.
Proof.
  intros [s t] H. unfold tri_cells, cells. simpl fst in *; simpl snd in *. rewrite H. unfold in_range.
  unfold indices. rewrite <- (map_seq_shift (fst s) (len s)). rewrite list_prod_flat, flat_map_map.
  apply flat_map_ext. intros i. rewrite <- (map_seq_shift (fst t) (len t)). rewrite map_map. reflexivity.
Qed.

Lemma tri_cells_diag : forall s,
  tri_cells (s, s) = flat_map (fun i => map (pair i) (seq (fst s) (S (i - fst s)))) (indices s).
Proof.
  intros s. unfold tri_cells. simpl fst; simpl snd.
  replace (span_eqb s s) with true by (unfold span_eqb; rewrite !Nat.eqb_refl; reflexivity).
  unfold indices. rewrite <- (map_seq_shift (fst s) (len s)). rewrite flat_map_map.
  apply flat_map_ext. intros i. unfold in_range.
  replace (fst s + i - fst s)%nat with i by lia. rewrite <- (map_seq_shift (fst s) (S i)). rewrite map_map. reflexivity.
Qed.

Lemma tri_cells_off : forall N B i j, (1 <= N)%nat -> (j < i)%nat -> (i < B)%nat ->
  tri_cells (bounds N B i, bounds N B j) = cells (bounds N B i, bounds N B j).
Proof.
  intros N B i j HN Hj Hi. destruct (span_eqb (bounds N B i) (bounds N B j)) eqn:E; [|apply tri_cells_rect; exact E].
  assert (Hl : len (bounds N B i) = 0%nat).
  { unfold span_eqb in E. apply andb_true_iff in E. destruct E as [E1 E2].
    apply Nat.eqb_eq in E1, E2. rewrite !bounds_fst in E1.
    assert (N / B = 0)%nat by nia. rewrite (bounds_lt N B j) in E2 by lia. simpl snd in E2.
    unfold len. rewrite E2, H. nia. }
  unfold tri_cells, cells, indices. simpl fst. rewrite Hl. reflexivity.
Qed.

Lemma flat_map_app_perm : forall A B (f g : A -> list B) l,
  Permutation (flat_map f l ++ flat_map g l) (flat_map (fun x => f x ++ g x) l).
Proof.
  intros A B f g l; induction l as [|x l IH]; simpl; [constructor|].
  rewrite <- IH. rewrite <- !app_assoc. apply Permutation_app_head.
  rewrite !app_assoc. apply Permutation_app_tail, Permutation_app_comm.
Qed.

Lemma flat_map_ext_in : forall A B (f g : A -> list B) l, (forall x, In x l -> f x = g x) -> flat_map f l = flat_map g l.
Proof.
  intros A B f g l; induction l as [|x l IH]; intros H; simpl; [reflexivity|].
  rewrite H by (left; reflexivity). rewrite IH; [reflexivity | intros y Hy; apply H; right; exact Hy].
Qed.

(** The triangular partition visits every pair (i, j) with j <= i exactly once. *)
Lemma triangle_cells : forall N B, (1 <= N)%nat -> (1 <= B)%nat ->
  Permutation (flat_map tri_cells (triangle_blocks N B)) (flat_map below (seq 0 N)).
Proof.
  intros N B HN HB. unfold triangle_blocks. rewrite flat_map_flat_map.
  rewrite <- (spans_cover N B HB), flat_map_flat_map.
  apply flat_map_perm. intros i Hi. apply in_seq in Hi. rewrite flat_map_map.
  rewrite seq_S, flat_map_app. simpl flat_map at 2. rewrite app_nil_r. rewrite tri_cells_diag.
  rewrite (flat_map_ext_in _ _ (fun j => tri_cells (bounds N B i, bounds N B j))
             (fun j => list_prod (indices (bounds N B i)) (indices (bounds N B j))) (seq 0 i)).
  2:{ intros j Hj. apply in_seq in Hj. rewrite tri_cells_off by lia. reflexivity. }
  rewrite (list_prod_flat_r _ _ (indices (bounds N B i)) (fun j => indices (bounds N B j))).
  rewrite spans_prefix by lia. rewrite list_prod_flat, flat_map_app_perm.
  rewrite (flat_map_ext_in _ _ _ below); [reflexivity|].
  intros a Ha. unfold below. rewrite <- map_app. f_equal.
  unfold indices in Ha. apply in_seq in Ha. rewrite !bounds_fst in *.
  change (seq (i * (N / B)) (S (a - i * (N / B)))) with (seq (0 + i * (N / B)) (S (a - i * (N / B)))).
  rewrite seq_cat. f_equal. lia.
Qed.

Lemma ok_inj : forall A (a b : A), Ok a = Ok b -> a = b.
Proof. intros A a b H; injection H; auto. Qed.

Lemma p_blocks_pos : forall N req B, p_blocks N req = Ok B -> (1 <= B)%nat.
Proof.
  intros N req B H. unfold p_blocks in H. destruct req as [z|].
  - destruct (Z.leb_spec z 0); [discriminate|]. apply ok_inj in H; subst B.
    destruct (Nat.ltb N (10 * Z.to_nat z)); [destruct (Nat.ltb_spec (N / 10) 2); lia | lia].
  - apply ok_inj in H; subst B. destruct (Nat.ltb N (10 * 10)); [destruct (Nat.ltb_spec (N / 10) 2); lia | lia].
Qed.

(** * Sums *)

Lemma suml_seq_shift : forall a n f, sumn n (fun i => f (a + i)%nat) = suml f (seq a n).
Proof. intros a n f. rewrite <- (map_seq_shift a n), suml_map, suml_seq. reflexivity. Qed.

Lemma suml_list_prod : forall A B (f : A -> B -> R) l m,
  suml (fun e => f (fst e) (snd e)) (list_prod l m) = suml (fun i => suml (fun j => f i j) m) l.
Proof.
  intros A B f l m; induction l as [|x l IH]; simpl; [reflexivity|].
  rewrite suml_app, suml_map, IH. reflexivity.
Qed.

Lemma cells_sum : forall b f,
  sumn (len (fst b)) (fun i => sumn (len (snd b)) (fun j => f (fst (fst b) + i) (fst (snd b) + j))%nat)
  = suml (fun e => f (fst e) (snd e)) (cells b).
Proof.
  intros b f. unfold cells. rewrite suml_list_prod. unfold indices. rewrite <- suml_seq_shift.
  apply sumn_ext. intros i _. rewrite <- (suml_seq_shift (fst (snd b)) (len (snd b))). reflexivity.
Qed.

Lemma square_sum : forall N B f, (1 <= B)%nat ->
  suml (fun b => suml (fun e => f (fst e) (snd e)) (cells b)) (square_blocks N B)
  = sumn N (fun i => sumn N (fun j => f i j)).
Proof.
  intros N B f HB. rewrite <- suml_flat_map. rewrite (suml_perm _ _ _ _ (square_cells N B HB)).
  rewrite suml_list_prod, suml_seq. apply sumn_ext. intros i _. apply suml_seq.
Qed.

Lemma tri_sum : forall b f,
  sumn (len (fst b)) (fun i => sumn (in_range i (snd b) (span_eqb (fst b) (snd b)))
    (fun j => f (fst (fst b) + i) (fst (snd b) + j))%nat)
  = suml (fun e => f (fst e) (snd e)) (tri_cells b).
Proof.
  intros b f. unfold tri_cells. rewrite suml_flat_map, suml_seq. apply sumn_ext. intros i _.
  rewrite suml_map, suml_seq. reflexivity.
Qed.

Lemma triangle_sum : forall N B f, (1 <= N)%nat -> (1 <= B)%nat ->
  suml (fun b => suml (fun e => f (fst e) (snd e)) (tri_cells b)) (triangle_blocks N B)
  = sumn N (fun i => sumn (S i) (fun j => f i j)).
Proof.
  intros N B f HN HB. rewrite <- suml_flat_map. rewrite (suml_perm _ _ _ _ (triangle_cells N B HN HB)).
  rewrite suml_flat_map, suml_seq. apply sumn_ext. intros i _. unfold below. rewrite suml_map, suml_seq. reflexivity.
Qed.

(** A fold whose operation adds up a real-valued view. *)
Lemma rdd_fold_sum : forall (A : Type) (view : A -> R) zero op l,
  view zero = 0 -> (forall a b, view (op a b) = view a + view b) ->
  view (rdd_fold zero op l) = suml view l.
Proof.
  intros A view zero op l H0 H. unfold rdd_fold.
  assert (G : forall acc, view (fold_left op (map (fun a => op zero a) l) acc) = view acc + suml view l).
  { induction l as [|a l IH]; intros acc; simpl; [ring|]. rewrite IH, !H, H0. ring. }
  rewrite G, H0. ring.
Qed.

(** * Measures *)

Section Measures.
Variables P X Z : Type.
Variables (p_ij : P -> X -> X -> Z -> R) (param : P) (prop_out prop_in : nat -> X) (prop_dyad : nat -> nat -> Z).
Variables (N B : nat) (sl : bool).
Hypothesis HN : (1 <= N)%nat.
Hypothesis HB : (1 <= B)%nat.
(** The link probability does not depend on the dyadic property. *)
Hypothesis Hz : forall d x y z z', p_ij d x y z = p_ij d x y z'.
Let pr (i j : nat) : R := p_ij param (prop_out i) (prop_in j) (prop_dyad i j).

Lemma local_p : forall i j i' j' a b,
  p_ij param (prop_out i) (prop_in j) (prop_dyad a b) = pr i j /\
  p_ij param (prop_out i') (prop_in j') (prop_dyad a b) = pr i' j'.
Proof. intros. split; apply Hz. Qed.

Lemma b_edges_sum : forall b,
  b_edges p_ij param b (slice prop_out (fst b)) (slice prop_in (snd b)) prop_dyad sl
  = suml (fun e => if allowed sl (fst e) (snd e) then pr (fst e) (snd e) else 0) (cells b).
Proof.
  intros [s t]. unfold b_edges.
  rewrite (for_range_sum R (fun x => x) _ _ (fun i => sumn (len t) (fun j =>
     (fun a b => if allowed sl a b then pr a b else 0) (fst s + i)%nat (fst t + j)%nat))).
  - rewrite <- (cells_sum (s, t) (fun a b => if allowed sl a b then pr a b else 0)). simpl. ring.
  - intros i e _. apply (for_range_sum R (fun x => x)). intros j e' _.
    change (adm sl) with (allowed sl). destruct (allowed sl (fst s + i) (fst t + j)); [|ring].
    unfold slice; simpl. unfold pr. rewrite (Hz _ _ _ (prop_dyad i j) (prop_dyad (fst s + i) (fst t + j))%nat). ring.
Qed.

Lemma spark_edges_sum : spark_edges param prop_out prop_in prop_dyad N B p_ij sl = pair_sum N sl pr.
Proof.
  unfold spark_edges. rewrite (rdd_fold_sum R (fun x => x)); [|reflexivity|reflexivity].
  rewrite suml_map.
  rewrite (suml_ext _ _ (fun b => suml (fun e => if allowed sl (fst e) (snd e) then pr (fst e) (snd e) else 0) (cells b))).
  - apply (square_sum N B (fun i j => if allowed sl i j then pr i j else 0) HB).
  - intros b _. apply b_edges_sum.
Qed.

(** A view of the degree arrays to which every visited pair adds [h]. *)
Lemma b_degrees_view : forall (view : degs -> R) (h : nat -> nat -> R),
  view ((fun _ => 0), (fun _ => 0), (fun _ => 0)) = 0 ->
  (forall i j (st : degs), view (
      let '(exp_d, exp_d_out, exp_d_in) := st in
      if negb (Nat.eqb i j) then
        (add_at (add_at exp_d i (pr i j + pr j i - pr i j * pr j i)) j (pr i j + pr j i - pr i j * pr j i),
         add_at (add_at exp_d_out i (pr i j)) j (pr j i),
         add_at (add_at exp_d_in j (pr i j)) i (pr j i))
      else if sl then (add_at exp_d i (pr i j), add_at exp_d_out i (pr i j), add_at exp_d_in j (pr i j))
      else st) = view st + h i j) ->
  forall b, view (b_degrees p_ij param b (slice prop_out (fst b)) (slice prop_out (snd b))
                    (slice prop_in (snd b)) (slice prop_in (fst b)) prop_dyad sl)
    = suml (fun e => h (fst e) (snd e)) (tri_cells b).
Proof.
  intros view h H0 H [s t]. unfold b_degrees.
  rewrite (for_range_sum degs view _ _ (fun i => sumn (in_range i t (span_eqb s t))
     (fun j => h (fst s + i) (fst t + j))%nat)).
  - rewrite H0, <- (tri_sum (s, t) h). simpl. ring.
  - intros i st _. apply (for_range_sum degs view). intros j st' _.
    rewrite <- H. unfold slice; simpl fst; simpl snd.
    destruct st' as [[d o] ii].
    rewrite (Hz param (prop_out (fst s + i)%nat) (prop_in (fst t + j)%nat) (prop_dyad i j) (prop_dyad (fst s + i) (fst t + j))%nat).
    rewrite (Hz param (prop_out (fst t + j)%nat) (prop_in (fst s + i)%nat) (prop_dyad j i) (prop_dyad (fst t + j) (fst s + i))%nat).
    reflexivity.
Qed.

Lemma add_degs_dview : forall v a b, dview v (add_degs a b) = dview v a + dview v b.
Proof. intros v [[a1 a2] a3] [[b1 b2] b3]. reflexivity. Qed.
Lemma add_degs_oview : forall v a b, oview v (add_degs a b) = oview v a + oview v b.
Proof. intros v [[a1 a2] a3] [[b1 b2] b3]. reflexivity. Qed.
Lemma add_degs_iview : forall v a b, iview v (add_degs a b) = iview v a + iview v b.
Proof. intros v [[a1 a2] a3] [[b1 b2] b3]. reflexivity. Qed.

Lemma spark_degrees_view : forall (view : degs -> R) (h : nat -> nat -> R),
  view ((fun _ => 0), (fun _ => 0), (fun _ => 0)) = 0 ->
  (forall a b, view (add_degs a b) = view a + view b) ->
  (forall i j (st : degs), view (
      let '(exp_d, exp_d_out, exp_d_in) := st in
      if negb (Nat.eqb i j) then
        (add_at (add_at exp_d i (pr i j + pr j i - pr i j * pr j i)) j (pr i j + pr j i - pr i j * pr j i),
         add_at (add_at exp_d_out i (pr i j)) j (pr j i),
         add_at (add_at exp_d_in j (pr i j)) i (pr j i))
      else if sl then (add_at exp_d i (pr i j), add_at exp_d_out i (pr i j), add_at exp_d_in j (pr i j))
      else st) = view st + h i j) ->
  view (spark_degrees param prop_out prop_in prop_dyad N B p_ij sl)
    = sumn N (fun i => sumn (S i) (fun j => h i j)).
Proof.
  intros view h H0 Ha H. unfold spark_degrees. rewrite (rdd_fold_sum degs view); [|exact H0|exact Ha].
  rewrite suml_map. rewrite (suml_ext _ _ (fun b => suml (fun e => h (fst e) (snd e)) (tri_cells b))).
  - apply triangle_sum; assumption.
  - intros b _. apply b_degrees_view; assumption.
Qed.

(** The single-process loop visits the same triangle. *)
Lemma exp_degrees_view : forall (view : degs -> R) (h : nat -> nat -> R),
  view ((fun _ => 0), (fun _ => 0), (fun _ => 0)) = 0 ->
  (forall i j (st : degs), view (exp_degrees_body p_ij param prop_out prop_in prop_dyad sl i j st) = view st + h i j) ->
  view (exp_degrees p_ij param prop_out prop_in prop_dyad N sl) = sumn N (fun i => sumn (S i) (fun j => h i j)).
Proof.
  intros view h H0 H. unfold exp_degrees.
  rewrite (for_range_sum degs view N _ (fun i => sumn (S i) (fun j => h i j))); [rewrite H0; ring|].
  intros i st _. apply (for_range_sum degs view). intros j st' _. apply H.
Qed.

Lemma spark_degrees_eq : forall v,
  let a := spark_degrees param prop_out prop_in prop_dyad N B p_ij sl in
  let b := exp_degrees p_ij param prop_out prop_in prop_dyad N sl in
  dview v a = dview v b /\ oview v a = oview v b /\ iview v a = iview v b.
Proof.
  intros v a b. unfold a, b.
  set (hd := fun i j => if Nat.eqb i j then (if Nat.eqb v i then (if sl then pr i j else 0) else 0)
       else (if Nat.eqb v i then pr i j + pr j i - pr i j * pr j i else 0) + (if Nat.eqb v j then pr i j + pr j i - pr i j * pr j i else 0)).
  set (ho := fun i j => if Nat.eqb i j then (if Nat.eqb v i then (if sl then pr i j else 0) else 0)
       else (if Nat.eqb v i then pr i j else 0) + (if Nat.eqb v j then pr j i else 0)).
  set (hi := fun i j => if Nat.eqb i j then (if Nat.eqb v j then (if sl then pr i j else 0) else 0)
       else (if Nat.eqb v j then pr i j else 0) + (if Nat.eqb v i then pr j i else 0)).
  split; [|split].
  - rewrite (spark_degrees_view (dview v) hd); [|reflexivity|apply add_degs_dview|].
    + symmetry. apply exp_degrees_view; [reflexivity|]. intros i j [[d o] ii]. unfold exp_degrees_body, hd. fold (pr i j) (pr j i).
      destruct (Nat.eqb_spec i j) as [->|Hn]; simpl negb; cbv iota.
      * destruct sl; simpl; [rewrite add_at_val|]; destruct (Nat.eqb v j); fold (pr j j); ring.
      * simpl. rewrite !add_at_val. destruct (Nat.eqb v i), (Nat.eqb v j); ring.
    + intros i j [[d o] ii]. unfold hd. destruct (Nat.eqb_spec i j) as [->|Hn]; simpl negb; cbv iota.
      * destruct sl; simpl; [rewrite add_at_val|]; destruct (Nat.eqb v j); ring.
      * simpl. rewrite !add_at_val. destruct (Nat.eqb v i), (Nat.eqb v j); ring.
  - rewrite (spark_degrees_view (oview v) ho); [|reflexivity|apply add_degs_oview|].
    + symmetry. apply exp_degrees_view; [reflexivity|]. intros i j [[d o] ii]. unfold exp_degrees_body, ho. fold (pr i j) (pr j i).
      destruct (Nat.eqb_spec i j) as [->|Hn]; simpl negb; cbv iota.
      * destruct sl; simpl; [rewrite add_at_val|]; destruct (Nat.eqb v j); fold (pr j j); ring.
      * simpl. rewrite !add_at_val. destruct (Nat.eqb v i), (Nat.eqb v j); ring.
    + intros i j [[d o] ii]. unfold ho. destruct (Nat.eqb_spec i j) as [->|Hn]; simpl negb; cbv iota.
      * destruct sl; simpl; [rewrite add_at_val|]; destruct (Nat.eqb v j); ring.
      * simpl. rewrite !add_at_val. destruct (Nat.eqb v i), (Nat.eqb v j); ring.
  - rewrite (spark_degrees_view (iview v) hi); [|reflexivity|apply add_degs_iview|].
    + symmetry. apply exp_degrees_view; [reflexivity|]. intros i j [[d o] ii]. unfold exp_degrees_body, hi. fold (pr i j) (pr j i).
      destruct (Nat.eqb_spec i j) as [->|Hn]; simpl negb; cbv iota.
      * destruct sl; simpl; [rewrite add_at_val|]; destruct (Nat.eqb v j); fold (pr j j); ring.
      * simpl. rewrite !add_at_val. destruct (Nat.eqb v i), (Nat.eqb v j); ring.
    + intros i j [[d o] ii]. unfold hi. destruct (Nat.eqb_spec i j) as [->|Hn]; simpl negb; cbv iota.
      * destruct sl; simpl; [rewrite add_at_val|]; destruct (Nat.eqb v j); ring.
      * simpl. rewrite !add_at_val. destruct (Nat.eqb v i), (Nat.eqb v j); ring.
Qed.
End Measures.
