(** The layer computations of the multi-label models of the library. *)
From Verif Require Import Base Num Spec Kernels KernelFacts MultiKernels MultiFacts Prob Ensemble EnsembleFacts
  EnsembleProps Models Layers LayerFacts LayerProps.
From Coq Require Import Sorting.Sorted FunctionalExtensionality.

(** The layer kernels of MultiFitnessModel and MultiInvariantModel, with the function giving the link
    probability (see Kernels.v for the source lines). *)
Inductive layer_kernels : (R -> R) -> (num -> num -> num -> num -> R) -> (num -> num -> num -> num -> num) ->
    (num -> num -> num -> num -> num) -> Prop :=
| fitness_kernels :
    layer_kernels logistic (fun d x y z => toR (mfit_p_ijk d x y z)) mfit_logp_ijk mfit_log1mp_ijk
| invariant_kernels :
    layer_kernels poissonian (fun d x y z => toR (minv_p_ijk d x y z)) minv_logp_ijk minv_log1mp_ijk.

Lemma layer_kernel : forall g p lp l1p, layer_kernels g p lp l1p ->
  forall d x y z, nonneg d -> nonneg x -> nonneg y ->
  p d x y z = link_prob g [d; x; y; Fin 1] /\
  log_of (link_prob g [d; x; y; Fin 1]) (lp d x y z) /\
  log_of (1 - link_prob g [d; x; y; Fin 1]) (l1p d x y z).
Proof.
  intros g p lp l1p H d x y z Hd Hx Hy. destruct H.
  - pose proof (view_link_prob fit_p_ij logistic fit_view d x y _ Hd Hx Hy nonneg_one) as E.
    pose proof (fit_logp_spec d x y _ Hd Hx Hy nonneg_one) as L1.
    pose proof (fit_log1mp_spec d x y _ Hd Hx Hy nonneg_one) as L2.
    rewrite mfit_p_ijk_eq, mfit_logp_ijk_eq, mfit_log1mp_ijk_eq. rewrite E in L1, L2 |- *. auto.
  - pose proof (view_link_prob inv_p_ij poissonian inv_view d x y _ Hd Hx Hy nonneg_one) as E.
    pose proof (inv_logp_spec d x y _ Hd Hx Hy nonneg_one) as L1.
    pose proof (inv_log1mp_spec d x y _ Hd Hx Hy nonneg_one) as L2.
    rewrite minv_p_ijk_eq, minv_logp_ijk_eq, minv_log1mp_ijk_eq by assumption. rewrite E in L1, L2 |- *. auto.
Qed.

Lemma layer_kernel_zero : forall g p lp l1p, layer_kernels g p lp l1p ->
  forall d, (forall y z, p d (Fin 0) y z = 0) /\ (forall x z, p d x (Fin 0) z = 0).
Proof.
  intros g p lp l1p H d. destruct H; split; intros; unfold mfit_p_ijk, minv_p_ijk;
    rewrite is0_0, ?orb_true_l, ?orb_true_r; reflexivity.
Qed.

Lemma layer_kernel_dyad : forall g p lp l1p, layer_kernels g p lp l1p ->
  forall d x y z z', p d x y z = p d x y z'.
Proof. intros g p lp l1p H; destruct H; reflexivity. Qed.

(** ** Lists *)

Lemma combine_layers : forall (f : nat -> tuple) (f' : nat -> tuple) n s,
  combine (seq s n) (combine (map f (seq s n)) (map f' (seq s n))) = map (fun k => (k, (f k, f' k))) (seq s n).
Proof. intros f f' n; induction n as [|n IH]; intros s; simpl; [reflexivity | rewrite IH; reflexivity]. Qed.

Lemma for_each_map : forall A B S (h : A -> B) l (b : B -> S -> S) s,
  for_each (map h l) b s = for_each l (fun x => b (h x)) s.
Proof. intros A B S h l; unfold for_each; induction l as [|x l IH]; intros b s; simpl; [reflexivity | apply IH]. Qed.

Lemma for_each_ext_in : forall A S l (b c : A -> S -> S) s, (forall x s, In x l -> b x s = c x s) ->
  for_each l b s = for_each l c s.
Proof.
  intros A S l b c; unfold for_each; induction l as [|x l IH]; intros s H; simpl; [reflexivity|].
  rewrite (H x s (or_introl eq_refl)). apply IH. intros; apply H; right; assumption.
Qed.

Lemma combine_rows : forall M (Hs : list (list (nat * nat))) k x a,
  In (k, x) (combine (seq a (length Hs)) (map (fun G => mkLayer M M (row_of G)) Hs)) ->
  l_row x = row_of (nth (k - a) Hs []) /\ (a <= k)%nat.
Proof.
  intros M; induction Hs as [|H Hs IH]; intros k x a Hin; [contradiction|]. cbn [length seq map combine] in Hin.
  destruct Hin as [E|Hin].
  - injection E as <- <-. rewrite Nat.sub_diag. split; [reflexivity | lia].
  - destruct (IH k x (S a) Hin) as [E1 E2]. split; [|lia].
    replace (k - a)%nat with (S (k - S a)) by lia. exact E1.
Qed.

Lemma prodl_combine_fst : forall A B (l : list A) (m : list B) (f : A -> R), length l = length m ->
  prodl (fun e => f (fst e)) (combine l m) = prodl f l.
Proof.
  intros A B l; induction l as [|a l IH]; intros [|b m] f H; try discriminate; [reflexivity|].
  cbn [combine]. rewrite !prodl_cons, IH by (injection H as H; exact H). reflexivity.
Qed.

Lemma prodl_seq : forall (f : nat -> R) n, prodl f (seq 0 n) = prodn n f.
Proof.
  intros f n; induction n as [|n IH]; [reflexivity|].
  rewrite seq_plus1, prodl_app, IH. simpl. ring.
Qed.

Lemma for_prog_ext_in : forall A S (l : list A) (b c : A -> S -> prog S) s, (forall x s, In x l -> b x s = c x s) ->
  for_prog l b s = for_prog l c s.
Proof.
  intros A S l b c; induction l as [|x l IH]; intros s H; simpl; [reflexivity|].
  rewrite (H x s (or_introl eq_refl)). apply pbind_ext. intros a. apply IH. intros; apply H; right; assumption.
Qed.

Lemma prodl_combine : forall (f : nat -> list (nat * nat) -> R) Gs s,
  prodl (fun kG => f (fst kG) (snd kG)) (combine (seq s (length Gs)) Gs) = prodn (length Gs) (fun k => f (s + k)%nat (nth k Gs [])).
Proof.
  intros f Gs; induction Gs as [|G Gs IH] using rev_ind; intros s; [reflexivity|].
  rewrite app_length, Nat.add_1_r, seq_plus1.
  assert (C : forall (l1 l2 : list nat) (m1 m2 : list (list (nat * nat))), length l1 = length m1 ->
    combine (l1 ++ l2) (m1 ++ m2) = combine l1 m1 ++ combine l2 m2).
  { clear. induction l1 as [|a l1 IH]; intros l2 [|b m1] m2 H; try discriminate; [reflexivity|].
    simpl. rewrite IH by (injection H as H; exact H). reflexivity. }
  rewrite C by apply seq_length. rewrite prodl_app, IH. cbn [combine prodl fst snd prodn].
  rewrite app_nth2, Nat.sub_diag by lia. cbn [nth].
  rewrite Rmult_1_r. f_equal. apply prodn_ext. intros k Hk. rewrite app_nth1 by exact Hk. reflexivity.
Qed.

Lemma Forall2_len : forall A B (P : A -> B -> Prop) l m, Forall2 P l m -> length l = length m.
Proof. intros A B P l m H; induction H; simpl; congruence. Qed.

Lemma expect_outcome_ext : forall A (m : prog A) f h, (forall a, outcome m a -> f a = h a) ->
  wf_prog m -> expect m f = expect m h.
Proof.
  intros A m f h; induction m as [a|r c IH]; intros H W; simpl in *; [apply H; reflexivity|].
  destruct W as [Hr W].
  assert (T : 0 < r -> expect (c true) f = expect (c true) h) by (intros; apply IH; auto).
  assert (F : r < 1 -> expect (c false) f = expect (c false) h) by (intros; apply IH; auto).
  destruct (Req_dec r 0) as [->|H0]; [rewrite F by lra; ring|].
  destruct (Req_dec r 1) as [->|H1]; [rewrite T by lra; ring|].
  rewrite T, F by lra. reflexivity.
Qed.

(** ** Tables *)

Section Table.
Variables (L : nat) (t : list tuple).
Hypothesis T : label_table L t.
Let rows := map zip t.

Lemma table_layers : by_layer L t = Ok (map (fun l => tuple_of (column rows l)) (seq 0 L)).
Proof. destruct T as (T1 & T2 & _). apply by_layer_spec; assumption. Qed.

Lemma table_canonical : Forall (canonical L) rows.
Proof.
  destruct T as (_ & _ & T3). unfold rows. apply Forall_forall. intros r Hr. apply in_map_iff in Hr.
  destruct Hr as (u & <- & Hu). apply (proj1 (Forall_forall _ _) T3 u Hu).
Qed.

Lemma nth_rows : forall i, nth i rows [] = row_vec (nth i t ([], [])).
Proof. intros i. unfold rows. change (@nil (nat * num)) with (zip ([], [])). apply map_nth. Qed.

Lemma layer_canonical : forall k, canonical (length t) (column rows k).
Proof.
  intros k. destruct (column_spec rows L k table_canonical) as [C _]. unfold rows in C at 1.
  rewrite map_length in C. exact C.
Qed.

Lemma layer_stored : forall i k, stored i (column rows k) = true <-> label_stored t i k.
Proof.
  intros i k. destruct (column_spec rows L k table_canonical) as (_ & _ & C).
  rewrite stored_in, C, nth_rows. unfold rows. rewrite map_length. unfold label_stored. split; [tauto|].
  intros H. split; [|exact H]. destruct (Nat.lt_ge_cases i (length t)) as [Hi|Hi]; [exact Hi|].
  rewrite (nth_overflow t) in H by exact Hi. contradiction.
Qed.

Lemma layer_lookup : forall i k, lookup i (column rows k) = label_value t i k.
Proof.
  intros i k. destruct (column_spec rows L k table_canonical) as (_ & C & C').
  unfold label_value. rewrite <- nth_rows. destruct (Nat.lt_ge_cases i (length rows)) as [Hi|Hi]; [apply C; exact Hi|].
  rewrite (nth_overflow rows) by exact Hi. apply lookup_notin. intros K. apply (proj1 (C' i)) in K. destruct K as [K _]. exact (Nat.lt_irrefl _ (Nat.lt_le_trans _ _ _ K Hi)).
Qed.

Lemma table_nonneg : forall i k, nonneg (label_value t i k).
Proof.
  intros i k. unfold label_value. apply lookup_nonneg.
  destruct (Nat.lt_ge_cases i (length t)) as [Hi|Hi].
  - destruct T as (_ & _ & T3). apply (proj1 (Forall_forall _ _) T3). apply nth_In; exact Hi.
  - rewrite nth_overflow by exact Hi. constructor.
Qed.
End Table.

(** ** Measures *)

Section Measures.
Variables (g : R -> R) (p : num -> num -> num -> num -> R) (lp l1p : num -> num -> num -> num -> num).
Hypothesis K : layer_kernels g p lp l1p.
Variables (z : nat -> nat -> num) (L N : nat) (d : nat -> num) (xs ys : list tuple).
Hypothesis Tx : label_table L xs.
Hypothesis Ty : label_table L ys.
Hypothesis Nx : length xs = N.
Hypothesis Ny : length ys = N.
Hypothesis Hd : forall k, (k < L)%nat -> nonneg (d k).
Let po k := column (map zip xs) k.
Let pin k := column (map zip ys) k.
Let q := layer_prob g d xs ys.

Lemma po_canonical : forall k, canonical N (po k).
Proof. intros k. rewrite <- Nx. apply (layer_canonical L). exact Tx. Qed.
Lemma pin_canonical : forall k, canonical N (pin k).
Proof. intros k. rewrite <- Ny. apply (layer_canonical L). exact Ty. Qed.

Lemma layer_q : forall k i j, (k < L)%nat -> p (d k) (lookup i (po k)) (lookup j (pin k)) (z i j) = q k i j.
Proof.
  intros k i j Hk. unfold po, pin. rewrite (layer_lookup L xs Tx), (layer_lookup L ys Ty).
  apply (layer_kernel g p lp l1p K); [apply Hd; exact Hk | apply (table_nonneg L); assumption..].
Qed.

Lemma layer_q_fun : forall k, (k < L)%nat ->
  (fun i j => p (d k) (lookup i (po k)) (lookup j (pin k)) (z i j)) = q k.
Proof.
  intros k Hk. apply functional_extensionality. intros i. apply functional_extensionality. intros j.
  apply layer_q. exact Hk.
Qed.

Lemma edges_label_spec : forall sl, exists e,
  expected_num_edges_label p z L xs ys (Some d) sl = Ok e /\
  forall k, (k < L)%nat -> e k = pair_sum N sl (q k).
Proof.
  intros sl. unfold expected_num_edges_label. rewrite (table_layers L xs Tx), (table_layers L ys Ty). cbn [bind].
  eexists. split; [reflexivity|]. intros k Hk. unfold exp_edges_label. rewrite map_length, seq_length.
  set (body := fun (i : nat) (e : nat -> R) => upd e i (exp_edges_layer p z (d i)
    (zip (nth i (map (fun l => tuple_of (column (map zip xs) l)) (seq 0 L)) ([], [])))
    (zip (nth i (map (fun l => tuple_of (column (map zip ys) l)) (seq 0 L)) ([], []))) sl)).
  assert (Loop : forall n e, (k < n)%nat -> for_range n body e k = exp_edges_layer p z (d k)
    (zip (nth k (map (fun l => tuple_of (column (map zip xs) l)) (seq 0 L)) ([], [])))
    (zip (nth k (map (fun l => tuple_of (column (map zip ys) l)) (seq 0 L)) ([], []))) sl).
  { induction n as [|n IH]; intros e Hn; [lia|]. cbn [for_range]. unfold body at 1, upd.
    destruct (Nat.eqb_spec k n) as [->|]; [reflexivity | apply IH; lia]. }
  rewrite Loop, !nth_layers by exact Hk.
  destruct (layer_kernel_zero g p lp l1p K (d k)) as [Z1 Z2].
  etransitivity; [apply (layer_edges num p z N (d k) (po k) (pin k) (po_canonical k) (pin_canonical k) Z1 Z2)|].
  cbv zeta. rewrite layer_q_fun by exact Hk. reflexivity.
Qed.

(** The visits of one layer. *)
Definition visited (k v : nat) (sl : bool) (h : nat -> nat -> R) : R :=
  suml (fun o => suml (fun q0 => visit h (fun i => q k i i) sl v o q0) (pin k)) (po k).

Let U (k i j : nat) : R := q k i j + q k j i - q k i j * q k j i.

Lemma layers_loop : forall (spark : bool) l v sl (body : nat -> nat * num -> nat * num -> doks -> doks),
  (l < L)%nat ->
  (forall k o q0, (k < L)%nat -> In o (po k) -> In q0 (pin k) ->
     visits num p z (d k) (po k) (pin k) l k v sl (body k o q0) o q0) ->
  forall n st, (n <= L)%nat -> same_keys st ->
  let st' := for_each (seq 0 n) (fun k st => for_each (po k) (fun o st => for_each (pin k) (fun q0 st => body k o q0 st) st) st) st in
  same_keys st' /\
  v1 (v, l) st' = v1 (v, l) st + (if Nat.ltb l n then visited l v sl (U l) else 0) /\
  v2 (v, l) st' = v2 (v, l) st + (if Nat.ltb l n then visited l v sl (q l) else 0) /\
  v3 (v, l) st' = v3 (v, l) st + (if Nat.ltb l n then visited l v sl (fun a b => q l b a) else 0).
Proof.
  intros spark l v sl body Hl Hb n st; induction n as [|n IH]; intros Hn Hst.
  - simpl. unfold for_each; simpl. repeat split; try exact Hst; ring.
  - cbv zeta in IH |- *. rewrite seq_plus1. unfold for_each at 1 4 7 10. rewrite fold_left_app. cbn [fold_left].
    match goal with |- context[fold_left ?f (seq 0 n) st] =>
      change (fold_left f (seq 0 n) st) with (for_each (seq 0 n) (fun k st => for_each (po k)
        (fun o st => for_each (pin k) (fun q0 st => body k o q0 st) st) st) st) end.
    destruct (IH ltac:(lia) Hst) as (K0 & K1 & K2 & K3). clear IH.
    set (st1 := for_each (seq 0 n) _ st) in *. rewrite Nat.add_0_l.
    destruct (layer_visits num p z (d n) (po n) (pin n) l n v sl (body n)
      (fun o q0 Ho Hq => Hb n o q0 Hn Ho Hq) st1 K0) as (J0 & J1 & J2 & J3).
    split; [exact J0|]. rewrite J1, J2, J3, K1, K2, K3.
    destruct (Nat.ltb_spec l n) as [Hln|Hln]; destruct (Nat.ltb_spec l (S n)) as [Hls|Hls]; try lia.
    + destruct (Nat.eqb_spec l n); [lia|]. repeat split; ring.
    + destruct (Nat.eqb_spec l n) as [<-|]; [|lia]. unfold visited.
      assert (E : forall i j, p (d l) (lookup i (po l)) (lookup j (pin l)) (z i j) = q l i j)
        by (intros; apply layer_q; exact Hl).
      assert (EV : forall (h h' : nat -> nat -> R) s s', (forall i j, h i j = h' i j) -> (forall i, s i = s' i) ->
        suml (fun o => suml (fun q0 => visit h s sl v o q0) (pin l)) (po l)
        = suml (fun o => suml (fun q0 => visit h' s' sl v o q0) (pin l)) (po l)).
      { intros h h' s s' Eh Es. apply suml_ext. intros o _. apply suml_ext. intros q0 _. unfold visit.
        rewrite !Eh, !Es. reflexivity. }
      repeat split; rewrite Rplus_0_r; f_equal; apply EV; intros; rewrite ?E; reflexivity.
    + destruct (Nat.eqb_spec l n); [lia|]. repeat split; ring.
Qed.

Lemma visited_count : forall k v sl h, (v < N)%nat ->
  visited k v sl h = sumn N (fun j => if Nat.eqb v j
    then (if sl && stored v (po k) && stored v (pin k) then q k v v else 0)
    else (if stored v (po k) && stored j (pin k) then h v j else 0)
         + (if stored j (po k) && stored v (pin k) then h v j else 0)).
Proof.
  intros k v sl h Hv. exact (visit_sum N (po k) (pin k) sl v h (fun i => q k i i) Hv (po_canonical k) (pin_canonical k)).
Qed.

Lemma degrees_label_spec : forall sl, exists a b c,
  expected_degrees_by_label p z L xs ys (Some d) sl = Ok (a, b, c) /\
  forall v k, (v < N)%nat -> (k < L)%nat ->
    a v k = visited k v sl (U k) /\ b v k = visited k v sl (q k) /\ c v k = visited k v sl (fun i j => q k j i).
Proof.
  intros sl. unfold expected_degrees_by_label. rewrite (table_layers L xs Tx), (table_layers L ys Ty). cbn [bind].
  destruct (exp_degrees_label p z d _ _ sl) as [[a b] c] eqn:E.
  exists (dok_at a), (dok_at b), (dok_at c). split; [reflexivity|]. intros v k Hv Hk.
  set (body := fun (l : nat) (o q0 : nat * num) (st : doks) =>
    degrees_label_body p z (d l) l (po l) (pin l) sl (fst o) (snd o) (value_at (pin l) (fst o)) (fst q0) (snd q0) st).
  assert (E' : for_each (seq 0 L) (fun k st => for_each (po k) (fun o st =>
      for_each (pin k) (fun q0 st => body k o q0 st) st) st) ([], [], []) = (a, b, c)).
  { rewrite <- E. unfold exp_degrees_label. rewrite map_length, seq_length, combine_layers, for_each_map.
    apply for_each_ext_in. intros l st _. cbn [fst snd]. rewrite !zip_tuple_of. fold (po l) (pin l).
    apply for_each_ext_in. intros [i x] st' _. apply for_each_ext_in. intros [j y] st'' _. reflexivity. }
  destruct (layers_loop false k v sl body Hk) with (n := L) (st := ([], [], []) : doks) as (_ & J1 & J2 & J3).
  - intros l o q0 Hl Ho Hq. apply (sparse_visits num p z N (d l) (po l) (pin l) (po_canonical l) (pin_canonical l)); assumption.
  - lia.
  - split; reflexivity.
  - cbv zeta in J1, J2, J3. rewrite E' in J1, J2, J3. cbn [v1 v2 v3] in J1, J2, J3.
    rewrite !dok_at_dget. rewrite J1, J2, J3. destruct (Nat.ltb_spec k L); [|lia].
    unfold dget; simpl. repeat split; ring.
Qed.

Lemma spark_degrees_spec : forall sl k, (k < L)%nat ->
  forall a b c, exp_degrees_layer p z (d k) k (po k) (pin k) sl = (a, b, c) ->
  forall v, (v < N)%nat ->
    dok_at a v k = visited k v sl (U k) /\ dok_at b v k = visited k v sl (q k) /\
    dok_at c v k = visited k v sl (fun i j => q k j i).
Proof.
  intros sl k Hk a b c E v Hv. unfold exp_degrees_layer in E.
  destruct (layer_kernel_zero g p lp l1p K (d k)) as [Z1 Z2].
  destruct (layer_visits num p z (d k) (po k) (pin k) k k v sl (fun o q0 st =>
      degrees_layer_body p z (d k) k (po k) (pin k) sl (fst o) (snd o) (fst q0) (snd q0) st))
      with (st := ([], [], []) : doks) as (_ & J1 & J2 & J3).
  - intros o q0 Ho Hq. apply (spark_visits num p z N (d k) (po k) (pin k) (po_canonical k) (pin_canonical k)); try assumption.
    intros x y w w'. apply (layer_kernel_dyad g p lp l1p K).
  - split; reflexivity.
  - cbv zeta in J1, J2, J3. rewrite E in J1, J2, J3. cbn [v1 v2 v3] in J1, J2, J3. rewrite Nat.eqb_refl in J1, J2, J3.
    rewrite !dok_at_dget. rewrite J1, J2, J3. clear J1 J2 J3.
    assert (E2 : forall i j, p (d k) (lookup i (po k)) (lookup j (pin k)) (z i j) = q k i j)
      by (intros; apply layer_q; exact Hk).
    unfold dget; simpl. unfold visited.
    assert (EV : forall (h h' : nat -> nat -> R) s s', (forall i j, h i j = h' i j) -> (forall i, s i = s' i) ->
        suml (fun o => suml (fun q0 => visit h s sl v o q0) (pin k)) (po k)
        = suml (fun o => suml (fun q0 => visit h' s' sl v o q0) (pin k)) (po k)).
    { intros h h' s s' Eh Es. apply suml_ext. intros o _. apply suml_ext. intros q0 _. unfold visit.
      rewrite !Eh, !Es. reflexivity. }
    repeat split; rewrite Rplus_0_l; apply EV; intros; rewrite ?E2; reflexivity.
Qed.

(** At most one vertex has entries in both tables. *)
Lemma visited_once : forall k sl v, (k < L)%nat -> (v < N)%nat ->
  (forall i j, i <> j -> label_stored xs i k -> label_stored ys i k -> label_stored xs j k -> label_stored ys j k -> False) ->
  visited k v sl (U k) = nb_degree N sl (either_link (q k)) v /\
  visited k v sl (q k) = nb_degree N sl (out_link (q k)) v /\
  visited k v sl (fun i j => q k j i) = nb_degree N sl (in_link (q k)) v.
Proof.
  intros k sl v Hk Hv H1. destruct (layer_kernel_zero g p lp l1p K (d k)) as [Z1 Z2].
  pose proof (once_degrees num p z N (d k) (po k) (pin k) (po_canonical k) (pin_canonical k) Z1 Z2 sl v Hv) as O.
  cbv zeta in O. rewrite !layer_q_fun in O by exact Hk.
  assert (Hone : forall j, (j < N)%nat -> j <> v ->
    stored v (po k) && stored j (pin k) && (stored j (po k) && stored v (pin k)) = false).
  { intros j Hj Hn. destruct (stored v (po k) && stored j (pin k) && (stored j (po k) && stored v (pin k))) eqn:E; [|reflexivity].
    exfalso. apply andb_true_iff in E. destruct E as [E1 E2].
    apply andb_true_iff in E1. apply andb_true_iff in E2. destruct E1 as [E1 E3], E2 as [E2 E4].
    apply (H1 j v Hn); apply (layer_stored L) ; assumption. }
  specialize (O Hone).
  assert (E2 : forall i j, p (d k) (lookup i (po k)) (lookup j (pin k)) (z i j) = q k i j)
      by (intros; apply layer_q; exact Hk).
  destruct O as (O1 & O2 & O3).
  assert (EV : forall (h h' : nat -> nat -> R) s s', (forall i j, h i j = h' i j) -> (forall i, s i = s' i) ->
        suml (fun o => suml (fun q0 => visit h s sl v o q0) (pin k)) (po k)
        = suml (fun o => suml (fun q0 => visit h' s' sl v o q0) (pin k)) (po k)).
  { intros h h' s s' Eh Es. apply suml_ext. intros o _. apply suml_ext. intros q0 _. unfold visit.
      rewrite !Eh, !Es. reflexivity. }
  unfold visited. rewrite <- O1, <- O2, <- O3.
  repeat split; apply EV; intros; unfold U; rewrite ?E2; reflexivity.
Qed.

(** ** Likelihood of a tensor *)

Lemma layer_lik_spec : forall k sl G, (k < L)%nat ->
  (forall i j, In (i, j) G -> (i < N)%nat /\ (j < N)%nat /\ allowed sl i j = true) ->
  log_of (graph_weight N sl (q k) G) (likelihood_layer lp l1p z (d k) (po k) (pin k) (row_of G) N sl).
Proof.
  intros k sl G Hk HG. destruct (layer_kernel_zero g p lp l1p K (d k)) as [Z1 Z2].
  rewrite <- layer_q_fun by exact Hk.
  apply (layer_lik num p lp l1p z N (d k) (po k) (pin k) (po_canonical k) (pin_canonical k) Z1 Z2); [|exact HG].
  intros i j. cbv beta. rewrite layer_q by exact Hk. unfold q, layer_prob, po, pin.
  rewrite (layer_lookup L xs Tx), (layer_lookup L ys Ty).
  apply (layer_kernel g p lp l1p K); [apply Hd; exact Hk | apply (table_nonneg L); assumption..].
Qed.

Lemma tensor_lik_spec : forall sl0 (sl : option bool) Gs, length Gs = L ->
  let s := match sl with None => sl0 | Some b => b end in
  (forall G i j, In G Gs -> In (i, j) G -> (i < N)%nat /\ (j < N)%nat /\ allowed s i j = true) ->
  exists l, log_likelihood_tensor lp l1p z N L xs ys (Some d) sl0 (map (fun G => mkLayer N N (row_of G)) Gs) sl = Ok l /\
  log_of (prodn L (fun k => graph_weight N s (q k) (nth k Gs []))) l.
Proof.
  intros sl0 sl Gs HL s HG. unfold log_likelihood_tensor. fold s. rewrite map_length, HL, Nat.eqb_refl.
  unfold guard at 1. replace (forallb _ _) with true.
  2:{ symmetry. apply forallb_forall. intros x Hx. apply in_map_iff in Hx. destruct Hx as (G & <- & _). simpl.
      rewrite Nat.eqb_refl. reflexivity. }
  unfold guard. rewrite (table_layers L xs Tx), (table_layers L ys Ty). cbn [bind].
  eexists. split; [reflexivity|]. apply tracks_log.
  set (Gk := fun kx : nat * layer => graph_weight N s (q (fst kx)) (nth (fst kx) Gs [])).
  replace (prodn L (fun k => graph_weight N s (q k) (nth k Gs [])))
    with (1 * prodl Gk (combine (seq 0 L) (map (fun G => mkLayer N N (row_of G)) Gs))).
  - apply each_tracks; [|simpl; split; [lra | rewrite ln_1; reflexivity]].
    intros [k x] W s' Hkx [HW ->]. cbv zeta. cbn [fst snd].
    assert (Hk : (k < L)%nat) by (apply in_combine_l in Hkx; apply in_seq in Hkx; lia).
    assert (Hx : l_row x = row_of (nth k Gs [])).
    { rewrite <- HL in Hkx. apply (combine_rows N Gs k x 0) in Hkx. rewrite Nat.sub_0_r in Hkx. apply Hkx. }
    rewrite Hx, !nth_layers by exact Hk. fold (po k) (pin k).
    assert (Lk : log_of (graph_weight N s (q k) (nth k Gs []))
        (likelihood_layer lp l1p z (d k) (po k) (pin k) (row_of (nth k Gs [])) N s)).
    { apply layer_lik_spec; [exact Hk|]. intros i j Hij. apply (HG (nth k Gs [])); [|exact Hij].
      apply nth_In. rewrite HL. exact Hk. }
    unfold Gk; cbn [fst].
    destruct (isinf (likelihood_layer lp l1p z (d k) (po k) (pin k) (row_of (nth k Gs [])) N s)) eqn:I.
    + destruct (log_of_isinf _ _ Lk I) as [-> ->]. simpl. split; [ring | reflexivity].
    + destruct (log_of_not_isinf _ _ Lk I) as [Hp ->]. simpl.
      split; [apply Rmult_lt_0_compat; assumption | rewrite ln_mult by assumption; reflexivity].
  - rewrite Rmult_1_l. transitivity (prodl (fun k => graph_weight N s (q k) (nth k Gs [])) (seq 0 L)).
    + rewrite <- (prodl_combine_fst _ _ (seq 0 L) (map (fun G => mkLayer N N (row_of G)) Gs)
        (fun k => graph_weight N s (q k) (nth k Gs []))); [reflexivity|].
      rewrite seq_length, map_length. symmetry. exact HL.
    + apply prodl_seq.
Qed.
(** ** Samples *)

Lemma layer_sample_spec : forall k sl G, (k < L)%nat -> In G (all_graphs N sl) ->
  prob (binary_sample_layer p z (d k) (po k) (pin k) sl) (fun H => list_eqb H G) = graph_weight N sl (q k) G.
Proof.
  intros k sl G Hk HG. destruct (layer_kernel_zero g p lp l1p K (d k)) as [Z1 Z2].
  rewrite <- layer_q_fun by exact Hk.
  apply (sample_prob num p z N (d k) (po k) (pin k) (po_canonical k) (pin_canonical k) Z1 Z2). exact HG.
Qed.

Lemma layer_sample_outcome : forall k sl G, (k < L)%nat ->
  outcome (binary_sample_layer p z (d k) (po k) (pin k) sl) G ->
  In G (all_graphs N sl) /\ forall i j, In (i, j) G -> 0 < q k i j.
Proof.
  intros k sl G Hk HG.
  destruct (sample_outcome num p z N (d k) (po k) (pin k) (po_canonical k) (pin_canonical k) sl G HG) as [H1 H2].
  split; [exact H1|]. intros i j Hij. rewrite <- layer_q by exact Hk. apply H2; exact Hij.
Qed.

Lemma tensor_sample_spec : forall sl arg, exists m,
  sample_layers p z L xs ys (Some d) sl arg = Ok m /\
  (forall Gs, length Gs = L -> (forall G, In G Gs -> In G (all_graphs N sl)) ->
     prob m (fun H => tensor_eqb H Gs) = prodn L (fun k => graph_weight N sl (q k) (nth k Gs []))) /\
  (forall Gs, outcome m Gs -> length Gs = L /\
     forall k, (k < L)%nat -> In (nth k Gs []) (all_graphs N sl) /\
       forall i j, In (i, j) (nth k Gs []) -> 0 < q k i j).
Proof.
  intros sl arg. unfold sample_layers. rewrite (table_layers L xs Tx), (table_layers L ys Ty). cbn [bind].
  eexists. split; [reflexivity|].
  set (m := fun k => binary_sample_layer p z (d k) (po k) (pin k) sl).
  match goal with |- context[for_prog (seq 0 L) ?b []] => set (body := b) end.
  assert (E : for_prog (seq 0 L) body [] = layers_prog m (seq 0 L) []).
  { apply for_prog_ext_in. intros k acc Hk. apply in_seq in Hk. unfold body, m.
    rewrite !nth_layers by lia. reflexivity. }
  rewrite E. split.
  - intros Gs HL HG. rewrite layers_prob by (rewrite seq_length; exact HL). rewrite <- HL at 1.
    rewrite (prodl_combine (fun k G => prob (m k) (fun H => list_eqb H G)) Gs 0), HL.
    apply prodn_ext. intros k Hk. apply layer_sample_spec; [exact Hk|]. apply HG. apply nth_In. rewrite HL. exact Hk.
  - intros Gs H. apply layers_outcome in H. destruct H as (Hs & -> & F). cbn [app].
    pose proof (Forall2_len _ _ _ _ _ F) as FL. rewrite seq_length in FL. split; [symmetry; exact FL|].
    intros k Hk.
    assert (Fk : forall ks (l : list (list (nat * nat))), Forall2 (fun k H => outcome (m k) H) ks l ->
      forall k, (k < length ks)%nat -> outcome (m (nth k ks 0%nat)) (nth k l [])).
    { clear. induction 1 as [|k0 G0 ks l H0 H1 IH]; intros k Hk; [simpl in Hk; lia|].
      destruct k as [|k]; [exact H0|]. apply IH. simpl in Hk. lia. }
    specialize (Fk _ _ F k). rewrite seq_length in Fk. specialize (Fk Hk). rewrite seq_nth in Fk by exact Hk.
    apply layer_sample_outcome; assumption.
Qed.
End Measures.

(** ** The dense module *)

Lemma flow_tracks : forall n body (w : nat -> R) W s,
  (forall i W s, (i < n)%nat -> tracks W (Next s) -> tracks (W * w i) (body i s)) ->
  tracks W (Next s) -> tracks (W * prodn n w) (for_flow n body s).
Proof.
  intros n body w W s; induction n as [|n IH]; intros H Hs.
  - simpl. rewrite Rmult_1_r. exact Hs.
  - cbn [for_flow prodn]. rewrite <- Rmult_assoc.
    assert (Hn : tracks (W * prodn n w) (for_flow n body s)) by (apply IH; [intros; apply H; [lia|]; assumption | exact Hs]).
    destruct (for_flow n body s) as [s'|t]; [apply H; [lia | exact Hn]|].
    destruct Hn as [E1 E2]. rewrite E1. split; [ring | exact E2].
Qed.

Section Dense.
Variables (g : R -> R) (p : num -> num -> num -> num -> R) (lp l1p : num -> num -> num -> num -> num).
Hypothesis K : layer_kernels g p lp l1p.
Variables (z : nat -> nat -> num) (L N : nat) (d : nat -> num) (x y : nat -> nat -> num).
Hypothesis Hx : forall i k, (i < N)%nat -> (k < L)%nat -> nonneg (x i k).
Hypothesis Hy : forall i k, (i < N)%nat -> (k < L)%nat -> nonneg (y i k).
Hypothesis Hd : forall k, (k < L)%nat -> nonneg (d k).
Let q (k i j : nat) : R := link_prob g [d k; x i k; y j k; Fin 1].

Lemma dense_q : forall k i j, (k < L)%nat -> (i < N)%nat -> (j < N)%nat -> p (d k) (x i k) (y j k) (z i j) = q k i j.
Proof. intros k i j Hk Hi Hj. apply (layer_kernel g p lp l1p K); auto. Qed.

Lemma pair_sum_in : forall sl (f h : nat -> nat -> R), (forall i j, (i < N)%nat -> (j < N)%nat -> f i j = h i j) ->
  pair_sum N sl f = pair_sum N sl h.
Proof.
  intros sl f h H. unfold pair_sum. apply sumn_ext. intros i Hi. apply sumn_ext. intros j Hj.
  rewrite H by assumption. reflexivity.
Qed.

Lemma dense_edges_spec : forall sl, (N <= L)%nat ->
  exp_edges_label_dense p z N L d x y sl = Ok (map (fun k => pair_sum N sl (q k)) (seq 0 N)).
Proof.
  intros sl HN. unfold exp_edges_label_dense, guard. destruct (Nat.leb_spec N L); [|lia]. f_equal.
  apply map_ext_in. intros k Hk. apply in_seq in Hk.
  etransitivity; [exact (exp_edges_spec num num num p (d k) (fun i => x i k) (fun j => y j k) z N sl)|].
  apply pair_sum_in. intros i j Hi Hj. apply dense_q; try assumption. lia.
Qed.

Lemma dense_degrees_spec : forall sl k v, (k < L)%nat -> (v < N)%nat ->
  let '(a, b, c) := exp_degrees_label_dense p z N d x y sl k in
  a v = nb_degree N sl (either_link (q k)) v /\ b v = nb_degree N sl (out_link (q k)) v /\
  c v = nb_degree N sl (in_link (q k)) v.
Proof.
  intros sl k v Hk Hv. unfold exp_degrees_label_dense.
  pose proof (exp_deg_spec num num num p (d k) (fun i => x i k) (fun j => y j k) z N sl v Hv) as A.
  pose proof (exp_out_spec num num num p (d k) (fun i => x i k) (fun j => y j k) z N sl v Hv) as B.
  pose proof (exp_in_spec num num num p (d k) (fun i => x i k) (fun j => y j k) z N sl v Hv) as C.
  destruct (exp_degrees _ _ _ _ _ _ _) as [[a b] c]. cbn [dview oview iview] in A, B, C. rewrite A, B, C.
  repeat split; unfold nb_degree; apply sumn_ext; intros j Hj.
  - unfold union_prob. rewrite !dense_q by assumption. unfold either_link, allowed.
    destruct (Nat.eqb_spec v j) as [<-|Hn]; simpl; [reflexivity | ring].
  - rewrite dense_q by assumption. reflexivity.
  - rewrite dense_q by assumption. unfold in_link. rewrite adm_sym. reflexivity.
Qed.

Lemma dense_lik_spec : forall sl (adj : nat -> nat -> nat -> bool),
  log_of (prodn L (fun k => prodn N (fun i => prodn N (fun j =>
            if allowed sl i j then (if adj k i j then q k i j else 1 - q k i j) else 1))))
    (likelihood_tensor_dense lp l1p z N L d x y adj sl).
Proof.
  intros sl adj. unfold likelihood_tensor_dense. apply tracks_log. rewrite <- (Rmult_1_l (prodn L _)).
  apply flow_tracks; [|simpl; split; [lra | rewrite ln_1; reflexivity]].
  intros k W s Hk Hs. apply flow_tracks; [|exact Hs].
  clear W s Hs. intros i W s Hi Hs. apply flow_tracks; [|exact Hs].
  clear W s Hs. intros j W s Hj [HW ->]. unfold lik_body. change (adm sl i j) with (allowed sl i j).
  destruct (allowed sl i j); [|simpl; rewrite Rmult_1_r; auto]. cbv zeta.
  destruct (layer_kernel g p lp l1p K (d k) (x i k) (y j k) (z i j)) as (_ & L1 & L2); auto. fold (q k i j) in L1, L2.
  assert (Lk : log_of (if adj k i j then q k i j else 1 - q k i j)
    (if adj k i j then lp (d k) (x i k) (y j k) (z i j) else l1p (d k) (x i k) (y j k) (z i j)))
    by (destruct (adj k i j); assumption).
  destruct (isinf (if adj k i j then lp (d k) (x i k) (y j k) (z i j) else l1p (d k) (x i k) (y j k) (z i j))) eqn:I.
  - destruct (log_of_isinf _ _ Lk I) as [-> ->]. simpl. split; [ring | reflexivity].
  - destruct (log_of_not_isinf _ _ Lk I) as [Hp ->]. simpl.
    split; [apply Rmult_lt_0_compat; assumption | rewrite ln_mult by assumption; reflexivity].
Qed.

Lemma dense_sample_prog : forall sl,
  binary_sample_tensor p z N L d x y sl
  = for_prog (seq 0 L) (fun k acc => pbind (bern (fun e => q k (fst e) (snd e)) (fun e => e) (pairs N sl) [])
      (fun G => Ret (acc ++ map (pair k) G))) [].
Proof.
  intros sl. unfold binary_sample_tensor. apply for_prog_ext_in. intros k acc Hk. apply in_seq in Hk.
  rewrite <- bern_mark. unfold bern, pairs. rewrite for_prog_filter, for_prog_prod.
  apply for_prog_ext_in. intros i acc' Hi. apply for_prog_ext_in. intros j acc'' Hj.
  apply in_seq in Hi. apply in_seq in Hj. cbn [fst snd]. change (adm sl i j) with (allowed sl i j).
  destruct (allowed sl i j); [|reflexivity]. rewrite dense_q by lia. reflexivity.
Qed.

Lemma bern_pairs_prob : forall sl (r : nat -> nat -> R) G, In G (all_graphs N sl) ->
  prob (bern (fun e => r (fst e) (snd e)) (fun e => e) (pairs N sl) []) (fun H => list_eqb H G) = graph_weight N sl r G.
Proof.
  intros sl r G HG. unfold prob. rewrite bern_sublists by apply NoDup_pairs.
  rewrite graph_weight_lweight. unfold all_graphs in HG.
  rewrite <- (sum_indicator (sublists (pairs N sl)) (lweight (fun e => r (fst e) (snd e)) (pairs N sl)) G
    (NoDup_sublists _ _ (NoDup_pairs N sl)) HG).
  apply suml_ext. intros H _. simpl. rewrite map_id. reflexivity.
Qed.

End Dense.

(** Results of [layers_prog] have one layer per label. *)
Lemma layers_expect_len : forall m ks f h, (forall a, length a = length ks -> f a = h a) ->
  expect (layers_prog m ks []) f = expect (layers_prog m ks []) h.
Proof.
  intros m ks; induction ks as [|k ks IH]; intros f h H; [apply H; reflexivity|].
  unfold layers_prog; cbn [for_prog]. rewrite !pbind_assoc, !expect_bind. apply expect_ext. intros G. cbn [pbind app].
  fold (layers_prog m ks [G]). rewrite !(layers_acc m ks [G]). apply IH. intros a Ha. apply H. simpl. congruence.
Qed.

Lemma dense_sample_spec : forall g p lp l1p, layer_kernels g p lp l1p ->
  forall z L N d x y, (forall i k, (i < N)%nat -> (k < L)%nat -> nonneg (x i k) /\ nonneg (y i k)) ->
  (forall k, (k < L)%nat -> nonneg (d k)) ->
  forall sl Gs, length Gs = L -> (forall G, In G Gs -> In G (all_graphs N sl)) ->
  prob (binary_sample_tensor p z N L d x y sl) (fun t => tensor_eqb (slices L t) Gs)
  = prodn L (fun k => graph_weight N sl (fun i j => link_prob g [d k; x i k; y j k; Fin 1]) (nth k Gs [])).
Proof.
  intros g p lp l1p K z L N d x y Hxy Hd sl Gs HL HG.
  rewrite (dense_sample_prog g p lp l1p K z L N d x y (fun i k Hi Hk => proj1 (Hxy i k Hi Hk))
    (fun i k Hi Hk => proj2 (Hxy i k Hi Hk)) Hd).
  unfold prob. rewrite (flat_prog (fun k => bern (fun e => link_prob g [d k; x (fst e) k; y (snd e) k; Fin 1])
    (fun e => e) (pairs N sl) [])).
  transitivity (prob (layers_prog (fun k => bern (fun e => link_prob g [d k; x (fst e) k; y (snd e) k; Fin 1])
    (fun e => e) (pairs N sl) []) (seq 0 L) []) (fun a => tensor_eqb a Gs)).
  - apply layers_expect_len. intros a Ha. rewrite seq_length in Ha. cbn [app]. do 2 f_equal.
    unfold slices. rewrite <- Ha. apply slices_flat.
  - rewrite layers_prob by (rewrite seq_length; exact HL). rewrite <- HL at 1.
    rewrite (prodl_combine (fun k G => prob (bern (fun e => link_prob g [d k; x (fst e) k; y (snd e) k; Fin 1])
      (fun e => e) (pairs N sl) []) (fun H => list_eqb H G)) Gs 0), HL.
    apply prodn_ext. intros k Hk. rewrite Nat.add_0_l.
    apply (bern_pairs_prob N sl (fun i j => link_prob g [d k; x i k; y j k; Fin 1])). apply HG. apply nth_In. lia.
Qed.

(** ** CReMB samples of a layer *)

Lemma strength_entry : forall (s : list (nat * R)) i, NoDup (map fst s) -> In i (map fst s) ->
  strength_of s i = Some (entry s i).
Proof.
  intros s i; unfold strength_of, entry; induction s as [|[a v] s IH]; intros ND Hi; [contradiction|].
  inversion ND; subst. simpl. destruct (Nat.eqb_spec a i) as [->|Hn].
  - assert (E0 : suml (fun e => if Nat.eqb (fst e) i then snd e else 0) s = 0); [apply suml_zero|rewrite E0; simpl; f_equal; ring].
    intros e He. destruct (Nat.eqb_spec (fst e) i) as [E|]; [|reflexivity].
    exfalso. apply H1. rewrite <- E. apply in_map; exact He.
  - rewrite IH; [f_equal; ring | assumption|]. destruct Hi as [Hi|Hi]; [contradiction (Hn Hi) | exact Hi].
Qed.

Section Cremb.
Variables (p : num -> num -> num -> num -> R) (z : nat -> nat -> num) (N : nat) (d : num) (po pin : svec).
Variables (s_out s_in : list (nat * R)).
Hypothesis C1 : canonical N po.
Hypothesis C2 : canonical N pin.
Hypothesis D1 : NoDup (map fst s_out).
Hypothesis D2 : NoDup (map fst s_in).
Hypothesis I1 : forall i, In i (map fst po) -> In i (map fst s_out).
Hypothesis I2 : forall i, In i (map fst pin) -> In i (map fst s_in).
Hypothesis T0 : total s_out <> 0.
Hypothesis T1 : Rabs (1 - total s_in / total s_out) < 1 / 1000000.
Let P (i j : nat) : R := p d (lookup i po) (lookup j pin) (z i j).
Let W (e : nat * nat) : R := entry s_out (fst e) * entry s_in (snd e) / (total s_out * P (fst e) (snd e)).

Lemma cremb_layer_bern : forall sl,
  cremb_sample_layer p z d po pin s_out s_in sl
  = Ok (pbind (bern (fun e => P (fst e) (snd e)) (fun e => (fst e, snd e, W e))
           (filter (fun e => stored (fst e) po && stored (snd e) pin) (pairs N sl)) [])
         (fun links => Ret (Ok links))).
Proof.
  intros sl. unfold cremb_sample_layer. fold (total s_out) (total s_in).
  destruct (Reqb_spec (total s_out) 0) as [E|_]; [contradiction|].
  unfold guard. destruct (Rltb_spec (Rabs (1 - total s_in / total s_out)) (1 / 1000000)) as [_|E]; [|contradiction].
  f_equal. rewrite <- (entries_support N po pin C1 C2 sl), bern_map.
  set (mark := fun e : nat * num * (nat * num) => (fst (fst e), fst (snd e), W (fst (fst e), fst (snd e)))).
  set (prb := fun e : nat * num * (nat * num) => P (fst (fst e)) (fst (snd e))).
  transitivity (pbind (for_prog po (fun o => for_prog pin (fun q acc =>
    if allowed sl (fst o) (fst q) then Draw (prb (o, q)) (fun b => Ret (if b then acc ++ [mark (o, q)] else acc)) else Ret acc)) [])
    (fun links : list (nat * nat * R) => Ret (Ok links))).
  2:{ unfold bern. rewrite for_prog_filter, for_prog_prod. reflexivity. }
  enough (G : forall l acc, (forall o, In o l -> In o po) ->
    for_prog l (fun o acc => for_prog pin (fun q acc =>
          let '(i, p_out_i) := o in let '(j, p_in_j) := q in
          if adm sl i j then
            match acc with
            | Raise e => Ret (Raise e)
            | Ok links =>
                let p := p d p_out_i p_in_j (z i j) in
                Draw p (fun b => Ret (if b then do w <- cremb_link p (total s_out) s_out s_in i j ;
                                                Ok (links ++ [(i, j, w)])
                                      else Ok links))
            end
          else Ret acc) acc) (Ok acc)
    = pbind (for_prog l (fun o => for_prog pin (fun q acc =>
    if allowed sl (fst o) (fst q) then Draw (prb (o, q)) (fun b => Ret (if b then acc ++ [mark (o, q)] else acc)) else Ret acc)) acc)
    (fun links : list (nat * nat * R) => Ret (Ok links))) by (apply G; auto).
  assert (Inner : forall o m (acc : list (nat * nat * R)), In o po -> (forall q, In q m -> In q pin) ->
    for_prog m (fun q acc =>
          let '(i, p_out_i) := o in let '(j, p_in_j) := q in
          if adm sl i j then
            match acc with
            | Raise e => Ret (Raise e)
            | Ok links =>
                let p := p d p_out_i p_in_j (z i j) in
                Draw p (fun b => Ret (if b then do w <- cremb_link p (total s_out) s_out s_in i j ;
                                                Ok (links ++ [(i, j, w)])
                                      else Ok links))
            end
          else Ret acc) (Ok acc)
    = pbind (for_prog m (fun q acc =>
      if allowed sl (fst o) (fst q) then Draw (prb (o, q)) (fun b => Ret (if b then acc ++ [mark (o, q)] else acc)) else Ret acc) acc)
      (fun links : list (nat * nat * R) => Ret (Ok links))).
  { intros [i u] m; induction m as [|[j w] m IH]; intros acc Ho Hm; [reflexivity|]. cbn [for_prog fst snd].
    change (adm sl i j) with (allowed sl i j). destruct (allowed sl i j).
    - cbn [pbind]. unfold prb at 1; cbn [fst snd].
      assert (Hj : In (j, w) pin) by (apply Hm; left; reflexivity).
      pose proof (lookup_in po _ (canonical_nodup _ _ C1) Ho) as Ei.
      pose proof (lookup_in pin _ (canonical_nodup _ _ C2) Hj) as Ej. cbn [fst snd] in Ei, Ej.
      assert (EP : p d u w (z i j) = P i j) by (unfold P; rewrite Ei, Ej; reflexivity). rewrite EP.
      f_equal. apply functional_extensionality. intros [|].
      + assert (EL : cremb_link (P i j) (total s_out) s_out s_in i j = Ok (W (i, j))).
        { unfold cremb_link. rewrite (strength_entry s_out i D1), (strength_entry s_in j D2); [reflexivity| |].
          - apply I2. apply (in_map fst _ _ Hj).
          - apply I1. apply (in_map fst _ _ Ho). }
        cbn [pbind]. rewrite EL. cbn [bind]. apply IH; [exact Ho | intros; apply Hm; right; assumption].
      + apply IH; [exact Ho | intros; apply Hm; right; assumption].
    - cbn [pbind]. apply IH; [exact Ho | intros; apply Hm; right; assumption]. }
  induction l as [|o l IH]; intros acc Hl; [reflexivity|]. cbn [for_prog].
  etransitivity; [exact (f_equal (fun m => pbind m _) (Inner o pin acc (Hl o (or_introl eq_refl)) (fun q H => H)))|].
  rewrite !pbind_assoc. apply pbind_ext. intros acc'. cbn [pbind]. apply IH. intros; apply Hl; right; assumption.
Qed.

Lemma cremb_layer_weight : forall sl, (forall y w, p d (Fin 0) y w = 0) -> (forall x w, p d x (Fin 0) w = 0) ->
  exists m, cremb_sample_layer p z d po pin s_out s_in sl = Ok m /\
  (forall r, outcome m r -> exists G, r = Ok G) /\
  forall i j, (i < N)%nat -> (j < N)%nat -> allowed sl i j = true -> (entry s_out i * entry s_in j <> 0 -> P i j <> 0) ->
  expect m (fun r => match r with Ok G => w_pair i j G | Raise _ => 0 end)
  = entry s_out i * entry s_in j / total s_out.
Proof.
  intros sl Z1 Z2. rewrite cremb_layer_bern. eexists. split; [reflexivity|]. split.
  - intros r Hr. apply (proj1 (outcome_bind _ _ _ _ _)) in Hr. destruct Hr as (G & _ & ->). exists G; reflexivity.
  - intros i j Hi Hj Ha HP. rewrite expect_bind. cbn [expect].
    rewrite bern_drop with (p := fun e => P (fst e) (snd e)).
    + etransitivity; [apply (bern_w_pair (fun e => P (fst e) (snd e)) W (pairs N sl) [] i j (NoDup_pairs N sl))|].
      replace (mem (i, j) (pairs N sl)) with true by (symmetry; apply mem_spec, in_pairs; auto).
      unfold W; simpl. unfold w_pair; simpl. destruct (Req_dec (entry s_out i * entry s_in j) 0) as [E|E].
      * rewrite E. unfold Rdiv. ring.
      * field. split; [exact T0 | exact (HP E)].
    + intros [a b] _ H. cbn [fst snd] in *. unfold P. apply andb_false_iff in H.
      destruct H as [H|H]; apply stored_false in H; rewrite H; auto.
Qed.
End Cremb.
