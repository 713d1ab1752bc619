(** Aggregation of the scale-invariant models. *)
From Verif Require Import Base Num Spec Kernels KernelFacts MultiKernels MultiFacts Prob Ensemble EnsembleFacts
  EnsembleProps EnsembleState Models ModelFacts.

(** Probability of no link. *)
Definition surv (d x y z : num) : R := 1 - link_prob poissonian [d; x; y; z].

Lemma surv_zero : forall d x y z, some_zero [d; x; y; z] -> surv d x y z = 1.
Proof. intros d x y z H. unfold surv, link_prob. rewrite (proj2 (is_zero_spec _) H). ring. Qed.

Lemma surv_inf : forall d x y z, ~ some_zero [d; x; y; z] -> some_inf [d; x; y; z] -> surv d x y z = 0.
Proof.
  intros d x y z H1 H2. unfold surv, link_prob.
  destruct (existsb is_zero _) eqn:E; [apply is_zero_spec in E; contradiction|].
  rewrite (proj2 (is_infinite_spec _) H2). ring.
Qed.

Lemma surv_fin : forall d x y z, surv (Fin d) (Fin x) (Fin y) (Fin z) = exp (- (d * x * y * z)).
Proof.
  intros d x y z. unfold surv, link_prob.
  destruct (existsb is_zero _) eqn:E.
  - apply is_zero_spec in E. unfold some_zero in E; simpl in E.
    replace (d * x * y * z) with 0; [rewrite Ropp_0, exp_0; ring|].
    destruct E as [E|[E|[E|[E|[]]]]]; injection E as ->; ring.
  - simpl. unfold poissonian. replace (d * (x * (y * (z * 1)))) with (d * x * y * z) by ring. ring.
Qed.

Lemma num_cases : forall a, nonneg a -> a = Fin 0 \/ a = PInf \/ exists r, a = Fin r /\ 0 < r.
Proof.
  intros [r| | |] H; simpl in H; try contradiction; auto.
  destruct (Req_dec r 0) as [->|]; [auto|]. right; right. exists r. split; [reflexivity|lra].
Qed.

Lemma nadd_0_r : forall a, nonneg a -> nadd a (Fin 0) = a.
Proof. intros [r| | |] H; simpl in *; try contradiction; [f_equal; ring|reflexivity]. Qed.
Lemma nadd_0_l : forall a, nonneg a -> nadd (Fin 0) a = a.
Proof. intros [r| | |] H; simpl in *; try contradiction; [f_equal; ring|reflexivity]. Qed.
Lemma nadd_nonneg : forall a b, nonneg a -> nonneg b -> nonneg (nadd a b).
Proof. intros [r| | |] [s| | |] H K; simpl in *; try contradiction; auto; lra. Qed.

Lemma surv_add_x : forall d x x' y z, nonneg d -> nonneg x -> nonneg x' -> nonneg y -> nonneg z ->
  surv d (nadd x x') y z = surv d x y z * surv d x' y z.
Proof.
  intros d x x' y z Hd Hx Hx' Hy Hz.
  assert (Z0 : d = Fin 0 \/ y = Fin 0 \/ z = Fin 0 \/ ((d = PInf \/ exists r, d = Fin r /\ 0 < r) /\
     (y = PInf \/ exists r, y = Fin r /\ 0 < r) /\ (z = PInf \/ exists r, z = Fin r /\ 0 < r))).
  { destruct (num_cases d Hd) as [?|?]; [auto|]. destruct (num_cases y Hy) as [?|?]; [auto|].
    destruct (num_cases z Hz) as [?|?]; [auto|]. auto 10. }
  destruct Z0 as [->|[->|[->|(Cd & Cy & Cz)]]].
  - rewrite !surv_zero by (unfold some_zero; simpl; auto). ring.
  - rewrite !surv_zero by (unfold some_zero; simpl; auto). ring.
  - rewrite !surv_zero by (unfold some_zero; simpl; auto). ring.
  - destruct (num_cases x Hx) as [->|Cx].
    { rewrite nadd_0_l by assumption. rewrite (surv_zero d (Fin 0)) by (unfold some_zero; simpl; auto). ring. }
    destruct (num_cases x' Hx') as [->|Cx'].
    { rewrite nadd_0_r by assumption. rewrite (surv_zero d (Fin 0)) by (unfold some_zero; simpl; auto). ring. }
    assert (NZ : forall a, (a = PInf \/ exists r, a = Fin r /\ 0 < r) -> a <> Fin 0).
    { intros a [->|(r & -> & Hr)] E; [discriminate|]. injection E as ->; lra. }
    assert (NS : forall w, w <> Fin 0 -> ~ some_zero [d; w; y; z]).
    { intros w Hw K. unfold some_zero in K; simpl in K. destruct K as [K|[K|[K|[K|[]]]]]; subst.
      - exact (NZ _ Cd eq_refl). - exact (Hw eq_refl). - exact (NZ _ Cy eq_refl). - exact (NZ _ Cz eq_refl). }
    assert (Nx : nadd x x' <> Fin 0).
    { destruct Cx as [->|(r & -> & Hr)], Cx' as [->|(s & -> & Hs)]; simpl; try discriminate.
      intros E; injection E as E; lra. }
    destruct Cd as [->|(d' & -> & Hd')].
    { rewrite !surv_inf; [ring| | | | | |]; try (apply NS; auto); unfold some_inf; simpl; auto. }
    destruct Cy as [->|(y' & -> & Hy')].
    { rewrite !surv_inf; [ring| | | | | |]; try (apply NS; auto); unfold some_inf; simpl; auto. }
    destruct Cz as [->|(z' & -> & Hz')].
    { rewrite !surv_inf; [ring| | | | | |]; try (apply NS; auto); unfold some_inf; simpl; auto. }
    destruct Cx as [->|(r & -> & Hr)].
    { rewrite (surv_inf _ PInf); [|apply NS; discriminate|unfold some_inf; simpl; auto].
      rewrite surv_inf; [ring|apply NS; exact Nx|].
      unfold some_inf. destruct Cx' as [->|(s & -> & Hs)]; simpl; auto. }
    destruct Cx' as [->|(s & -> & Hs)].
    { change (nadd (Fin r) PInf) with PInf.
      rewrite (surv_inf _ PInf); [ring|apply NS; discriminate|unfold some_inf; simpl; auto]. }
    simpl nadd. rewrite !surv_fin, <- exp_plus. f_equal; ring.
Qed.

Lemma link_prob_swap : forall g d x y z, link_prob g [d; x; y; z] = link_prob g [d; y; x; z].
Proof.
  intros g d x y z. unfold link_prob. simpl.
  replace (is_zero d || (is_zero y || (is_zero x || (is_zero z || false))))
    with (is_zero d || (is_zero x || (is_zero y || (is_zero z || false)))) by (destruct (is_zero d), (is_zero x), (is_zero y); reflexivity).
  replace (is_infinite d || (is_infinite y || (is_infinite x || (is_infinite z || false))))
    with (is_infinite d || (is_infinite x || (is_infinite y || (is_infinite z || false))))
    by (destruct (is_infinite d), (is_infinite x), (is_infinite y); reflexivity).
  replace (toR d * (toR y * (toR x * (toR z * 1)))) with (toR d * (toR x * (toR y * (toR z * 1)))) by ring.
  reflexivity.
Qed.

Lemma surv_swap : forall d x y z, surv d x y z = surv d y x z.
Proof. intros. unfold surv. rewrite link_prob_swap. reflexivity. Qed.

Lemma nsumn_nonneg : forall n f, (forall i, (i < n)%nat -> nonneg (f i)) -> nonneg (nsumn n f).
Proof. induction n as [|n IH]; intros f H; simpl; [lra|]. apply nadd_nonneg; auto. Qed.

Lemma surv_sum_x : forall d y z n f, nonneg d -> nonneg y -> nonneg z -> (forall i, (i < n)%nat -> nonneg (f i)) ->
  surv d (nsumn n f) y z = prodn n (fun i => surv d (f i) y z).
Proof.
  intros d y z n f Hd Hy Hz; induction n as [|n IH]; intros H; simpl.
  - apply surv_zero. unfold some_zero; simpl; auto.
  - rewrite surv_add_x, IH; auto using nsumn_nonneg.
Qed.

Lemma surv_sum : forall d z n f m h, nonneg d -> nonneg z ->
  (forall i, (i < n)%nat -> nonneg (f i)) -> (forall j, (j < m)%nat -> nonneg (h j)) ->
  surv d (nsumn n f) (nsumn m h) z = prodn n (fun i => prodn m (fun j => surv d (f i) (h j) z)).
Proof.
  intros d z n f m h Hd Hz Hf Hh. rewrite surv_sum_x by auto using nsumn_nonneg.
  apply prodn_ext; intros i Hi. rewrite surv_swap, surv_sum_x by auto using nsumn_nonneg.
  apply prodn_ext; intros j Hj. apply surv_swap.
Qed.

Lemma block_nonneg : forall N g x a, (forall i, (i < N)%nat -> nonneg (x i)) ->
  forall i, (i < N)%nat -> nonneg (if Nat.eqb (g i) a then x i else Fin 0).
Proof. intros N g x a H i Hi. destruct (Nat.eqb (g i) a); [auto|simpl; lra]. Qed.

Lemma surv_blocks : forall d z N g x y a b, nonneg d -> nonneg z ->
  (forall i, (i < N)%nat -> nonneg (x i)) -> (forall i, (i < N)%nat -> nonneg (y i)) ->
  surv d (block_sum N g x a) (block_sum N g y b) z
  = prodn N (fun i => prodn N (fun j => if Nat.eqb (g i) a && Nat.eqb (g j) b then surv d (x i) (y j) z else 1)).
Proof.
  intros d z N g x y a b Hd Hz Hx Hy. unfold block_sum. rewrite surv_sum by (auto; apply block_nonneg; assumption).
  apply prodn_ext; intros i Hi. apply prodn_ext; intros j Hj.
  destruct (Nat.eqb (g i) a), (Nat.eqb (g j) b); simpl; try reflexivity; apply surv_zero; unfold some_zero; simpl; auto.
Qed.

Lemma prodl_list_prod : forall A B (f : A * B -> R) (l : list A) (m : list B),
  prodl f (list_prod l m) = prodl (fun x => prodl (fun y => f (x, y)) m) l.
Proof.
  intros A B f l m. induction l as [|x l IH]; [reflexivity|]. simpl. rewrite prodl_app, IH. f_equal.
  clear. induction m as [|y m IH]; simpl; [reflexivity|]. rewrite IH. reflexivity.
Qed.

(** Probability that two blocks are linked when links are independent. *)
Lemma mean_blocks : forall N sl p g a b, a <> b \/ sl = true ->
  ensemble_mean N sl (graph_weight N sl p) (fun G => b2r (blocks_linked g a b G))
  = 1 - prodn N (fun i => prodn N (fun j => if Nat.eqb (g i) a && Nat.eqb (g j) b then 1 - p i j else 1)).
Proof.
  intros N sl p g a b Hab. set (B := fun e : nat * nat => Nat.eqb (g (fst e)) a && Nat.eqb (g (snd e)) b).
  assert (E : ensemble_mean N sl (graph_weight N sl p) (fun G => 1 - b2r (blocks_linked g a b G))
    = prodn N (fun i => prodn N (fun j => if Nat.eqb (g i) a && Nat.eqb (g j) b then 1 - p i j else 1))).
  { rewrite mean_lweight.
    pose proof (bern_product (fun e => p (fst e) (snd e)) (pairs N sl)
      (fun e m => if B e then 1 - b2r m else 1) (NoDup_pairs N sl)) as H.
    transitivity (prodl (fun e => if B e then 1 - p (fst e) (snd e) else 1) (pairs N sl)).
    - rewrite (prodl_ext _ _ (fun e => p (fst e) (snd e) * (if B e then 1 - b2r true else 1) +
         (1 - p (fst e) (snd e)) * (if B e then 1 - b2r false else 1))) by (intros e _; destruct (B e); simpl; ring).
      rewrite <- H. apply suml_ext; intros G HG. f_equal.
      destruct (blocks_linked g a b G) eqn:Eb; unfold blocks_linked in Eb.
      + apply existsb_exists in Eb. destruct Eb as (e & He & HB). simpl.
        rewrite (prodl_zero _ _ _ e); [ring| |].
        * eapply sublists_incl; eassumption.
        * change (B e = true) in HB. rewrite HB. rewrite (proj2 (mem_spec e G) He). simpl; ring.
      + simpl. rewrite prodl_1; [ring|]. intros e He. destruct (B e) eqn:HB; [|reflexivity].
        replace (mem e G) with false; [simpl; ring|]. symmetry. apply mem_false. intros K.
        assert (X : existsb (fun e => Nat.eqb (g (fst e)) a && Nat.eqb (g (snd e)) b) G = true)
          by (apply existsb_exists; exists e; auto).
        congruence.
    - unfold pairs. rewrite prodl_filter, prodl_list_prod. rewrite prodl_seq. apply prodn_ext; intros i Hi.
      rewrite prodl_seq. apply prodn_ext; intros j Hj. unfold B; cbn [fst snd].
      destruct (allowed sl i j) eqn:Ea; [reflexivity|].
      destruct (Nat.eqb_spec (g i) a) as [E1|]; [|reflexivity]. destruct (Nat.eqb_spec (g j) b) as [E2|]; [|reflexivity].
      exfalso. unfold allowed in Ea. apply orb_false_iff in Ea. destruct Ea as [Ea ->].
      apply negb_false_iff, Nat.eqb_eq in Ea. subst j. destruct Hab as [Hab|Hab]; [congruence|discriminate]. }
  rewrite <- E.
  rewrite (mean_ext N sl p (fun G => 1 - b2r (blocks_linked g a b G)) (fun G => 1 + (-1) * b2r (blocks_linked g a b G)))
    by (intros; ring).
  rewrite (mean_plus N sl p), (mean_const N sl p), (mean_scal N sl p). ring.
Qed.

(** C50, single label. *)
Lemma aggregate_single : forall N sl d x y z g a b, nonneg d -> nonneg z ->
  (forall i, (i < N)%nat -> nonneg (x i) /\ nonneg (y i)) -> a <> b \/ sl = true ->
  ensemble_mean N sl (fun G => toR (nexp (m_likelihood (ScaleInvariantModel N d x y (fun _ _ => z)) G sl)))
    (fun G => b2r (blocks_linked g a b G))
  = toR (inv_p_ij d (block_sum N g x a) (block_sum N g y b) z).
Proof.
  intros N sl d x y z g a b Hd Hz H Hab.
  assert (LM := lib_invariant N d x y (fun _ _ => z) Hd H (fun _ _ _ _ => Hz)).
  etransitivity; [exact (lib_mean _ _ LM sl (fun G => b2r (blocks_linked g a b G)))|].
  change (m_N (ScaleInvariantModel N d x y (fun _ _ => z))) with N.
  rewrite mean_blocks by exact Hab.
  rewrite (view_link_prob inv_p_ij poissonian inv_view); auto.
  - cbn [toR].
    assert (S : surv d (block_sum N g x a) (block_sum N g y b) z = prodn N (fun i => prodn N (fun j =>
       if Nat.eqb (g i) a && Nat.eqb (g j) b then surv d (x i) (y j) z else 1)))
      by (apply surv_blocks; auto; intros; apply H; assumption).
    unfold surv in S. lra.
  - apply nsumn_nonneg. apply block_nonneg. intros; apply H; assumption.
  - apply nsumn_nonneg. apply block_nonneg. intros; apply H; assumption.
Qed.

(** C50, multi label. *)
Lemma aggregate_multi : forall N L sl (d : nat -> num) xs ys g a b X Y,
  (forall k, (k < L)%nat -> nonneg (d k)) ->
  (forall i, (i < N)%nat -> canonical L (xs i) /\ all_nonneg (xs i) /\ canonical L (ys i) /\ all_nonneg (ys i)) ->
  canonical L X -> all_nonneg X -> canonical L Y -> all_nonneg Y ->
  (forall k, (k < L)%nat -> lookup k X = block_sum N g (fun i => lookup k (xs i)) a) ->
  (forall k, (k < L)%nat -> lookup k Y = block_sum N g (fun i => lookup k (ys i)) b) ->
  a <> b \/ sl = true ->
  ensemble_mean N sl (fun G => toR (nexp (m_likelihood (MultiInvariantModel N d xs ys) G sl)))
    (fun G => b2r (blocks_linked g a b G))
  = toR (minv_p_ij d X Y).
Proof.
  intros N L sl d xs ys g a b X Y Hd H CX PX CY PY EX EY Hab.
  assert (LM := lib_multi_invariant N L d xs ys Hd H).
  etransitivity; [exact (lib_mean _ _ LM sl (fun G => b2r (blocks_linked g a b G)))|].
  change (m_N (MultiInvariantModel N d xs ys)) with N.
  rewrite mean_blocks by exact Hab. rewrite (minv_union L) by assumption. cbn [toR]. f_equal.
  assert (H1 : nonneg (Fin 1)) by (simpl; lra).
  transitivity (prodn L (fun k => prodn N (fun i => prodn N (fun j =>
     if Nat.eqb (g i) a && Nat.eqb (g j) b then surv (d k) (lookup k (xs i)) (lookup k (ys j)) (Fin 1) else 1)))).
  - symmetry. rewrite prodn_swap. apply prodn_ext; intros i Hi. rewrite prodn_swap. apply prodn_ext; intros j Hj.
    destruct (Nat.eqb (g i) a && Nat.eqb (g j) b); [|apply prodn_1]. unfold any_layer, surv. ring.
  - apply prodn_ext; intros k Hk. rewrite EX, EY by exact Hk. symmetry.
    apply (surv_blocks (d k) (Fin 1) N g (fun i => lookup k (xs i)) (fun i => lookup k (ys i)) a b);
      auto; intros i Hi; apply lookup_nonneg; apply H; exact Hi.
Qed.
