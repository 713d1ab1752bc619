(** Facts about the multi-label kernels. *)
From Verif Require Import Base Num Kernels KernelFacts MultiKernels.
From Coq Require Import Sorting.Sorted Ranalysis.

Lemma lookup_nonneg : forall k xs, all_nonneg xs -> nonneg (lookup k xs).
Proof.
  intros k xs H; induction H as [|[l v] t Hv Ht IH]; simpl; [lra|].
  destruct (Nat.eqb l k); [exact Hv | exact IH].
Qed.

Lemma lookup_finite : forall k xs, all_finite xs -> exists v, lookup k xs = Fin v /\ 0 <= v.
Proof.
  intros k xs H; induction H as [|[l v] t Hv Ht IH]; simpl; [exists 0; split; [reflexivity|lra]|].
  destruct (Nat.eqb l k); [exact Hv | exact IH].
Qed.

Lemma all_finite_nonneg : forall xs, all_finite xs -> all_nonneg xs.
Proof.
  intros xs H; induction H as [|p t [v [E Hv]] Ht IH]; constructor; [rewrite E; exact Hv | exact IH].
Qed.

Lemma lookup_missing : forall k xs, Forall (fun p => (k < fst p)%nat) xs -> lookup k xs = Fin 0.
Proof.
  intros k xs H; induction H as [|[l v] t Hl Ht IH]; simpl; [reflexivity|].
  simpl in Hl. replace (Nat.eqb l k) with false by (symmetry; apply Nat.eqb_neq; lia). exact IH.
Qed.

(** ** The walk equals a loop over all labels *)

Fixpoint flow_list {S T} (l : list nat) (body : nat -> S -> flow S T) (s : S) : flow S T :=
  match l with
  | [] => Next s
  | k :: t => match body k s with Next s' => flow_list t body s' | Return r => Return r end
  end.

Lemma flow_list_app : forall S T l1 l2 (body : nat -> S -> flow S T) s,
  flow_list (l1 ++ l2) body s =
  match flow_list l1 body s with Next s' => flow_list l2 body s' | Return r => Return r end.
Proof.
  induction l1 as [|k l1 IH]; intros l2 body s; simpl; [reflexivity|].
  destruct (body k s); [apply IH | reflexivity].
Qed.

Lemma for_flow_list : forall S T n (body : nat -> S -> flow S T) s,
  for_flow n body s = flow_list (seq 0 n) body s.
Proof.
  induction n as [|n IH]; intros body s; [reflexivity|].
  rewrite seq_S, flow_list_app, <- IH; simpl.
  destruct (for_flow n body s); [|reflexivity]. destruct (body n s0); reflexivity.
Qed.

Lemma for_flow_ext : forall S T n (b1 b2 : nat -> S -> flow S T) s,
  (forall k s, (k < n)%nat -> b1 k s = b2 k s) -> for_flow n b1 s = for_flow n b2 s.
Proof.
  induction n as [|n IH]; intros b1 b2 s H; [reflexivity|]. simpl.
  rewrite (IH b1 b2) by (intros; apply H; lia).
  destruct (for_flow n b2 s); [apply H; lia | reflexivity].
Qed.

Definition zero_neutral {S T} (step : nat -> num -> num -> S -> flow S T) : Prop :=
  forall k x y s, is0 x = true \/ is0 y = true -> step k x y s = Next s.

Lemma is0_0 : is0 (Fin 0) = true.
Proof. unfold is0; simpl; apply Reqb_true; reflexivity. Qed.

Lemma walk_nil_r : forall S T (step : nat -> num -> num -> S -> flow S T) xs s,
  walk step xs [] s = Next s.
Proof. intros S T step [|[l v] xs] s; reflexivity. Qed.

Lemma walk_nil_l : forall S T (step : nat -> num -> num -> S -> flow S T) ys s,
  walk step [] ys s = Next s.
Proof. intros S T step [|[l v] ys] s; reflexivity. Qed.

Lemma walk_cons : forall S T (step : nat -> num -> num -> S -> flow S T) lx vx xs ly vy ys s,
  walk step ((lx, vx) :: xs) ((ly, vy) :: ys) s =
  if Nat.eqb lx ly then
    match step lx vx vy s with Next s' => walk step xs ys s' | Return t => Return t end
  else if Nat.ltb lx ly then walk step xs ((ly, vy) :: ys) s
  else walk step ((lx, vx) :: xs) ys s.
Proof. reflexivity. Qed.

Definition within (a m : nat) (xs : svec) : Prop :=
  StronglySorted lt (map fst xs) /\ Forall (fun p => (a <= fst p < a + m)%nat) xs.

Lemma within_tail : forall a m v xs, within a (S m) ((a, v) :: xs) -> within (S a) m xs.
Proof.
  intros a m v xs [Hs Hf]; simpl in Hs; inversion Hs as [|x y Hss Hlt]; subst.
  inversion Hf as [|x y Hh Ht]; subst. split; [exact Hss|].
  rewrite Forall_forall in *. intros p Hp. specialize (Ht p Hp).
  assert (In (fst p) (map fst xs)) as Hi by (apply in_map; exact Hp).
  specialize (Hlt _ Hi). lia.
Qed.

Lemma within_skip : forall a m xs, within a (S m) xs ->
  (forall v t, xs <> (a, v) :: t) -> within (S a) m xs.
Proof.
  intros a m xs [Hs Hf] Hn; split; [exact Hs|].
  destruct xs as [|[l v] t]; [constructor|].
  inversion Hf as [|x y Hh Ht]; subst. simpl in Hh.
  assert (l <> a) by (intros ->; apply (Hn v t); reflexivity).
  constructor; [simpl; lia|].
  simpl in Hs; inversion Hs as [|x y Hss Hlt]; subst.
  rewrite Forall_forall in *. intros p Hp. specialize (Ht p Hp).
  assert (In (fst p) (map fst t)) as Hi by (apply in_map; exact Hp).
  specialize (Hlt _ Hi). lia.
Qed.

Lemma within_lookup : forall a m k xs, within a m xs -> (k < a)%nat -> lookup k xs = Fin 0.
Proof.
  intros a m k xs [_ Hf] Hk; apply lookup_missing.
  rewrite Forall_forall in *; intros p Hp; specialize (Hf p Hp); lia.
Qed.

Lemma head_dec : forall a (xs : svec), (exists v t, xs = (a, v) :: t) \/ (forall v t, xs <> (a, v) :: t).
Proof.
  intros a [|[l v] t]; [right; discriminate|].
  destruct (Nat.eq_dec l a) as [->|H]; [left; exists v, t; reflexivity|].
  right; intros v' t' E; inversion E; contradiction.
Qed.

Lemma flow_list_ext : forall S T l (b1 b2 : nat -> S -> flow S T) s,
  (forall k s, In k l -> b1 k s = b2 k s) -> flow_list l b1 s = flow_list l b2 s.
Proof.
  induction l as [|k l IH]; intros b1 b2 s H; [reflexivity|]; simpl.
  rewrite H by (left; reflexivity). destruct (b2 k s); [|reflexivity].
  apply IH; intros; apply H; right; assumption.
Qed.

Lemma walk_spec : forall S T (step : nat -> num -> num -> S -> flow S T),
  zero_neutral step -> forall m a xs ys s, within a m xs -> within a m ys ->
  walk step xs ys s = flow_list (seq a m) (fun k => step k (lookup k xs) (lookup k ys)) s.
Proof.
  intros S T step Z m; induction m as [|m IH]; intros a xs ys s Hx Hy.
  - destruct xs as [|[l v] t].
    + rewrite walk_nil_l; reflexivity.
    + destruct Hx as [_ Hf]; inversion Hf; subst; simpl in *; lia.
  - simpl seq; simpl flow_list.
    destruct (head_dec a xs) as [[vx [xs' ->]]|Hnx]; destruct (head_dec a ys) as [[vy [ys' ->]]|Hny].
    + rewrite walk_cons, Nat.eqb_refl. simpl lookup at 1 2. rewrite Nat.eqb_refl.
      destruct (step a vx vy s) as [s'|r]; [|reflexivity].
      rewrite (IH (Datatypes.S a)) by (eapply within_tail; eassumption).
      apply flow_list_ext; intros k s0 Hk. apply in_seq in Hk. simpl.
      replace (Nat.eqb a k) with false by (symmetry; apply Nat.eqb_neq; lia). reflexivity.
    + pose proof (within_skip _ _ _ Hy Hny) as Hy'.
      rewrite Z by (right; rewrite (within_lookup _ _ a _ Hy') by lia; apply is0_0).
      transitivity (walk step xs' ys s).
      * destruct ys as [|[ly vy] ys]; [rewrite !walk_nil_r; reflexivity|].
        destruct Hy' as [_ Hf]; inversion Hf as [|? ? Hh ?]; subst; simpl in Hh.
        rewrite walk_cons.
        replace (Nat.eqb a ly) with false by (symmetry; apply Nat.eqb_neq; lia).
        replace (Nat.ltb a ly) with true by (symmetry; apply Nat.ltb_lt; lia). reflexivity.
      * rewrite (IH (Datatypes.S a)); [|eapply within_tail; eassumption | exact Hy'].
        apply flow_list_ext; intros k s0 Hk. apply in_seq in Hk. simpl.
        replace (Nat.eqb a k) with false by (symmetry; apply Nat.eqb_neq; lia). reflexivity.
    + pose proof (within_skip _ _ _ Hx Hnx) as Hx'.
      rewrite Z by (left; rewrite (within_lookup _ _ a _ Hx') by lia; apply is0_0).
      transitivity (walk step xs ys' s).
      * destruct xs as [|[lx vx] xs]; [rewrite !walk_nil_l; reflexivity|].
        destruct Hx' as [_ Hf]; inversion Hf as [|? ? Hh ?]; subst; simpl in Hh.
        rewrite walk_cons.
        replace (Nat.eqb lx a) with false by (symmetry; apply Nat.eqb_neq; lia).
        replace (Nat.ltb lx a) with false by (symmetry; apply Nat.ltb_ge; lia). reflexivity.
      * rewrite (IH (Datatypes.S a)); [|exact Hx' | eapply within_tail; eassumption].
        apply flow_list_ext; intros k s0 Hk. apply in_seq in Hk. simpl.
        replace (Nat.eqb a k) with false by (symmetry; apply Nat.eqb_neq; lia). reflexivity.
    + pose proof (within_skip _ _ _ Hx Hnx) as Hx'. pose proof (within_skip _ _ _ Hy Hny) as Hy'.
      rewrite Z by (left; rewrite (within_lookup _ _ a _ Hx') by lia; apply is0_0).
      apply IH; assumption.
Qed.

Lemma walk_dense : forall S T (step : nat -> num -> num -> S -> flow S T) L xs ys s,
  zero_neutral step -> canonical L xs -> canonical L ys ->
  walk step xs ys s = for_flow L (fun k => step k (lookup k xs) (lookup k ys)) s.
Proof.
  intros S T step L xs ys s Z [Sx Fx] [Sy Fy]. rewrite for_flow_list.
  apply walk_spec; [exact Z| |]; split; try assumption;
    eapply Forall_impl; try eassumption; simpl; intros; lia.
Qed.

Lemma mfit_step_neutral : forall r d, zero_neutral (mfit_step r d).
Proof.
  intros r d k x y s [H|H]; unfold mfit_step; rewrite H; simpl;
    rewrite ?andb_false_r; reflexivity.
Qed.
Lemma minv_step_neutral : forall r d, zero_neutral (minv_step r d).
Proof.
  intros r d k x y s [H|H]; unfold minv_step; rewrite H; simpl;
    rewrite ?andb_false_r; reflexivity.
Qed.
Lemma mfit_jac_step_neutral : forall d, zero_neutral (mfit_jac_step d).
Proof.
  intros d k x y [v j] [H|H]; unfold mfit_jac_step; rewrite H; simpl;
    rewrite ?andb_false_r; reflexivity.
Qed.
Lemma minv_jac_step_neutral : zero_neutral minv_jac_step.
Proof.
  intros k x y s [H|H]; unfold minv_jac_step; rewrite H; simpl;
    rewrite ?andb_false_r; reflexivity.
Qed.

(** ** Sparse = dense *)

Lemma mfit_p_ij_sparse_dense : forall L d xs ys, canonical L xs -> canonical L ys ->
  mfit_p_ij d xs ys = mfit_p_ij_dense L d (fun k => lookup k xs) (fun k => lookup k ys).
Proof.
  intros; unfold mfit_p_ij, mfit_p_ij_dense.
  rewrite (walk_dense _ _ _ L); auto using mfit_step_neutral.
Qed.

Lemma mfit_logp_sparse_dense : forall L d xs ys, canonical L xs -> canonical L ys ->
  mfit_logp d xs ys = mfit_logp_dense L d (fun k => lookup k xs) (fun k => lookup k ys).
Proof.
  intros; unfold mfit_logp, mfit_logp_dense.
  rewrite (walk_dense _ _ _ L); auto using mfit_step_neutral.
Qed.

Lemma mfit_p_jac_sparse_dense : forall L d xs ys, canonical L xs -> canonical L ys ->
  mfit_p_jac d xs ys = mfit_p_jac_dense L d (fun k => lookup k xs) (fun k => lookup k ys).
Proof.
  intros; unfold mfit_p_jac, mfit_p_jac_dense.
  rewrite (walk_dense _ _ _ L); auto using mfit_jac_step_neutral.
Qed.

Lemma nlog_1 : nlog (Fin 1) = Fin 0.
Proof. unfold nlog; rewrite Rltb_true by lra; rewrite ln_1; reflexivity. Qed.

Lemma neqb_true : forall a b, neqb a b = true -> a = b.
Proof.
  intros [x| | |] [y| | |]; simpl; intros H; try discriminate; try reflexivity.
  destruct (Reqb_spec x y); [subst; reflexivity | discriminate].
Qed.

Lemma mfit_log1mp_sparse_dense : forall L d xs ys, canonical L xs -> canonical L ys ->
  mfit_log1mp d xs ys = mfit_log1mp_dense L d (fun k => lookup k xs) (fun k => lookup k ys).
Proof.
  intros; unfold mfit_log1mp, mfit_log1mp_dense.
  rewrite (walk_dense _ _ _ L); auto using mfit_step_neutral.
  destruct (for_flow _ _ _) as [v|r]; [|reflexivity].
  destruct (neqb v (Fin 1)) eqn:E; [|reflexivity].
  apply neqb_true in E; subst. symmetry; exact nlog_1.
Qed.

Lemma minv_p_ij_sparse_dense : forall L d xs ys, canonical L xs -> canonical L ys ->
  minv_p_ij d xs ys = minv_p_ij_dense L d (fun k => lookup k xs) (fun k => lookup k ys).
Proof.
  intros; unfold minv_p_ij, minv_p_ij_dense.
  rewrite (walk_dense _ _ _ L); auto using minv_step_neutral.
  destruct (for_flow _ _ _) as [v|r]; [|reflexivity].
  destruct (is0 v) eqn:E; [|reflexivity].
  apply is0_true_iff in E; subst. rewrite nopp_expm1, poissonian_0; reflexivity.
Qed.

Lemma minv_logp_sparse_dense : forall L d xs ys, canonical L xs -> canonical L ys ->
  minv_logp d xs ys = minv_logp_dense L d (fun k => lookup k xs) (fun k => lookup k ys).
Proof.
  intros; unfold minv_logp, minv_logp_dense.
  rewrite (walk_dense _ _ _ L); auto using minv_step_neutral.
Qed.

Lemma minv_log1mp_sparse_dense : forall L d xs ys, canonical L xs -> canonical L ys ->
  minv_log1mp d xs ys = minv_log1mp_dense L d (fun k => lookup k xs) (fun k => lookup k ys).
Proof.
  intros; unfold minv_log1mp, minv_log1mp_dense.
  rewrite (walk_dense _ _ _ L); auto using minv_step_neutral.
Qed.

Lemma minv_p_jac_sparse_dense : forall L d xs ys, canonical L xs -> canonical L ys ->
  minv_p_jac d xs ys = minv_p_jac_dense L d (fun k => lookup k xs) (fun k => lookup k ys).
Proof.
  intros; unfold minv_p_jac, minv_p_jac_dense.
  rewrite (walk_dense _ _ _ L); auto using minv_jac_step_neutral.
Qed.

(** ** One layer *)

Lemma layer_cases : forall d x y, nonneg d -> nonneg x -> nonneg y ->
  (negb (is0 d) && negb (is0 x) && negb (is0 y) = true /\ nmul (nmul d x) y = PInf /\
     (forall z, mfit_p_ijk d x y z = Fin 1) /\ (forall z, minv_p_ijk d x y z = Fin 1))
  \/ (exists t, 0 <= t /\
     (forall z, mfit_p_ijk d x y z = Fin (logistic t)) /\
     (forall z, minv_p_ijk d x y z = Fin (poissonian t)) /\
     (negb (is0 d) && negb (is0 x) && negb (is0 y) = true /\ nmul (nmul d x) y = Fin t \/
      negb (is0 d) && negb (is0 x) && negb (is0 y) = false /\ t = 0)).
Proof.
  intros d x y Hd Hx Hy. unfold mfit_p_ijk, minv_p_ijk.
  destruct (is0 x) eqn:Ex.
  { right; exists 0; rewrite logistic_0, poissonian_0, andb_false_r; simpl; repeat split; auto; lra. }
  destruct (is0 y) eqn:Ey.
  { right; exists 0; rewrite logistic_0, poissonian_0, andb_false_r; simpl; repeat split; auto; lra. }
  destruct (is0 d) eqn:Ed.
  { right; exists 0; rewrite logistic_0, poissonian_0; simpl; repeat split; auto; lra. }
  pose proof (nonneg_not0 _ Hd Ed); pose proof (nonneg_not0 _ Hx Ex); pose proof (nonneg_not0 _ Hy Ey).
  simpl orb; cbv iota; simpl andb.
  rewrite !nmul_pos by (try apply nmul_posnum; assumption).
  destruct d as [d| | |], x as [x| | |], y as [y| | |]; simpl in Hd, Hx, Hy; try contradiction;
    try (left; repeat split; reflexivity).
  simpl in *. right; exists (d * x * y).
  assert (0 < d * x * y) by (repeat apply Rmult_lt_0_compat; assumption).
  split; [lra|]. split; [intros _; rewrite Reqb_false by lra; reflexivity|].
  split; [intros _; apply nopp_expm1 | left; split; reflexivity].
Qed.

(** ** The dense loop computes the product over layers *)

Section DenseProduct.
Variables (L : nat) (d x y : nat -> num).
Hypothesis Hd : forall k, (k < L)%nat -> nonneg (d k).
Hypothesis Hx : forall k, (k < L)%nat -> nonneg (x k).
Hypothesis Hy : forall k, (k < L)%nat -> nonneg (y k).

Definition q_fit (k : nat) : R := 1 - toR (mfit_p_ijk (d k) (x k) (y k) NaN).
Definition q_inv (k : nat) : R := 1 - toR (minv_p_ijk (d k) (x k) (y k) NaN).

Lemma mfit_loop : forall r m, (m <= L)%nat ->
  (for_flow m (fun k => mfit_step r d k (x k) (y k)) (Fin 1) = Return r /\ prodn m q_fit = 0)
  \/ (for_flow m (fun k => mfit_step r d k (x k) (y k)) (Fin 1) = Next (Fin (prodn m q_fit)) /\
      0 < prodn m q_fit <= 1).
Proof.
  intros r m; induction m as [|m IH]; intros Hm.
  - right; simpl; split; [reflexivity | lra].
  - simpl. destruct IH as [[-> E]|[-> E]]; [lia| |].
    + left; rewrite E; split; [reflexivity | ring].
    + destruct (layer_cases (d m) (x m) (y m)) as [(C&T&F&_)|(t&Ht&F&_&[[C T]|[C T]])];
        try (first [apply Hd | apply Hx | apply Hy]; lia).
      * left. unfold mfit_step; rewrite C, T. simpl. split; [reflexivity|].
        assert (Q : q_fit m = 0) by (unfold q_fit; rewrite F; simpl; ring).
        rewrite Q; ring.
      * right. unfold mfit_step; rewrite C, T. simpl. rewrite Reqb_false by lra.
        assert (Q : q_fit m = / (1 + t)).
        { unfold q_fit; rewrite F; simpl. rewrite logistic_alt by lra. ring. }
        rewrite Q.
        assert (0 < / (1 + t)) by (apply Rinv_0_lt_compat; lra).
        assert (/ (1 + t) <= 1) by (rewrite <- Rinv_1; apply Rinv_le_contravar; lra).
        split; [reflexivity|]. split; [apply Rmult_lt_0_compat; lra|].
        apply Rle_trans with (prodn m q_fit * 1); [apply Rmult_le_compat_l; lra | lra].
      * right. unfold mfit_step; rewrite C.
        assert (Q : q_fit m = 1) by (unfold q_fit; rewrite F, T, logistic_0; simpl; ring).
        rewrite Q, Rmult_1_r. split; [reflexivity | exact E].
Qed.

Lemma minv_loop : forall r m, (m <= L)%nat ->
  (for_flow m (fun k => minv_step r d k (x k) (y k)) (Fin 0) = Return r /\ prodn m q_inv = 0)
  \/ (exists v, 0 <= v /\ for_flow m (fun k => minv_step r d k (x k) (y k)) (Fin 0) = Next (Fin v) /\
      prodn m q_inv = exp (- v)).
Proof.
  intros r m; induction m as [|m IH]; intros Hm.
  - right; exists 0; simpl; rewrite Ropp_0, exp_0; repeat split; lra.
  - simpl. destruct IH as [[-> E]|(v & Hv & -> & E)]; [lia| |].
    + left; rewrite E; split; [reflexivity | ring].
    + destruct (layer_cases (d m) (x m) (y m)) as [(C&T&_&F)|(t&Ht&_&F&[[C T]|[C T]])];
        try (first [apply Hd | apply Hx | apply Hy]; lia).
      * left. unfold minv_step; rewrite C, T. simpl. split; [reflexivity|].
        assert (Q : q_inv m = 0) by (unfold q_inv; rewrite F; simpl; ring).
        rewrite Q; ring.
      * right. exists (v + t). unfold minv_step; rewrite C, T. simpl.
        split; [lra|]. split; [reflexivity|].
        rewrite E. unfold q_inv; rewrite F; simpl. unfold poissonian.
        rewrite Ropp_plus_distr, exp_plus. ring.
      * right. exists v. unfold minv_step; rewrite C.
        split; [lra|]. split; [reflexivity|].
        rewrite E. unfold q_inv; rewrite F, T, poissonian_0; simpl. ring.
Qed.

Lemma mfit_p_dense_spec : mfit_p_ij_dense L d x y = Fin (1 - prodn L q_fit).
Proof.
  unfold mfit_p_ij_dense.
  destruct (mfit_loop (Fin 1) L (Nat.le_refl L)) as [[-> ->]|[-> _]].
  - f_equal; ring.
  - unfold nsub; simpl; f_equal; ring.
Qed.

Lemma minv_p_dense_spec : minv_p_ij_dense L d x y = Fin (1 - prodn L q_inv).
Proof.
  unfold minv_p_ij_dense.
  destruct (minv_loop (Fin 1) L (Nat.le_refl L)) as [[-> ->]|(v & Hv & -> & ->)].
  - f_equal; ring.
  - rewrite is0_fin. destruct (Reqb_spec v 0) as [->|Hn].
    + rewrite Ropp_0, exp_0; f_equal; ring.
    + apply nopp_expm1.
Qed.

Lemma q_fit_range : forall m, (m <= L)%nat -> 0 <= prodn m q_fit <= 1.
Proof.
  intros m Hm; destruct (mfit_loop NaN m Hm) as [[_ ->]|[_ H]]; lra.
Qed.

Lemma mfit_logp_dense_spec : log_of (1 - prodn L q_fit) (mfit_logp_dense L d x y).
Proof.
  unfold mfit_logp_dense.
  destruct (mfit_loop (Fin 0) L (Nat.le_refl L)) as [[-> ->]|[-> H]].
  - left; split; [lra|]. rewrite Rminus_0_r, ln_1; reflexivity.
  - rewrite neqb_fin. destruct (Reqb_spec (prodn L q_fit) 1) as [->|Hn].
    + right; split; [ring | reflexivity].
    + unfold nlog1p; simpl nadd. replace (1 + - prodn L q_fit) with (1 - prodn L q_fit) by ring.
      apply nlog_log_of; lra.
Qed.

Lemma mfit_log1mp_dense_spec : log_of (prodn L q_fit) (mfit_log1mp_dense L d x y).
Proof.
  unfold mfit_log1mp_dense.
  destruct (mfit_loop NInf L (Nat.le_refl L)) as [[-> ->]|[-> H]].
  - right; split; reflexivity.
  - apply nlog_log_of; lra.
Qed.

Lemma minv_logp_dense_spec : log_of (1 - prodn L q_inv) (minv_logp_dense L d x y).
Proof.
  unfold minv_logp_dense.
  destruct (minv_loop (Fin 0) L (Nat.le_refl L)) as [[-> ->]|(v & Hv & -> & ->)].
  - left; split; [lra|]. rewrite Rminus_0_r, ln_1; reflexivity.
  - rewrite is0_fin. destruct (Reqb_spec v 0) as [->|Hn].
    + rewrite Ropp_0, exp_0. right; split; [ring | reflexivity].
    + rewrite nopp_expm1. apply nlog_log_of. apply poissonian_range; exact Hv.
Qed.

Lemma minv_log1mp_dense_spec : log_of (prodn L q_inv) (minv_log1mp_dense L d x y).
Proof.
  unfold minv_log1mp_dense.
  destruct (minv_loop NInf L (Nat.le_refl L)) as [[-> ->]|(v & Hv & -> & ->)].
  - right; split; reflexivity.
  - left; split; [apply exp_pos | rewrite ln_exp; reflexivity].
Qed.
End DenseProduct.

Lemma mfit_p_spec : forall L d xs ys, canonical L xs -> canonical L ys ->
  all_nonneg xs -> all_nonneg ys -> (forall k, (k < L)%nat -> nonneg (d k)) ->
  mfit_p_ij d xs ys
  = Fin (1 - prodn L (fun k => 1 - toR (mfit_p_ijk (d k) (lookup k xs) (lookup k ys) NaN))).
Proof.
  intros L d xs ys Cx Cy Nx Ny Hd.
  rewrite (mfit_p_ij_sparse_dense L) by assumption.
  apply mfit_p_dense_spec; intros; auto using lookup_nonneg.
Qed.

Lemma minv_p_spec : forall L d xs ys, canonical L xs -> canonical L ys ->
  all_nonneg xs -> all_nonneg ys -> (forall k, (k < L)%nat -> nonneg (d k)) ->
  minv_p_ij d xs ys
  = Fin (1 - prodn L (fun k => 1 - toR (minv_p_ijk (d k) (lookup k xs) (lookup k ys) NaN))).
Proof.
  intros L d xs ys Cx Cy Nx Ny Hd.
  rewrite (minv_p_ij_sparse_dense L) by assumption.
  apply minv_p_dense_spec; intros; auto using lookup_nonneg.
Qed.

Lemma mfit_logs_spec : forall L d xs ys, canonical L xs -> canonical L ys ->
  all_nonneg xs -> all_nonneg ys -> (forall k, (k < L)%nat -> nonneg (d k)) ->
  log_of (toR (mfit_p_ij d xs ys)) (mfit_logp d xs ys) /\
  log_of (1 - toR (mfit_p_ij d xs ys)) (mfit_log1mp d xs ys).
Proof.
  intros L d xs ys Cx Cy Nx Ny Hd.
  rewrite (mfit_p_spec L) by assumption. simpl.
  rewrite (mfit_logp_sparse_dense L), (mfit_log1mp_sparse_dense L) by assumption.
  split.
  - apply mfit_logp_dense_spec; intros; auto using lookup_nonneg.
  - match goal with |- log_of (1 - (1 - ?p)) _ => replace (1 - (1 - p)) with p by ring end.
    apply mfit_log1mp_dense_spec; intros; auto using lookup_nonneg.
Qed.

Lemma minv_logs_spec : forall L d xs ys, canonical L xs -> canonical L ys ->
  all_nonneg xs -> all_nonneg ys -> (forall k, (k < L)%nat -> nonneg (d k)) ->
  log_of (toR (minv_p_ij d xs ys)) (minv_logp d xs ys) /\
  log_of (1 - toR (minv_p_ij d xs ys)) (minv_log1mp d xs ys).
Proof.
  intros L d xs ys Cx Cy Nx Ny Hd.
  rewrite (minv_p_spec L) by assumption. simpl.
  rewrite (minv_logp_sparse_dense L), (minv_log1mp_sparse_dense L) by assumption.
  split.
  - apply minv_logp_dense_spec; intros; auto using lookup_nonneg.
  - match goal with |- log_of (1 - (1 - ?p)) _ => replace (1 - (1 - p)) with p by ring end.
    apply minv_log1mp_dense_spec; intros; auto using lookup_nonneg.
Qed.

(** ** Jacobians of the multi-label kernels on finite arguments *)

Section DenseJac.
Variables (L : nat) (x y : nat -> R).
Hypothesis Hx : forall k, 0 <= x k.
Hypothesis Hy : forall k, 0 <= y k.

Definition qd (t : R) (k : nat) : R := / (1 + t * (x k * y k)).
Definition jd (t : R) (k : nat) : R := x k * y k * qd t k.

Lemma mfit_jac_loop : forall t m, 0 <= t ->
  for_flow m (fun k => mfit_jac_step (Fin t) k (Fin (x k)) (Fin (y k))) (Fin 1, Fin 0)
  = Next (Fin (prodn m (qd t)), Fin (sumn m (jd t))).
Proof.
  intros t m Ht; induction m as [|m IH]; simpl; [reflexivity|]. rewrite IH.
  unfold mfit_jac_step. rewrite !is0_fin.
  assert (Z : x m * y m = 0 ->
    (Fin (prodn m (qd t)), Fin (sumn m (jd t)))
    = (Fin (prodn m (qd t) * qd t m), Fin (sumn m (jd t) + jd t m))).
  { intros E0. assert (Q : qd t m = 1) by (unfold qd; rewrite E0, Rmult_0_r, Rplus_0_r; apply Rinv_1).
    assert (J : jd t m = 0) by (unfold jd; rewrite E0; ring). rewrite Q, J, Rmult_1_r, Rplus_0_r. reflexivity. }
  destruct (Reqb_spec (x m) 0) as [E|Ex]; simpl.
  { f_equal; apply Z; rewrite E; ring. }
  destruct (Reqb_spec (y m) 0) as [E|Ey]; simpl.
  { f_equal; apply Z; rewrite E; ring. }
  destruct (Reqb_spec t 0) as [Et|Et]; simpl.
  { assert (Q : qd t m = 1) by (unfold qd; rewrite Et, Rmult_0_l, Rplus_0_r; apply Rinv_1).
    assert (J : jd t m = x m * y m) by (unfold jd; rewrite Q; ring). rewrite Q, J, Rmult_1_r. reflexivity. }
  assert (0 < t * (x m * y m)).
  { apply Rmult_lt_0_compat; [lra|]. specialize (Hx m); specialize (Hy m). apply Rmult_lt_0_compat; lra. }
  rewrite !Reqb_false by lra. reflexivity.
Qed.

Lemma mfit_p_loop_near : forall t m, (forall k, (k < m)%nat -> 1 + t * (x k * y k) <> 0) ->
  for_flow m (fun k => mfit_step (Fin 1) (fun _ => Fin t) k (Fin (x k)) (Fin (y k))) (Fin 1)
  = Next (Fin (prodn m (qd t))).
Proof.
  intros t m; induction m as [|m IH]; intros H; simpl; [reflexivity|].
  rewrite IH by (intros; apply H; lia).
  unfold mfit_step. rewrite !is0_fin.
  assert (Z : t * (x m * y m) = 0 -> Fin (prodn m (qd t)) = Fin (prodn m (qd t) * qd t m)).
  { intros E0. assert (Q : qd t m = 1) by (unfold qd; rewrite E0, Rplus_0_r; apply Rinv_1).
    rewrite Q, Rmult_1_r; reflexivity. }
  destruct (Reqb_spec t 0) as [E|Et]; simpl; [f_equal; apply Z; rewrite E; ring|].
  destruct (Reqb_spec (x m) 0) as [E|Ex]; simpl; [f_equal; apply Z; rewrite E; ring|].
  destruct (Reqb_spec (y m) 0) as [E|Ey]; simpl; [f_equal; apply Z; rewrite E; ring|].
  replace (t * x m * y m) with (t * (x m * y m)) by ring.
  rewrite Reqb_false by (apply H; lia). reflexivity.
Qed.

Definition asum (m : nat) : R := sumn m (fun k => x k * y k).

Lemma minv_p_loop_near : forall t m,
  for_flow m (fun k => minv_step (Fin 1) (fun _ => Fin t) k (Fin (x k)) (Fin (y k))) (Fin 0)
  = Next (Fin (t * asum m)).
Proof.
  intros t m; induction m as [|m IH]; simpl; [unfold asum; simpl; rewrite Rmult_0_r; reflexivity|].
  rewrite IH. unfold minv_step. rewrite !is0_fin. unfold asum; simpl.
  destruct (Reqb_spec t 0) as [->|Et]; simpl; [do 2 f_equal; ring|].
  destruct (Reqb_spec (x m) 0) as [E|Ex]; simpl; [rewrite E; do 2 f_equal; ring|].
  destruct (Reqb_spec (y m) 0) as [E|Ey]; simpl; [rewrite E; do 2 f_equal; ring|].
  do 2 f_equal; ring.
Qed.

Lemma minv_jac_loop : forall m,
  for_flow m (fun k => minv_jac_step k (Fin (x k)) (Fin (y k))) (Fin 0) = Next (Fin (asum m)).
Proof.
  intros m; induction m as [|m IH]; simpl; [reflexivity|].
  rewrite IH. unfold minv_jac_step. rewrite !is0_fin. unfold asum; simpl.
  destruct (Reqb_spec (x m) 0) as [E|Ex]; simpl; [rewrite E; do 2 f_equal; ring|].
  destruct (Reqb_spec (y m) 0) as [E|Ey]; simpl; [rewrite E; do 2 f_equal; ring|].
  reflexivity.
Qed.

Lemma qd_deriv : forall t k, 1 + t * (x k * y k) <> 0 ->
  derivable_pt_lim (fun s => qd s k) t (- (jd t k * qd t k)).
Proof.
  intros t k H. unfold jd, qd.
  set (a := x k * y k) in *.
  apply (deriv_ext_loc (fun s => 1 / (1 + s * a)) _ _ _ 1); [lra | intros; unfold Rdiv; ring |].
  replace (- (a * / (1 + t * a) * / (1 + t * a)))
    with ((0 * (1 + t * a) - (0 + (1 * a + t * 0)) * 1) / Rsqr (1 + t * a))
    by (unfold Rsqr; field; exact H).
  apply (derivable_pt_lim_div (fun _ => 1) (fun s => 1 + s * a)).
  - apply derivable_pt_lim_const.
  - apply derivable_pt_lim_plus; [apply derivable_pt_lim_const|].
    apply (derivable_pt_lim_mult (fun s => s) (fun _ => a));
      [apply derivable_pt_lim_id | apply derivable_pt_lim_const].
  - exact H.
Qed.

Lemma prod_qd_deriv : forall t m, (forall k, (k < m)%nat -> 1 + t * (x k * y k) <> 0) ->
  derivable_pt_lim (fun s => prodn m (qd s)) t (- (prodn m (qd t) * sumn m (jd t))).
Proof.
  intros t m; induction m as [|m IH]; intros H; simpl.
  - rewrite Rmult_0_r, Ropp_0. apply derivable_pt_lim_const.
  - replace (- (prodn m (qd t) * qd t m * (sumn m (jd t) + jd t m)))
      with (- (prodn m (qd t) * sumn m (jd t)) * qd t m + prodn m (qd t) * (- (jd t m * qd t m))) by ring.
    apply (derivable_pt_lim_mult (fun s => prodn m (qd s)) (fun s => qd s m)).
    + apply IH; intros; apply H; lia.
    + apply qd_deriv; apply H; lia.
Qed.

Lemma asum_nonneg : forall m, 0 <= asum m.
Proof. intros m; apply sumn_nonneg; intros; apply Rmult_le_pos; auto. Qed.

Lemma near_ok : forall d t, 0 <= d -> Rabs (t - d) < / (1 + asum L) ->
  forall k, (k < L)%nat -> 1 + t * (x k * y k) <> 0.
Proof.
  intros d t Hd Ht k Hk.
  pose proof (asum_nonneg L) as HA.
  assert (Hk' : x k * y k <= asum L).
  { apply (sumn_ge_term L (fun k => x k * y k) k); [intros; apply Rmult_le_pos; auto | exact Hk]. }
  assert (Hp : 0 <= x k * y k) by (apply Rmult_le_pos; auto).
  apply Rabs_def2 in Ht; destruct Ht as [_ Ht].
  assert (H1 : - / (1 + asum L) < t) by lra.
  assert (H2 : - / (1 + asum L) * (x k * y k) <= t * (x k * y k)) by (apply Rmult_le_compat_r; lra).
  assert (Hi : 0 < / (1 + asum L)) by (apply Rinv_0_lt_compat; lra).
  assert (H3 : / (1 + asum L) * (x k * y k) <= / (1 + asum L) * asum L) by (apply Rmult_le_compat_l; lra).
  assert (H4 : / (1 + asum L) * asum L = 1 - / (1 + asum L)) by (field; lra).
  assert (H5 : - / (1 + asum L) * (x k * y k) = - (/ (1 + asum L) * (x k * y k))) by ring.
  lra.
Qed.

Lemma mfit_jac_dense_deriv : forall d, 0 <= d ->
  exists p j, mfit_p_jac_dense L (Fin d) (fun k => Fin (x k)) (fun k => Fin (y k)) = (Fin p, Fin j) /\
   mfit_p_ij_dense L (fun _ => Fin d) (fun k => Fin (x k)) (fun k => Fin (y k)) = Fin p /\
   derivable_pt_lim (fun t => toR (mfit_p_ij_dense L (fun _ => Fin t) (fun k => Fin (x k)) (fun k => Fin (y k)))) d j.
Proof.
  intros d Hd. pose proof (asum_nonneg L) as HA.
  assert (Hi : 0 < / (1 + asum L)) by (apply Rinv_0_lt_compat; lra).
  assert (Hnz : forall k, (k < L)%nat -> 1 + d * (x k * y k) <> 0).
  { apply (near_ok d d Hd). replace (d - d) with 0 by ring. rewrite Rabs_R0; exact Hi. }
  exists (1 - prodn L (qd d)), (prodn L (qd d) * sumn L (jd d)).
  unfold mfit_p_jac_dense, mfit_p_ij_dense. rewrite (mfit_jac_loop d L Hd).
  split; [simpl; unfold nsub; simpl; reflexivity|].
  split; [rewrite mfit_p_loop_near by exact Hnz; reflexivity|].
  apply (deriv_ext_loc (fun s => 1 - prodn L (qd s)) _ d _ (/ (1 + asum L)) Hi).
  - intros t Ht. rewrite mfit_p_loop_near by (apply (near_ok d t Hd Ht)). simpl. ring.
  - replace (prodn L (qd d) * sumn L (jd d)) with (0 - (- (prodn L (qd d) * sumn L (jd d)))) by ring.
    apply derivable_pt_lim_minus; [apply derivable_pt_lim_const | apply prod_qd_deriv; exact Hnz].
Qed.

Lemma minv_jac_dense_deriv : forall d, 0 <= d ->
  exists p j, minv_p_jac_dense L (Fin d) (fun k => Fin (x k)) (fun k => Fin (y k)) = (Fin p, Fin j) /\
   minv_p_ij_dense L (fun _ => Fin d) (fun k => Fin (x k)) (fun k => Fin (y k)) = Fin p /\
   derivable_pt_lim (fun t => toR (minv_p_ij_dense L (fun _ => Fin t) (fun k => Fin (x k)) (fun k => Fin (y k)))) d j.
Proof.
  intros d Hd. pose proof (asum_nonneg L) as HA.
  exists (poissonian (d * asum L)), (poissonian' (d * asum L) * asum L).
  assert (HP : forall t, minv_p_ij_dense L (fun _ => Fin t) (fun k => Fin (x k)) (fun k => Fin (y k))
     = Fin (poissonian (t * asum L))).
  { intros t; unfold minv_p_ij_dense. rewrite minv_p_loop_near, is0_fin.
    destruct (Reqb_spec (t * asum L) 0) as [->|_]; [rewrite poissonian_0; reflexivity | apply nopp_expm1]. }
  split; [|split; [apply HP|]].
  - unfold minv_p_jac_dense. simpl isinf; cbv iota. rewrite minv_jac_loop.
    simpl nmul at 1. cbv zeta. rewrite is0_fin.
    destruct (Reqb_spec (d * asum L) 0) as [E|E].
    + rewrite E. unfold poissonian'. rewrite Ropp_0, exp_0, poissonian_0, Rmult_1_l; reflexivity.
    + simpl nmul at 1. rewrite nopp_expm1. simpl. unfold poissonian'. do 2 f_equal; ring.
  - apply (deriv_ext_loc (fun t => poissonian (t * asum L)) _ d _ 1); [lra| |].
    + intros t _; rewrite HP; reflexivity.
    + apply g_deriv_scale; [apply poissonian_deriv | exact Hd | exact HA].
Qed.
End DenseJac.

Definition fval (xs : svec) (k : nat) : R := toR (lookup k xs).

Lemma lookup_fval : forall xs k, all_finite xs -> lookup k xs = Fin (fval xs k) /\ 0 <= fval xs k.
Proof.
  intros xs k H; unfold fval; destruct (lookup_finite k xs H) as [v [-> Hv]]; split; [reflexivity | exact Hv].
Qed.

Lemma for_flow_lookup : forall S T L (step : nat -> num -> num -> S -> flow S T) xs ys s,
  all_finite xs -> all_finite ys ->
  for_flow L (fun k => step k (lookup k xs) (lookup k ys)) s
  = for_flow L (fun k => step k (Fin (fval xs k)) (Fin (fval ys k))) s.
Proof.
  intros; apply for_flow_ext; intros k s0 _.
  rewrite (proj1 (lookup_fval xs k H)), (proj1 (lookup_fval ys k H0)); reflexivity.
Qed.

Lemma mfit_jac_spec : forall L xs ys d, canonical L xs -> canonical L ys ->
  all_finite xs -> all_finite ys -> 0 <= d ->
  exists p j, mfit_p_jac (Fin d) xs ys = (Fin p, Fin j) /\
    mfit_p_ij (fun _ => Fin d) xs ys = Fin p /\
    derivable_pt_lim (fun t => toR (mfit_p_ij (fun _ => Fin t) xs ys)) d j.
Proof.
  intros L xs ys d Cx Cy Fx Fy Hd.
  destruct (mfit_jac_dense_deriv L (fval xs) (fval ys)) with (d := d) as (p & j & E1 & E2 & D);
    try (intros; apply lookup_fval; assumption); [exact Hd|].
  exists p, j.
  assert (HP : forall t, mfit_p_ij (fun _ => Fin t) xs ys =
     mfit_p_ij_dense L (fun _ => Fin t) (fun k => Fin (fval xs k)) (fun k => Fin (fval ys k))).
  { intros t; rewrite (mfit_p_ij_sparse_dense L) by assumption.
    unfold mfit_p_ij_dense. rewrite (for_flow_lookup _ _ L (mfit_step (Fin 1) (fun _ => Fin t))) by assumption.
    reflexivity. }
  split; [|split].
  - rewrite (mfit_p_jac_sparse_dense L), <- E1 by assumption.
    unfold mfit_p_jac_dense. rewrite (for_flow_lookup _ _ L (mfit_jac_step (Fin d))) by assumption.
    reflexivity.
  - rewrite HP; exact E2.
  - apply (deriv_ext_loc _ _ d j 1 Rlt_0_1) with (2 := D). intros t _; rewrite HP; reflexivity.
Qed.

Lemma minv_jac_spec : forall L xs ys d, canonical L xs -> canonical L ys ->
  all_finite xs -> all_finite ys -> 0 <= d ->
  exists p j, minv_p_jac (Fin d) xs ys = (Fin p, Fin j) /\
    minv_p_ij (fun _ => Fin d) xs ys = Fin p /\
    derivable_pt_lim (fun t => toR (minv_p_ij (fun _ => Fin t) xs ys)) d j.
Proof.
  intros L xs ys d Cx Cy Fx Fy Hd.
  destruct (minv_jac_dense_deriv L (fval xs) (fval ys)) with (d := d) as (p & j & E1 & E2 & D);
    try (intros; apply lookup_fval; assumption); [exact Hd|].
  exists p, j.
  assert (HP : forall t, minv_p_ij (fun _ => Fin t) xs ys =
     minv_p_ij_dense L (fun _ => Fin t) (fun k => Fin (fval xs k)) (fun k => Fin (fval ys k))).
  { intros t; rewrite (minv_p_ij_sparse_dense L) by assumption.
    unfold minv_p_ij_dense. rewrite (for_flow_lookup _ _ L (minv_step (Fin 1) (fun _ => Fin t))) by assumption.
    reflexivity. }
  split; [|split].
  - rewrite (minv_p_jac_sparse_dense L), <- E1 by assumption.
    unfold minv_p_jac_dense. rewrite (for_flow_lookup _ _ L minv_jac_step) by assumption.
    reflexivity.
  - rewrite HP; exact E2.
  - apply (deriv_ext_loc _ _ d j 1 Rlt_0_1) with (2 := D). intros t _; rewrite HP; reflexivity.
Qed.

(** ** Behaviour at infinity *)

Lemma minv_jac_inf_refuted :
  exists xs ys, canonical 2 xs /\ canonical 2 ys /\ all_finite xs /\ all_finite ys /\
    (forall k, ~ (In k (map fst xs) /\ In k (map fst ys))) /\
    minv_p_ij (fun _ => PInf) xs ys = Fin 0 /\ fst (minv_p_jac PInf xs ys) = Fin 1.
Proof.
  exists [(0%nat, Fin 1)], [(1%nat, Fin 1)].
  assert (S1 : forall n, StronglySorted lt [n]) by (intros; repeat constructor).
  repeat split; simpl; try apply S1; try (constructor; [simpl; lia | constructor]);
    try (constructor; [exists 1; split; [reflexivity | simpl; lra] | constructor]).
  - intros k [[H|[]] [H'|[]]]; subst; discriminate.
  - change (nopp (nexpm1 (nopp (Fin 0))) = Fin 0). rewrite nopp_expm1, poissonian_0; reflexivity.
Qed.

(** The MultiFitnessModel objective agrees with its probability for every argument, also infinite. *)
Lemma mfit_jac_step_sim : forall d k x y v j, nonneg d -> nonneg x -> nonneg y ->
  match mfit_jac_step d k x y (v, j), mfit_step (Fin 1) (fun _ => d) k x y v with
  | Next (v', _), Next v'' => v' = v''
  | Return (a, _), Return b => a = b
  | _, _ => False
  end.
Proof.
  intros d k x y v j Hd Hx Hy. unfold mfit_jac_step, mfit_step.
  destruct (is0 x) eqn:Ex; simpl; [rewrite andb_false_r; reflexivity|].
  destruct (is0 y) eqn:Ey; simpl; [rewrite andb_false_r; reflexivity|].
  destruct (is0 d) eqn:Ed; simpl; [reflexivity|].
  pose proof (nonneg_not0 _ Hd Ed); pose proof (nonneg_not0 _ Hx Ex); pose proof (nonneg_not0 _ Hy Ey).
  rewrite !nmul_pos by (try apply nmul_posnum; assumption).
  destruct d as [d| | |], x as [x| | |], y as [y| | |]; simpl in Hd, Hx, Hy; try contradiction;
    try reflexivity.
  simpl. replace (d * (x * y)) with (d * x * y) by ring. reflexivity.
Qed.

Lemma mfit_jac_prob_any : forall L d xs ys, canonical L xs -> canonical L ys ->
  all_nonneg xs -> all_nonneg ys -> nonneg d ->
  fst (mfit_p_jac d xs ys) = mfit_p_ij (fun _ => d) xs ys.
Proof.
  intros L d xs ys Cx Cy Nx Ny Hd.
  rewrite (mfit_p_jac_sparse_dense L), (mfit_p_ij_sparse_dense L) by assumption.
  unfold mfit_p_jac_dense, mfit_p_ij_dense.
  assert (H : match for_flow L (fun k => mfit_jac_step d k (lookup k xs) (lookup k ys)) (Fin 1, Fin 0),
                    for_flow L (fun k => mfit_step (Fin 1) (fun _ => d) k (lookup k xs) (lookup k ys)) (Fin 1) with
              | Next (v', _), Next v'' => v' = v''
              | Return (a, _), Return b => a = b
              | _, _ => False
              end).
  { induction L as [|L IH]; [reflexivity|]. clear Cx Cy.
    assert (IH' : match for_flow L (fun k => mfit_jac_step d k (lookup k xs) (lookup k ys)) (Fin 1, Fin 0),
                    for_flow L (fun k => mfit_step (Fin 1) (fun _ => d) k (lookup k xs) (lookup k ys)) (Fin 1) with
              | Next (v', _), Next v'' => v' = v''
              | Return (a, _), Return b => a = b
              | _, _ => False
              end).
    { clear IH. induction L as [|L IH]; [reflexivity|]. simpl.
      destruct (for_flow L _ (Fin 1, Fin 0)) as [[v j]|[a b]]; destruct (for_flow L _ (Fin 1)) as [v2|r2];
        try contradiction; [subst v2 | subst r2; reflexivity].
      apply mfit_jac_step_sim; auto using lookup_nonneg. }
    simpl.
    destruct (for_flow L _ (Fin 1, Fin 0)) as [[v j]|[a b]]; destruct (for_flow L _ (Fin 1)) as [v2|r2];
        try contradiction; [subst v2 | subst r2; reflexivity].
    apply mfit_jac_step_sim; auto using lookup_nonneg. }
  destruct (for_flow L _ (Fin 1, Fin 0)) as [[v j]|[a b]]; destruct (for_flow L _ (Fin 1)) as [v2|r2];
    try contradiction; subst; reflexivity.
Qed.

(** For the invariant model the probabilities agree at a positive or zero finite parameter, and at
    an infinite parameter provided the two vertices share a label with positive fitness. *)
Lemma minv_jac_inf_shared : forall L xs ys k, canonical L xs -> canonical L ys ->
  all_nonneg xs -> all_nonneg ys -> (k < L)%nat ->
  posnum (lookup k xs) -> posnum (lookup k ys) ->
  fst (minv_p_jac PInf xs ys) = minv_p_ij (fun _ => PInf) xs ys.
Proof.
  intros L xs ys k Cx Cy Nx Ny Hk Px Py.
  rewrite (minv_p_spec L) by (try assumption; intros; exact I).
  simpl. f_equal.
  assert (Hz : forall m, (k < m)%nat ->
     prodn m (fun k0 => 1 - toR (minv_p_ijk PInf (lookup k0 xs) (lookup k0 ys) NaN)) = 0).
  { induction m as [|m IH]; intros Hm; [lia|]. simpl.
    destruct (Nat.eq_dec k m) as [->|Hn].
    - unfold minv_p_ijk at 2. rewrite !posnum_is0 by assumption.
      change (is0 PInf) with false. simpl orb; cbv iota.
      rewrite !nmul_pos by (try apply nmul_posnum; try exact I; assumption).
      destruct (lookup m xs), (lookup m ys); simpl in Px, Py; try contradiction; simpl; ring.
    - rewrite IH by lia. ring. }
  rewrite Hz by exact Hk. ring.
Qed.

(** ** Layer probabilities as [link_prob] *)

Lemma mfit_union : forall L d xs ys, canonical L xs -> canonical L ys ->
  all_nonneg xs -> all_nonneg ys -> (forall k, (k < L)%nat -> nonneg (d k)) ->
  mfit_p_ij d xs ys
  = Fin (1 - prodn L (fun k => 1 - link_prob logistic [d k; lookup k xs; lookup k ys; Fin 1])).
Proof.
  intros L d xs ys C1 C2 P1 P2 Hd. rewrite (mfit_p_spec L) by assumption. do 2 f_equal.
  apply prodn_ext. intros k Hk. rewrite mfit_p_ijk_eq.
  rewrite (view_link_prob fit_p_ij logistic fit_view); [reflexivity | apply Hd; exact Hk | | |].
  - apply lookup_nonneg; assumption.
  - apply lookup_nonneg; assumption.
  - simpl; lra.
Qed.

Lemma minv_union : forall L d xs ys, canonical L xs -> canonical L ys ->
  all_nonneg xs -> all_nonneg ys -> (forall k, (k < L)%nat -> nonneg (d k)) ->
  minv_p_ij d xs ys
  = Fin (1 - prodn L (fun k => 1 - link_prob poissonian [d k; lookup k xs; lookup k ys; Fin 1])).
Proof.
  intros L d xs ys C1 C2 P1 P2 Hd. rewrite (minv_p_spec L) by assumption. do 2 f_equal.
  apply prodn_ext. intros k Hk. rewrite minv_p_ijk_eq.
  rewrite (view_link_prob inv_p_ij poissonian inv_view); [reflexivity | apply Hd; exact Hk | | |].
  - apply lookup_nonneg; assumption.
  - apply lookup_nonneg; assumption.
  - simpl; lra.
Qed.
