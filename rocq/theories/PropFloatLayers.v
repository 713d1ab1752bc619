(** Property C101: layers, samples and log-likelihood of the multi-label models in double precision. *)
From Verif Require Import Base Num Spec Kernels KernelFacts MultiKernels MultiFacts Prob Ensemble EnsembleFacts Layers LayerFacts LayerProps LayerLib PropLayers Float FloatFacts FloatSample FloatMulti FloatMultiFacts FloatLayers
  PropFloat PropFloatSample PropFloatSolver PropFloatMulti.

(** * Without rounding *)
Lemma each_flow_ext : forall X S T (l : list X) (f g : X -> S -> flow S T) s, (forall x s, f x s = g x s) -> each_flow l f s = each_flow l g s.
Proof. intros X S T l f g s H. revert s. induction l as [|x l IH]; intros s; [reflexivity|]. cbn [each_flow]. rewrite H. destruct (g x s); [apply IH | reflexivity]. Qed.

Theorem C101_exact :
  (forall Z (p : num -> num -> num -> Z -> R) (z : nat -> nat -> Z) q d po pin sl, (forall x y i j, q d x y = Fin (p d x y (z i j))) ->
     rexp_edges_layer Fin q d po pin sl = Fin (exp_edges_layer p z d po pin sl)) /\
  (forall Z (lp l1 : num -> num -> num -> Z -> num) (z : nat -> nat -> Z) q q1 d po pin row N sl,
     (forall x y i j, q d x y = lp d x y (z i j) /\ q1 d x y = l1 d x y (z i j)) ->
     rlikelihood_layer Fin q q1 d po pin row N sl = likelihood_layer lp l1 z d po pin row N sl) /\
  (forall Z (lp l1 : num -> num -> num -> Z -> num) (z : nat -> nat -> Z) q q1 d xs ys N L g sl,
     (forall k x y i j, q (d k) x y = lp (d k) x y (z i j) /\ q1 (d k) x y = l1 (d k) x y (z i j)) ->
     length g = L -> (forall x, In x g -> l_rows x = N /\ l_cols x = N) ->
     log_likelihood_tensor lp l1 z N L xs ys (Some d) sl g None =
     rlog_likelihood_tensor Fin q q1 N L xs ys d sl (fun k => l_row (nth k g (mkLayer 0 0 (fun _ => []))))).
Proof.
  assert (LL : forall Z (lp l1 : num -> num -> num -> Z -> num) (z : nat -> nat -> Z) q q1 d po pin row N sl,
     (forall x y i j, q d x y = lp d x y (z i j) /\ q1 d x y = l1 d x y (z i j)) ->
     rlikelihood_layer Fin q q1 d po pin row N sl = likelihood_layer lp l1 z d po pin row N sl).
  { intros Z lp l1 z q q1 d po pin row N sl H. unfold rlikelihood_layer, likelihood_layer. destruct (impossible_link po pin row N); [reflexivity|]. f_equal.
    apply each_flow_ext. intros [i x] s. apply each_flow_ext. intros [j y] s'. destruct (adm sl i j); [|reflexivity]. cbv zeta.
    destruct (H x y i j) as [-> ->]. exact_ops. reflexivity. }
  split; [|split; [exact LL|]].
  - intros Z p z q d po pin sl H. unfold rexp_edges_layer, exp_edges_layer, for_each.
    assert (G : forall (l : svec) i x a, fold_left (fun s e => let '(j, y) := e in if adm sl i j then radd Fin s (q d x y) else s) l (Fin a) =
      Fin (fold_left (fun s e => let '(j, y) := e in if adm sl i j then s + p d x y (z i j) else s) l a)).
    { induction l as [|[j y] l IH]; intros i x a; [reflexivity|]. cbn [fold_left]. destruct (adm sl i j); [|apply IH].
      rewrite (H x y i j). exact_ops. cbn [nadd]. apply IH. }
    assert (G2 : forall a, fold_left (fun s o => fold_left (fun s e => let '(i, x) := o in let '(j, y) := e in if adm sl i j then radd Fin s (q d x y) else s) pin s) po (Fin a) =
      Fin (fold_left (fun s o => fold_left (fun s e => let '(i, x) := o in let '(j, y) := e in if adm sl i j then s + p d x y (z i j) else s) pin s) po a)).
    { induction po as [|[i x] po IH]; intros a; [reflexivity|]. cbn [fold_left]. rewrite (G pin i x a). apply IH. }
    apply G2.
  - intros Z lp l1 z q q1 d xs ys N L g sl H Hg Hs. unfold log_likelihood_tensor, rlog_likelihood_tensor.
    rewrite (proj2 (Nat.eqb_eq _ _) Hg). cbn [guard].
    assert (Sz : forallb (fun x => Nat.eqb (l_rows x) N && Nat.eqb (l_cols x) N) g = true).
    { apply forallb_forall. intros x Hi. destruct (Hs x Hi) as [-> ->]. rewrite Nat.eqb_refl. reflexivity. }
    rewrite Sz. cbn [guard]. destruct (by_layer L xs) as [po|]; [|reflexivity]. destruct (by_layer L ys) as [pin|]; [|reflexivity]. cbn [bind].
    f_equal. unfold rlikelihood_tensor. f_equal.
    set (f := fun k like => let tmp := rlikelihood_layer Fin q q1 (d k) (zip (nth k po ([], []))) (zip (nth k pin ([], []))) (l_row (nth k g (mkLayer 0 0 (fun _ => [])))) N sl in
      if isinf tmp then Return tmp else Next (radd Fin like tmp)).
    assert (E : forall (h : list layer) m, (forall k, (k < length h)%nat -> nth k h (mkLayer 0 0 (fun _ => [])) = nth (m + k) g (mkLayer 0 0 (fun _ => []))) -> forall s,
      each_flow (combine (seq m (length h)) h) (fun ix like =>
        let i := fst ix in let tmp := likelihood_layer lp l1 z (d i) (zip (nth i po ([], []))) (zip (nth i pin ([], []))) (l_row (snd ix)) N sl in
        if isinf tmp then Return tmp else Next (nadd like tmp)) s = each_flow (seq m (length h)) f s).
    { induction h as [|x h IH]; intros m Hm s; [reflexivity|]. cbn [length seq combine each_flow fst snd]. unfold f at 1.
      pose proof (Hm 0%nat ltac:(cbn; lia)) as X. cbn [nth] in X. rewrite Nat.add_0_r in X. rewrite <- X. cbv zeta.
      rewrite (LL Z lp l1 z q q1 (d m) _ _ (l_row x) N sl (H m)). exact_ops.
      destruct (isinf _); [reflexivity|]. apply IH. intros k Hk. pose proof (Hm (S k) ltac:(cbn; lia)) as Y. cbn [nth] in Y. rewrite Y. f_equal. lia. }
    rewrite <- Hg, (E g 0%nat) by (intros k Hk; reflexivity).
    assert (F : forall n s, each_flow (seq 0 n) f s = for_flow n f s).
    { assert (A : forall (l l' : list nat) s, each_flow (l ++ l') f s = match each_flow l f s with Next s' => each_flow l' f s' | Return r => Return r end).
      { induction l as [|x l IH]; intros l' s; [reflexivity|]. cbn [app each_flow]. destruct (f x s); [apply IH | reflexivity]. }
      induction n as [|n IH]; intros s; [reflexivity|]. rewrite seq_S, A, IH. cbn [for_flow plus]. destruct (for_flow n f s); [|reflexivity]. cbn [each_flow]. destruct (f n s0); reflexivity. }
    apply F.
Qed.
Print Assumptions C101_exact.

Example C101_exact_case : (forall d x y z, rmfit_logp_ijk Fin d x y = mfit_logp_ijk d x y z /\ rmfit_log1mp_ijk Fin d x y = mfit_log1mp_ijk d x y z) /\
  (forall x, In x [mkLayer 2 2 (row_of [(0, 1)]%nat)] -> l_rows x = 2%nat /\ l_cols x = 2%nat).
Proof.
  split; [intros d x y z; destruct C100_exact as (_ & _ & E); destruct (E d x y z) as (_ & E2 & E3 & _); auto|].
  intros x [<- | []]. auto.
Qed.

(** * The kernels of a layer *)
Definition m_p (k : kind) := match k with fitness => rmfit_p_ijk b64 | invariant => rminv_p_ijk b64 end.
Definition m_logp (k : kind) := match k with fitness => rmfit_logp_ijk b64 | invariant => rminv_logp_ijk b64 end.
Definition m_log1mp (k : kind) := match k with fitness => rmfit_log1mp_ijk b64 | invariant => rminv_log1mp_ijk b64 end.
Lemma layer_term : forall k d x y, datum d -> datum x -> datum y ->
  exists p, m_p k d x y = Fin p /\ double p /\ 0 <= p <= 1 /\
  (m_logp k d x y = NInf /\ p = 0 \/ 0 < p /\ exists l, m_logp k d x y = Fin l /\ -2048 <= l <= 0) /\
  (m_log1mp k d x y = NInf /\ p = 1 \/ exists l, m_log1mp k d x y = Fin l /\ l <= 0 /\ (p < 1 -> -2048 <= l)).
Proof.
  intros k d x y Hd Hx Hy. assert (H1 : datum (Fin 1)) by (apply datum_fin; [lra | apply double_1]).
  destruct (C100_layers d x y Hd Hx Hy) as (A1 & A2 & A3 & _ & A4 & A5 & A6 & _).
  destruct (link_term k d x y (Fin 1) Hd Hx Hy H1) as (p & E & R).
  assert (Dp : double p).
  { destruct (C96_probabilities d x y (Fin 1) Hd Hx Hy H1) as ((q & Eq & _ & Dq) & (q' & Eq' & _ & Dq') & _). destruct k; cbn [k_p] in E; congruence. }
  exists p. destruct k; cbn [m_p m_logp m_log1mp k_p k_logp k_log1mp] in *; rewrite ?A1, ?A2, ?A3, ?A4, ?A5, ?A6; (split; [exact E|]; split; [exact Dp | exact R]).
Qed.
Lemma m_p_zero : forall k d x y, is0 x = true \/ is0 y = true -> m_p k d x y = Fin 0.
Proof. intros k d x y H. destruct k; cbn [m_p]; unfold rmfit_p_ijk, rminv_p_ijk; destruct H as [-> | ->]; rewrite ?orb_true_r; reflexivity. Qed.

Lemma each_rule : forall X S T (l : list X) (Q : nat -> S -> Prop) (W : T -> Prop) (b : X -> S -> flow S T) s, Q 0%nat s ->
  (forall x c s, In x l -> (c < length l)%nat -> Q c s -> match b x s with Next s' => Q (Datatypes.S c) s' | Return t => W t end) ->
  match each_flow l b s with Next s' => Q (length l) s' | Return t => W t end.
Proof.
  intros X S T. induction l as [|x l IH]; intros Q W b s H0 H; [exact H0|]. cbn [each_flow length].
  pose proof (H x 0%nat s (or_introl eq_refl) ltac:(cbn; lia) H0) as H1. destruct (b x s) as [s'|t]; [|exact H1].
  apply (IH (fun c => Q (Datatypes.S c))); [exact H1|]. intros x' c s0 Hx Hc. apply H; [right; exact Hx | cbn; lia].
Qed.
Lemma fold_rule : forall X S (l : list X) (Q : nat -> S -> Prop) (b : X -> S -> S) s, Q 0%nat s ->
  (forall x c s, In x l -> (c < length l)%nat -> Q c s -> Q (Datatypes.S c) (b x s)) -> Q (length l) (for_each l b s).
Proof.
  intros X S l. unfold for_each. induction l as [|x l IH]; intros Q b s H0 H; [exact H0|]. cbn [fold_left length].
  apply (IH (fun c => Q (Datatypes.S c))); [apply H; [left; reflexivity | cbn; lia | exact H0]|]. intros x' c s0 Hx Hc. apply H; [right; exact Hx | cbn; lia].
Qed.

(** * Expected links *)

(** The expected number of links of a layer is a double between 0 and the number of pairs, and not below any of the
    probabilities it sums; in particular it is 0 only if all of them are. *)
Theorem C101_edges : forall k d po pin sl, datum d -> row_data po -> row_data pin -> (Z.of_nat (length po * length pin) <= 2 ^ 53)%Z ->
  exists e, rexp_edges_layer b64 (m_p k) d po pin sl = Fin e /\ double e /\ 0 <= e <= INR (length po * length pin) /\
  forall i x j y, In (i, x) po -> In (j, y) pin -> (sl = true \/ i <> j) -> nleb (m_p k d x y) (Fin e) = true.
Proof.
  intros k d po pin sl Hd Hpo Hpin HN.
  set (Q := fun c (a : num) => exists v, a = Fin v /\ double v /\ 0 <= v <= INR c).
  assert (Step : forall c v i x j y, In (i, x) po -> In (j, y) pin -> (S c <= length po * length pin)%nat -> double v -> 0 <= v <= INR c ->
    exists w, (if adm sl i j then radd b64 (Fin v) (m_p k d x y) else Fin v) = Fin w /\ double w /\ 0 <= w <= INR (S c) /\ v <= w /\
      ((sl = true \/ i <> j) -> le_num (m_p k d x y) (Fin w))).
  { intros c v i x j y Hi Hj Hc Dv Hv. rewrite S_INR. destruct (adm sl i j) eqn:A.
    - unfold row_data in *. rewrite Forall_forall in Hpo, Hpin. destruct (layer_term k d x y Hd (Hpo _ Hi) (Hpin _ Hj)) as (p & -> & Dp & Hp & _).
      unfold radd. cbn [nadd rnd_num].
      destruct (b64_between 0 (INR (S c)) (v + p)) as (w & E & Hw & Dw); [apply double_0 | apply count_double; lia | rewrite S_INR; lra|].
      rewrite S_INR in Hw. exists w. split; [exact E|]. split; [exact Dw|]. split; [exact Hw|].
      pose proof (b64_mono v (v + p) ltac:(lra)) as M1. rewrite (b64_fixed v Dv), E in M1. cbn in M1.
      pose proof (b64_mono p (v + p) ltac:(lra)) as M2. rewrite (b64_fixed p Dp), E in M2. cbn in M2.
      split; [exact M1|]. intros _. exact M2.
    - exists v. split; [reflexivity|]. split; [exact Dv|]. split; [lra|]. split; [lra|]. intros H. exfalso.
      unfold adm in A. destruct H as [-> | H]; [destruct (Nat.eqb i j); discriminate|]. apply Nat.eqb_neq in H. rewrite H in A. discriminate. }
  (* the bound of each probability, by induction on the lists *)
  set (Pq := fun (a : num) (o q : nat * num) => forall v, a = Fin v -> (sl = true \/ fst o <> fst q) -> le_num (m_p k d (snd o) (snd q)) (Fin v)).
  set (body := fun (o q : nat * num) exp_e => let '(i, p_out_i) := o in let '(j, p_in_j) := q in
      if adm sl i j then radd b64 exp_e (m_p k d p_out_i p_in_j) else exp_e).
  assert (Inner : forall o l c a, In o po -> (forall q, In q l -> In q pin) -> (c + length l <= length po * length pin)%nat -> Q c a ->
    Q (c + length l)%nat (for_each l (body o) a) /\ le_num a (for_each l (body o) a) /\ (forall q, In q l -> Pq (for_each l (body o) a) o q)).
  { intros [i x] l. unfold for_each. induction l as [|[j y] l IH]; intros c a Ho Hl Hc (v & -> & Dv & Hv).
    - cbn [fold_left length]. rewrite Nat.add_0_r. split; [exists v; auto|]. split; [cbn; lra | intros q []].
    - cbn [fold_left length] in *. change (body (i, x) (j, y) (Fin v)) with (if adm sl i j then radd b64 (Fin v) (m_p k d x y) else Fin v). destruct (Step c v i x j y Ho (Hl _ (or_introl eq_refl)) ltac:(lia) Dv Hv) as (w & -> & Dw & Hw & Lw & Pw).
      destruct (IH (S c) (Fin w) Ho (fun q Hq => Hl q (or_intror Hq)) ltac:(lia) (ex_intro _ w (conj eq_refl (conj Dw Hw)))) as ((u & Eu & Du & Hu) & Lu & Pu).
      rewrite Eu in *. cbn in Lu.
      split; [exists u; replace (c + S (length l))%nat with (S c + length l)%nat by lia; auto|].
      split; [cbn; lra|]. intros q [<- | Hq]; [|apply Pu; exact Hq].
      intros u' Eu' Hs. injection Eu' as <-. specialize (Pw Hs). cbn [fst snd] in *.
      destruct (m_p k d x y) as [p| | |]; cbn in Pw |- *; try contradiction; [lra | exact I]. }
  assert (Outer : forall l c a, (forall o, In o l -> In o po) -> (c + length l <= length po)%nat -> Q (c * length pin)%nat a ->
    Q ((c + length l) * length pin)%nat (for_each l (fun o e => for_each pin (body o) e) a) /\ le_num a (for_each l (fun o e => for_each pin (body o) e) a) /\
    (forall o q, In o l -> In q pin -> Pq (for_each l (fun o e => for_each pin (body o) e) a) o q)).
  { set (outer := fun (o : nat * num) (e : num) => for_each pin (body o) e).
    assert (Cons : forall o l a, for_each (o :: l) outer a = for_each l outer (for_each pin (body o) a)) by reflexivity.
    induction l as [|o l IH]; intros c a Hl Hc (v & -> & Dv & Hv).
    - change (for_each [] outer (Fin v)) with (Fin v). cbn [length]. rewrite Nat.add_0_r. split; [exists v; auto|]. split; [cbn; lra | intros o q []].
    - rewrite Cons. cbn [length] in *.
      destruct (Inner o pin (c * length pin)%nat (Fin v) (Hl _ (or_introl eq_refl)) (fun q Hq => Hq) ltac:(nia) (ex_intro _ v (conj eq_refl (conj Dv Hv)))) as ((w & Ew & Dw & Hw) & Lw & Pw).
      rewrite Ew in *. cbn in Lw.
      replace (c * length pin + length pin)%nat with (S c * length pin)%nat in Hw by lia.
      destruct (IH (S c) (Fin w) (fun o Ho => Hl o (or_intror Ho)) ltac:(lia) (ex_intro _ w (conj eq_refl (conj Dw Hw)))) as ((u & Eu & Du & Hu) & Lu & Pu).
      rewrite Eu in *. cbn in Lu.
      split; [exists u; replace (c + S (length l))%nat with (S c + length l)%nat by lia; auto|].
      split; [cbn; lra|]. intros o' q [<- | Ho] Hq; [|apply Pu; assumption].
      intros u' Eu' Hs. injection Eu' as <-. specialize (Pw q Hq w eq_refl Hs).
      destruct (m_p k d (snd o) (snd q)) as [p| | |]; cbn in Pw |- *; try contradiction; [lra | exact I]. }
  destruct (Outer po 0%nat (Fin 0) (fun o Ho => Ho) ltac:(lia)) as ((e & E & De & He) & _ & P).
  { exists 0. split; [reflexivity|]. split; [apply double_0 | cbn; lra]. }
  exists e. split; [exact E|]. split; [exact De|]. split; [exact He|].
  intros i x j y Hi Hj Hs. apply le_num_nleb. apply (P (i, x) (j, y) Hi Hj e E Hs).
Qed.
Print Assumptions C101_edges.

Lemma half_prob : m_p fitness (Fin 1) (Fin 1) (Fin 1) = Fin (1 / 2).
Proof.
  cbn [m_p]. unfold rmfit_p_ijk. rewrite !is0_fin_pos by lra. cbn [orb]. cbv zeta. unfold rmul. cbn [nmul rnd_num].
  rewrite !Rmult_1_l, (b64_fixed 1 double_1). cbn [nmul rnd_num isinf]. rewrite Rmult_1_l, (b64_fixed 1 double_1). cbn [isinf]. unfold radd, rdiv. cbn [nadd rnd_num].
  replace (1 + 1) with 2 by ring. rewrite (b64_fixed 2) by (apply (double_Z 2); lia). cbn [ndiv]. rewrite Reqb_false by lra. cbn [rnd_num].
  apply b64_fixed. replace (1 / 2) with (two (-1)) by (rewrite two_m1; lra). apply double_two. lia.
Qed.
Lemma datum_1 : datum (Fin 1). Proof. apply datum_fin; [lra | apply double_1]. Qed.
Example C101_edges_case : row_data [(0%nat, Fin 1); (1%nat, Fin 1)] /\
  rexp_edges_layer b64 (m_p fitness) (Fin 1) [(0%nat, Fin 1); (1%nat, Fin 1)] [(0%nat, Fin 1); (1%nat, Fin 1)] false = Fin 1.
Proof.
  split; [unfold row_data; repeat apply Forall_cons; try apply Forall_nil; apply datum_1|].
  unfold rexp_edges_layer, for_each. cbn [fold_left adm Nat.eqb negb orb]. rewrite half_prob. unfold radd. cbn [nadd rnd_num].
  assert (D : double (1 / 2)) by (replace (1 / 2) with (two (-1)) by (rewrite two_m1; lra); apply double_two; lia).
  replace (0 + 1 / 2) with (1 / 2) by ring. rewrite (b64_fixed _ D). cbn [nadd rnd_num]. replace (1 / 2 + 1 / 2) with 1 by field. apply b64_fixed, double_1.
Qed.

(** * Log-likelihood *)

(** Every entry of the table of fitnesses is a non-negative double. *)
Definition table_data (t : list tuple) : Prop := Forall (fun r => row_data (row_vec r)) t.
Lemma label_value_datum : forall t i k, table_data t -> datum (label_value t i k).
Proof.
  intros t i k H. unfold label_value. apply lookup_datum. destruct (Nat.lt_ge_cases i (length t)) as [Hi|Hi].
  - apply (proj1 (Forall_forall _ _) H). apply nth_In. exact Hi.
  - rewrite nth_overflow by exact Hi. constructor.
Qed.
Lemma column_data : forall L t k, label_table L t -> table_data t -> row_data (column (map zip t) k).
Proof.
  intros L t k T D. apply Forall_forall. intros e He. rewrite <- (lookup_in _ e (canonical_nodup _ _ (layer_canonical L t T k)) He), (layer_lookup L t T).
  apply label_value_datum. exact D.
Qed.
(** The likelihood of the layers of two tables *)
Lemma tensor_columns : forall lp l1 N L xs ys d sl row, label_table L xs -> label_table L ys ->
  rlog_likelihood_tensor b64 lp l1 N L xs ys d sl row =
  Ok (rlikelihood_tensor b64 lp l1 d (fun k => column (map zip xs) k) (fun k => column (map zip ys) k) row N L sl).
Proof.
  intros lp l1 N L xs ys d sl row Tx Ty. unfold rlog_likelihood_tensor. rewrite (table_layers L xs Tx), (table_layers L ys Ty). cbn [bind].
  f_equal. unfold rlikelihood_tensor. f_equal. apply flow_ext. intros k s Hk. rewrite !nth_layers by exact Hk. reflexivity.
Qed.

Lemma low_add : forall a b, low a -> low b -> low (radd b64 a b).
Proof.
  intros a b Ha [-> | (l & -> & Hl)]; [|apply add_low; assumption]. left. destruct Ha as [-> | (v & -> & _)]; reflexivity.
Qed.
Lemma layer_low : forall k d po pin row N sl, datum d -> row_data po -> row_data pin -> low (rlikelihood_layer b64 (m_logp k) (m_log1mp k) d po pin row N sl).
Proof.
  intros k d po pin row N sl Hd Hpo Hpin. unfold rlikelihood_layer. destruct (impossible_link po pin row N); [left; reflexivity|]. unfold flow_val.
  unfold row_data in *. rewrite Forall_forall in Hpo, Hpin.
  match goal with |- low (match ?f with Next s => s | Return t => t end) => assert (G : match f with Next s => low s | Return t => low t end) end.
  { apply (each_rule _ _ _ po (fun _ => low) low); [right; exists 0; split; [reflexivity | lra]|]. intros [i x] c s Hi _ Hs.
    apply (each_rule _ _ _ pin (fun _ => low) low); [exact Hs|]. intros [j y] c' s' Hj _ Hs'. destruct (adm sl i j); [|exact Hs']. cbv zeta.
    destruct (layer_term k d x y Hd (Hpo _ Hi) (Hpin _ Hj)) as (p & _ & _ & _ & A & B). destruct (existsb (Nat.eqb j) (row i)).
    - destruct A as [[-> _] | (_ & l & -> & Hl)]; cbn [isinf]; [left; reflexivity | apply add_low; [exact Hs' | lra]].
    - destruct B as [[-> _] | (l & -> & Hl & _)]; cbn [isinf]; [left; reflexivity | apply add_low; [exact Hs' | lra]]. }
  destruct (each_flow po _ (Fin 0)); exact G.
Qed.

(** The log-likelihood of every multi-label graph is minus infinity or a number that is not positive. *)
Theorem C101_likelihood : forall kd N L xs ys d sl row, label_table L xs -> label_table L ys -> table_data xs -> table_data ys ->
  (forall k, (k < L)%nat -> datum (d k)) ->
  exists l, rlog_likelihood_tensor b64 (m_logp kd) (m_log1mp kd) N L xs ys d sl row = Ok l /\ (l = NInf \/ exists v, l = Fin v /\ v <= 0).
Proof.
  intros kd N L xs ys d sl row Tx Ty Dx Dy Hd. rewrite tensor_columns by assumption. eexists. split; [reflexivity|].
  unfold rlikelihood_tensor, flow_val.
  match goal with |- (match ?f with Next s => s | Return t => t end) = _ \/ _ => assert (G : match f with Next s => low s | Return t => low t end) end.
  { apply (flow_rule num num L (fun _ s => low s) low); [right; exists 0; split; [reflexivity | lra]|]. intros k s Hk Hs. cbv zeta.
    pose proof (layer_low kd (d k) (column (map zip xs) k) (column (map zip ys) k) (row k) N sl (Hd k Hk) (column_data L xs k Tx Dx) (column_data L ys k Ty Dy)) as Ll.
    destruct (isinf _); [exact Ll | apply low_add; assumption]. }
  destruct (for_flow L _ (Fin 0)); exact G.
Qed.
Print Assumptions C101_likelihood.

(** * The samples of the model itself *)
Lemma bounded_add : forall c c' a b, bounded c a -> bounded c' b -> (Z.of_nat (c + c') <= 2 ^ 53)%Z -> bounded (c + c') (radd b64 a b).
Proof.
  intros c c' a b (v & -> & Hv) (w & -> & Hw) H. unfold radd. cbn [nadd rnd_num].
  destruct (b64_between (- (2048 * INR (c + c'))) 0 (v + w)) as (u & E & Hu & _); [apply sum_double, H | apply double_0 | rewrite plus_INR; lra|].
  exists u. auto.
Qed.
Lemma canonical_length : forall N (po : svec), canonical N po -> (length po <= N)%nat.
Proof.
  intros N po C. rewrite <- (map_length fst po). rewrite <- (seq_length N 0). apply NoDup_incl_length; [apply (canonical_nodup N), C|].
  intros i Hi. apply in_seq. pose proof (canonical_lt N po i C Hi). lia.
Qed.
(** What is known of a sampled layer: its links have positive probability, all other pairs probability less than 1 *)
Definition drawn (kd : kind) (d : num) (x y : nat -> num) (N : nat) (sl : bool) (G : list (nat * nat)) : Prop :=
  (forall i j, In (i, j) G -> (i < N)%nat /\ (j < N)%nat /\ allowed sl i j = true /\ 0 < toR (m_p kd d (x i) (y j))) /\
  (forall i j, (i < N)%nat -> (j < N)%nat -> allowed sl i j = true -> In (i, j) G \/ toR (m_p kd d (x i) (y j)) < 1).
Lemma layer_drawn : forall kd z d po pin N sl G, canonical N po -> canonical N pin ->
  outcome (binary_sample_layer (fun d x y (_ : num) => toR (m_p kd d x y)) z d po pin sl) G ->
  drawn kd d (fun i => lookup i po) (fun j => lookup j pin) N sl G.
Proof.
  intros kd z d po pin N sl G C1 C2 O. rewrite (sample_support num _ z N d po pin C1 C2) in O.
  apply outcome_bern in O as (H & HS & -> & Hp & Hq). cbn [app]. rewrite map_id. cbn [fst snd] in Hp, Hq. split.
  - intros i j Hij. pose proof (sublists_incl _ _ _ _ HS Hij) as I. apply filter_In in I as [I _]. apply in_pairs in I as (Hi & Hj & A).
    split; [exact Hi|]. split; [exact Hj|]. split; [exact A|]. exact (Hp _ Hij).
  - intros i j Hi Hj A. destruct (stored i po && stored j pin) eqn:E.
    + apply (Hq (i, j)). apply filter_In. split; [apply in_pairs; auto | exact E].
    + right. rewrite m_p_zero; [cbn; lra|]. apply andb_false_iff in E. destruct E as [E|E]; apply stored_false in E; rewrite E; [left | right]; apply is0_0.
Qed.
Lemma layer_own : forall kd d po pin N sl G, canonical N po -> canonical N pin -> row_data po -> row_data pin -> datum d -> (Z.of_nat (N * N) <= 2 ^ 53)%Z ->
  drawn kd d (fun i => lookup i po) (fun j => lookup j pin) N sl G -> bounded (N * N) (rlikelihood_layer b64 (m_logp kd) (m_log1mp kd) d po pin (row_of G) N sl).
Proof.
  intros kd d po pin N sl G C1 C2 Hpo Hpin Hd HN [D1 D2]. unfold rlikelihood_layer.
  destruct (impossible_link po pin (row_of G) N) eqn:Im.
  { exfalso. apply (impossible_spec N po pin C1 C2) in Im; [|intros [i j] He; apply (D1 i j He)].
    destruct Im as (i & j & Hij & Z0). destruct (D1 i j Hij) as (_ & _ & _ & P). rewrite m_p_zero in P by exact Z0. cbn in P. lra. }
  unfold flow_val, row_data in *. rewrite Forall_forall in Hpo, Hpin. pose proof (canonical_length N po C1) as L1. pose proof (canonical_length N pin C2) as L2.
  match goal with |- bounded _ (match ?f with Next s => s | Return t => t end) => assert (F : match f with Next s => bounded (length po * length pin) s | Return t => False end) end.
  { apply (each_rule _ _ _ po (fun c => bounded (c * length pin)) (fun _ => False)); [exists 0; split; [reflexivity | cbn; lra]|]. intros [i x] c s Hi Hc Hs.
    replace (S c * length pin)%nat with (c * length pin + length pin)%nat by lia.
    apply (each_rule _ _ _ pin (fun c' => bounded (c * length pin + c')) (fun _ => False)); [rewrite Nat.add_0_r; exact Hs|]. intros [j y] c' s' Hj Hc' Hs'.
    destruct (adm sl i j) eqn:A; [|apply (bounded_le (c * length pin + c')); [lia | exact Hs']]. cbv zeta. change (adm sl i j) with (allowed sl i j) in A.
    destruct (layer_term kd d x y Hd (Hpo _ Hi) (Hpin _ Hj)) as (p & Ep & _ & Hp & TA & TB).
    assert (Ei : lookup i po = x) by (apply (lookup_in po (i, x)); [apply (canonical_nodup N), C1 | exact Hi]).
    assert (Ej : lookup j pin = y) by (apply (lookup_in pin (j, y)); [apply (canonical_nodup N), C2 | exact Hj]).
    assert (Ni : (i < N)%nat) by (apply (canonical_lt N po i C1), (in_map fst _ _ Hi)). assert (Nj : (j < N)%nat) by (apply (canonical_lt N pin j C2), (in_map fst _ _ Hj)).
    assert (B : (Z.of_nat (S (c * length pin + c')) <= 2 ^ 53)%Z) by (assert (S (c * length pin + c') <= N * N)%nat by nia; lia).
    rewrite Nat.add_succ_r, row_of_mem. destruct (mem (i, j) G) eqn:M.
    - apply mem_spec in M. destruct (D1 i j M) as (_ & _ & _ & P). rewrite Ei, Ej, Ep in P. cbn [toR] in P.
      destruct TA as [[_ ->] | (_ & l & -> & Hl)]; [lra|]. cbn [isinf]. apply add_bounded; assumption.
    - assert (M' : ~ In (i, j) G) by (intros C; apply mem_spec in C; congruence).
      destruct (D2 i j Ni Nj A) as [C | C]; [contradiction|]. rewrite Ei, Ej, Ep in C. cbn [toR] in C.
      destruct TB as [[_ ->] | (l & -> & Hl & Hb)]; [lra|]. cbn [isinf]. apply add_bounded; [assumption | split; [apply Hb; exact C | exact Hl] | assumption]. }
  destruct (each_flow po _ (Fin 0)); [|contradiction]. apply (bounded_le (length po * length pin)); [nia | exact F].
Qed.

(** The layers of a sample of the tables *)
Lemma sample_drawn : forall kd z N L xs ys d sl arg m us Gs rest, label_table L xs -> label_table L ys -> length xs = N -> length ys = N ->
  (forall u, In u us -> 0 <= u < 1) ->
  sample_layers (fun d x y (_ : num) => toR (m_p kd d x y)) z L xs ys (Some d) sl arg = Ok m -> run_draws m us = Some (Gs, rest) ->
  length Gs = L /\ forall k, (k < L)%nat -> drawn kd (d k) (fun i => label_value xs i k) (fun j => label_value ys j k) N sl (nth k Gs []).
Proof.
  intros kd z N L xs ys d sl arg m us Gs rest Tx Ty Nx Ny Hu E R. apply run_outcome in R; [|exact Hu].
  unfold sample_layers in E. rewrite (table_layers L xs Tx), (table_layers L ys Ty) in E. cbn [bind] in E. injection E as <-.
  set (m := fun k => binary_sample_layer (fun d x y (_ : num) => toR (m_p kd d x y)) z (d k) (column (map zip xs) k) (column (map zip ys) k) sl).
  match type of R with outcome (for_prog (seq 0 L) ?b []) _ => set (body := b) in R end.
  assert (E : for_prog (seq 0 L) body [] = layers_prog m (seq 0 L) []).
  { apply for_prog_ext_in. intros k acc Hk. apply in_seq in Hk. unfold body, m. rewrite !nth_layers by lia. reflexivity. }
  rewrite E in R. apply layers_outcome in R as (Hs & -> & F). cbn [app].
  pose proof (Forall2_len _ _ _ _ _ F) as FL. rewrite seq_length in FL. split; [symmetry; exact FL|]. intros k Hk.
  assert (Fk : forall ks (l : list (list (nat * nat))), Forall2 (fun k H => outcome (m k) H) ks l ->
    forall k, (k < length ks)%nat -> outcome (m (nth k ks 0%nat)) (nth k l [])).
  { clear. induction 1 as [|k0 G0 ks l H0 H1 IH]; intros k Hk; [simpl in Hk; lia|]. destruct k as [|k]; [exact H0|]. apply IH. simpl in Hk. lia. }
  specialize (Fk _ _ F k). rewrite seq_length in Fk. specialize (Fk Hk). rewrite seq_nth in Fk by exact Hk. cbn [plus] in Fk. unfold m in Fk.
  assert (C1 : canonical N (column (map zip xs) k)) by (rewrite <- Nx; apply (layer_canonical L); exact Tx).
  assert (C2 : canonical N (column (map zip ys) k)) by (rewrite <- Ny; apply (layer_canonical L); exact Ty).
  apply (layer_drawn kd z (d k) _ _ N sl _ C1 C2) in Fk. destruct Fk as [A B].
  split; intros i j; rewrite <- (layer_lookup L xs Tx), <- (layer_lookup L ys Ty); [apply A | apply B].
Qed.

(** A sample drawn with the computed probabilities has one layer per label and a finite log-likelihood that is not positive, under
    the model in doubles that drew it; no sum overflows. *)
Theorem C101_own : forall kd z N L xs ys d sl arg m us Gs rest, label_table L xs -> label_table L ys -> length xs = N -> length ys = N ->
  table_data xs -> table_data ys -> (forall k, (k < L)%nat -> datum (d k)) -> (Z.of_nat (L * (N * N)) <= 2 ^ 53)%Z ->
  (forall u, In u us -> 0 <= u < 1) ->
  sample_layers (fun d x y (_ : num) => toR (m_p kd d x y)) z L xs ys (Some d) sl arg = Ok m -> run_draws m us = Some (Gs, rest) ->
  length Gs = L /\ exists l, rlog_likelihood_tensor b64 (m_logp kd) (m_log1mp kd) N L xs ys d sl (fun k => row_of (nth k Gs [])) = Ok (Fin l) /\
    - (2048 * INR (L * (N * N))) <= l <= 0.
Proof.
  intros kd z N L xs ys d sl arg m us Gs rest Tx Ty Nx Ny Dx Dy Hd HB Hu E R.
  destruct (sample_drawn kd z N L xs ys d sl arg m us Gs rest Tx Ty Nx Ny Hu E R) as [HL HD]. split; [exact HL|].
  rewrite tensor_columns by assumption. unfold rlikelihood_tensor, flow_val.
  match goal with |- exists l, Ok (match ?f with Next s => s | Return t => t end) = _ /\ _ => assert (F : match f with Next s => bounded (L * (N * N)) s | Return t => False end) end.
  { apply (flow_rule num num L (fun k s => bounded (k * (N * N)) s) (fun _ => False)); [exists 0; split; [reflexivity | cbn; lra]|]. intros k s Hk Hs. cbv zeta.
    assert (C1 : canonical N (column (map zip xs) k)) by (rewrite <- Nx; apply (layer_canonical L); exact Tx).
  assert (C2 : canonical N (column (map zip ys) k)) by (rewrite <- Ny; apply (layer_canonical L); exact Ty).
    assert (Bk : bounded (N * N) (rlikelihood_layer b64 (m_logp kd) (m_log1mp kd) (d k) (column (map zip xs) k) (column (map zip ys) k) (row_of (nth k Gs [])) N sl)).
    { apply layer_own; try assumption; [apply (column_data L); assumption | apply (column_data L); assumption | apply Hd; exact Hk | nia|].
      destruct (HD k Hk) as [A B]. split; intros i j; rewrite (layer_lookup L xs Tx), (layer_lookup L ys Ty); [apply A | apply B]. }
    assert (I : isinf (rlikelihood_layer b64 (m_logp kd) (m_log1mp kd) (d k) (column (map zip xs) k) (column (map zip ys) k) (row_of (nth k Gs [])) N sl) = false)
      by (destruct Bk as (v & -> & _); reflexivity).
    rewrite I. replace (S k * (N * N))%nat with (k * (N * N) + N * N)%nat by lia. apply bounded_add; [exact Hs | exact Bk|]. nia. }
  destruct (for_flow L _ (Fin 0)); [|contradiction]. destruct F as (v & -> & Hv). exists v. auto.
Qed.
Print Assumptions C101_own.

Lemma ex_table_data : forall n, table_data (ex_table n).
Proof.
  intros n. apply Forall_forall. intros r Hr. apply repeat_spec in Hr. subst r. unfold row_data. cbn. apply Forall_cons; [apply datum_1 | apply Forall_nil].
Qed.
Example C101_own_case : exists m, label_table 1 (ex_table 2) /\ table_data (ex_table 2) /\
  sample_layers (fun d x y (_ : num) => toR (m_p fitness d x y)) (fun _ _ => Fin 1) 1 (ex_table 2) (ex_table 2) (Some (fun _ => Fin 1)) false None = Ok m /\
  run_draws m [1 / 4; 3 / 4] = Some ([[(0, 1)]%nat], []) /\
  exists l, rlog_likelihood_tensor b64 (m_logp fitness) (m_log1mp fitness) 2 1 (ex_table 2) (ex_table 2) (fun _ => Fin 1) false (fun k => row_of (nth k [[(0, 1)]%nat] [])) = Ok (Fin l).
Proof.
  assert (T : label_table 1 (ex_table 2)) by (apply ex_table_ok; lia).
  assert (Hm : exists m, sample_layers (fun d x y (_ : num) => toR (m_p fitness d x y)) (fun _ _ => Fin 1) 1 (ex_table 2) (ex_table 2) (Some (fun _ => Fin 1)) false None = Ok m /\
    run_draws m [1 / 4; 3 / 4] = Some ([[(0, 1)]%nat], [])).
  { eexists. split; [reflexivity|]. cbn -[m_p toR Rltb Rdiv]. rewrite half_prob. cbn [toR].
    destruct (Rltb_spec (1 / 4) (1 / 2)); [|lra]. cbn -[Rltb Rdiv]. destruct (Rltb_spec (3 / 4) (1 / 2)); [lra|]. reflexivity. }
  destruct Hm as (m & Em & Rm). exists m. split; [exact T|]. split; [apply ex_table_data|]. split; [exact Em|]. split; [exact Rm|].
  destruct (C101_own fitness (fun _ _ => Fin 1) 2 1 (ex_table 2) (ex_table 2) (fun _ => Fin 1) false None m [1 / 4; 3 / 4] [[(0, 1)]%nat] [] T T eq_refl eq_refl (ex_table_data 2) (ex_table_data 2) (fun _ _ => datum_1)
    ltac:(cbn; lia) ltac:(intros u [<- | [<- | []]]; lra) Em Rm) as (_ & l & E & _).
  exists l. exact E.
Qed.

(** * The projection *)
Lemma neg_label : forall d x y, datum d -> datum x -> datum y -> rminv_log1mp_ijk b64 d x y = nopp (label_tmp d x y).
Proof.
  intros d x y (wd & -> & Hd & _) (wx & -> & Hx & _) (wy & -> & Hy & _). unfold rminv_log1mp_ijk, label_tmp.
  replace (is0 (Fin wx) || is0 (Fin wy) || is0 (Fin wd)) with (is0 (Fin wd) || is0 (Fin wx) || is0 (Fin wy)) by (destruct (is0 (Fin wx)), (is0 (Fin wy)), (is0 (Fin wd)); reflexivity).
  destruct (is0 (Fin wd) || is0 (Fin wx) || is0 (Fin wy)) eqn:Z0; [cbn [nopp]; f_equal; lra|].
  assert (Py : 0 < wy).
  { apply orb_false_iff in Z0 as [_ Z0]. change (is0 (Fin wy)) with (Reqb wy 0) in Z0. destruct (Reqb_spec wy 0); [discriminate | lra]. }
  unfold rmul at 2. cbn [nopp nmul rnd_num]. replace (- wd * wx) with (- (wd * wx)) by ring. rewrite b64_opp.
  unfold rmul at 3. cbn [nmul rnd_num]. destruct (b64_nonneg (wd * wx) ltac:(apply Rmult_le_pos; lra)) as [-> | (v & -> & Hv & Dv)]; unfold rmul; cbn [nopp nmul rnd_num].
  - unfold inf_times. rewrite Reqb_false by lra. destruct (Rltb_spec 0 wy); [reflexivity | lra].
  - replace (- v * wy) with (- (v * wy)) by ring. apply b64_opp.
Qed.
Lemma projected_sum : forall L d xs ys, canonical L xs -> canonical L ys -> (forall k, (k < L)%nat -> datum (d k)) -> row_data xs -> row_data ys -> (Z.of_nat L <= 2 ^ 53)%Z ->
  (forall k, (k < L)%nat -> toR (rminv_p_ijk b64 (d k) (lookup k xs) (lookup k ys)) < 1) -> bounded L (rminv_log1mp b64 d xs ys).
Proof.
  intros L d xs ys Cx Cy Hd Hx Hy HL Hp. unfold rminv_log1mp. rewrite (walk_dense _ _ _ L) by (assumption || apply rminv_neutral).
  assert (F : match for_flow L (fun k => rminv_step b64 NInf d k (lookup k xs) (lookup k ys)) (Fin 0) with Next s => bounded L (nopp s) /\ amount s | Return _ => False end).
  { apply (flow_rule num num L (fun n s => bounded n (nopp s) /\ amount s) (fun _ => False)).
    - split; [exists (-0); split; [reflexivity | cbn; lra] | right; apply datum_fin; [lra | apply double_0]].
    - intros k s Hk [Hs As]. pose proof (lookup_datum k xs Hx) as Dx. pose proof (lookup_datum k ys Hy) as Dy.
      rewrite rminv_step_eq by (assumption || apply Hd; exact Hk). pose proof (neg_label (d k) _ _ (Hd k Hk) Dx Dy) as NL.
      destruct (layer_term invariant (d k) _ _ (Hd k Hk) Dx Dy) as (p & Ep & _ & _ & _ & TB). cbn [m_p m_log1mp] in Ep, TB.
      specialize (Hp k Hk). rewrite Ep in Hp. cbn [toR] in Hp. destruct TB as [[_ ->] | (l & El & Hl & Hb)]; [lra|]. specialize (Hb Hp). rewrite NL in El.
      destruct (label_tmp (d k) (lookup k xs) (lookup k ys)) as [t| | |] eqn:Et; cbn [nopp] in El; try discriminate. injection El as <-.
      destruct As as [-> | (v & -> & Hv & Dv)]; [destruct Hs as (? & ? & _); discriminate|].
      assert (E : nopp (radd b64 (Fin v) (Fin t)) = radd b64 (nopp (Fin v)) (Fin (- t))).
      { unfold radd. cbn [nopp nadd rnd_num]. replace (- v + - t) with (- (v + t)) by ring. rewrite b64_opp. reflexivity. }
      split; [rewrite E; apply add_bounded; [exact Hs | lra | lia]|]. unfold radd. cbn [nadd rnd_num]. apply amount_b64. lra. }
  destruct (for_flow L _ (Fin 0)); [apply F | contradiction].
Qed.

(** In the scale-invariant model the union of the sampled layers has a finite log-likelihood in the projected model too. *)
Theorem C101_projection : forall z N L xs ys d sl arg m us Gs rest, label_table L xs -> label_table L ys -> length xs = N -> length ys = N ->
  table_data xs -> table_data ys -> (forall k, (k < L)%nat -> datum (d k)) -> (Z.of_nat (N * N * L) <= 2 ^ 53)%Z ->
  (forall u, In u us -> 0 <= u < 1) ->
  sample_layers (fun d x y (_ : num) => toR (rminv_p_ijk b64 d x y)) z L xs ys (Some d) sl arg = Ok m -> run_draws m us = Some (Gs, rest) ->
  exists l, rlikelihood b64 (fun i j => rminv_logp b64 d (row_vec (nth i xs ([], []))) (row_vec (nth j ys ([], []))))
      (fun i j => rminv_log1mp b64 d (row_vec (nth i xs ([], []))) (row_vec (nth j ys ([], [])))) (row_of (concat Gs)) N sl = Fin l /\
    - (2048 * INR (N * N * L)) <= l <= 0.
Proof.
  intros z N L xs ys d sl arg m us Gs rest Tx Ty Nx Ny Dx Dy Hd HB Hu E R.
  destruct (sample_drawn invariant z N L xs ys d sl arg m us Gs rest Tx Ty Nx Ny Hu E R) as [HL HD].
  assert (Row : forall t i, label_table L t -> table_data t -> (i < length t)%nat -> canonical L (row_vec (nth i t ([], []))) /\ row_data (row_vec (nth i t ([], [])))).
  { intros t i (_ & _ & T3) D Hi. split; [apply (proj1 (Forall_forall _ _) T3), nth_In; exact Hi | apply (proj1 (Forall_forall _ _) D), nth_In; exact Hi]. }
  unfold rlikelihood, flow_val.
  match goal with |- exists l, (match ?f with Next s => s | Return t => t end) = _ /\ _ => assert (F : match f with Next s => bounded (N * N * L) s | Return t => False end) end.
  { apply (flow_rule num num N (fun i s => bounded (i * N * L) s) (fun _ => False)); [exists 0; split; [reflexivity | cbn; lra]|]. intros i s Hi Hs.
    replace (S i * N * L)%nat with (i * N * L + N * L)%nat by lia.
    apply (flow_rule num num N (fun j s => bounded (i * N * L + j * L) s) (fun _ => False)); [rewrite Nat.add_0_r; exact Hs|].
    intros j s' Hj Hs'. unfold rlik_body. destruct (adm sl i j) eqn:A; [|apply (bounded_le (i * N * L + j * L)); [lia | exact Hs']]. cbv zeta.
    change (adm sl i j) with (allowed sl i j) in A.
    set (rx := row_vec (nth i xs ([], []))). set (ry := row_vec (nth j ys ([], []))).
    destruct (Row xs i Tx Dx ltac:(rewrite Nx; exact Hi)) as [Cx Rx]. destruct (Row ys j Ty Dy ltac:(rewrite Ny; exact Hj)) as [Cy Ry]. fold rx in Cx, Rx. fold ry in Cy, Ry.
    assert (Bt : bounded L (if existsb (Nat.eqb j) (row_of (concat Gs) i) then rminv_logp b64 d rx ry else rminv_log1mp b64 d rx ry)).
    { rewrite row_of_mem. destruct (mem (i, j) (concat Gs)) eqn:M.
      - apply mem_spec in M. apply in_concat in M as (G & HG & Hij). apply (In_nth _ _ []) in HG as (k & Hk & <-). rewrite HL in Hk.
        destruct (HD k Hk) as [D1 _]. destruct (D1 i j Hij) as (_ & _ & _ & P). cbn [m_p] in P.
        destruct (C100_probabilities L d rx ry Cx Cy Hd Rx Ry) as [_ (p & Ep & _ & _ & _ & Zp)].
        destruct (C100_logs L d rx ry Cx Cy Hd Rx Ry) as [_ (_ & Lp & _)].
        destruct Lp as (l & -> & Hl).
        + rewrite Ep. intros E0. injection E0 as E0. apply Zp with (k := k) in E0; [|exact Hk]. unfold label_value in P. fold rx ry in P. rewrite E0 in P. cbn in P. lra.
        + apply (bounded_le 1); [lia|]. exists l. split; [reflexivity | cbn; lra].
      - apply projected_sum; try assumption; [nia|]. intros k Hk. destruct (HD k Hk) as [_ D2]. destruct (D2 i j Hi Hj A) as [C | C]; [|exact C].
        exfalso. assert (C' : In (i, j) (concat Gs)) by (apply in_concat; exists (nth k Gs []); split; [apply nth_In; rewrite HL; exact Hk | exact C]).
        apply mem_spec in C'. congruence. }
    match type of Bt with bounded L ?t => assert (I : isinf t = false) by (destruct Bt as (v & -> & _); reflexivity) end.
    rewrite I. replace (i * N * L + S j * L)%nat with (i * N * L + j * L + L)%nat by lia. apply bounded_add; [exact Hs' | exact Bt|].
    assert (S i * N + S j <= N * N + N)%nat by nia. assert (i * N * L + j * L + L <= N * N * L)%nat by (assert (i * N + S j <= N * N)%nat by nia; nia). lia. }
  destruct (for_flow N _ (Fin 0)); [|contradiction]. destruct F as (v & -> & Hv). exists v. auto.
Qed.
Print Assumptions C101_projection.

Example C101_projection_case : exists m, label_table 1 (ex_table 2) /\ table_data (ex_table 2) /\
  sample_layers (fun d x y (_ : num) => toR (rminv_p_ijk b64 d x y)) (fun _ _ => Fin 1) 1 (ex_table 2) (ex_table 2) (Some (fun _ => Fin 1)) false None = Ok m /\
  run_draws m [0; 0] = Some ([[(0, 1); (1, 0)]%nat], []).
Proof.
  eexists. split; [apply ex_table_ok; lia|]. split; [apply ex_table_data|]. split; [reflexivity|].
  cbn -[rminv_p_ijk toR Rltb].
  assert (P : 0 < toR (rminv_p_ijk b64 (Fin 1) (Fin 1) (Fin 1))).
  { destruct (exponential_pos 1 ltac:(lra) double_1) as (p & Ep & Hp).
    assert (T1 : rmul b64 (Fin 1) (Fin 1) = Fin 1) by (apply rmul_1; right; apply datum_1).
    unfold rminv_p_ijk. rewrite !is0_fin_pos by lra. cbn [orb]. cbv zeta. rewrite !T1. cbn [isinf]. unfold rexpm1. cbn [nopp]. rewrite nexpm1_fin. cbn [rnd_num].
    replace (exp (- (1)) - 1) with (- (1 - exp (- (1)))) by ring. rewrite b64_opp, Ep. cbn [nopp toR]. rewrite Ropp_involutive. exact Hp. }
  destruct (Rltb_spec 0 (toR (rminv_p_ijk b64 (Fin 1) (Fin 1) (Fin 1)))); [|lra]. cbn -[rminv_p_ijk toR Rltb].
  destruct (Rltb_spec 0 (toR (rminv_p_ijk b64 (Fin 1) (Fin 1) (Fin 1)))); [|lra]. reflexivity.
Qed.

(** In the fitness model it can be minus infinity: the links of a sample can have probability 0 in the projection. *)
Theorem C101_projection_refuted : exists N L xs ys d sl m us Gs l, label_table L xs /\ label_table L ys /\ length xs = N /\ length ys = N /\
  table_data xs /\ table_data ys /\ (forall k, datum (d k)) /\ (forall u, In u us -> 0 <= u < 1) /\
  sample_layers (fun d x y (_ : num) => toR (rmfit_p_ijk b64 d x y)) (fun _ _ => Fin 1) L xs ys (Some d) sl None = Ok m /\ run_draws m us = Some (Gs, []) /\
  rlog_likelihood_tensor b64 (m_logp fitness) (m_log1mp fitness) N L xs ys d sl (fun k => row_of (nth k Gs [])) = Ok (Fin l) /\
  rlikelihood b64 (fun i j => rmfit_logp b64 d (row_vec (nth i xs ([], []))) (row_vec (nth j ys ([], []))))
      (fun i j => rmfit_log1mp b64 d (row_vec (nth i xs ([], []))) (row_vec (nth j ys ([], [])))) (row_of (concat Gs)) N sl = NInf.
Proof.
  set (a := Fin (two (-30))). set (t := [([0%nat], [a]); ([0%nat], [a])] : list tuple).
  assert (Da : datum a) by (apply two_datum; lia). assert (D0 : datum (Fin (two 0))) by (apply two_datum; lia).
  assert (T : label_table 1 t).
  { unfold label_table, t. split; [discriminate|]. split; [repeat constructor|].
    pose proof (two_pos (-30)). repeat constructor; cbn; try lia; lra. }
  assert (TD : table_data t) by (unfold table_data, t; repeat apply Forall_cons; try apply Forall_nil; unfold row_data; cbn; repeat apply Forall_cons; try apply Forall_nil; exact Da).
  assert (Hm : exists m, sample_layers (fun d x y (_ : num) => toR (rmfit_p_ijk b64 d x y)) (fun _ _ => Fin 1) 1 t t (Some (fun _ => Fin (two 0))) false None = Ok m /\
    run_draws m [0; 1 / 2] = Some ([[(0, 1)]%nat], [])).
  { eexists. split; [reflexivity|]. cbn -[rmfit_p_ijk toR two Rltb]. fold a.
    assert (P : rmfit_p_ijk b64 (Fin (two 0)) a a = Fin (two (-60))).
    { unfold rmfit_p_ijk. unfold a. rewrite !is0_fin_pos by apply two_pos. cbn [orb]. cbv zeta.
      assert (T2 : rmul b64 (rmul b64 (Fin (two 0)) (Fin (two (-30)))) (Fin (two (-30))) = Fin (two (-60))) by (rewrite mul_two, b64_two by lia; rewrite mul_two, b64_two by lia; reflexivity).
      rewrite T2. cbn [isinf].
      assert (A : radd b64 (Fin 1) (Fin (two (-60))) = Fin 1) by (unfold radd; cbn [nadd rnd_num]; apply one_plus_small; split; [left; apply two_pos | apply two_le; lia]).
      rewrite A. unfold rdiv. cbn [ndiv]. rewrite Reqb_false by lra. cbn [rnd_num]. replace (two (-60) / 1) with (two (-60)) by field. apply b64_two. lia. }
    rewrite P. cbn [toR]. assert (two (-60) < 1 / 2) by (apply Rlt_le_trans with (two (-1)); [apply two_lt; lia | rewrite two_m1; lra]).
    pose proof (two_pos (-60)). destruct (Rltb_spec 0 (two (-60))); [|lra]. cbn. destruct (Rltb_spec (1 / 2) (two (-60))); [lra|]. reflexivity. }
  destruct Hm as (m & Em & Rm).
  assert (Hu : forall u, In u [0; 1 / 2] -> 0 <= u < 1) by (intros u [<- | [<- | []]]; lra).
  destruct (C101_own fitness (fun _ _ => Fin 1) 2 1 t t (fun _ => Fin (two 0)) false None m [0; 1 / 2] [[(0, 1)]%nat] [] T T eq_refl eq_refl TD TD (fun _ _ => D0) ltac:(cbn; lia) Hu Em Rm)
    as (_ & l & El & _).
  exists 2%nat, 1%nat, t, t, (fun _ => Fin (two 0)), false, m, [0; 1 / 2], [[(0, 1)]%nat], l.
  do 2 (split; [exact T|]). do 2 (split; [reflexivity|]). do 2 (split; [exact TD|]). split; [intros; exact D0|]. split; [exact Hu|]. split; [exact Em|]. split; [exact Rm|]. split; [exact El|].
  assert (T2 : rmul b64 (rmul b64 (Fin (two 0)) a) a = Fin (two (-60))) by (unfold a; rewrite mul_two, b64_two by lia; rewrite mul_two, b64_two by lia; reflexivity).
  assert (A : radd b64 (Fin 1) (Fin (two (-60))) = Fin 1) by (unfold radd; cbn [nadd rnd_num]; apply one_plus_small; split; [left; apply two_pos | apply two_le; lia]).
  assert (LP : rmfit_logp b64 (fun _ => Fin (two 0)) [(0%nat, a)] [(0%nat, a)] = NInf).
  { unfold rmfit_logp. cbn [walk Nat.eqb]. unfold rmfit_step. unfold a at 1 2. rewrite !is0_fin_pos by apply two_pos. cbn [negb andb]. rewrite T2. cbn [isinf]. rewrite A.
    unfold rdiv. cbn [ndiv]. rewrite Reqb_false by lra. cbn [rnd_num]. replace (1 / 1) with 1 by field. rewrite (b64_fixed 1 double_1).
    change (neqb (Fin 1) (Fin 1)) with (Reqb 1 1). rewrite Reqb_true by reflexivity. reflexivity. }
  unfold rlikelihood. cbn [for_flow]. unfold rlik_body. cbn [adm Nat.eqb negb orb concat app row_of filter map fst snd existsb]. cbn [t nth row_vec combine fst snd].
  rewrite LP. reflexivity.
Qed.
Print Assumptions C101_projection_refuted.
