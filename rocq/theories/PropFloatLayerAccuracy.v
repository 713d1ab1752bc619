(** Property C109: accuracy of the layers of the multi-label models in double precision. *)
From Verif Require Import Base Num Spec Kernels KernelFacts MultiKernels MultiFacts Prob Ensemble EnsembleFacts ModelFacts Layers LayerFacts LayerProps LayerLib PropLayers Conditional Solver
  Float FloatFacts FloatSolver FloatSolverFacts FloatSample FloatMulti FloatMultiFacts FloatLayers PropFloat PropFloatSample PropFloatSolver PropFloatMulti PropFloatLayers
  FloatRankFacts FloatAccuracy PropFloatAccuracy PropFloatLik PropFloatDraws.
Import Num Spec.
From Coq Require Import Lra Lia Sorted.
Open Scope R_scope.
Local Notation close := FloatAccuracy.close.
Local Notation drawn := PropFloatDraws.drawn.

(** * Loops over stored entries and loops over all vertices *)
Section Skip.
Variables (S T : Type) (Q : S -> Prop) (b : nat -> num -> S -> flow S T).
Hypothesis Keep : forall i x s, Q s -> match b i x s with Next s' => Q s' | Return _ => True end.

Lemma each_seq : forall (f : nat -> S -> flow S T) n s, each_flow (seq 0 n) f s = for_flow n f s.
Proof.
  intros f. assert (A : forall (l l' : list nat) s, each_flow (l ++ l') f s = match each_flow l f s with Next s' => each_flow l' f s' | Return r => Return r end).
  { induction l as [|x l IH]; intros l' s; [reflexivity|]. cbn [app each_flow]. destruct (f x s); [apply IH | reflexivity]. }
  induction n as [|n IH]; intros s; [reflexivity|]. rewrite seq_S, A, IH. cbn [for_flow plus]. destruct (for_flow n f s); [|reflexivity]. cbn [each_flow]. destruct (f n s0); reflexivity.
Qed.
Lemma skip_from : forall n a (v : svec) s, StronglySorted lt (map fst v) -> (forall i, In i (map fst v) -> (a <= i < a + n)%nat) ->
  (forall i s, (a <= i < a + n)%nat -> ~ In i (map fst v) -> Q s -> b i (Fin 0) s = Next s) -> Q s ->
  each_flow v (fun e => b (fst e) (snd e)) s = each_flow (seq a n) (fun i => b i (lookup i v)) s.
Proof.
  induction n as [|n IH]; intros a v s Sv Hv Hz Hs.
  - destruct v as [|[i x] t]; [reflexivity|]. exfalso. specialize (Hv i (or_introl eq_refl)). lia.
  - cbn [seq each_flow]. destruct v as [|[i x] t].
    + change (lookup a []) with (Fin 0). rewrite Hz by (try assumption; try lia; intros []). rewrite <- (IH (Datatypes.S a) [] s); [reflexivity | constructor | intros i [] | | exact Hs].
      intros i s' Hi Hn. apply Hz; [lia | exact Hn].
    + assert (Tl : forall k, In k (map fst t) -> (i < k)%nat) by (inversion Sv as [|? ? ? F]; intros k Hk; apply (proj1 (Forall_forall _ _) F k Hk)).
      destruct (Nat.eq_dec i a) as [-> | NE].
      * cbn [lookup each_flow fst snd]. rewrite Nat.eqb_refl. pose proof (Keep a x s Hs) as K. destruct (b a x s) as [s'|r]; [|reflexivity].
        rewrite (IH (Datatypes.S a) t s'); [| inversion Sv; assumption | | | exact K].
        -- assert (X : forall (l : list nat) s0, (forall k, In k l -> (a < k)%nat) -> each_flow l (fun i => b i (lookup i t)) s0 = each_flow l (fun i => b i (if Nat.eqb a i then x else lookup i t)) s0).
           { induction l as [|k l IHl]; intros s0 Hl; [reflexivity|]. cbn [each_flow]. rewrite (proj2 (Nat.eqb_neq a k)) by (specialize (Hl k (or_introl eq_refl)); lia).
             destruct (b k (lookup k t) s0); [apply IHl; intros k' Hk'; apply Hl; right; exact Hk' | reflexivity]. }
           apply X. intros k Hk. apply in_seq in Hk. lia.
        -- intros k Hk. specialize (Tl k Hk). specialize (Hv k (or_intror Hk)). lia.
        -- intros k s0 Hk Hn. apply Hz; [lia|]. intros [E | E]; [cbn in E; lia | exact (Hn E)].
      * assert (Ha : ~ In a (map fst ((i, x) :: t))). { intros [E | E]; [cbn in E; lia|]. specialize (Tl a E). specialize (Hv i (or_introl eq_refl)). lia. }
        rewrite (lookup_notin a _ Ha), Hz by (try assumption; lia). apply IH; [exact Sv | | | exact Hs].
        -- intros k Hk. specialize (Hv k Hk). destruct (Nat.eq_dec k a) as [-> | NK]; [contradiction | lia].
        -- intros k s0 Hk Hn. apply Hz; [lia | exact Hn].
Qed.
Lemma skip_flow : forall N (v : svec) s, canonical N v -> (forall i s, (i < N)%nat -> ~ In i (map fst v) -> Q s -> b i (Fin 0) s = Next s) -> Q s ->
  each_flow v (fun e => b (fst e) (snd e)) s = for_flow N (fun i => b i (lookup i v)) s.
Proof.
  intros N v s C Hz Hs. rewrite (skip_from N 0 v s); [apply each_seq | apply C | | | exact Hs].
  - intros i Hi. pose proof (canonical_lt N v i C Hi). lia.
  - intros i s0 Hi. apply Hz. lia.
Qed.
End Skip.

Lemma flow_ext_inv : forall S T (Q : S -> Prop) n (b b' : nat -> S -> flow S T) s, Q s ->
  (forall i s, (i < n)%nat -> Q s -> b i s = b' i s /\ match b' i s with Next s' => Q s' | Return _ => True end) ->
  for_flow n b s = for_flow n b' s /\ match for_flow n b' s with Next s' => Q s' | Return _ => True end.
Proof.
  intros S T Q n b b' s Hs H. induction n as [|n IH]; [split; [reflexivity | exact Hs]|]. cbn [for_flow].
  destruct (IH (fun i s Hi => H i s (le_S _ _ Hi))) as [E K]. rewrite E. destruct (for_flow n b' s) as [s'|r]; [apply H; [lia | exact K] | split; [reflexivity | exact I]].
Qed.
Lemma each_keep : forall X S T (Q : S -> Prop) (l : list X) (b : X -> S -> flow S T) s, Q s ->
  (forall x s, Q s -> match b x s with Next s' => Q s' | Return _ => True end) -> match each_flow l b s with Next s' => Q s' | Return _ => True end.
Proof.
  intros X S T Q l b. induction l as [|x l IH]; intros s Hs K; [exact Hs|]. cbn [each_flow]. pose proof (K x s Hs) as Kx. destruct (b x s); [apply IH; assumption | exact I].
Qed.
Section SkipPairs.
Variables (S T : Type) (Q : S -> Prop) (body : nat -> num -> nat -> num -> S -> flow S T) (N : nat) (po pin : svec).
Hypothesis C1 : canonical N po.
Hypothesis C2 : canonical N pin.
Hypothesis Keep : forall i x j y s, Q s -> match body i x j y s with Next s' => Q s' | Return _ => True end.
Hypothesis Skip : forall i j s, (i < N)%nat -> (j < N)%nat -> (~ In i (map fst po) \/ ~ In j (map fst pin)) -> Q s -> body i (lookup i po) j (lookup j pin) s = Next s.
Lemma skip_pairs : forall s, Q s -> each_flow po (fun o => each_flow pin (fun q => body (fst o) (snd o) (fst q) (snd q))) s =
  for_flow N (fun i => for_flow N (fun j => body i (lookup i po) j (lookup j pin))) s.
Proof.
  intros s Hs. set (b := fun i x => each_flow pin (fun q => body i x (fst q) (snd q))).
  assert (Kb : forall i x s, Q s -> match b i x s with Next s' => Q s' | Return _ => True end) by (intros i x s0 H0; apply each_keep; [exact H0 | intros q s1; apply Keep]).
  change (each_flow po (fun o => b (fst o) (snd o)) s = for_flow N (fun i => for_flow N (fun j => body i (lookup i po) j (lookup j pin))) s).
  rewrite (skip_flow S T Q b Kb N po s C1); [| |exact Hs].
  - apply (flow_ext_inv S T Q); [exact Hs|]. intros i s0 Hi H0.
    assert (E : b i (lookup i po) s0 = for_flow N (fun j => body i (lookup i po) j (lookup j pin)) s0).
    { apply (skip_flow S T Q (body i (lookup i po))); [intros j y s1; apply Keep | exact C2 | | exact H0].
      intros j s1 Hj Hn H1. pose proof (Skip i j s1 Hi Hj (or_intror Hn) H1) as X. rewrite (lookup_notin j pin Hn) in X. exact X. }
    split; [exact E|]. rewrite <- E. apply Kb. exact H0.
  - intros i s0 Hi Hn H0. unfold b.
    assert (X : forall l : svec, (forall q, In q l -> In q pin) -> each_flow l (fun q => body i (Fin 0) (fst q) (snd q)) s0 = Next s0).
    { induction l as [|[j y] l IH]; intros Hl; [reflexivity|]. cbn [each_flow fst snd]. pose proof (Hl _ (or_introl eq_refl)) as Hj.
      assert (Ej : lookup j pin = y) by (apply (lookup_in pin (j, y)); [apply (canonical_nodup N), C2 | exact Hj]).
      pose proof (Skip i j s0 Hi (canonical_lt N pin j C2 (in_map fst _ _ Hj)) (or_introl Hn) H0) as E. rewrite (lookup_notin i po Hn), Ej in E. rewrite E.
      apply IH. intros q Hq. apply Hl. right. exact Hq. }
    apply X. auto.
Qed.
End SkipPairs.

(** What a sum in doubles can be, and adding 0 to it *)
Definition settled (a : num) : Prop := match a with Fin v => double v | _ => True end.
Lemma b64_settled : forall r, settled (b64 r).
Proof.
  intros r. unfold settled. destruct (Rle_or_lt 0 r) as [H|H].
  - destruct (b64_nonneg r H) as [-> | (v & -> & _ & D)]; [exact I | exact D].
  - replace r with (- (- r)) by ring. rewrite b64_opp. destruct (b64_nonneg (- r) ltac:(lra)) as [-> | (v & -> & _ & D)]; [exact I | apply double_opp, D].
Qed.
Lemma radd_settled : forall a c, settled (radd b64 a c).
Proof. intros a c. unfold radd. destruct (nadd a c); try exact I. apply b64_settled. Qed.
Lemma radd_zero : forall a, settled a -> radd b64 a (Fin 0) = a.
Proof. intros [v| | |] H; try reflexivity. unfold radd. cbn [nadd rnd_num]. rewrite Rplus_0_r. apply b64_fixed, H. Qed.

(** * The kernels of a layer are those of the single-label model without dyadic term *)
Definition is_inv (kd : kind) : bool := match kd with fitness => false | invariant => true end.
Definition law (kd : kind) : R -> R := match kd with fitness => logistic | invariant => poissonian end.
Lemma same_kernels : forall kd d x y, datum d -> datum x -> datum y -> m_p kd d x y = float_p (is_inv kd) d x y (Fin 1) /\
  m_logp kd d x y = float_logp (is_inv kd) d x y (Fin 1) /\ m_log1mp kd d x y = float_log1mp (is_inv kd) d x y (Fin 1).
Proof.
  intros kd d x y Hd Hx Hy. destruct (C100_layers d x y Hd Hx Hy) as (A1 & A2 & A3 & _ & A4 & A5 & A6 & _). destruct kd; auto.
Qed.
Lemma same_p : forall kd d x y, amount d -> datum x -> datum y -> m_p kd d x y = float_p (is_inv kd) d x y (Fin 1).
Proof.
  intros kd d x y [-> | Hd] Hx Hy; [|apply same_kernels; assumption]. assert (Z1 : is0 (Fin 1) = false) by (apply is0_fin_pos; lra).
  destruct kd; cbn [m_p is_inv float_p]; unfold rmfit_p_ijk, rminv_p_ijk, rfit_p_ij, rinv_p_ij; rewrite Z1, orb_false_r; (destruct (is0 x) eqn:Zx; [reflexivity|]; destruct (is0 y) eqn:Zy; [reflexivity|]);
    destruct (datum_pos x Hx Zx) as (wx & -> & Px & Dx), (datum_pos y Hy Zy) as (wy & -> & Py & Dy); cbn [is0 neqb orb]; rewrite !inf_mul by lra; reflexivity.
Qed.
Lemma m_log1mp_zero : forall k d x y, is0 x = true \/ is0 y = true -> m_log1mp k d x y = Fin 0.
Proof. intros k d x y H. destruct k; cbn [m_log1mp]; unfold rmfit_log1mp_ijk, rminv_log1mp_ijk; destruct H as [-> | ->]; rewrite ?orb_true_r; reflexivity. Qed.
Lemma m_logp_zero : forall k d x y, is0 x = true \/ is0 y = true -> m_logp k d x y = NInf.
Proof. intros k d x y H. destruct k; cbn [m_logp]; unfold rmfit_logp_ijk, rminv_logp_ijk; destruct H as [-> | ->]; rewrite ?orb_true_r; reflexivity. Qed.

(** The loops over all pairs of vertices, for the data of a layer *)
Section Layer.
Variables (kd : kind) (d : num) (po pin : svec) (N : nat) (sl : bool).
Hypothesis C1 : canonical N po.
Hypothesis C2 : canonical N pin.
Hypothesis D1 : row_data po.
Hypothesis D2 : row_data pin.
Let p i j := float_p (is_inv kd) d (lookup i po) (lookup j pin) (Fin 1).
Let lp i j := float_logp (is_inv kd) d (lookup i po) (lookup j pin) (Fin 1).
Let l1 i j := float_log1mp (is_inv kd) d (lookup i po) (lookup j pin) (Fin 1).

Lemma each_to_flow : forall X (l : list X) (f : X -> num -> num) s, each_flow l (fun x s => Next (f x s)) s = @Next num num (for_each l f s).
Proof. intros X l f. induction l as [|x l IH]; intros s; [reflexivity | apply IH]. Qed.
Lemma range_to_flow : forall n (f : nat -> num -> num) s, for_flow n (fun i s => Next (f i s)) s = @Next num num (for_range n f s).
Proof. intros n f s. induction n as [|n IH]; [reflexivity|]. cbn [for_flow for_range]. rewrite IH. reflexivity. Qed.


Lemma entry : forall i j x y, In (i, x) po -> In (j, y) pin -> lookup i po = x /\ lookup j pin = y.
Proof.
  intros i j x y Hi Hj. split; [apply (lookup_in po (i, x)) | apply (lookup_in pin (j, y))]; try assumption; apply (canonical_nodup N); assumption.
Qed.
Lemma edges_same : amount d -> rexp_edges_layer b64 (m_p kd) d po pin sl = rexp_edges b64 p N sl.
Proof.
  intros Hd.
  enough (E : @Next num num (rexp_edges_layer b64 (m_p kd) d po pin sl) = Next (rexp_edges b64 p N sl)) by congruence.
  unfold rexp_edges_layer, rexp_edges. rewrite <- each_to_flow, <- range_to_flow.
  set (body := fun i x j y (e : num) => @Next num num (if adm sl i j then radd b64 e (m_p kd d x y) else e)).
  transitivity (each_flow po (fun o => each_flow pin (fun q => body (fst o) (snd o) (fst q) (snd q))) (Fin 0)).
  { apply each_flow_ext. intros [i x] s. rewrite <- each_to_flow. apply each_flow_ext. intros [j y] s'. reflexivity. }
  rewrite (skip_pairs num num settled body N po pin C1 C2).
  - apply flow_ext. intros i s Hi. rewrite <- range_to_flow. apply flow_ext. intros j s' Hj. unfold body, p. rewrite (same_p kd d _ _ Hd (lookup_datum i po D1) (lookup_datum j pin D2)). reflexivity.
  - intros i x j y s Hs. unfold body. destruct (adm sl i j); [apply radd_settled | exact Hs].
  - intros i j s _ _ Hn Hs. unfold body. rewrite m_p_zero; [rewrite (radd_zero s Hs); destruct (adm sl i j); reflexivity|].
    destruct Hn as [Hn | Hn]; rewrite (lookup_notin _ _ Hn); [left | right]; apply is0_0.
  - apply double_0.
Qed.

Lemma likelihood_same : datum d -> forall G, (forall i j, In (i, j) G -> (i < N)%nat /\ (j < N)%nat /\ allowed sl i j = true) ->
  rlikelihood_layer b64 (m_logp kd) (m_log1mp kd) d po pin (row_of G) N sl = rlikelihood b64 lp l1 (row_of G) N sl.
Proof.
  intros Hd G HG. unfold rlikelihood_layer, rlikelihood.
  assert (Ret : forall i j s t, (i < N)%nat -> (j < N)%nat -> rlik_body b64 lp l1 sl (existsb (Nat.eqb j) (row_of G i)) i j s = Return t -> t = NInf).
  { intros i j s t Hi Hj. unfold rlik_body. destruct (adm sl i j); [|discriminate]. cbv zeta.
    destruct (layer_term kd d (lookup i po) (lookup j pin) Hd (lookup_datum i po D1) (lookup_datum j pin D2)) as (pp & _ & _ & _ & A & B).
    destruct (same_kernels kd d _ _ Hd (lookup_datum i po D1) (lookup_datum j pin D2)) as (_ & E1 & E2). rewrite E1 in A. rewrite E2 in B. fold (lp i j) in A. fold (l1 i j) in B.
    destruct (existsb (Nat.eqb j) (row_of G i)).
    - destruct A as [[-> _] | (_ & l & -> & _)]; cbn [isinf]; [intros H; injection H as <-; reflexivity | discriminate].
    - destruct B as [[-> _] | (l & -> & _)]; cbn [isinf]; [intros H; injection H as <-; reflexivity | discriminate]. }
  destruct (impossible_link po pin (row_of G) N) eqn:Im.
  - apply (impossible_spec N po pin C1 C2) in Im; [|intros [i j] He; apply (HG i j He)]. destruct Im as (i & j & Hij & Z0). destruct (HG i j Hij) as (Hi & Hj & A).
    symmetry. rewrite (flow_hit num N _ (Fin 0) i Hi); [reflexivity | |].
    + intros k s t Hk. pose proof (flow_rule num num N (fun _ _ => True) (fun t => t = NInf) (fun j => rlik_body b64 lp l1 sl (existsb (Nat.eqb j) (row_of G k)) k j) s I) as F. intros E. rewrite E in F. apply F.
      intros j' s' Hj' _. destruct (rlik_body b64 lp l1 sl _ k j' s') as [|t'] eqn:E'; [exact I | apply (Ret k j' s' t' Hk Hj' E')].
    + intros s. apply (flow_hit num N _ s j Hj); [intros k s0 t Hk; apply Ret; assumption|]. intros s0. unfold rlik_body. change (adm sl i j) with (allowed sl i j). rewrite A, row_of_mem, (proj2 (mem_spec _ _) Hij). cbv zeta.
      unfold lp. rewrite <- (proj1 (proj2 (same_kernels kd d _ _ Hd (lookup_datum i po D1) (lookup_datum j pin D2)))), (m_logp_zero kd d _ _ Z0). reflexivity.
  - f_equal. set (body := fun i x j y (s : num) => if adm sl i j then let tmp := if existsb (Nat.eqb j) (row_of G i) then m_logp kd d x y else m_log1mp kd d x y in if isinf tmp then Return tmp else Next (radd b64 s tmp) else Next s).
    transitivity (each_flow po (fun o => each_flow pin (fun q => body (fst o) (snd o) (fst q) (snd q))) (Fin 0)).
    { apply each_flow_ext. intros [i x] s. apply each_flow_ext. intros [j y] s'. reflexivity. }
    rewrite (skip_pairs num num settled body N po pin C1 C2).
    + apply flow_ext. intros i s Hi. apply flow_ext. intros j s' Hj. unfold body, rlik_body, lp, l1. destruct (same_kernels kd d _ _ Hd (lookup_datum i po D1) (lookup_datum j pin D2)) as (_ & -> & ->). reflexivity.
    + intros i x j y s Hs. unfold body. destruct (adm sl i j); [|exact Hs]. cbv zeta. destruct (isinf _); [exact I | apply radd_settled].
    + intros i j s Hi Hj Hn Hs. unfold body. destruct (adm sl i j); [|reflexivity]. cbv zeta.
      assert (Z0 : is0 (lookup i po) = true \/ is0 (lookup j pin) = true) by (destruct Hn as [Hn | Hn]; rewrite (lookup_notin _ _ Hn); [left | right]; apply is0_0).
      rewrite row_of_mem. destruct (mem (i, j) G) eqn:M.
      * exfalso. apply mem_spec in M. assert (X : impossible_link po pin (row_of G) N = true) by (apply (impossible_spec N po pin C1 C2); [intros [i' j'] He; apply (HG i' j' He) | exists i, j; auto]). congruence.
      * rewrite (m_log1mp_zero kd d _ _ Z0). cbn [isinf]. rewrite (radd_zero s Hs). reflexivity.
    + apply double_0.
Qed.
End Layer.

(** Whatever the data: the loops over the stored entries give, bit for bit, the values of the single-label model for
    the same fitnesses and no dyadic term. *)
Theorem C109_same : forall kd d po pin N sl, amount d -> canonical N po -> canonical N pin -> row_data po -> row_data pin ->
  let x i := lookup i po in let y j := lookup j pin in
  rexp_edges_layer b64 (m_p kd) d po pin sl = rexp_edges b64 (fun i j => float_p (is_inv kd) d (x i) (y j) (Fin 1)) N sl /\
  (datum d -> forall G, (forall i j, In (i, j) G -> (i < N)%nat /\ (j < N)%nat /\ allowed sl i j = true) ->
     rlikelihood_layer b64 (m_logp kd) (m_log1mp kd) d po pin (row_of G) N sl =
     rlikelihood b64 (fun i j => float_logp (is_inv kd) d (x i) (y j) (Fin 1)) (fun i j => float_log1mp (is_inv kd) d (x i) (y j) (Fin 1)) (row_of G) N sl) /\
  (forall z f, drawn (binary_sample_layer (fun d x y (_ : num) => toR (m_p kd d x y)) z d po pin sl) f =
     drawn (binary_sample (fun d x y z => toR (float_p (is_inv kd) d x y z)) d x y (fun _ _ => Fin 1) N sl) f).
Proof.
  intros kd d po pin N sl Hd C1 C2 D1 D2 x y. split; [apply edges_same; assumption|]. split; [intros Hd' G HG; apply likelihood_same; assumption|].
  intros z f. rewrite sample_mean, mean_bern, (sample_support num _ z N d po pin C1 C2), drawn_bern.
  assert (E : forall e, m_p kd d (lookup (fst e) po) (lookup (snd e) pin) = float_p (is_inv kd) d (x (fst e)) (y (snd e)) (Fin 1)) by (intros e; apply (same_p kd d _ _ Hd (lookup_datum _ po D1) (lookup_datum _ pin D2))).
  rewrite bern_drop.
  - f_equal. unfold bern. f_equal. apply FunctionalExtensionality.functional_extensionality. intros e. rewrite E. reflexivity.
  - intros e _ H. rewrite m_p_zero; [|apply andb_false_iff in H; destruct H as [H|H]; apply stored_false in H; rewrite H; [left | right]; apply is0_0].
    cbn [toR]. apply (hit_spec 0 ltac:(lra)). reflexivity.
Qed.
Print Assumptions C109_same.

(** The second vertex has no out-fitness. *)
Example C109_same_case : canonical 2 [(0%nat, Fin 1)] /\ canonical 2 [(0%nat, Fin 1); (1%nat, Fin 1)] /\ row_data [(0%nat, Fin 1)] /\ row_data [(0%nat, Fin 1); (1%nat, Fin 1)] /\
  rexp_edges_layer b64 (m_p fitness) (Fin 1) [(0%nat, Fin 1)] [(0%nat, Fin 1); (1%nat, Fin 1)] false = Fin (1 / 2).
Proof.
  assert (D : double (1 / 2)) by (replace (1 / 2) with (two (-1)) by (rewrite two_m1; lra); apply double_two; lia).
  split; [split; cbn; repeat constructor|]. split; [split; cbn; repeat constructor|]. do 2 (split; [repeat constructor; apply datum_1|]).
  unfold rexp_edges_layer, for_each. cbn [fold_left adm Nat.eqb negb orb]. rewrite half_prob. unfold radd. cbn [nadd rnd_num]. replace (0 + 1 / 2) with (1 / 2) by ring. apply b64_fixed, D.
Qed.

(** * Accuracy *)
Definition moderate_values (v : svec) : Prop := Forall (fun e => moderate (snd e)) v.
Lemma row_moderate_data : forall v, moderate_values v -> row_data v.
Proof. intros v H. eapply Forall_impl; [|exact H]. intros e. apply moderate_datum. Qed.

(** For fitnesses that are zero or between 2^-130 and 2^130, the computed expected number of links of a layer is its mean
    number of links, with the error of the single-label model. *)
Theorem C109_edges : forall kd d po pin N sl, amount d -> canonical N po -> canonical N pin -> moderate_values po -> moderate_values pin -> (Z.of_nat (N * N) <= 2 ^ 52)%Z ->
  let q i j := link_prob (law kd) [d; lookup i po; lookup j pin; Fin 1] in
  let mean := ensemble_mean N sl (graph_weight N sl q) (g_edges N) in
  exists e, rexp_edges_layer b64 (m_p kd) d po pin sl = Fin e /\ Rabs (e - mean) <= two (-52) * (INR (N * N) + 16) * mean + two (-730).
Proof.
  intros kd d po pin N sl Hd C1 C2 D1 D2 HN q mean. destruct (C109_same kd d po pin N sl Hd C1 C2 (row_moderate_data po D1) (row_moderate_data pin D2)) as (-> & _).
  assert (E : q = fun i j => exact_prob (is_inv kd) d (lookup i po) (lookup j pin) (Fin 1)) by (unfold q, exact_prob; destruct kd; reflexivity). unfold mean. rewrite E.
  apply (C106_edges (is_inv kd) d (fun i => lookup i po) (fun j => lookup j pin) (fun _ _ => Fin 1) N sl); [exact Hd | | exact HN].
  intros i _. split; [apply lookup_moderate, D1|]. split; [apply lookup_moderate, D2|]. intros j _. apply moderate_1.
Qed.
Print Assumptions C109_edges.

Example C109_edges_case : amount (Fin 1) /\ canonical 2 [(0%nat, Fin 1)] /\ canonical 2 [(0%nat, Fin 1); (1%nat, Fin 1)] /\
  moderate_values [(0%nat, Fin 1)] /\ moderate_values [(0%nat, Fin 1); (1%nat, Fin 1)] /\ (Z.of_nat (2 * 2) <= 2 ^ 52)%Z /\
  link_prob (law fitness) [Fin 1; lookup 0 [(0%nat, Fin 1)]; lookup 1 [(0%nat, Fin 1); (1%nat, Fin 1)]; Fin 1] = 1 / 2.
Proof.
  split; [right; apply datum_1|]. split; [split; cbn; repeat constructor|]. split; [split; cbn; repeat constructor|]. do 2 (split; [unfold moderate_values; repeat (apply Forall_cons; [apply moderate_1|]); apply Forall_nil|]). split; [lia|].
  change (exact_prob false (Fin 1) (Fin 1) (Fin 1) (Fin 1) = 1 / 2). rewrite pos_prob by lra. unfold prob_of_product. field.
Qed.

(** ** Log-likelihood *)
Section Tensor.
Variables (A B : R).
Hypothesis HA : 0 <= A <= 1.
Hypothesis HB : 0 <= B.
(** One more layer, of log-probability [- x] computed as [- v] *)
Lemma sum_step : forall k K X S x v, 0 <= k -> 1 <= K -> 0 <= X -> 0 <= x -> fine S -> fine v -> S + v <= two 1022 ->
  Rabs (S - X) <= ((1 + A) * K - 1) * X + k * B * K -> Rabs (v - x) <= A * x + B ->
  exists T, radd b64 (Fin (- S)) (Fin (- v)) = Fin (- T) /\ fine T /\ Rabs (T - (X + x)) <= ((1 + A) * ((1 + uu) * K) - 1) * (X + x) + (k + 1) * B * ((1 + uu) * K).
Proof.
  intros k K X S x v Hk HK HX Hx [S0 SD] [V0 VD] Big E1 E2. destruct (rv_add S v SD VD S0 V0 Big) as (E & D & R0 & R1). exists (rv (S + v)). split.
  { unfold radd. cbn [nadd rnd_num]. replace (- S + - v) with (- (S + v)) by ring. rewrite b64_opp, E. reflexivity. }
  split; [split; assumption|]. pose proof uu_pos as U0. pose proof uu_small as U1. apply Rabs_def2_le in E1, E2, R1.
  set (A1 := (1 + A) * K) in *. assert (A1g : 1 + A <= A1) by (unfold A1; nra). set (m := k * B * K) in *. assert (m0 : 0 <= m) by (unfold m; repeat apply Rmult_le_pos; lra).
  assert (Sum : Rabs (S + v - (X + x)) <= (A1 - 1) * (X + x) + (m + B)). { apply Rabs_le. assert (A * x <= (A1 - 1) * x) by (apply Rmult_le_compat_r; lra). lra. }
  apply Rabs_def2_le in Sum. replace ((1 + A) * ((1 + uu) * K)) with ((1 + uu) * A1) by (unfold A1; ring). set (t := X + x) in *. assert (T0 : 0 <= t) by (unfold t; lra).
  assert (M1 : (1 + uu) * (m + B) <= (k + 1) * B * ((1 + uu) * K)). { unfold m. replace ((k + 1) * B * ((1 + uu) * K)) with ((1 + uu) * (k * B * K + B * K)) by ring. apply Rmult_le_compat_l; [lra|]. assert (B * 1 <= B * K) by (apply Rmult_le_compat_l; lra). lra. }
  set (mm := m + B) in *. assert (M0 : 0 <= mm) by (unfold mm; lra). set (y := S + v) in *. assert (Y0 : 0 <= y) by (unfold y; lra).
  clear - R1 Sum M1 T0 A1g U0 U1 M0 Y0 HA. apply Rabs_le. split.
  - assert (y >= (2 - A1) * t - mm) by lra. assert ((1 - uu) * ((2 - A1) * t - mm) <= (1 - uu) * y) by (apply Rmult_le_compat_l; lra).
    assert (0 <= uu * (A1 - 1) * t) by (repeat apply Rmult_le_pos; lra). assert (0 <= uu * mm) by (apply Rmult_le_pos; lra). nra.
  - assert ((1 + uu) * y <= (1 + uu) * (A1 * t + mm)) by (apply Rmult_le_compat_l; lra). nra.
Qed.

Variables (t : nat -> num) (W : nat -> R) (L : nat) (Y : R).
Hypothesis HL : INR L * uu <= 1 / 8.
Hypothesis HY : 0 <= Y.
Hypothesis Size : INR L * (2 * (2 * Y) + 2 * B) <= two 1020.
Hypothesis Each : forall k, (k < L)%nat -> (t k = NInf /\ W k = 0) \/
  (0 < W k /\ exists v, t k = Fin (- v) /\ fine v /\ 0 <= - ln (W k) <= Y /\ Rabs (v - - ln (W k)) <= A * - ln (W k) + B).
Let body k like := if isinf (t k) then Return (t k) else Next (radd b64 like (t k)).

Lemma tensor_sum : forall n, (n <= L)%nat -> (for_flow n body (Fin 0) = Return NInf /\ prodn n W = 0) \/
  (0 < prodn n W /\ exists S, for_flow n body (Fin 0) = Next (Fin (- S)) /\ fine S /\ 0 <= - ln (prodn n W) <= INR n * Y /\
     Rabs (S - - ln (prodn n W)) <= ((1 + A) * (1 + uu) ^ n - 1) * - ln (prodn n W) + INR n * B * (1 + uu) ^ n).
Proof.
  induction n as [|n IH]; intros Hn; cbn [for_flow prodn].
  - right. split; [lra|]. exists 0. rewrite ln_1, !Ropp_0. split; [reflexivity|]. split; [split; [lra | apply double_0]|]. cbn [INR pow]. split; [lra|]. rewrite Rminus_0_r, Rabs_R0. lra.
  - destruct (IH ltac:(lia)) as [[-> ->] | (P0 & S & -> & FS & BS & ES)]; [left; split; [reflexivity | ring]|].
    destruct (Each n Hn) as [[Et ->] | (W0 & v & Et & Fv & Bv & Ev)]; unfold body; rewrite Et; cbn [isinf]; [left; split; [reflexivity | ring]|]. right.
    split; [apply Rmult_lt_0_compat; assumption|]. rewrite ln_mult by assumption. rewrite S_INR. cbn [pow].
    pose proof (pow_ge1 n) as P1. pose proof (pos_INR n) as N0. pose proof uu_pos as U0.
    assert (Hn8 : INR n * uu <= 1 / 8) by (eapply Rle_trans; [|exact HL]; apply Rmult_le_compat_r; [lra | apply le_INR; lia]).
    assert (P2 : (1 + uu) ^ n <= 5 / 4) by (pose proof (pow_uu n (1 / 8) Hn8 ltac:(lra)); lra). set (K := (1 + uu) ^ n) in *.
    assert (NL : INR n + 1 <= INR L) by (rewrite <- S_INR; apply le_INR, Hn).
    assert (Big : S + v <= two 1022).
    { pose proof (Rabs_def2_le _ _ ES) as ES'. pose proof (Rabs_def2_le _ _ Ev) as Ev'. set (X := - ln (prodn n W)) in *. set (x := - ln (W n)) in *.
      assert (S <= (1 + A) * K * X + INR n * B * K) by lra. assert (v <= (1 + A) * x + B) by lra.
      assert ((1 + A) * K <= 5 / 2) by nra. assert ((1 + A) * K * X <= 5 / 2 * (INR n * Y)) by (apply Rmult_le_compat; [apply Rmult_le_pos; lra | lra | lra | lra]).
      assert (NB : 0 <= INR n * B) by (apply Rmult_le_pos; lra). assert (INR n * B * K <= INR n * B * 2) by (apply Rmult_le_compat_l; lra). assert ((1 + A) * x <= 2 * Y) by nra.
      assert (0 <= INR n * Y) by (apply Rmult_le_pos; lra).
      assert ((INR n + 1) * (2 * (2 * Y) + 2 * B) <= INR L * (2 * (2 * Y) + 2 * B)) by (apply Rmult_le_compat_r; lra).
      assert (two 1020 <= two 1022) by (apply two_le; lia). lra. }
    destruct (sum_step (INR n) K _ S _ v N0 P1 (proj1 BS) (proj1 Bv) FS Fv Big ES Ev) as (T & -> & FT & ET). exists T. split; [reflexivity|]. split; [exact FT|].
    replace (- (ln (prodn n W) + ln (W n))) with (- ln (prodn n W) + - ln (W n)) by ring. split; [lra | exact ET].
Qed.
End Tensor.

(** Every entry of a table of fitnesses is zero or between 2^-130 and 2^130. *)
Definition moderate_table (t : list tuple) : Prop := Forall (fun r => moderate_values (row_vec r)) t.
Lemma moderate_table_data : forall t, moderate_table t -> table_data t.
Proof. intros t H. eapply Forall_impl; [|exact H]. intros r. apply row_moderate_data. Qed.
Lemma label_value_moderate : forall t i k, moderate_table t -> moderate (label_value t i k).
Proof.
  intros t i k H. unfold label_value. apply lookup_moderate. destruct (Nat.lt_ge_cases i (length t)) as [Hi|Hi].
  - apply (proj1 (Forall_forall _ _) H). apply nth_In. exact Hi.
  - rewrite nth_overflow by exact Hi. constructor.
Qed.
Lemma layer_exact : forall kd d xs ys k, layer_prob (law kd) d xs ys k = fun i j => exact_prob (is_inv kd) (d k) (label_value xs i k) (label_value ys j k) (Fin 1).
Proof. intros kd d xs ys k. unfold layer_prob, exact_prob. destruct kd; reflexivity. Qed.
(** The likelihood of a layer of two tables is that of a single-label model *)
Lemma table_layer : forall kd N L xs ys d sl k G, label_table L xs -> label_table L ys -> length xs = N -> length ys = N -> table_data xs -> table_data ys -> datum (d k) ->
  (forall i j, In (i, j) G -> (i < N)%nat /\ (j < N)%nat /\ allowed sl i j = true) ->
  rlikelihood_layer b64 (m_logp kd) (m_log1mp kd) (d k) (column (map zip xs) k) (column (map zip ys) k) (row_of G) N sl =
  rlikelihood b64 (fun i j => float_logp (is_inv kd) (d k) (label_value xs i k) (label_value ys j k) (Fin 1))
    (fun i j => float_log1mp (is_inv kd) (d k) (label_value xs i k) (label_value ys j k) (Fin 1)) (row_of G) N sl.
Proof.
  intros kd N L xs ys d sl k G Tx Ty Nx Ny Dx Dy Hd HG.
  assert (C1 : canonical N (column (map zip xs) k)) by (rewrite <- Nx; apply (layer_canonical L); exact Tx).
  assert (C2 : canonical N (column (map zip ys) k)) by (rewrite <- Ny; apply (layer_canonical L); exact Ty).
  rewrite (likelihood_same kd (d k) _ _ N sl C1 C2 (column_data L xs k Tx Dx) (column_data L ys k Ty Dy) Hd G HG).
  f_equal; apply FunctionalExtensionality.functional_extensionality; intros i; apply FunctionalExtensionality.functional_extensionality; intros j; rewrite (layer_lookup L xs Tx), (layer_lookup L ys Ty); reflexivity.
Qed.

(** For fitnesses and parameters that are zero or between 2^-130 and 2^130, the log-likelihood of a multi-label graph is
    minus infinity if the graph is impossible, and otherwise the logarithm of its exact probability, the product of
    those of its layers, up to a relative error and an absolute one for every label and pair, as in C107. *)
Theorem C109_likelihood : forall kd N L xs ys d sl Gs M l, label_table L xs -> label_table L ys -> length xs = N -> length ys = N ->
  moderate_table xs -> moderate_table ys -> (forall k, (k < L)%nat -> moderate (d k)) -> (Z.of_nat (L * (N * N)) <= 2 ^ 50)%Z -> 1 <= M <= two 30 ->
  (forall k i j, (k < L)%nat -> (i < N)%nat -> (j < N)%nat -> toR (d k) * toR (label_value xs i k) * toR (label_value ys j k) <= M) ->
  length Gs = L -> (forall G, In G Gs -> In G (all_graphs N sl)) ->
  log_of (prodn L (fun k => graph_weight N sl (layer_prob (law kd) d xs ys k) (nth k Gs []))) l ->
  exists a, rlog_likelihood_tensor b64 (m_logp kd) (m_log1mp kd) N L xs ys d sl (fun k => row_of (nth k Gs [])) = Ok a /\
  match l with
  | Fin r => exists v, a = Fin v /\ Rabs (v - r) <= two (-51) * (INR (N * N) + INR L + 4) * Rabs r + two (-44) * INR (L * (N * N)) * M
  | _ => a = NInf
  end.
Proof.
  intros kd N L xs ys d sl Gs M l Tx Ty Nx Ny Mx My Hd HN HM HP HG HA HL. pose proof (moderate_table_data xs Mx) as Dx. pose proof (moderate_table_data ys My) as Dy.
  rewrite tensor_columns by assumption. eexists. split; [reflexivity|]. unfold rlikelihood_tensor.
  set (t := fun k => rlikelihood_layer b64 (m_logp kd) (m_log1mp kd) (d k) (column (map zip xs) k) (column (map zip ys) k) (row_of (nth k Gs [])) N sl).
  set (W := fun k => graph_weight N sl (layer_prob (law kd) d xs ys k) (nth k Gs [])) in *.
  change (fun (k : nat) (like : num) => let tmp := rlikelihood_layer b64 (m_logp kd) (m_log1mp kd) (d k) (column (map zip xs) k) (column (map zip ys) k) (row_of (nth k Gs [])) N sl in
    if isinf tmp then Return tmp else Next (radd b64 like tmp)) with (fun (k : nat) (like : num) => if isinf (t k) then @Return num num (t k) else Next (radd b64 like (t k))).
  destruct (Nat.eq_dec L 0) as [L0 | L1].
  { rewrite L0 in *. cbn [for_flow flow_val prodn] in *. destruct HL as [[_ ->] | [H _]]; [|lra]. exists 0. split; [reflexivity|]. rewrite ln_1, Rminus_0_r, Rabs_R0. cbn [Nat.mul INR]. lra. }
  assert (N1 : (1 <= N)%nat) by (destruct Tx as (T1 & _); destruct xs as [|r xs']; [congruence | cbn in Nx; lia]).
  assert (NN : (1 <= N * N)%nat) by nia.
  assert (HNN : (Z.of_nat (N * N) <= 2 ^ 50)%Z) by (assert (N * N <= L * (N * N))%nat by nia; lia).
  assert (HLL : (Z.of_nat L <= 2 ^ 50)%Z) by (assert (L <= L * (N * N))%nat by nia; lia).
  pose proof (count_uu _ _ HLL ltac:(lia)) as CL. pose proof (count_uu _ _ HNN ltac:(lia)) as CN.
  assert (E8 : two (50 - 53) = 1 / 8) by (change (50 - 53)%Z with (-3)%Z; tw; lra). rewrite E8 in CL, CN.
  pose proof kk_small as K. pose proof uu_pos as U0. pose proof uu_small as U1. pose proof (pos_INR (N * N)) as PN. pose proof (pos_INR L) as PL.
  assert (E4 : two (-51) = 4 * uu) by (change (-51)%Z with (2 + -53)%Z; rewrite two_add, (two_Z 2) by lia; reflexivity).
  assert (E16 : two (-44) = 32 * kk) by (change (-44)%Z with (5 + -49)%Z; rewrite two_add, (two_Z 5) by lia; reflexivity).
  set (A := two (-51) * (INR (N * N) + 4)). set (B := 2 * (INR (N * N) * slack M)).
  assert (SM : slack M = 5 * kk * M) by reflexivity. assert (S0 : 0 <= slack M) by (rewrite SM; apply Rmult_le_pos; lra).
  assert (A01 : 0 <= A <= 6 / 10) by (unfold A; rewrite E4; nra). assert (B0 : 0 <= B) by (unfold B; assert (0 <= INR (N * N) * slack M) by (apply Rmult_le_pos; lra); lra).
  pose proof (two_pos 530) as P530. set (Y := INR (N * N) * two 530). assert (Y0 : 0 <= Y) by (unfold Y; apply Rmult_le_pos; lra).
  assert (Each : forall k, (k < L)%nat -> (t k = NInf /\ W k = 0) \/
    (0 < W k /\ exists v, t k = Fin (- v) /\ fine v /\ 0 <= - ln (W k) <= Y /\ Rabs (v - - ln (W k)) <= A * - ln (W k) + B)).
  { intros k Hk.
    assert (HGk : forall i j, In (i, j) (nth k Gs []) -> (i < N)%nat /\ (j < N)%nat /\ allowed sl i j = true).
    { intros i j Hij. apply in_pairs. apply (sublists_incl _ _ (nth k Gs [])); [|exact Hij]. apply HA, nth_In. rewrite HG. exact Hk. }
    pose proof (lik_logged (is_inv kd) (d k) (fun i => label_value xs i k) (fun j => label_value ys j k) (fun _ _ => Fin 1) N sl (nth k Gs []) M (Hd k Hk)) as Q.
    destruct Q as (C & SL & Q).
    - intros i _. split; [apply label_value_moderate, Mx|]. split; [apply label_value_moderate, My|]. intros j _. apply moderate_1.
    - exact HNN.
    - exact HM.
    - intros i j Hi Hj. change (toR (Fin 1)) with 1. rewrite Rmult_1_r. apply HP; assumption.
    - unfold t, W. rewrite (table_layer kd N L xs ys d sl k _ Tx Ty Nx Ny Dx Dy (moderate_datum _ (Hd k Hk)) HGk), layer_exact.
      destruct Q as [Q | Q]; [left; exact Q|]. right. destruct (logged_error _ _ _ _ (proj1 SL) C Q) as (v' & Ev' & Er). destruct Q as (W0 & v & Ev & Fv & Bv & _). split; [exact W0|]. exists v. split; [exact Ev|]. split; [exact Fv|]. split; [exact Bv|].
      rewrite Ev in Ev'. injection Ev' as <-. rewrite <- (Rabs_Ropp (ln _)), (Rabs_right (- ln _)) in Er by lra. rewrite <- Rabs_Ropp.
      match type of Er with Rabs ?a <= _ => match goal with |- Rabs ?b <= _ => replace b with a by ring end end. exact Er. }
  assert (LN : INR L * INR (N * N) <= two 50). { rewrite <- mult_INR, INR_IZR_INZ, two_Z by lia. apply IZR_le, HN. }
  assert (LN0 : 0 <= INR L * INR (N * N)) by (apply Rmult_le_pos; lra).
  assert (KM : kk * M <= 1) by (pose proof (kk_30 M HM); lra).
  assert (Size : INR L * (2 * (2 * Y) + 2 * B) <= two 1020).
  { unfold Y, B. replace (INR L * (2 * (2 * (INR (N * N) * two 530)) + 2 * (2 * (INR (N * N) * slack M)))) with (INR L * INR (N * N) * (4 * two 530 + 4 * slack M)) by ring.
    assert (P1 : 1 <= two 530) by (rewrite <- two_0; apply two_le; lia). assert (F : 0 <= 4 * two 530 + 4 * slack M <= two 5 * two 530) by (rewrite SM, (two_Z 5) by lia; change (IZR (2 ^ 5)) with 32; lra).
    apply Rle_trans with (two 50 * (two 5 * two 530)); [apply Rmult_le_compat; lra|]. rewrite <- !two_add. apply two_le. lia. }
  assert (A1 : 0 <= A <= 1) by lra.
  destruct (tensor_sum A B A1 B0 t W L Y CL Y0 Size Each L (le_n _)) as [[E Z] | (W0 & S & E & FS & BS & ES)]; unfold t in E; rewrite E; cbn [flow_val].
  - destruct HL as [[H _] | [_ ->]]; [lra | reflexivity].
  - destruct HL as [[_ ->] | [H _]]; [|lra]. exists (- S). split; [reflexivity|]. set (r := ln (prodn L W)) in *. replace (- S - r) with (- (S - - r)) by ring. rewrite Rabs_Ropp, <- (Rabs_Ropp r), (Rabs_right (- r)) by lra.
    eapply Rle_trans; [exact ES|]. pose proof (pow_uu L (1 / 8) CL ltac:(lra)) as P. pose proof (pow_ge1 L) as P1. set (k := (1 + uu) ^ L) in *.
    apply Rplus_le_compat.
    + apply Rmult_le_compat_r; [lra|]. replace (two (-51) * (INR (N * N) + INR L + 4)) with (A + 4 * (INR L * uu)) by (unfold A; rewrite E4; ring). nra.
    + assert (LB : 0 <= INR L * B) by (apply Rmult_le_pos; lra). apply Rle_trans with (INR L * B * (5 / 4)); [apply Rmult_le_compat_l; lra|].
      unfold B. rewrite SM, E16, (mult_INR L (N * N)). assert (0 <= INR L * INR (N * N) * (kk * M)) by (apply Rmult_le_pos; [exact LN0 | apply Rmult_le_pos; lra]). lra.
Qed.
Print Assumptions C109_likelihood.

(** Two vertices and two labels; the second vertex has no fitness for the second label. *)
Definition two_labels : list tuple := [([0; 1]%nat, [Fin 1; Fin 2]); ([0]%nat, [Fin 1])].
Lemma moderate_2 : moderate (Fin 2).
Proof. right. exists 2. split; [reflexivity|]. split; [apply (double_Z 2); lia|]. split; [apply Rle_trans with (two 1); [apply two_le; lia | rewrite two_1; lra] | apply Rle_trans with (two 1); [rewrite two_1; lra | apply two_le; lia]]. Qed.
Lemma two_labels_ok : label_table 2 two_labels /\ moderate_table two_labels.
Proof.
  split.
  - split; [discriminate|]. split; [repeat constructor|]. unfold two_labels. apply Forall_cons; [|apply Forall_cons; [|apply Forall_nil]]; cbn [row_vec combine fst snd]; (split; [split; cbn; repeat constructor; lia|]); unfold all_nonneg; repeat (apply Forall_cons; [cbn; lra|]); apply Forall_nil.
  - unfold moderate_table, two_labels. apply Forall_cons; [|apply Forall_cons; [|apply Forall_nil]]; cbn [row_vec combine fst snd]; unfold moderate_values; repeat (apply Forall_cons; [first [apply moderate_1 | apply moderate_2]|]); apply Forall_nil.
Qed.
Lemma two_labels_prob : layer_prob (law fitness) (fun _ => Fin 1) two_labels two_labels 0 0 1 = 1 / 2 /\ layer_prob (law fitness) (fun _ => Fin 1) two_labels two_labels 0 1 0 = 1 / 2 /\
  layer_prob (law fitness) (fun _ => Fin 1) two_labels two_labels 1 0 1 = 0 /\ layer_prob (law fitness) (fun _ => Fin 1) two_labels two_labels 1 1 0 = 0.
Proof.
  rewrite !layer_exact. cbn [label_value two_labels nth row_vec combine fst snd lookup Nat.eqb is_inv]. rewrite pos_prob by lra. unfold prob_of_product.
  split; [field|]. split; [field|]. split; apply zero_prob; rewrite is0_0, ?orb_true_r; reflexivity.
Qed.
Example C109_likelihood_case : label_table 2 two_labels /\ moderate_table two_labels /\ moderate (Fin 1) /\ (Z.of_nat (2 * (2 * 2)) <= 2 ^ 50)%Z /\ 1 <= 4 <= two 30 /\
  (forall k i j, (k < 2)%nat -> (i < 2)%nat -> (j < 2)%nat -> toR (Fin 1) * toR (label_value two_labels i k) * toR (label_value two_labels j k) <= 4) /\
  (forall G, In G [[(0, 1)]%nat; []] -> In G (all_graphs 2 false)) /\
  log_of (prodn 2 (fun k => graph_weight 2 false (layer_prob (law fitness) (fun _ => Fin 1) two_labels two_labels k) (nth k [[(0, 1)]%nat; []] []))) (Fin (ln (1 / 4))).
Proof.
  destruct two_labels_ok as [T1 T2]. split; [exact T1|]. split; [exact T2|]. split; [apply moderate_1|]. split; [lia|]. split; [split; [lra | tw; lra]|]. split.
  { intros k i j Hk Hi Hj. assert (B : forall i k, 0 <= toR (label_value two_labels i k) <= 2).
    { intros i' k'. unfold label_value, two_labels. destruct i' as [|[|[|i']]]; cbn [nth row_vec combine fst snd lookup]; repeat (destruct (Nat.eqb _ _)); cbn [toR]; lra. }
    pose proof (B i k). pose proof (B j k). change (toR (Fin 1)) with 1. nra. }
  split; [intros G [<- | [<- | []]]; cbn; auto 10|].
  match goal with |- log_of ?w _ => assert (E : w = 1 / 4) end.
  { destruct two_labels_prob as (P1 & P2 & P3 & P4). unfold graph_weight, prodn, allowed, mem, pair_eqb. cbn [Nat.eqb negb orb existsb fst snd andb nth]. rewrite P1, P2, P3, P4. field. }
  rewrite E. left. split; [lra | reflexivity].
Qed.

(** ** Samples *)

(** The mean over multi-label graphs with independent layers, [w k] being the probabilities of the graphs of layer [k]. *)
Fixpoint tensor_mean (N : nat) (sl : bool) (w : nat -> list (nat * nat) -> R) (L : nat) (f : list (list (nat * nat)) -> R) : R :=
  match L with
  | 0%nat => f []
  | S L' => ensemble_mean N sl (w 0%nat) (fun G => tensor_mean N sl (fun k => w (S k)) L' (fun Gs => f (G :: Gs)))
  end.

Lemma drawn_ext : forall A (m : prog A) f g, (forall a, f a = g a) -> drawn m f = drawn m g.
Proof. intros A m f g H. induction m as [a|p k IH]; [apply H|]. rewrite !drawn_draw, !IH. reflexivity. Qed.
Lemma drawn_bind : forall A B (m : prog A) (k : A -> prog B) f, drawn (pbind m k) f = drawn m (fun a => drawn (k a) f).
Proof. intros A B m k f. induction m as [a|p c IH]; [reflexivity|]. cbn [pbind]. rewrite !drawn_draw, !IH. reflexivity. Qed.
Lemma drawn_layers : forall N sl m (w : nat -> list (nat * nat) -> R) L a acc f,
  (forall k g, (k < a + L)%nat -> drawn (m k) g = ensemble_mean N sl (w k) g) ->
  drawn (layers_prog m (seq a L) acc) f = tensor_mean N sl (fun k => w (a + k)%nat) L (fun Gs => f (acc ++ Gs)).
Proof.
  intros N sl m w. induction L as [|L IH]; intros a acc f H; cbn [seq tensor_mean].
  - unfold layers_prog. cbn [for_prog drawn]. rewrite app_nil_r. reflexivity.
  - unfold layers_prog. cbn [for_prog]. rewrite !drawn_bind. rewrite H by lia. rewrite Nat.add_0_r. unfold ensemble_mean. apply suml_ext. intros G _. f_equal. cbn [drawn].
    change (drawn (layers_prog m (seq (S a) L) (acc ++ [G])) f = tensor_mean N sl (fun k => w (a + S k)%nat) L (fun Gs => f (acc ++ G :: Gs))).
    rewrite IH by (intros k g Hk; apply H; lia). 
    replace (fun k => w (S a + k)%nat) with (fun k => w (a + S k)%nat) by (apply FunctionalExtensionality.functional_extensionality; intros k; f_equal; lia).
    f_equal. apply FunctionalExtensionality.functional_extensionality. intros Gs. rewrite <- app_assoc. reflexivity.
Qed.
Lemma mean_unit : forall N sl p f, (forall i j, (i < N)%nat -> (j < N)%nat -> 0 <= p i j <= 1) -> (forall G, 0 <= f G <= 1) -> 0 <= ensemble_mean N sl (graph_weight N sl p) f <= 1.
Proof.
  intros N sl p f Hp Hf. rewrite mean_bern. apply expect_unit; [|exact Hf]. intros [i j] He. apply in_pairs in He as (Hi & Hj & _). apply Hp; assumption.
Qed.
Lemma tensor_unit : forall N sl p L f, (forall k i j, (k < L)%nat -> (i < N)%nat -> (j < N)%nat -> 0 <= p k i j <= 1) -> (forall Gs, 0 <= f Gs <= 1) ->
  0 <= tensor_mean N sl (fun k => graph_weight N sl (p k)) L f <= 1.
Proof.
  intros N sl p L. revert p. induction L as [|L IH]; intros p f Hp Hf; cbn [tensor_mean]; [apply Hf|].
  apply mean_unit; [intros i j; apply Hp; lia|]. intros G. apply (IH (fun k => p (S k))); [intros k i j Hk; apply Hp; lia | intros Gs; apply Hf].
Qed.
Lemma mean_shift : forall N sl p f g e, (forall i j, (i < N)%nat -> (j < N)%nat -> 0 <= p i j <= 1) -> (forall G, Rabs (f G - g G) <= e) ->
  Rabs (ensemble_mean N sl (graph_weight N sl p) f - ensemble_mean N sl (graph_weight N sl p) g) <= e.
Proof.
  intros N sl p f g e Hp H. rewrite !mean_bern.
  assert (X : forall (l : list (nat * nat)) acc, (forall e0, In e0 l -> 0 <= p (fst e0) (snd e0) <= 1) ->
    Rabs (expect (bern (fun e => p (fst e) (snd e)) (fun e => e) l acc) f - expect (bern (fun e => p (fst e) (snd e)) (fun e => e) l acc) g) <= e).
  { induction l as [|e0 l IH]; intros acc Hl; [apply H|]. rewrite (bern_expect _ _ _ _ (e0 :: l) acc f), (bern_expect _ _ _ _ (e0 :: l) acc g).
    pose proof (Hl e0 (or_introl eq_refl)) as P. pose proof (IH (acc ++ [e0]) (fun e1 H1 => Hl e1 (or_intror H1))) as I1. pose proof (IH acc (fun e1 H1 => Hl e1 (or_intror H1))) as I2.
    set (P0 := p (fst e0) (snd e0)) in *.
    set (a1 := expect (bern (fun e => p (fst e) (snd e)) (fun e => e) l (acc ++ [e0])) f) in *. set (b1 := expect (bern (fun e => p (fst e) (snd e)) (fun e => e) l (acc ++ [e0])) g) in *.
    set (a0 := expect (bern (fun e => p (fst e) (snd e)) (fun e => e) l acc) f) in *. set (b0 := expect (bern (fun e => p (fst e) (snd e)) (fun e => e) l acc) g) in *.
    replace (P0 * a1 + (1 - P0) * a0 - (P0 * b1 + (1 - P0) * b0)) with (P0 * (a1 - b1) + (1 - P0) * (a0 - b0)) by ring.
    apply Rabs_def2_le in I1, I2. clear - I1 I2 P. set (u := a1 - b1) in *. set (v := a0 - b0) in *. apply Rabs_le. split; nra. }
  apply X. intros [i j] He. apply in_pairs in He as (Hi & Hj & _). apply Hp; assumption.
Qed.
Lemma tensor_distance : forall N sl p q (dist : nat -> R) L f,
  (forall k i j, (k < L)%nat -> (i < N)%nat -> (j < N)%nat -> 0 <= p k i j <= 1 /\ 0 <= q k i j <= 1) -> (forall Gs, 0 <= f Gs <= 1) ->
  (forall k g, (k < L)%nat -> (forall G, 0 <= g G <= 1) -> Rabs (ensemble_mean N sl (graph_weight N sl (p k)) g - ensemble_mean N sl (graph_weight N sl (q k)) g) <= dist k) ->
  Rabs (tensor_mean N sl (fun k => graph_weight N sl (p k)) L f - tensor_mean N sl (fun k => graph_weight N sl (q k)) L f) <= sumn L dist.
Proof.
  intros N sl p q dist L. revert p q dist. induction L as [|L IH]; intros p q dist f Hpq Hf HD; cbn [tensor_mean].
  - rewrite Rminus_diag_eq by reflexivity. rewrite Rabs_R0. cbn. lra.
  - rewrite sumn_S_l.
    set (fp := fun G => tensor_mean N sl (fun k => graph_weight N sl (p (S k))) L (fun Gs => f (G :: Gs))). set (fq := fun G => tensor_mean N sl (fun k => graph_weight N sl (q (S k))) L (fun Gs => f (G :: Gs))).
    assert (D : forall G, Rabs (fp G - fq G) <= sumn L (fun k => dist (S k))).
    { intros G. apply (IH (fun k => p (S k)) (fun k => q (S k)) (fun k => dist (S k))); [intros k i j Hk; apply Hpq; lia | intros Gs; apply Hf | intros k g Hk; apply HD; lia]. }
    assert (U : forall G, 0 <= fp G <= 1) by (intros G; apply (tensor_unit N sl (fun k => p (S k))); [intros k i j Hk Hi Hj; apply (Hpq (S k) i j); lia | intros Gs; apply Hf]).
    pose proof (HD 0%nat fp ltac:(lia) U) as D0. pose proof (mean_shift N sl (q 0%nat) fp fq _ (fun i j Hi Hj => proj2 (Hpq 0%nat i j ltac:(lia) Hi Hj)) D) as D1.
    apply Rabs_def2_le in D0, D1. apply Rabs_le. lra.
Qed.

(** The computed distribution of the layers of a sample is that of independent layers of the ensembles: for every event, and
    every function with values between 0 and 1, up to 2^-52 for each label and pair and a relative error of 2^-49 in the
    number of links. *)
Theorem C109_distribution : forall kd z N L xs ys d sl arg m f, label_table L xs -> label_table L ys -> length xs = N -> length ys = N ->
  moderate_table xs -> moderate_table ys -> (forall k, (k < L)%nat -> amount (d k)) -> (forall Gs, 0 <= f Gs <= 1) ->
  sample_layers (fun d x y (_ : num) => toR (m_p kd d x y)) z L xs ys (Some d) sl arg = Ok m ->
  let w k := graph_weight N sl (layer_prob (law kd) d xs ys k) in
  Rabs (drawn m f - tensor_mean N sl w L f) <= two (-49) * sumn L (fun k => ensemble_mean N sl (w k) (g_edges N)) + INR (L * (N * N)) * two (-52).
Proof.
  intros kd z N L xs ys d sl arg m f Tx Ty Nx Ny Mx My Hd Hf E w. pose proof (moderate_table_data xs Mx) as Dx. pose proof (moderate_table_data ys My) as Dy.
  unfold sample_layers in E. rewrite (table_layers L xs Tx), (table_layers L ys Ty) in E. cbn [bind] in E. injection E as <-.
  set (b := fun k => binary_sample_layer (fun d x y (_ : num) => toR (m_p kd d x y)) z (d k) (column (map zip xs) k) (column (map zip ys) k) sl).
  match goal with |- context[for_prog (seq 0 L) ?c []] => replace (for_prog (seq 0 L) c []) with (layers_prog b (seq 0 L) []) end.
  2: { symmetry. apply for_prog_ext_in. intros k acc Hk. apply in_seq in Hk. unfold b. rewrite !nth_layers by lia. reflexivity. }
  set (p := fun k i j => hit (toR (float_p (is_inv kd) (d k) (label_value xs i k) (label_value ys j k) (Fin 1)))).
  set (q := fun k i j => exact_prob (is_inv kd) (d k) (label_value xs i k) (label_value ys j k) (Fin 1)).
  assert (Hm : forall k i, (i < N)%nat -> moderate (label_value xs i k) /\ moderate (label_value ys i k) /\ forall j, (j < N)%nat -> moderate (Fin 1)).
  { intros k i _. split; [apply label_value_moderate, Mx|]. split; [apply label_value_moderate, My|]. intros j _. apply moderate_1. }
  assert (Dr : forall k g, (k < 0 + L)%nat -> drawn (b k) g = ensemble_mean N sl (graph_weight N sl (p k)) g).
  { intros k g Hk. unfold b.
    assert (C1 : canonical N (column (map zip xs) k)) by (rewrite <- Nx; apply (layer_canonical L); exact Tx).
    assert (C2 : canonical N (column (map zip ys) k)) by (rewrite <- Ny; apply (layer_canonical L); exact Ty).
    destruct (C109_same kd (d k) _ _ N sl (Hd k Hk) C1 C2 (column_data L xs k Tx Dx) (column_data L ys k Ty Dy)) as (_ & _ & S). rewrite S, sample_mean. f_equal. f_equal.
    apply FunctionalExtensionality.functional_extensionality; intros i; apply FunctionalExtensionality.functional_extensionality; intros j. unfold p. rewrite (layer_lookup L xs Tx), (layer_lookup L ys Ty). reflexivity. }
  rewrite (drawn_layers N sl b (fun k => graph_weight N sl (p k)) L 0 [] f Dr). cbn [app plus].
  assert (Ew : w = fun k => graph_weight N sl (q k)) by (apply FunctionalExtensionality.functional_extensionality; intros k; unfold w; rewrite layer_exact; reflexivity). rewrite Ew.
  set (dist := fun k => two (-49) * ensemble_mean N sl (graph_weight N sl (q k)) (g_edges N) + INR (N * N) * two (-52)).
  apply Rle_trans with (sumn L dist).
  - change (fun Gs : list (list (nat * nat)) => f Gs) with f. apply (tensor_distance N sl p q dist L f).
    + intros k i j Hk Hi Hj. destruct (link_error (is_inv kd) (d k) (fun i => label_value xs i k) (fun j => label_value ys j k) (fun _ _ => Fin 1) N (Hd k Hk) (Hm k) i j Hi Hj) as (A1 & A2 & _). split; assumption.
    + exact Hf.
    + intros k g Hk Hg. pose proof (C108_distribution (is_inv kd) (d k) (fun i => label_value xs i k) (fun j => label_value ys j k) (fun _ _ => Fin 1) N sl g (Hd k Hk) (Hm k) Hg) as D. cbv zeta in D. rewrite sample_mean in D. exact D.
  - right. unfold dist. rewrite sumn_plus, sumn_scal_l, sumn_const, (mult_INR L (N * N)). ring.
Qed.
Print Assumptions C109_distribution.

Example C109_distribution_case : exists m, label_table 2 two_labels /\ moderate_table two_labels /\ amount (Fin 1) /\
  sample_layers (fun d x y (_ : num) => toR (m_p fitness d x y)) (fun _ _ => Fin 1) 2 two_labels two_labels (Some (fun _ => Fin 1)) false None = Ok m /\
  (forall Gs : list (list (nat * nat)), 0 <= b2r (mem (0, 1)%nat (nth 0 Gs [])) <= 1) /\
  tensor_mean 2 false (fun k => graph_weight 2 false (layer_prob (law fitness) (fun _ => Fin 1) two_labels two_labels k)) 2 (fun Gs => b2r (mem (0, 1)%nat (nth 0 Gs []))) = 1 / 2.
Proof.
  destruct two_labels_ok as [T1 T2]. eexists. split; [exact T1|]. split; [exact T2|]. split; [right; apply datum_1|]. split; [reflexivity|].
  split; [intros Gs; destruct (mem _ _); cbn; lra|]. destruct two_labels_prob as (P1 & P2 & P3 & P4).
  cbn [tensor_mean nth].
  assert (E : forall p f, ensemble_mean 2 false (graph_weight 2 false p) f =
    p 0%nat 1%nat * (p 1%nat 0%nat * f [(0, 1); (1, 0)]%nat + (1 - p 1%nat 0%nat) * f [(0, 1)]%nat) + (1 - p 0%nat 1%nat) * (p 1%nat 0%nat * f [(1, 0)]%nat + (1 - p 1%nat 0%nat) * f [])).
  { intros p f. rewrite mean_bern. change (pairs 2 false) with [(0, 1); (1, 0)]%nat. reflexivity. }
  rewrite E, P1, P2. cbn beta. rewrite !E, P3, P4. unfold mem, pair_eqb. cbn [existsb fst snd Nat.eqb andb orb b2r]. field.
Qed.
