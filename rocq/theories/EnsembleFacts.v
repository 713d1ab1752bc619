(** Facts about the ensemble computations of Ensemble.v. *)
From Verif Require Import Base Num KernelFacts Prob Ensemble.
From Coq Require Import FunctionalExtensionality FinFun.

(** ** Elementary facts *)

Lemma adm_allowed : adm = allowed.
Proof. reflexivity. Qed.
Lemma adm_neq : forall sl i j, i <> j -> allowed sl i j = true.
Proof. intros sl i j H; unfold allowed; apply Nat.eqb_neq in H; rewrite H; reflexivity. Qed.
Lemma adm_diag : forall sl i, allowed sl i i = sl.
Proof. intros sl i; unfold allowed; rewrite Nat.eqb_refl; reflexivity. Qed.
Lemma adm_sym : forall sl i j, allowed sl i j = allowed sl j i.
Proof. intros; unfold allowed; rewrite Nat.eqb_sym; reflexivity. Qed.

Lemma pair_eqb_spec : forall e f, reflect (e = f) (pair_eqb e f).
Proof.
  intros [a b] [c d]; unfold pair_eqb; simpl.
  destruct (Nat.eqb_spec a c), (Nat.eqb_spec b d); simpl; constructor; congruence.
Qed.

Lemma mem_spec : forall e G, mem e G = true <-> In e G.
Proof.
  intros e G; unfold mem; rewrite existsb_exists; split.
  - intros [f [Hf He]]; destruct (pair_eqb_spec e f); [subst; exact Hf | discriminate].
  - intros H; exists e; split; [exact H|]. destruct (pair_eqb_spec e e); [reflexivity | contradiction].
Qed.

Lemma mem_false : forall e G, mem e G = false <-> ~ In e G.
Proof. intros e G; rewrite <- mem_spec; destruct (mem e G); split; congruence. Qed.

Lemma row_of_mem : forall G i j, existsb (Nat.eqb j) (row_of G i) = mem (i, j) G.
Proof.
  intros G i j; unfold row_of, mem; induction G as [|[a b] G IH]; simpl; [reflexivity|].
  unfold pair_eqb at 1; simpl. rewrite (Nat.eqb_sym i a).
  destruct (Nat.eqb a i); simpl; rewrite IH; reflexivity.
Qed.

Lemma in_pairs : forall N sl i j, In (i, j) (pairs N sl) <-> ((i < N)%nat /\ (j < N)%nat /\ allowed sl i j = true).
Proof.
  intros N sl i j; unfold pairs; rewrite filter_In, in_prod_iff, !in_seq; simpl; intuition lia.
Qed.

Lemma NoDup_app : forall A (l1 l2 : list A), NoDup l1 -> NoDup l2 ->
  (forall x, In x l1 -> ~ In x l2) -> NoDup (l1 ++ l2).
Proof.
  intros A l1; induction l1 as [|x l1 IH]; intros l2 H1 H2 H; simpl; [exact H2|].
  inversion H1; subst. constructor.
  - rewrite in_app_iff; intros [K|K]; [contradiction | apply (H x); [left; reflexivity | exact K]].
  - apply IH; auto. intros y Hy; apply H; right; exact Hy.
Qed.

Lemma NoDup_pairs : forall N sl, NoDup (pairs N sl).
Proof.
  intros N sl; unfold pairs; apply NoDup_filter.
  generalize (seq_NoDup N 0). generalize (seq 0 N) at 1 2 as l.
  induction l as [|x l IH]; intros H; simpl; [constructor|].
  inversion H; subst. apply NoDup_app; [|apply IH; assumption|].
  - apply Injective_map_NoDup; [intros a b E; inversion E; reflexivity | apply seq_NoDup].
  - intros [a b] Ha Hb. apply in_map_iff in Ha. destruct Ha as [c [E _]]; inversion E; subst.
    apply in_prod_iff in Hb; tauto.
Qed.

Lemma pair_sum_list : forall N sl q, pair_sum N sl q = suml (fun e => q (fst e) (snd e)) (pairs N sl).
Proof.
  intros N sl q; unfold pair_sum, pairs. rewrite suml_filter.
  assert (H : forall l, suml (fun x => if allowed sl (fst x) (snd x) then q (fst x) (snd x) else 0)
     (list_prod l (seq 0 N)) = suml (fun i => sumn N (fun j => if allowed sl i j then q i j else 0)) l).
  { induction l as [|x l IH]; simpl; [reflexivity|].
    rewrite suml_app, IH, suml_map. simpl. rewrite <- suml_seq. reflexivity. }
  rewrite H, suml_seq. reflexivity.
Qed.

Lemma graph_weight_list : forall N sl p G,
  graph_weight N sl p G = prodl (fun e => if mem e G then p (fst e) (snd e) else 1 - p (fst e) (snd e)) (pairs N sl).
Proof.
  intros N sl p G; unfold graph_weight, pairs. rewrite prodl_filter.
  assert (H : forall l, prodl (fun x => if allowed sl (fst x) (snd x) then
       (if mem x G then p (fst x) (snd x) else 1 - p (fst x) (snd x)) else 1)
     (list_prod l (seq 0 N)) = prodl (fun i => prodn N (fun j => if allowed sl i j then
       (if mem (i, j) G then p i j else 1 - p i j) else 1)) l).
  { induction l as [|x l IH]; simpl; [reflexivity|].
    rewrite prodl_app, IH, prodl_map. simpl. rewrite <- prodl_seq. reflexivity. }
  rewrite H, prodl_seq. reflexivity.
Qed.

(** ** Loops *)

Section Loops.
Variables P X Z : Type.
Variables (p_ij : P -> X -> X -> Z -> R) (param : P) (prop_out prop_in : nat -> X)
          (prop_dyad : nat -> nat -> Z).
Let pr (i j : nat) : R := p_ij param (prop_out i) (prop_in j) (prop_dyad i j).

Lemma exp_edges_spec : forall N sl,
  exp_edges p_ij param prop_out prop_in prop_dyad N sl = pair_sum N sl pr.
Proof.
  intros N sl; unfold exp_edges, pair_sum.
  rewrite (for_range_sum R (fun x => x) N _ (fun i => sumn N (fun j => if allowed sl i j then pr i j else 0)));
    [ring|].
  intros i s _.
  apply (for_range_sum R (fun x => x)). intros j s' _.
  unfold pr; change (adm sl i j) with (allowed sl i j); destruct (allowed sl i j); ring.
Qed.

Lemma triangle_loop : forall (S : Type) (view : S -> R) N (body : nat -> nat -> S -> S) (f : nat -> nat -> R) s,
  (forall i j s, (i < N)%nat -> (j < i)%nat -> view (body i j s) = view s + (f i j + f j i)) ->
  (forall i s, (i < N)%nat -> view (body i i s) = view s + f i i) ->
  view (for_range N (fun i st => for_range (Datatypes.S i) (fun j st => body i j st) st) s)
  = view s + sumn N (fun i => sumn N (fun j => f i j)).
Proof.
  intros S view N body f s H1 H2.
  rewrite (for_range_sum S view N _ (fun i => sumn i (fun j => f i j + f j i) + f i i)).
  - rewrite (sumn_triangle N f), <- sumn_plus. reflexivity.
  - intros i st Hi. simpl. rewrite H2 by exact Hi.
    rewrite (for_range_sum S view i _ (fun j => f i j + f j i)); [ring|].
    intros j s' Hj; apply H1; [exact Hi | exact Hj].
Qed.

Definition dview (v : nat) (st : degs) : R := let '(d, _, _) := st in d v.
Definition oview (v : nat) (st : degs) : R := let '(_, d, _) := st in d v.
Definition iview (v : nat) (st : degs) : R := let '(_, _, d) := st in d v.

Lemma exp_out_spec : forall N sl v, (v < N)%nat ->
  oview v (exp_degrees p_ij param prop_out prop_in prop_dyad N sl)
  = sumn N (fun j => if allowed sl v j then pr v j else 0).
Proof.
  intros N sl v Hv. unfold exp_degrees.
  rewrite (triangle_loop degs (oview v) N _
    (fun a b => if Nat.eqb v a then (if allowed sl a b then pr a b else 0) else 0)).
  - simpl. rewrite Rplus_0_l. erewrite sumn_ext.
    2:{ intros i _. instantiate (1 := fun i => if Nat.eqb v i then sumn N (fun j => if allowed sl i j then pr i j else 0) else 0).
        simpl. destruct (Nat.eqb v i); [reflexivity | apply sumn_0]. }
    rewrite sumn_delta'. apply Nat.ltb_lt in Hv; rewrite Hv; reflexivity.
  - intros i j [[d o] ii] Hi Hj. unfold exp_degrees_body.
    replace (Nat.eqb i j) with false by (symmetry; apply Nat.eqb_neq; lia). simpl negb; cbv iota.
    simpl oview. rewrite !add_at_val, !adm_neq by lia. unfold pr.
    destruct (Nat.eqb v i), (Nat.eqb v j); ring.
  - intros i [[d o] ii] Hi. unfold exp_degrees_body. rewrite Nat.eqb_refl, adm_diag. simpl negb; cbv iota.
    destruct sl; simpl oview; [rewrite add_at_val; unfold pr; destruct (Nat.eqb v i); ring | destruct (Nat.eqb v i); ring].
Qed.

Lemma exp_in_spec : forall N sl v, (v < N)%nat ->
  iview v (exp_degrees p_ij param prop_out prop_in prop_dyad N sl)
  = sumn N (fun j => if allowed sl j v then pr j v else 0).
Proof.
  intros N sl v Hv. unfold exp_degrees.
  rewrite (triangle_loop degs (iview v) N _
    (fun a b => if Nat.eqb v b then (if allowed sl a b then pr a b else 0) else 0)).
  - simpl. rewrite Rplus_0_l. rewrite sumn_swap. erewrite sumn_ext.
    2:{ intros i _. instantiate (1 := fun i => if Nat.eqb v i then sumn N (fun j => if allowed sl j i then pr j i else 0) else 0).
        simpl. destruct (Nat.eqb v i); [reflexivity | apply sumn_0]. }
    rewrite sumn_delta'. apply Nat.ltb_lt in Hv; rewrite Hv; reflexivity.
  - intros i j [[d o] ii] Hi Hj. unfold exp_degrees_body.
    replace (Nat.eqb i j) with false by (symmetry; apply Nat.eqb_neq; lia). simpl negb; cbv iota.
    simpl iview. rewrite !add_at_val, !adm_neq by lia. unfold pr.
    destruct (Nat.eqb v i), (Nat.eqb v j); ring.
  - intros i [[d o] ii] Hi. unfold exp_degrees_body. rewrite Nat.eqb_refl, adm_diag. simpl negb; cbv iota.
    destruct sl; simpl iview; [rewrite add_at_val; unfold pr; destruct (Nat.eqb v i); ring | destruct (Nat.eqb v i); ring].
Qed.

Definition union_prob (sl : bool) (v j : nat) : R :=
  if Nat.eqb v j then (if sl then pr v v else 0)
  else pr v j + pr j v - pr v j * pr j v.

Lemma exp_deg_spec : forall N sl v, (v < N)%nat ->
  dview v (exp_degrees p_ij param prop_out prop_in prop_dyad N sl)
  = sumn N (fun j => union_prob sl v j).
Proof.
  intros N sl v Hv. unfold exp_degrees.
  rewrite (triangle_loop degs (dview v) N _
    (fun a b => if Nat.eqb v a then union_prob sl a b else 0)).
  - simpl. rewrite Rplus_0_l. erewrite sumn_ext.
    2:{ intros i _. instantiate (1 := fun i => if Nat.eqb v i then sumn N (fun j => union_prob sl i j) else 0).
        simpl. destruct (Nat.eqb v i); [reflexivity | apply sumn_0]. }
    rewrite sumn_delta'. apply Nat.ltb_lt in Hv; rewrite Hv; reflexivity.
  - intros i j [[d o] ii] Hi Hj. unfold exp_degrees_body, union_prob.
    replace (Nat.eqb i j) with false by (symmetry; apply Nat.eqb_neq; lia).
    replace (Nat.eqb j i) with false by (symmetry; apply Nat.eqb_neq; lia). simpl negb; cbv iota.
    simpl dview. rewrite !add_at_val. unfold pr.
    destruct (Nat.eqb v i), (Nat.eqb v j); ring.
  - intros i [[d o] ii] Hi. unfold exp_degrees_body, union_prob. rewrite Nat.eqb_refl. simpl negb; cbv iota.
    destruct sl; simpl dview; [rewrite add_at_val; unfold pr; destruct (Nat.eqb v i); ring | destruct (Nat.eqb v i); ring].
Qed.

(** Numerator of the expected nearest-neighbour average: over the other vertices. *)
Definition dir_prob (nd : dir) (v j : nat) : R :=
  match nd with
  | Dout => pr v j
  | Din => pr j v
  | Doutin => pr v j + pr j v - pr v j * pr j v
  | Dother => 0
  end.

Lemma strict_triangle_loop : forall (S : Type) (view : S -> R) N (body : nat -> nat -> S -> S) (f : nat -> nat -> R) s,
  (forall i j s, (i < N)%nat -> (j < i)%nat -> view (body i j s) = view s + (f i j + f j i)) ->
  (forall i, (i < N)%nat -> f i i = 0) ->
  view (for_range N (fun i st => for_range i (fun j st => body i j st) st) s)
  = view s + sumn N (fun i => sumn N (fun j => f i j)).
Proof.
  intros S view N body f s H1 H2.
  rewrite (for_range_sum S view N _ (fun i => sumn i (fun j => f i j + f j i))).
  - rewrite (sumn_triangle N f), (sumn_zero N (fun i => f i i)) by exact H2. ring.
  - intros i st Hi. rewrite (for_range_sum S view i _ (fun j => f i j + f j i)); [reflexivity|].
    intros j s' Hj; apply H1; [exact Hi | exact Hj].
Qed.

Lemma row_pick : forall N v (g : nat -> nat -> R), (v < N)%nat ->
  sumn N (fun i => sumn N (fun j => if Nat.eqb v i then g i j else 0)) = sumn N (fun j => g v j).
Proof.
  intros N v g Hv. erewrite sumn_ext.
  2:{ intros i _. instantiate (1 := fun i => if Nat.eqb v i then sumn N (fun j => g i j) else 0).
      simpl. destruct (Nat.eqb v i); [reflexivity | apply sumn_0]. }
  rewrite sumn_delta'. apply Nat.ltb_lt in Hv; rewrite Hv; reflexivity.
Qed.

Lemma exp_av_nn_spec : forall N prop nd sl, nd <> Dother -> (sl = true -> (2 <= N)%nat) ->
  exists a, exp_av_nn_prop p_ij param prop_out prop_in prop_dyad prop nd N sl = Ok a /\
  forall v, (v < N)%nat ->
    a v = sumn N (fun j => if Nat.eqb v j then 0 else dir_prob nd v j * prop j)
          + (if sl then p_ij param (prop_out v) (prop_in v) (prop_dyad v (N - 2)%nat) * prop v else 0).
Proof.
  intros N prop nd sl Hnd HN. unfold exp_av_nn_prop.
  set (body := nn_body p_ij param prop_out prop_in prop_dyad prop nd).
  set (loop1 := for_range N (fun i a => for_range i (fun j a => body i j a) a) (fun _ => 0)).
  assert (L1 : forall v, (v < N)%nat -> loop1 v =
      sumn N (fun j => if Nat.eqb v j then 0 else dir_prob nd v j * prop j)).
  { intros v Hv. unfold loop1.
    rewrite (strict_triangle_loop (nat -> R) (fun a => a v) N body
      (fun a b => if Nat.eqb v a then (if Nat.eqb a b then 0 else dir_prob nd a b * prop b) else 0)).
    - rewrite (row_pick N v (fun a b => if Nat.eqb a b then 0 else dir_prob nd a b * prop b)) by exact Hv. ring.
    - intros i j s Hi Hj.
      replace (Nat.eqb i j) with false by (symmetry; apply Nat.eqb_neq; lia).
      replace (Nat.eqb j i) with false by (symmetry; apply Nat.eqb_neq; lia).
      unfold body, nn_body, dir_prob, pr. destruct nd; try contradiction; rewrite !add_at_val;
        destruct (Nat.eqb v i), (Nat.eqb v j); ring.
    - intros i Hi. rewrite Nat.eqb_refl. destruct (Nat.eqb v i); reflexivity. }
  replace (bad_dir nd) with false by (destruct nd; [reflexivity|reflexivity|reflexivity|contradiction]).
  simpl andb; cbv iota.
  destruct sl.
  - assert (H2 := HN eq_refl).
    replace (Nat.eqb N 1) with false by (symmetry; apply Nat.eqb_neq; lia).
    eexists; split; [reflexivity|]. intros v Hv. simpl.
    match goal with |- for_range N ?b ?s v = _ =>
      rewrite (for_range_sum (nat -> R) (fun a => a v) N b
        (fun i => if Nat.eqb v i then p_ij param (prop_out i) (prop_in i) (prop_dyad i (N - 2)%nat) * prop i else 0) s) end.
    + rewrite sumn_delta', (L1 v Hv). apply Nat.ltb_lt in Hv; rewrite Hv; reflexivity.
    + intros i s _. rewrite add_at_val. destruct (Nat.eqb v i); ring.
  - eexists; split; [reflexivity|]. intros v Hv. rewrite (L1 v Hv). ring.
Qed.
End Loops.

(** ** Likelihood *)

Lemma log_of_mult : forall p q a b, 0 <= p -> 0 <= q -> log_of p a -> log_of q b ->
  log_of (p * q) (nadd a b).
Proof.
  intros p q a b Hp Hq [[P1 ->]|[-> ->]] [[P2 ->]|[-> ->]]; simpl.
  - left; split; [apply Rmult_lt_0_compat; assumption | rewrite ln_mult by assumption; reflexivity].
  - right; split; [ring | reflexivity].
  - right; split; [ring | reflexivity].
  - right; split; [ring | reflexivity].
Qed.

Lemma log_of_isinf : forall p a, log_of p a -> isinf a = true -> p = 0 /\ a = NInf.
Proof. intros p a [[H ->]|[-> ->]] E; [discriminate | split; reflexivity]. Qed.

Lemma log_of_not_isinf : forall p a, log_of p a -> isinf a = false -> 0 < p /\ a = Fin (ln p).
Proof. intros p a [[H ->]|[-> ->]] E; [split; auto | discriminate]. Qed.

Lemma log_of_exp : forall p a, log_of p a -> nexp a = Fin p.
Proof. intros p a [[H ->]|[-> ->]]; simpl; [rewrite exp_ln by exact H; reflexivity | reflexivity]. Qed.

Section Likelihood.
Variables P X Y Z : Type.
Variables (p_ij : P -> X -> Y -> Z -> R) (logp log1mp : P -> X -> Y -> Z -> num).
Variables (param : P) (prop_out : nat -> X) (prop_in : nat -> Y) (prop_dyad : nat -> nat -> Z).
Variable N : nat.
Let pr (i j : nat) : R := p_ij param (prop_out i) (prop_in j) (prop_dyad i j).
Hypothesis Hlogp : forall i j, (i < N)%nat -> (j < N)%nat ->
  log_of (pr i j) (logp param (prop_out i) (prop_in j) (prop_dyad i j)).
Hypothesis Hlog1mp : forall i j, (i < N)%nat -> (j < N)%nat ->
  log_of (1 - pr i j) (log1mp param (prop_out i) (prop_in j) (prop_dyad i j)).

Definition lik_weight (sl : bool) (A : nat -> nat -> bool) : R :=
  prodn N (fun i => prodn N (fun j => if allowed sl i j then (if A i j then pr i j else 1 - pr i j) else 1)).

Lemma likelihood_dense_spec : forall A sl,
  log_of (lik_weight sl A) (likelihood_dense logp log1mp param prop_out prop_in prop_dyad A N sl).
Proof.
  intros A sl. unfold likelihood_dense, lik_weight.
  set (q := fun i j => if allowed sl i j then (if A i j then pr i j else 1 - pr i j) else 1).
  set (inner := fun i j => lik_body logp log1mp param prop_out prop_in prop_dyad sl (A i j) i j).
  assert (Inner : forall i m w, (i < N)%nat -> (m <= N)%nat -> 0 < w ->
    (for_flow m (inner i) (Fin (ln w)) = Return NInf /\ w * prodn m (q i) = 0) \/
    (for_flow m (inner i) (Fin (ln w)) = Next (Fin (ln (w * prodn m (q i)))) /\ 0 < w * prodn m (q i))).
  { intros i m w Hi Hm Hw. induction m as [|m IH].
    - right; simpl; rewrite Rmult_1_r; split; [reflexivity | exact Hw].
    - simpl. destruct IH as [[-> E]|[-> E]]; [lia| |].
      + left; split; [reflexivity|]. rewrite <- Rmult_assoc, E; ring.
      + assert (Qi : forall s, inner i m s = lik_body logp log1mp param prop_out prop_in prop_dyad sl (A i m) i m s) by reflexivity.
        assert (Qq : q i m = if allowed sl i m then (if A i m then pr i m else 1 - pr i m) else 1) by reflexivity.
        rewrite Qi, Qq; clear Qi Qq; unfold lik_body; change (adm sl i m) with (allowed sl i m).
        destruct (allowed sl i m) eqn:Ea.
        * assert (Hl : log_of (if A i m then pr i m else 1 - pr i m)
             (if A i m then logp param (prop_out i) (prop_in m) (prop_dyad i m)
              else log1mp param (prop_out i) (prop_in m) (prop_dyad i m))).
          { destruct (A i m); [apply Hlogp | apply Hlog1mp]; lia. }
          cbv zeta.
          destruct (isinf (if A i m then logp param (prop_out i) (prop_in m) (prop_dyad i m)
              else log1mp param (prop_out i) (prop_in m) (prop_dyad i m))) eqn:I.
          -- destruct (log_of_isinf _ _ Hl I) as [-> ->]. left; split; [reflexivity | ring].
          -- destruct (log_of_not_isinf _ _ Hl I) as [Hp ->]. right. rewrite <- Rmult_assoc.
             split; [simpl; rewrite (ln_mult (w * prodn m (q i)) _ E Hp); reflexivity | apply Rmult_lt_0_compat; assumption].
        * right. rewrite <- Rmult_assoc, Rmult_1_r. split; [reflexivity | exact E]. }
  assert (Outer : forall m, (m <= N)%nat ->
    (for_flow m (fun i => for_flow N (inner i)) (Fin (ln 1)) = Return NInf /\ prodn m (fun i => prodn N (q i)) = 0) \/
    (for_flow m (fun i => for_flow N (inner i)) (Fin (ln 1)) = Next (Fin (ln (prodn m (fun i => prodn N (q i))))) /\
     0 < prodn m (fun i => prodn N (q i)))).
  { induction m as [|m IH]; intros Hm.
    - right; simpl; split; [reflexivity | lra].
    - simpl. destruct IH as [[-> E]|[-> E]]; [lia| |].
      + left; split; [reflexivity | rewrite E; ring].
      + apply Inner; [lia | lia | exact E]. }
  rewrite ln_1 in Outer.
  change (log_of (prodn N (fun i => prodn N (q i))) (flow_val (for_flow N (fun i => for_flow N (inner i)) (Fin 0)))).
  destruct (Outer N (Nat.le_refl N)) as [[-> E]|[-> E]].
  - rewrite E. right; split; reflexivity.
  - left; split; [exact E | reflexivity].
Qed.

Lemma likelihood_sparse_dense : forall row sl,
  likelihood logp log1mp param prop_out prop_in prop_dyad row N sl
  = likelihood_dense logp log1mp param prop_out prop_in prop_dyad
      (fun i j => existsb (Nat.eqb j) (row i)) N sl.
Proof. reflexivity. Qed.

Lemma likelihood_graph_spec : forall G sl,
  log_of (graph_weight N sl pr G) (likelihood logp log1mp param prop_out prop_in prop_dyad (row_of G) N sl).
Proof.
  intros G sl. rewrite likelihood_sparse_dense.
  replace (graph_weight N sl pr G) with (lik_weight sl (fun i j => existsb (Nat.eqb j) (row_of G i))).
  - apply likelihood_dense_spec.
  - unfold lik_weight, graph_weight. apply prodn_ext; intros i _. apply prodn_ext; intros j _.
    rewrite row_of_mem. reflexivity.
Qed.
End Likelihood.

(** ** Sampling *)

Lemma pbind_assoc : forall A B C (m : prog A) (f : A -> prog B) (g : B -> prog C),
  pbind (pbind m f) g = pbind m (fun a => pbind (f a) g).
Proof.
  intros A B C m f g; induction m as [a|p k IH]; simpl; [reflexivity|].
  f_equal. apply functional_extensionality; intros b; apply IH.
Qed.

Lemma pbind_ext : forall A B (m : prog A) (f g : A -> prog B), (forall a, f a = g a) -> pbind m f = pbind m g.
Proof. intros A B m f g H; f_equal; apply functional_extensionality; exact H. Qed.

Lemma for_prog_app : forall X S l1 l2 (body : X -> S -> prog S) s,
  for_prog (l1 ++ l2) body s = pbind (for_prog l1 body s) (for_prog l2 body).
Proof.
  intros X S l1; induction l1 as [|x l1 IH]; intros l2 body s; simpl; [reflexivity|].
  rewrite pbind_assoc. apply pbind_ext; intros a; apply IH.
Qed.

Lemma for_prog_map : forall X Y S (g : X -> Y) l (body : Y -> S -> prog S) s,
  for_prog (map g l) body s = for_prog l (fun x => body (g x)) s.
Proof.
  intros X Y S g l body; induction l as [|x l IH]; intros s; simpl; [reflexivity|].
  apply pbind_ext; exact IH.
Qed.

Lemma for_prog_filter : forall X S (c : X -> bool) l (body : X -> S -> prog S) s,
  for_prog (filter c l) body s = for_prog l (fun x s => if c x then body x s else Ret s) s.
Proof.
  intros X S c l body; induction l as [|x l IH]; intros s; simpl; [reflexivity|].
  destruct (c x); simpl; [apply pbind_ext; exact IH | apply IH].
Qed.

Lemma for_prog_prod : forall A B S (l1 : list A) (l2 : list B) (body : A * B -> S -> prog S) s,
  for_prog (list_prod l1 l2) body s = for_prog l1 (fun i => for_prog l2 (fun j => body (i, j))) s.
Proof.
  intros A B S l1; induction l1 as [|x l1 IH]; intros l2 body s; simpl; [reflexivity|].
  rewrite for_prog_app, for_prog_map. apply pbind_ext; intros a; apply IH.
Qed.

(** One Bernoulli test per element of a list, appending the marked element. *)
Definition bern {E F} (p : E -> R) (mark : E -> F) (l : list E) (acc : list F) : prog (list F) :=
  for_prog l (fun e acc => Draw (p e) (fun b => Ret (if b then acc ++ [mark e] else acc))) acc.

Lemma bern_expect : forall E F (p : E -> R) (mark : E -> F) l acc f,
  expect (bern p mark l acc) f
  = match l with
    | [] => f acc
    | e :: t => p e * expect (bern p mark t (acc ++ [mark e])) f + (1 - p e) * expect (bern p mark t acc) f
    end.
Proof. intros E F p mark [|e t] acc f; reflexivity. Qed.

Section Sampling.
Variables P X Y Z : Type.
Variables (p_ij : P -> X -> Y -> Z -> R).
Variables (param : P) (prop_out : nat -> X) (prop_in : nat -> Y) (prop_dyad : nat -> nat -> Z).
Variable N : nat.
Let pr (i j : nat) : R := p_ij param (prop_out i) (prop_in j) (prop_dyad i j).
Let pe (e : nat * nat) : R := pr (fst e) (snd e).

Lemma binary_sample_bern : forall sl,
  binary_sample p_ij param prop_out prop_in prop_dyad N sl = bern pe (fun e => e) (pairs N sl) [].
Proof.
  intros sl; unfold binary_sample, bern, pairs. rewrite for_prog_filter, for_prog_prod. reflexivity.
Qed.

Lemma cremb_sample_bern : forall s_out s_in sl, sumn N s_out <> 0 ->
  Rabs (1 - sumn N s_in / sumn N s_out) < 1 / 1000000 ->
  cremb_sample p_ij param prop_out prop_in prop_dyad s_out s_in N sl
  = Ok (bern pe (fun e => (fst e, snd e, s_out (fst e) * s_in (snd e) / (sumn N s_out * pe e))) (pairs N sl) []).
Proof.
  intros s_out s_in sl H0 H1; unfold cremb_sample, guard.
  rewrite Reqb_false by exact H0. rewrite Rltb_true by exact H1.
  unfold bern, pairs. rewrite for_prog_filter, for_prog_prod. reflexivity.
Qed.
End Sampling.

(** Weight of a sub-list of [l]. *)
Definition lweight (p : nat * nat -> R) (l G : list (nat * nat)) : R :=
  prodl (fun e => if mem e G then p e else 1 - p e) l.

Lemma sublists_incl : forall A (l : list A) G x, In G (sublists l) -> In x G -> In x l.
Proof.
  intros A l; induction l as [|e l IH]; intros G x HG Hx; simpl in *.
  - destruct HG as [<-|[]]; exact Hx.
  - apply in_app_iff in HG. destruct HG as [HG|HG].
    + apply in_map_iff in HG; destruct HG as [G' [<- HG']]. destruct Hx as [->|Hx]; eauto.
    + eauto.
Qed.

Lemma lweight_skip : forall p l e G, ~ In e l -> lweight p l (e :: G) = lweight p l G.
Proof.
  intros p l e G H; unfold lweight; apply prodl_ext; intros x Hx.
  unfold mem; simpl. destruct (pair_eqb_spec x e) as [->|_]; [contradiction | reflexivity].
Qed.

Lemma lweight_cons : forall p e l G, lweight p (e :: l) G = (if mem e G then p e else 1 - p e) * lweight p l G.
Proof. reflexivity. Qed.

Lemma prodl_cons : forall A (f : A -> R) e l, prodl f (e :: l) = f e * prodl f l.
Proof. reflexivity. Qed.

Lemma prodl_mult : forall A (f g : A -> R) l, prodl (fun x => f x * g x) l = prodl f l * prodl g l.
Proof. intros A f g; induction l as [|x l IH]; simpl; [ring | rewrite IH; ring]. Qed.

Lemma bern_sublists : forall F (p : nat * nat -> R) (mark : nat * nat -> F) l acc f, NoDup l ->
  expect (bern p mark l acc) f = suml (fun G => lweight p l G * f (acc ++ map mark G)) (sublists l).
Proof.
  intros F p mark l; induction l as [|e l IH]; intros acc f ND.
  - simpl. unfold lweight; simpl. rewrite app_nil_r; ring.
  - inversion ND; subst. rewrite bern_expect, !IH by assumption. simpl sublists.
    rewrite suml_app, suml_map, <- !suml_scal_l. f_equal.
    + apply suml_ext; intros G HG. rewrite lweight_cons, lweight_skip by assumption.
      replace (mem e (e :: G)) with true by (symmetry; apply mem_spec; left; reflexivity).
      rewrite <- app_assoc; simpl. ring.
    + apply suml_ext; intros G HG. rewrite lweight_cons.
      replace (mem e G) with false.
      2:{ symmetry; apply mem_false; intros K; apply H1; eapply sublists_incl; eassumption. }
      ring.
Qed.

Lemma graph_weight_lweight : forall N sl p G,
  graph_weight N sl p G = lweight (fun e => p (fst e) (snd e)) (pairs N sl) G.
Proof. intros; rewrite graph_weight_list; reflexivity. Qed.

(** ** Distinct sub-lists are distinct graphs *)

Lemma list_eqb_spec : forall l m, reflect (l = m) (list_eqb l m).
Proof.
  induction l as [|x l IH]; intros [|y m]; simpl; try (constructor; congruence).
  destruct (pair_eqb_spec x y) as [->|Hn]; simpl; [|constructor; congruence].
  destruct (IH m) as [->|Hn]; constructor; congruence.
Qed.

Lemma sum_indicator : forall (L : list (list (nat * nat))) (w : list (nat * nat) -> R) G,
  NoDup L -> In G L -> suml (fun H => w H * b2r (list_eqb H G)) L = w G.
Proof.
  induction L as [|H L IH]; intros w G ND HG; [destruct HG|].
  inversion ND; subst. simpl. destruct HG as [->|HG].
  - destruct (list_eqb_spec G G) as [_|K]; [|contradiction]. simpl.
    rewrite suml_zero; [ring|]. intros H' HH'. destruct (list_eqb_spec H' G) as [->|_]; [contradiction | simpl; ring].
  - destruct (list_eqb_spec H G) as [->|_]; [contradiction|]. rewrite IH by assumption. simpl; ring.
Qed.

Lemma NoDup_sublists : forall A (l : list A), NoDup l -> NoDup (sublists l).
Proof.
  intros A l; induction l as [|e l IH]; intros ND; simpl; [repeat constructor; auto|].
  inversion ND; subst. apply NoDup_app.
  - apply Injective_map_NoDup; [intros a b E; inversion E; reflexivity | auto].
  - auto.
  - intros G H K. apply in_map_iff in H. destruct H as [G' [<- _]].
    assert (In e l) by (apply (sublists_incl A l (e :: G')); [exact K | left; reflexivity]). contradiction.
Qed.

(** ** Expectations of products under independent links *)

Lemma bern_product : forall (p : nat * nat -> R) l (h : nat * nat -> bool -> R), NoDup l ->
  suml (fun G => lweight p l G * prodl (fun e => h e (mem e G)) l) (sublists l)
  = prodl (fun e => p e * h e true + (1 - p e) * h e false) l.
Proof.
  intros p l h; induction l as [|e l IH]; intros ND.
  - simpl; unfold lweight; simpl; ring.
  - inversion ND; subst. simpl sublists. rewrite suml_app, suml_map.
    simpl prodl at 3. rewrite Rmult_plus_distr_r, <- !IH by assumption.
    rewrite !Rmult_assoc, <- !suml_scal_l. f_equal.
    + apply suml_ext; intros G HG.
      rewrite lweight_cons, lweight_skip by assumption. rewrite prodl_cons.
      replace (mem e (e :: G)) with true by (symmetry; apply mem_spec; left; reflexivity).
      replace (prodl (fun e0 => h e0 (mem e0 (e :: G))) l) with (prodl (fun e0 => h e0 (mem e0 G)) l).
      { ring. }
      apply prodl_ext; intros x Hx. unfold mem; simpl.
      destruct (pair_eqb_spec x e) as [->|_]; [contradiction | reflexivity].
    + apply suml_ext; intros G HG.
      rewrite lweight_cons. rewrite prodl_cons.
      replace (mem e G) with false.
      2:{ symmetry; apply mem_false; intros K; apply H1; eapply sublists_incl; eassumption. }
      ring.
Qed.

Lemma prodl_single : forall (l : list (nat * nat)) e (c : R), NoDup l -> In e l ->
  prodl (fun x => if pair_eqb x e then c else 1) l = c.
Proof.
  induction l as [|x l IH]; intros e c ND He; [destruct He|].
  inversion ND; subst. simpl. destruct He as [->|He].
  - destruct (pair_eqb_spec e e) as [_|K]; [|contradiction].
    rewrite prodl_1; [ring|]. intros y Hy. destruct (pair_eqb_spec y e) as [->|_]; [contradiction | reflexivity].
  - destruct (pair_eqb_spec x e) as [->|_]; [contradiction|]. rewrite IH by assumption; ring.
Qed.

Section Means.
Variables (N : nat) (sl : bool) (p : nat -> nat -> R).
Let pe (e : nat * nat) : R := p (fst e) (snd e).
Let mean := ensemble_mean N sl (graph_weight N sl p).

Lemma mean_lweight : forall f, mean f = suml (fun G => lweight pe (pairs N sl) G * f G) (sublists (pairs N sl)).
Proof.
  intros f; unfold mean, ensemble_mean, all_graphs. apply suml_ext; intros G _.
  rewrite graph_weight_lweight; reflexivity.
Qed.

Lemma mean_const : forall c, mean (fun _ => c) = c.
Proof.
  intros c. rewrite mean_lweight, suml_scal_r.
  pose proof (bern_product pe (pairs N sl) (fun _ _ => 1) (NoDup_pairs N sl)) as H.
  rewrite (suml_ext _ (lweight pe (pairs N sl)) (fun G => lweight pe (pairs N sl) G * prodl (fun _ => 1) (pairs N sl))).
  - rewrite H. rewrite (prodl_1 _ (fun e => pe e * 1 + (1 - pe e) * 1)) by (intros; ring). ring.
  - intros G _. rewrite (prodl_1 _ (fun _ => 1)) by reflexivity. ring.
Qed.

Lemma mean_plus : forall f g, mean (fun G => f G + g G) = mean f + mean g.
Proof.
  intros f g. rewrite !mean_lweight, <- suml_plus. apply suml_ext; intros; ring.
Qed.

Lemma mean_scal : forall c f, mean (fun G => c * f G) = c * mean f.
Proof.
  intros c f. rewrite !mean_lweight, <- suml_scal_l. apply suml_ext; intros; ring.
Qed.

Lemma mean_ext : forall f g, (forall G, In G (all_graphs N sl) -> f G = g G) -> mean f = mean g.
Proof. intros f g H; unfold mean, ensemble_mean; apply suml_ext; intros G HG; rewrite H by exact HG; reflexivity. Qed.

Lemma mean_sumn : forall n f, mean (fun G => sumn n (fun i => f i G)) = sumn n (fun i => mean (f i)).
Proof.
  induction n as [|n IH]; intros f; simpl; [apply mean_const|].
  rewrite mean_plus, IH; reflexivity.
Qed.

Lemma mean_link : forall i j, (i < N)%nat -> (j < N)%nat -> 
  mean (fun G => b2r (mem (i, j) G)) = if allowed sl i j then p i j else 0.
Proof.
  intros i j Hi Hj. destruct (allowed sl i j) eqn:E.
  - assert (HI : In (i, j) (pairs N sl)) by (apply in_pairs; auto).
    rewrite mean_lweight.
    pose proof (bern_product pe (pairs N sl) (fun e b => if pair_eqb e (i, j) then b2r b else 1) (NoDup_pairs N sl)) as H.
    transitivity (prodl (fun e => if pair_eqb e (i, j) then p i j else 1) (pairs N sl)).
    + rewrite (prodl_ext _ _ (fun e => pe e * (if pair_eqb e (i, j) then b2r true else 1) +
            (1 - pe e) * (if pair_eqb e (i, j) then b2r false else 1))).
      * rewrite <- H. apply suml_ext; intros G HG. f_equal.
        rewrite (prodl_ext _ _ (fun e => if pair_eqb e (i, j) then b2r (mem (i, j) G) else 1)).
        { symmetry; apply prodl_single; [apply NoDup_pairs | exact HI]. }
        intros e _; destruct (pair_eqb_spec e (i, j)) as [->|_]; reflexivity.
      * intros e _; destruct (pair_eqb_spec e (i, j)) as [->|_]; unfold pe; simpl; ring.
    + apply prodl_single; [apply NoDup_pairs | exact HI].
  - rewrite <- (mean_const 0). apply mean_ext; intros G HG.
    replace (mem (i, j) G) with false; [reflexivity|].
    symmetry; apply mem_false; intros K.
    pose proof (sublists_incl _ _ _ _ HG K) as HI. apply in_pairs in HI. destruct HI as (_ & _ & HI). congruence.
Qed.

Lemma prodl_double : forall (l : list (nat * nat)) e f (c d : R), NoDup l -> In e l -> In f l -> e <> f ->
  prodl (fun x => (if pair_eqb x e then c else 1) * (if pair_eqb x f then d else 1)) l = c * d.
Proof.
  intros l e f c d ND He Hf _. rewrite prodl_mult, !prodl_single by assumption. reflexivity.
Qed.

Lemma mean_union : forall i j, (i < N)%nat -> (j < N)%nat -> i <> j ->
  mean (fun G => b2r (mem (i, j) G || mem (j, i) G)) = p i j + p j i - p i j * p j i.
Proof.
  intros i j Hi Hj Hne.
  assert (HI : In (i, j) (pairs N sl)) by (apply in_pairs; auto using adm_neq).
  assert (HJ : In (j, i) (pairs N sl)) by (apply in_pairs; auto using adm_neq).
  assert (HD : (i, j) <> (j, i)) by (intros E; inversion E; congruence).
  set (h := fun e (b : bool) => (if pair_eqb e (i, j) then 1 - b2r b else 1) * (if pair_eqb e (j, i) then 1 - b2r b else 1)).
  assert (HP : mean (fun G => (1 - b2r (mem (i, j) G)) * (1 - b2r (mem (j, i) G))) = (1 - p i j) * (1 - p j i)).
  { rewrite mean_lweight.
    pose proof (bern_product pe (pairs N sl) h (NoDup_pairs N sl)) as H.
    transitivity (prodl (fun e => pe e * h e true + (1 - pe e) * h e false) (pairs N sl)).
    - rewrite <- H. apply suml_ext; intros G HG. f_equal.
      rewrite (prodl_ext _ _ (fun e => (if pair_eqb e (i, j) then 1 - b2r (mem (i, j) G) else 1) *
                                       (if pair_eqb e (j, i) then 1 - b2r (mem (j, i) G) else 1))).
      + symmetry; apply prodl_double; auto using NoDup_pairs.
      + intros e _; unfold h. destruct (pair_eqb_spec e (i, j)) as [->|_].
        * destruct (pair_eqb_spec (i, j) (j, i)) as [E|_]; [congruence | reflexivity].
        * destruct (pair_eqb_spec e (j, i)) as [->|_]; reflexivity.
    - rewrite (prodl_ext _ _ (fun e => (if pair_eqb e (i, j) then 1 - p i j else 1) *
                                       (if pair_eqb e (j, i) then 1 - p j i else 1))).
      + apply prodl_double; auto using NoDup_pairs.
      + intros e _; unfold h, pe. destruct (pair_eqb_spec e (i, j)) as [->|_].
        * destruct (pair_eqb_spec (i, j) (j, i)) as [E|_]; [congruence|]. simpl; ring.
        * destruct (pair_eqb_spec e (j, i)) as [->|_]; simpl; ring. }
  rewrite (mean_ext _ (fun G => 1 + (-1) * ((1 - b2r (mem (i, j) G)) * (1 - b2r (mem (j, i) G))))).
  - rewrite mean_plus, mean_const, mean_scal, HP. ring.
  - intros G _. destruct (mem (i, j) G), (mem (j, i) G); simpl; ring.
Qed.

Lemma mean_edges : mean (g_edges N) = pair_sum N sl p.
Proof.
  unfold g_edges, pair_sum. rewrite mean_sumn. apply sumn_ext; intros i Hi.
  rewrite mean_sumn. apply sumn_ext; intros j Hj. apply mean_link; assumption.
Qed.

Lemma mean_out : forall v, (v < N)%nat ->
  mean (fun G => g_out N G v) = sumn N (fun j => if allowed sl v j then p v j else 0).
Proof.
  intros v Hv; unfold g_out. rewrite mean_sumn. apply sumn_ext; intros j Hj. apply mean_link; assumption.
Qed.

Lemma mean_in : forall v, (v < N)%nat ->
  mean (fun G => g_in N G v) = sumn N (fun j => if allowed sl j v then p j v else 0).
Proof.
  intros v Hv; unfold g_in. rewrite mean_sumn. apply sumn_ext; intros j Hj. apply mean_link; assumption.
Qed.

Lemma mean_deg : forall v, (v < N)%nat ->
  mean (fun G => g_deg N G v) =
  sumn N (fun j => if Nat.eqb v j then (if sl then p v v else 0) else p v j + p j v - p v j * p j v).
Proof.
  intros v Hv; unfold g_deg. rewrite mean_sumn. apply sumn_ext; intros j Hj.
  destruct (Nat.eqb_spec v j) as [<-|Hn].
  - rewrite (mean_ext _ (fun G => b2r (mem (v, v) G))) by (intros; rewrite orb_diag; reflexivity).
    rewrite mean_link, adm_diag by assumption. reflexivity.
  - apply mean_union; assumption.
Qed.
End Means.

(** ** Support of the samplers *)

Lemma outcome_bern : forall E F (p : E -> R) (mark : E -> F) l acc G,
  outcome (bern p mark l acc) G ->
  exists H, In H (sublists l) /\ G = acc ++ map mark H /\
    (forall e, In e H -> 0 < p e) /\
    (forall e, In e l -> In e H \/ p e < 1).
Proof.
  intros E F p mark l; induction l as [|e l IH]; intros acc G H.
  - simpl in H; subst. exists []; simpl; repeat split; auto; try contradiction. rewrite app_nil_r; reflexivity.
  - unfold bern in H; simpl in H. destruct H as [[Hp H]|[Hp H]]; apply IH in H;
      destruct H as (K & HK & -> & Hpos & Hlt).
    + exists (e :: K). split; [simpl; apply in_app_iff; left; apply in_map; exact HK|].
      split; [rewrite <- app_assoc; reflexivity|].
      split; [intros x [<-|Hx]; auto|].
      intros x [<-|Hx]; [left; left; reflexivity|]. destruct (Hlt x Hx); [left; right; assumption | right; assumption].
    + exists K. split; [simpl; apply in_app_iff; right; exact HK|].
      split; [reflexivity|]. split; [exact Hpos|].
      intros x [<-|Hx]; [right; exact Hp | apply Hlt; exact Hx].
Qed.

Lemma sublists_NoDup : forall A (l G : list A), NoDup l -> In G (sublists l) -> NoDup G.
Proof.
  intros A l; induction l as [|e l IH]; intros G ND HG; simpl in HG.
  - destruct HG as [<-|[]]; constructor.
  - inversion ND; subst. apply in_app_iff in HG. destruct HG as [HG|HG]; [|auto].
    apply in_map_iff in HG; destruct HG as [G' [<- HG']]. constructor; [|auto].
    intros K; apply H1; eapply sublists_incl; eassumption.
Qed.

Lemma bern_wf : forall E F (p : E -> R) (mark : E -> F) l acc,
  (forall e, In e l -> 0 <= p e <= 1) -> wf_prog (bern p mark l acc).
Proof.
  intros E F p mark l; induction l as [|e l IH]; intros acc H; simpl; [exact I|].
  split; [apply H; left; reflexivity|].
  intros [|]; apply IH; intros x Hx; apply H; right; exact Hx.
Qed.

(** ** Expected weights of the CReMB sampler *)


Lemma bern_w_pair : forall (p s : nat * nat -> R) l acc i j, NoDup l ->
  expect (bern p (fun e => (fst e, snd e, s e)) l acc) (w_pair i j)
  = w_pair i j acc + (if mem (i, j) l then p (i, j) * s (i, j) else 0).
Proof.
  intros p s l; induction l as [|e l IH]; intros acc i j ND.
  - simpl; ring.
  - inversion ND; subst. rewrite bern_expect, !IH by assumption.
    unfold w_pair at 1. rewrite suml_app. fold (w_pair i j acc). simpl suml.
    unfold mem at 3; simpl existsb. fold (mem (i, j) l).
    destruct e as [a b]; simpl fst; simpl snd.
    destruct (pair_eqb_spec (a, b) (i, j)) as [E|Hn].
    + inversion E; subst.
      replace (pair_eqb (i, j) (i, j)) with true by (destruct (pair_eqb_spec (i, j) (i, j)); [reflexivity | contradiction]).
      replace (mem (i, j) l) with false by (symmetry; apply mem_false; assumption).
      simpl. ring.
    + destruct (pair_eqb_spec (i, j) (a, b)) as [E|_]; [congruence|]. simpl. ring.
Qed.
