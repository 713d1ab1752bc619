(** Facts on the remaining distributed measures: neighbourhood averages, fitting function, likelihood,
    confusion matrix and samplers. *)
From Coq Require Import ZArith Permutation FunctionalExtensionality.
From Verif Require Import Base Num Spec Prob Ensemble EnsembleFacts Fit Spark SparkFacts.

(** * Sums in a commutative monoid *)
Section Monoid.
Variables (A : Type) (op : A -> A -> A) (e : A).
Hypothesis op_assoc : forall a b c, op a (op b c) = op (op a b) c.
Hypothesis op_comm : forall a b, op a b = op b a.
Hypothesis op_unit : forall a, op a e = a.

Fixpoint msum {E} (c : E -> A) (l : list E) : A :=
  match l with [] => e | x :: t => op (c x) (msum c t) end.

Lemma op_unit_l : forall a, op e a = a.
Proof. intros a. rewrite op_comm. apply op_unit. Qed.

Lemma msum_app : forall E (c : E -> A) l1 l2, msum c (l1 ++ l2) = op (msum c l1) (msum c l2).
Proof.
  intros E c l1; induction l1 as [|x l1 IH]; intros l2; simpl; [rewrite op_unit_l; reflexivity|].
  rewrite IH, op_assoc. reflexivity.
Qed.

Lemma msum_perm : forall E (c : E -> A) l1 l2, Permutation l1 l2 -> msum c l1 = msum c l2.
Proof.
  intros E c l1 l2 H; induction H; simpl; [reflexivity | rewrite IHPermutation; reflexivity | | congruence].
  rewrite !op_assoc, (op_comm (c y) (c x)). reflexivity.
Qed.

Lemma msum_map : forall E F (g : E -> F) (c : F -> A) l, msum c (map g l) = msum (fun x => c (g x)) l.
Proof. intros E F g c l; induction l as [|x l IH]; simpl; [reflexivity | rewrite IH; reflexivity]. Qed.

Lemma msum_flat_map : forall E F (g : E -> list F) (c : F -> A) l,
  msum c (flat_map g l) = msum (fun x => msum c (g x)) l.
Proof. intros E F g c l; induction l as [|x l IH]; simpl; [reflexivity | rewrite msum_app, IH; reflexivity]. Qed.

Lemma msum_ext : forall E (c d : E -> A) l, (forall x, In x l -> c x = d x) -> msum c l = msum d l.
Proof.
  intros E c d l; induction l as [|x l IH]; intros H; simpl; [reflexivity|].
  rewrite H by (left; reflexivity). rewrite IH; [reflexivity | intros y Hy; apply H; right; exact Hy].
Qed.

Lemma msum_prod : forall E F (c : E -> F -> A) l m,
  msum (fun x => c (fst x) (snd x)) (list_prod l m) = msum (fun i => msum (fun j => c i j) m) l.
Proof.
  intros E F c l m; induction l as [|x l IH]; simpl; [reflexivity|].
  rewrite msum_app, msum_map, IH. reflexivity.
Qed.

Lemma for_range_msum : forall n body (c : nat -> A) s,
  (forall i s, (i < n)%nat -> body i s = op s (c i)) -> for_range n body s = op s (msum c (seq 0 n)).
Proof.
  induction n as [|n IH]; intros body c s H; [simpl; rewrite op_unit; reflexivity|].
  rewrite seq_S, msum_app. simpl for_range. rewrite H by lia. rewrite (IH body c) by (intros; apply H; lia).
  simpl. rewrite op_unit, op_assoc. reflexivity.
Qed.

Lemma rdd_fold_msum : forall l, rdd_fold e op l = msum (fun a => a) l.
Proof.
  intros l. unfold rdd_fold.
  assert (G : forall acc, fold_left op (map (fun a => op e a) l) acc = op acc (msum (fun a => a) l)).
  { induction l as [|a l IH]; intros acc; simpl; [rewrite op_unit; reflexivity|].
    rewrite IH, op_unit_l, op_assoc. reflexivity. }
  rewrite G. apply op_unit_l.
Qed.

Lemma msum_shift : forall a n (c : nat -> A), msum (fun i => c (a + i)%nat) (seq 0 n) = msum c (seq a n).
Proof. intros a n c. rewrite <- (map_seq_shift a n), msum_map. reflexivity. Qed.
End Monoid.
Arguments msum {A} op e {E} c l.

Lemma nadd_assoc : forall a b c, nadd a (nadd b c) = nadd (nadd a b) c.
Proof. intros [x| | |] [y| | |] [z| | |]; simpl; try reflexivity. f_equal; ring. Qed.
Lemma nadd_comm : forall a b, nadd a b = nadd b a.
Proof. intros [x| | |] [y| | |]; simpl; try reflexivity. f_equal; ring. Qed.
Lemma nadd_unit : forall a, nadd a (Fin 0) = a.
Proof. intros [x| | |]; simpl; try reflexivity. f_equal; ring. Qed.

Definition nadd2 (a b : num * num) : num * num := (nadd (fst a) (fst b), nadd (snd a) (snd b)).
Lemma nadd2_assoc : forall a b c, nadd2 a (nadd2 b c) = nadd2 (nadd2 a b) c.
Proof. intros [a a'] [b b'] [c c']. unfold nadd2; simpl. rewrite !nadd_assoc. reflexivity. Qed.
Lemma nadd2_comm : forall a b, nadd2 a b = nadd2 b a.
Proof. intros [a a'] [b b']. unfold nadd2; simpl. rewrite (nadd_comm a b), (nadd_comm a' b'). reflexivity. Qed.
Lemma nadd2_unit : forall a, nadd2 a (Fin 0, Fin 0) = a.
Proof. intros [a a']. unfold nadd2; simpl. rewrite !nadd_unit. reflexivity. Qed.

(** * The fitting function *)
Section FJac.
Variables (X Y Z : Type) (p_jac : num -> X -> Y -> num * num) (prop_out : nat -> X) (prop_in : nat -> Y).
Variables (z : nat -> nat -> Z) (N B : nat) (sl : bool) (d : num).
Hypothesis HB : (1 <= B)%nat.
Let c (i j : nat) : num * num := if allowed sl i j then p_jac d (prop_out i) (prop_in j) else (Fin 0, Fin 0).
Notation ms := (msum nadd2 (Fin 0, Fin 0)).

Lemma b_f_jac_sum : forall b,
  b_f_jac p_jac d b (slice prop_out (fst b)) (slice prop_in (snd b)) sl
  = ms (fun e => c (fst e) (snd e)) (cells b).
Proof.
  intros [s t]. unfold b_f_jac.
  rewrite (for_range_msum _ nadd2 (Fin 0, Fin 0) nadd2_assoc nadd2_comm nadd2_unit (len s) _
    (fun i => ms (fun j => c (fst s + i) (fst t + j))%nat (seq 0 (len t)))).
  - rewrite (op_unit_l _ nadd2 (Fin 0, Fin 0) nadd2_comm nadd2_unit). unfold cells. 
    rewrite (msum_prod _ nadd2 (Fin 0, Fin 0) nadd2_assoc nadd2_comm nadd2_unit). simpl fst; simpl snd. unfold indices.
    rewrite <- (msum_shift _ nadd2 (Fin 0, Fin 0) (fst s) (len s)). apply msum_ext. intros i _.
    rewrite <- (msum_shift _ nadd2 (Fin 0, Fin 0) (fst t) (len t)). reflexivity.
  - intros i st _. apply (for_range_msum _ nadd2 (Fin 0, Fin 0) nadd2_assoc nadd2_comm nadd2_unit).
    intros j [f jac] _. unfold c. change (adm sl) with (allowed sl).
    destruct (allowed sl (fst s + i) (fst t + j)); [|rewrite nadd2_unit; reflexivity].
    unfold slice; simpl fst; simpl snd. destruct (p_jac d (prop_out (fst s + i)%nat) (prop_in (fst t + j)%nat)); reflexivity.
Qed.

Lemma spark_f_jac_eq :
  spark_f_jac prop_out prop_in N B p_jac d sl
  = exp_edges_f_jac (fun d x y (_ : Z) => p_jac d x y) d prop_out prop_in z N sl.
Proof.
  transitivity (ms (fun e => c (fst e) (snd e)) (list_prod (seq 0 N) (seq 0 N))).
  - unfold spark_f_jac. change (fun a b : num * num => (nadd (fst a) (fst b), nadd (snd a) (snd b))) with nadd2.
    rewrite (rdd_fold_msum _ nadd2 (Fin 0, Fin 0) nadd2_assoc nadd2_comm nadd2_unit).
    rewrite msum_map.
    rewrite <- (msum_perm _ nadd2 (Fin 0, Fin 0) nadd2_assoc nadd2_comm _ _ _ _ (square_cells N B HB)).
    rewrite (msum_flat_map _ nadd2 (Fin 0, Fin 0) nadd2_assoc nadd2_comm nadd2_unit).
    apply msum_ext. intros b _. apply b_f_jac_sum.
  - rewrite (msum_prod _ nadd2 (Fin 0, Fin 0) nadd2_assoc nadd2_comm nadd2_unit). symmetry. unfold exp_edges_f_jac.
    rewrite (for_range_msum _ nadd2 (Fin 0, Fin 0) nadd2_assoc nadd2_comm nadd2_unit N _
      (fun i => ms (fun j => c i j) (seq 0 N))).
    + apply (op_unit_l _ nadd2 (Fin 0, Fin 0) nadd2_comm nadd2_unit).
    + intros i st _. apply (for_range_msum _ nadd2 (Fin 0, Fin 0) nadd2_assoc nadd2_comm nadd2_unit).
      intros j [f jac] _. unfold c. change (adm sl) with (allowed sl).
      destruct (allowed sl i j); [|rewrite nadd2_unit; reflexivity].
      destruct (p_jac d (prop_out i) (prop_in j)); reflexivity.
Qed.
End FJac.

(** * Neighbourhood totals *)
Section AvNn.
Variables P X Z : Type.
Variables (p_ij : P -> X -> X -> Z -> R) (param : P) (prop_out prop_in : nat -> X) (prop_dyad : nat -> nat -> Z).
Variables (N B : nat) (sl : bool) (prop : nat -> R) (nd : dir).
Hypothesis HN : (1 <= N)%nat.
Hypothesis HB : (1 <= B)%nat.
Hypothesis Hz : forall d x y z z', p_ij d x y z = p_ij d x y z'.
Hypothesis Hnd : nd <> Dother.
Let pr (i j : nat) : R := p_ij param (prop_out i) (prop_in j) (prop_dyad i j).

Definition nd_link : nat -> nat -> R :=
  match nd with Dout => out_link pr | Din => in_link pr | _ => either_link pr end.

Lemma spark_av_nn_spec : forall v, (v < N)%nat ->
  spark_av_nn param prop_out prop_in prop_dyad N B p_ij prop nd sl v = nb_total N sl nd_link prop v.
Proof.
  intros v Hv.
  set (f := fun a b => if Nat.eqb v a then (if allowed sl a b then nd_link a b * prop b else 0) else 0).
  set (h := fun i j => if Nat.eqb i j then f i i else f i j + f j i).
  transitivity (sumn N (fun i => sumn (S i) (fun j => h i j))).
  - unfold spark_av_nn. rewrite (rdd_fold_sum (nat -> R) (fun a => a v)); [|reflexivity|reflexivity].
    rewrite suml_map. rewrite (suml_ext _ _ (fun b => suml (fun e => h (fst e) (snd e)) (tri_cells b))).
    { apply triangle_sum; assumption. }
    intros [s t] _. unfold b_av_nn.
    rewrite (for_range_sum (nat -> R) (fun a => a v) _ _ (fun i => sumn (in_range i t (span_eqb s t))
       (fun j => h (fst s + i) (fst t + j))%nat)).
    + rewrite <- (tri_sum (s, t) h). simpl. ring.
    + intros i st _. apply (for_range_sum (nat -> R) (fun a => a v)). intros j st' _.
      unfold slice; cbn [fst snd].
      rewrite (Hz param (prop_out (fst s + i)%nat) (prop_in (fst t + j)%nat) (prop_dyad i j) (prop_dyad (fst s + i) (fst t + j))%nat).
      rewrite (Hz param (prop_out (fst t + j)%nat) (prop_in (fst s + i)%nat) (prop_dyad j i) (prop_dyad (fst t + j) (fst s + i))%nat).
      set (a := (fst s + i)%nat). set (b := (fst t + j)%nat). fold (pr a b) (pr b a).
      unfold h, f. destruct (Nat.eqb_spec a b) as [Ea|Ea]; cbn [negb].
      * rewrite <- Ea. rewrite adm_diag. unfold nd_link, out_link, in_link, either_link.
        destruct sl; [|destruct (Nat.eqb v a); ring]. rewrite add_at_val.
        destruct nd; try contradiction; rewrite ?Nat.eqb_refl; destruct (Nat.eqb v a); ring.
      * assert (Ea' : b <> a) by auto. rewrite !adm_neq by assumption.
        unfold nd_link, out_link, in_link, either_link.
        pose proof (proj2 (Nat.eqb_neq a b) Ea) as Eb. pose proof (proj2 (Nat.eqb_neq b a) Ea') as Eb'.
        destruct nd; try contradiction; cbv beta; rewrite ?Eb, ?Eb'; rewrite !add_at_val; destruct (Nat.eqb v a), (Nat.eqb v b); ring.
  - unfold nb_total. rewrite <- (row_pick N v (fun a b => if allowed sl a b then nd_link a b * prop b else 0) Hv).
    fold f. change (sumn N (fun i => sumn (S i) (fun j => h i j)) = sumn N (fun i => sumn N (fun j => f i j))).
    rewrite (sumn_triangle N f), <- sumn_plus. apply sumn_ext. intros i Hi. simpl. unfold h at 2. rewrite Nat.eqb_refl.
    rewrite (sumn_ext i (fun j => h i j) (fun j => f i j + f j i)); [ring|].
    intros j Hj. unfold h. rewrite (proj2 (Nat.eqb_neq i j)) by lia. reflexivity.
Qed.
End AvNn.

(** * Likelihood *)

(** A loop that multiplies a probability, or returns minus infinity at the first zero factor. *)
Lemma flow_log : forall n (body : nat -> num -> flow num num) (q : nat -> R),
  (forall i w, (i < n)%nat -> 0 < w ->
     (body i (Fin (ln w)) = Return NInf /\ q i = 0) \/
     (body i (Fin (ln w)) = Next (Fin (ln (w * q i))) /\ 0 < q i)) ->
  forall w, 0 < w ->
     (for_flow n body (Fin (ln w)) = Return NInf /\ prodn n q = 0) \/
     (for_flow n body (Fin (ln w)) = Next (Fin (ln (w * prodn n q))) /\ 0 < prodn n q).
Proof.
  induction n as [|n IH]; intros body q H w Hw; simpl.
  - right. rewrite Rmult_1_r. split; [reflexivity | lra].
  - destruct (IH body q (fun i w Hi => H i w (Nat.lt_lt_succ_r _ _ Hi)) w Hw) as [[-> E]|[-> E]].
    + left. split; [reflexivity | rewrite E; ring].
    + assert (Hp : 0 < w * prodn n q) by (apply Rmult_lt_0_compat; assumption).
      destruct (H n (w * prodn n q) (Nat.lt_succ_diag_r n) Hp) as [[-> E']|[-> E']].
      * left. split; [reflexivity | rewrite E'; ring].
      * right. rewrite Rmult_assoc. split; [reflexivity | apply Rmult_lt_0_compat; assumption].
Qed.

Lemma prodn_shift : forall a n f, prodn n (fun i => f (a + i)%nat) = prodl f (seq a n).
Proof. intros a n f. rewrite <- (map_seq_shift a n), prodl_map, prodl_seq. reflexivity. Qed.

Lemma prodl_list_prod : forall A B (f : A -> B -> R) l m,
  prodl (fun e => f (fst e) (snd e)) (list_prod l m) = prodl (fun i => prodl (fun j => f i j) m) l.
Proof.
  intros A B f l m; induction l as [|x l IH]; simpl; [reflexivity|].
  rewrite prodl_app, prodl_map, IH. reflexivity.
Qed.

Lemma cells_prod : forall b f,
  prodn (len (fst b)) (fun i => prodn (len (snd b)) (fun j => f (fst (fst b) + i) (fst (snd b) + j))%nat)
  = prodl (fun e => f (fst e) (snd e)) (cells b).
Proof.
  intros b f. unfold cells. rewrite prodl_list_prod. unfold indices. rewrite <- prodn_shift.
  apply prodn_ext. intros i _. rewrite <- (prodn_shift (fst (snd b)) (len (snd b))). reflexivity.
Qed.

Lemma span_bound : forall N B i a, (i < B)%nat -> In a (indices (bounds N B i)) -> (a < N)%nat.
Proof.
  intros N B i a Hi Ha.
  assert (H : In a (flat_map (fun i => indices (bounds N B i)) (seq 0 B))).
  { apply in_flat_map. exists i. split; [apply in_seq; lia | exact Ha]. }
  rewrite spans_cover in H by lia. apply in_seq in H. lia.
Qed.

Section Likelihood.
Variables P X Y Z : Type.
Variables (p_ij : P -> X -> Y -> Z -> R) (logp log1mp : P -> X -> Y -> Z -> num).
Variables (param : P) (prop_out : nat -> X) (prop_in : nat -> Y) (prop_dyad : nat -> nat -> Z).
Variables (N B : nat) (row : nat -> list nat) (sl : bool).
Hypothesis HB : (1 <= B)%nat.
Let pr (i j : nat) : R := p_ij param (prop_out i) (prop_in j) (prop_dyad i j).
Hypothesis Hlogp : forall i j, (i < N)%nat -> (j < N)%nat ->
  log_of (pr i j) (logp param (prop_out i) (prop_in j) (prop_dyad i j)).
Hypothesis Hlog1mp : forall i j, (i < N)%nat -> (j < N)%nat ->
  log_of (1 - pr i j) (log1mp param (prop_out i) (prop_in j) (prop_dyad i j)).
Hypothesis Hz1 : forall d x y z z', logp d x y z = logp d x y z'.
Hypothesis Hz2 : forall d x y z z', log1mp d x y z = log1mp d x y z'.
Let q (i j : nat) : R :=
  if allowed sl i j then (if existsb (Nat.eqb j) (row i) then pr i j else 1 - pr i j) else 1.

Lemma q_nonneg : forall i j, (i < N)%nat -> (j < N)%nat -> 0 <= q i j.
Proof.
  intros i j Hi Hj. unfold q. destruct (allowed sl i j); [|lra].
  destruct (existsb _ _).
  - destruct (Hlogp i j Hi Hj) as [[H _]|[H _]]; lra.
  - destruct (Hlog1mp i j Hi Hj) as [[H _]|[H _]]; lra.
Qed.

Lemma b_likelihood_log : forall b, (forall a, In a (indices (fst b)) -> (a < N)%nat) ->
  (forall a, In a (indices (snd b)) -> (a < N)%nat) ->
  log_of (prodl (fun e => q (fst e) (snd e)) (cells b))
    (b_likelihood logp log1mp param b (slice prop_out (fst b)) (slice prop_in (snd b)) prop_dyad row sl).
Proof.
  intros [s t] Hs Ht. rewrite <- cells_prod. simpl fst in *; simpl snd in *. unfold b_likelihood.
  rewrite <- ln_1.
  match goal with |- log_of ?p (flow_val (for_flow ?n ?body _)) =>
    assert (H := flow_log n body (fun i => prodn (len t) (fun j => q (fst s + i) (fst t + j))%nat)) end.
  cbv beta in H. destruct (H) with (w := 1) as [[E1 E2]|[E1 E2]]; [|lra| |].
  2:{ rewrite E1. right. split; [exact E2 | reflexivity]. }
  2:{ rewrite E1, Rmult_1_l. left. split; [exact E2 | reflexivity]. }
  intros i w Hi Hw. apply flow_log; [|exact Hw]. clear w Hw. intros j w Hj Hw.
  assert (Hi' : (fst s + i < N)%nat) by (apply Hs; unfold indices; apply in_seq; lia).
  assert (Hj' : (fst t + j < N)%nat) by (apply Ht; unfold indices; apply in_seq; lia).
  unfold slice. change (adm sl) with (allowed sl). unfold q.
  rewrite (Hz1 param _ _ (prop_dyad i j) (prop_dyad (fst s + i) (fst t + j))%nat).
  rewrite (Hz2 param _ _ (prop_dyad i j) (prop_dyad (fst s + i) (fst t + j))%nat).
  destruct (allowed sl (fst s + i) (fst t + j)).
  2:{ right. rewrite Rmult_1_r. split; [reflexivity | lra]. }
  pose proof (Hlogp _ _ Hi' Hj') as L1. pose proof (Hlog1mp _ _ Hi' Hj') as L2.
  destruct (existsb (Nat.eqb (fst t + j)) (row (fst s + i)%nat)).
  - destruct L1 as [[Hp ->]|[-> ->]]; simpl.
    + right. rewrite (ln_mult w _ Hw Hp). split; [reflexivity | exact Hp].
    + left. auto.
  - destruct L2 as [[Hp ->]|[-> ->]]; simpl.
    + right. rewrite (ln_mult w _ Hw Hp). split; [reflexivity | exact Hp].
    + left. auto.
Qed.

Lemma nsum_log : forall E (w : E -> R) (a : E -> num) l,
  (forall x, In x l -> 0 <= w x /\ log_of (w x) (a x)) -> 
  log_of (prodl w l) (msum nadd (Fin 0) a l).
Proof.
  intros E w a l; induction l as [|x l IH]; intros H; simpl.
  - left. split; [lra | rewrite ln_1; reflexivity].
  - destruct (H x (or_introl eq_refl)) as [H1 H2]. apply log_of_mult; [exact H1 | | exact H2 | apply IH; intros y Hy; apply H; right; exact Hy].
    apply prodl_nonneg. intros y Hy. apply H. right; exact Hy.
Qed.

Lemma in_square : forall b, In b (square_blocks N B) ->
  exists i j, (i < B)%nat /\ (j < B)%nat /\ b = (bounds N B i, bounds N B j).
Proof.
  intros b H. unfold square_blocks in H. apply in_flat_map in H. destruct H as (i & Hi & H).
  apply in_map_iff in H. destruct H as (j & <- & Hj). apply in_seq in Hi, Hj. exists i, j. repeat split; lia.
Qed.

Lemma spark_likelihood_log :
  log_of (prodn N (fun i => prodn N (fun j => q i j)))
    (spark_likelihood param prop_out prop_in prop_dyad N B logp log1mp row sl).
Proof.
  unfold spark_likelihood. rewrite (rdd_fold_msum _ nadd (Fin 0) nadd_assoc nadd_comm nadd_unit). rewrite msum_map.
  replace (prodn N (fun i => prodn N (fun j => q i j)))
    with (prodl (fun b => prodl (fun e => q (fst e) (snd e)) (cells b)) (square_blocks N B)).
  - apply nsum_log. intros b Hb. destruct (in_square b Hb) as (i & j & Hi & Hj & ->). split.
    + apply prodl_nonneg. intros [a c] Hac. unfold cells in Hac. apply in_prod_iff in Hac. destruct Hac as [Ha Hc].
      apply q_nonneg; [exact (span_bound N B i a Hi Ha) | exact (span_bound N B j c Hj Hc)].
    + apply b_likelihood_log; intros a Ha; [exact (span_bound N B i a Hi Ha) | exact (span_bound N B j a Hj Ha)].
  - rewrite <- prodl_flat_map. rewrite (prodl_perm _ _ _ _ (square_cells N B HB)).
    rewrite prodl_list_prod, prodl_seq. apply prodn_ext. intros i _. apply prodl_seq.
Qed.
End Likelihood.

(** * Samplers *)

Lemma bern_acc : forall E F (p : E -> R) (mark : E -> F) l acc,
  pbind (bern p mark l []) (fun x => Ret (acc ++ x)) = bern p mark l acc.
Proof.
  intros E F p mark l acc.
  assert (G : forall a, pbind (bern p mark l a) (fun x => Ret (acc ++ x)) = bern p mark l (acc ++ a)).
  { unfold bern. induction l as [|e l IH]; intros a; simpl; [reflexivity|]. f_equal.
    apply functional_extensionality. intros [|]; rewrite IH; [rewrite app_assoc|]; reflexivity. }
  rewrite G, app_nil_r. reflexivity.
Qed.

Lemma for_prog_shift : forall S a n (body : nat -> S -> prog S) s,
  for_prog (seq 0 n) (fun i => body (a + i)%nat) s = for_prog (seq a n) body s.
Proof. intros S a n body s. rewrite <- (map_seq_shift a n), for_prog_map. reflexivity. Qed.

Lemma for_prog_ext : forall X S (l : list X) (b1 b2 : X -> S -> prog S) s,
  (forall x s, b1 x s = b2 x s) -> for_prog l b1 s = for_prog l b2 s.
Proof.
  intros X S l b1 b2 s H. f_equal. apply functional_extensionality; intros x. apply functional_extensionality; intros t. apply H.
Qed.

Lemma block_bern : forall (F : Type) (p : nat * nat -> R) (mark : nat * nat -> F) (sl : bool) (s t : span) acc,
  for_prog (seq 0 (len s)) (fun i acc => for_prog (seq 0 (len t)) (fun j acc =>
      if adm sl (fst s + i) (fst t + j) then
        Draw (p (fst s + i, fst t + j)%nat) (fun d => Ret (if d then acc ++ [mark (fst s + i, fst t + j)%nat] else acc))
      else Ret acc) acc) acc
  = bern p mark (filter (fun e => allowed sl (fst e) (snd e)) (cells (s, t))) acc.
Proof.
  intros F p mark sl s t acc. unfold bern, cells. rewrite for_prog_filter, for_prog_prod. simpl fst; simpl snd. unfold indices.
  rewrite <- (for_prog_shift _ (fst s) (len s)). apply for_prog_ext. intros i a.
  rewrite <- (for_prog_shift _ (fst t) (len t)). reflexivity.
Qed.

Lemma blocks_bern : forall (F : Type) (p : nat * nat -> R) (mark : nat * nat -> F) (g : block -> list (nat * nat)) bs acc,
  for_prog bs (fun b acc => pbind (bern p mark (g b) []) (fun l => Ret (acc ++ l))) acc
  = bern p mark (flat_map g bs) acc.
Proof.
  intros F p mark g bs; induction bs as [|b bs IH]; intros acc; simpl; [reflexivity|].
  rewrite bern_acc. transitivity (pbind (bern p mark (g b) acc) (bern p mark (flat_map g bs))).
  - apply pbind_ext. intros a. apply IH.
  - unfold bern. rewrite for_prog_app. reflexivity.
Qed.

Lemma filter_flat_map : forall A C (f : C -> bool) (g : A -> list C) l,
  filter f (flat_map g l) = flat_map (fun x => filter f (g x)) l.
Proof. intros A C f g l; induction l as [|x l IH]; simpl; [reflexivity | rewrite filter_app, IH; reflexivity]. Qed.

Lemma filter_perm : forall A (f : A -> bool) l l', Permutation l l' -> Permutation (filter f l) (filter f l').
Proof.
  intros A f l l' H; induction H; simpl; [constructor | | |eapply Permutation_trans; eassumption].
  - destruct (f x); [constructor; assumption | assumption].
  - destruct (f x), (f y); try apply perm_swap; reflexivity.
Qed.

(** The distribution of a function of the set of links does not depend on the order of the tests. *)
Lemma bern_perm : forall E F (p : E -> R) (mark : E -> F) (f : list F -> R),
  (forall a b, Permutation a b -> f a = f b) ->
  forall l l', Permutation l l' -> forall acc acc', Permutation acc acc' ->
  expect (bern p mark l acc) f = expect (bern p mark l' acc') f.
Proof.
  intros E F p mark f Hf l l' H; induction H; intros acc acc' Ha.
  - simpl. apply Hf. exact Ha.
  - rewrite !(bern_expect _ _ _ _ (x :: _)).
    rewrite (IHPermutation (acc ++ [mark x]) (acc' ++ [mark x])) by (apply Permutation_app_tail; exact Ha).
    rewrite (IHPermutation acc acc' Ha). reflexivity.
  - assert (G : forall b b', Permutation b b' -> expect (bern p mark l b) f = expect (bern p mark l b') f).
    { clear - Hf. induction l as [|e l IH]; intros b b' Hb; [simpl; apply Hf; exact Hb|].
      rewrite !(bern_expect _ _ _ _ (e :: _)).
      rewrite (IH (b ++ [mark e]) (b' ++ [mark e])) by (apply Permutation_app_tail; exact Hb). rewrite (IH b b' Hb). reflexivity. }
    rewrite !(bern_expect _ _ _ _ (_ :: _ :: _)). rewrite !(bern_expect _ _ _ _ (_ :: _)).
    rewrite (G ((acc ++ [mark y]) ++ [mark x]) ((acc' ++ [mark x]) ++ [mark y])).
    2:{ rewrite <- !app_assoc. apply Permutation_app; [exact Ha | apply perm_swap]. }
    rewrite (G (acc ++ [mark y]) (acc' ++ [mark y])) by (apply Permutation_app_tail; exact Ha).
    rewrite (G (acc ++ [mark x]) (acc' ++ [mark x])) by (apply Permutation_app_tail; exact Ha).
    rewrite (G acc acc' Ha). ring.
  - rewrite (IHPermutation1 acc acc' Ha). apply IHPermutation2. reflexivity.
Qed.

Section Samplers.
Variables P X Y Z : Type.
Variables (p_ij : P -> X -> Y -> Z -> R) (param : P) (prop_out : nat -> X) (prop_in : nat -> Y) (prop_dyad : nat -> nat -> Z).
Variables (N B : nat) (sl : bool).
Hypothesis HB : (1 <= B)%nat.
Hypothesis Hz : forall d x y z z', p_ij d x y z = p_ij d x y z'.
Let pe (e : nat * nat) : R := p_ij param (prop_out (fst e)) (prop_in (snd e)) (prop_dyad (fst e) (snd e)).

Definition spark_pairs : list (nat * nat) :=
  filter (fun e => allowed sl (fst e) (snd e)) (flat_map cells (square_blocks N B)).

Lemma spark_pairs_perm : Permutation spark_pairs (pairs N sl).
Proof. unfold spark_pairs, pairs. apply filter_perm. apply square_cells. exact HB. Qed.

Lemma spark_sample_bern :
  spark_sample param prop_out prop_in prop_dyad N B p_ij sl = bern pe (fun e => e) spark_pairs [].
Proof.
  unfold spark_sample, spark_pairs. rewrite filter_flat_map. rewrite <- blocks_bern.
  apply for_prog_ext. intros [s t] acc. f_equal. rewrite <- block_bern. unfold b_sample.
  apply for_prog_ext. intros i a. apply for_prog_ext. intros j a'.
  unfold slice, pe; simpl fst; simpl snd.
  rewrite (Hz param _ _ (prop_dyad i j) (prop_dyad (fst s + i) (fst t + j))%nat). reflexivity.
Qed.

Lemma spark_cremb_bern : forall s_out s_in, sumn N s_out <> 0 ->
  Rabs (1 - sumn N s_in / sumn N s_out) < 1 / 1000000 ->
  spark_cremb param prop_out prop_in prop_dyad N B p_ij s_out s_in sl
  = Ok (bern pe (fun e => (fst e, snd e, s_out (fst e) * s_in (snd e) / (sumn N s_out * pe e))) spark_pairs []).
Proof.
  intros s_out s_in H0 H1. unfold spark_cremb, guard. rewrite Reqb_false by exact H0. rewrite Rltb_true by exact H1.
  f_equal. unfold spark_pairs. rewrite filter_flat_map. rewrite <- blocks_bern.
  apply for_prog_ext. intros [s t] acc. f_equal. rewrite <- block_bern. unfold b_cremb.
  apply for_prog_ext. intros i a. apply for_prog_ext. intros j a'.
  unfold slice, pe; simpl fst; simpl snd.
  rewrite (Hz param _ _ (prop_dyad i j) (prop_dyad (fst s + i) (fst t + j))%nat). reflexivity.
Qed.

Lemma spark_sample_expect : forall f, (forall a b, Permutation a b -> f a = f b) ->
  expect (spark_sample param prop_out prop_in prop_dyad N B p_ij sl) f
  = expect (binary_sample p_ij param prop_out prop_in prop_dyad N sl) f.
Proof.
  intros f Hf. rewrite spark_sample_bern, binary_sample_bern.
  apply bern_perm; [exact Hf | exact spark_pairs_perm | constructor].
Qed.

Lemma spark_cremb_expect : forall s_out s_in f, (forall a b, Permutation a b -> f a = f b) ->
  match spark_cremb param prop_out prop_in prop_dyad N B p_ij s_out s_in sl,
        cremb_sample p_ij param prop_out prop_in prop_dyad s_out s_in N sl with
  | Ok m, Ok m' => expect m f = expect m' f
  | Raise e, Raise e' => e = e'
  | _, _ => False
  end.
Proof.
  intros s_out s_in f Hf.
  destruct (Req_dec (sumn N s_out) 0) as [E|E].
  - unfold spark_cremb, cremb_sample. rewrite Reqb_true by exact E. reflexivity.
  - destruct (Rlt_dec (Rabs (1 - sumn N s_in / sumn N s_out)) (1 / 1000000)) as [L|L].
    + rewrite spark_cremb_bern, cremb_sample_bern by assumption.
      apply bern_perm; [exact Hf | exact spark_pairs_perm | constructor].
    + unfold spark_cremb, cremb_sample. rewrite Reqb_false by exact E. rewrite Rltb_false by lra. reflexivity.
Qed.
End Samplers.
