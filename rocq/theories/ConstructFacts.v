(** What the argument checks of the constructors accept, stated on the values
    themselves rather than through the checks. *)
From Coq Require Import ZArith String Sorted.
From Verif Require Import Base Num MultiKernels Construct.

Open Scope R_scope.
Open Scope string_scope.
Open Scope list_scope.

(** * Vocabulary of the statements *)

(** An ndarray has as many elements as its shape says. *)
Definition well_formed (v : value) : Prop :=
  match v with Arr _ sh data => length data = prod_shape sh | _ => True end.

Definition not_negative (x : num) : Prop :=
  x <> NInf /\ forall r, x = Fin r -> 0 <= r.

(** Non-negative, and not nan. *)
Definition non_negative (x : num) : Prop :=
  x = PInf \/ exists r, x = Fin r /\ 0 <= r.

(** The scalar is the number [x]. *)
Inductive scalar_is : scalar -> num -> Prop :=
| si_int z : scalar_is (SInt z) (Fin (IZR z))
| si_float x : scalar_is (SFloat x) x
| si_bool b : scalar_is (SBool b) (Fin (if b then 1 else 0)).

Definition arithmetic (d : dtype) : Prop := d = DInt \/ d = DFloat \/ d = DBool.
Definition numeric (d : dtype) : Prop := d = DInt \/ d = DFloat.

(** A positive whole number, as a scalar or as an array of one element. *)
Definition count_spec (v : value) (n : nat) : Prop :=
  (1 <= n)%nat /\
  ((exists s, v = Sc s /\ scalar_is s (Fin (INR n))) \/
   (exists d sh, v = Arr d sh [Fin (INR n)] /\ arithmetic d)).

(** A single number that is not negative: a scalar, a list or an array holding one, or
    a 1 x 1 sparse matrix.  An array of dimension two or more whose first dimension is
    one and which has at most one element is kept as an array. *)
Inductive single_spec : value -> value -> Prop :=
| ss_scalar s x : scalar_is s x -> not_negative x -> single_spec (Sc s) (Sc (SFloat x))
| ss_list s x : scalar_is s x -> not_negative x -> single_spec (Seq [s]) (Sc (SFloat x))
| ss_arr0 d x : arithmetic d -> not_negative x ->
    single_spec (Arr d [] [x]) (Sc (SFloat x))
| ss_arr1 d x : arithmetic d -> not_negative x ->
    single_spec (Arr d [1%nat] [x]) (Sc (SFloat x))
| ss_deep d n sh data : arithmetic d -> (length data <= 1)%nat -> Forall not_negative data ->
    single_spec (Arr d (1%nat :: n :: sh) data) (Arr DFloat (n :: sh) data)
| ss_sparse row : Forall (fun p => not_negative (snd p)) row ->
    single_spec (Csr 1 [row]) (Csr 1 [row]).

(** All elements are numbers, and they are not all booleans. *)
Definition numbers (l : list scalar) (xs : list num) : Prop :=
  Forall2 scalar_is l xs /\ (l = [] \/ exists s, In s l /\ forall b, s <> SBool b).

(** A parameter for the models with one parameter.  (A list is held as an array with
    one row, whatever its length.) *)
Inductive param1_spec : value -> nd -> Prop :=
| p1_scalar s x : scalar_is s x -> (forall b, s <> SBool b) -> not_negative x ->
    param1_spec (Sc s) ([1%nat], [x])
| p1_list l xs : numbers l xs -> Forall not_negative xs ->
    param1_spec (Seq l) ([1%nat; length l], xs)
| p1_arr d sh data : numeric d -> Forall not_negative data ->
    param1_spec (Arr d (1%nat :: sh) data) (1%nat :: sh, data).

(** The parameters of the random graph: a scalar is the first of two, the other being
    zero. *)
Inductive param2_spec : value -> nd -> Prop :=
| p2_scalar s x : scalar_is s x -> not_negative x -> param2_spec (Sc s) ([2%nat], [x; Fin 0])
| p2_arr d sh data : numeric d -> Forall not_negative data ->
    param2_spec (Arr d (2%nat :: sh) data) (2%nat :: sh, data).

(** An array of [N] numbers, none negative or nan. *)
Definition fitness_spec (N : nat) (v : value) (l : list num) : Prop :=
  exists d, v = Arr d [N] l /\ arithmetic d /\ Forall non_negative l.

(** The value of an attribute: from the keyword if it is given, else from the graph. *)
Definition given (graph kw : list (string * value)) (name : string) (v : value) : Prop :=
  In (name, v) kw \/ (~ In name (map fst kw) /\ In (name, v) graph).

Definition not_given (graph kw : list (string * value)) (name : string) : Prop :=
  ~ In name (map fst kw) /\ ~ In name (map fst graph).

(** An optional attribute: absent, or present and described by [P]. *)
Definition optional {A} (graph kw : list (string * value)) (name : string)
  (P : value -> A -> Prop) (o : option A) : Prop :=
  match o with
  | None => not_given graph kw name
  | Some x => exists v, given graph kw name v /\ P v x
  end.

(** * The checks *)

Lemma neg_spec : forall x, neg x = false <-> not_negative x.
Proof.
  intros x; unfold neg, not_negative; destruct x as [r| | |]; simpl.
  - destruct (Rltb_spec r 0) as [H|H]; split.
    + discriminate.
    + intros [_ K]; specialize (K r eq_refl); lra.
    + intros _; split; [discriminate | intros r' E; injection E as E; lra].
    + reflexivity.
  - split; [intros _; split; [discriminate | discriminate] | reflexivity].
  - split; [discriminate | intros [K _]; congruence].
  - split; [intros _; split; [discriminate | discriminate] | reflexivity].
Qed.

Lemma nonneg_spec : forall x, nleb (Fin 0) x = true <-> non_negative x.
Proof.
  intros x; unfold non_negative; destruct x as [r| | |].
  - rewrite nleb_fin; destruct (Rleb_spec 0 r) as [H|H]; split.
    + intros _; right; exists r; split; [reflexivity | exact H].
    + reflexivity.
    + discriminate.
    + intros [K|[r' [K K']]]; [discriminate | injection K as <-; lra].
  - split; [intros _; left; reflexivity | reflexivity].
  - cbn; split; [discriminate | intros [K|[r [K _]]]; discriminate].
  - cbn; split; [discriminate | intros [K|[r [K _]]]; discriminate].
Qed.

Lemma existsb_neg : forall l, existsb neg l = false <-> Forall not_negative l.
Proof.
  induction l as [|x l IH]; simpl; [split; [constructor | reflexivity]|].
  rewrite orb_false_iff, IH, neg_spec; split.
  - intros [H1 H2]; constructor; assumption.
  - intros H; inversion H; split; assumption.
Qed.

Lemma existsb_neg_row : forall l : svec,
  existsb (fun p => neg (snd p)) l = false <-> Forall (fun p => not_negative (snd p)) l.
Proof.
  induction l as [|x l IH]; simpl; [split; [constructor | reflexivity]|].
  rewrite orb_false_iff, IH, neg_spec; split.
  - intros [H1 H2]; constructor; assumption.
  - intros H; inversion H; split; assumption.
Qed.

Lemma rows_negative_spec : forall rows,
  rows_negative rows = false <-> Forall (Forall (fun p => not_negative (snd p))) rows.
Proof.
  unfold rows_negative; induction rows as [|x l IH]; simpl; [split; [constructor | reflexivity]|].
  rewrite orb_false_iff, IH, existsb_neg_row; split.
  - intros [H1 H2]; constructor; assumption.
  - intros H; inversion H; split; assumption.
Qed.

Lemma forallb_nonneg : forall l,
  forallb (fun x => nleb (Fin 0) x) l = true <-> Forall non_negative l.
Proof.
  induction l as [|x l IH]; cbn [forallb]; [split; [constructor | reflexivity]|].
  rewrite andb_true_iff, IH, nonneg_spec; split.
  - intros [H1 H2]; constructor; assumption.
  - intros H; inversion H; split; assumption.
Qed.

Lemma has_arith_spec : forall d, has_arith d = true <-> arithmetic d.
Proof.
  unfold arithmetic; destruct d; simpl; split; intros H; auto; try discriminate;
    destruct H as [H|[H|H]]; discriminate.
Qed.

Lemma is_numeric_spec : forall d, is_numeric d = true <-> numeric d.
Proof.
  unfold numeric; destruct d; simpl; split; intros H; auto; try discriminate;
    destruct H as [H|H]; discriminate.
Qed.

Lemma sc_num_spec : forall s x, sc_num s = Some x <-> scalar_is s x.
Proof.
  intros s x; split.
  - destruct s as [z|y|b|t|]; simpl; intros H; try discriminate; injection H as <-; try constructor.
  - intros H; destruct H as [z|y|b]; simpl; try reflexivity; destruct b; reflexivity.
Qed.

Lemma py_int_pos : forall n, (1 <= n)%nat -> py_int (INR n) = Z.of_nat n.
Proof.
  intros n Hn; unfold py_int; rewrite Rltb_false by apply pos_INR.
  apply Int_part_INR.
Qed.

Lemma count_of_num_spec : forall x n,
  count_of_num x = Ok n <-> (1 <= n)%nat /\ x = Fin (INR n).
Proof.
  intros x n; split.
  - destruct x as [r| | |]; simpl; try discriminate.
    destruct (Z.eqb_spec (py_int r) 0) as [E|E]; [discriminate|].
    unfold guard; destruct (Reqb_spec (r / IZR (py_int r)) 1) as [E1|E1]; [|discriminate].
    destruct (Z.leb_spec (py_int r) 0) as [E2|E2]; cbn [negb]; [discriminate|].
    intros H; assert (Hn : n = Z.to_nat (py_int r)) by congruence; subst n.
    split; [lia|]. f_equal.
    rewrite INR_IZR_INZ, Z2Nat.id by lia.
    assert (Hz : IZR (py_int r) <> 0) by (apply IZR_neq in E; exact E).
    apply (Rmult_eq_compat_r (IZR (py_int r))) in E1; unfold Rdiv in E1.
    rewrite Rmult_assoc, Rinv_l in E1 by exact Hz; lra.
  - intros [Hn ->]; simpl; rewrite py_int_pos by exact Hn.
    destruct (Z.eqb_spec (Z.of_nat n) 0) as [E|E]; [lia|].
    unfold guard; rewrite Reqb_true.
    + destruct (Z.leb_spec (Z.of_nat n) 0) as [E2|E2]; [lia|]; cbn [negb]; rewrite Nat2Z.id; reflexivity.
    + rewrite <- INR_IZR_INZ; field. apply not_0_INR; lia.
Qed.

Lemma count_arg_spec : forall v n, count_arg v = Ok n <-> count_spec v n.
Proof.
  intros v n; unfold count_spec; split.
  - destruct v as [s|l|d sh data|c rows|]; simpl; try discriminate.
    + destruct (sc_num s) as [x|] eqn:E; [|discriminate].
      intros H; apply count_of_num_spec in H; destruct H as [H1 ->].
      split; [exact H1|]; left; exists s; split; [reflexivity | apply sc_num_spec; exact E].
    + destruct data as [|x [|y data]]; try discriminate.
      unfold guard; destruct (has_arith d) eqn:E; [|discriminate].
      intros H; apply count_of_num_spec in H; destruct H as [H1 ->].
      split; [exact H1|]; right; exists d, sh; split; [reflexivity | apply has_arith_spec; exact E].
  - intros [Hn [[s [-> H]]|[d [sh [-> H]]]]]; cbn [count_arg].
    + apply sc_num_spec in H; rewrite H; apply count_of_num_spec; split; [exact Hn | reflexivity].
    + apply has_arith_spec in H; rewrite H; unfold guard; apply count_of_num_spec; split;
        [exact Hn | reflexivity].
Qed.

Lemma number_tail : forall w u,
  match py_times_one w with
  | None => Raise ValueError
  | Some u => do b <- py_negative u; if b then Raise ValueError else Ok u
  end = Ok u <->
  exists u', py_times_one w = Some u' /\ py_negative u' = Ok false /\ u = u'.
Proof.
  intros w u; split.
  - destruct (py_times_one w) as [u'|]; [|discriminate].
    destruct (py_negative u') as [b|e] eqn:E; simpl; [|discriminate].
    destruct b; [discriminate|]; intros H; exists u'; split; [reflexivity|]; split;
      [exact E | congruence].
  - intros [u' [-> [-> ->]]]; reflexivity.
Qed.

Lemma number_scalar : forall s u,
  (exists u', py_times_one (Sc s) = Some u' /\ py_negative u' = Ok false /\ u = u') <->
  exists x, scalar_is s x /\ not_negative x /\ u = Sc (SFloat x).
Proof.
  intros s u; split.
  - intros [u' [H1 [H2 ->]]]; simpl in H1; destruct (sc_num s) as [x|] eqn:E; [|discriminate].
    injection H1 as <-; simpl in H2; exists x; split; [apply sc_num_spec; exact E|].
    split; [apply neg_spec; congruence | reflexivity].
  - intros [x [H1 [H2 ->]]]; apply sc_num_spec in H1; apply neg_spec in H2.
    exists (Sc (SFloat x)); simpl; rewrite H1, H2; auto.
Qed.

Lemma number_arg_spec : forall v u, well_formed v -> (number_arg v = Ok u <-> single_spec v u).
Proof.
  intros v u Hwf; split.
  - unfold number_arg; destruct v as [s|l|d sh data|c rows|].
    + destruct (py_len (Sc s)) as [n|] eqn:E.
      * destruct s; simpl in E; try discriminate; destruct (n =? 1)%nat; discriminate.
      * cbn [bind]; intros H; apply number_tail, number_scalar in H.
        destruct H as [x [H1 [H2 ->]]]; constructor; assumption.
    + cbn [py_len]; destruct l as [|s [|s' l]]; try discriminate.
      cbn [length Nat.eqb bind py_item0]; intros H; apply number_tail, number_scalar in H.
      destruct H as [x [H1 [H2 ->]]]; constructor; assumption.
    + destruct sh as [|n sh]; cbn [py_len].
      * cbn [bind]; intros H; apply number_tail in H; destruct H as [u' [H1 [H2 ->]]].
        simpl in Hwf; destruct data as [|x [|y data]]; simpl in Hwf; try discriminate.
        simpl in H1; destruct (has_arith d) eqn:E; [|discriminate]; injection H1 as <-.
        simpl in H2; constructor; [apply has_arith_spec; exact E | apply neg_spec; congruence].
      * destruct (Nat.eqb_spec n 1) as [->|_]; [|discriminate].
        cbn [bind]; intros H; apply number_tail in H; destruct H as [u' [H1 [H2 ->]]].
        destruct sh as [|k sh].
        -- simpl in Hwf; destruct data as [|x [|y data]]; simpl in Hwf; try discriminate.
           cbn [py_item0] in H1; destruct (has_arith d) eqn:E; simpl in H1; [|discriminate].
           injection H1 as <-; simpl in H2.
           constructor; [apply has_arith_spec; exact E | apply neg_spec; congruence].
        -- cbn [py_item0 py_times_one] in H1; destruct (has_arith d) eqn:E; [|discriminate].
           injection H1 as <-; apply has_arith_spec in E.
           destruct data as [|x [|y data]]; simpl in H2; try discriminate.
           ++ constructor; [exact E | simpl; lia | constructor].
           ++ constructor; [exact E | simpl; lia |].
              constructor; [apply neg_spec; congruence | constructor].
    + cbn [py_len bind]; intros H; apply number_tail in H; destruct H as [u' [H1 [H2 ->]]].
      simpl in H1; injection H1 as <-.
      destruct c as [|[|c]]; simpl in H2; try discriminate.
      destruct rows as [|row [|row' rows]]; try discriminate.
      constructor; apply existsb_neg_row; congruence.
    + discriminate.
  - intros H; destruct H as [s x H1 H2|s x H1 H2|d x H1 H2|d x H1 H2|d n sh data H1 H2 H3|row H];
      unfold number_arg.
    + assert (E : py_len (Sc s) = None) by (destruct H1; reflexivity).
      rewrite E; cbn [bind]; apply number_tail, number_scalar; exists x; auto.
    + cbn [py_len length Nat.eqb bind py_item0]; apply number_tail, number_scalar; exists x; auto.
    + cbn [py_len bind]; apply number_tail; apply has_arith_spec in H1; apply neg_spec in H2.
      exists (Sc (SFloat x)); simpl; rewrite H1, H2; auto.
    + cbn [py_len Nat.eqb bind py_item0]; apply number_tail; apply has_arith_spec in H1;
        apply neg_spec in H2; rewrite H1.
      exists (Sc (SFloat x)); simpl; rewrite H2; auto.
    + cbn [py_len Nat.eqb bind py_item0]; apply number_tail; apply has_arith_spec in H1.
      exists (Arr DFloat (n :: sh) data); cbn [py_times_one]; rewrite H1.
      split; [reflexivity|]; split; [|reflexivity].
      destruct data as [|x [|y data]]; simpl in H2 |- *; [reflexivity | | lia].
      inversion H3 as [|? ? K _]; apply neg_spec in K; rewrite K; reflexivity.
    + cbn [py_len bind]; apply number_tail; exists (Csr 1 [row]); simpl.
      apply existsb_neg_row in H; rewrite H; auto.
Qed.

Lemma param_checks_spec : forall d a b,
  param_checks d a = Ok b <-> b = a /\ numeric d /\ Forall not_negative (snd a).
Proof.
  intros d a b; unfold param_checks, guard; rewrite <- is_numeric_spec, <- existsb_neg.
  destruct (is_numeric d); [|split; [discriminate | intros [_ [K _]]; discriminate]].
  destruct (existsb neg (snd a)); cbn [negb].
  - split; [discriminate | intros [_ [_ K]]; discriminate].
  - split; [intros H; injection H as <-; auto | intros [-> _]; reflexivity].
Qed.

(** ** The type of an array made from a list *)

Lemma existsb_none : forall l xs, Forall2 scalar_is l xs ->
  existsb (fun s => match s with SNone => true | _ => false end) l = false /\
  existsb (fun s => match s with SText _ => true | _ => false end) l = false.
Proof.
  intros l xs H; induction H as [|s x l xs Hs _ [IH1 IH2]]; simpl; [auto|].
  rewrite IH1, IH2; destruct Hs; auto.
Qed.

Lemma all_numbers : forall l,
  existsb (fun s => match s with SNone => true | _ => false end) l = false ->
  existsb (fun s => match s with SText _ => true | _ => false end) l = false ->
  Forall2 scalar_is l (nums_of l).
Proof.
  induction l as [|s l IH]; simpl; intros H1 H2; [constructor|].
  apply orb_false_iff in H1; apply orb_false_iff in H2.
  destruct H1 as [H1 H1']; destruct H2 as [H2 H2'].
  constructor; [|apply IH; assumption].
  destruct s; try discriminate; apply sc_num_spec; reflexivity.
Qed.

Lemma nums_of_spec : forall l xs, Forall2 scalar_is l xs -> nums_of l = xs.
Proof.
  intros l xs H; induction H as [|s x l xs Hs _ IH]; [reflexivity|].
  simpl; apply sc_num_spec in Hs; rewrite Hs, IH; reflexivity.
Qed.

Lemma some_number : forall l xs, Forall2 scalar_is l xs -> l <> [] ->
  (exists s, In s l /\ forall b, s <> SBool b) ->
  existsb (fun s => match s with SFloat _ => true | _ => false end) l = true \/
  existsb (fun s => match s with SInt _ => true | _ => false end) l = true.
Proof.
  intros l xs H _ [s [Hs Hb]]; induction H as [|s' x l xs Hx _ IH]; [destruct Hs|].
  simpl; destruct Hs as [->|Hs].
  - destruct Hx as [z|y|b]; [right; reflexivity | left; reflexivity | exfalso; apply (Hb b); reflexivity].
  - destruct (IH Hs) as [K|K]; rewrite K; [left | right]; apply orb_true_r.
Qed.

Lemma dtype_of_numeric : forall l,
  numeric (dtype_of l) <-> numbers l (nums_of l).
Proof.
  intros l; unfold numbers; split.
  - unfold dtype_of; intros H.
    destruct (existsb (fun s => match s with SNone => true | _ => false end) l) eqn:E1;
      [destruct H; discriminate|].
    destruct (existsb (fun s => match s with SText _ => true | _ => false end) l) eqn:E2;
      [destruct H; discriminate|].
    split; [apply all_numbers; assumption|].
    destruct (existsb (fun s => match s with SFloat _ => true | _ => false end) l) eqn:E3.
    + apply existsb_exists in E3; destruct E3 as [s [Hs K]]; right; exists s; split; [exact Hs|].
      destruct s; discriminate.
    + destruct (existsb (fun s => match s with SInt _ => true | _ => false end) l) eqn:E4.
      * apply existsb_exists in E4; destruct E4 as [s [Hs K]]; right; exists s; split; [exact Hs|].
        destruct s; discriminate.
      * destruct l; [left; reflexivity | destruct H; discriminate].
  - intros [H [->|Hs]]; [right; reflexivity|].
    destruct (existsb_none _ _ H) as [E1 E2]; unfold dtype_of; rewrite E1, E2.
    destruct (some_number _ _ H) as [K|K].
    + destruct Hs as [s [Hs _]] ; intros ->; destruct Hs.
    + exact Hs.
    + rewrite K; right; reflexivity.
    + rewrite K; match goal with |- numeric (if ?b then _ else _) => destruct b end; [right | left]; reflexivity.
Qed.

Lemma dtype_of_arith : forall l,
  arithmetic (dtype_of l) <-> Forall2 scalar_is l (nums_of l).
Proof.
  intros l; split.
  - unfold dtype_of; intros H.
    destruct (existsb (fun s => match s with SNone => true | _ => false end) l) eqn:E1;
      [destruct H as [H|[H|H]]; discriminate|].
    destruct (existsb (fun s => match s with SText _ => true | _ => false end) l) eqn:E2;
      [destruct H as [H|[H|H]]; discriminate|].
    apply all_numbers; assumption.
  - intros H; destruct (existsb_none _ _ H) as [E1 E2]; unfold dtype_of; rewrite E1, E2.
    unfold arithmetic.
    match goal with |- (if ?b then _ else _) = _ \/ _ => destruct b end; [auto|].
    match goal with |- (if ?b then _ else _) = _ \/ _ => destruct b end; [auto|].
    destruct l; auto.
Qed.

Lemma dtype_single : forall s,
  numeric (dtype_of [s]) <-> exists x, scalar_is s x /\ forall b, s <> SBool b.
Proof.
  intros s; rewrite dtype_of_numeric; unfold numbers; split.
  - intros [H [K|[s' [K Hb]]]]; [discriminate|].
    inversion H as [|? x ? ? Hx]; subst.
    destruct K as [->|[]]; eexists; split; [exact Hx | exact Hb].
  - intros [x [Hx Hb]]; simpl; split.
    + constructor; [|constructor]; apply sc_num_spec in Hx as Hx'; rewrite Hx'; exact Hx.
    + right; exists s; split; [left; reflexivity | exact Hb].
Qed.

Lemma param1_arg_spec : forall v a, param_arg1 v = Ok a <-> param1_spec v a.
Proof.
  intros v a; split.
  - destruct v as [s|l|d sh data|c rows|]; simpl; try discriminate.
    + intros H; apply param_checks_spec in H; destruct H as [-> [H1 H2]].
      apply dtype_single in H1; destruct H1 as [x [Hx Hb]].
      cbn [snd] in H2; apply sc_num_spec in Hx as E; unfold nums_of in H2 |- *; simpl in *.
      rewrite E in *; constructor; [exact Hx | exact Hb | inversion H2; assumption].
    + intros H; apply param_checks_spec in H; destruct H as [-> [H1 H2]].
      constructor; [apply dtype_of_numeric; exact H1 | exact H2].
    + destruct sh as [|n sh]; [discriminate|]; unfold guard.
      destruct (Nat.eqb_spec n 1) as [->|_]; [|discriminate].
      intros H; apply param_checks_spec in H; destruct H as [-> [H1 H2]]; constructor; assumption.
  - intros H; destruct H as [s x Hx Hb Hn|l xs H Hn|d sh data H Hn]; simpl.
    + apply param_checks_spec; apply sc_num_spec in Hx as E; rewrite E; split; [reflexivity|].
      split; [apply dtype_single; exists x; auto | constructor; [exact Hn | constructor]].
    + destruct H as [H H']; pose proof (nums_of_spec _ _ H) as E; subst xs.
      apply param_checks_spec; split; [reflexivity|]; split; [|exact Hn].
      apply dtype_of_numeric; split; assumption.
    + unfold guard; apply param_checks_spec; auto.
Qed.

Lemma param2_arg_spec : forall v a, param_arg2 v = Ok a <-> param2_spec v a.
Proof.
  intros v a; split.
  - destruct v as [s|l|d sh data|c rows|]; cbn [param_arg2]; try discriminate.
    + intros H; apply param_checks_spec in H; destruct H as [-> [H1 H2]].
      apply dtype_of_numeric in H1; destruct H1 as [H1 _]; inversion H1 as [|? x ? ? Hx]; subst.
      cbn [snd] in H2; apply sc_num_spec in Hx as E; unfold nums_of in H2 |- *; simpl in *.
      constructor; [exact Hx | inversion H2; assumption].
    + destruct sh as [|n sh]; [discriminate|]; unfold guard.
      destruct (Nat.eqb_spec n 2) as [->|_]; [|discriminate].
      intros H; apply param_checks_spec in H; destruct H as [-> [H1 H2]]; constructor; assumption.
  - intros H; destruct H as [s x Hx Hn|d sh data H Hn]; cbn [param_arg2].
    + apply sc_num_spec in Hx as E.
      assert (En : nums_of [s; SInt 0] = [x; Fin 0]) by (simpl; rewrite E; reflexivity).
      apply param_checks_spec; rewrite En; split; [reflexivity|]; split.
      * apply dtype_of_numeric; rewrite En; split.
        -- constructor; [exact Hx|]; constructor; [apply (si_int 0) | constructor].
        -- right; exists (SInt 0); split; [right; left; reflexivity | discriminate].
      * constructor; [exact Hn|]; constructor; [apply neg_spec; simpl; apply Rltb_false; lra | constructor].
    + unfold guard; apply param_checks_spec; auto.
Qed.

Lemma prop_spec : forall N v l,
  (do p <- prop_format N v; prop_values p) = Ok l <-> fitness_spec N v l.
Proof.
  intros N v l; unfold fitness_spec; split.
  - destruct v as [s|k|d sh data|c rows|]; try discriminate.
    destruct sh as [|n [|m sh]]; try discriminate; simpl; unfold guard.
    destruct (Nat.eqb_spec n N) as [->|_]; [|discriminate]; unfold bind, prop_values, guard; cbn [fst snd].
    destruct (has_arith d) eqn:E; [|discriminate].
    destruct (forallb (fun x => nleb (Fin 0) x) data) eqn:E2; [|discriminate].
    intros H; assert (data = l) by congruence; subst data.
    exists d; split; [reflexivity|]; split; [apply has_arith_spec; exact E | apply forallb_nonneg; exact E2].
  - intros [d [-> [H1 H2]]]; simpl; unfold guard; rewrite Nat.eqb_refl; simpl.
    unfold prop_values, guard; cbn [fst snd].
    apply has_arith_spec in H1; apply forallb_nonneg in H2; rewrite H1, H2; reflexivity.
Qed.

(** * Attributes *)

Lemma mem_name_spec : forall n l, mem_name n l = true <-> In n l.
Proof.
  intros n l; unfold mem_name; rewrite existsb_exists; split.
  - intros [x [H1 H2]]; apply String.eqb_eq in H2; subst; exact H1.
  - intros H; exists n; split; [exact H | apply String.eqb_refl].
Qed.

Lemma apply_kwargs_ok : forall allowed kw a b,
  apply_kwargs allowed kw a = Ok b <->
  b = rev kw ++ a /\ forall n v, In (n, v) kw -> In n allowed.
Proof.
  intros allowed kw; induction kw as [|[n v] kw IH]; intros a b; simpl.
  - split; [intros H; injection H as <-; split; [reflexivity | intros ? ? []] | intros [-> _]; reflexivity].
  - unfold guard; destruct (mem_name n allowed) eqn:E.
    + rewrite IH, <- app_assoc; simpl; apply mem_name_spec in E; split.
      * intros [H1 H2]; split; [exact H1|]; intros n' v' [K|K]; [injection K as <- _; exact E | apply (H2 _ _ K)].
      * intros [H1 H2]; split; [exact H1|]; intros n' v' K; apply (H2 n' v'); right; exact K.
    + split; [discriminate|]; intros [_ H].
      specialize (H n v (or_introl eq_refl)); apply mem_name_spec in H; congruence.
Qed.

Lemma apply_kwargs_raise : forall allowed kw a e,
  apply_kwargs allowed kw a = Raise e -> e = ValueError.
Proof.
  intros allowed kw; induction kw as [|[n v] kw IH]; intros a e; simpl; [discriminate|].
  unfold guard; destruct (mem_name n allowed); [apply IH | congruence].
Qed.

Lemma getattr_in : forall a n v, getattr a n = Some v -> In (n, v) a.
Proof.
  induction a as [|[m w] a IH]; intros n v; simpl; [discriminate|].
  destruct (String.eqb_spec m n) as [->|_]; [intros H; injection H as <-; left; reflexivity|].
  intros H; right; apply IH; exact H.
Qed.

Lemma getattr_none : forall a n, getattr a n = None <-> ~ In n (map fst a).
Proof.
  induction a as [|[m w] a IH]; intros n; simpl; [split; [intros _ [] | reflexivity]|].
  destruct (String.eqb_spec m n) as [->|Hm].
  - split; [discriminate | intros H; exfalso; apply H; left; reflexivity].
  - rewrite IH; split; [intros H [K|K]; [apply Hm; exact K | apply H; exact K] | intros H K; apply H; right; exact K].
Qed.

Lemma getattr_unique : forall a n v, NoDup (map fst a) -> (getattr a n = Some v <-> In (n, v) a).
Proof.
  intros a n v H; split; [apply getattr_in|].
  induction a as [|[m w] a IH]; simpl; [intros []|].
  inversion H as [|? ? H1 H2]; subst.
  intros [K|K].
  - injection K as -> ->; rewrite String.eqb_refl; reflexivity.
  - destruct (String.eqb_spec m n) as [->|_]; [|apply IH; assumption].
    exfalso; apply H1; apply in_map_iff; exists (n, v); split; [reflexivity | exact K].
Qed.

Lemma getattr_app : forall a b n,
  getattr (a ++ b) n = match getattr a n with Some v => Some v | None => getattr b n end.
Proof.
  induction a as [|[m w] a IH]; intros b n; simpl; [reflexivity|].
  destruct (String.eqb m n); [reflexivity | apply IH].
Qed.

Section Given.
Variables graph kw : list (string * value).
Hypothesis Hg : NoDup (map fst graph).
Hypothesis Hk : NoDup (map fst kw).

Lemma NoDup_rev_map : NoDup (map fst (rev kw)).
Proof. rewrite map_rev; apply NoDup_rev; exact Hk. Qed.

Lemma in_rev_names : forall n, In n (map fst (rev kw)) <-> In n (map fst kw).
Proof. intros n; rewrite map_rev, <- in_rev; reflexivity. Qed.

Lemma getattr_given : forall n v,
  getattr (rev kw ++ graph) n = Some v <-> given graph kw n v.
Proof.
  intros n v; rewrite getattr_app; unfold given; split.
  - destruct (getattr (rev kw) n) as [w|] eqn:E.
    + intros H; injection H as ->; left; apply in_rev; apply getattr_in; exact E.
    + intros H; right; apply getattr_none in E; rewrite in_rev_names in E.
      split; [exact E | apply getattr_in; exact H].
  - intros [H|[H1 H2]].
    + apply in_rev in H; apply (getattr_unique _ _ _ NoDup_rev_map) in H; rewrite H; reflexivity.
    + rewrite <- in_rev_names in H1; apply getattr_none in H1; rewrite H1.
      apply (getattr_unique _ _ _ Hg); exact H2.
Qed.

Lemma getattr_not_given : forall n,
  getattr (rev kw ++ graph) n = None <-> not_given graph kw n.
Proof.
  intros n; unfold not_given; rewrite getattr_none, map_app, in_app_iff, in_rev_names; tauto.
Qed.

Lemma given_unique : forall n v w, given graph kw n v -> given graph kw n w -> v = w.
Proof. intros n v w H1 H2; apply getattr_given in H1; apply getattr_given in H2; congruence. Qed.

Lemma given_not : forall n v, given graph kw n v -> not_given graph kw n -> False.
Proof. intros n v H1 H2; apply getattr_given in H1; apply getattr_not_given in H2; congruence. Qed.

Lemma opt_arg_spec : forall A (f : value -> res A) (P : value -> A -> Prop) n o,
  (forall v, given graph kw n v -> forall x, f v = Ok x <-> P v x) ->
  opt_arg f (getattr (rev kw ++ graph) n) = Ok o <-> optional graph kw n P o.
Proof.
  intros A f P n o HP; unfold optional, opt_arg.
  destruct (getattr (rev kw ++ graph) n) as [v|] eqn:E.
  - apply getattr_given in E; split.
    + destruct (f v) as [x|e] eqn:Ef; simpl; [|discriminate].
      intros H; injection H as <-; exists v; split; [exact E | apply (HP v E); exact Ef].
    + destruct o as [x|].
      * intros [w [H1 H2]]; rewrite (given_unique _ _ _ E H1) in *.
        apply (HP w H1) in H2; rewrite H2; reflexivity.
      * intros H; exfalso; apply (given_not _ _ E H).
  - apply getattr_not_given in E; split.
    + intros H; injection H as <-; exact E.
    + destruct o as [x|]; [|reflexivity].
      intros [w [H1 _]]; exfalso; apply (given_not _ _ H1 E).
Qed.

Lemma required_spec : forall A n (k : value -> res A) r,
  (do v <- required (rev kw ++ graph) n; k v) = Ok r <->
  exists v, given graph kw n v /\ k v = Ok r.
Proof.
  intros A n k r; unfold required; destruct (getattr (rev kw ++ graph) n) as [v|] eqn:E; simpl.
  - apply getattr_given in E; split.
    + intros H; exists v; auto.
    + intros [w [H1 H2]]; rewrite (given_unique _ _ _ E H1); exact H2.
  - apply getattr_not_given in E; split; [discriminate|].
    intros [w [H1 _]]; exfalso; apply (given_not _ _ H1 E).
Qed.

Lemma hasattr_spec : forall n,
  hasattr (rev kw ++ graph) n = true <-> exists v, given graph kw n v.
Proof.
  intros n; unfold hasattr; destruct (getattr (rev kw ++ graph) n) as [v|] eqn:E.
  - apply getattr_given in E; split; [exists v; exact E | reflexivity].
  - apply getattr_not_given in E; split; [discriminate|].
    intros [v H]; exfalso; apply (given_not _ _ H E).
Qed.

Lemma default_spec : forall n d w,
  with_default (getattr (rev kw ++ graph) n) d = w <->
  (given graph kw n w \/ (not_given graph kw n /\ w = d)).
Proof.
  intros n d w; unfold with_default; destruct (getattr (rev kw ++ graph) n) as [v|] eqn:E.
  - apply getattr_given in E; split; [intros <-; left; exact E|].
    intros [H|[H _]]; [apply (given_unique _ _ _ E H) | exfalso; apply (given_not _ _ E H)].
  - apply getattr_not_given in E; split; [intros <-; right; auto|].
    intros [H|[_ H]]; [exfalso; apply (given_not _ _ H E) | congruence].
Qed.

End Given.

Lemma bind_ok : forall A B (r : res A) (k : A -> res B) b,
  (do x <- r; k x) = Ok b <-> exists x, r = Ok x /\ k x = Ok b.
Proof.
  intros A B r k b; destruct r as [x|e]; simpl; split.
  - intros H; exists x; auto.
  - intros [y [H1 H2]]; injection H1 as ->; exact H2.
  - discriminate.
  - intros [y [H1 _]]; discriminate.
Qed.

Lemma guard_ok : forall A b e (k : res A) x, guard b e k = Ok x <-> b = true /\ k = Ok x.
Proof.
  intros A b e k x; unfold guard; destruct b; split; auto; try discriminate.
  - intros [_ H]; exact H.
  - intros [H _]; discriminate.
Qed.

Lemma hasattr_opt : forall A graph kw n (P : value -> A -> Prop) o,
  NoDup (map fst graph) -> NoDup (map fst kw) ->
  optional graph kw n P o -> (hasattr (rev kw ++ graph) n = true <-> o <> None).
Proof.
  intros A graph kw n P o Hg Hk H; rewrite (hasattr_spec graph kw Hg Hk).
  destruct o as [x|]; simpl in H.
  - destruct H as [v [H _]]; split; [discriminate | intros _; exists v; exact H].
  - split; [|congruence]; intros [v K]; exfalso; apply (given_not _ _ Hg Hk _ _ K H).
Qed.

(** * Sparse rows of a dense matrix *)

(** [rows] lists, row by row and by increasing column, the entries of the [r] x [c]
    array [data] other than zero. *)
Definition rows_of_dense (r c : nat) (data : list num) (rows : list svec) : Prop :=
  length rows = r /\
  forall i, (i < r)%nat ->
    StronglySorted lt (map fst (nth i rows [])) /\
    forall j x, In (j, x) (nth i rows []) <->
      ((j < c)%nat /\ nth_error data (i * c + j) = Some x /\ x <> Fin 0).

Lemma is0_spec : forall x, is0 x = true <-> x = Fin 0.
Proof.
  intros x; destruct x as [r| | |]; unfold is0; simpl; try (split; discriminate).
  destruct (Reqb_spec r 0) as [->|H]; split; try reflexivity; try discriminate.
  intros K; injection K as K; contradiction.
Qed.

Lemma dense_row_in : forall c f j x,
  In (j, x) (dense_row c f) <-> (j < c)%nat /\ x = f j /\ x <> Fin 0.
Proof.
  intros c f j x; unfold dense_row; rewrite in_flat_map; split.
  - intros [k [Hk H]]; apply in_seq in Hk.
    destruct (is0 (f k)) eqn:E; [destruct H|].
    destruct H as [H|[]]; injection H as <- <-; split; [lia|]; split; [reflexivity|].
    intros K; apply is0_spec in K; congruence.
  - intros [Hj [-> H]]; exists j; split; [apply in_seq; lia|].
    destruct (is0 (f j)) eqn:E; [exfalso; apply H, is0_spec, E | left; reflexivity].
Qed.

Lemma dense_row_sorted : forall c f, StronglySorted lt (map fst (dense_row c f)).
Proof.
  intros c f; unfold dense_row.
  assert (G : forall a, StronglySorted lt
      (map fst (flat_map (fun j => if is0 (f j) then [] else [(j, f j)]) (seq a c))) /\
      Forall (fun j => (a <= j)%nat)
        (map fst (flat_map (fun j => if is0 (f j) then [] else [(j, f j)]) (seq a c)))).
  { induction c as [|c IH]; intros a; simpl; [split; constructor|].
    destruct (IH (S a)) as [H1 H2].
    destruct (is0 (f a)); simpl.
    - split; [exact H1|]; revert H2; apply Forall_impl; intros; lia.
    - split; constructor; auto; try (revert H2; apply Forall_impl; intros; lia). }
  apply G.
Qed.

Lemma sorted_rows_eq : forall l m : svec,
  StronglySorted lt (map fst l) -> StronglySorted lt (map fst m) ->
  (forall j x, In (j, x) l <-> In (j, x) m) -> l = m.
Proof.
  induction l as [|[j x] l IH]; intros m Hl Hm H.
  - destruct m as [|[j x] m]; [reflexivity|].
    exfalso; apply (proj2 (H j x)); left; reflexivity.
  - destruct m as [|[k y] m]; [exfalso; apply (proj1 (H j x)); left; reflexivity|].
    simpl in Hl, Hm; inversion Hl as [|? ? Hl1 Hl2]; inversion Hm as [|? ? Hm1 Hm2]; subst.
    rewrite Forall_forall in Hl2, Hm2.
    assert (E : (j, x) = (k, y)).
    { destruct (proj1 (H j x) (or_introl eq_refl)) as [K|K]; [symmetry; exact K|].
      destruct (proj2 (H k y) (or_introl eq_refl)) as [K'|K']; [exact K'|].
      apply (in_map fst) in K; apply Hm2 in K; apply (in_map fst) in K'; apply Hl2 in K'.
      simpl in K, K'; lia. }
    injection E as -> ->; f_equal; apply IH; [exact Hl1 | exact Hm1|].
    intros j x; split; intros K.
    + destruct (proj1 (H j x) (or_intror K)) as [K'|K']; [|exact K'].
      injection K' as -> ->; apply (in_map fst) in K; apply Hl2 in K; simpl in K; lia.
    + destruct (proj2 (H j x) (or_intror K)) as [K'|K']; [|exact K'].
      injection K' as -> ->; apply (in_map fst) in K; apply Hm2 in K; simpl in K; lia.
Qed.

Lemma dense_rows_length : forall r c data, length (dense_rows r c data) = r.
Proof. intros; unfold dense_rows; rewrite map_length, seq_length; reflexivity. Qed.

Lemma dense_rows_nth : forall r c data i, (i < r)%nat ->
  nth i (dense_rows r c data) [] = dense_row c (fun j => nth (i * c + j) data NaN).
Proof.
  intros r c data i Hi; unfold dense_rows.
  rewrite (nth_indep _ [] (dense_row c (fun j => nth (0 * c + j) data NaN)))
    by (rewrite map_length, seq_length; exact Hi).
  rewrite (map_nth (fun i => dense_row c (fun j => nth (i * c + j) data NaN)) (seq 0 r) 0%nat).
  rewrite seq_nth by exact Hi; reflexivity.
Qed.

Lemma dense_rows_in : forall r c data, length data = (r * c)%nat ->
  rows_of_dense r c data (dense_rows r c data).
Proof.
  intros r c data H; split; [apply dense_rows_length|].
  intros i Hi; rewrite dense_rows_nth by exact Hi; split; [apply dense_row_sorted|].
  intros j x; rewrite dense_row_in; split.
  - intros [Hj [-> Hx]]; split; [exact Hj|]; split; [|exact Hx].
    rewrite <- nth_error_nth' with (d := NaN); [reflexivity | rewrite H; nia].
  - intros [Hj [Hx Hn]]; split; [exact Hj|]; split; [|exact Hn].
    symmetry; apply nth_error_nth; exact Hx.
Qed.

Lemma rows_of_dense_spec : forall r c data rows, length data = (r * c)%nat ->
  rows = dense_rows r c data <-> rows_of_dense r c data rows.
Proof.
  intros r c data rows H; split; [intros ->; apply dense_rows_in; exact H|].
  intros [Hl Hr]; destruct (dense_rows_in r c data H) as [Hl' Hr'].
  apply (nth_ext _ _ [] []); [exact (eq_trans Hl (eq_sym Hl'))|].
  intros i Hi; assert (Hi' : (i < r)%nat) by (rewrite <- Hl; exact Hi); clear Hi; rename Hi' into Hi.
  destruct (Hr i Hi) as [H1 H2]; destruct (Hr' i Hi) as [H1' H2'].
  apply sorted_rows_eq; [exact H1 | exact H1'|].
  intros j x; rewrite H2, H2'; reflexivity.
Qed.

(** ** The fitness matrices of the labelled model *)

(** The [N] x [L] matrix, dense or sparse, as sparse rows without negative values. *)
Inductive matrix_spec (N L : nat) : value -> list svec -> Prop :=
| mx_dense d data rows : arithmetic d -> rows_of_dense N L data rows ->
    Forall (Forall (fun p => not_negative (snd p))) rows ->
    matrix_spec N L (Arr d [N; L] data) rows
| mx_sparse rows : length rows = N ->
    Forall (Forall (fun p => not_negative (snd p))) rows ->
    matrix_spec N L (Csr L rows) rows.

Lemma matrix_arg_spec : forall N L v rows, well_formed v ->
  ((do m <- matrix_format N L v; to_csr m) = Ok rows /\ rows_negative rows = false
   <-> matrix_spec N L v rows).
Proof.
  intros N L v rows Hwf; split.
  - intros [H Hn]; apply rows_negative_spec in Hn.
    destruct v as [s|l|d [|r [|c [|k sh]]] data|c rs|]; simpl in H; try discriminate.
    + unfold guard in H; destruct (Nat.eqb_spec r N) as [->|_]; [|discriminate].
      destruct (Nat.eqb_spec c L) as [->|_]; [|discriminate]; cbn [andb bind to_csr] in H.
      unfold guard in H; destruct (has_arith d) eqn:E; [|discriminate].
      assert (rows = dense_rows N L data) by congruence.
      constructor; [apply has_arith_spec; exact E | | exact Hn].
      apply rows_of_dense_spec; [simpl in Hwf; lia | exact H0].
    + unfold guard in H; destruct (Nat.eqb_spec (length rs) N) as [E|_]; [|discriminate].
      destruct (Nat.eqb_spec c L) as [->|_]; [|discriminate]; cbn [andb bind to_csr] in H.
      assert (rs = rows) by congruence; subst rs; constructor; [exact E | exact Hn].
  - intros H; destruct H as [d data rows H1 H2 H3|rows H1 H2]; simpl.
    + unfold guard; rewrite !Nat.eqb_refl; cbn [andb bind to_csr]; unfold guard.
      apply has_arith_spec in H1; rewrite H1.
      apply rows_of_dense_spec in H2; [|simpl in Hwf; lia]; subst rows.
      split; [reflexivity | apply rows_negative_spec; exact H3].
    + replace (_ =? N)%nat with true by (symmetry; apply Nat.eqb_eq; exact H1).
      unfold guard; rewrite Nat.eqb_refl; cbn [andb bind to_csr].
      split; [reflexivity | apply rows_negative_spec; exact H2].
Qed.

(** ** Numbers of edges of the labelled model *)

Definition is_array (v : value) : Prop := exists d sh data, v = Arr d sh data.

(** [w] is the first item of the array [v] of length one. *)
Inductive first_item : value -> value -> Prop :=
| fi_number d x : arithmetic d -> first_item (Arr d [1%nat] [x]) (Sc (SFloat x))
| fi_other d x : ~ arithmetic d -> first_item (Arr d [1%nat] [x]) (Sc SNone)
| fi_array d n sh data : first_item (Arr d (1%nat :: n :: sh) data) (Arr d (n :: sh) data).

(** One number per label, none negative. *)
Inductive labels_spec (L : nat) : value -> nd -> Prop :=
| ls_array d sh data : numeric d -> Forall not_negative data ->
    labels_spec L (Arr d (L :: sh) data) (L :: sh, data).

(** The numbers of edges held, from the [num_edges] and [num_edges_label] supplied. *)
Inductive edges_spec (L : nat) : option value -> option value -> option value -> option nd -> Prop :=
| es_none : edges_spec L None None None None
| es_number v u : ~ is_array v -> single_spec v u -> edges_spec L (Some v) None (Some u) None
| es_first v w u : L <> 1%nat -> first_item v w -> single_spec w u ->
    edges_spec L (Some v) None (Some u) None
| es_array v n : labels_spec L v n -> edges_spec L (Some v) None (Some v) (Some n)
| es_labels v n : labels_spec L v n -> edges_spec L None (Some v) None (Some n)
| es_labels_any v n e : labels_spec L v n -> ~ is_array e ->
    edges_spec L (Some e) (Some v) (Some e) (Some n)
| es_labels_first v n e w : labels_spec L v n -> L <> 1%nat -> first_item e w ->
    edges_spec L (Some e) (Some v) (Some w) (Some n).

Lemma label_counts_spec : forall L v n, label_counts L v = Ok n <-> labels_spec L v n.
Proof.
  intros L v n; split.
  - unfold label_counts; destruct (py_len v) as [k|] eqn:E; [|discriminate].
    unfold guard; destruct (Nat.eqb_spec k L) as [->|_]; [|discriminate].
    destruct v as [s|l|d sh data|c rows|]; try discriminate.
    destruct sh as [|m sh]; simpl in E; [discriminate|]; injection E as ->.
    destruct (is_numeric d) eqn:E1; [|discriminate].
    destruct (existsb neg data) eqn:E2; cbn [negb]; [discriminate|].
    intros H; assert (n = (L :: sh, data)) by congruence; subst n.
    constructor; [apply is_numeric_spec; exact E1 | apply existsb_neg; exact E2].
  - intros H; destruct H as [d sh data H1 H2]; unfold label_counts; cbn [py_len].
    unfold guard; rewrite Nat.eqb_refl.
    apply is_numeric_spec in H1; apply existsb_neg in H2; rewrite H1, H2; reflexivity.
Qed.

Lemma first_item_spec : forall d sh data w, well_formed (Arr d (1%nat :: sh) data) ->
  py_item0 (Arr d (1%nat :: sh) data) = w <-> first_item (Arr d (1%nat :: sh) data) w.
Proof.
  intros d sh data w Hwf; simpl in Hwf; split.
  - intros <-; destruct sh as [|n sh].
    + destruct data as [|x [|y data]]; simpl in Hwf; try discriminate.
      cbn [py_item0]; destruct (has_arith d) eqn:E.
      * constructor; apply has_arith_spec; exact E.
      * constructor; intros K; apply has_arith_spec in K; congruence.
    + cbn [py_item0]; constructor.
  - intros H; inversion H; subst; cbn [py_item0].
    + assert (E : has_arith d = true) by (apply has_arith_spec; assumption); rewrite E; reflexivity.
    + destruct (has_arith d) eqn:E; [|reflexivity].
      exfalso; match goal with K : ~ arithmetic d |- _ => apply K, has_arith_spec, E end.
    + reflexivity.
Qed.

Lemma first_item_wf : forall v w, well_formed v -> first_item v w -> well_formed w.
Proof. intros v w Hwf H; destruct H; simpl in *; try exact I; lia. Qed.

Lemma not_array : forall v, (forall d sh data, v <> Arr d sh data) <-> ~ is_array v.
Proof.
  intros v; unfold is_array; split.
  - intros H [d [sh [data K]]]; apply (H d sh data K).
  - intros H d sh data K; apply H; exists d, sh, data; exact K.
Qed.

Lemma edges_arg_spec : forall L ne nl edges labels,
  (forall v, ne = Some v -> well_formed v) ->
  ((do e <- edges_array L ne nl; edges_checks L (fst e) (snd e)) = Ok (edges, labels)
   <-> edges_spec L ne nl edges labels).
Proof.
  intros L ne nl edges labels Hwf; split.
  - destruct ne as [v|].
    2:{ cbn [edges_array bind fst snd]; unfold edges_checks; destruct nl as [w|].
        - intros H; destruct (label_counts L w) as [n|e] eqn:E; simpl in H; [|discriminate].
          assert (edges = None /\ labels = Some n) as [-> ->] by (split; congruence).
          constructor; apply label_counts_spec; exact E.
        - intros H; assert (edges = None /\ labels = None) as [-> ->] by (split; congruence);
            constructor. }
    specialize (Hwf v eq_refl).
    assert (Hcase : is_array v \/ ~ is_array v).
    { destruct v as [s|l|d sh data|c rows|];
        try (right; intros [d' [sh' [data' K]]]; discriminate).
      left; exists d, sh, data; reflexivity. }
    destruct Hcase as [[d [sh [data ->]]]|Hna].
    + cbn [edges_array]; destruct sh as [|n sh]; [discriminate|].
      destruct (Nat.eqb_spec n L) as [->|Hn].
      * destruct nl as [w|]; [discriminate|]; cbn [bind fst snd edges_checks]; intros H.
        destruct (label_counts L (Arr d (L :: sh) data)) as [m|e] eqn:E; simpl in H; [|discriminate].
        assert (edges = Some (Arr d (L :: sh) data) /\ labels = Some m) as [-> ->] by (split; congruence).
        constructor; apply label_counts_spec; exact E.
      * destruct (Nat.eqb_spec n 1) as [->|_]; [|discriminate].
        cbn [bind fst snd].
        pose proof (proj1 (first_item_spec d sh data _ Hwf) eq_refl) as HF.
        remember (py_item0 (Arr d (1%nat :: sh) data)) as w eqn:Ew; clear Ew.
        unfold edges_checks; destruct nl as [z|]; intros H.
        -- destruct (label_counts L z) as [m|e] eqn:E; simpl in H; [|discriminate].
           assert (edges = Some w /\ labels = Some m) as [-> ->] by (split; congruence).
           constructor; [apply label_counts_spec; exact E | congruence | exact HF].
        -- destruct (number_arg w) as [u|e] eqn:E; simpl in H; [|discriminate].
           assert (edges = Some u /\ labels = None) as [-> ->] by (split; congruence).
           apply es_first with w; [congruence | exact HF|].
           apply number_arg_spec; [apply (first_item_wf _ _ Hwf HF) | exact E].
    + assert (E0 : edges_array L (Some v) nl = Ok (Some v, nl)).
      { destruct v as [s|l|d sh data|c rows|]; try reflexivity.
        exfalso; apply Hna; exists d, sh, data; reflexivity. }
      rewrite E0; cbn [bind fst snd]; unfold edges_checks; destruct nl as [z|]; intros H.
      * destruct (label_counts L z) as [m|e] eqn:E; simpl in H; [|discriminate].
        assert (edges = Some v /\ labels = Some m) as [-> ->] by (split; congruence).
        constructor; [apply label_counts_spec; exact E | exact Hna].
      * destruct (number_arg v) as [u|e] eqn:E; simpl in H; [|discriminate].
        assert (edges = Some u /\ labels = None) as [-> ->] by (split; congruence).
        constructor; [exact Hna | apply number_arg_spec; assumption].
  - intros H; destruct H as [|v u H1 H2|v w u H1 H2 H3|v n H|v n H|v n e H1 H2|v n e w H1 H2 H3].
    + reflexivity.
    + assert (E0 : edges_array L (Some v) None = Ok (Some v, None)).
      { destruct v as [s|l|d sh data|c rows|]; try reflexivity.
        exfalso; apply H1; exists d, sh, data; reflexivity. }
      rewrite E0; cbn [bind fst snd edges_checks].
      apply number_arg_spec in H2; [|apply Hwf; reflexivity]; rewrite H2; reflexivity.
    + specialize (Hwf v eq_refl).
      assert (E : exists d sh data, v = Arr d (1%nat :: sh) data)
        by (destruct H2; eauto).
      destruct E as [d [sh [data ->]]].
      cbn [edges_array]; destruct (Nat.eqb_spec 1 L) as [K|_]; [congruence|].
      cbn [Nat.eqb bind fst snd]; apply (first_item_spec d sh data w Hwf) in H2 as E; rewrite E.
      unfold edges_checks; apply number_arg_spec in H3;
        [rewrite H3; reflexivity | apply (first_item_wf _ _ Hwf H2)].
    + apply label_counts_spec in H as E; destruct H as [d sh data H1 H2].
      cbn [edges_array]; rewrite Nat.eqb_refl; cbn [bind fst snd edges_checks]; rewrite E; reflexivity.
    + apply label_counts_spec in H; cbn [edges_array bind fst snd edges_checks]; rewrite H; reflexivity.
    + assert (E0 : edges_array L (Some e) (Some v) = Ok (Some e, Some v)).
      { destruct e as [s|l|d sh data|c rows|]; try reflexivity.
        exfalso; apply H2; exists d, sh, data; reflexivity. }
      rewrite E0; cbn [bind fst snd edges_checks]; apply label_counts_spec in H1; rewrite H1; reflexivity.
    + specialize (Hwf e eq_refl).
      assert (E : exists d sh data, e = Arr d (1%nat :: sh) data)
        by (destruct H3; eauto).
      destruct E as [d [sh [data ->]]].
      cbn [edges_array]; destruct (Nat.eqb_spec 1 L) as [K|_]; [congruence|].
      cbn [Nat.eqb bind fst snd]; apply (first_item_spec d sh data w Hwf) in H3 as E; rewrite E.
      unfold edges_checks; apply label_counts_spec in H1; rewrite H1; reflexivity.
Qed.

(** ** Parameters of the labelled model *)

(** One parameter is repeated for every label; otherwise there is one per label.  The
    first component tells whether the parameters were given per label. *)
Inductive multi_param_spec (L : nat) : value -> bool * nd -> Prop :=
| mp_scalar s x : scalar_is s x -> (forall b, s <> SBool b) -> not_negative x ->
    multi_param_spec L (Sc s) (false, ([L], repeat x L))
| mp_list1 s x : scalar_is s x -> (forall b, s <> SBool b) -> not_negative x ->
    multi_param_spec L (Seq [s]) (false, ([L], repeat x L))
| mp_list l xs : length l = L -> L <> 1%nat -> numbers l xs -> Forall not_negative xs ->
    multi_param_spec L (Seq l) (true, ([L], xs))
| mp_arr1 d sh data : numeric d -> Forall not_negative data ->
    multi_param_spec L (Arr d (1%nat :: sh) data) (false, (L :: sh, concat (repeat data L)))
| mp_arr d sh data : L <> 1%nat -> numeric d -> Forall not_negative data ->
    multi_param_spec L (Arr d (L :: sh) data) (true, (L :: sh, data)).

Lemma concat_repeat1 : forall (x : num) n, concat (repeat [x] n) = repeat x n.
Proof. induction n as [|n IH]; simpl; [reflexivity | rewrite IH; reflexivity]. Qed.

Lemma Forall_concat_repeat : forall (P : num -> Prop) l n, (1 <= n)%nat ->
  Forall P (concat (repeat l n)) <-> Forall P l.
Proof.
  intros P l n Hn; split.
  - destruct n as [|n]; [lia|]; simpl; intros H; apply Forall_app in H; apply H.
  - intros H; clear Hn; induction n as [|n IH]; simpl; [constructor|].
    apply Forall_app; split; assumption.
Qed.

Lemma multi_param_arg_spec : forall L v p, (1 <= L)%nat ->
  (multi_param L v = Ok p <-> multi_param_spec L v p).
Proof.
  intros L v p HL; unfold multi_param; split.
  - destruct v as [s|l|d sh data|c rows|].
    + assert (Hs : (exists t, s = SText t) \/ param_array (Sc s) = (dtype_of [s], [1%nat], nums_of [s]))
        by (destruct s; eauto).
      destruct Hs as [[t ->]|Hs].
      * cbn [param_array]; destruct t as [|a t].
        -- cbn [String.length Nat.eqb]; unfold guard.
           destruct L as [|L]; [lia | discriminate].
        -- destruct (String.length (String a t) =? 1)%nat; [discriminate|].
           unfold guard; destruct (String.length (String a t) =? L)%nat; discriminate.
      * rewrite Hs; cbn [Nat.eqb]; intros H; apply bind_ok in H; destruct H as [a [H1 H2]].
        apply param_checks_spec in H1; destruct H1 as [-> [H1 H3]]; cbn [snd] in H3.
        apply dtype_single in H1; destruct H1 as [x [Hx Hb]].
        assert (E : nums_of [s] = [x]) by (apply nums_of_spec; repeat constructor; exact Hx).
        rewrite E in H2, H3.
        apply Forall_concat_repeat in H3; [|exact HL].
        rewrite concat_repeat1 in H2; injection H2 as <-.
        constructor; [exact Hx | exact Hb | inversion H3; assumption].
    + cbn [param_array]; destruct (Nat.eqb_spec (length l) 1) as [E1|E1].
      * destruct l as [|s [|s' l]]; try discriminate.
        intros H; apply bind_ok in H; destruct H as [a [H1 H2]].
        apply param_checks_spec in H1; destruct H1 as [-> [H1 H3]]; cbn [snd] in H3.
        apply dtype_single in H1; destruct H1 as [x [Hx Hb]].
        assert (E : nums_of [s] = [x]) by (apply nums_of_spec; repeat constructor; exact Hx).
        rewrite E in H2, H3.
        apply Forall_concat_repeat in H3; [|exact HL].
        rewrite concat_repeat1 in H2; injection H2 as <-.
        constructor; [exact Hx | exact Hb | inversion H3; assumption].
      * intros H; apply guard_ok in H; destruct H as [E H]; apply Nat.eqb_eq in E.
        apply bind_ok in H; destruct H as [a [H1 H2]].
        apply param_checks_spec in H1; destruct H1 as [-> [H1 H3]]; cbn [snd] in H3.
        rewrite E in H2; injection H2 as <-.
        constructor; [exact E | congruence | apply dtype_of_numeric; exact H1 | exact H3].
    + cbn [param_array]; destruct sh as [|n sh]; [discriminate|].
      destruct (Nat.eqb_spec n 1) as [->|E1].
      * intros H; apply bind_ok in H; destruct H as [a [H1 H2]].
        apply param_checks_spec in H1; destruct H1 as [-> [H1 H3]]; cbn [snd] in H3.
        apply Forall_concat_repeat in H3; [|exact HL].
        injection H2 as <-.
        constructor; assumption.
      * intros H; apply guard_ok in H; destruct H as [E H]; apply Nat.eqb_eq in E; subst n.
        apply bind_ok in H; destruct H as [a [H1 H2]].
        apply param_checks_spec in H1; destruct H1 as [-> [H1 H3]]; cbn [snd] in H3.
        injection H2 as <-.
        constructor; assumption.
    + cbn [param_array]; destruct (length rows =? 1)%nat; [discriminate|].
      unfold guard; destruct (length rows =? L)%nat; discriminate.
    + discriminate.
  - intros H; destruct H as [s x Hx Hb Hn|s x Hx Hb Hn|l xs HL1 HL2 Hl Hn|d sh data Hd Hn|d sh data HL2 Hd Hn].
    + assert (Hs : param_array (Sc s) = (dtype_of [s], [1%nat], nums_of [s])) by (destruct Hx; reflexivity).
      rewrite Hs; cbn [Nat.eqb]; apply bind_ok.
      assert (E : nums_of [s] = [x]) by (apply nums_of_spec; repeat constructor; exact Hx).
      exists ([L], repeat x L); split; [|reflexivity].
      apply param_checks_spec; rewrite E, concat_repeat1; split; [reflexivity|].
      split; [apply dtype_single; exists x; auto|]; cbn [snd]; rewrite <- concat_repeat1.
      apply Forall_concat_repeat; [exact HL | apply Forall_cons; [exact Hn | apply Forall_nil]].
    + cbn [param_array length Nat.eqb]; apply bind_ok.
      assert (E : nums_of [s] = [x]) by (apply nums_of_spec; repeat constructor; exact Hx).
      exists ([L], repeat x L); split; [|reflexivity].
      apply param_checks_spec; rewrite E, concat_repeat1; split; [reflexivity|].
      split; [apply dtype_single; exists x; auto|]; cbn [snd]; rewrite <- concat_repeat1.
      apply Forall_concat_repeat; [exact HL | apply Forall_cons; [exact Hn | apply Forall_nil]].
    + cbn [param_array]; rewrite HL1; destruct (Nat.eqb_spec L 1) as [K|_]; [contradiction|].
      apply guard_ok; split; [apply Nat.eqb_refl|].
      destruct Hl as [Hl Hl']; pose proof (nums_of_spec _ _ Hl) as E; subst xs.
      apply bind_ok; exists ([L], nums_of l); split; [|reflexivity].
      apply param_checks_spec; split; [reflexivity|]; split; [|exact Hn].
      apply dtype_of_numeric; split; assumption.
    + cbn [param_array Nat.eqb]; apply bind_ok; exists (L :: sh, concat (repeat data L)); split; [|reflexivity].
      apply param_checks_spec; split; [reflexivity|]; split; [exact Hd|].
      apply Forall_concat_repeat; assumption.
    + cbn [param_array]; destruct (Nat.eqb_spec L 1) as [K|_]; [contradiction|].
      apply guard_ok; split; [apply Nat.eqb_refl|].
      apply bind_ok; exists (L :: sh, data); split; [|reflexivity].
      apply param_checks_spec; auto.
Qed.

(** ** Groups and macroscopic graph of the conditional model *)

(** The square matrix of [G] rows, as sparse rows.  (What numpy turns into a 1 x 1
    matrix is accepted for a single group.) *)
Inductive adj_spec (G : nat) : value -> list svec -> Prop :=
| ad_sparse rows : length rows = G -> adj_spec G (Csr G rows) rows
| ad_dense d data rows : arithmetic d -> rows_of_dense G G data rows ->
    adj_spec G (Arr d [G; G] data) rows
| ad_array1 d x rows : G = 1%nat -> arithmetic d -> rows_of_dense 1 1 [x] rows ->
    adj_spec G (Arr d [1%nat] [x]) rows
| ad_array0 d x rows : G = 1%nat -> arithmetic d -> rows_of_dense 1 1 [x] rows ->
    adj_spec G (Arr d [] [x]) rows
| ad_list s x rows : G = 1%nat -> scalar_is s x -> rows_of_dense 1 1 [x] rows ->
    adj_spec G (Seq [s]) rows
| ad_scalar s x rows : G = 1%nat -> scalar_is s x -> rows_of_dense 1 1 [x] rows ->
    adj_spec G (Sc s) rows.

Lemma adj_arg_spec : forall G v rows, well_formed v ->
  (exists c, adj_arg v = Ok (c, rows) /\ c = length rows /\ G = length rows) <-> adj_spec G v rows.
Proof.
  intros G v rows Hwf; split.
  - intros [c [H [Hc HG]]]; subst G; destruct v as [s|l|d sh data|c' rs|]; cbn [adj_arg] in H.
    + apply guard_ok in H; destruct H as [H1 H2]; apply has_arith_spec, dtype_of_arith in H1.
      assert (rows = dense_rows 1 1 (nums_of [s])) as -> by congruence.
      inversion H1 as [|? ? ? ? Hx]; subst; rewrite dense_rows_length.
      apply ad_scalar with (match sc_num s with Some x => x | None => NaN end);
        [reflexivity | exact Hx | apply rows_of_dense_spec; reflexivity].
    + apply guard_ok in H; destruct H as [H1 H2]; apply has_arith_spec, dtype_of_arith in H1.
      assert (rows = dense_rows 1 (length l) (nums_of l) /\ c = length l) as [-> E] by (split; congruence).
      rewrite dense_rows_length in *; rewrite E in Hc.
      destruct l as [|s [|s' l]]; try discriminate.
      inversion H1 as [|? ? ? ? Hx]; subst.
      apply ad_list with (match sc_num s with Some x => x | None => NaN end);
        [reflexivity | exact Hx | apply rows_of_dense_spec; reflexivity].
    + destruct sh as [|r [|k [|m sh]]]; try discriminate.
      * apply guard_ok in H; destruct H as [H1 H2]; apply has_arith_spec in H1.
        assert (rows = dense_rows 1 1 data) as -> by congruence.
        simpl in Hwf; destruct data as [|x [|y data]]; try discriminate; rewrite dense_rows_length.
        apply ad_array0; [reflexivity | exact H1 | apply rows_of_dense_spec; reflexivity].
      * apply guard_ok in H; destruct H as [H1 H2]; apply has_arith_spec in H1.
        assert (rows = dense_rows 1 r data /\ c = r) as [-> ->] by (split; congruence).
        rewrite dense_rows_length in *; subst r.
        simpl in Hwf; destruct data as [|x [|y data]]; try discriminate.
        apply ad_array1; [reflexivity | exact H1 | apply rows_of_dense_spec; reflexivity].
      * apply guard_ok in H; destruct H as [H1 H2]; apply has_arith_spec in H1.
        assert (rows = dense_rows r k data /\ c = k) as [-> ->] by (split; congruence).
        rewrite dense_rows_length in *; subst k.
        apply ad_dense; [exact H1 | apply rows_of_dense_spec; [simpl in Hwf; lia | reflexivity]].
    + assert (c' = c /\ rs = rows) as [-> ->] by (split; congruence).
      rewrite Hc; constructor; reflexivity.
    + discriminate.
  - intros H; destruct H as [rows H|d data rows H1 H2|d x rows HG H1 H2|d x rows HG H1 H2
      |s x rows HG H1 H2|s x rows HG H1 H2].
    + exists G; cbn [adj_arg]; rewrite H; auto.
    + exists G; pose proof (proj1 H2) as E; apply rows_of_dense_spec in H2; [|simpl in Hwf; lia].
      cbn [adj_arg]; apply has_arith_spec in H1; rewrite H1; unfold guard; rewrite E, <- H2; auto.
    + exists 1%nat; pose proof (proj1 H2) as E; apply rows_of_dense_spec in H2; [|reflexivity].
      cbn [adj_arg]; apply has_arith_spec in H1; rewrite H1; unfold guard; rewrite E, <- H2; auto.
    + exists 1%nat; pose proof (proj1 H2) as E; apply rows_of_dense_spec in H2; [|reflexivity].
      cbn [adj_arg]; apply has_arith_spec in H1; rewrite H1; unfold guard; rewrite E, <- H2; auto.
    + exists 1%nat; pose proof (proj1 H2) as E; apply rows_of_dense_spec in H2; [|reflexivity].
      assert (En : nums_of [s] = [x]) by (apply nums_of_spec; repeat constructor; exact H1).
      assert (Ea : has_arith (dtype_of [s]) = true).
      { apply has_arith_spec, dtype_of_arith; rewrite En; repeat constructor; exact H1. }
      cbn [adj_arg]; rewrite Ea, En; unfold guard; cbn [length]; rewrite E, <- H2; auto.
    + exists 1%nat; pose proof (proj1 H2) as E; apply rows_of_dense_spec in H2; [|reflexivity].
      assert (En : nums_of [s] = [x]) by (apply nums_of_spec; repeat constructor; exact H1).
      assert (Ea : has_arith (dtype_of [s]) = true).
      { apply has_arith_spec, dtype_of_arith; rewrite En; repeat constructor; exact H1. }
      cbn [adj_arg]; rewrite Ea, En; unfold guard; rewrite E, <- H2; auto.
Qed.

(** [x] is at most [m]. *)
Definition below (m : R) (x : num) : Prop := x = NInf \/ exists r, x = Fin r /\ r <= m.

Lemma nmax2_fin : forall a b m,
  nmax2 a b = Fin m <-> (a = Fin m /\ below m b) \/ (b = Fin m /\ below m a).
Proof.
  intros a b m; unfold below; split.
  - destruct a as [x| | |]; destruct b as [y| | |]; simpl; try discriminate; intros H.
    + destruct (Rltb_spec x y) as [E|E]; [right | left]; split; auto; right;
        [exists x | exists y]; split; auto; injection H as <-; lra.
    + left; auto.
    + right; auto.
  - intros [[-> [->|[r [-> H]]]]|[-> [->|[r [-> H]]]]]; simpl; try reflexivity.
    + rewrite Rltb_false by exact H; reflexivity.
    + destruct (Rltb_spec r m) as [E|E]; [reflexivity | f_equal; lra].
Qed.

Lemma nmax_fold : forall t x m,
  fold_left nmax2 t x = Fin m <-> In (Fin m) (x :: t) /\ Forall (below m) (x :: t).
Proof.
  assert (R : forall m, below m (Fin m)) by (intros m; right; exists m; split; [reflexivity | lra]).
  induction t as [|y t IH]; intros x m; simpl fold_left.
  - split.
    + intros ->; split; [left; reflexivity | constructor; [apply R | constructor]].
    + intros [[->|[]] _]; reflexivity.
  - rewrite IH; split.
    + intros [[H|H] HF]; inversion HF as [|? ? H1 H2]; subst.
      * apply nmax2_fin in H; destruct H as [[-> H]|[-> H]].
        -- split; [left; reflexivity|]; repeat (apply Forall_cons; auto).
        -- split; [right; left; reflexivity|]; repeat (apply Forall_cons; auto).
      * split; [right; right; exact H|].
        assert (B : below m x /\ below m y).
        { destruct H1 as [H1|[r [H1 H3]]].
          - destruct x as [a| | |]; destruct y as [b| | |]; simpl in H1; try discriminate;
              try (destruct (Rltb a b); discriminate); split; left; reflexivity.
          - apply nmax2_fin in H1; destruct H1 as [[-> [->|[q [-> K]]]]|[-> [->|[q [-> K]]]]];
              split; try (left; reflexivity); right; eexists; split; try reflexivity; lra. }
        destruct B; repeat (apply Forall_cons; auto).
    + intros [H HF]; inversion HF as [|? ? H1 H2]; subst; inversion H2 as [|? ? H3 H4]; subst.
      destruct H as [->|[->|H]].
      * assert (E : nmax2 (Fin m) y = Fin m) by (apply nmax2_fin; left; auto).
        rewrite E; split; [left; reflexivity | constructor; [apply R | exact H4]].
      * assert (E : nmax2 x (Fin m) = Fin m) by (apply nmax2_fin; right; auto).
        rewrite E; split; [left; reflexivity | constructor; [apply R | exact H4]].
      * split; [right; exact H|]; constructor; [|exact H4].
        destruct H1 as [->|[r [-> Hr]]]; destruct H3 as [->|[q [-> Hq]]]; simpl.
        -- left; reflexivity.
        -- right; exists q; auto.
        -- right; exists r; auto.
        -- destruct (Rltb r q); right; [exists q | exists r]; auto.
Qed.

(** The group of each vertex, the largest being [G - 1]: a list whose first element is
    an integer (or a boolean), or an integer array of dimension one. *)
Inductive groups_spec (G : nat) : value -> Prop :=
| gr_list s l xs :
    (exists z, s = SInt z) \/ (exists b, s = SBool b) ->
    Forall2 scalar_is (s :: l) xs ->
    In (Fin (INR G - 1)) xs -> Forall (below (INR G - 1)) xs ->
    groups_spec G (Seq (s :: l))
| gr_array n data :
    In (Fin (INR G - 1)) data -> Forall (below (INR G - 1)) data ->
    groups_spec G (Arr DInt [n] data).

Lemma plus_one_spec : forall g G, neqb (nadd g (Fin 1)) (Fin (INR G)) = true <-> g = Fin (INR G - 1).
Proof.
  intros g G; destruct g as [r| | |]; simpl; try (split; discriminate).
  destruct (Reqb_spec (r + 1) (INR G)) as [E|E]; split; try reflexivity; try discriminate.
  - intros _; f_equal; lra.
  - intros K; injection K as K; exfalso; apply E; lra.
Qed.

Lemma groups_arg_spec : forall G v, well_formed v ->
  (exists g, first_is_int v = Ok true /\ group_max v = Ok g /\
     neqb (nadd g (Fin 1)) (Fin (INR G)) = true) <-> groups_spec G v.
Proof.
  intros G v Hwf; split.
  - intros [g [H1 [H2 H3]]]; apply plus_one_spec in H3; subst g.
    destruct v as [s|l|d sh data|c rs|]; cbn [group_max] in H2; try discriminate.
    + destruct l as [|s l]; [discriminate|].
      apply guard_ok in H2; destruct H2 as [H2 H4]; apply has_arith_spec, dtype_of_arith in H2.
      cbn [nums_of map] in H4; injection H4 as H4; apply nmax_fold in H4; destruct H4 as [H4 H5].
      apply gr_list with (nums_of (s :: l)); [|exact H2 | exact H4 | exact H5].
      destruct s; simpl in H1; try discriminate; eauto.
    + apply guard_ok in H2; destruct H2 as [H2 H4].
      destruct sh as [|[|n] [|m sh]]; try discriminate.
      simpl in H1; destruct d; try discriminate.
      destruct data as [|x t]; [discriminate|]; injection H4 as H4; apply nmax_fold in H4.
      constructor; apply H4.
  - intros H; exists (Fin (INR G - 1)); rewrite plus_one_spec.
    destruct H as [s l xs Hs Hl H1 H2|n data H1 H2].
    + split; [destruct Hs as [[z ->]|[b ->]]; reflexivity|]; split; [|reflexivity].
      pose proof (nums_of_spec _ _ Hl) as E; subst xs.
      cbn [group_max]; apply guard_ok; split; [apply has_arith_spec, dtype_of_arith; exact Hl|].
      cbn [nums_of map]; f_equal; apply nmax_fold; split; assumption.
    + destruct data as [|x t]; [destruct H1|].
      destruct n as [|n]; [simpl in Hwf; discriminate|].
      split; [reflexivity|]; split; [|reflexivity].
      cbn [group_max has_arith guard]; f_equal; apply nmax_fold; split; assumption.
Qed.
