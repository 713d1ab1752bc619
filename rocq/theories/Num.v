(** Extended numbers: exact reals plus the IEEE special values.
    Models the Python/numpy/numba float type with two deliberate simplifications,
    recorded in DESIGN.md: finite results are exact (no rounding, no overflow), and
    zero is unsigned. *)
From Verif Require Import Base.

Inductive num : Type :=
| Fin (r : R)
| PInf
| NInf
| NaN.

(** ** Decidable comparisons on reals, as booleans *)
Definition Reqb (x y : R) : bool := if Req_EM_T x y then true else false.
Definition Rltb (x y : R) : bool := if Rlt_dec x y then true else false.
Definition Rleb (x y : R) : bool := if Rle_dec x y then true else false.

Lemma Reqb_spec : forall x y, reflect (x = y) (Reqb x y).
Proof. intros x y; unfold Reqb; destruct (Req_EM_T x y); constructor; assumption. Qed.
Lemma Rltb_spec : forall x y, reflect (x < y) (Rltb x y).
Proof. intros x y; unfold Rltb; destruct (Rlt_dec x y); constructor; assumption. Qed.
Lemma Rleb_spec : forall x y, reflect (x <= y) (Rleb x y).
Proof. intros x y; unfold Rleb; destruct (Rle_dec x y); constructor; assumption. Qed.

Lemma Reqb_true : forall x y, x = y -> Reqb x y = true.
Proof. intros x y H; destruct (Reqb_spec x y); [reflexivity | contradiction]. Qed.
Lemma Reqb_false : forall x y, x <> y -> Reqb x y = false.
Proof. intros x y H; destruct (Reqb_spec x y); [contradiction | reflexivity]. Qed.
Lemma Rltb_true : forall x y, x < y -> Rltb x y = true.
Proof. intros x y H; destruct (Rltb_spec x y); [reflexivity | contradiction]. Qed.
Lemma Rltb_false : forall x y, y <= x -> Rltb x y = false.
Proof. intros x y H; destruct (Rltb_spec x y); [lra | reflexivity]. Qed.
Lemma Rleb_true : forall x y, x <= y -> Rleb x y = true.
Proof. intros x y H; destruct (Rleb_spec x y); [reflexivity | contradiction]. Qed.
Lemma Rleb_false : forall x y, y < x -> Rleb x y = false.
Proof. intros x y H; destruct (Rleb_spec x y); [lra | reflexivity]. Qed.

(** ** Arithmetic with IEEE special values *)

Definition nopp (a : num) : num :=
  match a with Fin x => Fin (- x) | PInf => NInf | NInf => PInf | NaN => NaN end.

Definition nabs (a : num) : num :=
  match a with Fin x => Fin (Rabs x) | PInf | NInf => PInf | NaN => NaN end.

Definition nadd (a b : num) : num :=
  match a, b with
  | Fin x, Fin y => Fin (x + y)
  | NaN, _ | _, NaN => NaN
  | PInf, NInf | NInf, PInf => NaN
  | PInf, _ | _, PInf => PInf
  | NInf, _ | _, NInf => NInf
  end.

Definition nsub (a b : num) : num := nadd a (nopp b).

(** An infinity times a real. *)
Definition inf_times (pos : bool) (x : R) : num :=
  if Reqb x 0 then NaN
  else if Bool.eqb pos (Rltb 0 x) then PInf else NInf.

Definition nmul (a b : num) : num :=
  match a, b with
  | Fin x, Fin y => Fin (x * y)
  | NaN, _ | _, NaN => NaN
  | PInf, Fin x | Fin x, PInf => inf_times true x
  | NInf, Fin x | Fin x, NInf => inf_times false x
  | PInf, PInf | NInf, NInf => PInf
  | PInf, NInf | NInf, PInf => NInf
  end.

(** numpy division: x/0 is a signed infinity (zero is taken as +0) and 0/0 is nan. *)
Definition ndiv (a b : num) : num :=
  match a, b with
  | NaN, _ | _, NaN => NaN
  | Fin x, Fin y =>
      if Reqb y 0
      then if Reqb x 0 then NaN else if Rltb 0 x then PInf else NInf
      else Fin (x / y)
  | Fin _, _ => Fin 0
  | PInf, Fin y => if Rltb y 0 then NInf else PInf
  | NInf, Fin y => if Rltb y 0 then PInf else NInf
  | _, _ => NaN
  end.

(** Comparisons; all of them are false on nan. *)
Definition neqb (a b : num) : bool :=
  match a, b with
  | Fin x, Fin y => Reqb x y
  | PInf, PInf | NInf, NInf => true
  | _, _ => false
  end.

Definition nltb (a b : num) : bool :=
  match a, b with
  | Fin x, Fin y => Rltb x y
  | NInf, Fin _ | NInf, PInf | Fin _, PInf => true
  | _, _ => false
  end.

Definition nleb (a b : num) : bool := nltb a b || neqb a b.
Definition ngtb (a b : num) : bool := nltb b a.
Definition ngeb (a b : num) : bool := nleb b a.

(** [x == 0] *)
Definition is0 (a : num) : bool := neqb a (Fin 0).

Definition isinf (a : num) : bool :=
  match a with PInf | NInf => true | _ => false end.

Definition nexp (a : num) : num :=
  match a with Fin x => Fin (exp x) | PInf => PInf | NInf => Fin 0 | NaN => NaN end.

Definition nexpm1 (a : num) : num := nsub (nexp a) (Fin 1).

(** [log] inside numba-compiled code: no exception, log(0) = -inf, log(<0) = nan. *)
Definition nlog (a : num) : num :=
  match a with
  | Fin x => if Rltb 0 x then Fin (ln x) else if Reqb x 0 then NInf else NaN
  | PInf => PInf
  | NInf | NaN => NaN
  end.

Definition nlog1p (a : num) : num := nlog (nadd (Fin 1) a).

(** [math.log] in plain Python: domain errors are ValueError. *)
Definition py_log (a : num) : res num :=
  match a with
  | Fin x => if Rltb 0 x then Ok (Fin (ln x)) else Raise ValueError
  | PInf => Ok PInf
  | NInf => Raise ValueError
  | NaN => Ok NaN
  end.

Definition py_log1p (a : num) : res num := py_log (nadd (Fin 1) a).

(** Real value of a finite number.  Used only where finiteness is proved. *)
Definition toR (a : num) : R := match a with Fin x => x | _ => 0 end.

(** Valid non-negative quantity: finite and >= 0, or +inf (what the constructors
    check with [np.all(x >= 0)]; nan fails this check). *)
Definition nonneg (a : num) : Prop :=
  match a with Fin x => 0 <= x | PInf => True | _ => False end.

Definition posnum (a : num) : Prop :=
  match a with Fin x => 0 < x | PInf => True | _ => False end.

Lemma is0_fin : forall x, is0 (Fin x) = Reqb x 0.
Proof. reflexivity. Qed.

Lemma nonneg_not0 : forall a, nonneg a -> is0 a = false -> posnum a.
Proof.
  intros [x| | |] H H0; simpl in *; try exact H.
  unfold is0 in H0; simpl in H0. destruct (Reqb_spec x 0); [discriminate | lra].
Qed.

Lemma is0_true_iff : forall a, is0 a = true <-> a = Fin 0.
Proof.
  intros [x| | |]; unfold is0; simpl; split; intros H; try discriminate.
  - destruct (Reqb_spec x 0); [subst; reflexivity | discriminate].
  - inversion H; subst; apply Reqb_true; reflexivity.
Qed.

Lemma is0_false_iff : forall a, is0 a = false <-> a <> Fin 0.
Proof.
  intros a; split; intros H.
  - intros E; apply is0_true_iff in E; congruence.
  - destruct (is0 a) eqn:E; [apply is0_true_iff in E; contradiction | reflexivity].
Qed.

Lemma posnum_is0 : forall a, posnum a -> is0 a = false.
Proof.
  intros [x| | |] H; simpl in *; unfold is0; simpl; try reflexivity.
  apply Reqb_false; lra.
Qed.

Lemma nmul_pos : forall a b, posnum a -> posnum b ->
  nmul a b = match a, b with Fin x, Fin y => Fin (x * y) | _, _ => PInf end.
Proof.
  intros [x| | |] [y| | |] Ha Hb; simpl in *; try contradiction; try reflexivity;
    unfold inf_times; rewrite Reqb_false by lra; rewrite Rltb_true by lra; reflexivity.
Qed.

Lemma nmul_posnum : forall a b, posnum a -> posnum b -> posnum (nmul a b).
Proof.
  intros a b Ha Hb; rewrite nmul_pos by assumption.
  destruct a as [x| | |], b as [y| | |]; simpl in *; try contradiction; try exact I.
  apply Rmult_lt_0_compat; assumption.
Qed.

Lemma nmul_1_r : forall a, nmul a (Fin 1) = a.
Proof.
  intros [x| | |]; simpl; try reflexivity.
  - f_equal; lra.
  - unfold inf_times; rewrite Reqb_false by lra; rewrite Rltb_true by lra; reflexivity.
  - unfold inf_times; rewrite Reqb_false by lra; rewrite Rltb_true by lra; reflexivity.
Qed.

Lemma nleb_fin : forall x y, nleb (Fin x) (Fin y) = Rleb x y.
Proof.
  intros x y; unfold nleb; simpl.
  destruct (Rltb_spec x y), (Reqb_spec x y), (Rleb_spec x y); simpl; try reflexivity; lra.
Qed.

Lemma nltb_fin : forall x y, nltb (Fin x) (Fin y) = Rltb x y.
Proof. reflexivity. Qed.

Lemma neqb_fin : forall x y, neqb (Fin x) (Fin y) = Reqb x y.
Proof. reflexivity. Qed.

Lemma nexpm1_fin : forall x, nexpm1 (Fin x) = Fin (exp x - 1).
Proof. intros; unfold nexpm1, nsub; simpl; f_equal; lra. Qed.

(** Evaluation of comparisons between concrete reals in the goal. *)
Ltac real_tests :=
  repeat match goal with
  | |- context [Rltb ?a ?b] => first [rewrite (Rltb_true a b) by lra | rewrite (Rltb_false a b) by lra]
  | |- context [Rleb ?a ?b] => first [rewrite (Rleb_true a b) by lra | rewrite (Rleb_false a b) by lra]
  | |- context [Reqb ?a ?b] => first [rewrite (Reqb_true a b) by lra | rewrite (Reqb_false a b) by lra]
  | |- context [Rabs ?a] => first [rewrite (Rabs_right a) by lra | rewrite (Rabs_left a) by lra]
  end.
Ltac num_eval :=
  repeat (progress (unfold ngtb, ngeb, nleb; cbn -[Rltb Rleb Reqb Rabs Rplus Rmult Rminus Rdiv Rinv Ropp IZR]; real_tests)).
