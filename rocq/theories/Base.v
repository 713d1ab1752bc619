(** Shared vocabulary: results with exceptions, loops, finite sums and products.
    Nothing in this file models a particular function of the code; it fixes how
    Python control flow is written in Gallina everywhere else. *)
From Coq Require Export Reals List Arith Lia Lra Bool.
Export ListNotations.
Open Scope R_scope.

(** * Exceptions as values *)

(** The Python exception classes that the modelled code can raise. *)
Inductive exn : Type :=
| ValueError | AssertionError | NameError | AttributeError | TypeError
| IndexError | KeyError | ZeroDivisionError | GenericException | UnboundLocalError | OverflowError.

Inductive res (A : Type) : Type :=
| Ok (a : A)
| Raise (e : exn).
Arguments Ok {A} _.
Arguments Raise {A} _.

Definition bind {A B} (r : res A) (k : A -> res B) : res B :=
  match r with Ok a => k a | Raise e => Raise e end.

Notation "'do' x <- r ; k" := (bind r (fun x => k))
  (at level 200, x pattern, r at level 100, k at level 200).

(** [guard b e k]: the Python statement [if not b: raise e] (also [assert b]). *)
Definition guard {A} (b : bool) (e : exn) (k : res A) : res A :=
  if b then k else Raise e.

(** * Loops *)

(** [for i in range(n): s = body(i, s)] *)
Fixpoint for_range {S : Type} (n : nat) (body : nat -> S -> S) (s : S) : S :=
  match n with
  | O => s
  | Datatypes.S k => body k (for_range k body s)
  end.

(** [for x in l: s = body(x, s)] *)
Definition for_each {X S : Type} (l : list X) (body : X -> S -> S) (s : S) : S :=
  fold_left (fun s x => body x s) l s.

(** Loops whose body may [return] early from the enclosing function. *)
Inductive flow (S T : Type) : Type :=
| Next (s : S)
| Return (t : T).
Arguments Next {S T} _.
Arguments Return {S T} _.

Fixpoint for_flow {S T : Type} (n : nat) (body : nat -> S -> flow S T) (s : S) : flow S T :=
  match n with
  | O => Next s
  | Datatypes.S k =>
      match for_flow k body s with
      | Next s' => body k s'
      | Return t => Return t
      end
  end.

(** [a[i] = v] on an array represented as a function of the index. *)
Definition upd {A} (a : nat -> A) (i : nat) (v : A) : nat -> A :=
  fun k => if Nat.eqb k i then v else a k.

(** [a[i] += v] *)
Definition add_at (a : nat -> R) (i : nat) (v : R) : nat -> R := upd a i (a i + v).

Lemma upd_eq : forall {A} (a : nat -> A) i v, upd a i v i = v.
Proof. intros; unfold upd; rewrite Nat.eqb_refl; reflexivity. Qed.

Lemma upd_neq : forall {A} (a : nat -> A) i v k, k <> i -> upd a i v k = a k.
Proof. intros A a i v k H; unfold upd; apply Nat.eqb_neq in H; rewrite H; reflexivity. Qed.

Lemma add_at_val : forall a i v k,
  add_at a i v k = a k + (if Nat.eqb k i then v else 0).
Proof.
  intros a i v k; unfold add_at, upd; destruct (Nat.eqb_spec k i); subst; lra.
Qed.

(** * Finite sums and products *)

Fixpoint sumn (n : nat) (f : nat -> R) : R :=
  match n with O => 0 | S k => sumn k f + f k end.

Fixpoint prodn (n : nat) (f : nat -> R) : R :=
  match n with O => 1 | S k => prodn k f * f k end.

Fixpoint suml {A} (f : A -> R) (l : list A) : R :=
  match l with [] => 0 | x :: t => f x + suml f t end.

Fixpoint prodl {A} (f : A -> R) (l : list A) : R :=
  match l with [] => 1 | x :: t => f x * prodl f t end.

Fixpoint countn (n : nat) (b : nat -> bool) : nat :=
  match n with O => O | S k => (countn k b + if b k then 1 else 0)%nat end.

Definition b2r (b : bool) : R := if b then 1 else 0.

Lemma b2r_range : forall b, 0 <= b2r b <= 1.
Proof. destruct b; simpl; lra. Qed.

(** ** Range sums *)

Lemma sumn_ext : forall n f g, (forall i, (i < n)%nat -> f i = g i) -> sumn n f = sumn n g.
Proof.
  induction n as [|n IH]; intros f g H; simpl; [reflexivity|].
  rewrite (IH f g), (H n); [reflexivity | lia | intros i Hi; apply H; lia].
Qed.

Lemma sumn_0 : forall n, sumn n (fun _ => 0) = 0.
Proof. induction n as [|n IH]; simpl; lra. Qed.

Lemma sumn_zero : forall n f, (forall i, (i < n)%nat -> f i = 0) -> sumn n f = 0.
Proof. intros n f H; rewrite (sumn_ext n f (fun _ => 0)); [apply sumn_0 | exact H]. Qed.

Lemma sumn_const : forall n c, sumn n (fun _ => c) = INR n * c.
Proof.
  induction n as [|n IH]; intros c; [simpl; lra|].
  rewrite S_INR; simpl sumn; rewrite IH; lra.
Qed.

Lemma sumn_plus : forall n f g, sumn n (fun i => f i + g i) = sumn n f + sumn n g.
Proof. induction n as [|n IH]; intros f g; simpl; [lra | rewrite IH; lra]. Qed.

Lemma sumn_minus : forall n f g, sumn n (fun i => f i - g i) = sumn n f - sumn n g.
Proof. induction n as [|n IH]; intros f g; simpl; [lra | rewrite IH; lra]. Qed.

Lemma sumn_scal_l : forall n c f, sumn n (fun i => c * f i) = c * sumn n f.
Proof. induction n as [|n IH]; intros c f; simpl; [lra | rewrite IH; lra]. Qed.

Lemma sumn_scal_r : forall n c f, sumn n (fun i => f i * c) = sumn n f * c.
Proof. induction n as [|n IH]; intros c f; simpl; [lra | rewrite IH; lra]. Qed.

Lemma sumn_opp : forall n f, sumn n (fun i => - f i) = - sumn n f.
Proof. induction n as [|n IH]; intros f; simpl; [lra | rewrite IH; lra]. Qed.

Lemma sumn_le : forall n f g, (forall i, (i < n)%nat -> f i <= g i) -> sumn n f <= sumn n g.
Proof.
  induction n as [|n IH]; intros f g H; simpl; [lra|].
  apply Rplus_le_compat; [apply IH; intros i Hi; apply H; lia | apply H; lia].
Qed.

Lemma sumn_nonneg : forall n f, (forall i, (i < n)%nat -> 0 <= f i) -> 0 <= sumn n f.
Proof.
  intros n f H; rewrite <- (sumn_0 n); apply sumn_le; exact H.
Qed.

Lemma sumn_lt : forall n f g,
  (forall i, (i < n)%nat -> f i <= g i) ->
  (exists i, (i < n)%nat /\ f i < g i) -> sumn n f < sumn n g.
Proof.
  induction n as [|n IH]; intros f g H [i [Hi Hlt]]; [lia|]; simpl.
  destruct (Nat.eq_dec i n) as [->|Hne].
  - apply Rplus_le_lt_compat; [apply sumn_le; intros k Hk; apply H; lia | exact Hlt].
  - apply Rplus_lt_le_compat; [apply IH | apply H; lia].
    + intros k Hk; apply H; lia.
    + exists i; split; [lia | exact Hlt].
Qed.

Lemma sumn_ge_term : forall n f i,
  (forall k, (k < n)%nat -> 0 <= f k) -> (i < n)%nat -> f i <= sumn n f.
Proof.
  induction n as [|n IH]; intros f i Hf Hi; [lia|]; simpl.
  assert (0 <= sumn n f) by (apply sumn_nonneg; intros k Hk; apply Hf; lia).
  assert (0 <= f n) by (apply Hf; lia).
  destruct (Nat.eq_dec i n) as [->|Hne]; [lra|].
  assert (f i <= sumn n f) by (apply IH; [intros k Hk; apply Hf; lia | lia]); lra.
Qed.

Lemma sumn_zero_inv : forall n f,
  (forall k, (k < n)%nat -> 0 <= f k) -> sumn n f = 0 -> forall i, (i < n)%nat -> f i = 0.
Proof.
  intros n f Hf H i Hi. pose proof (sumn_ge_term n f i Hf Hi). specialize (Hf i Hi). lra.
Qed.

Lemma sumn_swap : forall n m (f : nat -> nat -> R),
  sumn n (fun i => sumn m (fun j => f i j)) = sumn m (fun j => sumn n (fun i => f i j)).
Proof.
  induction n as [|n IH]; intros m f; simpl.
  - rewrite sumn_0; reflexivity.
  - rewrite IH, <- sumn_plus; reflexivity.
Qed.

Lemma sumn_delta : forall n k (f : nat -> R),
  sumn n (fun i => if Nat.eqb i k then f i else 0) = if Nat.ltb k n then f k else 0.
Proof.
  induction n as [|n IH]; intros k f; simpl; [reflexivity|].
  rewrite IH. destruct (Nat.eqb_spec n k) as [->|Hne].
  - rewrite Nat.ltb_irrefl. destruct (Nat.ltb_spec k (S k)); [lra | lia].
  - destruct (Nat.ltb_spec k n), (Nat.ltb_spec k (S n)); try lra; lia.
Qed.

Lemma sumn_delta' : forall n k (f : nat -> R),
  sumn n (fun i => if Nat.eqb k i then f i else 0) = if Nat.ltb k n then f k else 0.
Proof.
  intros n k f; rewrite <- sumn_delta; apply sumn_ext; intros i _.
  rewrite Nat.eqb_sym; reflexivity.
Qed.

(** A full square sum, split into diagonal and the two triangles. *)
Lemma sumn_triangle : forall n (f : nat -> nat -> R),
  sumn n (fun i => sumn n (fun j => f i j))
  = sumn n (fun i => sumn i (fun j => f i j + f j i)) + sumn n (fun i => f i i).
Proof.
  induction n as [|n IH]; intros f; simpl; [lra|].
  rewrite sumn_plus, IH.
  rewrite (sumn_plus n (fun j => f n j) (fun j => f j n)). lra.
Qed.

Lemma sumn_S_l : forall n f, sumn (S n) f = f O + sumn n (fun i => f (S i)).
Proof.
  induction n as [|n IH]; intros f; [simpl; lra|].
  change (sumn (S (S n)) f) with (sumn (S n) f + f (S n)).
  rewrite IH; simpl; lra.
Qed.

Lemma sumn_add : forall n m f, sumn (n + m) f = sumn n f + sumn m (fun i => f (n + i)%nat).
Proof.
  induction m as [|m IH]; intros f.
  - rewrite Nat.add_0_r; simpl; lra.
  - rewrite Nat.add_succ_r; simpl; rewrite IH; lra.
Qed.

Lemma sumn_abs : forall n f, Rabs (sumn n f) <= sumn n (fun i => Rabs (f i)).
Proof.
  induction n as [|n IH]; intros f; simpl; [rewrite Rabs_R0; lra|].
  eapply Rle_trans; [apply Rabs_triang | specialize (IH f); lra].
Qed.

Lemma sumn_mult : forall n m f g,
  sumn n f * sumn m g = sumn n (fun i => sumn m (fun j => f i * g j)).
Proof.
  intros n m f g. rewrite <- sumn_scal_r. apply sumn_ext; intros i _.
  rewrite sumn_scal_l; reflexivity.
Qed.

(** ** List sums *)

Lemma suml_ext : forall A (f g : A -> R) l, (forall x, In x l -> f x = g x) -> suml f l = suml g l.
Proof.
  induction l as [|x l IH]; intros H; simpl; [reflexivity|].
  rewrite (H x), IH; [reflexivity | intros y Hy; apply H; right; exact Hy | left; reflexivity].
Qed.

Lemma suml_app : forall A (f : A -> R) l1 l2, suml f (l1 ++ l2) = suml f l1 + suml f l2.
Proof. induction l1 as [|x l1 IH]; intros l2; simpl; [lra | rewrite IH; lra]. Qed.

Lemma suml_map : forall A B (g : A -> B) (f : B -> R) l, suml f (map g l) = suml (fun x => f (g x)) l.
Proof. induction l as [|x l IH]; simpl; [reflexivity | rewrite IH; reflexivity]. Qed.

Lemma suml_plus : forall A (f g : A -> R) l, suml (fun x => f x + g x) l = suml f l + suml g l.
Proof. induction l as [|x l IH]; simpl; [lra | rewrite IH; lra]. Qed.

Lemma suml_scal_l : forall A c (f : A -> R) l, suml (fun x => c * f x) l = c * suml f l.
Proof. induction l as [|x l IH]; simpl; [lra | rewrite IH; lra]. Qed.

Lemma suml_scal_r : forall A c (f : A -> R) l, suml (fun x => f x * c) l = suml f l * c.
Proof. induction l as [|x l IH]; simpl; [lra | rewrite IH; lra]. Qed.

Lemma suml_zero : forall A (f : A -> R) l, (forall x, In x l -> f x = 0) -> suml f l = 0.
Proof.
  induction l as [|x l IH]; intros H; simpl; [reflexivity|].
  rewrite (H x), IH; [lra | intros y Hy; apply H; right; exact Hy | left; reflexivity].
Qed.

Lemma suml_nonneg : forall A (f : A -> R) l, (forall x, In x l -> 0 <= f x) -> 0 <= suml f l.
Proof.
  induction l as [|x l IH]; intros H; simpl; [lra|].
  assert (0 <= f x) by (apply H; left; reflexivity).
  assert (0 <= suml f l) by (apply IH; intros y Hy; apply H; right; exact Hy). lra.
Qed.

Lemma suml_le : forall A (f g : A -> R) l, (forall x, In x l -> f x <= g x) -> suml f l <= suml g l.
Proof.
  induction l as [|x l IH]; intros H; simpl; [lra|].
  assert (f x <= g x) by (apply H; left; reflexivity).
  assert (suml f l <= suml g l) by (apply IH; intros y Hy; apply H; right; exact Hy). lra.
Qed.

Lemma suml_filter : forall A (b : A -> bool) (f : A -> R) l,
  suml f (filter b l) = suml (fun x => if b x then f x else 0) l.
Proof.
  induction l as [|x l IH]; simpl; [reflexivity|].
  destruct (b x); simpl; rewrite IH; lra.
Qed.

Lemma suml_sumn_swap : forall A (l : list A) n (f : A -> nat -> R),
  suml (fun x => sumn n (fun j => f x j)) l = sumn n (fun j => suml (fun x => f x j) l).
Proof.
  induction l as [|x l IH]; intros n f; simpl; [rewrite sumn_0; reflexivity|].
  rewrite IH, <- sumn_plus; reflexivity.
Qed.

Lemma suml_swap : forall A B (l : list A) (m : list B) (f : A -> B -> R),
  suml (fun x => suml (fun y => f x y) m) l = suml (fun y => suml (fun x => f x y) l) m.
Proof.
  induction l as [|x l IH]; intros m f; simpl.
  - rewrite suml_zero; [reflexivity | intros; reflexivity].
  - rewrite IH, <- suml_plus; reflexivity.
Qed.

Lemma suml_flat_map : forall A B (g : A -> list B) (f : B -> R) l,
  suml f (flat_map g l) = suml (fun x => suml f (g x)) l.
Proof.
  induction l as [|x l IH]; simpl; [reflexivity | rewrite suml_app, IH; reflexivity].
Qed.

Lemma suml_seq : forall n f, suml f (seq 0 n) = sumn n f.
Proof.
  induction n as [|n IH]; intros f; [reflexivity|].
  rewrite seq_S, suml_app, IH; simpl; lra.
Qed.

Lemma suml_const : forall A (l : list A) c, suml (fun _ => c) l = INR (length l) * c.
Proof.
  induction l as [|x l IH]; intros c; [simpl; lra|].
  simpl suml; rewrite IH; cbn [length]; rewrite S_INR; lra.
Qed.

Lemma suml_rev : forall A (f : A -> R) l, suml f (rev l) = suml f l.
Proof.
  induction l as [|x l IH]; simpl; [reflexivity | rewrite suml_app, IH; simpl; lra].
Qed.

Lemma suml_in_le : forall A (f : A -> R) l x,
  (forall y, In y l -> 0 <= f y) -> In x l -> f x <= suml f l.
Proof.
  induction l as [|y l IH]; intros x H Hx; simpl; [destruct Hx|].
  assert (0 <= f y) by (apply H; left; reflexivity).
  assert (0 <= suml f l) by (apply suml_nonneg; intros z Hz; apply H; right; exact Hz).
  destruct Hx as [->|Hx]; [lra|].
  assert (f x <= suml f l) by (apply IH; [intros z Hz; apply H; right; exact Hz | exact Hx]). lra.
Qed.

(** ** Products *)

Lemma prodn_ext : forall n f g, (forall i, (i < n)%nat -> f i = g i) -> prodn n f = prodn n g.
Proof.
  induction n as [|n IH]; intros f g H; simpl; [reflexivity|].
  rewrite (IH f g), (H n); [reflexivity | lia | intros i Hi; apply H; lia].
Qed.

Lemma prodn_1 : forall n, prodn n (fun _ => 1) = 1.
Proof. induction n as [|n IH]; simpl; [reflexivity | rewrite IH; lra]. Qed.

Lemma prodn_mult : forall n f g, prodn n (fun i => f i * g i) = prodn n f * prodn n g.
Proof. induction n as [|n IH]; intros f g; simpl; [lra | rewrite IH; ring]. Qed.

Lemma prodn_exp : forall n f, prodn n (fun i => exp (f i)) = exp (sumn n f).
Proof.
  induction n as [|n IH]; intros f; simpl; [rewrite exp_0; reflexivity|].
  rewrite IH, exp_plus; reflexivity.
Qed.

Lemma prodn_swap : forall n m (f : nat -> nat -> R),
  prodn n (fun i => prodn m (fun j => f i j)) = prodn m (fun j => prodn n (fun i => f i j)).
Proof.
  induction n as [|n IH]; intros m f; simpl.
  - rewrite prodn_1; reflexivity.
  - rewrite IH, <- prodn_mult; reflexivity.
Qed.

Lemma prodl_ext : forall A (f g : A -> R) l, (forall x, In x l -> f x = g x) -> prodl f l = prodl g l.
Proof.
  induction l as [|x l IH]; intros H; simpl; [reflexivity|].
  rewrite (H x), IH; [reflexivity | intros y Hy; apply H; right; exact Hy | left; reflexivity].
Qed.

Lemma prodl_app : forall A (f : A -> R) l1 l2, prodl f (l1 ++ l2) = prodl f l1 * prodl f l2.
Proof. induction l1 as [|x l1 IH]; intros l2; simpl; [lra | rewrite IH; ring]. Qed.

Lemma prodl_map : forall A B (g : A -> B) (f : B -> R) l,
  prodl f (map g l) = prodl (fun x => f (g x)) l.
Proof. induction l as [|x l IH]; simpl; [reflexivity | rewrite IH; reflexivity]. Qed.

Lemma prodl_flat_map : forall A B (g : A -> list B) (f : B -> R) l,
  prodl f (flat_map g l) = prodl (fun x => prodl f (g x)) l.
Proof.
  induction l as [|x l IH]; simpl; [reflexivity | rewrite prodl_app, IH; reflexivity].
Qed.

Lemma prodl_exp : forall A (f : A -> R) l, prodl (fun x => exp (f x)) l = exp (suml f l).
Proof.
  induction l as [|x l IH]; simpl; [rewrite exp_0; reflexivity | rewrite IH, exp_plus; reflexivity].
Qed.

Lemma prodl_pos : forall A (f : A -> R) l, (forall x, In x l -> 0 < f x) -> 0 < prodl f l.
Proof.
  induction l as [|x l IH]; intros H; simpl; [lra|].
  apply Rmult_lt_0_compat; [apply H; left; reflexivity | apply IH; intros y Hy; apply H; right; exact Hy].
Qed.

Lemma prodl_nonneg : forall A (f : A -> R) l, (forall x, In x l -> 0 <= f x) -> 0 <= prodl f l.
Proof.
  induction l as [|x l IH]; intros H; simpl; [lra|].
  apply Rmult_le_pos; [apply H; left; reflexivity | apply IH; intros y Hy; apply H; right; exact Hy].
Qed.

Lemma prodl_le_1 : forall A (f : A -> R) l,
  (forall x, In x l -> 0 <= f x <= 1) -> 0 <= prodl f l <= 1.
Proof.
  induction l as [|x l IH]; intros H; simpl; [lra|].
  assert (0 <= f x <= 1) by (apply H; left; reflexivity).
  assert (0 <= prodl f l <= 1) by (apply IH; intros y Hy; apply H; right; exact Hy).
  split; [apply Rmult_le_pos; lra|].
  apply Rle_trans with (1 * 1); [apply Rmult_le_compat; lra | lra].
Qed.

Lemma prodl_zero : forall A (f : A -> R) l x, In x l -> f x = 0 -> prodl f l = 0.
Proof.
  induction l as [|y l IH]; intros x Hx H0; [destruct Hx|]; simpl.
  destruct Hx as [->|Hx]; [rewrite H0; ring | rewrite (IH x Hx H0); ring].
Qed.

Lemma prodl_seq : forall n f, prodl f (seq 0 n) = prodn n f.
Proof.
  induction n as [|n IH]; intros f; [reflexivity|].
  rewrite seq_S, prodl_app, IH; simpl; ring.
Qed.

Lemma prodl_filter : forall A (b : A -> bool) (f : A -> R) l,
  prodl f (filter b l) = prodl (fun x => if b x then f x else 1) l.
Proof.
  induction l as [|x l IH]; simpl; [reflexivity|].
  destruct (b x); simpl; rewrite IH; ring.
Qed.

Lemma prodl_1 : forall A (f : A -> R) l, (forall x, In x l -> f x = 1) -> prodl f l = 1.
Proof.
  induction l as [|x l IH]; intros H; simpl; [reflexivity|].
  rewrite (H x), IH; [ring | intros y Hy; apply H; right; exact Hy | left; reflexivity].
Qed.

(** ** Counting *)

Lemma countn_sumn : forall n b, INR (countn n b) = sumn n (fun i => b2r (b i)).
Proof.
  induction n as [|n IH]; intros b; simpl; [reflexivity|].
  rewrite plus_INR, IH; destruct (b n); simpl; lra.
Qed.

(** * Loops as sums *)

(** If every pass of the loop adds [c i] to a real-valued view of the state,
    the whole loop adds the sum of the [c i]. *)
Lemma for_range_sum : forall (S : Type) (view : S -> R) n body (c : nat -> R) s,
  (forall i s, (i < n)%nat -> view (body i s) = view s + c i) ->
  view (for_range n body s) = view s + sumn n c.
Proof.
  intros S view n; induction n as [|n IH]; intros body c s H; simpl; [lra|].
  rewrite H by lia. rewrite (IH body c s); [lra|].
  intros i s' Hi; apply H; lia.
Qed.

Lemma for_range_ext : forall (S : Type) n (b1 b2 : nat -> S -> S) s,
  (forall i s, (i < n)%nat -> b1 i s = b2 i s) -> for_range n b1 s = for_range n b2 s.
Proof.
  intros S n; induction n as [|n IH]; intros b1 b2 s H; simpl; [reflexivity|].
  rewrite (IH b1 b2 s), H; [reflexivity | lia | intros i s' Hi; apply H; lia].
Qed.

Lemma for_range_inv : forall (S : Type) (P : nat -> S -> Prop) n body s,
  P O s -> (forall i s, (i < n)%nat -> P i s -> P (Datatypes.S i) (body i s)) ->
  P n (for_range n body s).
Proof.
  intros S P n; induction n as [|n IH]; intros body s H0 HS; simpl; [exact H0|].
  apply HS; [lia|]. apply IH; [exact H0 | intros i s' Hi; apply HS; lia].
Qed.

Lemma for_each_sum : forall (X S : Type) (view : S -> R) (l : list X) body (c : X -> R) s,
  (forall x s, In x l -> view (body x s) = view s + c x) ->
  view (for_each l body s) = view s + suml c l.
Proof.
  intros X S view l; unfold for_each; induction l as [|x l IH]; intros body c s H; simpl; [lra|].
  rewrite (IH body c (body x s)).
  - rewrite H by (left; reflexivity). lra.
  - intros y s' Hy; apply H; right; exact Hy.
Qed.

Lemma if_sum_split : forall (b : bool) (x : R), (if b then x else 0) + (if b then 0 else x) = x.
Proof. destruct b; intros; lra. Qed.
