(** Programs that draw random numbers, and their two interpretations. *)
From Verif Require Import Base Num.

(** A sampler is a tree with one node per test [rng.random() < p]. *)
Inductive prog (A : Type) : Type :=
| Ret (a : A)
| Draw (p : R) (k : bool -> prog A).
Arguments Ret {A} _.
Arguments Draw {A} _ _.

Fixpoint pbind {A B} (m : prog A) (f : A -> prog B) : prog B :=
  match m with
  | Ret a => f a
  | Draw p k => Draw p (fun b => pbind (k b) f)
  end.

(** [for x in l: s = body(x, s)] with a body that draws. *)
Fixpoint for_prog {X S} (l : list X) (body : X -> S -> prog S) (s : S) : prog S :=
  match l with
  | [] => Ret s
  | x :: t => pbind (body x s) (for_prog t body)
  end.

(** Expectation of [f] over the outcomes when the draws are independent and uniform on [0,1):
    the test [rng.random() < p] is true with probability [p]. *)
Fixpoint expect {A} (m : prog A) (f : A -> R) : R :=
  match m with
  | Ret a => f a
  | Draw p k => p * expect (k true) f + (1 - p) * expect (k false) f
  end.

(** Probability of an event. *)
Definition prob {A} (m : prog A) (b : A -> bool) : R := expect m (fun a => b2r (b a)).

(** Run with a given list of draws; [None] when the list is too short. *)
Fixpoint run_draws {A} (m : prog A) (us : list R) : option (A * list R) :=
  match m with
  | Ret a => Some (a, us)
  | Draw p k =>
      match us with
      | [] => None
      | u :: us' => run_draws (k (Rltb u p)) us'
      end
  end.

(** Every probability tested is in [0,1]. *)
Fixpoint wf_prog {A} (m : prog A) : Prop :=
  match m with
  | Ret _ => True
  | Draw p k => 0 <= p <= 1 /\ (forall b, wf_prog (k b))
  end.

(** The outcomes reachable by draws in [0,1). *)
Fixpoint outcome {A} (m : prog A) (a : A) : Prop :=
  match m with
  | Ret a' => a = a'
  | Draw p k => (0 < p /\ outcome (k true) a) \/ (p < 1 /\ outcome (k false) a)
  end.

Lemma expect_bind : forall A B (m : prog A) (k : A -> prog B) f,
  expect (pbind m k) f = expect m (fun a => expect (k a) f).
Proof.
  intros A B m k f; induction m as [a|p c IH]; simpl; [reflexivity|].
  rewrite !IH; reflexivity.
Qed.

Lemma expect_ext : forall A (m : prog A) f g, (forall a, f a = g a) -> expect m f = expect m g.
Proof.
  intros A m f g H; induction m as [a|p c IH]; simpl; [apply H | rewrite !IH; reflexivity].
Qed.

Lemma expect_const : forall A (m : prog A) c, expect m (fun _ => c) = c.
Proof. intros A m c; induction m as [a|p k IH]; simpl; [reflexivity | rewrite !IH; ring]. Qed.

Lemma expect_plus : forall A (m : prog A) f g,
  expect m (fun a => f a + g a) = expect m f + expect m g.
Proof. intros A m f g; induction m as [a|p k IH]; simpl; [reflexivity | rewrite !IH; ring]. Qed.

Lemma expect_scal : forall A (m : prog A) c f, expect m (fun a => c * f a) = c * expect m f.
Proof. intros A m c f; induction m as [a|p k IH]; simpl; [reflexivity | rewrite !IH; ring]. Qed.

Lemma expect_sumn : forall A (m : prog A) n (f : nat -> A -> R),
  expect m (fun a => sumn n (fun i => f i a)) = sumn n (fun i => expect m (f i)).
Proof.
  intros A m n f; induction n as [|n IH]; simpl; [apply expect_const|].
  rewrite expect_plus, IH; reflexivity.
Qed.

Lemma expect_nonneg : forall A (m : prog A) f, wf_prog m -> (forall a, 0 <= f a) -> 0 <= expect m f.
Proof.
  intros A m f; induction m as [a|p k IH]; simpl; intros W H; [apply H|].
  destruct W as [Hp Wk].
  apply Rplus_le_le_0_compat; apply Rmult_le_pos; try lra; apply IH; auto.
Qed.

Lemma outcome_bind : forall A B (m : prog A) (k : A -> prog B) b,
  outcome (pbind m k) b <-> exists a, outcome m a /\ outcome (k a) b.
Proof.
  intros A B m k b; induction m as [a|p c IH]; simpl.
  - split; [intros H; exists a; auto | intros [a' [-> H]]; exact H].
  - rewrite !IH. split.
    + intros [[Hp [a [H1 H2]]]|[Hp [a [H1 H2]]]]; exists a; auto.
    + intros [a [[[Hp H]|[Hp H]] Hk]]; [left | right]; split; eauto.
Qed.

(** Any run with draws in [0,1) ends in an outcome. *)
Lemma run_outcome : forall A (m : prog A) us a rest,
  (forall u, In u us -> 0 <= u < 1) -> run_draws m us = Some (a, rest) -> outcome m a.
Proof.
  intros A m; induction m as [a0|p k IH]; simpl; intros us a rest Hu H.
  - inversion H; reflexivity.
  - destruct us as [|u us]; [discriminate|].
    assert (Hu0 : 0 <= u < 1) by (apply Hu; left; reflexivity).
    destruct (Rltb_spec u p).
    + left; split; [lra|]. eapply IH; [|exact H]. intros; apply Hu; right; assumption.
    + right; split; [lra|]. eapply IH; [|exact H]. intros; apply Hu; right; assumption.
Qed.

(** An event that holds on every outcome has probability one. *)
Lemma prob_one : forall A (m : prog A) b, wf_prog m -> (forall a, outcome m a -> b a = true) -> prob m b = 1.
Proof.
  intros A m b; unfold prob; induction m as [a|p k IH]; simpl; intros W H.
  - rewrite H by reflexivity; reflexivity.
  - destruct W as [Hp Wk].
    assert (T : 0 < p -> expect (k true) (fun a => b2r (b a)) = 1).
    { intros H0; apply IH; [apply Wk | intros a Ha; apply H; left; split; assumption]. }
    assert (F : p < 1 -> expect (k false) (fun a => b2r (b a)) = 1).
    { intros H0; apply IH; [apply Wk | intros a Ha; apply H; right; split; assumption]. }
    destruct (Req_dec p 0) as [->|H0]; [rewrite F by lra; ring|].
    destruct (Req_dec p 1) as [->|H1]; [rewrite T by lra; ring|].
    rewrite T, F by lra; ring.
Qed.
