(** Repeated calls of a sampler: the loop [for i in range(n): sample = model.sample()].  The calls draw from one random stream, so
    they are independent. *)
From Verif Require Import Base Num Prob Spec EnsembleFacts CondFacts.
Import Num Spec.

Open Scope R_scope.
Open Scope list_scope.

Fixpoint calls {A} (n : nat) (p : prog A) : prog (list A) :=
  match n with
  | O => Ret []
  | S k => pbind p (fun a => pbind (calls k p) (fun l => Ret (a :: l)))
  end.

Lemma expect_calls : forall A n (p : prog A) f,
  expect (calls (S n) p) f = expect p (fun a => expect (calls n p) (fun l => f (a :: l))).
Proof. intros A n p f. cbn [calls]. rewrite expect_bind. apply expect_ext. intros a. rewrite expect_bind. reflexivity. Qed.

Lemma expect_le : forall A (m : prog A) f g, wf_prog m -> (forall a, outcome m a -> f a <= g a) -> expect m f <= expect m g.
Proof.
  intros A m f g; induction m as [a|p k IH]; cbn [wf_prog outcome expect]; intros W H; [apply H; reflexivity|]. destruct W as [Hp Wk].
  apply Rplus_le_compat.
  - destruct (Req_dec p 0) as [-> | Z]; [lra|]. apply Rmult_le_compat_l; [lra|]. apply IH; [apply Wk|]. intros a Ha. apply H. left. split; [lra | exact Ha].
  - destruct (Req_dec p 1) as [-> | Z]; [lra|]. apply Rmult_le_compat_l; [lra|]. apply IH; [apply Wk|]. intros a Ha. apply H. right. split; [lra | exact Ha].
Qed.

Lemma calls_wf : forall A n (p : prog A), wf_prog p -> wf_prog (calls n p).
Proof. intros A n p H. induction n as [|n IH]; cbn [calls]; [exact I|]. apply wf_bind; [exact H|]. intros a. apply wf_bind; [exact IH|]. intros l. exact I. Qed.

Lemma calls_outcome : forall A n (p : prog A) l, outcome (calls n p) l -> length l = n /\ Forall (outcome p) l.
Proof.
  intros A n p. induction n as [|n IH]; intros l H; cbn [calls] in H; [cbn [outcome] in H; subst; auto|].
  apply outcome_bind in H. destruct H as (a & Ha & H). apply outcome_bind in H. destruct H as (l' & Hl & H). cbn [outcome] in H. subst l.
  destruct (IH l' Hl). cbn [length]. split; [congruence | constructor; assumption].
Qed.

(** Some call has the event: at most n times the probability for one call. *)
Lemma some_call : forall A n (p : prog A) b, wf_prog p -> prob (calls n p) (existsb b) <= INR n * prob p b.
Proof.
  intros A n p b W. unfold prob. induction n as [|n IH]; [cbn [calls expect existsb b2r INR]; lra|].
  rewrite expect_calls.
  apply Rle_trans with (expect p (fun a => b2r (b a) + expect (calls n p) (fun l => b2r (existsb b l)))).
  - apply expect_le; [exact W|]. intros a _. rewrite <- (expect_const _ (calls n p) (b2r (b a))), <- expect_plus.
    apply expect_le; [apply calls_wf; exact W|]. intros l _. cbn [existsb]. destruct (b a), (existsb b l); cbn; lra.
  - rewrite expect_plus, expect_const, S_INR. lra.
Qed.

(** Sums over the calls. *)
Lemma calls_sum : forall A n (p : prog A) g, expect (calls n p) (suml g) = INR n * expect p g.
Proof.
  intros A n p g. induction n as [|n IH]; [cbn [calls expect suml INR]; lra|]. rewrite expect_calls, S_INR.
  rewrite (expect_ext _ p _ (fun a => g a + INR n * expect p g)).
  - rewrite expect_plus, expect_const. lra.
  - intros a. rewrite <- IH. cbn [suml]. rewrite expect_plus, expect_const. reflexivity.
Qed.

Lemma calls_square : forall A n (p : prog A) g, expect p g = 0 ->
  expect (calls n p) (fun l => suml g l * suml g l) = INR n * expect p (fun a => g a * g a).
Proof.
  intros A n p g E. induction n as [|n IH]; [cbn [calls expect suml INR]; lra|]. rewrite expect_calls, S_INR.
  rewrite (expect_ext _ p _ (fun a => g a * g a + INR n * expect p (fun a => g a * g a))).
  - rewrite expect_plus, expect_const. lra.
  - intros a. rewrite <- IH. cbn [suml].
    rewrite (expect_ext _ (calls n p) (fun l => (g a + suml g l) * (g a + suml g l)) (fun l => (g a * g a + 2 * g a * suml g l) + suml g l * suml g l)) by (intros; ring).
    rewrite !expect_plus, expect_const, expect_scal, calls_sum, E. lra.
Qed.

(** Mean square deviation from the mean. *)
Definition spread {A} (p : prog A) (f : A -> R) : R := expect p (fun a => (f a - expect p f) * (f a - expect p f)).

(** Chebyshev's inequality for the average over [n] calls. *)
Lemma calls_average : forall A n (p : prog A) f eps, wf_prog p -> (1 <= n)%nat -> 0 < eps ->
  prob (calls n p) (fun l => Rleb eps (Rabs (suml f l / INR n - expect p f))) <= spread p f / (INR n * (eps * eps)).
Proof.
  intros A n p f eps W Hn He. assert (Pn : 0 < INR n) by (apply lt_0_INR; lia). set (mu := expect p f).
  set (g := fun a => f a - mu).
  assert (E : expect p g = 0).
  { unfold g. rewrite (expect_ext _ p _ (fun a => f a + - mu)) by (intros; ring). rewrite expect_plus, expect_const. unfold mu. lra. }
  apply Rle_trans with (expect (calls n p) (fun l => / (INR n * INR n * (eps * eps)) * (suml g l * suml g l))).
  - apply expect_le; [apply calls_wf; exact W|]. intros l Hl. destruct (calls_outcome _ _ _ _ Hl) as [Len _].
    assert (S : suml g l = suml f l - INR n * mu).
    { rewrite <- Len. clear. induction l as [|a l IH]; [cbn; lra|]. cbn [suml length]. rewrite S_INR, IH. unfold g. lra. }
    assert (Sq : 0 <= suml g l * suml g l) by apply Rle_0_sqr.
    assert (I : 0 < / (INR n * INR n * (eps * eps))) by (apply Rinv_0_lt_compat; repeat apply Rmult_lt_0_compat; assumption).
    destruct (Rleb_spec eps (Rabs (suml f l / INR n - mu))) as [K | K]; cbn [b2r].
    + replace (suml f l / INR n - mu) with (suml g l / INR n) in K by (rewrite S; field; lra).
      apply Rmult_le_reg_l with (INR n * INR n * (eps * eps)); [repeat apply Rmult_lt_0_compat; assumption|].
      replace (INR n * INR n * (eps * eps) * (/ (INR n * INR n * (eps * eps)) * (suml g l * suml g l))) with (suml g l * suml g l) by (field; lra).
      rewrite Rmult_1_r.
      assert (K2 : INR n * eps <= Rabs (suml g l)).
      { unfold Rdiv in K. rewrite Rabs_mult, (Rabs_right (/ INR n)) in K by (apply Rle_ge, Rlt_le, Rinv_0_lt_compat; exact Pn).
        apply Rmult_le_compat_l with (r := INR n) in K; [|lra]. replace (INR n * (Rabs (suml g l) * / INR n)) with (Rabs (suml g l)) in K by (field; lra). exact K. }
      replace (INR n * INR n * (eps * eps)) with ((INR n * eps) * (INR n * eps)) by ring.
      rewrite <- (Rabs_right (suml g l * suml g l)) by lra. rewrite Rabs_mult.
      apply Rmult_le_compat; try exact K2; apply Rlt_le, Rmult_lt_0_compat; assumption.
    + apply Rmult_le_pos; lra.
  - rewrite expect_scal, calls_square by exact E. change (spread p f) with (expect p (fun a => g a * g a)). apply Req_le. field. lra.
Qed.
