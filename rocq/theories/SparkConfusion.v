(** Facts on the distributed confusion matrix. *)
From Coq Require Import ZArith Permutation.
From Verif Require Import Base Num Spec Prob Ensemble EnsembleFacts Spark SparkFacts.

(** One test of one pair against one threshold, spark/models.py:758-772. *)
Definition cstep (linked ge : bool) (k : nat) (st : counts) : counts :=
  let '(tp, fp, tn, fn) := st in
  if linked then (if ge then (incr tp k, fp, tn, fn) else (tp, fp, tn, incr fn k))
  else (if ge then (tp, incr fp k, tn, fn) else (tp, fp, incr tn k, fn)).

Definition tp_of (c : counts) : nat -> nat := let '(a, _, _, _) := c in a.
Definition fp_of (c : counts) : nat -> nat := let '(_, a, _, _) := c in a.
Definition tn_of (c : counts) : nat -> nat := let '(_, _, a, _) := c in a.
Definition fn_of (c : counts) : nat -> nat := let '(_, _, _, a) := c in a.

Lemma incr_val : forall a k v, INR (incr a k v) = INR (a v) + (if Nat.eqb v k then 1 else 0).
Proof.
  intros a k v. unfold incr, upd. destruct (Nat.eqb_spec v k) as [->|]; [apply S_INR | ring].
Qed.

(** The number of admissible pairs with a given property. *)
Lemma suml_b2r_filter : forall A (b : A -> bool) l, suml (fun x => b2r (b x)) l = INR (length (filter b l)).
Proof.
  intros A b l; induction l as [|x l IH]; [reflexivity|]. cbn [suml filter]. rewrite IH.
  destruct (b x); cbn [b2r length]; [rewrite S_INR; ring | ring].
Qed.

Section Confusion.
Variables P X Y Z : Type.
Variables (p_ij : P -> X -> Y -> Z -> R) (param : P) (prop_out : nat -> X) (prop_in : nat -> Y) (prop_dyad : nat -> nat -> Z).
Variables (N B : nat) (sl : bool) (row : nat -> list nat) (th : list num).
Hypothesis HB : (1 <= B)%nat.
Hypothesis Hz : forall d x y z z', p_ij d x y z = p_ij d x y z'.
Let pr (i j : nat) : R := p_ij param (prop_out i) (prop_in j) (prop_dyad i j).
Let linked (i j : nat) : bool := existsb (Nat.eqb j) (row i).
Let ge (k i j : nat) : bool := ngeb (Fin (pr i j)) (nth k th NaN).

Lemma confusion_view : forall (sel : counts -> nat -> nat) (cls : bool -> bool -> bool),
  (forall k, sel no_counts k = 0%nat) ->
  (forall a b k, sel (add_counts a b) k = (sel a k + sel b k)%nat) ->
  (forall l g k k' st, INR (sel (cstep l g k' st) k) = INR (sel st k) + (if Nat.eqb k k' then b2r (cls l g) else 0)) ->
  forall k, (k < length th)%nat ->
  sel (spark_confusion param prop_out prop_in prop_dyad N B th p_ij row sl) k
  = length (filter (fun e => cls (linked (fst e) (snd e)) (ge k (fst e) (snd e))) (pairs N sl)).
Proof.
  intros sel cls H0 Ha Hs k Hk. apply INR_eq. rewrite <- suml_b2r_filter. unfold pairs. rewrite suml_filter.
  set (c := fun i j => if allowed sl i j then b2r (cls (linked i j) (ge k i j)) else 0).
  transitivity (sumn N (fun i => sumn N (fun j => c i j))).
  2:{ change (fun e : nat * nat => if allowed sl (fst e) (snd e) then b2r (cls (linked (fst e) (snd e)) (ge k (fst e) (snd e))) else 0)
        with (fun e : nat * nat => c (fst e) (snd e)).
      rewrite suml_list_prod, suml_seq. apply sumn_ext. intros i _. symmetry. apply suml_seq. }
  unfold spark_confusion. rewrite (rdd_fold_sum counts (fun st => INR (sel st k))).
  2:{ rewrite H0. reflexivity. }
  2:{ intros a b. rewrite Ha, plus_INR. reflexivity. }
  rewrite suml_map.
  rewrite (suml_ext _ _ (fun b => suml (fun e => c (fst e) (snd e)) (cells b))).
  { apply square_sum. exact HB. }
  intros [s t] _. unfold b_confusion.
  rewrite (for_range_sum counts (fun st => INR (sel st k)) _ _ (fun i => sumn (len t) (fun j => c (fst s + i) (fst t + j))%nat)).
  { rewrite H0, <- (cells_sum (s, t) c). cbn [INR fst snd]. ring. }
  intros i st _. apply (for_range_sum counts (fun st => INR (sel st k))). intros j st' _.
  unfold slice; cbn [fst snd]. change (adm sl) with (allowed sl).
  rewrite (Hz param _ _ (prop_dyad i j) (prop_dyad (fst s + i) (fst t + j))%nat).
  set (a := (fst s + i)%nat). set (b := (fst t + j)%nat). unfold c.
  destruct (allowed sl a b); [|ring]. fold (pr a b). fold (linked a b).
  assert (E : (if linked a b
     then for_range (length th) (fun k0 (st0 : counts) => let '(tp, fp, tn, fn) := st0 in
            if ngeb (Fin (pr a b)) (nth k0 th NaN) then (incr tp k0, fp, tn, fn) else (tp, fp, tn, incr fn k0)) st'
     else for_range (length th) (fun k0 (st0 : counts) => let '(tp, fp, tn, fn) := st0 in
            if ngeb (Fin (pr a b)) (nth k0 th NaN) then (tp, incr fp k0, tn, fn) else (tp, fp, incr tn k0, fn)) st')
     = for_range (length th) (fun k0 st0 => cstep (linked a b) (ge k0 a b) k0 st0) st').
  { destruct (linked a b); apply for_range_ext; intros k0 [[[tp fp] tn] fn] _; reflexivity. }
  cbv zeta. rewrite E.
  rewrite (for_range_sum counts (fun st => INR (sel st k)) _ _ (fun k0 => if Nat.eqb k k0 then b2r (cls (linked a b) (ge k0 a b)) else 0)).
  - rewrite sumn_delta'. rewrite (proj2 (Nat.ltb_lt k (length th)) Hk). reflexivity.
  - intros k0 st0 _. rewrite Hs. destruct (Nat.eqb_spec k k0) as [->|]; reflexivity.
Qed.

Lemma confusion_spec : forall k, (k < length th)%nat ->
  let c := spark_confusion param prop_out prop_in prop_dyad N B th p_ij row sl in
  let count f := length (filter (fun e => f (linked (fst e) (snd e)) (ge k (fst e) (snd e))) (pairs N sl)) in
  tp_of c k = count (fun l g => l && g) /\ fp_of c k = count (fun l g => negb l && g) /\
  tn_of c k = count (fun l g => negb l && negb g) /\ fn_of c k = count (fun l g => l && negb g).
Proof.
  intros k Hk c count. unfold c, count.
  split; [|split; [|split]];
    [apply (confusion_view tp_of (fun l g => l && g)) | apply (confusion_view fp_of (fun l g => negb l && g))
    | apply (confusion_view tn_of (fun l g => negb l && negb g)) | apply (confusion_view fn_of (fun l g => l && negb g))];
    try exact Hk; try reflexivity;
    try (intros [[[a1 a2] a3] a4] [[[b1 b2] b3] b4] k0; reflexivity);
    intros l g k0 k' [[[tp fp] tn] fn]; destruct l, g; cbn [cstep tp_of fp_of tn_of fn_of andb negb b2r];
    rewrite ?incr_val; destruct (Nat.eqb k0 k'); ring.
Qed.
End Confusion.

Lemma filter_split : forall A (f g : A -> bool) l,
  (length (filter (fun x => f x && g x) l) + length (filter (fun x => f x && negb (g x)) l))%nat
  = length (filter f l).
Proof.
  intros A f g l; induction l as [|x l IH]; [reflexivity|]. cbn [filter].
  destruct (f x), (g x); cbn [andb negb length]; lia.
Qed.

Lemma filter_le : forall A (f g : A -> bool) l, (forall x, In x l -> f x = true -> g x = true) ->
  (length (filter f l) <= length (filter g l))%nat.
Proof.
  intros A f g l; induction l as [|x l IH]; intros H; [simpl; lia|]. cbn [filter].
  assert (IH' := IH (fun y Hy => H y (or_intror Hy))). pose proof (H x (or_introl eq_refl)) as Hx.
  destruct (f x), (g x); cbn [length]; try lia.
Qed.

Lemma ngeb_mono : forall p a b, nle a b -> ngeb (Fin p) b = true -> ngeb (Fin p) a = true.
Proof.
  intros p a b Hab H. unfold ngeb, nleb in *. destruct a as [x| | |], b as [y| | |]; simpl in *; try tauto; try discriminate; auto.
  destruct (Rltb_spec x p); [reflexivity|]. destruct (Reqb_spec x p); [reflexivity|].
  destruct (Rltb_spec y p); [lra|]. destruct (Reqb_spec y p); [lra | exact H].
Qed.
