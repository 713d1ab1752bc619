(** Facts about the conditional model. *)
From Verif Require Import Base Num Spec Kernels KernelFacts MultiKernels Prob Ensemble EnsembleFacts
  EnsembleProps LayerProps LayerLib Aggregate CondDist Conditional.

(** ** Survival: probability of no link for a given total rate *)

Definition survive (d : num) (r : R) : R :=
  match d with
  | Fin d => exp (- (d * r))
  | _ => if Reqb r 0 then 1 else 0
  end.

Lemma survive_0 : forall d, survive d 0 = 1.
Proof.
  intros [d| | |]; simpl; try (destruct (Reqb_spec 0 0); [reflexivity | lra]).
  rewrite Rmult_0_r, Ropp_0, exp_0. reflexivity.
Qed.

Lemma survive_add : forall d r s, 0 <= r -> 0 <= s -> survive d (r + s) = survive d r * survive d s.
Proof.
  intros [d| | |] r s Hr Hs; simpl; [rewrite <- exp_plus; f_equal; ring| | |];
    destruct (Reqb_spec (r + s) 0), (Reqb_spec r 0), (Reqb_spec s 0); lra.
Qed.

Lemma survive_range : forall d r, nonneg d -> 0 <= r -> 0 <= survive d r <= 1.
Proof.
  intros [d| | |] r Hd Hr; simpl in *; try contradiction; try (destruct (Reqb r 0); lra).
  split; [left; apply exp_pos|]. rewrite <- exp_0. assert (0 <= d * r) by (apply Rmult_le_pos; assumption).
  destruct (Req_dec (d * r) 0) as [->|]; [rewrite Ropp_0; lra|]. left. apply exp_increasing. lra.
Qed.

Lemma survive_mono : forall d r s, nonneg d -> 0 <= r <= s -> survive d s <= survive d r.
Proof.
  intros d r s Hd H. replace s with (r + (s - r)) by ring. rewrite survive_add by lra.
  pose proof (survive_range d r Hd ltac:(lra)). pose proof (survive_range d (s - r) Hd ltac:(lra)).
  rewrite <- (Rmult_1_r (survive d r)) at 2. apply Rmult_le_compat_l; lra.
Qed.

Lemma survive_sumn : forall d n f, (forall i, (i < n)%nat -> 0 <= f i) ->
  survive d (sumn n f) = prodn n (fun i => survive d (f i)).
Proof.
  intros d n f; induction n as [|n IH]; intros H; simpl; [apply survive_0|].
  rewrite survive_add, IH; [reflexivity | intros; apply H; lia | apply sumn_nonneg; intros; apply H; lia | apply H; lia].
Qed.

Lemma inv_survive : forall d x y z, nonneg d -> 0 <= x -> 0 <= y -> 0 <= z ->
  toR (inv_p_ij d (Fin x) (Fin y) (Fin z)) = 1 - survive d (x * y * z).
Proof.
  intros d x y z Hd Hx Hy Hz.
  assert (E : link_prob poissonian [d; Fin x; Fin y; Fin z] = 1 - survive d (x * y * z)).
  { destruct d as [d| | |]; simpl in Hd; try contradiction.
    - pose proof (surv_fin d x y z) as S. unfold surv in S. simpl survive.
      replace (d * (x * y * z)) with (d * x * y * z) by ring. lra.
    - unfold link_prob. cbn [existsb is_zero is_infinite]. simpl survive.
      destruct (Reqb_spec x 0) as [->|]; [rewrite !Rmult_0_l; destruct (Reqb_spec 0 0); simpl; lra|].
      destruct (Reqb_spec y 0) as [->|]; [rewrite Rmult_0_r, !Rmult_0_l; destruct (Reqb_spec 0 0); simpl; lra|].
      destruct (Reqb_spec z 0) as [->|]; [rewrite Rmult_0_r; destruct (Reqb_spec 0 0); simpl; lra|].
      simpl. destruct (Reqb_spec (x * y * z) 0) as [E|_]; [|ring].
      exfalso. apply Rmult_integral in E. destruct E as [E|E]; [apply Rmult_integral in E; tauto | tauto]. }
  rewrite (view_link_prob inv_p_ij poissonian inv_view) by (simpl; assumption). exact E.
Qed.

(** ** Sampling until at least one link *)

Section Block.
Variables (F : Type) (mark : nat * nat -> F) (param : num) (prop_out prop_in : nat -> num) (sl : bool).
Let pe (e : nat * nat) : R := p_pair param prop_out prop_in (fst e) (snd e).
Notation sb := (sample_block param prop_out prop_in sl mark).

Lemma sample_block_filter : forall l acc b pn,
  sb l acc b pn = sb (filter (fun e => allowed sl (fst e) (snd e)) l) acc b pn.
Proof.
  intros l; induction l as [|[i j] t IH]; intros acc b pn; [reflexivity|].
  cbn [sample_block filter fst snd]. change (adm sl i j) with (allowed sl i j).
  destruct (allowed sl i j) eqn:E; [|apply IH].
  cbn [sample_block]. change (adm sl i j) with (allowed sl i j). rewrite E.
  assert (D : forall ps,
    Draw ps (fun hit : bool => if hit then sb t (acc ++ [mark (i, j)]) true pn
      else if Reqb (1 - p_pair param prop_out prop_in i j) 0 then Ret (Raise ZeroDivisionError)
      else sb t acc b (1 - (1 - pn) / (1 - p_pair param prop_out prop_in i j)))
    = Draw ps (fun hit : bool => if hit then sb (filter (fun e => allowed sl (fst e) (snd e)) t) (acc ++ [mark (i, j)]) true pn
      else if Reqb (1 - p_pair param prop_out prop_in i j) 0 then Ret (Raise ZeroDivisionError)
      else sb (filter (fun e => allowed sl (fst e) (snd e)) t) acc b (1 - (1 - pn) / (1 - p_pair param prop_out prop_in i j)))).
  { intros ps. f_equal. apply FunctionalExtensionality.functional_extensionality. intros [|]; [apply IH|].
    destruct (Reqb _ 0); [reflexivity | apply IH]. }
  cbv zeta. destruct b; [apply D|]. destruct (Reqb pn 0); [reflexivity | apply D].
Qed.

Hypothesis Hp : forall e, 0 <= pe e <= 1.

Definition noneq (l : list (nat * nat)) : R := prodl (fun e => 1 - pe e) l.

Lemma noneq_range : forall l, 0 <= noneq l <= 1.
Proof. intros l. apply prodl_le_1. intros e _. specialize (Hp e). lra. Qed.

Lemma noneq_1 : forall l, noneq l = 1 -> forall e, In e l -> pe e = 0.
Proof.
  intros l; induction l as [|a t IH]; intros H e He; [destruct He|]. unfold noneq in H; simpl in H. fold (noneq t) in H.
  pose proof (noneq_range t) as Ht. pose proof (Hp a) as Ha.
  assert (pe a = 0) by nra. destruct He as [<-|He]; [assumption|]. apply IH; [nra | exact He].
Qed.

Definition okf (f : list F -> R) (r : res (list F)) : R := match r with Ok l => f l | Raise _ => 0 end.

(** All pairs admissible. *)
Definition alls (l : list (nat * nat)) : Prop := forall e, In e l -> allowed sl (fst e) (snd e) = true.

Lemma alls_tail : forall e l, alls (e :: l) -> alls l /\ allowed sl (fst e) (snd e) = true.
Proof. intros e l H. split; [intros f Hf; apply H; right; exact Hf | apply H; left; reflexivity]. Qed.

Lemma block_true : forall f l acc pn, alls l ->
  expect (sb l acc true pn) f = expect (bern pe mark l acc) (fun r => f (Ok r)).
Proof.
  intros f l; induction l as [|[i j] t IH]; intros acc pn A; [reflexivity|].
  destruct (alls_tail _ _ A) as [At Ae]. cbn [fst snd] in Ae.
  rewrite bern_expect. cbn [sample_block]. change (adm sl i j) with (allowed sl i j). rewrite Ae. cbv zeta. cbn [expect].
  rewrite IH by exact At. change (p_pair param prop_out prop_in i j) with (pe (i, j)).
  destruct (Reqb_spec (1 - pe (i, j)) 0) as [E|E].
  - rewrite E. ring.
  - rewrite IH by exact At. reflexivity.
Qed.

Lemma bern_zero : forall l acc (f : list F -> R), (forall e, In e l -> pe e = 0) -> expect (bern pe mark l acc) f = f acc.
Proof.
  intros l; induction l as [|e t IH]; intros acc f H; [reflexivity|]. rewrite bern_expect.
  rewrite H by (left; reflexivity). rewrite (IH acc) by (intros; apply H; right; assumption). ring.
Qed.

Lemma block_false : forall f l acc pn, alls l -> pn = 1 - noneq l -> pn <> 0 ->
  expect (sb l acc false pn) f * pn = expect (bern pe mark l acc) (fun r => f (Ok r)) - noneq l * f (Ok acc).
Proof.
  intros f l; induction l as [|[i j] t IH]; intros acc pn A Hpn H0.
  - exfalso. apply H0. rewrite Hpn. unfold noneq; simpl. ring.
  - destruct (alls_tail _ _ A) as [At Ae]. cbn [fst snd] in Ae.
    rewrite bern_expect. cbn [sample_block]. change (adm sl i j) with (allowed sl i j). rewrite Ae. cbv zeta.
    destruct (Reqb_spec pn 0) as [|_]; [contradiction|]. cbn [expect].
    rewrite block_true by exact At. change (p_pair param prop_out prop_in i j) with (pe (i, j)).
    assert (En : noneq ((i, j) :: t) = (1 - pe (i, j)) * noneq t) by reflexivity.
    rewrite En in *. set (p := pe (i, j)) in *. set (T := expect (bern pe mark t (acc ++ [mark (i, j)])) (fun r => f (Ok r))).
    replace ((p / pn * T + (1 - p / pn) * expect (if Reqb (1 - p) 0 then Ret (Raise ZeroDivisionError)
        else sb t acc false (1 - (1 - pn) / (1 - p))) f) * pn)
      with (p * T + (pn - p) * expect (if Reqb (1 - p) 0 then Ret (Raise ZeroDivisionError)
        else sb t acc false (1 - (1 - pn) / (1 - p))) f) by (field; exact H0).
    assert (Hd : pn - p = (1 - p) * (1 - noneq t)) by (rewrite Hpn; ring).
    destruct (Reqb_spec (1 - p) 0) as [E|E].
    + rewrite Hd, E. ring.
    + assert (Hpn' : 1 - (1 - pn) / (1 - p) = 1 - noneq t) by (rewrite Hpn; field; exact E).
      rewrite Hpn'. rewrite Hd.
      destruct (Req_dec (1 - noneq t) 0) as [Z|Z].
      * rewrite Z. assert (N1 : noneq t = 1) by lra.
        rewrite (bern_zero t acc) by (apply noneq_1; exact N1). rewrite N1. ring.
      * replace ((1 - p) * (1 - noneq t) * expect (sb t acc false (1 - noneq t)) f)
          with ((1 - p) * (expect (sb t acc false (1 - noneq t)) f * (1 - noneq t))) by ring.
        rewrite (IH acc (1 - noneq t) At eq_refl Z). ring.
Qed.

Lemma block_wf_true : forall l acc pn, alls l -> wf_prog (sb l acc true pn).
Proof.
  intros l; induction l as [|[i j] t IH]; intros acc pn A; [exact I|].
  destruct (alls_tail _ _ A) as [At Ae]. cbn [fst snd] in Ae.
  cbn [sample_block]. change (adm sl i j) with (allowed sl i j). rewrite Ae. cbv zeta. cbn [wf_prog].
  split; [exact (Hp (i, j))|]. intros [|]; [apply IH; exact At|]. destruct (Reqb _ 0); [exact I | apply IH; exact At].
Qed.

Lemma block_wf : forall l acc pn, alls l -> pn = 1 - noneq l -> pn <> 0 -> wf_prog (sb l acc false pn).
Proof.
  intros l; induction l as [|[i j] t IH]; intros acc pn A Hpn H0; [exact I|].
  destruct (alls_tail _ _ A) as [At Ae]. cbn [fst snd] in Ae.
  cbn [sample_block]. change (adm sl i j) with (allowed sl i j). rewrite Ae. cbv zeta.
  destruct (Reqb_spec pn 0) as [|_]; [contradiction|]. cbn [wf_prog].
  assert (En : noneq ((i, j) :: t) = (1 - pe (i, j)) * noneq t) by reflexivity.
  change (p_pair param prop_out prop_in i j) with (pe (i, j)).
  pose proof (Hp (i, j)) as Hpe. pose proof (noneq_range t) as Ht. pose proof (noneq_range ((i, j) :: t)) as Hl.
  assert (Hpos : 0 < pn) by lra. rewrite En in *.
  split.
  - split; [apply Rmult_le_pos; [lra | left; apply Rinv_0_lt_compat; exact Hpos]|].
    apply (Rmult_le_reg_r pn); [exact Hpos|]. unfold Rdiv. rewrite Rmult_assoc, Rinv_l by exact H0. nra.
  - intros [|]; [apply block_wf_true; exact At|]. destruct (Reqb_spec (1 - pe (i, j)) 0) as [E|E]; [exact I|].
    assert (Hpn' : 1 - (1 - pn) / (1 - pe (i, j)) = 1 - noneq t) by (rewrite Hpn; field; exact E).
    rewrite Hpn'. destruct (Req_dec (1 - noneq t) 0) as [Z|Z]; [|apply IH; [exact At | reflexivity | exact Z]].
    rewrite Z. destruct t as [|[i' j'] t']; [exact I|].
    destruct (alls_tail _ _ At) as [_ Ae']. cbn [fst snd] in Ae'.
    cbn [sample_block]. change (adm sl i' j') with (allowed sl i' j'). rewrite Ae'. cbv zeta.
    destruct (Reqb_spec 0 0) as [_|n]; [exact I | contradiction n; reflexivity].
Qed.

Lemma block_out_true : forall l acc pn r, alls l -> outcome (sb l acc true pn) r ->
  exists S, In S (sublists l) /\ r = Ok (acc ++ map mark S) /\ (forall e, In e S -> 0 < pe e).
Proof.
  intros l; induction l as [|[i j] t IH]; intros acc pn r A O.
  - cbn [sample_block outcome] in O. subst r. exists []. split; [left; reflexivity|]. rewrite app_nil_r. split; [reflexivity | intros e []].
  - destruct (alls_tail _ _ A) as [At Ae]. cbn [fst snd] in Ae.
    cbn [sample_block] in O. change (adm sl i j) with (allowed sl i j) in O. rewrite Ae in O. cbv zeta in O. cbn [outcome] in O.
    change (p_pair param prop_out prop_in i j) with (pe (i, j)) in O.
    destruct O as [[P O]|[P O]].
    + destruct (IH _ _ _ At O) as (S & HS & -> & HP). exists ((i, j) :: S). split; [|split].
      * simpl. apply in_or_app. left. apply in_map. exact HS.
      * rewrite <- app_assoc. reflexivity.
      * intros e [<-|He]; [exact P | apply HP; exact He].
    + destruct (Reqb_spec (1 - pe (i, j)) 0) as [E|E]; [lra|].
      destruct (IH _ _ _ At O) as (S & HS & -> & HP). exists S. split; [|split; [reflexivity | exact HP]].
      simpl. apply in_or_app. right. exact HS.
Qed.

Lemma block_out : forall l acc pn r, alls l -> pn = 1 - noneq l -> pn <> 0 -> outcome (sb l acc false pn) r ->
  exists S, In S (sublists l) /\ S <> [] /\ r = Ok (acc ++ map mark S) /\ (forall e, In e S -> 0 < pe e).
Proof.
  intros l; induction l as [|[i j] t IH]; intros acc pn r A Hpn H0 O.
  - exfalso. apply H0. rewrite Hpn. unfold noneq; simpl. ring.
  - destruct (alls_tail _ _ A) as [At Ae]. cbn [fst snd] in Ae.
    cbn [sample_block] in O. change (adm sl i j) with (allowed sl i j) in O. rewrite Ae in O. cbv zeta in O.
    destruct (Reqb_spec pn 0) as [|_]; [contradiction|]. cbn [outcome] in O.
    change (p_pair param prop_out prop_in i j) with (pe (i, j)) in O.
    assert (En : noneq ((i, j) :: t) = (1 - pe (i, j)) * noneq t) by reflexivity.
    pose proof (Hp (i, j)) as Hpe. pose proof (noneq_range t) as Ht. pose proof (noneq_range ((i, j) :: t)) as Hl.
    assert (Hpos : 0 < pn) by lra. rewrite En in *.
    destruct O as [[P O]|[P O]].
    + assert (P' : 0 < pe (i, j)).
      { destruct (Req_dec (pe (i, j)) 0) as [E|]; [rewrite E in P; unfold Rdiv in P; rewrite Rmult_0_l in P; lra | lra]. }
      destruct (block_out_true _ _ _ _ At O) as (S & HS & -> & HP). exists ((i, j) :: S). repeat split.
      * simpl. apply in_or_app. left. apply in_map. exact HS.
      * discriminate.
      * rewrite <- app_assoc. reflexivity.
      * intros e [<-|He]; [exact P' | apply HP; exact He].
    + assert (P' : pe (i, j) < pn).
      { apply (Rmult_lt_compat_r pn) in P; [|exact Hpos]. unfold Rdiv in P. rewrite Rmult_assoc, Rinv_l in P by exact H0. lra. }
      destruct (Reqb_spec (1 - pe (i, j)) 0) as [E|E]; [lra|].
      assert (Hpn' : 1 - (1 - pn) / (1 - pe (i, j)) = 1 - noneq t) by (rewrite Hpn; field; exact E).
      rewrite Hpn' in O. destruct (IH acc (1 - noneq t) r At eq_refl) as (S & HS & HN & -> & HP); [nra | exact O|].
      exists S. repeat split; try assumption. simpl. apply in_or_app. right. exact HS.
Qed.

End Block.

(** ** Sums over the vertices of a group *)

Lemma list_prod_filter : forall A B (f : A -> bool) (h : B -> bool) l m,
  list_prod (filter f l) (filter h m) = filter (fun e => f (fst e) && h (snd e)) (list_prod l m).
Proof.
  intros A B f h l m. induction l as [|a l IH]; [reflexivity|]. simpl. rewrite filter_app, <- IH.
  assert (E : filter (fun e => f (fst e) && h (snd e)) (map (fun y => (a, y)) m)
              = if f a then map (fun y => (a, y)) (filter h m) else []).
  { clear. induction m as [|b m IHm]; [destruct (f a); reflexivity|]. simpl. rewrite IHm. destruct (f a), (h b); reflexivity. }
  rewrite E. destruct (f a); reflexivity.
Qed.

Lemma filter_comm : forall A (f h : A -> bool) l, filter f (filter h l) = filter h (filter f l).
Proof.
  intros A f h l; induction l as [|a l IH]; [reflexivity|]. simpl.
  destruct (f a) eqn:F, (h a) eqn:H; simpl; rewrite ?F, ?H, IH; reflexivity.
Qed.

Lemma members_block : forall N groups sl a b,
  filter (fun e => allowed sl (fst e) (snd e)) (list_prod (members N groups a) (members N groups b))
  = block N sl groups (a, b).
Proof.
  intros N groups sl a b. unfold members, block, pairs. rewrite list_prod_filter, filter_comm. reflexivity.
Qed.

Definition group_sum (N : nat) (g : nat -> nat) (x : nat -> R) (a : nat) : R :=
  sumn N (fun i => if Nat.eqb (g i) a then x i else 0).

Lemma nadd_at_spec : forall st k w a v, st a = Fin v ->
  nadd_at st k (Fin w) a = Fin (v + if Nat.eqb k a then w else 0).
Proof.
  intros st k w a v H. unfold nadd_at, upd. rewrite (Nat.eqb_sym k a).
  destruct (Nat.eqb_spec a k) as [<-|]; rewrite H; simpl; f_equal; ring.
Qed.

Lemma aggregates_spec : forall N g x y a,
  let s := aggregates N g (fun i => Fin (x i)) (fun i => Fin (y i)) in
  agg_p_out s a = Fin (group_sum N g x a) /\ agg_p_in s a = Fin (group_sum N g y a) /\
  agg_diag s a = Fin (group_sum N g (fun i => x i * y i) a).
Proof.
  intros N g x y a. unfold aggregates, group_sum. induction N as [|n IH]; [repeat split|].
  cbn [for_range sumn]. destruct IH as (I1 & I2 & I3). cbn [agg_p_out agg_p_in agg_diag].
  repeat split; (etransitivity; [apply nadd_at_spec; eassumption | reflexivity]).
Qed.

(** Total rate of a block: sum over its admissible pairs. *)
Definition rate (N : nat) (sl : bool) (g : nat -> nat) (x y : nat -> R) (c : nat * nat) : R :=
  suml (fun e => x (fst e) * y (snd e)) (block N sl g c).

Lemma suml_list_prod : forall A B (f : A * B -> R) l m,
  suml f (list_prod l m) = suml (fun u => suml (fun v => f (u, v)) m) l.
Proof.
  intros A B f l m; induction l as [|a l IH]; [reflexivity|]. simpl. rewrite suml_app, suml_map, IH. reflexivity.
Qed.

Lemma rate_sum : forall N sl g x y a b, rate N sl g x y (a, b)
  = sumn N (fun i => sumn N (fun j => if allowed sl i j then
      (if Nat.eqb (g i) a then x i else 0) * (if Nat.eqb (g j) b then y j else 0) else 0)).
Proof.
  intros. unfold rate, block, pairs. rewrite !suml_filter, suml_list_prod, suml_seq. apply sumn_ext. intros i _.
  rewrite suml_seq. apply sumn_ext. intros j _. unfold block_of, pair_eqb. cbn [fst snd].
  destruct (allowed sl i j), (Nat.eqb (g i) a), (Nat.eqb (g j) b); simpl; ring.
Qed.

Lemma rate_value : forall N sl g x y a b, rate N sl g x y (a, b)
  = group_sum N g x a * group_sum N g y b
    - (if negb sl && Nat.eqb a b then group_sum N g (fun i => x i * y i) a else 0).
Proof.
  intros. rewrite rate_sum. unfold group_sum.
  set (X := fun i => if Nat.eqb (g i) a then x i else 0). set (Y := fun j => if Nat.eqb (g j) b then y j else 0).
  assert (E : sumn N X * sumn N Y = sumn N (fun i => sumn N (fun j => X i * Y j))).
  { rewrite <- sumn_scal_r. apply sumn_ext. intros i _. rewrite sumn_scal_l. reflexivity. }
  rewrite E. destruct sl; cbn [negb andb].
  - rewrite Rminus_0_r. apply sumn_ext; intros i _; apply sumn_ext; intros j _. unfold allowed. rewrite Bool.orb_true_r. reflexivity.
  - assert (D : sumn N (fun i => X i * Y i) = if Nat.eqb a b then sumn N (fun i => if Nat.eqb (g i) a then x i * y i else 0) else 0).
    { destruct (Nat.eqb_spec a b) as [<-|n].
      - apply sumn_ext; intros i _. unfold X, Y. destruct (Nat.eqb (g i) a); ring.
      - apply sumn_zero. intros i _. unfold X, Y. destruct (Nat.eqb_spec (g i) a), (Nat.eqb_spec (g i) b); try ring. congruence. }
    rewrite <- D, <- sumn_minus. apply sumn_ext. intros i Hi.
    rewrite <- (sumn_pick N i (fun j => X i * Y j) Hi), <- sumn_minus. apply sumn_ext. intros j _.
    unfold allowed. rewrite Bool.orb_false_r. destruct (Nat.eqb_spec i j) as [<-|]; simpl; fold (X i) (Y i); try ring.
    fold (X i) (Y j). ring.
Qed.

(** ** The blocks of the model *)

Lemma noneq_survive : forall d N sl g x y c, (forall i, 0 <= x i) -> (forall i, 0 <= y i) ->
  empty_prob N sl (fun e => 1 - survive d (x (fst e) * y (snd e))) g c = survive d (rate N sl g x y c).
Proof.
  intros d N sl g x y c Hx Hy. unfold empty_prob, rate.
  induction (block N sl g c) as [|e l IH]; simpl; [symmetry; apply survive_0|].
  rewrite survive_add, <- IH; [ring | apply Rmult_le_pos; auto|].
  apply suml_nonneg. intros. apply Rmult_le_pos; auto.
Qed.

Lemma mean_sub_pos_ext : forall A (p : A -> R) l f h, (forall e, 0 <= p e <= 1) ->
  (forall S, In S (sublists l) -> (forall e, In e S -> 0 < p e) -> f S = h S) -> mean_sub p l f = mean_sub p l h.
Proof.
  intros A p l; induction l as [|e t IH]; intros f h Hp H; simpl; [apply H; [left; reflexivity | intros e []]|].
  f_equal.
  - destruct (Req_dec (p e) 0) as [Z|Z]; [rewrite Z; ring|]. f_equal. apply IH; [exact Hp|].
    intros S HS HP. apply H; [simpl; apply in_or_app; left; apply in_map; exact HS|].
    intros e' [<-|He]; [pose proof (Hp e); lra | apply HP; exact He].
  - f_equal. apply IH; [exact Hp|]. intros S HS HP. apply H; [simpl; apply in_or_app; right; exact HS | exact HP].
Qed.

Lemma wf_bind : forall A B (m : prog A) (k : A -> prog B), wf_prog m -> (forall a, wf_prog (k a)) -> wf_prog (pbind m k).
Proof.
  intros A B m k; induction m as [a|p c IH]; intros Hm Hk; simpl; [apply Hk|]. destruct Hm as [Hp Hc].
  split; [exact Hp | intros b; apply IH; [apply Hc | exact Hk]].
Qed.

Lemma sublists_app : forall A (l1 l2 S1 S2 : list A), In S1 (sublists l1) -> In S2 (sublists l2) ->
  In (S1 ++ S2) (sublists (l1 ++ l2)).
Proof.
  intros A l1; induction l1 as [|a l1 IH]; intros l2 S1 S2 H1 H2; simpl in H1.
  - destruct H1 as [<-|[]]. exact H2.
  - simpl. apply in_or_app. apply in_app_or in H1 as [H1|H1].
    + apply in_map_iff in H1 as (T & <- & H1). left. simpl. apply in_map. apply IH; assumption.
    + right. apply IH; assumption.
Qed.

Lemma rate_nonneg : forall N sl g x y c, (forall i, 0 <= x i) -> (forall i, 0 <= y i) -> 0 <= rate N sl g x y c.
Proof. intros. apply suml_nonneg. intros. apply Rmult_le_pos; auto. Qed.

Lemma group_sum_nonneg : forall N g x a, (forall i, 0 <= x i) -> 0 <= group_sum N g x a.
Proof. intros N g x a H. apply sumn_nonneg. intros i _. destruct (Nat.eqb (g i) a); [apply H | lra]. Qed.

(** The hypothesis under which the dyadic factor of a block is defined. *)
Definition block_defined (N : nat) (sl : bool) (g : nat -> nat) (x y : nat -> R) (c : nat * nat) : Prop :=
  sl = false -> fst c = snd c -> group_sum N g x (fst c) * group_sum N g y (snd c) <> 0.

Lemma rate_defined : forall N sl g x y c, (forall i, 0 <= x i) -> (forall i, 0 <= y i) ->
  rate N sl g x y c <> 0 -> block_defined N sl g x y c.
Proof.
  intros N sl g x y [a b] Hx Hy Hr -> E Z. cbn [fst snd] in *. subst b. apply Hr. rewrite rate_value, Z.
  rewrite Nat.eqb_refl. cbn [negb andb].
  pose proof (rate_nonneg N false g x y (a, a) Hx Hy) as P. rewrite rate_value, Z, Nat.eqb_refl in P. cbn [negb andb] in P.
  assert (0 <= group_sum N g (fun i => x i * y i) a) by (apply group_sum_nonneg; intros; apply Rmult_le_pos; auto).
  lra.
Qed.

Section Model.
Variables (d : num) (x y : nat -> R) (N : nat) (g : nat -> nat) (adj : nat -> list (nat * R)) (sl : bool).
Hypothesis (Hd : nonneg d) (Hx : forall i, 0 <= x i) (Hy : forall i, 0 <= y i).
Let po (i : nat) : num := Fin (x i).
Let pin (i : nat) : num := Fin (y i).
Let s := aggregates N g po pin.
Definition pm (e : nat * nat) : R := 1 - survive d (x (fst e) * y (snd e)).
Notation Q := (empty_prob N sl pm g).

Lemma pm_range : forall e, 0 <= pm e <= 1.
Proof.
  intros e. unfold pm. assert (0 <= x (fst e) * y (snd e)) by (apply Rmult_le_pos; auto).
  pose proof (survive_range d _ Hd H). lra.
Qed.

Lemma p_pair_pm : forall e, p_pair d po pin (fst e) (snd e) = pm e.
Proof. intros e. unfold p_pair, po, pin. rewrite inv_survive by (auto; lra). rewrite Rmult_1_r. reflexivity. Qed.

Lemma Q_survive : forall c, Q c = survive d (rate N sl g x y c).
Proof. intros c. apply (noneq_survive d); assumption. Qed.

Lemma Q_range : forall c, 0 <= Q c <= 1.
Proof. intros c. rewrite Q_survive. apply survive_range; [exact Hd | apply rate_nonneg; assumption]. Qed.

Lemma z_block_spec : forall a b, block_defined N sl g x y (a, b) ->
  exists z, z_block s sl a b = Ok (Fin z) /\ 0 <= z /\
    group_sum N g x a * group_sum N g y b * z = rate N sl g x y (a, b).
Proof.
  intros a b H. unfold z_block. destruct (aggregates_spec N g x y a) as (E1 & _ & E3).
  destruct (aggregates_spec N g x y b) as (_ & E2 & _). fold po pin s in E1, E2, E3.
  rewrite rate_value. destruct (negb sl && Nat.eqb a b) eqn:C.
  - apply andb_prop in C as [C1 C2]. apply Bool.negb_true_iff in C1. apply Nat.eqb_eq in C2. subst b.
    specialize (H C1 eq_refl). cbn [fst snd] in H. rewrite E1, E2, E3. cbn [nmul]. unfold pdiv, is0, neqb.
    destruct (Reqb_spec (group_sum N g x a * group_sum N g y a) 0) as [|n]; [contradiction|].
    cbn [bind]. unfold ndiv. destruct (Reqb_spec (group_sum N g x a * group_sum N g y a) 0) as [|_]; [contradiction|].
    eexists. split; [reflexivity|]. split.
    + pose proof (rate_nonneg N sl g x y (a, a) Hx Hy) as P. rewrite rate_value, C1, Nat.eqb_refl in P. cbn [negb andb] in P.
      assert (0 < group_sum N g x a * group_sum N g y a).
      { pose proof (Rmult_le_pos _ _ (group_sum_nonneg N g x a Hx) (group_sum_nonneg N g y a Hy)). lra. }
      assert (group_sum N g (fun i => x i * y i) a / (group_sum N g x a * group_sum N g y a) <= 1).
      { apply (Rmult_le_reg_r (group_sum N g x a * group_sum N g y a)); [assumption|]. unfold Rdiv.
        rewrite Rmult_assoc, Rinv_l by lra. lra. }
      lra.
    + field. split; intros Z; apply H; rewrite Z; ring.
  - exists 1. split; [reflexivity|]. split; [lra | ring].
Qed.

Lemma z_block_raise : forall a, sl = false -> group_sum N g x a * group_sum N g y a = 0 ->
  z_block s sl a a = Raise ZeroDivisionError.
Proof.
  intros a -> H. unfold z_block. rewrite Nat.eqb_refl. cbn [negb andb].
  destruct (aggregates_spec N g x y a) as (E1 & E2 & E3). fold po pin s in E1, E2, E3.
  rewrite E1, E2. cbn [nmul]. unfold pdiv, is0, neqb. rewrite H. destruct (Reqb_spec 0 0) as [_|n]; [reflexivity | lra].
Qed.

Lemma p_block_spec : forall a b, block_defined N sl g x y (a, b) -> p_block d po pin N g sl a b = Ok (1 - Q (a, b)).
Proof.
  intros a b H. unfold p_block. fold s. destruct (z_block_spec a b H) as (z & -> & Hz & E). cbn [bind].
  destruct (aggregates_spec N g x y a) as (E1 & _ & _). destruct (aggregates_spec N g x y b) as (_ & E2 & _).
  fold po pin s in E1, E2. rewrite E1, E2.
  rewrite inv_survive by (try assumption; apply group_sum_nonneg; assumption). rewrite E, Q_survive. reflexivity.
Qed.

Lemma Q_defined : forall c, 1 - Q c <> 0 -> block_defined N sl g x y c.
Proof.
  intros c H. apply rate_defined; try assumption. intros Z. apply H. rewrite Q_survive, Z, survive_0. ring.
Qed.

(** ** One block *)

Section Mark.
Variable F : Type.
Notation bl := (block N sl g).
Notation sb := (sample_block d po pin sl).

Lemma pe_eq : (fun e : nat * nat => p_pair d po pin (fst e) (snd e)) = pm.
Proof. apply FunctionalExtensionality.functional_extensionality. apply p_pair_pm. Qed.

Lemma noneq_Q : forall c, noneq d po pin (bl c) = Q c.
Proof. intros c. unfold noneq. unfold empty_prob. apply prodl_ext. intros e _. rewrite p_pair_pm. reflexivity. Qed.

Lemma alls_block : forall c, alls sl (bl c).
Proof. intros c [i j] He. apply in_block in He as [He _]. apply in_pairs in He. apply He. Qed.

Lemma sb_block : forall (mark : nat * nat -> F) a b acc al pn,
  sb mark (list_prod (members N g a) (members N g b)) acc al pn = sb mark (bl (a, b)) acc al pn.
Proof. intros. rewrite sample_block_filter, members_block. reflexivity. Qed.

Lemma sb_expect : forall (mark : nat * nat -> F) c f, 1 - Q c <> 0 ->
  expect (sb mark (bl c) [] false (1 - Q c)) f * (1 - Q c)
  = mean_sub pm (bl c) (fun S => f (Ok (map mark S)) * b2r (hit g c S)).
Proof.
  intros mark c f H. rewrite (block_false F mark d po pin sl) ; try assumption.
  - rewrite mean_block_hit, noneq_Q, pe_eq, bern_mean_sub. cbn [app map]. reflexivity.
  - intros e. rewrite p_pair_pm. apply pm_range.
  - apply alls_block.
  - rewrite noneq_Q. reflexivity.
Qed.

Lemma sb_wf : forall (mark : nat * nat -> F) c, 1 - Q c <> 0 -> wf_prog (sb mark (bl c) [] false (1 - Q c)).
Proof.
  intros mark c H. apply block_wf; try assumption.
  - intros e. rewrite p_pair_pm. apply pm_range.
  - apply alls_block.
  - rewrite noneq_Q. reflexivity.
Qed.

Lemma sb_out : forall (mark : nat * nat -> F) c r, 1 - Q c <> 0 -> outcome (sb mark (bl c) [] false (1 - Q c)) r ->
  exists S, In S (sublists (bl c)) /\ hit g c S = true /\ r = Ok (map mark S) /\ (forall e, In e S -> 0 < pm e).
Proof.
  intros mark c r H O. apply block_out in O as (S & H1 & H2 & H3 & H4); try assumption.
  - exists S. repeat split; try assumption.
    + rewrite (hit_block N sl g c S H1). destruct S; [contradiction | reflexivity].
    + intros e He. rewrite <- p_pair_pm. apply H4. exact He.
  - intros e. rewrite p_pair_pm. apply pm_range.
  - apply alls_block.
  - rewrite noneq_Q. reflexivity.
Qed.

(** ** All blocks *)

Variables (mark : R -> nat * nat -> F) (finish : R -> list F -> res (list F)) (fin : R -> list F -> list F).
Notation sbs := (sample_blocks d po pin N g sl mark finish).

(** What is recorded for the block [c] of weight [w] when the links are [S]. *)
Definition recorded (S : list (nat * nat)) (t : nat * nat * R) : list F :=
  fin (snd t) (map (mark (1 - Q (fst t))) (filter (fun e => pair_eqb (block_of g e) (fst t)) S)).

Definition good_blocks (B : list (nat * nat * R)) : Prop := forall t, In t B -> 1 - Q (fst t) <> 0 /\
  forall S, In S (sublists (bl (fst t))) -> S <> [] -> (forall e, In e S -> 0 < pm e) ->
    finish (snd t) (map (mark (1 - Q (fst t))) S) = Ok (fin (snd t) (map (mark (1 - Q (fst t))) S)).

Lemma filter_all : forall A (f : A -> bool) l, (forall a, In a l -> f a = true) -> filter f l = l.
Proof.
  intros A f l; induction l as [|a l IH]; intros H; [reflexivity|]. simpl. rewrite H by (left; reflexivity).
  f_equal. apply IH. intros; apply H; right; assumption.
Qed.
Lemma filter_none : forall A (f : A -> bool) l, (forall a, In a l -> f a = false) -> filter f l = [].
Proof.
  intros A f l; induction l as [|a l IH]; intros H; [reflexivity|]. simpl. rewrite H by (left; reflexivity).
  apply IH. intros; apply H; right; assumption.
Qed.

Lemma recorded_split : forall t B S1 S2, ~ In (fst t) (map fst B) -> In S1 (sublists (bl (fst t))) ->
  In S2 (sublists (flat_map bl (map fst B))) ->
  flat_map (recorded (S1 ++ S2)) (t :: B) = fin (snd t) (map (mark (1 - Q (fst t))) S1) ++ flat_map (recorded S2) B.
Proof.
  intros t B S1 S2 Ht H1 H2. cbn [flat_map]. f_equal.
  - unfold recorded. rewrite filter_app, (filter_all _ _ S1), (filter_none _ _ S2), app_nil_r; [reflexivity| |].
    + intros e He. destruct (pair_eqb_spec (block_of g e) (fst t)) as [E|]; [|reflexivity].
      exfalso. apply Ht. rewrite <- E. eapply flat_sub; eassumption.
    + intros e He. rewrite (block_sub N sl g _ _ _ H1 He). destruct (pair_eqb_spec (fst t) (fst t)); [reflexivity | contradiction].
  - assert (HB : forall t', In t' B -> fst t' <> fst t).
    { intros t' H' E. apply Ht. rewrite <- E. apply in_map. exact H'. }
    clear H2 Ht. induction B as [|t' B IH]; [reflexivity|]. cbn [flat_map]. rewrite IH by (intros; apply HB; right; assumption). f_equal.
    unfold recorded. rewrite filter_app, (filter_none _ _ S1); [reflexivity|].
    intros e He. rewrite (block_sub N sl g _ _ _ H1 He).
    destruct (pair_eqb_spec (fst t) (fst t')) as [E|]; [|reflexivity]. exfalso. apply (HB t'); [left; reflexivity | congruence].
Qed.

Lemma sbs_cons : forall a b w B acc, 1 - Q (a, b) <> 0 ->
  sbs ((a, b, w) :: B) acc
  = pbind (sb (mark (1 - Q (a, b))) (bl (a, b)) [] false (1 - Q (a, b)))
      (fun r => match r with
                | Raise e => Ret (Raise e)
                | Ok links => match finish w links with
                              | Raise e => Ret (Raise e)
                              | Ok links' => sbs B (acc ++ links') end end).
Proof.
  intros a b w B acc H. cbn [sample_blocks]. rewrite p_block_spec by (apply Q_defined; exact H).
  rewrite sb_block. reflexivity.
Qed.

Lemma sbs_expect : forall B acc f, NoDup (map fst B) -> good_blocks B ->
  expect (sbs B acc) f * prodl (fun c => 1 - Q c) (map fst B)
  = mean_sub pm (flat_map bl (map fst B))
      (fun S => f (Ok (acc ++ flat_map (recorded S) B)) * b2r (hits g (map fst B) S)).
Proof.
  intros B; induction B as [|[[a b] w] B IH]; intros acc f ND GB.
  - simpl. rewrite app_nil_r. ring.
  - inversion ND as [|? ? Hc HB]; subst. cbn [fst] in *.
    assert (GB' : good_blocks B) by (intros t Ht; apply GB; right; exact Ht).
    destruct (GB (a, b, w) (or_introl eq_refl)) as [H0 Hf]. cbn [fst snd] in H0, Hf.
    cbn [map]. cbn [fst]. rewrite (mean_hits_cons N sl g pm (a, b) (map fst B)
      (fun S => f (Ok (acc ++ flat_map (recorded S) ((a, b, w) :: B)))) Hc).
    rewrite sbs_cons by exact H0. rewrite expect_bind. cbn [prodl].
    rewrite <- Rmult_assoc.
    rewrite (sb_expect (mark (1 - Q (a, b))) (a, b)) by exact H0.
    rewrite Rmult_comm, <- mean_sub_scal.
    apply mean_sub_pos_ext; [intros; apply pm_range|]. intros S1 H1 HP.
    destruct (hit g (a, b) S1) eqn:Hh; simpl b2r; [|ring]. rewrite !Rmult_1_r.
    assert (N1 : S1 <> []) by (rewrite (hit_block N sl g _ _ H1) in Hh; destruct S1; [discriminate | discriminate]).
    rewrite Hf by assumption. rewrite Rmult_comm, IH by assumption. apply mean_sub_ext. intros S2 H2.
    change (a, b) with (fst (a, b, w)) in H1, Hc.
    rewrite (recorded_split (a, b, w) B S1 S2 Hc H1 H2). rewrite <- app_assoc. reflexivity.
Qed.

Lemma sbs_wf : forall B acc, NoDup (map fst B) -> good_blocks B -> wf_prog (sbs B acc).
Proof.
  intros B; induction B as [|[[a b] w] B IH]; intros acc ND GB; [exact I|].
  inversion ND as [|? ? Hc HB]; subst. assert (GB' : good_blocks B) by (intros t Ht; apply GB; right; exact Ht).
  destruct (GB (a, b, w) (or_introl eq_refl)) as [H0 _]. cbn [fst snd] in H0. rewrite sbs_cons by exact H0.
  apply wf_bind; [apply sb_wf; exact H0|]. intros [links|e]; [|exact I].
  destruct (finish w links); [apply IH; assumption | exact I].
Qed.

Lemma sbs_out : forall B acc r, NoDup (map fst B) -> good_blocks B -> outcome (sbs B acc) r ->
  exists S, In S (sublists (flat_map bl (map fst B))) /\ hits g (map fst B) S = true /\
    r = Ok (acc ++ flat_map (recorded S) B) /\ (forall e, In e S -> 0 < pm e).
Proof.
  intros B; induction B as [|[[a b] w] B IH]; intros acc r ND GB O.
  - cbn in O. subst r. exists []. rewrite app_nil_r. repeat split; [left; reflexivity | intros e []].
  - inversion ND as [|? ? Hc HB]; subst. cbn [fst] in *.
    assert (GB' : good_blocks B) by (intros t Ht; apply GB; right; exact Ht).
    destruct (GB (a, b, w) (or_introl eq_refl)) as [H0 Hf]. cbn [fst snd] in H0, Hf.
    rewrite sbs_cons in O by exact H0. apply (proj1 (outcome_bind _ _ _ _ _)) in O; destruct O as (r1 & O1 & O2).
    apply sb_out in O1 as (S1 & H1 & Hh & -> & HP1); [|exact H0].
    assert (N1 : S1 <> []) by (rewrite (hit_block N sl g _ _ H1) in Hh; destruct S1; [discriminate | discriminate]).
    rewrite Hf in O2 by assumption. apply IH in O2 as (S2 & H2 & Hh2 & -> & HP2); try assumption.
    exists (S1 ++ S2). repeat split.
    + cbn [map flat_map fst]. apply sublists_app; assumption.
    + cbn [map fst]. rewrite (hits_split N sl g) by assumption. rewrite Hh, Hh2. reflexivity.
    + change (a, b) with (fst (a, b, w)) in H1, Hc. rewrite (recorded_split (a, b, w) B S1 S2 Hc H1 H2), <- app_assoc. reflexivity.
    + intros e He. apply in_app_or in He as [He|He]; auto.
Qed.

End Mark.
End Model.
