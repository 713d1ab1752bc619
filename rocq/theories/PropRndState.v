(** Property C83: RandomDiGraph objects — the inherited average degree of the neighbours with its cache, histories of
    calls, and the class of the spark module. *)
From Coq Require Import FunctionalExtensionality.
From Verif Require Import Base Num Spec Prob Ensemble EnsembleFacts EnsembleProps EnsembleState Random RandomFacts PropRandom
  RndState Spark SparkFacts SparkConfusion SparkLib PropSpark.
Import Num Spec.

Lemma set_self : forall s b, (if Bool.eqb b (r_selfloops s) then s else with_rself s b) = with_rself s b.
Proof. intros [N c re rw rd rp] b. cbn. destruct b, c; reflexivity. Qed.
Lemma self_self : forall s b c, with_rself (with_rself s b) c = with_rself s c.
Proof. reflexivity. Qed.
Lemma self_same : forall s, with_rself s (r_selfloops s) = s.
Proof. intros []; reflexivity. Qed.

Lemma set_option : forall s sl, match sl with None => s | Some b => if Bool.eqb b (r_selfloops s) then s else with_rself s b end
  = with_rself s (option_or sl (r_selfloops s)).
Proof. intros s [b|]; cbn [option_or]; [apply set_self | symmetry; apply self_same]. Qed.

(** [rlink d p] is the probability of a link of kind [d]. *)
Definition rlink (d : dir) (p : R) : nat -> nat -> R :=
  match d with Dout => out_link (fun _ _ => p) | Din => in_link (fun _ _ => p) | _ => either_link (fun _ _ => p) end.

Lemma degree_value : forall s p q d, r_param s = Some (Fin p, q) -> d <> Dother ->
  exists f, rnd_degree_of d s = Ok f /\ (exists x, (forall v, f v = Fin x) /\
    forall v, (v < r_N s)%nat -> x = nb_degree (r_N s) (r_selfloops s) (rlink d p) v).
Proof.
  intros s p q d Hs Hd.
  assert (K : exists f x, rnd_degree_of d s = Ok f /\ forall v, f v = Fin x).
  { destruct d; [| | |congruence]; unfold rnd_degree_of, rnd_in_degree, rnd_out_degree, rnd_degree; rewrite Hs;
      destruct (r_selfloops s); eexists _, _; (split; [reflexivity|]); intros v; reflexivity. }
  destruct K as (f & x & E & V). exists f. split; [exact E|]. exists x. split; [exact V|].
  intros v Hv. destruct (C47_degrees s p q v Hs Hv) as (d0 & o & i & E1 & E2 & E3 & V1 & V2 & V3).
  assert (F : f v = Fin (nb_degree (r_N s) (r_selfloops s) (rlink d p) v)).
  { destruct d; [| | |congruence]; cbn [rnd_degree_of rlink] in *; congruence. }
  rewrite V in F. congruence.
Qed.

(** The average degree of the neighbours: for every kind of degree and of neighbourhood it is the ratio of the expected
    total degree of the neighbours and the expected degree — which is the degree of any vertex.  The object is
    unchanged except for the stored result.
    Full statement: also for the neighbourhood along either direction with self-loops, where RandomDiGraph counts the
    vertex itself with the wrong probability ([C83_either_refuted]). *)
Theorem C83_nn_degree_partial : forall o p q dd nd sl dr rc, r_param (o_rnd o) = Some (Fin p, q) -> 0 < p <= 1 -> (2 <= r_N (o_rnd o))%nat ->
  dd <> Dother -> o_nn o nd dd = None \/ dr = true \/ rc = true ->
  let N := r_N (o_rnd o) in let b := option_or sl (r_selfloops (o_rnd o)) in
  nd = Dout \/ nd = Din \/ (nd = Doutin /\ b = false) ->
  exists a o', obj_av_nn_degree rnd_av_nn_num dd nd sl dr rc o = (Ok a, o') /\ o_rnd o' = o_rnd o /\ o_nn o' nd dd = Some a /\
  forall v, (v < N)%nat ->
    a v = Fin (nb_total N b (rlink nd p) (nb_degree N b (rlink dd p)) v / nb_degree N b (rlink nd p) v) /\
    a v = Fin (nb_degree N b (rlink dd p) v).
Proof.
  intros o p q dd nd sl dr rc Hp Hr HN Hdd Hc N b Hnd.
  assert (C : is_none (o_nn o nd dd) || rc || dr = true).
  { destruct Hc as [-> | [-> | ->]]; [reflexivity | apply orb_true_r | rewrite orb_true_r; reflexivity]. }
  unfold obj_av_nn_degree. rewrite Hp, C. rewrite set_option. fold b. cbv zeta.
  set (s := with_rself (o_rnd o) b).
  assert (Hs : r_param s = Some (Fin p, q)) by exact Hp.
  destruct (degree_value s p q dd Hs Hdd) as (f & Ef & x & Vf & Vx). change (r_N s) with N in *. change (r_selfloops s) with b in *.
  rewrite Ef.
  assert (Fx : f = fun _ => Fin x) by (apply functional_extensionality; exact Vf).
  assert (S1 : match sl with None => r_selfloops (o_rnd o) | Some b0 => b0 end = b) by (destruct sl; reflexivity). rewrite S1.
  assert (K : exists a, rnd_av_nn_num N f nd (Some b) s = (Ok a, s) /\ forall v, (v < N)%nat ->
     a v = Fin (nb_total N b (rlink nd p) (nb_degree N b (rlink dd p)) v / nb_degree N b (rlink nd p) v)).
  { assert (K0 : forall v, (v < N)%nat -> exists a, rnd_av_nn_num N f nd (Some b) s = (Ok a, s) /\
      a v = Fin (nb_total N b (rlink nd p) (fun _ => x) v / nb_degree N b (rlink nd p) v)).
    { intros v Hv. destruct (C38_random s p q (fun _ => x) nd (Some b) v Hs Hr HN) as (a & Ea & Va); [destruct Hnd as [->|[->|[-> ->]]]; auto | exact Hv |].
      exists a. split; [rewrite Fx; exact Ea|]. cbv zeta in Va. cbn [option_or] in Va. rewrite Va. unfold rlink. destruct nd; reflexivity. }
    destruct (K0 0%nat ltac:(lia)) as (a & Ea & _). exists a. split; [exact Ea|]. intros v Hv. destruct (K0 v Hv) as (a' & Ea' & Va).
    rewrite Ea in Ea'. injection Ea' as <-. rewrite Va. do 2 f_equal. unfold nb_total. apply sumn_ext. intros j Hj. rewrite <- (Vx j Hj). reflexivity. }
  destruct K as (a & Ea & Va). rewrite Ea. exists a, (store_nn (with_rnd o (o_rnd o)) nd dd a).
  assert (R : (if Bool.eqb (r_selfloops (o_rnd o)) (r_selfloops s) then s else with_rself s (r_selfloops (o_rnd o))) = o_rnd o).
  { rewrite set_self. unfold s. rewrite self_self. apply self_same. }
  rewrite R.
  assert (Sn : forall o1, o_nn (store_nn o1 nd dd a) nd dd = Some a).
  { intros o1. destruct Hnd as [->|[->|[-> _]]]; destruct dd; try reflexivity; congruence. }
  rewrite Sn. split; [reflexivity|]. split; [reflexivity|]. split; [reflexivity|].
  intros v Hv. split; [apply Va; exact Hv|]. rewrite (Va v Hv). f_equal.
  assert (T : nb_total N b (rlink nd p) (nb_degree N b (rlink dd p)) v = nb_degree N b (rlink nd p) v * nb_degree N b (rlink dd p) v).
  { unfold nb_total at 1. rewrite (sumn_ext N _ (fun j => (if allowed b v j then rlink nd p v j else 0) * x)).
    2:{ intros j Hj. rewrite <- (Vx j Hj). destruct (allowed b v j); ring. }
    rewrite sumn_scal_r. rewrite <- (Vx v Hv). unfold nb_degree. reflexivity. }
  rewrite T.
  assert (P : 0 < nb_degree N b (rlink nd p) v).
  { unfold nb_degree.
    assert (Q : forall i j, 0 < rlink nd p i j) by (intros i j; unfold rlink, out_link, in_link, either_link; destruct nd; try lra; destruct (Nat.eqb i j); nra).
    assert (Nn : forall j, 0 <= (if allowed b v j then rlink nd p v j else 0)) by (intros j; destruct (allowed b v j); [left; apply Q | lra]).
    set (w := if Nat.eqb v 0 then 1%nat else 0%nat).
    assert (Hw : (w < N)%nat /\ allowed b v w = true).
    { unfold w, allowed. destruct (Nat.eqb_spec v 0) as [->|Hv0]; [split; [unfold N; lia | reflexivity]|].
      split; [unfold N; lia|]. destruct (Nat.eqb_spec v 0); [lia|reflexivity]. }
    destruct Hw as [Hw Aw].
    apply Rlt_le_trans with (rlink nd p v w); [apply Q|].
    pose proof (sumn_ge_term N (fun j => if allowed b v j then rlink nd p v j else 0) w (fun j _ => Nn j) Hw) as Hle. cbv beta in Hle. rewrite Aw in Hle. lra. }
  field. lra.
Qed.
Print Assumptions C83_nn_degree_partial.

Example C83_nn_degree_case : let o := new_obj (mkRnd 3 true None None None (Some (Fin (1/2), Fin 0))) in
  r_param (o_rnd o) = Some (Fin (1/2), Fin 0) /\ o_nn o Din Doutin = None /\ nb_degree 3 true (rlink Doutin (1/2)) 0 = 2.
Proof. cbv zeta. split; [reflexivity|]. split; [reflexivity|]. unfold nb_degree, rlink, either_link, allowed. cbn. lra. Qed.

(** Along either direction with self-loops: 6/5 where every vertex has out-degree 1. *)
Theorem C83_either_refuted : exists o a o', r_param (o_rnd o) = Some (Fin (1/2), Fin 0) /\ r_N (o_rnd o) = 2%nat /\
  obj_av_nn_degree rnd_av_nn_num Dout Doutin (Some true) false false o = (Ok a, o') /\
  (forall v, (v < 2)%nat -> nb_degree 2 true (rlink Dout (1/2)) v = 1) /\ a 0%nat = Fin (6/5).
Proof.
  exists (new_obj (mkRnd 2 true None None None (Some (Fin (1/2), Fin 0)))). eexists _, _.
  split; [reflexivity|]. split; [reflexivity|]. split; [|split].
  - unfold obj_av_nn_degree, new_obj, rnd_degree_of, rnd_av_nn_num, rnd_out_degree, rnd_degree. cbn.
    rewrite !Reqb_false by lra. cbn. reflexivity.
  - intros v Hv. unfold nb_degree, rlink, out_link, allowed. cbn. rewrite !orb_true_r. lra.
  - cbn beta. f_equal. field.
Qed.
Print Assumptions C83_either_refuted.

(** ** Histories *)

Lemma av_state : forall len prop nd b s, rnd_av_nn_num len prop nd (Some b) (with_rself s b)
  = (fst (rnd_av_nn_num len prop nd (Some b) (with_rself s b)), with_rself s b).
Proof.
  intros len prop nd b s. unfold rnd_av_nn_num. cbn [r_param with_rself r_N r_selfloops]. rewrite eqb_reflx.
  destruct (r_param s) as [[p q]|]; [|reflexivity]. destruct (Nat.eqb len (r_N s)); cbn [negb]; [|reflexivity].
  destruct (match nd with Dout => _ | Din => _ | Doutin => _ | Dother => _ end); [|reflexivity].
  destruct (forallb _ _); [|reflexivity]. cbn [fst r_selfloops with_rself]. rewrite eqb_reflx. reflexivity.
Qed.

Lemma av_option : forall len prop nd sl s, exists c, snd (rnd_av_nn_num len prop nd sl s) = with_rself s c.
Proof.
  intros len prop nd sl s. unfold rnd_av_nn_num. destruct (r_param s) as [[p q]|] eqn:E; [|exists (r_selfloops s); rewrite self_same; reflexivity].
  destruct (Nat.eqb len (r_N s)); cbn [negb]; [|exists (r_selfloops s); rewrite self_same; reflexivity].
  rewrite set_option. destruct (match nd with Dout => _ | Din => _ | Doutin => _ | Dother => _ end); [|eexists; reflexivity].
  destruct (forallb _ _); [|eexists; reflexivity]. cbn [snd]. rewrite set_self, self_self. eexists; reflexivity.
Qed.

Section History.
Variable b : bool.

Definition fresh_nn (dd nd : dir) (s : rnd) : res (nat -> num) :=
  do deg <- rnd_degree_of dd (with_rself s b) ; fst (rnd_av_nn_num (r_N s) deg nd (Some b) (with_rself s b)).

Lemma nn_step : forall dd nd dr rc o, r_param (o_rnd o) <> None -> is_none (o_nn o nd dd) || rc || dr = true ->
  obj_av_nn_degree rnd_av_nn_num dd nd (Some b) dr rc o
  = match fresh_nn dd nd (o_rnd o) with
    | Ok a => (Ok a, store_nn o nd dd a)
    | Raise e => (Raise e, with_rnd o (with_rself (o_rnd o) b))
    end.
Proof.
  intros dd nd dr rc o Hp C. unfold obj_av_nn_degree, fresh_nn. destruct (r_param (o_rnd o)); [|congruence]. rewrite C. cbv zeta.
  rewrite set_self. destruct (rnd_degree_of dd (with_rself (o_rnd o) b)) as [deg|e] eqn:D; cbn [bind]; [|reflexivity].
  change (r_N (with_rself (o_rnd o) b)) with (r_N (o_rnd o)). rewrite av_state. cbn [fst].
  destruct (fst (rnd_av_nn_num (r_N (o_rnd o)) deg nd (Some b) (with_rself (o_rnd o) b))) as [a|e] eqn:A; [|reflexivity].
  rewrite set_self, self_self, self_same. assert (W : with_rnd o (o_rnd o) = o) by (destruct o; reflexivity). rewrite W.
  assert (Nd : nd <> Dother).
  { intros ->. unfold rnd_av_nn_num in A. cbn [r_param with_rself r_N r_selfloops] in A. destruct (r_param (o_rnd o)) as [[? ?]|]; [|discriminate].
    rewrite Nat.eqb_refl in A. cbn [negb] in A. discriminate. }
  assert (Dd : dd <> Dother) by (intros ->; discriminate).
  destruct nd, dd; try congruence; reflexivity.
Qed.

Definition nn_truth (o : robj) : Prop := forall nd dd a, o_nn o nd dd = Some a ->
  r_param (o_rnd o) <> None /\ fresh_nn dd nd (o_rnd o) = Ok a.

Lemma truth_self : forall o c, nn_truth o -> nn_truth (with_rnd o (with_rself (o_rnd o) c)).
Proof. intros o c H nd dd a E. destruct (H nd dd a E) as [P V]. split; [exact P | exact V]. Qed.

Lemma truth_store : forall o nd dd a, nn_truth o -> r_param (o_rnd o) <> None -> fresh_nn dd nd (o_rnd o) = Ok a -> nn_truth (store_nn o nd dd a).
Proof.
  intros o nd dd a H P V nd' dd' a' E. unfold store_nn in *. cbn [o_nn o_rnd] in *.
  destruct nd', dd'; try exact (H _ _ _ E); destruct nd; try exact (H _ _ _ E); destruct dd; try exact (H _ _ _ E);
    injection E as <-; split; assumption.
Qed.

(** The allowed calls: the parameter is not changed and the average degree of the neighbours is asked for with the
    option [b]. *)
Definition regular (e : revent) : Prop :=
  match e with RFit | RSetParam _ _ => False | RNNDegree _ _ sl _ _ => sl = Some b | _ => True end.

(** The same calls on an object without stored values: they are dropped before every call. *)
Fixpoint fresh_run (l : list revent) (s : rnd) : list (res ranswer) * rnd :=
  match l with
  | [] => ([], s)
  | e :: t => let (a, o) := obj_step rnd_av_nn_num e (new_obj s) in let (r, s2) := fresh_run t (o_rnd o) in (a :: r, s2)
  end.

Lemma fresh_truth : forall s, nn_truth (new_obj s).
Proof. intros s nd dd a E. discriminate. Qed.

Lemma history : forall l o, nn_truth o -> (forall e, In e l -> regular e) ->
  fst (obj_run rnd_av_nn_num l o) = fst (fresh_run l (o_rnd o)) /\ o_rnd (snd (obj_run rnd_av_nn_num l o)) = snd (fresh_run l (o_rnd o)).
Proof.
  induction l as [|e l IH]; intros o T Hl; [split; reflexivity|]. cbn [obj_run fresh_run].
  assert (S : exists a o1 o2, obj_step rnd_av_nn_num e o = (a, o1) /\ obj_step rnd_av_nn_num e (new_obj (o_rnd o)) = (a, o2) /\
     o_rnd o1 = o_rnd o2 /\ nn_truth o1).
  { pose proof (Hl e (or_introl eq_refl)) as G. destruct e as [|d|len prop nd sl|dd nd sl dr rc| |p q|c]; cbn [regular] in G; try contradiction; cbn [obj_step].
    - eexists _, _, _. split; [reflexivity|]. split; [reflexivity|]. split; [reflexivity | exact T].
    - eexists _, _, _. split; [reflexivity|]. split; [reflexivity|]. split; [reflexivity | exact T].
    - destruct (av_option len (fun i => Fin (prop i)) nd sl (o_rnd o)) as (c & Hc). cbn [o_rnd new_obj].
      destruct (rnd_av_nn_num len (fun i => Fin (prop i)) nd sl (o_rnd o)) as [r s']. cbn [snd] in Hc. subst s'.
      eexists _, _, _. split; [reflexivity|]. split; [reflexivity|]. split; [reflexivity | apply truth_self, T].
    - subst sl. destruct (r_param (o_rnd o)) as [pq|] eqn:P.
      2:{ exists (Raise GenericException), o, (new_obj (o_rnd o)). unfold obj_av_nn_degree. cbn [o_rnd new_obj]. rewrite P.
          split; [reflexivity|]. split; [reflexivity|]. split; [reflexivity | exact T]. }
      assert (P0 : r_param (o_rnd o) <> None) by congruence.
      rewrite (nn_step dd nd dr rc (new_obj (o_rnd o)) P0 eq_refl). cbn [o_rnd new_obj].
      destruct (is_none (o_nn o nd dd) || rc || dr) eqn:C.
      + rewrite (nn_step dd nd dr rc o P0 C). destruct (fresh_nn dd nd (o_rnd o)) as [a|x] eqn:V; cbn [fst snd];
          eexists _, _, _; (split; [reflexivity|]; split; [reflexivity|]; split; [reflexivity|]); [apply truth_store; assumption | apply truth_self, T].
      + unfold obj_av_nn_degree. rewrite P, C. destruct (o_nn o nd dd) as [a|] eqn:E; [|discriminate].
        destruct (T _ _ _ E) as [_ V]. rewrite V. cbn [attr]. eexists _, _, _. split; [reflexivity|]. split; [reflexivity|]. split; [reflexivity | exact T].
    - eexists _, _, _. split; [reflexivity|]. split; [reflexivity|]. split; [reflexivity | apply truth_self, T]. }
  destruct S as (a & o1 & o2 & E1 & E2 & Es & T1). rewrite E1, E2, <- Es.
  destruct (IH o1 T1 (fun e' H => Hl e' (or_intror H))) as [I1 I2].
  destruct (obj_run rnd_av_nn_num l o1) as [r1 p1]. destruct (fresh_run l (o_rnd o1)) as [r2 p2]. cbn [fst snd] in *. subst. split; reflexivity.
Qed.
End History.

(** Full statement: the same for every sequence of calls; false ([C83_history_refuted], [C83_refit_refuted]).
    What holds: when all calls for the average degree of the neighbours have the same self-loop option and the
    parameter is not changed, every answer, and the object at the end, are those of an object that stores nothing. *)
Theorem C83_history_partial : forall b l s, (forall e, In e l -> regular b e) ->
  fst (obj_run rnd_av_nn_num l (new_obj s)) = fst (fresh_run l s) /\ o_rnd (snd (obj_run rnd_av_nn_num l (new_obj s))) = snd (fresh_run l s).
Proof. intros b l s H. exact (history b l (new_obj s) (fresh_truth b s) H). Qed.
Print Assumptions C83_history_partial.

Example C83_history_case : forall e, In e [REdges; RNNDegree Dout Din (Some true) false false; RSetLoops true; RDegree Doutin;
    RNNDegree Dout Din (Some true) true false; RProperty 3 (fun i => INR i) Din None] -> regular true e.
Proof. intros e H. cbn [In] in H. decompose [or] H; subst; cbn; auto; contradiction. Qed.

Lemma nn_out_out : forall b o, r_param (o_rnd o) = Some (Fin (1/2), Fin 0) -> r_N (o_rnd o) = 2%nat -> o_nn o Dout Dout = None ->
  exists a, obj_av_nn_degree rnd_av_nn_num Dout Dout (Some b) false false o = (Ok a, store_nn o Dout Dout a) /\
  a 0%nat = Fin (if b then 1 else 1/2).
Proof.
  intros b o Hp HN Hc. destruct (C83_nn_degree_partial o (1/2) (Fin 0) Dout Dout (Some b) false false Hp ltac:(lra) ltac:(lia) ltac:(discriminate) (or_introl Hc) (or_introl eq_refl))
    as (a & o' & E & _ & _ & V). exists a. cbn [option_or] in V.
  rewrite (nn_step b Dout Dout false false o) in E |- * by (rewrite ?Hp, ?Hc; congruence || reflexivity).
  destruct (fresh_nn b Dout Dout (o_rnd o)) as [a'|]; [|discriminate]. injection E as -> <-. split; [reflexivity|].
  rewrite HN in V. destruct (V 0%nat ltac:(lia)) as [_ ->]. f_equal. unfold nb_degree, rlink, out_link, allowed. destruct b; cbn; lra.
Qed.

(** The stored value is given although the option is another one, *)
Theorem C83_history_refuted : exists s a, r_param s = Some (Fin (1/2), Fin 0) /\ r_N s = 2%nat /\
  fst (obj_run rnd_av_nn_num [RNNDegree Dout Dout (Some false) false false; RNNDegree Dout Dout (Some true) false false] (new_obj s))
  = [Ok (RVector a); Ok (RVector a)] /\ a 0%nat = Fin (1/2) /\ nb_degree 2 true (rlink Dout (1/2)) 0 = 1.
Proof.
  set (s := mkRnd 2 false None None None (Some (Fin (1/2), Fin 0))).
  destruct (nn_out_out false (new_obj s) eq_refl eq_refl eq_refl) as (a & E & V). exists s, a.
  split; [reflexivity|]. split; [reflexivity|]. split; [|split; [exact V | unfold nb_degree, rlink, out_link, allowed; cbn; lra]].
  cbn [obj_run obj_step]. rewrite E. reflexivity.
Qed.
Print Assumptions C83_history_refuted.

(** and although the parameter is another one. *)
Theorem C83_refit_refuted : exists s a, r_param s = Some (Fin (1/2), Fin 0) /\ r_N s = 2%nat /\
  fst (obj_run rnd_av_nn_num [RNNDegree Dout Dout (Some false) false false; RSetParam (Fin 1) (Fin 0); RNNDegree Dout Dout (Some false) false false] (new_obj s))
  = [Ok (RVector a); Ok RNothing; Ok (RVector a)] /\ a 0%nat = Fin (1/2) /\ nb_degree 2 false (rlink Dout 1) 0 = 1.
Proof.
  set (s := mkRnd 2 false None None None (Some (Fin (1/2), Fin 0))).
  destruct (nn_out_out false (new_obj s) eq_refl eq_refl eq_refl) as (a & E & V). exists s, a.
  split; [reflexivity|]. split; [reflexivity|]. split; [|split; [exact V | unfold nb_degree, rlink, out_link, allowed; cbn; lra]].
  cbn [obj_run obj_step]. rewrite E. reflexivity.
Qed.
Print Assumptions C83_refit_refuted.

(** In general: whatever is asked, fitted or assigned in between, a cached nearest-neighbour degree is the answer until one of the two
    recomputations is asked for. *)
Definition keeps (e : revent) : Prop := match e with RNNDegree _ _ _ _ _ => False | _ => True end.

Theorem C83_cached : forall o nd dd v l sl s, o_nn o nd dd = Some v -> (forall e, In e l -> keeps e) ->
  s = o_rnd (snd (obj_run rnd_av_nn_num l o)) ->
  obj_av_nn_degree rnd_av_nn_num dd nd sl false false (snd (obj_run rnd_av_nn_num l o))
  = (match r_param s with Some _ => Ok v | None => Raise GenericException end, snd (obj_run rnd_av_nn_num l o)).
Proof.
  assert (K : forall l o, (forall e, In e l -> keeps e) -> o_nn (snd (obj_run rnd_av_nn_num l o)) = o_nn o).
  { induction l as [|e l IH]; intros o H; [reflexivity|]. cbn [obj_run].
    assert (E : o_nn (snd (obj_step rnd_av_nn_num e o)) = o_nn o).
    { pose proof (H e (or_introl eq_refl)) as He. destruct e; cbn [obj_step keeps] in *; try contradiction; try reflexivity.
      - destruct (rnd_av_nn_num _ _ _ _ _). reflexivity.
      - destruct (rnd_fit (o_rnd o)); reflexivity. }
    destruct (obj_step rnd_av_nn_num e o) as [a o1]. cbn [snd] in E. specialize (IH o1 (fun e' He' => H e' (or_intror He'))).
    destruct (obj_run rnd_av_nn_num l o1). cbn [snd] in *. congruence. }
  intros o nd dd v l sl s Hv Hl ->. unfold obj_av_nn_degree. rewrite (K l o Hl), Hv. cbn [is_none orb attr].
  destruct (r_param _); reflexivity.
Qed.
Print Assumptions C83_cached.

(** A cached value survives a fit that changes the probability from 1/2 to 1. *)
Example C83_cached_case : let o := mkObj (mkRnd 2 false (Some (2, false)) None None (Some (Fin (1/2), Fin 0))) (fun _ _ => Some (fun _ => Fin (1/2))) in
  o_nn o Dout Dout = Some (fun _ => Fin (1/2)) /\ (forall e, In e [RFit; REdges; RSetLoops true] -> keeps e) /\
  r_param (o_rnd (snd (obj_run rnd_av_nn_num [RFit; REdges; RSetLoops true] o))) = Some (Fin 1, Fin 0).
Proof.
  intros o. split; [reflexivity|]. split; [intros e H; cbn in H; decompose [or] H; subst; cbn; auto; contradiction|].
  assert (E : rnd_fit (o_rnd o) = Ok (with_rparam (o_rnd o) (Fin 1) (Fin 0))).
  { unfold rnd_fit, o, scalar_div, pairs_of. cbn. destruct (Reqb_spec ((1 + 1) * (1 + 1 - 1)) 0) as [Z|Z]; [lra|]. cbn. repeat f_equal. field. }
  cbn [obj_run obj_step]. rewrite E. reflexivity.
Qed.

(** ** The class of the spark module *)

Lemma nopp_mul : forall a c, nmul (nopp a) c = nopp (nmul a c).
Proof.
  assert (I : forall s x, inf_times (negb s) x = nopp (inf_times s x)).
  { intros s x. unfold inf_times. destruct (Reqb x 0); [reflexivity|]. destruct s, (Rltb 0 x); reflexivity. }
  assert (J : forall s x, inf_times s (- x) = nopp (inf_times s x)).
  { intros s x. unfold inf_times. destruct (Reqb_spec x 0) as [->|H]; [rewrite Ropp_0, Reqb_true by reflexivity; reflexivity|].
    rewrite (Reqb_false (- x) 0) by lra. destruct (Rltb_spec 0 x), (Rltb_spec 0 (- x)); try lra; destruct s; reflexivity. }
  intros [x| | |] [y| | |]; cbn; try reflexivity; try (rewrite J; reflexivity); try (exact (I true _)); try (exact (I false _)).
  f_equal. ring.
Qed.

Lemma finish : forall (deg : nat -> num) (l : list nat) (a a' : nat -> num) (t s : rnd), (forall i, a i = a' i) ->
  (if forallb (fun i => negb (is0 (deg i)) || is0 (a i)) l then (Ok (fun i => if is0 (deg i) then a i else ndiv (a i) (deg i)), t) else (Raise AssertionError, s))
  = (if forallb (fun i => negb (is0 (deg i)) || is0 (a' i)) l then (Ok (fun i => if is0 (deg i) then a' i else ndiv (a' i) (deg i)), t) else (Raise AssertionError, s)).
Proof. intros deg l a a' t s H. apply functional_extensionality in H. rewrite H. reflexivity. Qed.

(** Every answer of an object of the spark module is that of an object of the sparse module, after the same calls. *)
Theorem C83_spark : forall l s, obj_run sp_rnd_av_nn l (new_obj s) = obj_run rnd_av_nn_num l (new_obj s).
Proof.
  assert (E : sp_rnd_av_nn = rnd_av_nn_num); [|rewrite E; reflexivity].
  apply functional_extensionality; intros len. apply functional_extensionality; intros prop.
  apply functional_extensionality; intros nd. apply functional_extensionality; intros sl. apply functional_extensionality; intros s.
  unfold sp_rnd_av_nn, rnd_av_nn_num. destruct (r_param s) as [[p q]|]; [|reflexivity].
  destruct (Nat.eqb_spec len (r_N s)) as [Hl|]; cbn [negb]; [|reflexivity]. rewrite set_option. cbn [r_N with_rself]. subst len.
  unfold rnd_degree_of. destruct nd; try reflexivity;
  match goal with |- context [match ?d with Ok _ => _ | Raise _ => _ end] => destruct d; [|reflexivity] end;
  apply (finish _ (seq 0 (r_N s))); intros i; unfold nsub; rewrite nopp_mul; reflexivity.
Qed.
Print Assumptions C83_spark.

(** ** Confusion matrix (spark module, inherited) *)

(** All pairs have the same probability: at a threshold up to [p] all pairs are predicted to be links, above it none. *)
Theorem C83_confusion : forall p N req B g l sl, p_blocks N req = Ok B -> square_arg N g -> no_stored_zeros g ->
  exists c, confusion_matrix (fun _ _ => p) N B (fun _ => 1) (fun _ => 1) g (ThArray l) sl = Ok (c, length l) /\
  let links := length (filter (fun e => nonzero g (fst e) (snd e)) (pairs N sl)) in
  let others := length (filter (fun e => negb (nonzero g (fst e) (snd e))) (pairs N sl)) in
  forall k, (k < length l)%nat ->
    (ngeb (Fin p) (nth k l NaN) = true -> tp_of c k = links /\ fp_of c k = others /\ tn_of c k = 0%nat /\ fn_of c k = 0%nat) /\
    (ngeb (Fin p) (nth k l NaN) = false -> tp_of c k = 0%nat /\ fp_of c k = 0%nat /\ tn_of c k = others /\ fn_of c k = links).
Proof.
  intros p N req B g l sl HB Hg Hz. destruct (C63_method (fun _ _ => p) N req B (fun _ => 1) (fun _ => 1) g l sl HB Hg Hz) as (c & E & V).
  exists c. split; [exact E|]. cbv zeta. intros k Hk. destruct (V k Hk) as (V1 & V2 & V3).
  assert (T : (length (filter (fun e => nonzero g (fst e) (snd e)) (pairs N sl)) + length (filter (fun e => negb (nonzero g (fst e) (snd e))) (pairs N sl)) = length (pairs N sl))%nat).
  { clear V V1 V2 V3 E. induction (pairs N sl) as [|e t IH]; [reflexivity|]. cbn [filter length]. destruct (nonzero g (fst e) (snd e)); cbn [negb length]; lia. }
  split; intros G; rewrite G in V3.
  - assert (F : forall t : list (nat * nat), filter (fun _ => true) t = t) by (induction t as [|e t IH]; [reflexivity|]; cbn [filter]; rewrite IH; reflexivity).
    rewrite F in V3. lia.
  - assert (F : forall t : list (nat * nat), filter (fun _ => false) t = []) by (induction t as [|e t IH]; [reflexivity|]; cbn [filter]; exact IH).
    rewrite F in V3. cbn [length] in V3. lia.
Qed.
Print Assumptions C83_confusion.

Example C83_confusion_case : p_blocks 3 None = Ok 2%nat /\
  square_arg 3 (Stored 3 3 (fun i => if Nat.eqb i 0 then [(1%nat, 2); (2%nat, -1)] else [])) /\
  no_stored_zeros (Stored 3 3 (fun i => if Nat.eqb i 0 then [(1%nat, 2); (2%nat, -1)] else [])) /\
  ngeb (Fin (1/2)) (Fin (1/4)) = true /\ ngeb (Fin (1/2)) (Fin (3/4)) = false.
Proof.
  destruct C63_method_case as (H1 & H2 & H3 & _). split; [exact H1|]. split; [exact H2|]. split; [exact H3|].
  unfold ngeb, nleb, nltb, neqb. rewrite (Rltb_true (1/4)) by lra. rewrite (Rltb_false (3/4)) by lra. rewrite (Reqb_false (3/4)) by lra.
  split; reflexivity.
Qed.

(** Without thresholds (or with their number) all of them are the same number p^(ln 10), below p for p < 1: the answer
    says at every threshold that all pairs are predicted to be links; with p = 0 the call fails. *)
Theorem C83_default : forall p N req B g th n sl, p_blocks N req = Ok B -> square_arg N g -> no_stored_zeros g ->
  th = ThNone /\ n = 20%nat \/ th = ThInt (Z.of_nat n) ->
  (0 < p < 1 -> exists c, confusion_matrix (fun _ _ => p) N B (fun _ => 1) (fun _ => 1) g th sl = Ok (c, n) /\
     forall k, (k < n)%nat ->
       tp_of c k = length (filter (fun e => nonzero g (fst e) (snd e)) (pairs N sl)) /\
       fp_of c k = length (filter (fun e => negb (nonzero g (fst e) (snd e))) (pairs N sl)) /\ tn_of c k = 0%nat /\ fn_of c k = 0%nat) /\
  (p = 0 -> confusion_matrix (fun _ _ => p) N B (fun _ => 1) (fun _ => 1) g th sl = Raise ValueError).
Proof.
  intros p N req B g th n sl HB Hg Hz Hth.
  assert (A : thresholds_of (fun _ _ => p) N (fun _ => 1) (fun _ => 1) th
     = guard (Rltb 0 p && Rltb 0 p) ValueError (Ok (map Fin (logspace (ln p) (ln p) n)))).
  { destruct Hth as [[-> ->]| ->]; [reflexivity|]. cbn [thresholds_of]. assert (Z.of_nat n <? 0 = false)%Z as -> by (apply Z.ltb_ge; lia).
    rewrite Nat2Z.id. reflexivity. }
  split.
  - intros Hp. set (l := map Fin (logspace (ln p) (ln p) n)).
    assert (Ln : length l = n) by (unfold l, logspace; rewrite !map_length, seq_length; reflexivity).
    assert (T : thresholds_of (fun _ _ => p) N (fun _ => 1) (fun _ => 1) th = Ok l).
    { rewrite A. unfold guard. rewrite (Rltb_true 0 p) by lra. reflexivity. }
    destruct (C83_confusion p N req B g l sl HB Hg Hz) as (c & E & V). exists c. split.
    + unfold confusion_matrix in *. cbn [thresholds_of bind] in E. rewrite T. cbn [bind]. rewrite Ln in E. rewrite Ln. exact E.
    + intros k Hk. apply V; [lia|].
      assert (X : nth k l NaN = Fin (Rpower 10 (ln p))).
      { assert (I : In (nth k l NaN) l) by (apply nth_In; lia).
        remember (nth k l NaN) as v eqn:Ev. unfold l, logspace in I. rewrite map_map in I.
        apply in_map_iff in I as (x & I & _). rewrite <- I. f_equal. f_equal.
        destruct (Nat.eqb n 1); [reflexivity|]. unfold Rminus, Rdiv. rewrite Rplus_opp_r. ring. }
      rewrite X. unfold ngeb, nleb, nltb. rewrite Rltb_true; [reflexivity|]. unfold Rpower. rewrite <- (exp_ln p) at 2 by lra. apply exp_increasing.
      assert (ln p < 0) by (rewrite <- ln_1; apply ln_increasing; lra). pose proof ln_10_gt_1. nra.
  - intros ->. unfold confusion_matrix. rewrite A. unfold guard. rewrite (Rltb_false 0 0) by lra. reflexivity.
Qed.
Print Assumptions C83_default.

Example C83_default_case : p_blocks 3 None = Ok 2%nat /\ 0 < 1/2 < 1 /\ ThInt 7 = ThInt (Z.of_nat 7) /\
  square_arg 3 (Stored 3 3 (fun i => if Nat.eqb i 0 then [(1%nat, 2); (2%nat, -1)] else [])) /\
  no_stored_zeros (Stored 3 3 (fun i => if Nat.eqb i 0 then [(1%nat, 2); (2%nat, -1)] else [])).
Proof.
  destruct C63_method_case as (H1 & H2 & H3 & _). split; [exact H1|]. split; [lra|]. split; [reflexivity|]. split; [exact H2|exact H3].
Qed.

(** Hence no automatic threshold tells the pairs from one another even when p itself is asked to be one of them. *)
Theorem C83_default_refuted : exists p l, 0 < p < 1 /\ thresholds_of (fun _ _ => p) 2 (fun _ => 1) (fun _ => 1) ThNone = Ok (map Fin l) /\
  length l = 20%nat /\ forall t, In t l -> t < p.
Proof.
  exists (1/2), (logspace (ln (1/2)) (ln (1/2)) 20). split; [lra|]. split; [|split].
  - cbn [thresholds_of amax amin]. unfold guard. rewrite (Rltb_true 0 (1/2)) by lra. reflexivity.
  - unfold logspace. rewrite map_length, seq_length. reflexivity.
  - intros t Ht. unfold logspace in Ht. apply in_map_iff in Ht as (k & <- & _). cbn [Nat.eqb].
    assert (E0 : ln (1 / 2) + INR k * ((ln (1 / 2) - ln (1 / 2)) / INR (20 - 1)) = ln (1/2)) by (unfold Rminus, Rdiv; rewrite Rplus_opp_r; ring).
    rewrite E0. unfold Rpower. rewrite <- (exp_ln (1/2)) at 2 by lra. apply exp_increasing.
    assert (ln (1/2) < 0) by (rewrite <- ln_1; apply ln_increasing; lra). pose proof ln_10_gt_1. nra.
Qed.
Print Assumptions C83_default_refuted.
