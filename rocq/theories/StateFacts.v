(** Facts about DiGraphEnsemble objects (EnsembleState.v). *)
From Verif Require Import Base Num Spec Prob Ensemble EnsembleFacts EnsembleState.
From Coq Require Import FunctionalExtensionality.

Section Facts.
Variables P X Z : Type.
Variables (p_ij : P -> X -> X -> Z -> R).
Variables (po pin : nat -> X) (z : nat -> nat -> Z) (N : nat).

(** Directional expected degree computed from scratch. *)
Definition deg_now (d : dir) (p : P) (sl : bool) : nat -> R :=
  let '(dd, o, i) := exp_degrees p_ij p po pin z N sl in
  match d with Dout => o | Din => i | Doutin => dd | Dother => fun _ => 0 end.

(** Nearest-neighbour average computed from scratch. *)
Definition nn_now (prop : nat -> R) (nd : dir) (p : P) (sl : bool) : nat -> R :=
  match exp_av_nn_prop p_ij p po pin z prop nd N sl with
  | Ok av => fun i => if Reqb (deg_now nd p sl i) 0 then av i else av i / deg_now nd p sl i
  | Raise _ => fun _ => 0
  end.

Definition edges_now (p : P) (sl : bool) : R := exp_edges p_ij p po pin z N sl.

(** Degree caches are either all missing or all up to date; so is the edge cache. *)
Definition deg_ok (p : P) (s : ens P) : Prop :=
  (a_degree s = None /\ a_out s = None /\ a_in s = None) \/
  (a_degree s = Some (deg_now Doutin p (a_selfloops s)) /\
   a_out s = Some (deg_now Dout p (a_selfloops s)) /\ a_in s = Some (deg_now Din p (a_selfloops s))).
Definition edges_ok (p : P) (s : ens P) : Prop :=
  a_edges s = None \/ a_edges s = Some (edges_now p (a_selfloops s)).
(** [b] is the self-loop option with which the cached nearest-neighbour degrees are asked for. *)
Definition nn_ok (b : bool) (p : P) (s : ens P) : Prop :=
  forall nd dd, a_nn s nd dd = None \/ a_nn s nd dd = Some (nn_now (deg_now dd p b) nd p b).

Lemma num_edges_now : forall p rc s, a_param s = Some p -> rc = true \/ edges_ok p s ->
  exists s', expected_num_edges p_ij po pin z N rc s = (Ok (edges_now p (a_selfloops s)), s') /\
    a_param s' = Some p /\ a_selfloops s' = a_selfloops s /\ edges_ok p s' /\ a_nn s' = a_nn s /\
    a_degree s' = a_degree s /\ a_out s' = a_out s /\ a_in s' = a_in s.
Proof.
  intros p rc s Hp H. unfold expected_num_edges. rewrite Hp.
  destruct (is_none (a_edges s) || rc) eqn:E.
  - eexists; split; [reflexivity|]. cbn. repeat split; auto. right; reflexivity.
  - apply orb_false_iff in E; destruct E as [E ->]. destruct H as [H|[H|H]]; [discriminate| |].
    + rewrite H in E; discriminate.
    + exists s. rewrite H. repeat split; auto. right; exact H.
Qed.

Lemma degree_of_now : forall p d rc s, a_param s = Some p -> d <> Dother ->
  rc = true \/ deg_ok p s ->
  exists s', degree_of p_ij po pin z N d rc s = (Ok (deg_now d p (a_selfloops s)), s') /\
    a_param s' = Some p /\ a_selfloops s' = a_selfloops s /\ a_edges s' = a_edges s /\ a_nn s' = a_nn s /\
    deg_ok p s'.
Proof.
  intros p d rc s Hp Hd H.
  assert (D : forall rc, is_none (a_degree s) || rc = true ->
     exists s', expected_degree p_ij po pin z N rc s = (Ok (deg_now Doutin p (a_selfloops s)), s') /\
       a_param s' = Some p /\ a_selfloops s' = a_selfloops s /\ a_edges s' = a_edges s /\ a_nn s' = a_nn s /\
       a_degree s' = Some (deg_now Doutin p (a_selfloops s)) /\ a_out s' = Some (deg_now Dout p (a_selfloops s)) /\
       a_in s' = Some (deg_now Din p (a_selfloops s))).
  { intros rc' E. unfold expected_degree. rewrite Hp, E. unfold deg_now.
    destruct (exp_degrees _ _ _ _ _ _ _) as [[dd o] i]. eexists; split; [reflexivity|]. cbn. auto 10. }
  assert (K : (exists s', degree_of p_ij po pin z N d rc s = (Ok (deg_now d p (a_selfloops s)), s') /\
     a_param s' = Some p /\ a_selfloops s' = a_selfloops s /\ a_edges s' = a_edges s /\ a_nn s' = a_nn s /\
     a_degree s' = Some (deg_now Doutin p (a_selfloops s)) /\ a_out s' = Some (deg_now Dout p (a_selfloops s)) /\
     a_in s' = Some (deg_now Din p (a_selfloops s)))).
  { destruct (Bool.bool_dec rc true) as [->|Hrc].
    - assert (E1 : is_none (a_degree s) || true = true) by apply orb_true_r.
      destruct (D true E1) as (s' & E & A1 & A2 & A3 & A4 & A5 & A6 & A7).
      exists s'. destruct d; cbn [degree_of]; unfold expected_out_degree, expected_in_degree;
        rewrite ?orb_true_r, ?E, ?A6, ?A7; try (exfalso; apply Hd; reflexivity); cbn [attr]; auto 10.
    - apply Bool.not_true_is_false in Hrc; subst rc. destruct H as [H|[(N1 & N2 & N3)|(C1 & C2 & C3)]]; [discriminate| |].
      + assert (E1 : is_none (a_degree s) || false = true) by (rewrite N1; reflexivity).
        destruct (D false E1) as (s' & E & A1 & A2 & A3 & A4 & A5 & A6 & A7).
        exists s'. destruct d; cbn [degree_of]; unfold expected_out_degree, expected_in_degree;
          rewrite ?N2, ?N3; cbn [is_none orb]; rewrite ?E, ?A6, ?A7; try (exfalso; apply Hd; reflexivity); cbn [attr]; auto 10.
      + exists s. destruct d; cbn [degree_of]; unfold expected_out_degree, expected_in_degree, expected_degree;
          rewrite ?Hp, ?C1, ?C2, ?C3; cbn [is_none orb attr]; rewrite ?C1; try (exfalso; apply Hd; reflexivity); cbn [attr]; auto 10. }
  destruct K as (s' & E & A1 & A2 & A3 & A4 & A5 & A6 & A7).
  exists s'. repeat split; try assumption. right. rewrite A2. auto.
Qed.

(** Link probabilities of the current parameter. *)
Definition prob_param (p : P) : Prop := forall i j, (i < N)%nat -> (j < N)%nat -> 0 <= p_ij p (po i) (pin j) (z i j) <= 1.
(** The dyadic factor of a vertex is the same for all partners (it is 1 in every constructor). *)
Definition plain_dyad : Prop := forall i j k, z i j = z i k.

Lemma deg_now_spec : forall d p sl v, d <> Dother -> (v < N)%nat ->
  deg_now d p sl v
  = sumn N (fun j => if Nat.eqb v j then 0 else dir_prob _ _ _ p_ij p po pin z d v j)
    + (if sl then p_ij p (po v) (pin v) (z v v) else 0).
Proof.
  intros d p sl v Hd Hv. unfold deg_now.
  pose proof (exp_out_spec _ _ _ p_ij p po pin z N sl v Hv) as Ho.
  pose proof (exp_in_spec _ _ _ p_ij p po pin z N sl v Hv) as Hi.
  pose proof (exp_deg_spec _ _ _ p_ij p po pin z N sl v Hv) as Hdd.
  unfold oview, iview, dview in *. destruct (exp_degrees _ _ _ _ _ _ _) as [[dd o] i].
  assert (S : forall f g, (forall j, (j < N)%nat -> g j = (if Nat.eqb v j then 0 else f j) + (if Nat.eqb v j then (if sl then p_ij p (po v) (pin v) (z v v) else 0) else 0)) ->
    sumn N g = sumn N (fun j => if Nat.eqb v j then 0 else f j) + (if sl then p_ij p (po v) (pin v) (z v v) else 0)).
  { intros f g H. rewrite (sumn_ext N g _ H), sumn_plus. f_equal. rewrite (sumn_delta' N v (fun _ => if sl then p_ij p (po v) (pin v) (z v v) else 0)). apply Nat.ltb_lt in Hv. rewrite Hv. reflexivity. }
  destruct d; [rewrite Ho | rewrite Hi | rewrite Hdd | exfalso; apply Hd; reflexivity]; apply S; intros j Hj;
    unfold dir_prob, union_prob, allowed; destruct (Nat.eqb_spec v j) as [<-|Hne]; cbn [negb orb];
    rewrite ?Nat.eqb_refl; cbn [negb orb]; try (destruct sl; ring).
  - destruct (Nat.eqb_spec j v) as [->|_]; [contradiction|]. cbn. ring.
Qed.

(** Where the degree vanishes, the numerator of the average vanishes: no AssertionError. *)
Lemma nn_zero : forall d p sl v prop a, prob_param p -> plain_dyad -> d <> Dother -> (v < N)%nat ->
  (sl = true -> (2 <= N)%nat) ->
  exp_av_nn_prop p_ij p po pin z prop d N sl = Ok a -> deg_now d p sl v = 0 -> a v = 0.
Proof.
  intros d p sl v prop a Hp Hz Hd Hv HN E H.
  destruct (exp_av_nn_spec _ _ _ p_ij p po pin z N prop d sl Hd HN) as (a' & E' & A).
  rewrite E in E'; inversion E'; subst a'. rewrite (A v Hv). rewrite (deg_now_spec d p sl v Hd Hv) in H.
  assert (T : forall j, (j < N)%nat -> 0 <= (if Nat.eqb v j then 0 else dir_prob _ _ _ p_ij p po pin z d v j)).
  { intros j Hj. destruct (Nat.eqb v j); [lra|]. pose proof (Hp v j Hv Hj). pose proof (Hp j v Hj Hv).
    destruct d; cbn; try lra; nra. }
  assert (S0 : 0 <= sumn N (fun j => if Nat.eqb v j then 0 else dir_prob _ _ _ p_ij p po pin z d v j))
    by (apply sumn_nonneg; exact T).
  assert (S1 : 0 <= (if sl then p_ij p (po v) (pin v) (z v v) else 0)) by (destruct sl; [apply Hp; assumption | lra]).
  assert (Z0 : sumn N (fun j => if Nat.eqb v j then 0 else dir_prob _ _ _ p_ij p po pin z d v j) = 0) by lra.
  assert (Z1 : (if sl then p_ij p (po v) (pin v) (z v v) else 0) = 0) by lra.
  replace (sumn N (fun j => if Nat.eqb v j then 0 else dir_prob _ _ _ p_ij p po pin z d v j * prop j)) with 0.
  - destruct sl; [|ring]. rewrite (Hz v (N - 2)%nat v), Z1. ring.
  - symmetry. apply sumn_zero. intros j Hj. destruct (Nat.eqb_spec v j); [reflexivity|].
    pose proof (sumn_zero_inv N _ T Z0 j Hj) as K. cbn in K.
    destruct (Nat.eqb_spec v j); [contradiction|]. rewrite K; ring.
Qed.

Definition eff (selfloops : option bool) (s : ens P) : bool :=
  match selfloops with None => a_selfloops s | Some b => b end.

Lemma set_selfloops_now : forall p sl dr s, a_param s = Some p -> dr = true \/ deg_ok p s ->
  let (dr', s') := set_selfloops sl dr s in
  a_param s' = Some p /\ a_selfloops s' = eff sl s /\ a_nn s' = a_nn s /\ a_edges s' = a_edges s /\
  (dr' = true \/ deg_ok p s') /\ (a_selfloops s' = a_selfloops s -> s' = s).
Proof.
  intros p sl dr s Hp H. unfold set_selfloops, eff. destruct sl as [b|]; [|auto 10].
  destruct (Bool.eqb b (a_selfloops s)) eqn:E.
  - apply Bool.eqb_prop in E. auto 10.
  - cbn. repeat split; auto. intros ->. rewrite Bool.eqb_reflx in E; discriminate.
Qed.

Lemma restore_now : forall p b s, a_param s = Some p -> deg_ok p s ->
  a_param (restore b s) = Some p /\ a_selfloops (restore b s) = b /\ a_nn (restore b s) = a_nn s /\
  a_edges (restore b s) = a_edges s /\ deg_ok p (restore b s).
Proof.
  intros p b s Hp H. unfold restore. destruct (Bool.eqb b (a_selfloops s)) eqn:E.
  - apply Bool.eqb_prop in E. auto.
  - cbn. repeat split; auto. left; auto.
Qed.

Lemma property_now : forall p prop nd sl dr s, a_param s = Some p -> dr = true \/ deg_ok p s ->
  prob_param p -> plain_dyad -> nd <> Dother -> (eff sl s = true -> (2 <= N)%nat) ->
  exists s', expected_av_nn_property p_ij po pin z N N prop nd sl dr s = (Ok (nn_now prop nd p (eff sl s)), s') /\
    a_param s' = Some p /\ a_selfloops s' = a_selfloops s /\ a_edges s' = a_edges s /\ a_nn s' = a_nn s /\
    deg_ok p s'.
Proof.
  intros p prop nd sl dr s Hp H Hpp Hz Hd HN. unfold expected_av_nn_property. rewrite Hp, Nat.eqb_refl. cbn [negb].
  pose proof (set_selfloops_now p sl dr s Hp H) as K. destruct (set_selfloops sl dr s) as [dr1 s1].
  destruct K as (P1 & S1 & N1 & E1 & D1 & _).
  destruct (degree_of_now p nd dr1 s1 P1 Hd D1) as (s2 & E & P2 & S2 & E2 & N2 & D2). rewrite E.
  destruct (exp_av_nn_spec _ _ _ p_ij p po pin z N prop nd (eff sl s) Hd HN) as (a & Ea & _).
  rewrite S2, S1, Ea.
  assert (F : forallb (fun i => negb (Reqb (deg_now nd p (eff sl s) i) 0) || Reqb (a i) 0) (seq 0 N) = true).
  { apply forallb_forall. intros v Hv. apply in_seq in Hv.
    destruct (Reqb_spec (deg_now nd p (eff sl s) v) 0) as [Z0|]; [|reflexivity]. cbn [negb orb].
    apply Reqb_true. apply (nn_zero nd p (eff sl s) v prop a); auto; lia. }
  rewrite F. destruct (restore_now p (a_selfloops s) s2 P2 D2) as (P3 & S3 & N3 & E3 & D3).
  exists (restore (a_selfloops s) s2). split.
  - unfold nn_now. rewrite Ea. reflexivity.
  - rewrite P3, S3, N3, E3, E2, N2, E1, N1. auto.
Qed.

Lemma with_nn_ok : forall b p s nd dd, nd <> Dother -> dd <> Dother -> nn_ok b p s ->
  nn_ok b p (with_nn s nd dd (nn_now (deg_now dd p b) nd p b)) /\
  a_nn (with_nn s nd dd (nn_now (deg_now dd p b) nd p b)) nd dd = Some (nn_now (deg_now dd p b) nd p b).
Proof.
  intros b p s nd dd Hn Hd H. split.
  - intros n d. cbn [a_nn with_nn]. destruct n, d, nd, dd; auto; exfalso; auto.
  - destruct nd, dd; cbn; auto; exfalso; auto.
Qed.

(** A cached nearest-neighbour degree does not depend on the history when it is always asked for
    with the same self-loop option [b]. *)
Lemma nn_degree_now : forall p dd nd sl dr rc s, a_param s = Some p -> dr = true \/ deg_ok p s ->
  nn_ok (eff sl s) p s \/ rc = true \/ dr = true ->
  prob_param p -> plain_dyad -> nd <> Dother -> dd <> Dother -> (eff sl s = true -> (2 <= N)%nat) ->
  exists s', expected_av_nn_degree p_ij po pin z N dd nd sl dr rc s
      = (Ok (nn_now (deg_now dd p (eff sl s)) nd p (eff sl s)), s') /\
    a_param s' = Some p /\ a_selfloops s' = a_selfloops s /\ a_edges s' = a_edges s /\
    (nn_ok (eff sl s) p s -> nn_ok (eff sl s) p s') /\ (deg_ok p s \/ dr = true \/ rc = true -> deg_ok p s').
Proof.
  intros p dd nd sl dr rc s Hp H Hnn Hpp Hz Hnd Hdd HN. unfold expected_av_nn_degree. rewrite Hp.
  destruct (is_none (a_nn s nd dd) || rc || dr) eqn:C.
  - pose proof (set_selfloops_now p sl dr s Hp H) as K. destruct (set_selfloops sl dr s) as [dr1 s1].
    destruct K as (P1 & S1 & N1 & E1 & D1 & _).
    destruct (degree_of_now p dd dr1 s1 P1 Hdd D1) as (s2 & E & P2 & S2 & E2 & N2 & D2). rewrite E, S1.
    fold (eff sl s).
    assert (He : eff (Some (eff sl s)) s2 = eff sl s) by reflexivity.
    destruct (property_now p (deg_now dd p (eff sl s)) nd (Some (eff sl s)) false s2 P2 (or_intror D2) Hpp Hz Hnd)
      as (s3 & E3 & P3 & S3 & G3 & N3 & D3); [rewrite He; exact HN|].
    rewrite E3, He. set (v := nn_now (deg_now dd p (eff sl s)) nd p (eff sl s)).
    assert (P4 : a_param (with_nn s3 nd dd v) = Some p) by exact P3.
    assert (D4 : deg_ok p (with_nn s3 nd dd v)) by exact D3.
    destruct (restore_now p (a_selfloops s) _ P4 D4) as (P5 & S5 & N5 & E5 & D5).
    assert (V : a_nn (with_nn s3 nd dd v) nd dd = Some v) by (destruct nd, dd; cbn; auto; exfalso; auto).
    eexists; split; [rewrite N5, V; reflexivity|]. rewrite P5, S5, E5. repeat split; auto.
    + cbn [a_edges with_nn]. rewrite G3, E2, E1; reflexivity.
    + intros W. assert (W3 : nn_ok (eff sl s) p s3) by (intros n d; rewrite N3, N2, N1; apply W).
      destruct (with_nn_ok (eff sl s) p s3 nd dd Hnd Hdd W3) as [W4 _].
      intros n d. rewrite N5. apply W4.
  - apply orb_false_iff in C; destruct C as [C ->]. apply orb_false_iff in C; destruct C as [C ->].
    destruct Hnn as [Hnn|[Hnn|Hnn]]; try discriminate. destruct (Hnn nd dd) as [V|V]; rewrite V in C |- *; [discriminate|].
    exists s. repeat split; auto. intros _. destruct H as [H|H]; [discriminate | exact H].
Qed.

(** ** Histories *)

Definition valid_query (b : bool) (own : bool) (q : query) : Prop :=
  match q with
  | QEdges _ => True
  | QDegree d _ => d <> Dother
  | QProperty len prop nd sl dr => nd <> Dother
  | QNNDegree dd nd sl dr rc => dd <> Dother /\ nd <> Dother /\ match sl with Some c => c | None => own end = b
  end.

(** The answer computed from scratch. *)
Definition answer_now (p : P) (own : bool) (q : query) : res answer :=
  match q with
  | QEdges _ => Ok (Scalar (edges_now p own))
  | QDegree d _ => Ok (Vector (deg_now d p own))
  | QProperty len prop nd sl _ =>
      if Nat.eqb len N then Ok (Vector (nn_now prop nd p (match sl with Some c => c | None => own end)))
      else Raise ValueError
  | QNNDegree dd nd sl _ _ =>
      let e := match sl with Some c => c | None => own end in
      Ok (Vector (nn_now (deg_now dd p e) nd p e))
  end.

Definition fresh_ok (b : bool) (p : P) (s : ens P) : Prop :=
  a_param s = Some p /\ edges_ok p s /\ deg_ok p s /\ nn_ok b p s.

Lemma new_fresh : forall b p sl, fresh_ok b p (new_ens (Some p) sl).
Proof.
  intros b p sl. split; [reflexivity|]. split; [left; reflexivity|]. split; [left; auto|]. intros n d. left; reflexivity.
Qed.

Lemma query_now : forall b p q s, (2 <= N)%nat -> prob_param p -> plain_dyad ->
  fresh_ok b p s -> valid_query b (a_selfloops s) q ->
  exists s', run_query p_ij po pin z N q s = (answer_now p (a_selfloops s) q, s') /\
    fresh_ok b p s' /\ a_selfloops s' = a_selfloops s.
Proof.
  intros b p q s HN Hpp Hz (HP & HE & HD & HNN) V. destruct q as [rc|d rc|len prop nd sl dr|dd nd sl dr rc]; cbn [run_query valid_query answer_now] in *.
  - destruct (num_edges_now p rc s HP (or_intror HE)) as (s' & E & A1 & A2 & A3 & A4 & A5 & A6 & A7).
    exists s'. unfold lift_res. rewrite E. cbn. repeat split; auto.
    + unfold deg_ok. rewrite A5, A6, A7, A2. exact HD.
    + intros n d'. rewrite A4. apply HNN.
  - destruct (degree_of_now p d rc s HP V (or_intror HD)) as (s' & E & A1 & A2 & A3 & A4 & A5).
    exists s'. unfold lift_res. rewrite E. cbn. repeat split; auto.
    + unfold edges_ok. rewrite A3, A2. exact HE.
    + intros n d'. rewrite A4. apply HNN.
  - destruct (Nat.eqb_spec len N) as [->|Hl].
    + destruct (property_now p prop nd sl dr s HP (or_intror HD) Hpp Hz V) as (s' & E & A1 & A2 & A3 & A4 & A5); [auto|].
      exists s'. unfold lift_res. rewrite E. cbn. repeat split; auto.
      * unfold edges_ok. rewrite A3, A2. exact HE.
      * intros n d'. rewrite A4. apply HNN.
    + exists s. unfold lift_res, expected_av_nn_property. rewrite HP.
      destruct (Nat.eqb_spec len N); [contradiction|]. cbn. repeat split; auto.
  - destruct V as (Vd & Vn & Vb).
    assert (He : eff sl s = b) by exact Vb.
    destruct (nn_degree_now p dd nd sl dr rc s HP (or_intror HD)) as (s' & E & A1 & A2 & A3 & A4 & A5); auto.
    { left. rewrite He. exact HNN. }
    exists s'. unfold lift_res. rewrite E. cbn. fold (eff sl s). rewrite He in *. repeat split; auto.
    unfold edges_ok. rewrite A3, A2. exact HE.
Qed.

Lemma history_now : forall b p own qs, (2 <= N)%nat -> prob_param p -> plain_dyad ->
  Forall (valid_query b own) qs ->
  forall s, fresh_ok b p s -> a_selfloops s = own ->
  fst (run_queries p_ij po pin z N qs s) = map (answer_now p own) qs /\
  a_param (snd (run_queries p_ij po pin z N qs s)) = Some p /\
  a_selfloops (snd (run_queries p_ij po pin z N qs s)) = own.
Proof.
  intros b p own qs HN Hpp Hz; induction qs as [|q qs IH]; intros V s Hs Ho.
  - cbn. repeat split; [apply Hs | exact Ho].
  - inversion V as [|? ? V1 V2]; subst. cbn [run_queries].
    destruct (query_now b p q s HN Hpp Hz Hs V1) as (s1 & E & Hs1 & Ho1). rewrite E.
    destruct (IH V2 s1 Hs1 Ho1) as (A & B & C).
    destruct (run_queries _ _ _ _ _ qs s1) as [l s2]. cbn in *. rewrite A. auto.
Qed.

(** Any single query leaves parameter and self-loop option as they were. *)
Lemma query_keeps : forall p q s, (2 <= N)%nat -> prob_param p -> plain_dyad -> a_param s = Some p ->
  match q with
  | QEdges _ => True
  | QDegree _ _ => True
  | QProperty _ _ nd sl dr => nd <> Dother /\ (dr = true \/ deg_ok p s)
  | QNNDegree dd nd sl dr rc => dd <> Dother /\ nd <> Dother /\ (dr = true \/ deg_ok p s)
  end ->
  a_param (snd (run_query p_ij po pin z N q s)) = a_param s /\
  a_selfloops (snd (run_query p_ij po pin z N q s)) = a_selfloops s.
Proof.
  intros p q s HN Hpp Hz HP V. destruct q as [rc|d rc|len prop nd sl dr|dd nd sl dr rc]; cbn [run_query] in *; unfold lift_res; cbn [snd].
  - unfold expected_num_edges. rewrite HP. destruct (is_none (a_edges s) || rc); cbn; auto.
  - assert (K : forall rc, a_param (snd (expected_degree p_ij po pin z N rc s)) = a_param s /\
       a_selfloops (snd (expected_degree p_ij po pin z N rc s)) = a_selfloops s).
    { intros rc'. unfold expected_degree. rewrite HP. destruct (is_none (a_degree s) || rc'); cbn; [|auto].
      destruct (exp_degrees _ _ _ _ _ _ _) as [[? ?] ?]; cbn; auto. }
    destruct d; cbn [degree_of]; auto; unfold expected_out_degree, expected_in_degree.
    + destruct (is_none (a_out s) || rc); cbn; auto. specialize (K rc).
      destruct (expected_degree _ _ _ _ _ rc s) as [[?|?] ?]; cbn in *; auto.
    + destruct (is_none (a_in s) || rc); cbn; auto. specialize (K rc).
      destruct (expected_degree _ _ _ _ _ rc s) as [[?|?] ?]; cbn in *; auto.
  - destruct V as [Vd Vs]. destruct (Nat.eqb_spec len N) as [->|Hl].
    + destruct (property_now p prop nd sl dr s HP Vs Hpp Hz Vd) as (s' & E & A1 & A2 & _); [auto|].
      rewrite E. cbn. rewrite A1, A2; auto.
    + unfold expected_av_nn_property. rewrite HP. destruct (Nat.eqb_spec len N); [contradiction|]. cbn. auto.
  - destruct V as (Vd & Vn & Vs). unfold expected_av_nn_degree. rewrite HP.
    destruct (is_none (a_nn s nd dd) || rc || dr) eqn:C; [|cbn; auto].
    assert (Hc : exists s', expected_av_nn_degree p_ij po pin z N dd nd sl dr true s
        = (Ok (nn_now (deg_now dd p (eff sl s)) nd p (eff sl s)), s') /\
       a_param s' = Some p /\ a_selfloops s' = a_selfloops s).
    { destruct (nn_degree_now p dd nd sl dr true s HP Vs) as (s' & E & A1 & A2 & _); auto. exists s'; auto. }
    destruct Hc as (s' & E & A1 & A2). unfold expected_av_nn_degree in E. rewrite HP, orb_true_r in E. cbn [orb] in E.
    rewrite E. cbn. rewrite A1, A2; auto.
Qed.
End Facts.
