(** Property C77: objects of the conditional model. *)
From Verif Require Import Base Num Spec Kernels KernelFacts MultiKernels Prob Ensemble EnsembleFacts
  EnsembleProps EnsembleState LayerProps LayerLib Aggregate CondDist Conditional CondFacts CondModel CondMeasures CondPairs
  CondProps CondState StateProps PropConditional.
From Coq Require Import Sorting.Permutation FunctionalExtensionality.

Section Facts.
Variables (d : num) (x y : nat -> R) (N : nat) (g : nat -> nat) (adj : nat -> list (nat * R)).

(** The measures of the object are those of the conditional ensemble. *)
Lemma degrees_ok : forall sl, setting d x y N g adj sl ->
  (forall a b, (a < num_groups N g)%nat -> (b < num_groups N g)%nat -> macro_link adj a b = macro_link adj b a) ->
  exists dd o i, cond_exp_degrees d (F x) (F y) N g adj sl = Ok (dd, o, i) /\
    forall v, (v < N)%nat ->
      o v = ensemble_mean N sl (given d x y N g adj sl) (fun G => g_out N G v) /\
      i v = ensemble_mean N sl (given d x y N g adj sl) (fun G => g_in N G v) /\
      dd v <= ensemble_mean N sl (given d x y N g adj sl) (fun G => g_deg N G v) /\
      (macro_link adj (g v) (g v) = false -> dd v = ensemble_mean N sl (given d x y N g adj sl) (fun G => g_deg N G v)).
Proof.
  intros sl HS Hsym. destruct (C68_out_in_partial _ _ _ _ _ _ _ HS Hsym) as (dd & o & i & E & H).
  destruct (C68_undirected_partial _ _ _ _ _ _ _ HS Hsym) as (dd' & o' & i' & E' & H').
  rewrite E in E'. inversion E'; subst dd' o' i'. exists dd, o, i. split; [exact E|]. intros v Hv.
  destruct (H v Hv) as [H1 H2]. destruct (H' v Hv) as [H3 H4]. tauto.
Qed.

Lemma inherited_prob : forall i j, nonneg d -> (forall i, 0 <= x i) -> (forall i, 0 <= y i) ->
  inherited_p_ij d (Fin (x i)) (Fin (y j)) (Fin 1) = inv_prob d x y i j.
Proof.
  intros i j Hd Hx Hy. rewrite inv_prob_pm by assumption. symmetry. unfold inherited_p_ij.
  change (toR (inv_p_ij d (Fin (x i)) (Fin (y j)) (Fin 1))) with (p_pair d (F x) (F y) i j). apply eq_sym. exact (p_pair_pm d x y Hd Hx Hy (i, j)).
Qed.

(** Caches that are missing or correct. *)
Definition fresh_or (s : ens num) (sl : bool) : Prop :=
  a_param s = Some d /\ a_selfloops s = sl /\
  (a_edges s = None \/ exists v, cond_exp_edges d (F x) (F y) N g adj sl = Ok v /\ a_edges s = Some v) /\
  ((a_degree s = None /\ a_out s = None /\ a_in s = None) \/
   exists dd o i, cond_exp_degrees d (F x) (F y) N g adj sl = Ok (dd, o, i) /\
     a_degree s = Some dd /\ a_out s = Some o /\ a_in s = Some i).
End Facts.

(** * C77: the measures of an object are those of the conditional ensemble, whatever was asked before *)

(** What a query about links or degrees has to answer. *)
Definition measured (d : num) (x y : nat -> R) (N : nat) (g : nat -> nat) (adj : nat -> list (nat * R)) (sl : bool)
    (q : query) (r : res answer) : Prop :=
  let mean := ensemble_mean N sl (given d x y N g adj sl) in
  match q with
  | QEdges _ => r = Ok (Scalar (mean (g_edges N)))
  | QDegree Dout _ => exists a, r = Ok (Vector a) /\ forall v, (v < N)%nat -> a v = mean (fun G => g_out N G v)
  | QDegree Din _ => exists a, r = Ok (Vector a) /\ forall v, (v < N)%nat -> a v = mean (fun G => g_in N G v)
  | QDegree Doutin _ => exists a, r = Ok (Vector a) /\ forall v, (v < N)%nat ->
      a v <= mean (fun G => g_deg N G v) /\ (macro_link adj (g v) (g v) = false -> a v = mean (fun G => g_deg N G v))
  | QDegree Dother _ => r = Raise ValueError
  | _ => True
  end.

Definition link_query (q : query) : Prop := match q with QEdges _ | QDegree _ _ => True | _ => False end.

Section Step.
Variables (d : num) (x y : nat -> R) (N : nat) (g : nat -> nat) (adj : nat -> list (nat * R)) (sl : bool).
Hypothesis HS : setting d x y N g adj sl.
Hypothesis Hsym : forall a b, (a < num_groups N g)%nat -> (b < num_groups N g)%nat -> macro_link adj a b = macro_link adj b a.

Lemma edges_step : forall r s, fresh_or d x y N g adj s sl ->
  exists s', c_num_edges (F x) (F y) N g adj r s = (Ok (ensemble_mean N sl (given d x y N g adj sl) (g_edges N)), s') /\
    fresh_or d x y N g adj s' sl.
Proof.
  intros r s (H1 & H2 & H3 & H4). pose proof (C68_edges _ _ _ _ _ _ _ HS) as E. unfold c_num_edges. rewrite H1.
  destruct (is_none (a_edges s) || r) eqn:Er.
  - rewrite H2, E. cbv zeta. cbn [with_edges a_edges attr]. eexists. split; [reflexivity|].
    unfold fresh_or, with_edges. cbn. rewrite H1, H2. repeat split; try assumption. right. eexists. split; [exact E | reflexivity].
  - apply Bool.orb_false_iff in Er as [Er _]. destruct H3 as [H3|(v & Ev & H3)]; [rewrite H3 in Er; discriminate|].
    rewrite E in Ev. inversion Ev; subst v. rewrite H3. cbn [attr]. exists s. split; [reflexivity|].
    repeat split; try assumption. right. eexists. split; [exact E | exact H3].
Qed.

Lemma degree_step : forall r s, fresh_or d x y N g adj s sl ->
  exists dd o i s', cond_exp_degrees d (F x) (F y) N g adj sl = Ok (dd, o, i) /\
    c_degree (F x) (F y) N g adj r s = (Ok dd, s') /\ c_out_degree (F x) (F y) N g adj r s = (Ok o, s') /\
    c_in_degree (F x) (F y) N g adj r s = (Ok i, s') /\ fresh_or d x y N g adj s' sl /\
    a_degree s' = Some dd /\ a_out s' = Some o /\ a_in s' = Some i /\ a_selfloops s' = a_selfloops s /\ a_param s' = a_param s.
Proof.
  intros r s (H1 & H2 & H3 & H4). destruct (degrees_ok d x y N g adj sl HS Hsym) as (dd & o & i & E & _).
  assert (K : r = true \/ r = false /\ (a_degree s = None /\ a_out s = None /\ a_in s = None) ->
    exists s', c_degree (F x) (F y) N g adj r s = (Ok dd, s') /\ c_out_degree (F x) (F y) N g adj r s = (Ok o, s') /\
      c_in_degree (F x) (F y) N g adj r s = (Ok i, s') /\ fresh_or d x y N g adj s' sl /\
      a_degree s' = Some dd /\ a_out s' = Some o /\ a_in s' = Some i /\ a_selfloops s' = a_selfloops s /\ a_param s' = a_param s).
  { intros K. exists (with_degrees s (Some dd) (Some o) (Some i)).
    assert (T : is_none (a_degree s) || r = true /\ is_none (a_out s) || r = true /\ is_none (a_in s) || r = true).
    { destruct K as [-> | (-> & -> & -> & ->)]; [rewrite !Bool.orb_true_r; tauto | cbn; tauto]. }
    destruct T as (T1 & T2 & T3). unfold c_out_degree, c_in_degree, c_degree. rewrite H1, T1, T2, T3, H2, E.
    cbv zeta. cbn [with_degrees a_degree a_out a_in attr]. repeat split; cbn; try assumption; try reflexivity.
    right. exists dd, o, i. repeat split. exact E. }
  exists dd, o, i. destruct r.
  - destruct (K (or_introl eq_refl)) as (s' & HK). exists s'. tauto.
  - destruct H4 as [H4|(dd' & o' & i' & E' & A1 & A2 & A3)].
    + destruct (K (or_intror (conj eq_refl H4))) as (s' & HK). exists s'. tauto.
    + rewrite E in E'. inversion E'; subst dd' o' i'. exists s. unfold c_out_degree, c_in_degree, c_degree.
      rewrite H1, A1, A2, A3. cbn [is_none orb attr]. repeat split; try assumption.
      right. exists dd, o, i. repeat split; assumption.
Qed.

Lemma query_step : forall q s, fresh_or d x y N g adj s sl -> link_query q ->
  measured d x y N g adj sl q (fst (c_query (F x) (F y) N g adj q s)) /\
  fresh_or d x y N g adj (snd (c_query (F x) (F y) N g adj q s)) sl.
Proof.
  intros q s Hs Hq. destruct q as [r|dr r|? ? ? ? ?|? ? ? ? ?]; try contradiction; cbn [c_query measured].
  - destruct (edges_step r s Hs) as (s' & E & H'). rewrite E. split; [reflexivity | exact H'].
  - destruct (degree_step r s Hs) as (dd & o & i & s' & E & E1 & E2 & E3 & H' & _).
    destruct (degrees_ok d x y N g adj sl HS Hsym) as (dd' & o' & i' & E' & HD). rewrite E in E'. inversion E'; subst dd' o' i'.
    destruct dr; cbn [c_degree_of].
    + rewrite E2. split; [|exact H']. exists o. split; [reflexivity|]. intros v Hv. apply HD. exact Hv.
    + rewrite E3. split; [|exact H']. exists i. split; [reflexivity|]. intros v Hv. apply HD. exact Hv.
    + rewrite E1. split; [|exact H']. exists dd. split; [reflexivity|]. intros v Hv. apply HD in Hv. tauto.
    + split; [reflexivity | exact Hs].
Qed.
End Step.

(** The full statement is equality for the undirected degree of every vertex, and an answer that is correct when the
    aggregate graph is not symmetric; the first is refuted by C68_undirected_refuted, the second by C59_asymmetric_refuted. *)
Theorem C77_history_partial : forall d x y N g adj sl qs, setting d x y N g adj sl ->
  (forall a b, (a < num_groups N g)%nat -> (b < num_groups N g)%nat -> macro_link adj a b = macro_link adj b a) ->
  Forall link_query qs ->
  let r := c_queries (F x) (F y) N g adj qs (new_ens (Some d) sl) in
  Forall2 (measured d x y N g adj sl) qs (fst r) /\ a_param (snd r) = Some d /\ a_selfloops (snd r) = sl.
Proof.
  intros d x y N g adj sl qs HS Hsym Hq.
  assert (H0 : fresh_or d x y N g adj (new_ens (Some d) sl) sl) by (repeat split; left; try reflexivity; repeat split).
  revert H0. generalize (new_ens (Some d) sl). induction Hq as [|q t Hq Ht IH]; intros s Hs; cbv zeta; cbn [c_queries].
  - destruct Hs as (H1 & H2 & _). cbn. repeat split; try assumption. constructor.
  - destruct (query_step d x y N g adj sl HS Hsym q s Hs Hq) as [M Hs'].
    destruct (c_query (F x) (F y) N g adj q s) as [a s1]. cbn [fst snd] in *.
    specialize (IH s1 Hs'). cbv zeta in IH. destruct (c_queries (F x) (F y) N g adj t s1) as [l s2]. cbn [fst snd] in *.
    destruct IH as (I1 & I2 & I3). repeat split; try assumption. constructor; assumption.
Qed.
Print Assumptions C77_history_partial.

Example C77_history_case : setting (Fin 1) (fun _ => 1) (fun _ => 1) 4 half four_adj false /\
  (forall a b, (a < num_groups 4 half)%nat -> (b < num_groups 4 half)%nat -> macro_link four_adj a b = macro_link four_adj b a) /\
  Forall link_query [QDegree Din false; QEdges true; QDegree Doutin false; QDegree Dout true; QEdges false].
Proof. destruct C59_symmetric_case as [H1 H2]. split; [exact H1|]. split; [exact H2|]. repeat constructor. Qed.

(** An object without parameter answers no query. *)
Theorem C77_unfitted : forall prop_out prop_in N g adj q sl, (forall b, q <> QDegree Dother b) ->
  fst (c_query prop_out prop_in N g adj q (new_ens None sl)) = Raise GenericException.
Proof. intros. destruct q as [r|[] r|? ? ? ? ?|? ? ? ? ?]; try reflexivity. exfalso. exact (H r eq_refl). Qed.
Print Assumptions C77_unfitted.

Example C77_unfitted_case : forall b, QEdges true <> QDegree Dother b.
Proof. discriminate. Qed.

(** ** Neighbour averages *)

Definition out_or_in (nd : dir) (G : list (nat * nat)) (N v : nat) : R :=
  match nd with Dout => g_out N G v | _ => g_in N G v end.

(** The value and the condition under which there is one.  The full statement divides the conditional expected total,
    not the unconditional one; C77_constant_refuted and C77_assertion_refuted show that the difference matters. *)
Theorem C77_value_partial : forall d x y N g adj s prop nd sl, a_param s = Some d -> nd = Dout \/ nd = Din ->
  let b := effective sl (a_selfloops s) in
  setting d x y N g adj b ->
  (forall u w, (u < num_groups N g)%nat -> (w < num_groups N g)%nat -> macro_link adj u w = macro_link adj w u) ->
  (b = true -> (2 <= N)%nat) ->
  let D v := ensemble_mean N b (given d x y N g adj b) (fun G => out_or_in nd G N v) in
  let T v := nb_total N b (dir_link nd (inv_prob d x y)) prop v in
  let r := c_av_nn_property (F x) (F y) N g adj N prop nd sl true s in
  ((forall v, (v < N)%nat -> D v = 0 -> T v = 0) ->
     exists a, fst r = Ok a /\ a_selfloops (snd r) = a_selfloops s /\
       forall v, (v < N)%nat -> a v = if Reqb (D v) 0 then 0 else T v / D v) /\
  ((exists v, (v < N)%nat /\ D v = 0 /\ T v <> 0) -> fst r = Raise AssertionError /\ a_selfloops (snd r) = b).
Proof.
  intros d x y N g adj s prop nd sl Hp Hnd b HS Hsym HN D T r.
  pose proof HS as (Hd & Hx & Hy & _ & _).
  set (s1 := with_selfloops s b).
  assert (Hs1 : snd (set_selfloops sl true s) = s1 /\ fst (set_selfloops sl true s) = true).
  { unfold s1, b, effective, set_selfloops. destruct sl as [c|].
    - destruct (Bool.eqb_spec c (a_selfloops s)) as [->|]; cbn; destruct s; split; reflexivity.
    - cbn. destruct s; split; reflexivity. }
  (* recomputing does not look at the caches *)
  assert (KD : exists o s', c_degree_of (F x) (F y) N g adj nd true s1 = (Ok o, s') /\
     (forall v, (v < N)%nat -> o v = D v) /\ a_selfloops s' = b).
  { destruct (degrees_ok d x y N g adj b HS Hsym) as (dd & o & i & E & HD).
    destruct Hnd as [-> | ->]; cbn [c_degree_of]; unfold c_out_degree, c_in_degree, c_degree; rewrite Bool.orb_true_r;
      replace (a_param s1) with (Some d) by (unfold s1; cbn; congruence); rewrite Bool.orb_true_r;
      change (a_selfloops s1) with b; rewrite E; cbv zeta; cbn [with_degrees a_degree a_out a_in attr].
    - exists o. eexists. split; [reflexivity|]. split; [|reflexivity]. intros v Hv. apply HD. exact Hv.
    - exists i. eexists. split; [reflexivity|]. split; [|reflexivity]. intros v Hv. apply HD. exact Hv. }
  destruct KD as (o & s' & EK & HO & HB).
  assert (KT : exists t, exp_av_nn_prop inherited_p_ij d (F x) (F y) (fun _ _ => Fin 1) prop nd N b = Ok t /\
     forall v, (v < N)%nat -> t v = T v).
  { destruct (exp_av_nn_spec num num num inherited_p_ij d (F x) (F y) (fun _ _ => Fin 1) N prop nd b) as (t & Et & Ht);
      [destruct Hnd; congruence | exact HN|].
    exists t. split; [exact Et|]. intros v Hv. rewrite (Ht v Hv). unfold T, nb_total.
    assert (Dg : forall j, j = v -> dir_link nd (inv_prob d x y) v j = inv_prob d x y v v) by (intros j ->; destruct Hnd as [-> | ->]; reflexivity).
    transitivity (sumn N (fun j => (if Nat.eqb v j then 0 else dir_link nd (inv_prob d x y) v j * prop j) + (if Nat.eqb v j then (if b then inv_prob d x y v j * prop j else 0) else 0))).
    - rewrite sumn_plus. f_equal.
      + apply sumn_ext. intros j Hj. destruct (Nat.eqb_spec v j); [reflexivity|]. f_equal.
        destruct Hnd as [-> | ->]; cbn; apply inherited_prob; assumption.
      + rewrite sumn_delta'. apply Nat.ltb_lt in Hv; rewrite Hv. destruct b; [|reflexivity]. f_equal. apply inherited_prob; assumption.
    - apply sumn_ext. intros j Hj. unfold allowed. destruct (Nat.eqb_spec v j) as [<-|Hn]; cbn [negb orb].
      + destruct b; [rewrite (Dg v eq_refl); ring | ring].
      + ring. }
  destruct KT as (t & ET & HT).
  assert (ER : r = if forallb (fun i => negb (Reqb (o i) 0) || Reqb (t i) 0) (seq 0 N)
                   then (Ok (fun i => if Reqb (o i) 0 then t i else t i / o i), restore (a_selfloops s) s')
                   else (Raise AssertionError, s')).
  { unfold r, c_av_nn_property. rewrite Hp, Nat.eqb_refl. cbn [negb]. cbv zeta.
    destruct Hs1 as [A1 A2]. destruct (set_selfloops sl true s) as [rr s0]. cbn [fst snd] in A1, A2. subst s0 rr.
    rewrite EK, HB, ET. reflexivity. }
  split.
  - intros HZ. rewrite ER.
    replace (forallb _ _) with true.
    + eexists. split; [reflexivity|]. split.
      * cbn [snd]. unfold restore. destruct (Bool.eqb_spec (a_selfloops s) (a_selfloops s')) as [E|E]; [symmetry; exact E | reflexivity].
      * intros v Hv. cbv beta. rewrite (HO v Hv), (HT v Hv). destruct (Reqb_spec (D v) 0); [apply HZ; assumption | reflexivity].
    + symmetry. apply forallb_forall. intros v Hv. apply in_seq in Hv. rewrite HO, HT by lia.
      destruct (Reqb_spec (D v) 0) as [E|]; [|reflexivity]. destruct (Reqb_spec (T v) 0) as [|n]; [reflexivity|].
      exfalso. apply n. apply HZ; [lia | exact E].
  - intros (v & Hv & E0 & Hn). rewrite ER.
    replace (forallb _ _) with false; [split; [reflexivity | exact HB]|].
    symmetry. apply Bool.not_true_is_false. intros HF. rewrite forallb_forall in HF.
    specialize (HF v). rewrite HO, HT in HF by assumption. specialize (HF ltac:(apply in_seq; lia)).
    destruct (Reqb_spec (D v) 0); [|contradiction]. destruct (Reqb_spec (T v) 0); [contradiction | discriminate].
Qed.
Print Assumptions C77_value_partial.

(** Two vertices in one group: the conditional degree of each vertex is positive. *)
Lemma self_cp : forall a b, cp (Fin 1) (fun _ => 1) (fun _ => 1) 2 (fun _ => 0%nat) self_adj false a b = / (1 + exp (- (1))).
Proof.
  intros a b. unfold cp. change (macro_link self_adj 0 0) with true. cbv iota.
  unfold empty_prob. change (block 2 false (fun _ => 0%nat) (0%nat, 0%nat)) with [(0, 1); (1, 0)]%nat.
  unfold pm. cbn [prodl fst snd survive fold_right map]. replace (1 * (1 * 1)) with 1 by ring.
  pose proof (exp_pos (- (1))). pose proof (exp_neg_lt1 1). field. split; nra.
Qed.

Lemma self_sym : forall a b, (a < num_groups 2 (fun _ => 0%nat))%nat -> (b < num_groups 2 (fun _ => 0%nat))%nat ->
  macro_link self_adj a b = macro_link self_adj b a.
Proof. change (num_groups 2 (fun _ => 0%nat)) with 1%nat. intros a b Ha Hb. replace a with 0%nat by lia. replace b with 0%nat by lia. reflexivity. Qed.

Lemma self_degree : forall v, (v < 2)%nat ->
  ensemble_mean 2 false (given (Fin 1) (fun _ => 1) (fun _ => 1) 2 (fun _ => 0%nat) self_adj false) (fun G => g_out 2 G v)
  = / (1 + exp (- (1))).
Proof.
  intros v Hv. pose proof self_setting as (Hd & Hx & Hy & Hadj & Hpos). unfold given. rewrite cond_mean_row by assumption.
  destruct v as [|[|v]]; [| |lia]; cbn [sumn]; unfold allowed; cbn [Nat.eqb negb orb]; rewrite !self_cp; ring.
Qed.

Example C77_value_case :
  let d := Fin 1 in let one := fun _ : nat => 1 in let g := fun _ : nat => 0%nat in
  setting d one one 2 g self_adj (effective None (a_selfloops (new_ens (Some d) false))) /\
  (forall u w, (u < num_groups 2 g)%nat -> (w < num_groups 2 g)%nat -> macro_link self_adj u w = macro_link self_adj w u) /\
  (forall v, (v < 2)%nat -> 0 < ensemble_mean 2 false (given d one one 2 g self_adj false) (fun G => out_or_in Dout G 2 v)).
Proof.
  cbv zeta. split; [exact self_setting|]. split; [exact self_sym|]. intros v Hv. cbn [out_or_in]. rewrite self_degree by exact Hv.
  apply Rinv_0_lt_compat. pose proof (exp_pos (- (1))). lra.
Qed.

(** A property equal to 1 everywhere averages to less than 1 over the neighbours. *)
Theorem C77_constant_refuted : exists d x y N g adj s a s', setting d x y N g adj (a_selfloops s) /\
  (forall u w, (u < num_groups N g)%nat -> (w < num_groups N g)%nat -> macro_link adj u w = macro_link adj w u) /\
  a_param s = Some d /\
  0 < ensemble_mean N (a_selfloops s) (given d x y N g adj (a_selfloops s)) (fun G => g_out N G 0) /\
  c_av_nn_property (F x) (F y) N g adj N (fun _ => 1) Dout None true s = (Ok a, s') /\ 0 < a 0%nat < 1.
Proof.
  set (s := new_ens (Some (Fin 1)) false).
  pose proof (C77_value_partial (Fin 1) (fun _ => 1) (fun _ => 1) 2 (fun _ => 0%nat) self_adj s (fun _ => 1) Dout None eq_refl
    (or_introl eq_refl) self_setting self_sym ltac:(discriminate)) as [H _].
  cbv zeta in H. change (effective None (a_selfloops s)) with false in H. cbn [out_or_in] in H.
  pose proof (exp_pos (- (1))) as E1. pose proof (exp_neg_lt1 1 ltac:(lra)) as E2. set (e := exp (- (1))) in *.
  assert (P : 0 < / (1 + e)) by (apply Rinv_0_lt_compat; lra).
  destruct H as (a & Ea & _ & Ha).
  { intros v Hv E0. rewrite self_degree in E0 by exact Hv. fold e in E0. lra. }
  match type of Ea with fst ?r = _ => destruct r as [ra s'] eqn:Er end. cbn [fst] in Ea. subst ra.
  exists (Fin 1), (fun _ => 1), (fun _ => 1), 2%nat, (fun _ => 0%nat), self_adj, s, a, s'.
  split; [exact self_setting|]. split; [exact self_sym|]. split; [reflexivity|].
  change (a_selfloops s) with false. rewrite self_degree by lia. fold e. split; [exact P|]. split; [exact Er|].
  rewrite (Ha 0%nat ltac:(lia)), self_degree by lia. fold e.
  destruct (Reqb_spec (/ (1 + e)) 0) as [Z|_]; [lra|].
  unfold nb_total. cbn [sumn dir_link]. unfold out_link, allowed. cbn [Nat.eqb negb orb]. rewrite unit_prob. fold e.
  replace ((0 + 0 + (1 - e) * 1) / / (1 + e)) with (1 - e * e) by (field; lra). nra.
Qed.
Print Assumptions C77_constant_refuted.

(** Three vertices, each its own group; the aggregate graph links the first two in both directions. *)
Definition three_adj (a : nat) : list (nat * R) := match a with 0%nat => [(1%nat, 1)] | 1%nat => [(0%nat, 1)] | _ => [] end.

Lemma three_setting : forall sl, setting (Fin 1) (fun _ => 1) (fun _ => 1) 3 (fun i => i) three_adj sl.
Proof.
  intros sl. repeat split; try (intros; simpl; lra).
  - destruct a as [|[|a]]; cbn; repeat constructor; simpl; tauto.
  - change (num_groups 3 (fun i => i)) with 3%nat in *. destruct a as [|[|a]]; cbn; intros e; [intros [<-|[]]; cbn; lia | intros [<-|[]]; cbn; lia | intros []].
  - apply (prob_aggregate_pos _ _ _ _ _ _ [(0, 1); (1, 0)]%nat); [apply unit_prob_range | | reflexivity].
    destruct sl; unfold all_graphs.
    + change (pairs 3 true) with [(0, 0); (0, 1); (0, 2); (1, 0); (1, 1); (1, 2); (2, 0); (2, 1); (2, 2)]%nat. cbn. tauto.
    + change (pairs 3 false) with [(0, 1); (0, 2); (1, 0); (1, 2); (2, 0); (2, 1)]%nat. cbn. tauto.
Qed.

Lemma three_sym : forall a b, (a < num_groups 3 (fun i => i))%nat -> (b < num_groups 3 (fun i => i))%nat ->
  macro_link three_adj a b = macro_link three_adj b a.
Proof.
  change (num_groups 3 (fun i => i)) with 3%nat. intros a b Ha Hb.
  destruct a as [|[|[|a]]]; [| | |lia]; (destruct b as [|[|[|b]]]; [| | |lia]); reflexivity.
Qed.

(** A vertex of a group without links has no neighbour in the conditional ensemble, but the unconditional
    probabilities are positive: the call raises AssertionError.  When it was made for another self-loop option, the
    object keeps that option. *)
Theorem C77_assertion_refuted : exists d x y N g adj s b, setting d x y N g adj b /\ setting d x y N g adj (a_selfloops s) /\
  (forall u w, (u < num_groups N g)%nat -> (w < num_groups N g)%nat -> macro_link adj u w = macro_link adj w u) /\
  a_param s = Some d /\
  fst (c_av_nn_property (F x) (F y) N g adj N (fun _ => 1) Dout None true s) = Raise AssertionError /\
  fst (c_av_nn_property (F x) (F y) N g adj N (fun _ => 1) Dout (Some b) true s) = Raise AssertionError /\
  a_selfloops (snd (c_av_nn_property (F x) (F y) N g adj N (fun _ => 1) Dout (Some b) true s)) <> a_selfloops s.
Proof.
  set (s := new_ens (Some (Fin 1)) false).
  assert (K : forall sl, let b := effective sl false in
    let r := c_av_nn_property (F (fun _ => 1)) (F (fun _ => 1)) 3 (fun i => i) three_adj 3 (fun _ => 1) Dout sl true s in
    fst r = Raise AssertionError /\ a_selfloops (snd r) = b).
  { intros sl b r.
    apply (C77_value_partial (Fin 1) (fun _ => 1) (fun _ => 1) 3 (fun i => i) three_adj s (fun _ => 1) Dout sl eq_refl
      (or_introl eq_refl) (three_setting _) three_sym ltac:(lia)).
    change (effective sl (a_selfloops s)) with b.
    exists 2%nat. split; [lia|]. cbn [out_or_in]. split.
    - pose proof (three_setting b) as (Hd & Hx & Hy & Hadj & Hpos). unfold given. rewrite cond_mean_row by (try assumption; lia).
      apply sumn_zero. intros j Hj. unfold cp. change (macro_link three_adj 2 j) with false. destruct (allowed b 2 j); reflexivity.
    - apply Rgt_not_eq. apply Rlt_gt. unfold nb_total. cbn [sumn dir_link]. unfold out_link, allowed. cbn [Nat.eqb negb orb].
      pose proof (unit_prob_range 2 0). pose proof (unit_prob_range 2 1). pose proof (unit_prob_range 2 2). destruct b; lra. }
  exists (Fin 1), (fun _ => 1), (fun _ => 1), 3%nat, (fun i => i), three_adj, s, true.
  split; [apply three_setting|]. split; [apply three_setting|]. split; [exact three_sym|]. split; [reflexivity|].
  destruct (K None) as [K1 _]. destruct (K (Some true)) as [K2 K3]. split; [exact K1|]. split; [exact K2|].
  rewrite K3. discriminate.
Qed.
Print Assumptions C77_assertion_refuted.
