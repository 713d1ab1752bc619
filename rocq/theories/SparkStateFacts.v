(** Objects whose cached measures come from arbitrary computations; used to compare the objects of the
    spark module with one another, with the single-process objects and with the specification. *)
From Coq Require Import ZArith FunctionalExtensionality.
From Verif Require Import Base Num Spec Prob Ensemble EnsembleFacts EnsembleState StateFacts Spark SparkFacts SparkMeasures SparkState.

Section Machine.
Variables (P : Type) (N : nat).
Variables (tot : P -> bool -> R) (dgs : P -> bool -> degs) (nnf : P -> (nat -> R) -> dir -> bool -> res (nat -> R)).

Definition g_num_edges (recompute : bool) (s : ens P) : res R * ens P :=
  match a_param s with
  | None => (Raise GenericException, s)
  | Some param =>
      let s' := if is_none (a_edges s) || recompute then with_edges s (tot param (a_selfloops s)) else s in
      (attr (a_edges s'), s')
  end.
Definition g_degree (recompute : bool) (s : ens P) : res (nat -> R) * ens P :=
  match a_param s with
  | None => (Raise GenericException, s)
  | Some param =>
      let s' := if is_none (a_degree s) || recompute
                then let '(d, o, i) := dgs param (a_selfloops s) in with_degrees s (Some d) (Some o) (Some i)
                else s in
      (attr (a_degree s'), s')
  end.
Definition g_out_degree (recompute : bool) (s : ens P) : res (nat -> R) * ens P :=
  if is_none (a_out s) || recompute then
    match g_degree recompute s with
    | (Raise e, s') => (Raise e, s')
    | (Ok _, s') => (attr (a_out s'), s')
    end
  else (attr (a_out s), s).
Definition g_in_degree (recompute : bool) (s : ens P) : res (nat -> R) * ens P :=
  if is_none (a_in s) || recompute then
    match g_degree recompute s with
    | (Raise e, s') => (Raise e, s')
    | (Ok _, s') => (attr (a_in s'), s')
    end
  else (attr (a_in s), s).
Definition g_degree_of (d : dir) (recompute : bool) (s : ens P) : res (nat -> R) * ens P :=
  match d with
  | Dout => g_out_degree recompute s
  | Din => g_in_degree recompute s
  | Doutin => g_degree recompute s
  | Dother => (Raise ValueError, s)
  end.
Definition g_av_nn_property (len : nat) (prop : nat -> R) (ndir : dir) (selfloops : option bool)
    (deg_recompute : bool) (s : ens P) : res (nat -> R) * ens P :=
  match a_param s with
  | None => (Raise GenericException, s)
  | Some param =>
      if negb (Nat.eqb len N) then (Raise ValueError, s)
      else
        let tmp_self := a_selfloops s in
        let (deg_recompute, s) := set_selfloops selfloops deg_recompute s in
        match g_degree_of ndir deg_recompute s with
        | (Raise e, s) => (Raise e, s)
        | (Ok deg, s) =>
            match nnf param prop ndir (a_selfloops s) with
            | Raise e => (Raise e, s)
            | Ok av_nn =>
                if forallb (fun i => negb (Reqb (deg i) 0) || Reqb (av_nn i) 0) (seq 0 N)
                then (Ok (fun i => if Reqb (deg i) 0 then av_nn i else av_nn i / deg i), restore tmp_self s)
                else (Raise AssertionError, s)
            end
        end
  end.
Definition g_av_nn_degree (ddir ndir : dir) (selfloops : option bool) (deg_recompute recompute : bool)
    (s : ens P) : res (nat -> R) * ens P :=
  match a_param s with
  | None => (Raise GenericException, s)
  | Some param =>
      if is_none (a_nn s ndir ddir) || recompute || deg_recompute then
        let tmp_self := a_selfloops s in
        let sl := match selfloops with None => a_selfloops s | Some b => b end in
        let (deg_recompute, s) := set_selfloops selfloops deg_recompute s in
        match g_degree_of ddir deg_recompute s with
        | (Raise e, s) => (Raise e, s)
        | (Ok deg, s) =>
            match g_av_nn_property N deg ndir (Some sl) false s with
            | (Raise e, s) => (Raise e, s)
            | (Ok res, s) =>
                let s := restore tmp_self (with_nn s ndir ddir res) in
                (attr (a_nn s ndir ddir), s)
            end
        end
      else (attr (a_nn s ndir ddir), s)
  end.
Definition g_query (q : query) (s : ens P) : res answer * ens P :=
  match q with
  | QEdges r => lift_res Scalar (g_num_edges r s)
  | QDegree d r => lift_res Vector (g_degree_of d r s)
  | QProperty len prop nd sl r => lift_res Vector (g_av_nn_property len prop nd sl r s)
  | QNNDegree dd nd sl dr r => lift_res Vector (g_av_nn_degree dd nd sl dr r s)
  end.

(** The degree methods change neither parameter nor option. *)
Lemma g_degree_of_keeps : forall d rc s r s', g_degree_of d rc s = (r, s') ->
  a_param s' = a_param s /\ a_selfloops s' = a_selfloops s /\ a_edges s' = a_edges s /\ a_nn s' = a_nn s.
Proof.
  assert (K : forall rc s r s', g_degree rc s = (r, s') ->
    a_param s' = a_param s /\ a_selfloops s' = a_selfloops s /\ a_edges s' = a_edges s /\ a_nn s' = a_nn s).
  { intros rc s r s'. unfold g_degree. destruct (a_param s) eqn:E; [|intros H; inversion H; subst; auto].
    destruct (is_none (a_degree s) || rc); [destruct (dgs _ _) as [[? ?] ?]|]; intros H; inversion H; subst; cbn; auto. }
  intros d rc s r s'. destruct d; cbn; unfold g_out_degree, g_in_degree.
  - destruct (is_none (a_out s) || rc); [|intros H; inversion H; subst; auto].
    destruct (g_degree rc s) as [[a|e] s1] eqn:E; intros H; inversion H; subst; apply (K _ _ _ _ E).
  - destruct (is_none (a_in s) || rc); [|intros H; inversion H; subst; auto].
    destruct (g_degree rc s) as [[a|e] s1] eqn:E; intros H; inversion H; subst; apply (K _ _ _ _ E).
  - apply K.
  - intros H; inversion H; subst; auto.
Qed.

Definition pick (d : dir) (t : degs) : nat -> R :=
  let '(dd, o, i) := t in match d with Dout => o | Din => i | Doutin => dd | Dother => fun _ => 0 end.
End Machine.

Arguments g_num_edges {P}. Arguments g_degree {P}. Arguments g_out_degree {P}. Arguments g_in_degree {P}.
Arguments g_degree_of {P}. Arguments g_av_nn_property {P}. Arguments g_av_nn_degree {P}. Arguments g_query {P}.

(** * Two objects with agreeing computations *)

Definition agree (N : nat) (a b : nat -> R) : Prop := forall v, (v < N)%nat -> a v = b v.
Definition oagree (N : nat) (a b : option (nat -> R)) : Prop :=
  match a, b with None, None => True | Some x, Some y => agree N x y | _, _ => False end.
Definition ragree (N : nat) (a b : res (nat -> R)) : Prop :=
  match a, b with Ok x, Ok y => agree N x y | Raise e, Raise f => e = f | _, _ => False end.
(** Two answers agree: the same exception, the same number, or vectors with the same entries 0..N-1. *)
Definition same_answer (N : nat) (a b : res answer) : Prop :=
  match a, b with
  | Ok (Scalar x), Ok (Scalar y) => x = y
  | Ok (Vector x), Ok (Vector y) => agree N x y
  | Raise e, Raise f => e = f
  | _, _ => False
  end.

Definition srel {P} (N : nat) (s t : ens P) : Prop :=
  a_param s = a_param t /\ a_selfloops s = a_selfloops t /\ a_edges s = a_edges t /\
  oagree N (a_degree s) (a_degree t) /\ oagree N (a_out s) (a_out t) /\ oagree N (a_in s) (a_in t) /\
  forall nd dd, oagree N (a_nn s nd dd) (a_nn t nd dd).

Lemma agree_refl : forall N a, agree N a a.
Proof. intros N a v _. reflexivity. Qed.
Lemma oagree_refl : forall N a, oagree N a a.
Proof. intros N [a|]; cbn; auto. apply agree_refl. Qed.
Lemma srel_refl : forall P N (s : ens P), srel N s s.
Proof. intros P N s. repeat split; intros; apply oagree_refl. Qed.
Lemma oagree_none : forall N a b, oagree N a b -> is_none a = is_none b.
Proof. intros N [a|] [b|]; cbn; tauto. Qed.
Lemma oagree_attr : forall N a b, oagree N a b -> ragree N (attr a) (attr b).
Proof. intros N [a|] [b|]; cbn; tauto. Qed.

Section Simulation.
Variables (P : Type) (N : nat).
Variables (tot : P -> bool -> R) (dgs : P -> bool -> degs) (nnf : P -> (nat -> R) -> dir -> bool -> res (nat -> R)).
Variables (tot' : P -> bool -> R) (dgs' : P -> bool -> degs) (nnf' : P -> (nat -> R) -> dir -> bool -> res (nat -> R)).
Hypothesis Htot : forall p sl, tot p sl = tot' p sl.
Hypothesis Hdgs : forall p sl d, agree N (pick d (dgs p sl)) (pick d (dgs' p sl)).
Hypothesis Hnn : forall p a b d sl, d <> Dother -> agree N a b -> ragree N (nnf p a d sl) (nnf' p b d sl).

Definition rel_res {A} (R : A -> A -> Prop) (x y : res A * ens P) : Prop :=
  match fst x, fst y with Ok a, Ok b => R a b | Raise e, Raise f => e = f | _, _ => False end /\ srel N (snd x) (snd y).

Lemma sim_edges : forall rc s t, srel N s t -> rel_res eq (g_num_edges tot rc s) (g_num_edges tot' rc t).
Proof.
  intros rc s t (H1 & H2 & H3 & H). unfold g_num_edges. rewrite <- H1. destruct (a_param s) as [p|] eqn:Ep.
  2:{ split; [reflexivity|]. cbn. split; [congruence|]. auto. }
  rewrite <- H3, <- H2. destruct (is_none (a_edges s) || rc).
  - split; cbn; [apply Htot|]. split; [cbn; congruence|]. cbn. rewrite Htot. auto.
  - split; cbn.
    + rewrite <- H3. destruct (attr (a_edges s)); reflexivity.
    + split; [congruence|]. auto.
Qed.

Lemma sim_degree : forall rc s t, srel N s t -> rel_res (agree N) (g_degree dgs rc s) (g_degree dgs' rc t).
Proof.
  intros rc s t H. pose proof H as (H1 & H2 & H3 & H4 & H5 & H6 & H7). unfold g_degree. rewrite <- H1.
  destruct (a_param s) as [p|] eqn:Ep; [|split; [reflexivity | exact H]].
  rewrite <- (oagree_none _ _ _ H4), <- H2. destruct (is_none (a_degree s) || rc).
  - pose proof (Hdgs p (a_selfloops s)) as K. destruct (dgs p _) as [[d o] i], (dgs' p _) as [[d' o'] i'].
    split; cbn; [apply (K Doutin)|]. repeat split; cbn; auto.
    + congruence.
    + apply (K Doutin).
    + apply (K Dout).
    + apply (K Din).
  - split; [|exact H]. cbn [fst]. pose proof (oagree_attr _ _ _ H4) as K. destruct (attr (a_degree s)), (attr (a_degree t)); exact K.
Qed.

Lemma sim_degree_of : forall d rc s t, srel N s t -> rel_res (agree N) (g_degree_of dgs d rc s) (g_degree_of dgs' d rc t).
Proof.
  intros d rc s t H. pose proof H as (H1 & H2 & H3 & H4 & H5 & H6 & H7). destruct d; cbn [g_degree_of].
  - unfold g_out_degree. rewrite <- (oagree_none _ _ _ H5). destruct (is_none (a_out s) || rc).
    + pose proof (sim_degree rc s t H) as [K1 K2].
      destruct (g_degree dgs rc s) as [[a|e] s1], (g_degree dgs' rc t) as [[b|f] t1]; cbn in K1; try contradiction.
      * split; [|exact K2]. cbn in K2 |- *. destruct K2 as (_ & _ & _ & _ & K & _). apply oagree_attr in K.
        destruct (attr (a_out s1)), (attr (a_out t1)); exact K.
      * split; [exact K1 | exact K2].
    + split; [|exact H]. cbn. apply oagree_attr in H5. destruct (attr (a_out s)), (attr (a_out t)); exact H5.
  - unfold g_in_degree. rewrite <- (oagree_none _ _ _ H6). destruct (is_none (a_in s) || rc).
    + pose proof (sim_degree rc s t H) as [K1 K2].
      destruct (g_degree dgs rc s) as [[a|e] s1], (g_degree dgs' rc t) as [[b|f] t1]; cbn in K1; try contradiction.
      * split; [|exact K2]. cbn in K2 |- *. destruct K2 as (_ & _ & _ & _ & _ & K & _). apply oagree_attr in K.
        destruct (attr (a_in s1)), (attr (a_in t1)); exact K.
      * split; [exact K1 | exact K2].
    + split; [|exact H]. cbn. apply oagree_attr in H6. destruct (attr (a_in s)), (attr (a_in t)); exact H6.
  - apply sim_degree. exact H.
  - split; [reflexivity | exact H].
Qed.

Lemma sim_selfloops : forall sl dr (s t : ens P), srel N s t ->
  fst (set_selfloops sl dr s) = fst (set_selfloops sl dr t) /\ srel N (snd (set_selfloops sl dr s)) (snd (set_selfloops sl dr t)).
Proof.
  intros sl dr s t H. pose proof H as (H1 & H2 & H3). unfold set_selfloops. rewrite <- H2. destruct sl as [b|]; [|auto].
  destruct (Bool.eqb b (a_selfloops s)); [auto|]. split; [reflexivity|]. cbn. split; [cbn; congruence|]. cbn. split; [reflexivity|]. exact H3.
Qed.

Lemma sim_restore : forall b (s t : ens P), srel N s t -> srel N (restore b s) (restore b t).
Proof.
  intros b s t H. pose proof H as (H1 & H2 & H3 & H4 & H5 & H6 & H7). unfold restore. rewrite <- H2.
  destruct (Bool.eqb b (a_selfloops s)); [exact H|]. repeat split; cbn; auto.
Qed.

Lemma agree_div : forall d d' a a', agree N d d' -> agree N a a' ->
  forallb (fun i => negb (Reqb (d i) 0) || Reqb (a i) 0) (seq 0 N) = forallb (fun i => negb (Reqb (d' i) 0) || Reqb (a' i) 0) (seq 0 N) /\
  agree N (fun i => if Reqb (d i) 0 then a i else a i / d i) (fun i => if Reqb (d' i) 0 then a' i else a' i / d' i).
Proof.
  intros d d' a a' Hd Ha. split.
  - assert (E : forall l, (forall i, In i l -> (i < N)%nat) ->
      forallb (fun i => negb (Reqb (d i) 0) || Reqb (a i) 0) l = forallb (fun i => negb (Reqb (d' i) 0) || Reqb (a' i) 0) l).
    { induction l as [|i l IH]; intros Hl; [reflexivity|]. cbn. rewrite (Hd i), (Ha i), IH; auto; intros; apply Hl; cbn; auto. }
    apply E. intros i Hi. apply in_seq in Hi. lia.
  - intros v Hv. rewrite (Hd v Hv), (Ha v Hv). reflexivity.
Qed.

Lemma sim_property : forall len a b nd sl dr s t, srel N s t -> agree N a b ->
  rel_res (agree N) (g_av_nn_property N dgs nnf len a nd sl dr s) (g_av_nn_property N dgs' nnf' len b nd sl dr t).
Proof.
  intros len a b nd sl dr s t H Hab. pose proof H as (H1 & H2 & _). unfold g_av_nn_property. rewrite <- H1, <- H2.
  destruct (a_param s) as [p|] eqn:Ep; [|split; [reflexivity | exact H]].
  destruct (negb (Nat.eqb len N)); [split; [reflexivity | exact H]|].
  pose proof (sim_selfloops sl dr s t H) as [E1 E2].
  destruct (set_selfloops sl dr s) as [dr1 s1], (set_selfloops sl dr t) as [dr2 t1]. cbn [fst snd] in E1, E2. subst dr2.
  pose proof (sim_degree_of nd dr1 s1 t1 E2) as [K1 K2].
  destruct (g_degree_of dgs nd dr1 s1) as [[d|e] s2] eqn:Es, (g_degree_of dgs' nd dr1 t1) as [[d'|f] t2]; cbn [fst snd] in K1, K2;
    try contradiction; [|split; [exact K1 | exact K2]].
  assert (Hnd : nd <> Dother) by (intros ->; discriminate).
  pose proof K2 as (_ & L & _). rewrite <- L. pose proof (Hnn p a b nd (a_selfloops s2) Hnd Hab) as Kn.
  destruct (nnf p a nd (a_selfloops s2)) as [x|e], (nnf' p b nd (a_selfloops s2)) as [y|f]; cbn in Kn; try contradiction.
  2:{ split; [exact Kn | exact K2]. }
  pose proof (agree_div d d' x y K1 Kn) as [F1 F2]. rewrite <- F1. destruct (forallb _ _).
  - split; [exact F2 | apply sim_restore; exact K2].
  - split; [reflexivity | exact K2].
Qed.

Lemma sim_nn_degree : forall dd nd sl dr rc s t, srel N s t ->
  rel_res (agree N) (g_av_nn_degree N dgs nnf dd nd sl dr rc s) (g_av_nn_degree N dgs' nnf' dd nd sl dr rc t).
Proof.
  intros dd nd sl dr rc s t H. pose proof H as (H1 & H2 & _ & _ & _ & _ & H7). unfold g_av_nn_degree. rewrite <- H1, <- H2.
  destruct (a_param s) as [p|] eqn:Ep; [|split; [reflexivity | exact H]].
  rewrite <- (oagree_none _ _ _ (H7 nd dd)). destruct (is_none (a_nn s nd dd) || rc || dr).
  2:{ split; [|exact H]. cbn. pose proof (oagree_attr _ _ _ (H7 nd dd)) as K. destruct (attr (a_nn s nd dd)), (attr (a_nn t nd dd)); exact K. }
  pose proof (sim_selfloops sl dr s t H) as [E1 E2].
  destruct (set_selfloops sl dr s) as [dr1 s1], (set_selfloops sl dr t) as [dr2 t1]. cbn [fst snd] in E1, E2. subst dr2.
  pose proof (sim_degree_of dd dr1 s1 t1 E2) as [K1 K2].
  destruct (g_degree_of dgs dd dr1 s1) as [[d|e] s2], (g_degree_of dgs' dd dr1 t1) as [[d'|f] t2]; cbn [fst snd] in K1, K2;
    try contradiction; [|split; [exact K1 | exact K2]].
  set (c := match sl with Some b => b | None => a_selfloops s end).
  pose proof (sim_property N d d' nd (Some c) false s2 t2 K2 K1) as [M1 M2].
  destruct (g_av_nn_property N dgs nnf N d nd (Some c) false s2) as [[x|e] s3],
    (g_av_nn_property N dgs' nnf' N d' nd (Some c) false t2) as [[y|f] t3]; cbn [fst snd] in M1, M2; try contradiction;
    [|split; [exact M1 | exact M2]].
  assert (W : srel N (with_nn s3 nd dd x) (with_nn t3 nd dd y)).
  { destruct M2 as (A1 & A2 & A3 & A4 & A5 & A6 & A7). repeat split; cbn [a_param a_selfloops a_edges a_degree a_out a_in a_nn with_nn]; auto.
    intros n m. destruct n, m, nd, dd; try apply A7; exact M1. }
  apply (sim_restore (a_selfloops s)) in W. split; [|exact W]. cbn [fst].
  destruct W as (_ & _ & _ & _ & _ & _ & W). specialize (W nd dd). apply oagree_attr in W.
  destruct (attr (a_nn (restore _ (with_nn s3 nd dd x)) nd dd)), (attr (a_nn (restore _ (with_nn t3 nd dd y)) nd dd)); exact W.
Qed.

Lemma sim_query : forall q s t, srel N s t ->
  same_answer N (fst (g_query N tot dgs nnf q s)) (fst (g_query N tot' dgs' nnf' q t)) /\
  srel N (snd (g_query N tot dgs nnf q s)) (snd (g_query N tot' dgs' nnf' q t)).
Proof.
  intros q s t H. destruct q as [rc|d rc|len prop nd sl dr|dd nd sl dr rc]; cbn [g_query].
  - pose proof (sim_edges rc s t H) as [A B]. destruct (g_num_edges tot rc s) as [[a|e] s1], (g_num_edges tot' rc t) as [[b|f] t1];
      cbn in *; try contradiction; auto.
  - pose proof (sim_degree_of d rc s t H) as [A B]. destruct (g_degree_of dgs d rc s) as [[a|e] s1], (g_degree_of dgs' d rc t) as [[b|f] t1];
      cbn in *; try contradiction; auto.
  - pose proof (sim_property len prop prop nd sl dr s t H (agree_refl N prop)) as [A B].
    destruct (g_av_nn_property N dgs nnf len prop nd sl dr s) as [[a|e] s1], (g_av_nn_property N dgs' nnf' len prop nd sl dr t) as [[b|f] t1];
      cbn in *; try contradiction; auto.
  - pose proof (sim_nn_degree dd nd sl dr rc s t H) as [A B].
    destruct (g_av_nn_degree N dgs nnf dd nd sl dr rc s) as [[a|e] s1], (g_av_nn_degree N dgs' nnf' dd nd sl dr rc t) as [[b|f] t1];
      cbn in *; try contradiction; auto.
Qed.

Lemma sim_events : forall l s t, srel N s t ->
  Forall2 (same_answer N) (fst (run_events (g_query N tot dgs nnf) l s)) (fst (run_events (g_query N tot' dgs' nnf') l t)).
Proof.
  induction l as [|e l IH]; intros s t H; [constructor|]. destruct e as [q|p|b]; cbn [run_events].
  - pose proof (sim_query q s t H) as [A B]. destruct (g_query N tot dgs nnf q s) as [a s1], (g_query N tot' dgs' nnf' q t) as [a' t1].
    cbn [fst snd] in A, B. specialize (IH s1 t1 B). destruct (run_events _ l s1) as [r s2], (run_events _ l t1) as [r' t2]. constructor; assumption.
  - apply IH. destruct H as (A1 & A2 & A3 & A4). split; [reflexivity|]. cbn. auto.
  - apply IH. destruct H as (A1 & A2 & A3 & A4). split; [exact A1|]. cbn. auto.
Qed.
End Simulation.

(** * Histories of one object *)
Section History.
Variables (P : Type) (N : nat).
Variables (tot : P -> bool -> R) (dgs : P -> bool -> degs) (nnf : P -> (nat -> R) -> dir -> bool -> res (nat -> R)).

Definition h_deg_now (d : dir) (p : P) (sl : bool) : nat -> R := pick d (dgs p sl).
Definition h_nn_now (prop : nat -> R) (nd : dir) (p : P) (sl : bool) : nat -> R :=
  match nnf p prop nd sl with
  | Ok av => fun i => if Reqb (h_deg_now nd p sl i) 0 then av i else av i / h_deg_now nd p sl i
  | Raise _ => fun _ => 0
  end.
Definition h_edges_now (p : P) (sl : bool) : R := tot p sl.

(** Degree caches are either all missing or all up to date; so is the edge cache. *)
Definition h_deg_ok (p : P) (s : ens P) : Prop :=
  (a_degree s = None /\ a_out s = None /\ a_in s = None) \/
  (a_degree s = Some (h_deg_now Doutin p (a_selfloops s)) /\
   a_out s = Some (h_deg_now Dout p (a_selfloops s)) /\ a_in s = Some (h_deg_now Din p (a_selfloops s))).
Definition h_edges_ok (p : P) (s : ens P) : Prop :=
  a_edges s = None \/ a_edges s = Some (h_edges_now p (a_selfloops s)).
(** [b] is the self-loop option with which the cached nearest-neighbour degrees are asked for. *)
Definition h_nn_ok (b : bool) (p : P) (s : ens P) : Prop :=
  forall nd dd, a_nn s nd dd = None \/ a_nn s nd dd = Some (h_nn_now (h_deg_now dd p b) nd p b).

Lemma h_num_edges_now : forall p rc s, a_param s = Some p -> rc = true \/ h_edges_ok p s ->
  exists s', g_num_edges tot rc s = (Ok (h_edges_now p (a_selfloops s)), s') /\
    a_param s' = Some p /\ a_selfloops s' = a_selfloops s /\ h_edges_ok p s' /\ a_nn s' = a_nn s /\
    a_degree s' = a_degree s /\ a_out s' = a_out s /\ a_in s' = a_in s.
Proof.
  intros p rc s Hp H. unfold g_num_edges. rewrite Hp.
  destruct (is_none (a_edges s) || rc) eqn:E.
  - eexists; split; [reflexivity|]. cbn. repeat split; auto. right; reflexivity.
  - apply orb_false_iff in E; destruct E as [E ->]. destruct H as [H|[H|H]]; [discriminate| |].
    + rewrite H in E; discriminate.
    + exists s. rewrite H. repeat split; auto. right; exact H.
Qed.

Lemma h_degree_of_now : forall p d rc s, a_param s = Some p -> d <> Dother ->
  rc = true \/ h_deg_ok p s ->
  exists s', g_degree_of dgs d rc s = (Ok (h_deg_now d p (a_selfloops s)), s') /\
    a_param s' = Some p /\ a_selfloops s' = a_selfloops s /\ a_edges s' = a_edges s /\ a_nn s' = a_nn s /\
    h_deg_ok p s'.
Proof.
  intros p d rc s Hp Hd H.
  assert (D : forall rc, is_none (a_degree s) || rc = true ->
     exists s', g_degree dgs rc s = (Ok (h_deg_now Doutin p (a_selfloops s)), s') /\
       a_param s' = Some p /\ a_selfloops s' = a_selfloops s /\ a_edges s' = a_edges s /\ a_nn s' = a_nn s /\
       a_degree s' = Some (h_deg_now Doutin p (a_selfloops s)) /\ a_out s' = Some (h_deg_now Dout p (a_selfloops s)) /\
       a_in s' = Some (h_deg_now Din p (a_selfloops s))).
  { intros rc' E. unfold g_degree. rewrite Hp, E. unfold h_deg_now.
    destruct (dgs _ _) as [[dd o] i]. eexists; split; [reflexivity|]. cbn. auto 10. }
  assert (K : (exists s', g_degree_of dgs d rc s = (Ok (h_deg_now d p (a_selfloops s)), s') /\
     a_param s' = Some p /\ a_selfloops s' = a_selfloops s /\ a_edges s' = a_edges s /\ a_nn s' = a_nn s /\
     a_degree s' = Some (h_deg_now Doutin p (a_selfloops s)) /\ a_out s' = Some (h_deg_now Dout p (a_selfloops s)) /\
     a_in s' = Some (h_deg_now Din p (a_selfloops s)))).
  { destruct (Bool.bool_dec rc true) as [->|Hrc].
    - assert (E1 : is_none (a_degree s) || true = true) by apply orb_true_r.
      destruct (D true E1) as (s' & E & A1 & A2 & A3 & A4 & A5 & A6 & A7).
      exists s'. destruct d; cbn [g_degree_of]; unfold g_out_degree, g_in_degree;
        rewrite ?orb_true_r, ?E, ?A6, ?A7; try (exfalso; apply Hd; reflexivity); cbn [attr]; auto 10.
    - apply Bool.not_true_is_false in Hrc; subst rc. destruct H as [H|[(N1 & N2 & N3)|(C1 & C2 & C3)]]; [discriminate| |].
      + assert (E1 : is_none (a_degree s) || false = true) by (rewrite N1; reflexivity).
        destruct (D false E1) as (s' & E & A1 & A2 & A3 & A4 & A5 & A6 & A7).
        exists s'. destruct d; cbn [g_degree_of]; unfold g_out_degree, g_in_degree;
          rewrite ?N2, ?N3; cbn [is_none orb]; rewrite ?E, ?A6, ?A7; try (exfalso; apply Hd; reflexivity); cbn [attr]; auto 10.
      + exists s. destruct d; cbn [g_degree_of]; unfold g_out_degree, g_in_degree, g_degree;
          rewrite ?Hp, ?C1, ?C2, ?C3; cbn [is_none orb attr]; rewrite ?C1; try (exfalso; apply Hd; reflexivity); cbn [attr]; auto 10. }
  destruct K as (s' & E & A1 & A2 & A3 & A4 & A5 & A6 & A7).
  exists s'. repeat split; try assumption. right. rewrite A2. auto.
Qed.

(** The neighbourhood totals are computed, and vanish where the degree does. *)
Definition h_total_ok (p : P) : Prop := forall prop nd sl, nd <> Dother -> exists a, nnf p prop nd sl = Ok a /\
  forall v, (v < N)%nat -> h_deg_now nd p sl v = 0 -> a v = 0.

Definition h_eff (selfloops : option bool) (s : ens P) : bool :=
  match selfloops with None => a_selfloops s | Some b => b end.

Lemma h_set_selfloops_now : forall p sl dr s, a_param s = Some p -> dr = true \/ h_deg_ok p s ->
  let (dr', s') := set_selfloops sl dr s in
  a_param s' = Some p /\ a_selfloops s' = h_eff sl s /\ a_nn s' = a_nn s /\ a_edges s' = a_edges s /\
  (dr' = true \/ h_deg_ok p s') /\ (a_selfloops s' = a_selfloops s -> s' = s).
Proof.
  intros p sl dr s Hp H. unfold set_selfloops, h_eff. destruct sl as [b|]; [|auto 10].
  destruct (Bool.eqb b (a_selfloops s)) eqn:E.
  - apply Bool.eqb_prop in E. auto 10.
  - cbn. repeat split; auto. intros ->. rewrite Bool.eqb_reflx in E; discriminate.
Qed.

Lemma h_restore_now : forall p b s, a_param s = Some p -> h_deg_ok p s ->
  a_param (restore b s) = Some p /\ a_selfloops (restore b s) = b /\ a_nn (restore b s) = a_nn s /\
  a_edges (restore b s) = a_edges s /\ h_deg_ok p (restore b s).
Proof.
  intros p b s Hp H. unfold restore. destruct (Bool.eqb b (a_selfloops s)) eqn:E.
  - apply Bool.eqb_prop in E. auto.
  - cbn. repeat split; auto. left; auto.
Qed.

Lemma h_property_now : forall p prop nd sl dr s, a_param s = Some p -> dr = true \/ h_deg_ok p s ->
  h_total_ok p -> nd <> Dother ->
  exists s', g_av_nn_property N dgs nnf N prop nd sl dr s = (Ok (h_nn_now prop nd p (h_eff sl s)), s') /\
    a_param s' = Some p /\ a_selfloops s' = a_selfloops s /\ a_edges s' = a_edges s /\ a_nn s' = a_nn s /\
    h_deg_ok p s'.
Proof.
  intros p prop nd sl dr s Hp H Hpp Hd. unfold g_av_nn_property. rewrite Hp, Nat.eqb_refl. cbn [negb].
  pose proof (h_set_selfloops_now p sl dr s Hp H) as K. destruct (set_selfloops sl dr s) as [dr1 s1].
  destruct K as (P1 & S1 & N1 & E1 & D1 & _).
  destruct (h_degree_of_now p nd dr1 s1 P1 Hd D1) as (s2 & E & P2 & S2 & E2 & N2 & D2). rewrite E.
  destruct (Hpp prop nd (h_eff sl s) Hd) as (a & Ea & Za).
  rewrite S2, S1, Ea.
  assert (F : forallb (fun i => negb (Reqb (h_deg_now nd p (h_eff sl s) i) 0) || Reqb (a i) 0) (seq 0 N) = true).
  { apply forallb_forall. intros v Hv. apply in_seq in Hv.
    destruct (Reqb_spec (h_deg_now nd p (h_eff sl s) v) 0) as [Z0|]; [|reflexivity]. cbn [negb orb].
    apply Reqb_true. apply Za; [lia | exact Z0]. }
  rewrite F. destruct (h_restore_now p (a_selfloops s) s2 P2 D2) as (P3 & S3 & N3 & E3 & D3).
  exists (restore (a_selfloops s) s2). split.
  - unfold h_nn_now. rewrite Ea. reflexivity.
  - rewrite P3, S3, N3, E3, E2, N2, E1, N1. auto.
Qed.

Lemma h_with_nn_ok : forall b p s nd dd, nd <> Dother -> dd <> Dother -> h_nn_ok b p s ->
  h_nn_ok b p (with_nn s nd dd (h_nn_now (h_deg_now dd p b) nd p b)) /\
  a_nn (with_nn s nd dd (h_nn_now (h_deg_now dd p b) nd p b)) nd dd = Some (h_nn_now (h_deg_now dd p b) nd p b).
Proof.
  intros b p s nd dd Hn Hd H. split.
  - intros n d. cbn [a_nn with_nn]. destruct n, d, nd, dd; auto; exfalso; auto.
  - destruct nd, dd; cbn; auto; exfalso; auto.
Qed.

(** A cached nearest-neighbour degree does not depend on the history when it is always asked for
    with the same self-loop option [b]. *)
Lemma h_nn_degree_now : forall p dd nd sl dr rc s, a_param s = Some p -> dr = true \/ h_deg_ok p s ->
  h_nn_ok (h_eff sl s) p s \/ rc = true \/ dr = true ->
  h_total_ok p -> nd <> Dother -> dd <> Dother ->
  exists s', g_av_nn_degree N dgs nnf dd nd sl dr rc s
      = (Ok (h_nn_now (h_deg_now dd p (h_eff sl s)) nd p (h_eff sl s)), s') /\
    a_param s' = Some p /\ a_selfloops s' = a_selfloops s /\ a_edges s' = a_edges s /\
    (h_nn_ok (h_eff sl s) p s -> h_nn_ok (h_eff sl s) p s') /\ (h_deg_ok p s \/ dr = true \/ rc = true -> h_deg_ok p s').
Proof.
  intros p dd nd sl dr rc s Hp H Hnn Hpp Hnd Hdd. unfold g_av_nn_degree. rewrite Hp.
  destruct (is_none (a_nn s nd dd) || rc || dr) eqn:C.
  - pose proof (h_set_selfloops_now p sl dr s Hp H) as K. destruct (set_selfloops sl dr s) as [dr1 s1].
    destruct K as (P1 & S1 & N1 & E1 & D1 & _).
    destruct (h_degree_of_now p dd dr1 s1 P1 Hdd D1) as (s2 & E & P2 & S2 & E2 & N2 & D2). rewrite E, S1.
    fold (h_eff sl s).
    assert (He : h_eff (Some (h_eff sl s)) s2 = h_eff sl s) by reflexivity.
    destruct (h_property_now p (h_deg_now dd p (h_eff sl s)) nd (Some (h_eff sl s)) false s2 P2 (or_intror D2) Hpp Hnd)
      as (s3 & E3 & P3 & S3 & G3 & N3 & D3).
    rewrite E3, He. set (v := h_nn_now (h_deg_now dd p (h_eff sl s)) nd p (h_eff sl s)).
    assert (P4 : a_param (with_nn s3 nd dd v) = Some p) by exact P3.
    assert (D4 : h_deg_ok p (with_nn s3 nd dd v)) by exact D3.
    destruct (h_restore_now p (a_selfloops s) _ P4 D4) as (P5 & S5 & N5 & E5 & D5).
    assert (V : a_nn (with_nn s3 nd dd v) nd dd = Some v) by (destruct nd, dd; cbn; auto; exfalso; auto).
    eexists; split; [rewrite N5, V; reflexivity|]. rewrite P5, S5, E5. repeat split; auto.
    + cbn [a_edges with_nn]. rewrite G3, E2, E1; reflexivity.
    + intros W. assert (W3 : h_nn_ok (h_eff sl s) p s3) by (intros n d; rewrite N3, N2, N1; apply W).
      destruct (h_with_nn_ok (h_eff sl s) p s3 nd dd Hnd Hdd W3) as [W4 _].
      intros n d. rewrite N5. apply W4.
  - apply orb_false_iff in C; destruct C as [C ->]. apply orb_false_iff in C; destruct C as [C ->].
    destruct Hnn as [Hnn|[Hnn|Hnn]]; try discriminate. destruct (Hnn nd dd) as [V|V]; rewrite V in C |- *; [discriminate|].
    exists s. repeat split; auto. intros _. destruct H as [H|H]; [discriminate | exact H].
Qed.

(** ** Histories *)

(** The answer computed from scratch. *)
Definition h_answer_now (p : P) (own : bool) (q : query) : res answer :=
  match q with
  | QEdges _ => Ok (Scalar (h_edges_now p own))
  | QDegree d _ => Ok (Vector (h_deg_now d p own))
  | QProperty len prop nd sl _ =>
      if Nat.eqb len N then Ok (Vector (h_nn_now prop nd p (match sl with Some c => c | None => own end)))
      else Raise ValueError
  | QNNDegree dd nd sl _ _ =>
      let e := match sl with Some c => c | None => own end in
      Ok (Vector (h_nn_now (h_deg_now dd p e) nd p e))
  end.

Definition h_fresh_ok (b : bool) (p : P) (s : ens P) : Prop :=
  a_param s = Some p /\ h_edges_ok p s /\ h_deg_ok p s /\ h_nn_ok b p s.

Lemma h_new_fresh : forall b p sl, h_fresh_ok b p (new_ens (Some p) sl).
Proof.
  intros b p sl. split; [reflexivity|]. split; [left; reflexivity|]. split; [left; auto|]. intros n d. left; reflexivity.
Qed.

Lemma h_query_now : forall b p q s, h_total_ok p ->
  h_fresh_ok b p s -> valid_query b (a_selfloops s) q ->
  exists s', g_query N tot dgs nnf q s = (h_answer_now p (a_selfloops s) q, s') /\
    h_fresh_ok b p s' /\ a_selfloops s' = a_selfloops s.
Proof.
  intros b p q s Hpp (HP & HE & HD & HNN) V. destruct q as [rc|d rc|len prop nd sl dr|dd nd sl dr rc]; cbn [g_query valid_query h_answer_now] in *.
  - destruct (h_num_edges_now p rc s HP (or_intror HE)) as (s' & E & A1 & A2 & A3 & A4 & A5 & A6 & A7).
    exists s'. unfold lift_res. rewrite E. cbn. repeat split; auto.
    + unfold h_deg_ok. rewrite A5, A6, A7, A2. exact HD.
    + intros n d'. rewrite A4. apply HNN.
  - destruct (h_degree_of_now p d rc s HP V (or_intror HD)) as (s' & E & A1 & A2 & A3 & A4 & A5).
    exists s'. unfold lift_res. rewrite E. cbn. repeat split; auto.
    + unfold h_edges_ok. rewrite A3, A2. exact HE.
    + intros n d'. rewrite A4. apply HNN.
  - destruct (Nat.eqb_spec len N) as [->|Hl].
    + destruct (h_property_now p prop nd sl dr s HP (or_intror HD) Hpp V) as (s' & E & A1 & A2 & A3 & A4 & A5).
      exists s'. unfold lift_res. rewrite E. cbn. repeat split; auto.
      * unfold h_edges_ok. rewrite A3, A2. exact HE.
      * intros n d'. rewrite A4. apply HNN.
    + exists s. unfold lift_res, g_av_nn_property. rewrite HP.
      destruct (Nat.eqb_spec len N); [contradiction|]. cbn. repeat split; auto.
  - destruct V as (Vd & Vn & Vb).
    assert (He : h_eff sl s = b) by exact Vb.
    destruct (h_nn_degree_now p dd nd sl dr rc s HP (or_intror HD)) as (s' & E & A1 & A2 & A3 & A4 & A5); auto.
    { left. rewrite He. exact HNN. }
    exists s'. unfold lift_res. rewrite E. cbn. fold (h_eff sl s). rewrite He in *. repeat split; auto.
    unfold h_edges_ok. rewrite A3, A2. exact HE.
Qed.

Lemma h_history_now : forall b p own qs, h_total_ok p ->
  Forall (valid_query b own) qs ->
  forall s, h_fresh_ok b p s -> a_selfloops s = own ->
  fst (run_events (g_query N tot dgs nnf) (map Ask qs) s) = map (h_answer_now p own) qs /\
  a_param (snd (run_events (g_query N tot dgs nnf) (map Ask qs) s)) = Some p /\
  a_selfloops (snd (run_events (g_query N tot dgs nnf) (map Ask qs) s)) = own.
Proof.
  intros b p own qs Hpp; induction qs as [|q qs IH]; intros V s Hs Ho.
  - cbn. repeat split; [apply Hs | exact Ho].
  - inversion V as [|? ? V1 V2]; subst. cbn [map run_events].
    destruct (h_query_now b p q s Hpp Hs V1) as (s1 & E & Hs1 & Ho1). rewrite E.
    destruct (IH V2 s1 Hs1 Ho1) as (A & B & C).
    destruct (run_events _ (map Ask qs) s1) as [l s2]. cbn in *. rewrite A. auto.
Qed.

End History.

(** A cached nearest-neighbour degree is returned whatever self-loop option is asked for. *)
Lemma g_nn_cached : forall P N (dgs : P -> bool -> degs) nnf dd nd sl dr rc s a s' sl' p,
  g_av_nn_degree N dgs nnf dd nd sl dr rc s = (Ok a, s') -> a_param s' = Some p ->
  g_av_nn_degree N dgs nnf dd nd sl' false false s' = (Ok a, s').
Proof.
  intros P N dgs nnf dd nd sl dr rc s a s' sl' p H Hp.
  assert (C : a_nn s' nd dd = Some a).
  { unfold g_av_nn_degree in H. destruct (a_param s); [|discriminate].
    assert (K : forall (o : option (nat -> R)) t, (attr o, t) = (Ok a, s') -> o = Some a /\ t = s').
    { intros o t E. destruct o; inversion E; subst; auto. }
    destruct (is_none (a_nn s nd dd) || rc || dr).
    - destruct (set_selfloops sl dr s) as [dr1 s1]. destruct (g_degree_of dgs dd dr1 s1) as [[deg|e] s2]; [|discriminate].
      destruct (g_av_nn_property _ _ _ _ _ _ _ _ s2) as [[r|e] s3]; [|discriminate].
      apply K in H. destruct H as [H <-]. exact H.
    - apply K in H. destruct H as [H <-]. exact H. }
  unfold g_av_nn_degree. rewrite Hp, C. reflexivity.
Qed.

(** * The two kinds of objects are instances *)
Section Instances.
Variables P X Z : Type.
Variables (p_ij : P -> X -> X -> Z -> R).
Variables (po pin : nat -> X) (z : nat -> nat -> Z) (N : nat).

Let g1 := g_query N (fun p sl => exp_edges p_ij p po pin z N sl) (fun p sl => exp_degrees p_ij p po pin z N sl)
  (fun p prop nd sl => exp_av_nn_prop p_ij p po pin z prop nd N sl).

Lemma run_query_machine : forall q s, run_query p_ij po pin z N q s = g1 q s.
Proof. intros [rc|d rc|len prop nd sl dr|dd nd sl dr rc] s; reflexivity. Qed.

Variable B : nat.
Let st p sl := spark_edges p po pin z N B p_ij sl.
Let sd p sl := spark_degrees p po pin z N B p_ij sl.
Let sn p prop nd sl : res (nat -> R) := Ok (spark_av_nn p po pin z N B p_ij prop nd sl).

Lemma sp_property_machine : forall len prop nd sl dr s,
  sp_av_nn_property p_ij po pin z N B len prop nd sl dr s = g_av_nn_property N sd sn len prop nd sl dr s.
Proof.
  intros len prop nd sl dr s. unfold sp_av_nn_property, g_av_nn_property.
  destruct (a_param s) as [p|]; [|reflexivity]. destruct (negb (len =? N)%nat); [reflexivity|].
  assert (E : a_selfloops (snd (set_selfloops sl dr s)) = match sl with Some b => b | None => a_selfloops s end).
  { unfold set_selfloops. destruct sl as [b|]; [|reflexivity].
    destruct (Bool.eqb b (a_selfloops s)) eqn:E; [|reflexivity]. apply Bool.eqb_prop in E. cbn. congruence. }
  destruct (set_selfloops sl dr s) as [dr1 s1]. cbn [snd] in E.
  change (sp_degree_of p_ij po pin z N B nd dr1 s1) with (g_degree_of sd nd dr1 s1).
  destruct (g_degree_of sd nd dr1 s1) as [[d|e] s2] eqn:Ed; [|reflexivity].
  destruct (g_degree_of_keeps _ _ _ _ _ _ _ Ed) as (_ & K & _). rewrite K, E. reflexivity.
Qed.

Lemma sp_query_machine : forall q s, sp_query p_ij po pin z N B q s = g_query N st sd sn q s.
Proof.
  intros [rc|d rc|len prop nd sl dr|dd nd sl dr rc] s; cbn [sp_query g_query]; try reflexivity.
  - rewrite sp_property_machine. reflexivity.
  - f_equal. unfold sp_av_nn_degree, g_av_nn_degree. destruct (a_param s) as [p|]; [|reflexivity].
    destruct (is_none (a_nn s nd dd) || rc || dr); [|reflexivity].
    destruct (set_selfloops sl dr s) as [dr1 s1].
    change (sp_degree_of p_ij po pin z N B dd dr1 s1) with (g_degree_of sd dd dr1 s1).
    destruct (g_degree_of sd dd dr1 s1) as [[d|e] s2]; [|reflexivity].
    rewrite sp_property_machine. reflexivity.
Qed.
End Instances.

Lemma run_events_ext : forall P (f g : query -> ens P -> res answer * ens P), (forall q s, f q s = g q s) ->
  forall l s, run_events f l s = run_events g l s.
Proof.
  intros P f g H l. induction l as [|e l IH]; intros s; [reflexivity|]. destruct e; cbn; [rewrite H; destruct (g q s); rewrite IH| |]; auto.
Qed.

(** * Objects with the same kernel *)
Section Compare.
Variables P X Z : Type.
Variables (p_ij : P -> X -> X -> Z -> R).
Variables (po pin : nat -> X) (z : nat -> nat -> Z) (N : nat).
Hypothesis HN : (1 <= N)%nat.
Hypothesis Hdy : forall p x y z z', p_ij p x y z = p_ij p x y z'.

Lemma pick_spark : forall B, (1 <= B)%nat -> forall p sl d v,
  pick d (spark_degrees p po pin z N B p_ij sl) v = pick d (exp_degrees p_ij p po pin z N sl) v.
Proof.
  intros B HB p sl d v. pose proof (spark_degrees_eq _ _ _ p_ij p po pin z N B sl HN HB Hdy v) as K. cbv zeta in K.
  destruct (spark_degrees _ _ _ _ _ _ _ _) as [[a1 a2] a3], (exp_degrees _ _ _ _ _ _ _) as [[b1 b2] b3].
  destruct K as (K1 & K2 & K3). unfold dview, oview, iview in K1, K2, K3. cbn in K1, K2, K3. destruct d; cbn; auto.
Qed.

Lemma blocks_history : forall B B', (1 <= B)%nat -> (1 <= B')%nat -> forall l s,
  Forall2 (same_answer N) (fst (run_events (sp_query p_ij po pin z N B) l s)) (fst (run_events (sp_query p_ij po pin z N B') l s)).
Proof.
  intros B B' HB HB' l s.
  rewrite (run_events_ext _ _ _ (sp_query_machine _ _ _ p_ij po pin z N B)),
    (run_events_ext _ _ _ (sp_query_machine _ _ _ p_ij po pin z N B')).
  apply sim_events.
  - intros p sl. rewrite !spark_edges_sum by (assumption || apply Hdy). reflexivity.
  - intros p sl d v Hv. rewrite !pick_spark by assumption. reflexivity.
  - intros p a b d sl Hd Hab v Hv.
    rewrite (spark_av_nn_spec _ _ _ p_ij p po pin z N B sl a d HN HB Hdy Hd v Hv).
    rewrite (spark_av_nn_spec _ _ _ p_ij p po pin z N B' sl b d HN HB' Hdy Hd v Hv).
    unfold nb_total. apply sumn_ext. intros j Hj. rewrite (Hab j Hj). reflexivity.
  - apply srel_refl.
Qed.

Lemma single_history : (2 <= N)%nat -> forall B, (1 <= B)%nat -> forall l s,
  Forall2 (same_answer N) (fst (run_events (sp_query p_ij po pin z N B) l s)) (fst (run_events (run_query p_ij po pin z N) l s)).
Proof.
  intros H2 B HB l s.
  rewrite (run_events_ext _ _ _ (sp_query_machine _ _ _ p_ij po pin z N B)),
    (run_events_ext _ _ _ (run_query_machine _ _ _ p_ij po pin z N)).
  apply sim_events.
  - intros p sl. rewrite spark_edges_sum by (assumption || apply Hdy). rewrite exp_edges_spec. reflexivity.
  - intros p sl d v Hv. rewrite !pick_spark by assumption. reflexivity.
  - intros p a b d sl Hd Hab.
    destruct (exp_av_nn_spec _ _ _ p_ij p po pin z N b d sl Hd (fun _ => H2)) as (c & -> & Hc). intros v Hv.
    rewrite (spark_av_nn_spec _ _ _ p_ij p po pin z N B sl a d HN HB Hdy Hd v Hv), (Hc v Hv).
    rewrite (Hdy p (po v) (pin v) (z v (N - 2)%nat) (z v v)).
    replace (if sl then p_ij p (po v) (pin v) (z v v) * b v else 0)
      with (if Nat.ltb v N then (if sl then p_ij p (po v) (pin v) (z v v) * b v else 0) else 0).
    2:{ apply Nat.ltb_lt in Hv as Hv'. rewrite Hv'. reflexivity. }
    rewrite <- (sumn_delta' N v (fun j => if sl then p_ij p (po v) (pin v) (z v v) * b v else 0)), <- sumn_plus.
    unfold nb_total. apply sumn_ext; intros j Hj. rewrite (Hab j Hj). unfold allowed.
    destruct (Nat.eqb_spec v j) as [<-|Hne]; cbn [negb orb].
    + destruct sl; [|ring]. destruct d; unfold nd_link, out_link, in_link, either_link; rewrite ?Nat.eqb_refl; ring.
    + rewrite Rplus_0_r. destruct d; unfold nd_link, dir_prob, out_link, in_link, either_link;
        try reflexivity; [|contradiction]. destruct (Nat.eqb_spec v j); [contradiction|]. ring.
  - apply srel_refl.
Qed.
End Compare.
