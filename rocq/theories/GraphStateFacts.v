(** Facts about the caches of GraphState.v. *)
From Coq Require Import String Ascii.
From Verif Require Import Base Num Ids Ensemble Lib Graphs DenseGraphs GraphState.

Lemma attr_inj : forall m n, attr m = attr n -> m = n.
Proof. intros m n H. destruct m, n; try reflexivity; discriminate H. Qed.

Lemma set_same : forall c k v, set_attr c k v k = Some v.
Proof. intros. unfold set_attr. rewrite String.eqb_refl. reflexivity. Qed.
Lemma set_other : forall c k v k', k <> k' -> set_attr c k v k' = c k'.
Proof. intros c k v k' H. unfold set_attr. destruct (String.eqb_spec k k'); [contradiction|reflexivity]. Qed.

Lemma nn_not_attr : forall d nd dd m, nn_name d nd dd <> attr m.
Proof. intros d nd dd m H. destruct d; unfold nn_name in H; destruct m; cbn in H; discriminate H. Qed.

(** The strings the documentation allows. *)
Definition known_dir (s : string) : Prop := s = "out"%string \/ s = "in"%string \/ s = "out-in"%string.

Lemma nn_name_inj : forall nd dd nd' dd', known_dir nd -> known_dir dd -> known_dir nd' -> known_dir dd' ->
  nn_name true nd dd = nn_name true nd' dd' -> nd = nd' /\ dd = dd'.
Proof.
  intros nd dd nd' dd' A B C D H.
  destruct A as [->|[->| ->]], B as [->|[->| ->]], C as [->|[->| ->]], D as [->|[->| ->]]; split; try reflexivity; discriminate H.
Qed.

Section Object.
Variables (N : nat) (directed : bool) (body : meas -> res (list (meas * gval)))
          (nn_body : dir -> (nat -> R) -> bool -> (nat -> R) -> res (nat -> R)).
(** The value each method would compute on its own; the bodies agree with it. *)
Variable compute : meas -> res gval.
Definition body_agrees : Prop := forall m,
  match body m with
  | Ok l => In m (map fst l) /\ forall j v, In (j, v) l -> compute j = Ok v
  | Raise e => compute m = Raise e
  end.
Hypothesis body_ok : body_agrees.
Hypothesis body_dir : directed = false -> forall d d' prop sl deg, nn_body d prop sl deg = nn_body d' prop sl deg.
Notation get := (get body).
Notation nn_property := (nn_property N directed body nn_body).
Notation nn_degree := (nn_degree N directed body nn_body).
Notation ask := (ask N directed body nn_body).
Notation after := (after N directed body nn_body).

(** What the measure attributes hold is what the methods compute. *)
Definition truthful (c : cache) : Prop := forall m v, c (attr m) = Some v -> compute m = Ok v.

Definition store (l : list (meas * gval)) (c : cache) : cache :=
  for_each l (fun p c => set_attr c (attr (fst p)) (snd p)) c.

Lemma store_spec : forall l c k, store l c k = c k \/ exists m v, k = attr m /\ In (m, v) l /\ store l c k = Some v.
Proof.
  induction l as [|[j v] l IH]; intros c k; [left; reflexivity|].
  change (store ((j, v) :: l) c) with (store l (set_attr c (attr j) v)).
  destruct (IH (set_attr c (attr j) v) k) as [E|[m [v' [E1 [E2 E3]]]]]; [|right; exists m, v'; cbn [In]; auto]. rewrite E.
  destruct (String.eqb_spec (attr j) k) as [<-|D].
  - right. exists j, v. rewrite set_same. cbn [In]. auto.
  - left. apply set_other, D.
Qed.

Lemma store_in : forall l c m, In m (map fst l) -> exists v, In (m, v) l /\ store l c (attr m) = Some v.
Proof.
  induction l as [|[j v] l IH]; intros c m H; [destruct H|].
  change (store ((j, v) :: l) c) with (store l (set_attr c (attr j) v)). cbn [map fst In] in H.
  destruct H as [->|H].
  - destruct (store_spec l (set_attr c (attr m) v) (attr m)) as [Q|[m' [v' [Ea [Ec Q]]]]].
    + exists v. rewrite Q, set_same. cbn [In]. auto.
    + apply attr_inj in Ea. subst m'. exists v'. cbn [In]. auto.
  - destruct (IH (set_attr c (attr j) v) m H) as [v' [A B]]. exists v'. cbn [In]. auto.
Qed.

Lemma store_truthful : forall m l c, body m = Ok l -> truthful c -> truthful (store l c).
Proof.
  intros m l c Hb H k v E. pose proof (body_ok m) as B. rewrite Hb in B. destruct B as [_ B].
  destruct (store_spec l c (attr k)) as [Q|[m' [v' [Ea [Ec Q]]]]].
  - apply H. congruence.
  - apply attr_inj in Ea. subst m'. apply B. congruence.
Qed.

Lemma get_fst : forall c m r, truthful c -> fst (get m r c) = compute m.
Proof.
  intros c m r H. unfold GraphState.get.
  assert (Q : fst (match body m with
      | Raise e => (Raise e, c)
      | Ok l => let c := store l c in (match c (attr m) with Some v => Ok v | None => Raise AttributeError end, c)
      end) = compute m).
  { pose proof (body_ok m) as B. destruct (body m) as [l|e] eqn:E; [|symmetry; exact B]. destruct B as [B1 B2]. cbv zeta.
    destruct (store_in l c m B1) as [v [I ->]]. symmetry. apply B2, I. }
  destruct (c (attr m)) as [v|] eqn:E; [destruct r|]; [exact Q| |exact Q]. cbn. symmetry. apply H, E.
Qed.

Lemma get_truthful : forall c m r, truthful c -> truthful (snd (get m r c)).
Proof.
  intros c m r H. unfold GraphState.get.
  assert (Q : truthful (snd (match body m with
      | Raise e => (Raise e, c)
      | Ok l => let c := store l c in (match c (attr m) with Some v => Ok v | None => Raise AttributeError end, c)
      end))).
  { destruct (body m) eqn:E; [|exact H]. cbv zeta. exact (store_truthful m _ c E H). }
  destruct (c (attr m)) as [v|] eqn:E; [destruct r|]; [exact Q|exact H|exact Q].
Qed.

Lemma get_nn : forall c m r d nd dd, snd (get m r c) (nn_name d nd dd) = c (nn_name d nd dd).
Proof.
  intros c m r d nd dd. unfold GraphState.get.
  assert (Q : snd (match body m with
      | Raise e => (Raise e, c)
      | Ok l => let c := store l c in (match c (attr m) with Some v => Ok v | None => Raise AttributeError end, c)
      end) (nn_name d nd dd) = c (nn_name d nd dd)).
  { destruct (body m) as [l|e]; [|reflexivity]. cbv zeta. cbn [snd].
    destruct (store_spec l c (nn_name d nd dd)) as [Q|[m' [v' [Ea _]]]]; [exact Q|]. destruct (nn_not_attr _ _ _ _ Ea). }
  destruct (c (attr m)) as [v|] eqn:E; [destruct r|]; [exact Q|reflexivity|exact Q].
Qed.

(** The values computed without caches. *)
Definition pure_property (len : nat) (prop : nat -> R) (ndir : string) (selfloops : option bool) : res (nat -> R) :=
  guard (Nat.eqb len N) ValueError
  match selfloops with
  | None => Raise AttributeError
  | Some sl => match degree_of directed (dir_of ndir) with
               | None => Raise ValueError
               | Some m => do v <- compute m ; do deg <- as_vec v ; nn_body (dir_of ndir) prop sl deg
               end
  end.
Definition pure_nn_degree (ndir ddir : string) (selfloops : option bool) : res gval :=
  match selfloops with
  | None => Raise AttributeError
  | Some sl => match degree_of directed (dir_of ddir) with
               | None => Raise ValueError
               | Some m => do v <- compute m ; do deg <- as_vec v ; do f <- pure_property N deg ndir (Some sl) ; Ok (VVec f)
               end
  end.

Lemma property_spec : forall c len prop nd sl dr, truthful c ->
  let p := nn_property len prop nd sl dr c in
  fst p = pure_property len prop nd sl /\ truthful (snd p) /\ (forall d a b, snd p (nn_name d a b) = c (nn_name d a b)).
Proof.
  intros c len prop nd sl dr H. cbv zeta. unfold GraphState.nn_property, pure_property, guard.
  destruct (Nat.eqb len N); [|split; [reflexivity|split; [exact H|reflexivity]]].
  destruct sl as [sl|]; [|split; [reflexivity|split; [exact H|reflexivity]]].
  destruct (degree_of directed (dir_of nd)) as [m|]; [|split; [reflexivity|split; [exact H|reflexivity]]].
  pose proof (get_fst c m dr H) as F. pose proof (get_truthful c m dr H) as T. pose proof (get_nn c m dr) as K.
  destruct (get m dr c) as [v c1]. cbn [fst snd] in *. subst v. split; [reflexivity|]. split; assumption.
Qed.

(** A cached nearest neighbour degree, when present, is the one for this option. *)
Definition truthful_nn (sl : option bool) (c : cache) : Prop := forall nd dd v,
  (directed = true -> known_dir nd /\ known_dir dd) -> c (nn_name directed nd dd) = Some v -> pure_nn_degree nd dd sl = Ok v.

Definition new_nn (nd dd : string) (sl : option bool) (dr : bool) (c : cache) : res gval * cache :=
  match sl with
  | None => (Raise AttributeError, c)
  | Some sl =>
      match degree_of directed (dir_of dd) with
      | None => (Raise ValueError, c)
      | Some m =>
          let (v, c) := get m dr c in
          match (do v <- v ; as_vec v) with
          | Raise e => (Raise e, c)
          | Ok deg =>
              let (r, c) := nn_property N deg nd (Some sl) false c in
              match r with
              | Raise e => (Raise e, c)
              | Ok f => let c := set_attr c (nn_name directed nd dd) (VVec f) in
                        (match c (nn_name directed nd dd) with Some v => Ok v | None => Raise AttributeError end, c)
              end
          end
      end
  end.

Lemma new_nn_spec : forall c nd dd sl dr, truthful c ->
  let p := new_nn nd dd sl dr c in
  fst p = pure_nn_degree nd dd sl /\ truthful (snd p) /\
  (forall d a b, nn_name d a b <> nn_name directed nd dd -> snd p (nn_name d a b) = c (nn_name d a b)) /\
  (forall v, snd p (nn_name directed nd dd) = Some v -> c (nn_name directed nd dd) = Some v \/ pure_nn_degree nd dd sl = Ok v).
Proof.
  intros c nd dd sl dr H. cbv zeta. unfold new_nn, pure_nn_degree.
  destruct sl as [sl|]; [|repeat split; auto].
  destruct (degree_of directed (dir_of dd)) as [m|]; [|repeat split; auto].
  pose proof (get_fst c m dr H) as F. pose proof (get_truthful c m dr H) as T. pose proof (get_nn c m dr) as K.
  destruct (get m dr c) as [v c1]. cbn [fst snd] in *. subst v.
  destruct (compute m) as [v|e]; [|cbn; repeat split; auto; intros v; rewrite K; auto].
  cbn [bind]. destruct (as_vec v) as [deg|e]; [|cbn; repeat split; auto; intros w; rewrite K; auto]. cbn [bind].
  destruct (property_spec c1 N deg nd (Some sl) false T) as [P1 [P2 P3]].
  destruct (nn_property N deg nd (Some sl) false c1) as [r c2]. cbn [fst snd] in *. rewrite <- P1.
  destruct r as [f|e]; cbn [bind]; [|cbn; repeat split; auto; [intros; rewrite P3; apply K | intros w; rewrite P3, K; auto]].
  cbv zeta. rewrite set_same. cbn [fst snd]. split; [reflexivity|]. split; [|split].
  - intros m' v' E. rewrite set_other in E by apply nn_not_attr. apply P2, E.
  - intros d a b D. rewrite set_other by congruence. rewrite P3. apply K.
  - intros w E. rewrite set_same in E. right. congruence.
Qed.

Lemma nn_degree_cases : forall nd dd sl r dr c,
  nn_degree nd dd sl r dr c = new_nn nd dd sl dr c \/
  exists v, c (nn_name directed nd dd) = Some v /\ nn_degree nd dd sl r dr c = (Ok v, c).
Proof.
  intros. unfold GraphState.nn_degree, new_nn. destruct (c (nn_name directed nd dd)) as [v|] eqn:E; [|left; reflexivity].
  destruct (r || dr); [left; reflexivity|right]. exists v. auto.
Qed.

Lemma nn_degree_truthful : forall nd dd sl r dr c, truthful c -> truthful (snd (nn_degree nd dd sl r dr c)).
Proof.
  intros nd dd sl r dr c H. destruct (nn_degree_cases nd dd sl r dr c) as [->|[v [_ ->]]]; [|exact H].
  apply (new_nn_spec c nd dd sl dr H).
Qed.

Lemma ask_truthful : forall q c, truthful c -> truthful (snd (ask q c)).
Proof.
  intros q c H. destruct q as [m r|len prop nd sl dr|nd dd sl r dr]; cbn [GraphState.ask].
  - apply get_truthful, H.
  - destruct (property_spec c len prop nd sl dr H) as [_ [P _]].
    destruct (nn_property len prop nd sl dr c) as [r c1]. exact P.
  - apply nn_degree_truthful, H.
Qed.

Lemma no_cache_truthful : truthful no_cache.
Proof. intros m v E. discriminate E. Qed.

Lemma after_truthful : forall qs, truthful (after qs).
Proof.
  intros qs. unfold GraphState.after. generalize no_cache_truthful. generalize no_cache as c.
  induction qs as [|q qs IH]; intros c H; [exact H|]. cbn. apply IH, ask_truthful, H.
Qed.

(** Queries other than the cached nearest neighbour degree. *)
Definition plain (q : query) : Prop := match q with QNnDegree _ _ _ _ _ => False | _ => True end.

Lemma plain_answer : forall qs q, plain q -> fst (ask q (after qs)) = fst (ask q no_cache).
Proof.
  intros qs q P. pose proof (after_truthful qs) as T. destruct q as [m r|len prop nd sl dr|nd dd sl r dr]; [| |destruct P]; cbn [GraphState.ask].
  - rewrite !get_fst by (exact T || exact no_cache_truthful). reflexivity.
  - destruct (property_spec (after qs) len prop nd sl dr T) as [P1 _].
    destruct (property_spec no_cache len prop nd sl dr no_cache_truthful) as [P2 _].
    destruct (nn_property len prop nd sl dr (after qs)) as [r1 c1], (nn_property len prop nd sl dr no_cache) as [r2 c2].
    cbn [fst] in *. subst. reflexivity.
Qed.

(** [q] asks for nearest neighbour degrees only with option [sl] and documented directions. *)
Definition nn_uses (sl : option bool) (q : query) : Prop :=
  match q with
  | QNnDegree nd dd sl' _ _ => sl' = sl /\ (directed = true -> known_dir nd /\ known_dir dd)
  | _ => True
  end.

Lemma ask_truthful_nn : forall sl q c, truthful c -> truthful_nn sl c -> nn_uses sl q -> truthful_nn sl (snd (ask q c)).
Proof.
  intros sl q c T H U. destruct q as [m r|len prop nd sl' dr|nd dd sl' r dr]; cbn [GraphState.ask].
  - intros a b v K E. rewrite get_nn in E. apply H; assumption.
  - destruct (property_spec c len prop nd sl' dr T) as [_ [_ P]].
    destruct (nn_property len prop nd sl' dr c) as [r c1]. cbn [snd] in *. intros a b v K E. rewrite P in E. apply H; assumption.
  - destruct U as [-> Kd]. destruct (nn_degree_cases nd dd sl r dr c) as [->|[v [_ ->]]]; [|exact H].
    destruct (new_nn_spec c nd dd sl dr T) as [_ [_ [P3 P4]]]. intros a b v K E.
    destruct (String.eqb_spec (nn_name directed a b) (nn_name directed nd dd)) as [Q|Q].
    + assert (Z : pure_nn_degree a b sl = pure_nn_degree nd dd sl).
      { unfold pure_nn_degree, pure_property. destruct directed.
        - destruct (K eq_refl) as [A B], (Kd eq_refl) as [A' B']. destruct (nn_name_inj _ _ _ _ A B A' B' Q) as [-> ->]. reflexivity.
        - unfold degree_of. destruct sl as [sl|]; [|reflexivity].
          destruct (compute MDegree) as [x|e]; [|reflexivity]. cbn [bind]. destruct (as_vec x) as [deg|e]; [|reflexivity]. cbn [bind].
          rewrite (body_dir eq_refl (dir_of a) (dir_of nd)). reflexivity. }
      rewrite Z. rewrite Q in E. destruct (P4 v E) as [E'|E']; [|exact E']. apply H; [assumption|exact E'].
    + rewrite P3 in E by exact Q. apply H; assumption.
Qed.

Lemma after_truthful_nn : forall sl qs, Forall (nn_uses sl) qs -> truthful_nn sl (after qs).
Proof.
  intros sl qs F. unfold GraphState.after. generalize no_cache_truthful.
  assert (H0 : truthful_nn sl no_cache) by (intros a b v _ E; discriminate E). revert H0. generalize no_cache as c.
  induction F as [|q qs Hq F IH]; intros c H0 H; [exact H0|]. cbn. apply IH; [|apply ask_truthful, H]. apply ask_truthful_nn; assumption.
Qed.

Lemma nn_answer : forall sl qs q, Forall (nn_uses sl) qs -> nn_uses sl q -> fst (ask q (after qs)) = fst (ask q no_cache).
Proof.
  intros sl qs q F U. destruct q as [m r|len prop nd sl' dr|nd dd sl' r dr]; [apply plain_answer; exact I|apply plain_answer; exact I|].
  destruct U as [-> K]. cbn [GraphState.ask].
  assert (E0 : fst (nn_degree nd dd sl r dr no_cache) = pure_nn_degree nd dd sl).
  { destruct (nn_degree_cases nd dd sl r dr no_cache) as [->|[v [E _]]]; [|discriminate E].
    apply (new_nn_spec no_cache nd dd sl dr no_cache_truthful). }
  rewrite E0. destruct (nn_degree_cases nd dd sl r dr (after qs)) as [->|[v [E ->]]].
  - apply (new_nn_spec (after qs) nd dd sl dr (after_truthful qs)).
  - symmetry. apply (after_truthful_nn sl qs F nd dd v K E).
Qed.

(** A query that is told to recompute never reads the cache. *)
Lemma recompute_answer : forall qs nd dd sl r dr, r || dr = true ->
  fst (nn_degree nd dd sl r dr (after qs)) = fst (nn_degree nd dd sl r dr no_cache).
Proof.
  intros qs nd dd sl r dr Hr.
  assert (E : forall c, nn_degree nd dd sl r dr c = new_nn nd dd sl dr c).
  { intros c. unfold GraphState.nn_degree, new_nn. rewrite Hr. destruct (c (nn_name directed nd dd)); reflexivity. }
  rewrite !E. destruct (new_nn_spec (after qs) nd dd sl dr (after_truthful qs)) as [-> _].
  destruct (new_nn_spec no_cache nd dd sl dr no_cache_truthful) as [-> _]. reflexivity.
Qed.
End Object.

Lemma sparse_body_ok : forall N s gr, body_agrees (sparse_body N s gr) (sparse_compute N s gr).
Proof.
  intros N s gr m.
  assert (D : forall m', match (do v <- sparse_compute N s gr m' ; Ok [(m', v)]) with
    | Ok l => In m' (map fst l) /\ forall j v, In (j, v) l -> sparse_compute N s gr j = Ok v
    | Raise e => sparse_compute N s gr m' = Raise e end).
  { intros m'. destruct (sparse_compute N s gr m') as [v|e] eqn:E; cbn [bind]; [|reflexivity]. split; [left; reflexivity|].
    intros j w [Q|[]]. injection Q as <- <-. exact E. }
  destruct m; try apply D; cbn [sparse_body]; unfold sparse_out_in, sparse_out_in_group; cbn [sparse_compute];
    unfold out_degree, in_degree, out_degree_by_group, in_degree_by_group, by_group, guard; destruct (is_directed s) eqn:Ed; try reflexivity;
    destruct (adjacency_matrix N s true false) as [A|e] eqn:EA; try reflexivity; cbn [bind];
    try (destruct gr as [[ng g]|]; try reflexivity; cbn [bind]);
    (split; [cbn; auto|]); intros j v [Q|[Q|[]]]; injection Q as <- <-; cbn [sparse_compute];
    unfold out_degree, in_degree, out_degree_by_group, in_degree_by_group, by_group, guard; rewrite Ed, EA; reflexivity.
Qed.

Lemma per_label_ok : forall A n (g : nat -> A), fold_right (fun l acc => do x <- Ok (g l) ; do t <- acc ; Ok (x :: t)) (Ok []) (seq 0 n) = Ok (map g (seq 0 n)).
Proof. intros A n g. generalize 0%nat as a. induction n as [|n IH]; intros a; [reflexivity|]. cbn. rewrite IH. reflexivity. Qed.

Lemma dense_body_ok : forall N w s gr, body_agrees (dense_body N w s gr) (dense_compute N w s gr).
Proof.
  intros N w s gr m.
  assert (D : forall m', match (do v <- dense_compute N w s gr m' ; Ok [(m', v)]) with
    | Ok l => In m' (map fst l) /\ forall j v, In (j, v) l -> dense_compute N w s gr j = Ok v
    | Raise e => dense_compute N w s gr m' = Raise e end).
  { intros m'. destruct (dense_compute N w s gr m') as [v|e] eqn:E; cbn [bind]; [|reflexivity]. split; [left; reflexivity|].
    intros j x [Q|[]]. injection Q as <- <-. exact E. }
  destruct m; try apply D; cbn [dense_body].
  1,2: unfold dense_out_in, guard; destruct (d_directed s) eqn:Ed; [|cbn; unfold d_out_degree, d_in_degree, guard; rewrite Ed; reflexivity];
    (split; [cbn; auto|]); intros j v [Q|[Q|[]]]; injection Q as <- <-; cbn; unfold d_out_degree, d_in_degree, guard; rewrite Ed; reflexivity.
  1,2: unfold dense_out_in_group, d_by_group, guard; destruct (d_directed s) eqn:Ed; [|cbn; unfold d_out_degree_by_group, d_in_degree_by_group, guard; rewrite Ed; reflexivity];
    destruct gr as [[ng g]|]; cbn [bind]; [|cbn; unfold d_out_degree_by_group, d_in_degree_by_group, d_by_group, guard; rewrite Ed; reflexivity];
    (split; [cbn; auto|]); intros j v [Q|[Q|[]]]; injection Q as <- <-; cbn; unfold d_out_degree_by_group, d_in_degree_by_group, d_by_group, guard; rewrite Ed; reflexivity.
  1,2: destruct s as [A|A|n A|n A]; cbn [dense_out_in_label]; try reflexivity;
    (split; [cbn; auto|]); intros j v [Q|[Q|[]]]; injection Q as <- <-; cbn [dense_compute per_label d_directed guard]; unfold d_out_degree_by_label, d_in_degree_by_label;
    rewrite per_label_ok; reflexivity.
Qed.

Lemma sparse_body_dir : forall N s, is_directed s = false -> forall d d' prop sl deg, sparse_nn_body N s d prop sl deg = sparse_nn_body N s d' prop sl deg.
Proof. intros N s E d d' prop sl deg. unfold sparse_nn_body. rewrite E. reflexivity. Qed.
Lemma dense_body_dir : forall N w s, d_directed s = false -> forall d d' prop sl deg, dense_nn_body N w s d prop sl deg = dense_nn_body N w s d' prop sl deg.
Proof. intros N w s E d d' prop sl deg. unfold dense_nn_body. rewrite E. reflexivity. Qed.

(** The values a new object gives are those of the measures of Graphs.v and DenseGraphs.v. *)
Lemma sparse_fresh_measure : forall N s gr m r, fst (sparse_ask N s gr (QMeasure m r) no_cache) = sparse_compute N s gr m.
Proof. intros. unfold sparse_ask. cbn [ask]. apply get_fst; [apply sparse_body_ok|apply no_cache_truthful]. Qed.
Lemma dense_fresh_measure : forall N w s gr m r, fst (dense_ask N w s gr (QMeasure m r) no_cache) = dense_compute N w s gr m.
Proof. intros. unfold dense_ask. cbn [ask]. apply get_fst; [apply dense_body_ok|apply no_cache_truthful]. Qed.

Lemma sparse_fresh_property : forall N s gr len prop nd sl dr,
  fst (sparse_ask N s gr (QProperty len prop nd sl dr) no_cache) = ok_vec (average_nn_property N s len prop (dir_of nd) sl).
Proof.
  intros. unfold sparse_ask. cbn [ask].
  destruct (property_spec N (is_directed s) (sparse_body N s gr) (sparse_nn_body N s) (sparse_compute N s gr) (sparse_body_ok N s gr)
    no_cache len prop nd sl dr (no_cache_truthful _)) as [E _].
  destruct (nn_property N (is_directed s) (sparse_body N s gr) (sparse_nn_body N s) len prop nd sl dr no_cache) as [r c] eqn:Q.
  cbn [fst] in E. subst r. cbn [fst]. unfold ok_vec. f_equal. unfold pure_property, average_nn_property, guard.
  destruct (Nat.eqb len N); [|reflexivity]. destruct sl as [sl|]; [|reflexivity]. unfold degree_of, sparse_nn_body.
  destruct (is_directed s); [destruct (dir_of nd)|]; cbn [sparse_compute]; unfold ok_vec;
    repeat match goal with |- context [bind ?x _] => match x with bind _ _ => fail 1 | _ => destruct x; cbn [bind as_vec] end end; reflexivity.
Qed.

Lemma sparse_fresh_nn_degree : forall N s gr nd dd sl r dr,
  fst (sparse_ask N s gr (QNnDegree nd dd (Some sl) r dr) no_cache) =
  match degree_of (is_directed s) (dir_of dd) with
  | None => Raise ValueError
  | Some m => do v <- sparse_compute N s gr m ; do deg <- as_vec v ; ok_vec (average_nn_property N s N deg (dir_of nd) (Some sl))
  end.
Proof.
  intros. unfold sparse_ask. cbn [ask].
  destruct (nn_degree_cases N (is_directed s) (sparse_body N s gr) (sparse_nn_body N s) nd dd (Some sl) r dr no_cache) as [->|[v [E _]]]; [|discriminate E].
  destruct (new_nn_spec N (is_directed s) (sparse_body N s gr) (sparse_nn_body N s) (sparse_compute N s gr) (sparse_body_ok N s gr)
    no_cache nd dd (Some sl) dr (no_cache_truthful _)) as [-> _].
  unfold pure_nn_degree. destruct (degree_of (is_directed s) (dir_of dd)) as [m|]; [|reflexivity].
  destruct (sparse_compute N s gr m) as [v|e]; [|reflexivity]. cbn [bind]. destruct (as_vec v) as [deg|e]; [|reflexivity]. cbn [bind].
  pose proof (sparse_fresh_property N s gr N deg nd (Some sl) false) as P. unfold sparse_ask in P. cbn [ask] in P.
  destruct (property_spec N (is_directed s) (sparse_body N s gr) (sparse_nn_body N s) (sparse_compute N s gr) (sparse_body_ok N s gr)
    no_cache N deg nd (Some sl) false (no_cache_truthful _)) as [E _].
  destruct (nn_property N (is_directed s) (sparse_body N s gr) (sparse_nn_body N s) N deg nd (Some sl) false no_cache) as [r1 c1].
  cbn [fst] in E, P. rewrite <- E. exact P.
Qed.

(** Once computed, the value is returned whatever the other arguments, if the name is the same. *)
Lemma nn_reuse : forall N directed body nn_body nd dd nd' dd' sl sl' r dr c v,
  nn_name directed nd dd = nn_name directed nd' dd' ->
  fst (nn_degree N directed body nn_body nd dd sl r dr c) = Ok v ->
  let c' := snd (nn_degree N directed body nn_body nd dd sl r dr c) in
  c' (nn_name directed nd dd) = Some v /\ fst (nn_degree N directed body nn_body nd' dd' sl' false false c') = Ok v.
Proof.
  intros N directed body nn_body nd dd nd' dd' sl sl' r dr c v E H c'.
  assert (Q : c' (nn_name directed nd dd) = Some v).
  { unfold c'. destruct (nn_degree_cases N directed body nn_body nd dd sl r dr c) as [K|[w [Kc K]]]; rewrite K in *; [|cbn in *; congruence].
    unfold new_nn in *. destruct sl as [sl|]; [|discriminate H]. destruct (degree_of directed (dir_of dd)) as [m|]; [|discriminate H].
    destruct (get body m dr c) as [x c1]. destruct (do v <- x ; as_vec v) as [deg|e]; [|discriminate H].
    destruct (nn_property N directed body nn_body N deg nd (Some sl) false c1) as [f c2]. destruct f as [f|e]; [|discriminate H].
    cbv zeta in *. rewrite set_same in H. cbn [fst snd] in *. rewrite set_same. injection H as ->. reflexivity. }
  split; [exact Q|]. unfold nn_degree. cbn [orb]. rewrite E in Q. rewrite Q. reflexivity.
Qed.
