(** The warnings of the graph constructors about vertices without edges: sparse/graphs.py 194-211 and
    graphs.py 192-209, with facts on them.  The classes of multigraphs call this constructor on the whole edge
    table (sparse/graphs.py 889-891, graphs.py 817-819), so the warning is the same. *)
From Verif Require Import Base Num Spec Ids Ensemble Lib IdFacts Graphs GraphFacts DenseGraphs DenseFacts.
Import Num Spec.
From Coq Require Import Sorting.Sorted.

Section Model.
Context {ID : Type}.

(** No warning, "... vertex has no edges." or "[...] vertices have no edges." *)
(** sparse/graphs.py:70-211 (Graph.__init__); graphs.py:70-209
    (Graph.__init__) *)
Inductive warning := Silent | OneVertex (x : ID) | Vertices (names : list ID).

(** [list(self.id_dict.keys())[idx]] *)
(** sparse/graphs.py:70-211 (Graph.__init__); graphs.py:70-209
    (Graph.__init__) *)
Definition key_at (ids : dict ID) (idx : nat) : res ID :=
  match nth_error ids idx with Some p => Ok (fst p) | None => Raise IndexError end.
Fixpoint keys_at (ids : dict ID) (l : list nat) : res (list ID) :=
  match l with
  | [] => Ok []
  | i :: t => do x <- key_at ids i ; do names <- keys_at ids t ; Ok (x :: names)
  end.

(** sparse/graphs.py 199-211, graphs.py 197-209: [d] is the undirected degree. *)
Definition warn_zero (N : nat) (ids : dict ID) (d : nat -> R) : res warning :=
  let zero_idx := filter (fun i => Reqb (d i) 0) (seq 0 N) in
  if Nat.eqb (length zero_idx) 1 then do x <- key_at ids (nth 0 zero_idx 0%nat) ; Ok (OneVertex x)
  else if Nat.ltb 1 (length zero_idx) then do names <- keys_at ids zero_idx ; Ok (Vertices names)
  else Ok Silent.

(** sparse/graphs.py 194-197 and graphs.py 192-195 *)
Definition sparse_warning (N : nat) (ids : dict ID) (A : spm) : res warning :=
  warn_zero N ids (sum_axis1 (either_way N A)).
Definition dense_warning (N : nat) (ids : dict ID) (D : mat) : res warning :=
  warn_zero N ids (d_sum1 N (d_either D)).
End Model.
Arguments warning : clear implicits.

(** The identifiers named by a warning. *)
(** sparse/graphs.py:70-211 (Graph.__init__); graphs.py:70-209
    (Graph.__init__) *)
Definition named {ID} (w : warning ID) : list ID :=
  match w with Silent => [] | OneVertex x => [x] | Vertices l => l end.

Lemma keys_sub : forall ID (ids : dict ID) (sub : list (ID * nat)),
  Forall (fun xi => nth_error ids (snd xi) = Some xi) sub -> keys_at ids (map snd sub) = Ok (map fst sub).
Proof.
  intros ID ids sub H. induction H as [|[x i] sub Hx _ IH]; [reflexivity|]. cbn [map keys_at fst snd] in *.
  unfold key_at. rewrite Hx. cbn [bind fst]. rewrite IH. reflexivity.
Qed.

Lemma nth_enum : forall K (l : list K) s k x i, nth_error (combine l (seq s (length l))) k = Some (x, i) -> i = (s + k)%nat /\ nth_error l k = Some x.
Proof.
  induction l as [|y l IH]; intros s k x i H; [destruct k; discriminate|]. destruct k as [|k]; cbn in H.
  - injection H as -> ->. split; [lia | reflexivity].
  - apply IH in H as [-> H]. split; [lia | exact H].
Qed.

Lemma in_enum : forall K (l : list K) x i, In (x, i) (combine l (seq 0 (length l))) ->
  nth_error (combine l (seq 0 (length l))) i = Some (x, i) /\ nth_error l i = Some x.
Proof. intros K l x i H. apply In_nth_error in H as [k H]. pose proof (nth_enum _ _ _ _ _ _ H) as [-> E]. split; assumption. Qed.

Lemma filter_enum : forall K (l : list K) s (p : nat -> bool),
  map snd (filter (fun xi => p (snd xi)) (combine l (seq s (length l)))) = filter p (seq s (length l)).
Proof.
  induction l as [|y l IH]; intros s p; [reflexivity|]. cbn [length seq combine filter snd].
  destruct (p s); cbn [map snd]; rewrite IH; reflexivity.
Qed.

Lemma sorted_sub : forall K (lt : K -> K -> Prop) (l : list (K * nat)) (p : K * nat -> bool), StronglySorted lt (map fst l) ->
  StronglySorted lt (map fst (filter p l)).
Proof.
  intros K lt l p. induction l as [|[x i] l IH]; cbn; intros H; [constructor|]. apply StronglySorted_inv in H as [H1 H2].
  destruct (p (x, i)); [|apply IH, H1]. cbn. constructor; [apply IH, H1|].
  rewrite Forall_forall in *. intros y Hy. apply H2. apply in_map_iff in Hy as [[z j] [<- Hz]]. apply filter_In in Hz as [Hz _].
  apply in_map_iff. exists (z, j). auto.
Qed.

Lemma fst_enum : forall K (l : list K) s, map fst (combine l (seq s (length l))) = l.
Proof. induction l as [|y l IH]; intros s; [reflexivity|]. cbn. rewrite IH. reflexivity. Qed.

Section Facts.
Context {ID G Lb : Type} (leb_id : ID -> ID -> bool) (leb_g : G -> G -> bool).
Context (oid : total_order leb_id) (og : total_order leb_g).

(** The dictionary of an accepted table. *)
Lemma ids_enum : forall grouped sl dl w v (e : list (erow ID Lb)) b,
  read_tables leb_id leb_g grouped sl dl w v e = Ok b ->
  b_ids b = enum_of leb_id (map fst v) /\ b_n b = length (np_unique leb_id (map fst v)).
Proof.
  intros grouped sl dl w v e b H. pose proof (read_tables_ok leb_id leb_g oid og _ _ _ _ _ _ _ H) as (Hn & _ & _ & Hb & _ & _ & -> & Hr & _).
  destruct (build leb_id leb_g oid og grouped dl w v e Hn Hr) as (gr & E & _). rewrite E in H. injection H as <-. cbn [b_ids b_n].
  split; [reflexivity|]. rewrite (unique_length leb_id oid _ Hn), map_length. reflexivity.
Qed.

Lemma warn_spec : forall (ids : dict ID) (l : list ID) (d : nat -> R), StronglySorted (ltk leb_id) l -> ids = combine l (seq 0 (length l)) ->
  exists w, warn_zero (length l) ids d = Ok w /\
    (w = Silent <-> named w = []) /\ (forall x, w = OneVertex x <-> named w = [x]) /\
    (forall k x, nth_error l k = Some x -> (In x (named w) <-> d k = 0)) /\
    (forall x, In x (named w) -> In x l) /\ StronglySorted (ltk leb_id) (named w).
Proof.
  intros ids l d Hs Hids.
  set (sub := filter (fun xi : ID * nat => Reqb (d (snd xi)) 0) ids).
  assert (Z : filter (fun i => Reqb (d i) 0) (seq 0 (length l)) = map snd sub).
  { unfold sub. rewrite Hids. symmetry. apply (filter_enum ID l 0 (fun i => Reqb (d i) 0)). }
  assert (F : Forall (fun xi => nth_error ids (snd xi) = Some xi) sub).
  { rewrite Forall_forall. intros [x i] H. apply filter_In in H as [H _]. rewrite Hids in *. apply in_enum in H as [H _]. exact H. }
  assert (M1 : forall k x, nth_error l k = Some x -> (In x (map fst sub) <-> d k = 0)).
  { intros k x Hk. split.
    - intros H. apply in_map_iff in H as [[y i] [E H]]. cbn in E. subst y. apply filter_In in H as [H Hd]. cbn in Hd.
      rewrite Hids in H. apply in_enum in H as [_ H].
      assert (i = k) as ->. { apply (NoDup_nth_error l); [apply (sorted_nodup leb_id _ Hs)|apply nth_error_Some; congruence|congruence]. }
      destruct (Reqb_spec (d k) 0); [assumption | discriminate].
    - intros H. apply in_map_iff. exists (x, k). split; [reflexivity|]. apply filter_In. cbn. split; [|apply Reqb_true; exact H].
      rewrite Hids. assert (K : (k < length l)%nat) by (apply nth_error_Some; congruence).
      destruct (nth_error (combine l (seq 0 (length l))) k) as [[y i]|] eqn:E.
      + pose proof (nth_enum _ _ _ _ _ _ E) as [-> E2]. rewrite Hk in E2. injection E2 as ->. apply (nth_error_In _ _ E).
      + apply nth_error_None in E. rewrite combine_length, seq_length in E. lia. }
  assert (M2 : forall x, In x (map fst sub) -> In x l).
  { intros x H. apply in_map_iff in H as [[y i] [E H]]. cbn in E. subst y. apply filter_In in H as [H _]. rewrite Hids in H.
    apply in_enum in H as [_ H]. apply (nth_error_In _ _ H). }
  assert (M3 : StronglySorted (ltk leb_id) (map fst sub)).
  { unfold sub. apply sorted_sub. rewrite Hids, fst_enum. exact Hs. }
  unfold warn_zero. cbv zeta. rewrite Z.
  destruct sub as [|[x i] [|[y j] t]] eqn:Es.
  - exists Silent. cbn [named]. split; [reflexivity|]. split; [split; reflexivity|]. split; [intros z; split; discriminate|].
    split; [exact M1|]. split; [exact M2 | exact M3].
  - cbn [map length Nat.eqb nth snd]. inversion F as [|? ? Fx _]. cbn [snd] in Fx. unfold key_at. rewrite Fx. cbn [bind fst].
    exists (OneVertex x). cbn [named map fst] in *. split; [reflexivity|]. split; [split; discriminate|].
    split; [intros z; split; intros K; injection K as ->; reflexivity|]. split; [exact M1|]. split; [exact M2 | exact M3].
  - cbn [map length Nat.eqb Nat.ltb Nat.leb]. change (snd (x, i) :: snd (y, j) :: map snd t) with (map snd ((x, i) :: (y, j) :: t)).
    rewrite (keys_sub _ _ _ F). cbn [bind]. exists (Vertices (map fst ((x, i) :: (y, j) :: t))). cbn [named].
    split; [reflexivity|]. split; [split; discriminate|]. split; [intros z; split; discriminate|]. split; [exact M1|]. split; [exact M2 | exact M3].
Qed.

(** A row total of links both ways is zero exactly when no row of the table has the vertex at an end. *)
Lemma no_rows : forall (v : list (ID * G)) (e : list (erow ID Lb)) N (ids : dict ID) (q : nat -> nat -> R) x i,
  enumerates leb_id ids (map fst v) -> length ids = N ->
  (forall r, In r e -> In (r_src r) (map fst v) /\ In (r_dst r) (map fst v)) ->
  (forall i j, 0 <= q i j) ->
  (forall y z i j, dict_get leb_id ids y = Some i -> dict_get leb_id ids z = Some j ->
     (q i j = 0 <-> existsb (row_matches leb_id y z) e = false /\ existsb (row_matches leb_id z y) e = false)) ->
  dict_get leb_id ids x = Some i ->
  (sumn N (fun j => q i j) = 0 <-> forall r, In r e -> r_src r <> x /\ r_dst r <> x).
Proof.
  intros v e N ids q x i (E1 & E2 & E3 & E4 & E5) HN Hr Hq HQ Hx.
  assert (S : sumn N (fun j => q i j) = 0 <-> forall j, (j < N)%nat -> q i j = 0).
  { split; [|intros H; apply sumn_zero; exact H]. intros H j Hj. pose proof (sumn_ge_term N (fun j => q i j) j (fun k _ => Hq i k) Hj).
    cbv beta in *. pose proof (Hq i j). lra. }
  rewrite S. clear S. split.
  - intros H r Hin. destruct (Hr r Hin) as [Hs Hd]. apply E1 in Hs as [s Es]. apply E1 in Hd as [d Ed]. split; intros K.
    + assert (s = i) by congruence. subst s.
      assert (Q : q i d = 0) by (apply H; rewrite <- HN; apply (E2 _ _ Ed)). apply (HQ (r_src r) (r_dst r)) in Q; [|assumption..].
      destruct Q as [Q _]. assert (T : existsb (row_matches leb_id (r_src r) (r_dst r)) e = true); [|congruence].
      apply existsb_exists. exists r. split; [exact Hin|]. unfold row_matches.
      change (same leb_id (r_src r) (r_src r) && same leb_id (r_dst r) (r_dst r) = true). rewrite !(same_refl leb_id oid). reflexivity.
    + assert (d = i) by congruence. subst d.
      assert (Q : q i s = 0) by (apply H; rewrite <- HN; apply (E2 _ _ Es)). apply (HQ (r_dst r) (r_src r)) in Q; [|assumption..].
      destruct Q as [_ Q]. assert (T : existsb (row_matches leb_id (r_src r) (r_dst r)) e = true); [|congruence].
      apply existsb_exists. exists r. split; [exact Hin|]. unfold row_matches.
      change (same leb_id (r_src r) (r_src r) && same leb_id (r_dst r) (r_dst r) = true). rewrite !(same_refl leb_id oid). reflexivity.
  - intros H j Hj. rewrite <- HN in Hj. destruct (E3 j Hj) as (y & _ & Hy). apply (HQ x y i j Hx Hy).
    assert (K : forall a c, (a = x \/ c = x) -> existsb (row_matches leb_id a c) e = false).
    { intros a c Hac. destruct (existsb (row_matches leb_id a c) e) eqn:T; [|reflexivity]. exfalso.
      apply existsb_exists in T as (r & Hin & T). unfold row_matches in T. apply andb_prop in T as [T1 T2].
      change (same leb_id a (r_src r) = true) in T1. change (same leb_id c (r_dst r) = true) in T2.
      destruct (same_spec leb_id oid a (r_src r)); [|discriminate]. destruct (same_spec leb_id oid c (r_dst r)); [|discriminate].
      destruct (H r Hin) as [K1 K2]. destruct Hac; subst; auto. }
    split; apply K; auto.
Qed.
End Facts.
