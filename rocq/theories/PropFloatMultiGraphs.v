(** Property C116: strengths of weighted multigraphs in double precision. *)
From Verif Require Import Base Num Spec Graphs GraphFacts Float FloatFacts PropFloat FloatGraphs PropFloatGraphs FloatMultiGraphs PropFloatPipeline.
Import Num Spec.
From Coq Require Import Lra Lia Permutation.

Open Scope R_scope.
Local Notation hits := Graphs.hits.
Local Notation edge := (nat * nat * R)%type.

Section Any.
Variable rn : R -> num.
Variables dup axis : list num -> plan.
Hypothesis Hdup : reorders dup.
Hypothesis Haxis : reorders axis.
Variable N : nat.

(** A matrix whose entries are sums over the rows of a table. *)
Definition table_of (e : list edge) (P : nat -> list (nat * num)) : Prop :=
  exists f, (forall i, P i = map (fun j => (j, f i j)) (filter (fun j => existsb (hits i j) e) (seq 0 N))) /\ forall i j, (j < N)%nat -> summed rn (filter (hits i j) e) (f i j).

Lemma coo_table : forall e, table_of e (rcoo_row rn dup N e).
Proof. intros e. exists (cell rn dup e). split; [reflexivity|]. intros i j _. apply (cell_summed rn dup Hdup e). Qed.

Lemma table_get : forall e P i j, table_of e P -> (j < N)%nat -> summed rn (filter (hits i j) e) (rget (P i) j) /\ existsb (Nat.eqb j) (map fst (P i)) = existsb (hits i j) e.
Proof.
  intros e P i j (f & EP & F) Hj. rewrite EP. split.
  - assert (G : forall l, In j l -> rget (map (fun j => (j, f i j)) (filter (fun j => existsb (hits i j) e) l)) j = if existsb (hits i j) e then f i j else Fin 0).
    { induction l as [|k l IH]; intros Hl; [contradiction|]. cbn [filter]. destruct (Nat.eq_dec k j) as [->|D].
      - destruct (existsb (hits i j) e) eqn:X; [cbn [map rget]; rewrite Nat.eqb_refl; reflexivity|]. destruct (in_dec Nat.eq_dec j l) as [I|I]; [exact (IH I)|].
        clear IH Hl. induction l as [|k l IH]; [reflexivity|]. cbn [filter]. destruct (existsb (hits i k) e); cbn [map rget]; [|apply IH; intros Q; apply I; right; exact Q].
        destruct (Nat.eqb_spec k j) as [->|]; [exfalso; apply I; left; reflexivity | apply IH; intros Q; apply I; right; exact Q].
      - destruct Hl as [|Hl]; [contradiction|]. destruct (existsb (hits i k) e); cbn [map rget]; [rewrite (proj2 (Nat.eqb_neq k j) D)|]; exact (IH Hl). }
    rewrite G by (apply in_seq; lia). destruct (existsb (hits i j) e) eqn:X; [apply F, Hj|]. rewrite (no_hits e i j X). constructor.
  - rewrite map_map. cbn [fst]. rewrite map_id. destruct (existsb (hits i j) e) eqn:X.
    + apply existsb_exists. exists j. split; [apply filter_In; split; [apply in_seq; lia | exact X] | apply Nat.eqb_refl].
    + destruct (existsb (Nat.eqb j) _) eqn:Y; [|reflexivity]. apply existsb_exists in Y as (z & Hz & Ez). apply Nat.eqb_eq in Ez. subst z. apply filter_In in Hz as [_ Hz]. congruence.
Qed.
Lemma add_table : forall e e' A B, table_of e A -> table_of e' B -> table_of (e ++ e') (radd_rows rn N A B).
Proof.
  intros e e' A B HA HB. exists (fun i j => radd rn (rget (A i) j) (rget (B i) j)). split.
  - intros i. unfold radd_rows. f_equal. apply filter_ext_in. intros j Hj. apply in_seq in Hj.
    rewrite (proj2 (table_get e A i j HA ltac:(lia))), (proj2 (table_get e' B i j HB ltac:(lia))), existsb_app. reflexivity.
  - intros i j Hj. rewrite filter_app. apply summed_add; [apply (table_get e A i j HA Hj) | apply (table_get e' B i j HB Hj)].
Qed.

Variables (e : list edge) (P : nat -> list (nat * num)).
Hypothesis He : forall t, In t e -> (src t < N)%nat /\ (dst t < N)%nat.
Hypothesis HP : table_of e P.

Lemma table_out : forall i, summed rn (filter (fun t => Nat.eqb (src t) i) e) (rsum_axis1 rn axis P i).
Proof.
  intros i. destruct HP as (f & EP & F). unfold rsum_axis1. rewrite EP, map_map. cbn [snd].
  eapply summed_perm; [|apply (total_summed rn _ axis (f i) (fun j => filter (hits i j) e)); [exact Haxis|]].
  - apply (split_all (fun t => Nat.eqb (src t) i) dst); [apply cols_NoDup|]. intros t Ht Hp. apply filter_In. split; [apply in_seq; destruct (He t Ht); lia|].
    apply (hit_in e _ _ t Ht). rewrite hits_eq, Hp, Nat.eqb_refl. reflexivity.
  - intros j Hj. apply filter_In in Hj as [Hj _]. apply in_seq in Hj. apply F. lia.
Qed.
Lemma table_column : forall (f : nat -> nat -> num) j l, (j < N)%nat ->
  map snd (flat_map (fun i => filter (fun p => Nat.eqb (fst p) j) (map (fun j => (j, f i j)) (filter (fun j => existsb (hits i j) e) (seq 0 N)))) l) = map (fun i => f i j) (filter (fun i => existsb (hits i j) e) l).
Proof.
  intros f j l Hj. induction l as [|i l IH]; [reflexivity|]. cbn [flat_map filter]. rewrite map_app, IH.
  assert (G : forall l, NoDup l -> filter (fun p => Nat.eqb (fst p) j) (map (fun j => (j, f i j)) (filter (fun j => existsb (hits i j) e) l)) = if existsb (Nat.eqb j) l && existsb (hits i j) e then [(j, f i j)] else []).
  { clear. induction l as [|k l IH]; intros ND; [reflexivity|]. inversion ND as [|? ? Nk ND']; subst. cbn [filter existsb]. destruct (Nat.eqb_spec j k) as [<-|D].
    - assert (X : existsb (Nat.eqb j) l = false).
      { destruct (existsb (Nat.eqb j) l) eqn:X; [|reflexivity]. apply existsb_exists in X as (z & Hz & Ez). apply Nat.eqb_eq in Ez. subst z. contradiction. }
      rewrite X in IH. cbn [orb andb] in *. destruct (existsb (hits i j) e); cbn [map filter fst]; [rewrite Nat.eqb_refl|]; rewrite IH by assumption; reflexivity.
    - cbn [orb]. destruct (existsb (hits i k) e); cbn [map filter fst]; [rewrite (proj2 (Nat.eqb_neq k j)) by congruence|]; apply IH; assumption. }
  rewrite (G (seq 0 N) (seq_NoDup N 0)). replace (existsb (Nat.eqb j) (seq 0 N)) with true; [destruct (existsb (hits i j) e); reflexivity|].
  symmetry. apply existsb_exists. exists j. split; [apply in_seq; lia | apply Nat.eqb_refl].
Qed.
Lemma table_in : forall j, (j < N)%nat -> summed rn (filter (fun t => Nat.eqb (dst t) j) e) (rsum_axis0 rn axis N P j).
Proof.
  intros j Hj. destruct HP as (f & EP & F). unfold rsum_axis0. rewrite (flat_map_ext _ (fun i => filter (fun p => Nat.eqb (fst p) j) (map (fun j => (j, f i j)) (filter (fun j => existsb (hits i j) e) (seq 0 N))))) by (intros i; rewrite EP; reflexivity).
  rewrite (table_column f j _ Hj).
  eapply summed_perm; [|apply (total_summed rn _ axis (fun i => f i j) (fun i => filter (hits i j) e)); [exact Haxis | intros i _; apply F, Hj]].
  rewrite (flat_map_ext _ (fun i => filter (fun t => Nat.eqb (dst t) j && Nat.eqb (src t) i) e)).
  2:{ intros i. apply filter_same. intros t _. rewrite hits_eq. apply andb_comm. }
  apply (split_all (fun t => Nat.eqb (dst t) j) src); [apply cols_NoDup|]. intros t Ht Hp. apply filter_In. split; [apply in_seq; destruct (He t Ht); lia|].
  apply (hit_in e _ _ t Ht). rewrite hits_eq, Hp, Nat.eqb_refl. reflexivity.
Qed.
End Any.

Lemma projection_table : forall rn dup N E M, reorders dup -> table_of rn N (flat_map (layer E) (seq 0 (S M))) (rprojection rn dup N E (S M)).
Proof.
  intros rn dup N E M O. unfold rprojection. replace (S M - 1)%nat with M by lia. cbn [seq flat_map]. unfold for_each.
  assert (G : forall l A e, table_of rn N e A -> table_of rn N (e ++ flat_map (layer E) l) (fold_left (fun adj l => radd_rows rn N adj (rcoo_row rn dup N (layer E l))) l A)).
  { induction l as [|k l IH]; intros A e HA; cbn [flat_map fold_left]; [rewrite app_nil_r; exact HA|]. rewrite app_assoc. apply IH, add_table; [exact HA | apply coo_table, O]. }
  apply G, coo_table, O.
Qed.
Lemma layers_perm : forall (E : list (edge * nat)) M, Forall (fun t => (snd t < M)%nat) E -> Permutation (flat_map (layer E) (seq 0 M)) (map fst E).
Proof.
  intros E M F. induction E as [|[t l] E IH].
  - clear. cbn [map]. induction (seq 0 M) as [|k s IH]; [constructor | exact IH].
  - inversion F as [|? ? Hl F']; subst. cbn [snd] in Hl. cbn [map fst]. etransitivity; [|apply perm_skip, IH, F'].
    assert (G : forall s, NoDup s -> In l s -> Permutation (flat_map (layer ((t, l) :: E)) s) (t :: flat_map (layer E) s)).
    { assert (Off : forall s, ~ In l s -> flat_map (layer ((t, l) :: E)) s = flat_map (layer E) s).
      { induction s as [|k s IHs]; intros Q; [reflexivity|]. cbn [flat_map]. rewrite IHs by (intros X; apply Q; right; exact X). f_equal. unfold layer. cbn [filter snd].
        destruct (Nat.eqb_spec l k) as [->|]; [exfalso; apply Q; left; reflexivity | reflexivity]. }
      induction s as [|k s IHs]; intros ND Q; [contradiction|]. inversion ND as [|? ? Nk ND']; subst. cbn [flat_map]. destruct (Nat.eq_dec l k) as [<-|D].
      - rewrite (Off s Nk). unfold layer at 1. cbn [filter snd]. rewrite Nat.eqb_refl. reflexivity.
      - destruct Q as [Q|Q]; [congruence|]. unfold layer at 1. cbn [filter snd]. rewrite (proj2 (Nat.eqb_neq l k) D). fold (layer E k).
        etransitivity; [apply Permutation_app_head, IHs; assumption|]. symmetry. apply Permutation_middle. }
    apply G; [apply seq_NoDup | apply in_seq; lia].
Qed.
Lemma perm_filter : forall (p : edge -> bool) l l', Permutation l l' -> Permutation (filter p l) (filter p l').
Proof. intros p l l' H. induction H; cbn; [constructor | destruct (p x); [constructor|]; assumption | destruct (p x), (p y); try constructor; reflexivity | etransitivity; eassumption]. Qed.

Lemma layer_filter : forall (p : edge -> bool) (E : list (edge * nat)) l, filter p (layer E l) = map fst (filter (fun t => p (fst t) && Nat.eqb (snd t) l) E).
Proof.
  intros p E l. unfold layer. induction E as [|[t k] E IH]; [reflexivity|]. cbn [filter snd fst]. destruct (Nat.eqb k l); cbn [map filter fst].
  - rewrite andb_true_r. destruct (p t); cbn [map fst]; rewrite IH; reflexivity.
  - rewrite andb_false_r. exact IH.
Qed.
Lemma layer_in : forall (E : list (edge * nat)) l t, In t (layer E l) -> In t (map fst E).
Proof. intros E l t H. unfold layer in H. apply in_map_iff in H as (x & <- & Hx). apply filter_In in Hx as [Hx _]. apply in_map, Hx. Qed.
Lemma layer_table : forall N (E : list (edge * nat)) l, double_table N (map fst E) -> double_table N (layer E l).
Proof.
  intros N E l (F & S & L). rewrite Forall_forall in F. split; [|split].
  - apply Forall_forall. intros t Ht. apply F, (layer_in E l), Ht.
  - eapply Rle_trans; [|exact S]. assert (P : forall x, In x E -> 0 <= wt (fst x)) by (intros x Hx; destruct (F (fst x) (in_map fst E x Hx)) as (_ & _ & H & _); lra).
    clear F S L. unfold layer. induction E as [|[t k] E IH]; [apply Rle_refl|]. cbn [filter snd]. pose proof (P (t, k) (or_introl eq_refl)) as P0. cbn [fst] in P0.
    specialize (IH (fun x Hx => P x (or_intror Hx))). destruct (Nat.eqb k l); cbn [map suml fst]; lra.
  - rewrite map_length in L. unfold layer. rewrite map_length. assert (length (filter (fun t => Nat.eqb (snd t) l) E) <= length E)%nat; [|lia].
    clear. induction E as [|t E IH]; cbn [filter length]; [lia|]. destruct (Nat.eqb (snd t) l); cbn [length]; lia.
Qed.

(** In doubles, the strengths of the projection and those by label are the sums of the weights of the rows of the table that leave or enter
    the vertex, of all labels or of the given one, with a relative error of 2^-52 for each such row. *)
Theorem C116_accuracy : forall dup axis N E M, reorders dup -> reorders axis -> double_table N (map fst E) -> Forall (fun t => (snd t < M)%nat) E -> (1 <= M)%nat -> forall v, (v < N)%nat ->
  let near a l := exists s, a = Fin s /\ Rabs (s - suml wt l) <= two (-52) * INR (length l) * suml wt l in
  near (rmulti_out b64 dup axis N E M v) (filter (fun t => Nat.eqb (src t) v) (map fst E)) /\
  near (rmulti_in b64 dup axis N E M v) (filter (fun t => Nat.eqb (dst t) v) (map fst E)) /\
  forall l, near (rout_by_label b64 dup axis N E v l) (map fst (filter (fun t => Nat.eqb (src (fst t)) v && Nat.eqb (snd t) l) E)) /\
    near (rin_by_label b64 dup axis N E v l) (map fst (filter (fun t => Nat.eqb (dst (fst t)) v && Nat.eqb (snd t) l) E)).
Proof.
  intros dup axis N E M Od Oa HT HM M1 v Hv near. destruct M as [|M]; [lia|]. pose proof (layers_perm E (S M) HM) as LP. pose proof (projection_table b64 dup N E M Od) as PT.
  pose proof (table_ends N _ HT) as He.
  assert (He' : forall t, In t (flat_map (layer E) (seq 0 (S M))) -> (src t < N)%nat /\ (dst t < N)%nat) by (intros t Ht; apply He; eapply Permutation_in; [exact LP | exact Ht]).
  assert (Near : forall e p a, double_table N e -> summed b64 (filter p e) a -> near a (filter p e)).
  { intros e p a HTe H. destruct (part_close N e HTe p a H) as (s & -> & _ & B). exists s. split; [reflexivity | exact B]. }
  split; [|split].
  - apply Near; [exact HT|]. eapply summed_perm; [apply perm_filter, LP|]. apply (table_out b64 axis Oa N _ _ He' PT).
  - apply Near; [exact HT|]. eapply summed_perm; [apply perm_filter, LP|]. apply (table_in b64 axis Oa N _ _ He' PT v Hv).
  - intros l. pose proof (layer_table N E l HT) as HL. pose proof (table_ends N _ HL) as Hel. rewrite <- (layer_filter (fun t => Nat.eqb (src t) v)), <- (layer_filter (fun t => Nat.eqb (dst t) v)). split.
    + apply Near; [exact HL|]. apply (out_summed b64 dup axis Od Oa N _ Hel v).
    + apply Near; [exact HL|]. apply (in_summed b64 dup axis Od Oa N _ Hel v Hv).
Qed.
Print Assumptions C116_accuracy.

(** If [rn] does not round, the model is the one of C10 and C13, for the multigraph built from the same table. *)
Theorem C116_exact : forall dup axis N E M, reorders dup -> reorders axis -> in_range N (map fst E) -> (1 <= M)%nat ->
  let G := SMultiDiGraph (map (fun l => coo_tocsr false N (layer E l)) (seq 0 M)) in
  exists o i ol il, out_strength N G = Ok o /\ in_strength N G = Ok i /\ out_strength_by_label N G = Ok ol /\ in_strength_by_label N G = Ok il /\
  forall v, (v < N)%nat -> rmulti_out Fin dup axis N E M v = Fin (o v) /\ rmulti_in Fin dup axis N E M v = Fin (i v) /\
    forall l, (l < M)%nat -> rout_by_label Fin dup axis N E v l = Fin (nth l ol (fun _ => 0) v) /\ rin_by_label Fin dup axis N E v l = Fin (nth l il (fun _ => 0) v).
Proof.
  intros dup axis N E M Od Oa Rg M1 G. destruct M as [|M]; [lia|]. pose proof Rg as R'. unfold in_range in R'. rewrite Forall_forall in R'.
  assert (RL : forall l, in_range N (layer E l)) by (intros l; apply Forall_forall; intros t Ht; apply R', (layer_in E l), Ht).
  assert (WF : forall l, wf N (coo_tocsr false N (layer E l))) by (intros l; apply coo_wf; eapply Forall_impl; [|apply (RL l)]; intros t (_ & _ & H); exact H).
  assert (VG : valid true N G).
  { apply Forall_forall. intros A HA. apply in_map_iff in HA as (l & <- & _). split; [apply WF | reflexivity]. }
  destruct (adjacency_matrix N G true true) as [A|] eqn:EA; [|discriminate EA].
  pose proof (axis1_view true N G VG true true A EA) as V1. pose proof (axis0_view true N G VG true true A EA) as V0.
  exists (sum_axis1 A), (sum_axis0 N A). unfold out_strength, in_strength. change (is_directed G) with true. cbn [guard]. rewrite EA. cbn [bind].
  do 2 eexists. split; [reflexivity|]. split; [reflexivity|]. split; [reflexivity|]. split; [reflexivity|]. intros v Hv.
  pose proof (projection_table Fin dup N E M Od) as PT.
  assert (He : forall t, In t (flat_map (layer E) (seq 0 (S M))) -> (src t < N)%nat /\ (dst t < N)%nat).
  { intros t Ht. apply in_flat_map in Ht as (l & _ & Ht). apply (ends N _ (RL l) t Ht). }
  assert (Fl : forall p, suml wt (filter p (flat_map (layer E) (seq 0 (S M)))) = suml (fun l => suml wt (filter p (layer E l))) (seq 0 (S M))).
  { intros p. generalize (seq 0 (S M)) as s. induction s as [|l s IH]; [reflexivity|]. cbn [flat_map suml]. rewrite filter_app, suml_app, IH. reflexivity. }
  split; [|split].
  - unfold rmulti_out. rewrite (summed_exact _ _ (table_out Fin axis Oa N _ _ He PT v)). f_equal. rewrite (V1 v Hv), Fl.
    rewrite (sumn_ext N _ (fun j => suml (fun l => W (coo_tocsr false N (layer E l)) v j) (seq 0 (S M)))).
    + rewrite <- suml_sumn_swap. apply suml_ext. intros l _. symmetry. apply (out_entries N _ (RL l)).
    + intros j _. transitivity (suml (fun A => W A v j) (map (fun l => coo_tocsr false N (layer E l)) (seq 0 (S M)))); [reflexivity | apply suml_map].
  - unfold rmulti_in. rewrite (summed_exact _ _ (table_in Fin axis Oa N _ _ He PT v Hv)). f_equal. rewrite (V0 v Hv), Fl.
    rewrite (sumn_ext N _ (fun j => suml (fun l => W (coo_tocsr false N (layer E l)) j v) (seq 0 (S M)))).
    + rewrite <- suml_sumn_swap. apply suml_ext. intros l _. symmetry. apply (in_entries N _ (RL l) v Hv).
    + intros j _. transitivity (suml (fun A => W A j v) (map (fun l => coo_tocsr false N (layer E l)) (seq 0 (S M)))); [reflexivity | apply suml_map].
  - intros l Hl. pose proof (ends N _ (RL l)) as Hel.
    assert (HD : valid true N (SDiGraph (coo_tocsr false N (layer E l)))) by (constructor; [split; [apply WF | reflexivity] | constructor]).
    assert (Nth : forall (h : spm -> nat -> R), nth l (map h (multidigraph_tensor N (map (fun l => coo_tocsr false N (layer E l)) (seq 0 (S M))) true true)) (fun _ => 0) = h (coo_tocsr false N (layer E l))).
    { intros h. unfold multidigraph_tensor. rewrite !map_map. cbn [andb].
      rewrite (nth_indep _ _ ((fun l => h (coo_tocsr false N (layer E l))) 0%nat)) by (rewrite map_length, seq_length; exact Hl).
      rewrite (map_nth (fun l => h (coo_tocsr false N (layer E l))) (seq 0 (S M)) 0%nat l), seq_nth by exact Hl. reflexivity. }
    rewrite !Nth. split.
    + change (rout_by_label Fin dup axis N E v l) with (rout_strength Fin dup axis N (layer E l) v). rewrite (summed_exact _ _ (out_summed Fin dup axis Od Oa N _ Hel v)). f_equal.
      rewrite (axis1_view true N _ HD true true (coo_tocsr false N (layer E l)) eq_refl v Hv), <- (out_entries N _ (RL l) v). reflexivity.
    + change (rin_by_label Fin dup axis N E v l) with (rin_strength Fin dup axis N (layer E l) v). rewrite (summed_exact _ _ (in_summed Fin dup axis Od Oa N _ Hel v Hv)). f_equal.
      rewrite (axis0_view true N _ HD true true (coo_tocsr false N (layer E l)) eq_refl v Hv), <- (in_entries N _ (RL l) v Hv). reflexivity.
Qed.
Print Assumptions C116_exact.

(** * Undirected multigraphs *)
Section Symmetric.
Variable rn : R -> num.
Variable axis : list num -> plan.
Hypothesis Haxis : reorders axis.
Variables (N : nat) (e : list edge) (P : nat -> list (nat * num)).
Hypothesis He : forall t, In t e -> (src t < N)%nat /\ (dst t < N)%nat.
Hypothesis HP : table_of rn N e P.
Hypothesis Hloop : forall i, (i < N)%nat -> rsub rn (radd rn (rget (P i) i) (rget (P i) i)) (rget (P i) i) = rget (P i) i.

Lemma table_entry : forall i j, (i < N)%nat -> (j < N)%nat ->
  summed rn (filter (fun t => touches i t && Nat.eqb (other i t) j) e) (let s := radd rn (rget (P i) j) (rget (P j) i) in if Nat.eqb i j then rsub rn s (rget (P i) i) else s).
Proof.
  intros i j Hi Hj. cbv zeta. destruct (Nat.eqb_spec i j) as [<-|D].
  - rewrite Hloop by exact Hi. rewrite (filter_same _ (hits i i)); [apply (table_get rn N e P i i HP Hi)|]. intros t _. rewrite hits_eq. unfold touches, other.
    destruct (Nat.eqb (src t) i) eqn:E; [reflexivity|]. rewrite E. destruct (Nat.eqb (dst t) i); reflexivity.
  - apply summed_perm with (filter (hits i j) e ++ filter (hits j i) e); [|apply summed_add; apply (table_get rn N e P _ _ HP); assumption].
    etransitivity; [apply filter_or|].
    + intros t _. rewrite !hits_eq. destruct (Nat.eqb_spec (src t) i) as [->|]; [|reflexivity]. rewrite (proj2 (Nat.eqb_neq i j) D). apply andb_false_r.
    + rewrite (filter_same _ (fun t => touches i t && Nat.eqb (other i t) j)); [apply Permutation_refl|]. intros t _. rewrite !hits_eq. unfold touches, other.
      destruct (Nat.eqb_spec (src t) i) as [->|]; [rewrite (proj2 (Nat.eqb_neq i j) D); cbn [andb orb]; apply orb_false_r|].
      cbn [andb orb]. apply andb_comm.
Qed.
Lemma table_strength : forall i, (i < N)%nat -> summed rn (filter (touches i) e) (rsum_axis1 rn axis (rsymmetrize rn N P) i).
Proof.
  intros i Hi. unfold rsum_axis1, rsymmetrize. rewrite map_map. cbn [snd].
  eapply summed_perm; [|apply (total_summed rn _ axis _ (fun j => filter (fun t => touches i t && Nat.eqb (other i t) j) e)); [exact Haxis|]].
  2:{ intros j Hj. apply filter_In in Hj as [Hj _]. apply in_seq in Hj. apply table_entry; [exact Hi | lia]. }
  apply (split_all (touches i) (other i)); [apply cols_NoDup|]. intros t Ht Hp. apply filter_In. destruct (He t Ht) as [Hs Hd].
  unfold other, touches in *. destruct (Nat.eqb (src t) i) eqn:E.
  - split; [apply in_seq; lia|]. apply orb_true_intro. left. rewrite (proj2 (table_get rn N e P i _ HP Hd)). apply (hit_in e _ _ t Ht). rewrite hits_eq, E, Nat.eqb_refl. reflexivity.
  - split; [apply in_seq; lia|]. apply orb_true_intro. right. rewrite (proj2 (table_get rn N e P (src t) i HP Hi)). apply (hit_in e _ _ t Ht). rewrite hits_eq, Nat.eqb_refl. exact Hp.
Qed.
End Symmetric.

Lemma summed_loop : forall N e p a, double_table N e -> summed b64 (filter p e) a -> rsub b64 (radd b64 a a) a = a.
Proof.
  intros N e p a HT C. destruct (part_close N e HT _ _ C) as (v & -> & [V0 Dv] & E).
  assert (V : v <= two 1002).
  { pose proof (part_le N e HT p) as P1. pose proof (part_length e p) as P2. pose proof HT as (_ & B & L). apply Rabs_def2_le in E.
    pose proof (total_nonneg _ (table_fine N e HT p)) as S0. set (S := suml wt (filter p e)) in *.
    assert (K : two (-52) * INR (length (filter p e)) <= 1).
    { apply Rle_trans with (two (-52) * two 50); [apply Rmult_le_compat_l; [left; apply two_pos|]; rewrite INR_IZR_INZ, two_Z by lia; apply IZR_le; eapply Z.le_trans; [apply inj_le; exact P2 | exact L]|].
      rewrite <- two_add. change (-52 + 50)%Z with (- (2))%Z. rewrite two_neg, two_Z by lia. change (2 ^ 2)%Z with 4%Z. lra. }
    assert (two 1002 = 4 * two 1000) by (change 1002%Z with (2 + 1000)%Z; rewrite two_add, (two_Z 2) by lia; reflexivity). pose proof (two_pos 1000).
    assert (two (-52) * INR (length (filter p e)) * S <= 1 * S) by (apply Rmult_le_compat_r; assumption). lra. }
  unfold radd. cbn [nadd rnd_num]. rewrite b64_fixed by (apply double_twice; [exact Dv | lra]). unfold rsub. cbn [nsub nadd nopp rnd_num].
  replace (v + v - v) with v by ring. replace (v + v + - v) with v by ring. apply b64_fixed, Dv.
Qed.

(** The same for a MultiGraph: the rows that touch the vertex, a loop once. *)
Theorem C116_undirected : forall dup axis N E M, reorders dup -> reorders axis -> double_table N (map fst E) -> Forall (fun t => (snd t < M)%nat) E -> (1 <= M)%nat -> forall v, (v < N)%nat ->
  let near a l := exists s, a = Fin s /\ Rabs (s - suml wt l) <= two (-52) * INR (length l) * suml wt l in
  near (rmulti_strength b64 dup axis N E M v) (filter (fun t => Nat.eqb (src t) v || Nat.eqb (dst t) v) (map fst E)) /\
  forall l, near (rstrength_by_label b64 dup axis N E v l) (map fst (filter (fun t => (Nat.eqb (src (fst t)) v || Nat.eqb (dst (fst t)) v) && Nat.eqb (snd t) l) E)).
Proof.
  intros dup axis N E M Od Oa HT HM M1 v Hv near. destruct M as [|M]; [lia|]. pose proof (layers_perm E (S M) HM) as LP. pose proof (projection_table b64 dup N E M Od) as PT.
  pose proof (table_ends N _ HT) as He.
  assert (He' : forall t, In t (flat_map (layer E) (seq 0 (S M))) -> (src t < N)%nat /\ (dst t < N)%nat) by (intros t Ht; apply He; eapply Permutation_in; [exact LP | exact Ht]).
  assert (Near : forall e p a, double_table N e -> summed b64 (filter p e) a -> near a (filter p e)).
  { intros e p a HTe H. destruct (part_close N e HTe p a H) as (s & -> & _ & B). exists s. split; [reflexivity | exact B]. }
  split.
  - apply Near; [exact HT|]. eapply summed_perm; [apply perm_filter, LP|]. apply (table_strength b64 axis Oa N _ _ He' PT); [|exact Hv].
    intros i Hi. apply (summed_loop N (map fst E) (hits i i)); [exact HT|]. eapply summed_perm; [apply perm_filter, LP|]. apply (table_get b64 N _ _ i i PT Hi).
  - intros l. pose proof (layer_table N E l HT) as HL. pose proof (table_ends N _ HL) as Hel. rewrite <- (layer_filter (fun t => Nat.eqb (src t) v || Nat.eqb (dst t) v)).
    apply Near; [exact HL|]. apply (table_strength b64 axis Oa N _ _ Hel (coo_table b64 dup Od N _)); [|exact Hv].
    intros i Hi. apply (summed_loop N (layer E l) (hits i i)); [exact HL|]. apply (table_get b64 N _ _ i i (coo_table b64 dup Od N _) Hi).
Qed.
Print Assumptions C116_undirected.

Lemma exact_loop : forall l a, summed Fin l a -> rsub Fin (radd Fin a a) a = a.
Proof. intros l a H. rewrite (summed_exact _ _ H). unfold rsub, radd. cbn [nadd rnd_num nsub nopp]. f_equal. ring. Qed.
Theorem C116_undirected_exact : forall dup axis N E M, reorders dup -> reorders axis -> in_range N (map fst E) -> (1 <= M)%nat ->
  let G := SMultiGraph (map (fun l => coo_tocsr false N (layer E l)) (seq 0 M)) in
  exists s sl, strength N G = Ok s /\ strength_by_label N G = Ok sl /\
  forall v, (v < N)%nat -> rmulti_strength Fin dup axis N E M v = Fin (s v) /\ forall l, (l < M)%nat -> rstrength_by_label Fin dup axis N E v l = Fin (nth l sl (fun _ => 0) v).
Proof.
  intros dup axis N E M Od Oa Rg M1 G. destruct M as [|M]; [lia|]. pose proof Rg as R'. unfold in_range in R'. rewrite Forall_forall in R'.
  assert (RL : forall l, in_range N (layer E l)) by (intros l; apply Forall_forall; intros t Ht; apply R', (layer_in E l), Ht).
  assert (WF : forall l, wf N (coo_tocsr false N (layer E l))) by (intros l; apply coo_wf; eapply Forall_impl; [|apply (RL l)]; intros t (_ & _ & H); exact H).
  assert (VG : valid true N G).
  { apply Forall_forall. intros A HA. apply in_map_iff in HA as (l & <- & _). split; [apply WF | reflexivity]. }
  destruct (adjacency_matrix N G false true) as [A|] eqn:EA; [|discriminate EA].
  pose proof (axis1_view true N G VG false true A EA) as V1.
  exists (sum_axis1 A). unfold strength. rewrite EA. cbn [bind]. eexists. split; [reflexivity|]. split; [reflexivity|]. intros v Hv.
  pose proof (projection_table Fin dup N E M Od) as PT.
  assert (He : forall t, In t (flat_map (layer E) (seq 0 (S M))) -> (src t < N)%nat /\ (dst t < N)%nat).
  { intros t Ht. apply in_flat_map in Ht as (l & _ & Ht). apply (ends N _ (RL l) t Ht). }
  assert (Fl : forall p, suml wt (filter p (flat_map (layer E) (seq 0 (S M)))) = suml (fun l => suml wt (filter p (layer E l))) (seq 0 (S M))).
  { intros p. generalize (seq 0 (S M)) as s. induction s as [|l s IH]; [reflexivity|]. cbn [flat_map suml]. rewrite filter_app, suml_app, IH. reflexivity. }
  split.
  - unfold rmulti_strength. rewrite (summed_exact _ _ (table_strength Fin axis Oa N _ _ He PT (fun i Hi => exact_loop _ _ (proj1 (table_get Fin N _ _ i i PT Hi))) v Hv)). f_equal. rewrite (V1 v Hv), Fl.
    rewrite (sumn_ext N _ (fun j => suml (fun l => both_ways (fun i j => W (coo_tocsr false N (layer E l)) i j) v j) (seq 0 (S M)))).
    + rewrite <- suml_sumn_swap. apply suml_ext. intros l _. symmetry. apply (both_entries N _ (RL l) v Hv).
    + intros j _. transitivity (both_ways (fun i j => suml (fun A => W A i j) (map (fun l => coo_tocsr false N (layer E l)) (seq 0 (S M)))) v j); [reflexivity|].
      unfold both_ways. rewrite !suml_map. destruct (Nat.eqb v j); [reflexivity|]. rewrite <- suml_plus. reflexivity.
  - intros l Hl. pose proof (ends N _ (RL l)) as Hel.
    assert (HG : valid true N (SGraph (coo_tocsr false N (layer E l)))) by (constructor; [split; [apply WF | reflexivity] | constructor]).
    assert (Nth : nth l (map sum_axis1 (multigraph_tensor N (map (fun l => coo_tocsr false N (layer E l)) (seq 0 (S M))) false true)) (fun _ => 0) = sum_axis1 (symmetrize N (coo_tocsr false N (layer E l)))).
    { unfold multigraph_tensor. rewrite !map_map.
      rewrite (nth_indep _ _ ((fun l => sum_axis1 (symmetrize N (coo_tocsr false N (layer E l)))) 0%nat)) by (rewrite map_length, seq_length; exact Hl).
      rewrite (map_nth (fun l => sum_axis1 (symmetrize N (coo_tocsr false N (layer E l)))) (seq 0 (S M)) 0%nat l), seq_nth by exact Hl. reflexivity. }
    rewrite Nth. unfold rstrength_by_label. pose proof (coo_table Fin dup Od N (layer E l)) as CT.
    rewrite (summed_exact _ _ (table_strength Fin axis Oa N _ _ Hel CT (fun i Hi => exact_loop _ _ (proj1 (table_get Fin N _ _ i i CT Hi))) v Hv)). f_equal.
    rewrite (axis1_view true N _ HG false true (symmetrize N (coo_tocsr false N (layer E l))) eq_refl v Hv), <- (both_entries N _ (RL l) v Hv). reflexivity.
Qed.
Print Assumptions C116_undirected_exact.

(** Two labels; one pair has edges of both, and one repeated edge. *)
Definition labelled_edges : list (edge * nat) := combine five_edges [0; 1; 1; 0; 1]%nat.
Example C116_case : reorders left_to_right /\ double_table 3 (map fst labelled_edges) /\ in_range 3 (map fst labelled_edges) /\ Forall (fun t => (snd t < 2)%nat) labelled_edges /\
  rmulti_out Fin left_to_right left_to_right 3 labelled_edges 2 0 = Fin 3 /\ rout_by_label Fin left_to_right left_to_right 3 labelled_edges 0 1 = Fin 2 /\
  exists s, rmulti_in b64 left_to_right left_to_right 3 labelled_edges 2 0 = Fin s /\ Rabs (s - 8) <= two (-52) * 2 * 8.
Proof.
  pose proof left_to_right_reorders as O. split; [exact O|]. change (map fst labelled_edges) with five_edges.
  pose proof (observed_table 3 five_edges five_observed) as HT. split; [exact HT|].
  assert (R : in_range 3 five_edges) by (unfold in_range, five_edges; repeat constructor; cbn; lia || lra). split; [exact R|].
  assert (HM : Forall (fun t => (snd t < 2)%nat) labelled_edges) by (unfold labelled_edges, five_edges; cbn [combine]; repeat apply Forall_cons; try apply Forall_nil; cbn [snd]; lia). split; [exact HM|].
  pose proof (projection_table Fin left_to_right 3 labelled_edges 1 O) as PT. pose proof (ends 3 five_edges R) as He.
  split; [|split].
  - unfold rmulti_out. rewrite (summed_exact _ _ (table_out Fin left_to_right O 3 _ _ (fun t Ht => He t (Permutation_in _ (layers_perm labelled_edges 2 HM) Ht)) PT 0%nat)).
    change (filter (fun t => Nat.eqb (src t) 0) (flat_map (layer labelled_edges) (seq 0 2))) with [(0%nat, 1%nat, 1); (0%nat, 1%nat, 2)]. cbn [suml wt snd]. f_equal. ring.
  - change (rout_by_label Fin left_to_right left_to_right 3 labelled_edges 0 1) with (rout_strength Fin left_to_right left_to_right 3 (layer labelled_edges 1) 0).
    rewrite (summed_exact _ _ (out_summed Fin left_to_right left_to_right O O 3 _ (fun t Ht => He t (layer_in labelled_edges 1 t Ht)) 0%nat)).
    change (filter (fun t => Nat.eqb (src t) 0) (layer labelled_edges 1)) with [(0%nat, 1%nat, 2)]. cbn [suml wt snd]. f_equal. ring.
  - destruct (C116_accuracy left_to_right left_to_right 3 labelled_edges 2 O O HT HM ltac:(lia) 0%nat ltac:(lia)) as (_ & (s & Es & B) & _). exists s. split; [exact Es|].
    change (filter (fun t => Nat.eqb (dst t) 0) (map fst labelled_edges)) with [(1%nat, 0%nat, 3); (2%nat, 0%nat, 5)] in B. cbn [suml wt snd length] in B. replace (3 + (5 + 0)) with 8 in B by ring. exact B.
Qed.

Example C116_undirected_case : in_range 3 (map fst labelled_edges) /\ rmulti_strength Fin left_to_right left_to_right 3 labelled_edges 2 1 = Fin 10 /\
  exists s, rstrength_by_label b64 left_to_right left_to_right 3 labelled_edges 1 0 = Fin s /\ Rabs (s - 5) <= two (-52) * 2 * 5.
Proof.
  destruct C116_case as (O & HT & Rg & HM & _). split; [exact Rg|]. pose proof (ends 3 _ Rg) as He. split.
  - pose proof (projection_table Fin left_to_right 3 labelled_edges 1 O) as PT. unfold rmulti_strength.
    rewrite (summed_exact _ _ (table_strength Fin left_to_right O 3 _ _ (fun t Ht => He t (Permutation_in _ (layers_perm labelled_edges 2 HM) Ht)) PT (fun i Hi => exact_loop _ _ (proj1 (table_get Fin 3 _ _ i i PT Hi))) 1%nat ltac:(lia))).
    change (filter (touches 1) (flat_map (layer labelled_edges) (seq 0 2))) with [(0%nat, 1%nat, 1); (1%nat, 1%nat, 4); (0%nat, 1%nat, 2); (1%nat, 0%nat, 3)]. cbn [suml wt snd]. f_equal. ring.
  - destruct (C116_undirected left_to_right left_to_right 3 labelled_edges 2 O O HT HM ltac:(lia) 1%nat ltac:(lia)) as (_ & L). destruct (L 0%nat) as (s & Es & B). exists s. split; [exact Es|].
    change (map fst (filter (fun t => (Nat.eqb (src (fst t)) 1 || Nat.eqb (dst (fst t)) 1) && Nat.eqb (snd t) 0) labelled_edges)) with [(0%nat, 1%nat, 1); (1%nat, 1%nat, 4)] in B.
    cbn [suml wt snd length] in B. replace (1 + (4 + 0)) with 5 in B by ring. exact B.
Qed.
