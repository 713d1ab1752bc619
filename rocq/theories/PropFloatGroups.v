(** Property C115: strengths by group in double precision. *)
From Verif Require Import Base Num Spec Graphs GraphFacts Float FloatFacts PropFloat FloatGraphs PropFloatGraphs FloatGroups PropFloatPipeline.
Import Num Spec.
From Coq Require Import Lra Lia Permutation.

Open Scope R_scope.
Local Notation hits := Graphs.hits.
Local Notation edge := (nat * nat * R)%type.

Section Any.
Variable rn : R -> num.

Lemma tally_keys : forall d g v, In g (map fst (rtally rn d g v)) /\ forall h, h <> g -> (In h (map fst (rtally rn d g v)) <-> In h (map fst d)).
Proof.
  induction d as [|[k w] d IH]; intros g v; cbn [rtally].
  - cbn. split; [left; reflexivity|]. intros h Hh. split; [intros [<-|[]]; contradiction | intros []].
  - destruct (Nat.eqb_spec k g) as [->|D]; cbn [map fst In].
    + split; [left; reflexivity|]. intros; reflexivity.
    + destruct (IH g v) as [I1 I2]. split; [right; exact I1|]. intros h Hh. rewrite (I2 h Hh). reflexivity.
Qed.
Lemma tally_get : forall d g v h, rget (rtally rn d g v) h =
  if Nat.eqb h g then (if existsb (Nat.eqb g) (map fst d) then radd rn (rget d g) v else v) else rget d h.
Proof.
  induction d as [|[k w] d IH]; intros g v h; cbn [rtally map fst existsb].
  - cbn [rget]. rewrite (Nat.eqb_sym h g). reflexivity.
  - rewrite (Nat.eqb_sym g k). destruct (Nat.eqb_spec k g) as [->|D]; cbn [rget orb].
    + rewrite (Nat.eqb_sym h g), Nat.eqb_refl. destruct (Nat.eqb_spec g h); reflexivity.
    + rewrite IH. rewrite (proj2 (Nat.eqb_neq k g) D). destruct (Nat.eqb_spec k h) as [->|]; [rewrite (proj2 (Nat.eqb_neq h g) D); reflexivity | reflexivity].
Qed.

(** If each entry of a row is a sum over the rows [F] of the table for its key, the value of a group is a sum over those of its keys. *)
Lemma gcnt_summed : forall groups (F : nat -> list edge) row, (forall j v, In (j, v) row -> summed rn (F j) v) -> forall g,
  summed rn (flat_map F (filter (fun j => Nat.eqb (groups j) g) (map fst row))) (rget (rgcnt rn groups row) g).
Proof.
  intros groups F row H g.
  assert (K : (existsb (Nat.eqb g) (map fst (rgcnt rn groups row)) = false -> filter (fun j => Nat.eqb (groups j) g) (map fst row) = []) /\
    summed rn (flat_map F (filter (fun j => Nat.eqb (groups j) g) (map fst row))) (rget (rgcnt rn groups row) g)); [|apply K].
  revert H. induction row as [|[j v] row IH] using rev_ind; intros H; [split; [reflexivity | constructor]|].
  destruct IH as [I1 I2]; [intros; apply H, in_or_app; left; assumption|]. specialize (H j v ltac:(apply in_or_app; right; left; reflexivity)).
  unfold rgcnt, for_each in *. rewrite fold_left_app. cbn [fold_left fst snd]. set (d := fold_left _ row []) in *.
  rewrite map_app, filter_app, flat_map_app, tally_get. cbn [map fst filter]. destruct (tally_keys d (groups j) v) as [T1 T2]. rewrite (Nat.eqb_sym (groups j) g).
  destruct (Nat.eqb_spec g (groups j)) as [->|D].
  - split.
    + intros Q. exfalso. assert (X : existsb (Nat.eqb (groups j)) (map fst (rtally rn d (groups j) v)) = true) by (apply existsb_exists; eexists; split; [exact T1 | apply Nat.eqb_refl]). congruence.
    + cbn [flat_map]. rewrite app_nil_r. destruct (existsb (Nat.eqb (groups j)) (map fst d)) eqn:X; [apply summed_add; assumption|]. rewrite (I1 eq_refl). exact H.
  - cbn [flat_map]. rewrite !app_nil_r. split; [|exact I2]. intros Q. apply I1. destruct (existsb (Nat.eqb g) (map fst d)) eqn:X; [|reflexivity].
    exfalso. apply existsb_exists in X as (z & Hz & Ez). apply Nat.eqb_eq in Ez. subst z. apply (proj2 (T2 g D)) in Hz.
    assert (Y : existsb (Nat.eqb g) (map fst (rtally rn d (groups j) v)) = true) by (apply existsb_exists; eexists; split; [exact Hz | apply Nat.eqb_refl]). congruence.
Qed.

Variable dup : list num -> plan.
Hypothesis Hdup : reorders dup.
Variables (N : nat) (e : list edge) (groups : nat -> nat).
Hypothesis He : forall t, In t e -> (src t < N)%nat /\ (dst t < N)%nat.

(** The rows of the table for the keys of a group. *)
Lemma group_split : forall (p : edge -> bool) (key : edge -> nat) ks g, NoDup ks -> (forall t, In t e -> p t = true -> In (key t) ks) ->
  Permutation (flat_map (fun k => filter (fun t => p t && Nat.eqb (key t) k) e) (filter (fun k => Nat.eqb (groups k) g) ks)) (filter (fun t => p t && Nat.eqb (groups (key t)) g) e).
Proof.
  intros p key ks g ND H. etransitivity; [apply split_key, NoDup_filter, ND|].
  rewrite (filter_same (fun t => p t && existsb (Nat.eqb (key t)) (filter (fun k => Nat.eqb (groups k) g) ks)) (fun t => p t && Nat.eqb (groups (key t)) g)); [apply Permutation_refl|].
  intros t Ht. destruct (p t) eqn:P; [|reflexivity]. cbn [andb]. specialize (H t Ht P). destruct (Nat.eqb (groups (key t)) g) eqn:G.
  - apply existsb_exists. exists (key t). split; [apply filter_In; split; assumption | apply Nat.eqb_refl].
  - destruct (existsb _ _) eqn:X; [|reflexivity]. apply existsb_exists in X as (z & Hz & Ez). apply Nat.eqb_eq in Ez. subst z. apply filter_In in Hz as [_ Hz]. congruence.
Qed.

Lemma out_group_summed : forall i g, summed rn (filter (fun t => Nat.eqb (src t) i && Nat.eqb (groups (dst t)) g) e) (rout_by_group rn dup N e groups i g).
Proof.
  intros i g. unfold rout_by_group. eapply summed_perm; [|apply (gcnt_summed groups (fun j => filter (hits i j) e))].
  - unfold rcoo_row. rewrite map_map. cbn [fst]. rewrite map_id. apply (group_split (fun t => Nat.eqb (src t) i) dst); [apply cols_NoDup|].
    intros t Ht Hp. apply filter_In. split; [apply in_seq; destruct (He t Ht); lia|]. apply (hit_in e _ _ t Ht). rewrite hits_eq, Hp, Nat.eqb_refl. reflexivity.
  - intros j v Hv. unfold rcoo_row in Hv. apply in_map_iff in Hv as (k & [= -> <-] & _). apply (cell_summed rn dup Hdup e i j).
Qed.
Lemma column_keys : forall j l, (j < N)%nat -> map fst (flat_map (fun i => map (fun p => (i, snd p)) (filter (fun p => Nat.eqb (fst p) j) (rcoo_row rn dup N e i))) l) =
  filter (fun i => existsb (hits i j) e) l.
Proof.
  intros j l Hj. induction l as [|i l IH]; [reflexivity|]. cbn [flat_map filter]. rewrite map_app, IH. rewrite map_map. cbn [fst].
  pose proof (column rn dup N e j [i] Hj) as C. cbn [flat_map filter] in C. rewrite app_nil_r in C.
  destruct (existsb (hits i j) e); cbn [map] in C; destruct (filter (fun p => Nat.eqb (fst p) j) (rcoo_row rn dup N e i)) as [|a [|b r]]; try discriminate C; reflexivity.
Qed.
Lemma in_group_summed : forall j g, (j < N)%nat -> summed rn (filter (fun t => Nat.eqb (dst t) j && Nat.eqb (groups (src t)) g) e) (rin_by_group rn dup N e groups j g).
Proof.
  intros j g Hj. unfold rin_by_group. eapply summed_perm; [|apply (gcnt_summed groups (fun i => filter (fun t => Nat.eqb (dst t) j && Nat.eqb (src t) i) e))].
  - unfold rcolumn. rewrite (column_keys j _ Hj). apply (group_split (fun t => Nat.eqb (dst t) j) src); [apply cols_NoDup|].
    intros t Ht Hp. apply filter_In. split; [apply in_seq; destruct (He t Ht); lia|]. apply (hit_in e _ _ t Ht). rewrite hits_eq, Hp, Nat.eqb_refl. reflexivity.
  - intros i v Hv. unfold rcolumn in Hv. apply in_flat_map in Hv as (i' & _ & Hv). apply in_map_iff in Hv as ([k w] & [= -> <-] & Hk). apply filter_In in Hk as [Hk Ek].
    cbn [fst] in Ek. apply Nat.eqb_eq in Ek. subst k. unfold rcoo_row in Hk. apply in_map_iff in Hk as (k & [= -> <-] & _).
    rewrite (filter_same _ (hits i j)); [apply (cell_summed rn dup Hdup e i j)|]. intros t _. rewrite hits_eq. apply andb_comm.
Qed.
Hypothesis Hloop : forall i, (i < N)%nat -> rsub rn (radd rn (cell rn dup e i i) (cell rn dup e i i)) (cell rn dup e i i) = cell rn dup e i i.
Lemma group_summed : forall i g, (i < N)%nat -> summed rn (filter (fun t => touches i t && Nat.eqb (groups (other i t)) g) e) (rby_group rn dup N e groups i g).
Proof.
  intros i g Hi. unfold rby_group. eapply summed_perm; [|apply (gcnt_summed groups (fun j => filter (fun t => touches i t && Nat.eqb (other i t) j) e))].
  - unfold rsymmetrize. rewrite map_map. cbn [fst]. rewrite map_id. apply (group_split (touches i) (other i)); [apply cols_NoDup|].
    intros t Ht Hp. apply filter_In. destruct (He t Ht) as [Hs Hd]. unfold other, touches in *. destruct (Nat.eqb (src t) i) eqn:E.
    + split; [apply in_seq; lia|]. apply orb_true_intro. left. apply (has_row rn dup N e He i _ t Ht). rewrite hits_eq, E, Nat.eqb_refl. reflexivity.
    + split; [apply in_seq; lia|]. apply orb_true_intro. right. apply (has_row rn dup N e He _ i t Ht). rewrite hits_eq, Nat.eqb_refl. exact Hp.
  - intros j v Hv. unfold rsymmetrize in Hv. apply in_map_iff in Hv as (k & [= -> <-] & Hk). apply filter_In in Hk as [Hk _]. apply in_seq in Hk.
    apply (entry_summed rn dup Hdup N e Hloop i j Hi). lia.
Qed.
End Any.

(** * Without rounding *)
Section Exact.
Variables (N : nat) (e : list edge) (groups : nat -> nat) (k : nat).
Hypothesis He : in_range N e.
Let A := coo_tocsr false N e.

Lemma out_group_entries : forall i, sumn N (fun j => if Nat.eqb (groups j) k then W A i j else 0) = suml wt (filter (fun t => Nat.eqb (src t) i && Nat.eqb (groups (dst t)) k) e).
Proof.
  intros i. rewrite filter_sum. rewrite (sumn_ext N _ (fun j => suml (fun t => if Nat.eqb (groups j) k && hits i j t then snd t else 0) e)).
  2:{ intros j Hj. unfold A. rewrite coo_entry by exact Hj. destruct (Nat.eqb (groups j) k); [reflexivity|]. symmetry. apply suml_zero. reflexivity. }
  rewrite <- suml_sumn_swap. apply suml_ext. intros t Ht. rewrite (sumn_ext N _ (fun j => if Nat.eqb (dst t) j then (if Nat.eqb (src t) i && Nat.eqb (groups (dst t)) k then wt t else 0) else 0)).
  - apply delta. apply (ends N e He t Ht).
  - intros j _. rewrite hits_eq. unfold wt. destruct (Nat.eqb_spec (dst t) j) as [<-|]; [|rewrite !andb_false_r; reflexivity]. rewrite andb_true_r, andb_comm. reflexivity.
Qed.
Lemma in_group_entries : forall j, (j < N)%nat -> sumn N (fun i => if Nat.eqb (groups i) k then W A i j else 0) = suml wt (filter (fun t => Nat.eqb (dst t) j && Nat.eqb (groups (src t)) k) e).
Proof.
  intros j Hj. rewrite filter_sum. rewrite (sumn_ext N _ (fun i => suml (fun t => if Nat.eqb (groups i) k && hits i j t then snd t else 0) e)).
  2:{ intros i _. unfold A. rewrite coo_entry by exact Hj. destruct (Nat.eqb (groups i) k); [reflexivity|]. symmetry. apply suml_zero. reflexivity. }
  rewrite <- suml_sumn_swap. apply suml_ext. intros t Ht. rewrite (sumn_ext N _ (fun i => if Nat.eqb (src t) i then (if Nat.eqb (dst t) j && Nat.eqb (groups (src t)) k then wt t else 0) else 0)).
  - apply delta. apply (ends N e He t Ht).
  - intros i _. rewrite hits_eq. unfold wt. destruct (Nat.eqb_spec (src t) i) as [<-|]; [|rewrite andb_false_r; reflexivity]. cbn [andb]. rewrite andb_comm. reflexivity.
Qed.
Lemma both_group_entries : forall i, (i < N)%nat -> sumn N (fun j => if Nat.eqb (groups j) k then both_ways (fun i j => W A i j) i j else 0) = suml wt (filter (fun t => touches i t && Nat.eqb (groups (other i t)) k) e).
Proof.
  intros i Hi. rewrite (sumn_ext N _ (fun j => (if Nat.eqb (groups j) k then W A i j else 0) + ((if Nat.eqb (groups j) k then W A j i else 0) - (if Nat.eqb i j then (if Nat.eqb (groups i) k then W A i i else 0) else 0)))).
  2:{ intros j _. unfold both_ways. destruct (Nat.eqb_spec i j) as [<-|]; destruct (Nat.eqb (groups _) k); lra. }
  rewrite sumn_plus, sumn_minus, delta by exact Hi. rewrite out_group_entries, in_group_entries by exact Hi.
  unfold A. rewrite coo_entry by exact Hi.
  replace (if Nat.eqb (groups i) k then suml (fun t => if hits i i t then snd t else 0) e else 0) with (suml (fun t => if Nat.eqb (groups i) k && hits i i t then wt t else 0) e).
  2:{ destruct (Nat.eqb (groups i) k); [reflexivity | apply suml_zero; reflexivity]. }
  match goal with |- ?a + (?b - ?c) = ?d => enough (a + b = d + c) by lra end. rewrite !filter_sum, <- !suml_plus. apply suml_ext. intros t _. rewrite hits_eq. unfold touches, other.
  destruct (Nat.eqb_spec (src t) i) as [->|], (Nat.eqb_spec (dst t) i) as [->|]; cbn [andb orb]; rewrite ?andb_true_r, ?andb_false_r; repeat (match goal with |- context [Nat.eqb (groups ?x) k] => destruct (Nat.eqb (groups x) k) end; cbn [andb]); lra.
Qed.
End Exact.

(** If [rn] does not round, the model is the one of C11, for the graph built from the same table. *)
Theorem C115_exact : forall dup N e groups M, reorders dup -> in_range N e -> 
  let A := coo_tocsr false N e in
  exists Bo Bi B, out_strength_by_group N (SDiGraph A) (Some (M, groups)) = Ok Bo /\ in_strength_by_group N (SDiGraph A) (Some (M, groups)) = Ok Bi /\
    strength_by_group N (SGraph A) (Some (M, groups)) = Ok B /\
    forall v g, (v < N)%nat -> (g < M)%nat -> rout_by_group Fin dup N e groups v g = Fin (entry (sp_row Bo v) g) /\
      rin_by_group Fin dup N e groups v g = Fin (entry (sp_row Bi v) g) /\ rby_group Fin dup N e groups v g = Fin (entry (sp_row B v) g).
Proof.
  intros dup N e groups M O R A. pose proof (ends N e R) as He.
  assert (WF : wf N A) by (apply coo_wf; eapply Forall_impl; [|exact R]; intros t (_ & _ & H); exact H).
  assert (HG : valid true N (SGraph A)) by (constructor; [split; [exact WF | reflexivity] | constructor]).
  assert (HD : valid true N (SDiGraph A)) by (constructor; [split; [exact WF | reflexivity] | constructor]).
  destruct (adjacency_matrix N (SDiGraph A) true true) as [C|] eqn:EC; [|discriminate EC].
  destruct (adjacency_matrix N (SGraph A) false true) as [D|] eqn:ED; [|discriminate ED].
  destruct (adjacency_spec true N _ true true C HD EC) as [WC VC]. destruct (adjacency_spec true N _ false true D HG ED) as [WD VD].
  unfold out_strength_by_group, in_strength_by_group, strength_by_group. cbn [is_directed guard]. rewrite EC, ED. cbn [bind].
  do 3 eexists. split; [reflexivity|]. split; [reflexivity|]. split; [reflexivity|]. intros v g Hv Hg.
  assert (Hl : forall i, (i < N)%nat -> rsub Fin (radd Fin (cell Fin dup e i i) (cell Fin dup e i i)) (cell Fin dup e i i) = cell Fin dup e i i).
  { intros i _. rewrite (summed_exact _ _ (cell_summed Fin dup O e i i)). unfold rsub, radd. cbn [nadd rnd_num nsub nopp]. f_equal. ring. }
  rewrite (summed_exact _ _ (out_group_summed Fin dup O N e groups He v g)), (summed_exact _ _ (in_group_summed Fin dup O N e groups He v g Hv)), (summed_exact _ _ (group_summed Fin dup O N e groups He Hl v g Hv)).
  split; [|split]; f_equal; symmetry.
  - etransitivity; [apply (by_group_entry N C M groups to_float64 _ WC eq_refl); auto|]. rewrite <- (out_group_entries N e groups g R v). apply sumn_ext. intros j Hj. rewrite VC by assumption. reflexivity.
  - etransitivity; [apply (by_group_entry N (sp_T N C) M groups to_float64 _ (T_wf N C WC) eq_refl); auto|]. rewrite <- (in_group_entries N e groups g R v Hv). apply sumn_ext. intros j Hj. rewrite T_entry, VC by assumption. reflexivity.
  - etransitivity; [apply (by_group_entry N D M groups to_float64 _ WD eq_refl); auto|]. rewrite <- (both_group_entries N e groups g R v Hv). apply sumn_ext. intros j Hj. rewrite VD by assumption. reflexivity.
Qed.
Print Assumptions C115_exact.

(** * In doubles *)

(** The entry of a vertex and a group is the sum of the weights of the rows of the table that leave the vertex for the group, enter it from
    the group, or touch it with the other end in the group, with a relative error of 2^-52 for each row. *)
Theorem C115_accuracy : forall dup N e groups, reorders dup -> double_table N e -> forall v g, (v < N)%nat ->
  let near a l := exists s, a = Fin s /\ Rabs (s - suml wt l) <= two (-52) * INR (length l) * suml wt l in
  near (rout_by_group b64 dup N e groups v g) (filter (fun t => Nat.eqb (src t) v && Nat.eqb (groups (dst t)) g) e) /\
  near (rin_by_group b64 dup N e groups v g) (filter (fun t => Nat.eqb (dst t) v && Nat.eqb (groups (src t)) g) e) /\
  near (rby_group b64 dup N e groups v g)
    (filter (fun t => Nat.eqb (src t) v && Nat.eqb (groups (dst t)) g || negb (Nat.eqb (src t) v) && Nat.eqb (dst t) v && Nat.eqb (groups (src t)) g) e).
Proof.
  intros dup N e groups O HT v g Hv near. pose proof (table_ends N e HT) as He.
  assert (P : forall p a, summed b64 (filter p e) a -> near a (filter p e)).
  { intros p a H. destruct (part_close N e HT p a H) as (s & -> & _ & B). exists s. split; [reflexivity | exact B]. }
  split; [apply P, out_group_summed; assumption|]. split; [apply P, in_group_summed; assumption|].
  assert (Hl : forall i, (i < N)%nat -> rsub b64 (radd b64 (cell b64 dup e i i) (cell b64 dup e i i)) (cell b64 dup e i i) = cell b64 dup e i i) by (intros; eapply loop_exact; eassumption).
  apply P. erewrite filter_same; [apply (group_summed b64 dup O N e groups He Hl v g Hv)|].
  intros t _. unfold touches, other. destruct (Nat.eqb (src t) v) eqn:E; cbn [orb andb negb]; [apply orb_false_r | reflexivity].
Qed.
Print Assumptions C115_accuracy.

(** The entries of all groups add up to the strength. *)
Lemma groups_total : forall N e (p : edge -> bool) (key : edge -> nat) M (a : nat -> num), double_table N e -> (forall t, In t e -> (key t < M)%nat) ->
  (forall g, (g < M)%nat -> exists s, a g = Fin s /\ let l := filter (fun t => p t && Nat.eqb (key t) g) e in Rabs (s - suml wt l) <= two (-52) * INR (length l) * suml wt l) ->
  Rabs (sumn M (fun g => toR (a g)) - suml wt (filter p e)) <= two (-52) * INR (length (filter p e)) * suml wt (filter p e).
Proof.
  intros N e p key M a HT Hk H.
  assert (S : sumn M (fun g => suml wt (filter (fun t => p t && Nat.eqb (key t) g) e)) = suml wt (filter p e)).
  { rewrite filter_sum. rewrite (sumn_ext M _ (fun g => suml (fun t => if p t && Nat.eqb (key t) g then wt t else 0) e)) by (intros; apply filter_sum).
    rewrite <- suml_sumn_swap. apply suml_ext. intros t Ht. rewrite (sumn_ext M _ (fun g => if Nat.eqb (key t) g then (if p t then wt t else 0) else 0)); [apply delta, Hk, Ht|].
    intros g _. destruct (p t), (Nat.eqb (key t) g); reflexivity. }
  rewrite <- S at 1 2. rewrite <- sumn_minus, <- sumn_scal_l. eapply Rle_trans; [apply sumn_abs|]. apply sumn_le. intros g Hg.
  destruct (H g Hg) as (s & -> & B). cbn [toR]. eapply Rle_trans; [exact B|].
  apply Rmult_le_compat_r; [apply total_nonneg, (table_fine N e HT)|]. apply Rmult_le_compat_l; [left; apply two_pos|]. apply le_INR.
  clear. induction e as [|t l IH]; cbn [filter length]; [lia|]. destruct (p t); cbn [andb]; [destruct (Nat.eqb (key t) g); cbn [length]; lia | exact IH].
Qed.
Theorem C115_partition : forall dup axis N e groups M, reorders dup -> reorders axis -> double_table N e -> (forall v, (v < N)%nat -> (groups v < M)%nat) -> forall v, (v < N)%nat ->
  let near a b l := Rabs (a - b) <= two (-51) * INR (length l) * suml wt l in
  near (sumn M (fun g => toR (rout_by_group b64 dup N e groups v g))) (toR (rout_strength b64 dup axis N e v)) (filter (fun t => Nat.eqb (src t) v) e) /\
  near (sumn M (fun g => toR (rin_by_group b64 dup N e groups v g))) (toR (rin_strength b64 dup axis N e v)) (filter (fun t => Nat.eqb (dst t) v) e).
Proof.
  intros dup axis N e groups M Od Oa HT HM v Hv near. pose proof (table_ends N e HT) as He.
  assert (E51 : two (-51) = 2 * two (-52)) by (change (-51)%Z with (1 + -52)%Z; rewrite two_add, two_1; reflexivity).
  destruct (part_close N e HT _ _ (out_summed b64 dup axis Od Oa N e He v)) as (o & Eo & _ & Bo). destruct (part_close N e HT _ _ (in_summed b64 dup axis Od Oa N e He v Hv)) as (i & Ei & _ & Bi).
  rewrite Eo, Ei. cbn [toR].
  pose proof (groups_total N e (fun t => Nat.eqb (src t) v) (fun t => groups (dst t)) M _ HT (fun t Ht => HM _ (proj2 (He t Ht))) (fun g _ => proj1 (C115_accuracy dup N e groups Od HT v g Hv))) as G1.
  pose proof (groups_total N e (fun t => Nat.eqb (dst t) v) (fun t => groups (src t)) M _ HT (fun t Ht => HM _ (proj1 (He t Ht))) (fun g _ => proj1 (proj2 (C115_accuracy dup N e groups Od HT v g Hv)))) as G2.
  apply Rabs_def2_le in Bo. apply Rabs_def2_le in Bi. apply Rabs_def2_le in G1. apply Rabs_def2_le in G2. unfold near. rewrite E51. split; apply Rabs_le; lra.
Qed.
Print Assumptions C115_partition.

(** The table of C113_exact_case with the groups {0, 2} and {1}: vertex 1 has weight 3 + 1 + 2 with the first group and 4 with its own. *)
Example C115_case : let groups v := if Nat.eqb v 1 then 1%nat else 0%nat in
  reorders left_to_right /\ in_range 3 five_edges /\ double_table 3 five_edges /\
  rby_group Fin left_to_right 3 five_edges groups 1 0 = Fin 6 /\ rby_group Fin left_to_right 3 five_edges groups 1 1 = Fin 4 /\
  (forall v, (v < 3)%nat -> (groups v < 2)%nat) /\
  exists s, rin_by_group b64 left_to_right 3 five_edges groups 0 0 = Fin s /\ Rabs (s - 5) <= two (-52) * 1 * 5.
Proof.
  intros groups. pose proof left_to_right_reorders as O. split; [exact O|].
  assert (R : in_range 3 five_edges) by (unfold in_range, five_edges; repeat constructor; cbn; lia || lra). split; [exact R|].
  pose proof (observed_table 3 five_edges five_observed) as HT. split; [exact HT|]. pose proof (ends 3 five_edges R) as He.
  assert (Hl : forall i, (i < 3)%nat -> rsub Fin (radd Fin (cell Fin left_to_right five_edges i i) (cell Fin left_to_right five_edges i i)) (cell Fin left_to_right five_edges i i) = cell Fin left_to_right five_edges i i).
  { intros i _. rewrite (summed_exact _ _ (cell_summed Fin left_to_right O five_edges i i)). unfold rsub, radd. cbn [nadd rnd_num nsub nopp]. f_equal. ring. }
  split; [|split; [|split]].
  - rewrite (summed_exact _ _ (group_summed Fin left_to_right O 3 five_edges groups He Hl 1%nat 0%nat ltac:(lia))).
    change (filter (fun t => touches 1 t && Nat.eqb (groups (other 1 t)) 0) five_edges) with [(0%nat, 1%nat, 1); (0%nat, 1%nat, 2); (1%nat, 0%nat, 3)]. cbn [suml wt snd]. f_equal. ring.
  - rewrite (summed_exact _ _ (group_summed Fin left_to_right O 3 five_edges groups He Hl 1%nat 1%nat ltac:(lia))).
    change (filter (fun t => touches 1 t && Nat.eqb (groups (other 1 t)) 1) five_edges) with [(1%nat, 1%nat, 4)]. cbn [suml wt snd]. f_equal. ring.
  - intros v _. unfold groups. destruct (Nat.eqb v 1); lia.
  - destruct (C115_accuracy left_to_right 3 five_edges groups O HT 0%nat 0%nat ltac:(lia)) as (_ & (s & E & B) & _). exists s. split; [exact E|].
    change (filter (fun t => Nat.eqb (dst t) 0 && Nat.eqb (groups (src t)) 0) five_edges) with [(2%nat, 0%nat, 5)] in B. cbn [suml wt snd length INR] in B. rewrite Rplus_0_r in B. exact B.
Qed.
