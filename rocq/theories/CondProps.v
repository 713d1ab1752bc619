(** Lemmas on the way from the model facts to the property theorems of the conditional model. *)
From Verif Require Import Base Num Spec Kernels KernelFacts MultiKernels Prob Ensemble EnsembleFacts
  EnsembleProps LayerProps LayerLib Aggregate CondDist Conditional CondFacts CondModel CondMeasures CondKernel CondLik.
From Coq Require Import Sorting.Permutation FunctionalExtensionality.

(** Graphs as sets. *)
Lemma links_eqb_spec : forall G H, links_eqb G H = true <-> (forall e, In e G <-> In e H).
Proof.
  intros G H. unfold links_eqb. rewrite Bool.andb_true_iff, !forallb_forall. split.
  - intros [H1 H2] e. split; intros I; apply mem_spec; auto.
  - intros HI. split; intros e I; apply mem_spec; apply HI; exact I.
Qed.

Lemma sublists_ext : forall A (l S T : list A), NoDup l -> In S (sublists l) -> In T (sublists l) ->
  (forall e, In e S <-> In e T) -> S = T.
Proof.
  intros A l; induction l as [|a l IH]; intros S T ND HS HT HI.
  - destruct HS as [<-|[]], HT as [<-|[]]. reflexivity.
  - inversion ND as [|? ? Ha Hl]; subst. simpl in HS, HT. apply in_app_or in HS. apply in_app_or in HT.
    assert (NI : forall U, In U (sublists l) -> ~ In a U) by (intros U HU I; apply Ha; eapply sublists_incl; eassumption).
    destruct HS as [HS|HS], HT as [HT|HT].
    + apply in_map_iff in HS as (S' & <- & HS). apply in_map_iff in HT as (T' & <- & HT). f_equal.
      apply IH; try assumption. intros e. split; intros I.
      * destruct (proj1 (HI e) (or_intror I)) as [->|]; [|assumption]. exfalso. apply (NI S' HS I).
      * destruct (proj2 (HI e) (or_intror I)) as [->|]; [|assumption]. exfalso. apply (NI T' HT I).
    + apply in_map_iff in HS as (S' & <- & HS). exfalso. apply (NI T HT). apply HI. left. reflexivity.
    + apply in_map_iff in HT as (T' & <- & HT). exfalso. apply (NI S HS). apply HI. left. reflexivity.
    + apply IH; assumption.
Qed.

Lemma mean_links_eqb : forall N sl w G, In G (all_graphs N sl) ->
  ensemble_mean N sl w (fun H => b2r (links_eqb H G)) = w G.
Proof.
  intros N sl w G HG. unfold ensemble_mean.
  rewrite <- (sum_indicator (all_graphs N sl) w G); [|apply NoDup_sublists, NoDup_pairs | exact HG].
  apply suml_ext. intros H HH. f_equal. f_equal. apply Bool.eq_iff_eq_true. rewrite links_eqb_spec.
  split.
  - intros HI. destruct (list_eqb_spec H G) as [|n]; [reflexivity|]. exfalso. apply n.
    apply (sublists_ext _ (pairs N sl)); try assumption. apply NoDup_pairs.
  - intros E e. destruct (list_eqb_spec H G) as [->|]; [tauto | discriminate].
Qed.

Lemma links_eqb_perm : forall S T G, Permutation S T -> links_eqb S G = links_eqb T G.
Proof.
  intros S T G H. apply Bool.eq_iff_eq_true. rewrite !links_eqb_spec.
  split; intros HI e; rewrite <- HI; split; intros I; (apply (Permutation_in _ H I) || apply (Permutation_in _ (Permutation_sym H) I)).
Qed.

(** A graph of positive probability that agrees. *)
Lemma prob_aggregate_pos : forall N sl p M g A G, (forall i j, 0 < p i j < 1) -> In G (all_graphs N sl) ->
  agrees M g A G = true -> 0 < prob_aggregate N sl p M g A.
Proof.
  intros N sl p M g A G Hp HG HA. unfold prob_aggregate, ensemble_mean.
  assert (W : forall H, 0 < graph_weight N sl p H).
  { intros H. rewrite graph_weight_list. apply prodl_pos. intros e _. pose proof (Hp (fst e) (snd e)). destruct (mem e H); lra. }
  apply Rlt_le_trans with (graph_weight N sl p G * b2r (agrees M g A G)).
  - rewrite HA. simpl. rewrite Rmult_1_r. apply W.
  - apply (suml_in_le _ (fun G => graph_weight N sl p G * b2r (agrees M g A G))); [|exact HG].
    intros H _. apply Rmult_le_pos; [left; apply W | destruct (agrees M g A H); simpl; lra].
Qed.

(** Probability of a link in a block. *)
Lemma mean_hit : forall N sl g p c,
  ensemble_mean N sl (graph_weight N sl (fun i j => p (i, j))) (fun G => b2r (hit g c G)) = 1 - empty_prob N sl p g c.
Proof.
  intros N sl g p c. rewrite ensemble_mean_sub.
  replace (fun e => p (fst e, snd e)) with p by (apply functional_extensionality; intros [i j]; reflexivity).
  rewrite (mean_sub_perm _ p (pairs N sl) (block N sl g c ++ filter (fun e => negb (pair_eqb (block_of g e) c)) (pairs N sl))).
  - rewrite mean_sub_app.
    rewrite (mean_sub_ext _ p (block N sl g c) _ (fun S => 1 * b2r (hit g c S))).
    + rewrite mean_block_hit, mean_sub_const. ring.
    + intros S1 H1. rewrite Rmult_1_l. transitivity (mean_sub p (filter (fun e => negb (pair_eqb (block_of g e) c)) (pairs N sl)) (fun _ => b2r (hit g c S1))).
      * apply mean_sub_ext. intros S2 H2. f_equal. rewrite hit_app, (hit_other g c S2); [apply Bool.orb_false_r|].
        intros e He E. apply (sublists_incl _ _ _ _ H2) in He. apply filter_In in He as [_ He]. rewrite E in He.
        destruct (pair_eqb_spec c c); [discriminate | contradiction].
      * apply mean_sub_const.
  - apply Permutation_partition.
  - intros S T H. f_equal. apply hit_perm. exact H.
Qed.

(** Weighted links. *)
Lemma w_pair_map : forall (s : nat * nat -> R) S i j, NoDup S ->
  w_pair i j (map (fun e => (fst e, snd e, s e)) S) = if mem (i, j) S then s (i, j) else 0.
Proof.
  intros s S i j ND. unfold w_pair. rewrite suml_map. cbn [fst snd].
  induction ND as [|e S He ND IH]; [reflexivity|]. cbn [suml mem existsb]. fold (mem (i, j) S). rewrite IH.
  destruct e as [a b]. cbn [fst snd]. destruct (pair_eqb_spec (a, b) (i, j)) as [E|E].
  - inversion E; subst. destruct (pair_eqb_spec (i, j) (i, j)) as [_|]; [|contradiction]. cbn [orb].
    replace (mem (i, j) S) with false by (symmetry; apply mem_false; exact He). ring.
  - destruct (pair_eqb_spec (i, j) (a, b)) as [E'|_]; [congruence|]. cbn [orb]. ring.
Qed.

Section CondP.
Variables (d : num) (x y : nat -> R) (N : nat) (g : nat -> nat) (adj : nat -> list (nat * R)) (sl : bool).
Hypothesis (Hd : nonneg d) (Hx : forall i, 0 <= x i) (Hy : forall i, 0 <= y i).
Notation M := (num_groups N g).
Hypothesis Hadj : aggregate_graph M adj.
Notation po := (fun i => Fin (x i)).
Notation pin := (fun i => Fin (y i)).
Notation p := (pm d x y).
Notation Q := (empty_prob N sl p g).
Notation A := (macro_link adj).
Notation pij := (inv_prob d x y).
Notation bl := (block N sl g).

Lemma p_block_defined : forall a b pn, p_block d po pin N g sl a b = Ok pn ->
  block_defined N sl g x y (a, b) /\ pn = 1 - Q (a, b).
Proof.
  intros a b pn H.
  assert (D : block_defined N sl g x y (a, b)).
  { intros Hs E. cbn [fst snd] in *. subst b. intros Z. unfold p_block in H.
    rewrite z_block_raise in H by (try assumption). discriminate. }
  split; [exact D|]. rewrite (p_block_spec d x y N g sl Hd Hx Hy a b D) in H. inversion H. reflexivity.
Qed.

Hypothesis Hpos : 0 < prob_aggregate N sl pij M g A.

Lemma pm_inv : forall e, p e = pij (fst e) (snd e).
Proof. intros [i j]. symmetry. apply inv_prob_pm; assumption. Qed.

(** wagg: the weights recorded for a block. *)
Definition wfin (w : R) (l : list (nat * nat * R)) : list (nat * nat * R) :=
  map (fun e => (fst e, snd e / suml snd l * w)) l.

Lemma fold_suml : forall (l : list (nat * nat * R)), fold_right (fun e t => snd e + t) 0 l = suml snd l.
Proof. induction l as [|e l IH]; simpl; congruence. Qed.

Lemma wagg_fin : forall s_out s_in, (forall i j, (i < N)%nat -> (j < N)%nat -> 0 < pij i j -> 0 < s_out i * s_in j) ->
  forall t S, In t (BB N g adj) -> In S (sublists (bl (fst t))) -> S <> [] -> (forall e, In e S -> 0 < p e) ->
  wagg_finish (snd t) (map (fun e => (fst e, snd e, s_out (fst e) * s_in (snd e))) S)
  = Ok (wfin (snd t) (map (fun e => (fst e, snd e, s_out (fst e) * s_in (snd e))) S)) /\
  0 < suml snd (map (fun e : nat * nat => (fst e, snd e, s_out (fst e) * s_in (snd e))) S).
Proof.
  intros s_out s_in HS t S _ H1 HN HP.
  assert (P : 0 < suml snd (map (fun e : nat * nat => (fst e, snd e, s_out (fst e) * s_in (snd e))) S)).
  { rewrite suml_map. cbn [snd]. assert (T : forall e, In e S -> 0 < s_out (fst e) * s_in (snd e)).
    { intros [i j] He. pose proof (sublists_incl _ _ _ _ H1 He) as I. apply in_block in I as [I _]. apply in_pairs in I as (Hi & Hj & _).
      apply HS; try assumption. rewrite <- (pm_inv (i, j)). apply HP. exact He. }
    destruct S as [|e S]; [contradiction|]. simpl. assert (0 < s_out (fst e) * s_in (snd e)) by (apply T; left; reflexivity).
    assert (0 <= suml (fun e : nat * nat => s_out (fst e) * s_in (snd e)) S) by (apply suml_nonneg; intros; left; apply T; right; assumption).
    lra. }
  split; [|exact P]. unfold wagg_finish, wfin. rewrite fold_suml.
  destruct S as [|e S]; [contradiction|]. cbn [map] in *.
  destruct (Reqb_spec (suml snd ((fst e, snd e, s_out (fst e) * s_in (snd e)) :: map (fun e => (fst e, snd e, s_out (fst e) * s_in (snd e))) S)) 0) as [Z|_]; [lra|].
  reflexivity.
Qed.

Section Wagg.
Variables (s_out s_in : nat -> R).
Hypothesis Hs : forall i j, (i < N)%nat -> (j < N)%nat -> 0 < pij i j -> 0 < s_out i * s_in j.
Notation mark := (fun (_ : R) (e : nat * nat) => (fst e, snd e, s_out (fst e) * s_in (snd e))).
Notation rec S := (flat_map (recorded d x y N g sl _ mark wfin S) (BB N g adj)).

Lemma rec_wagg_fst : forall S, In S (sublists (flat_map bl (B1 N g adj))) -> map fst (rec S) = S.
Proof.
  intros S HS. pose proof (rec_map d x y N g adj sl Hadj _ (fun _ e => e) S HS) as E. rewrite map_id in E.
  rewrite <- E at 2. clear E HS. induction (BB N g adj) as [|t l IH]; [reflexivity|]. cbn [flat_map]. rewrite map_app, IH. f_equal.
  unfold recorded, wfin. rewrite !map_map. cbn [fst]. apply map_ext. intros [i j]. reflexivity.
Qed.

Lemma recorded_block_weight : forall S t a b,
  block_weight g a b (recorded d x y N g sl _ mark wfin S t)
  = if pair_eqb (fst t) (a, b) then suml snd (recorded d x y N g sl _ mark wfin S t) else 0.
Proof.
  intros S t a b. unfold block_weight, recorded, wfin. rewrite !suml_map. cbn [fst snd].
  destruct (pair_eqb_spec (fst t) (a, b)) as [E|E].
  - apply suml_ext. intros e He. apply filter_In in He as [_ He].
    destruct (pair_eqb_spec (block_of g e) (fst t)) as [F|]; [|discriminate]. rewrite E in F. inversion F; subst.
    rewrite !Nat.eqb_refl. reflexivity.
  - apply suml_zero. intros e He. apply filter_In in He as [_ He].
    destruct (pair_eqb_spec (block_of g e) (fst t)) as [F|]; [|discriminate].
    destruct (Nat.eqb_spec (g (fst e)) a), (Nat.eqb_spec (g (snd e)) b); try reflexivity.
    exfalso. apply E. rewrite <- F. unfold block_of. congruence.
Qed.

Lemma wfin_total : forall w l, suml snd l <> 0 -> suml snd (wfin w l) = w.
Proof.
  intros w l H. unfold wfin. rewrite suml_map. cbn [snd].
  rewrite (suml_ext _ _ (fun e => w / suml snd l * snd e)) by (intros; field; exact H).
  rewrite suml_scal_l. field. exact H.
Qed.

Lemma rec_block_weight : forall S a b w, In S (sublists (flat_map bl (B1 N g adj))) -> hits g (B1 N g adj) S = true ->
  (forall e, In e S -> 0 < p e) -> In (a, b, w) (BB N g adj) -> block_weight g a b (rec S) = w.
Proof.
  intros S a b w HS HH HP HB.
  assert (E : block_weight g a b (rec S) = suml (fun t => if pair_eqb (fst t) (a, b) then snd t else 0) (BB N g adj)).
  { transitivity (suml (fun t => block_weight g a b (recorded d x y N g sl _ mark wfin S t)) (BB N g adj)).
    - unfold block_weight. rewrite suml_flat_map. reflexivity.
    - apply suml_ext. intros t Ht. rewrite recorded_block_weight. destruct (pair_eqb_spec (fst t) (a, b)) as [E|]; [|reflexivity].
      unfold recorded. apply wfin_total.
      assert (T : In (filter (fun e => pair_eqb (block_of g e) (fst t)) S) (sublists (bl (fst t)))).
      { clear -HS Hadj Ht. pose proof (B1_nodup N g adj Hadj) as ND. unfold B1 in *. revert S HS ND Ht.
        induction (BB N g adj) as [|u l IH]; intros S HS ND Ht; [destruct Ht|]. cbn [map] in ND. inversion ND as [|? ? Hu Hl]; subst.
        cbn [map flat_map] in HS. apply sublists_app_inv in HS as (S1 & S2 & -> & H1 & H2). rewrite filter_app.
        destruct Ht as [->|Ht].
        - rewrite (filter_all _ _ S1), (filter_none _ _ S2), app_nil_r; [exact H1| |].
          + intros e He. destruct (pair_eqb_spec (block_of g e) (fst t)) as [E|]; [|reflexivity].
            exfalso. apply Hu. rewrite <- E. eapply flat_sub; eassumption.
          + intros e He. rewrite (block_sub N sl g _ _ _ H1 He). destruct (pair_eqb_spec (fst t) (fst t)); [reflexivity | contradiction].
        - rewrite (filter_none _ _ S1); [apply IH; assumption|]. intros e He. rewrite (block_sub N sl g _ _ _ H1 He).
          destruct (pair_eqb_spec (fst u) (fst t)) as [E|]; [|reflexivity]. exfalso. apply Hu. rewrite E. apply in_map. exact Ht. }
      destruct (wagg_fin s_out s_in Hs t (filter (fun e => pair_eqb (block_of g e) (fst t)) S) Ht T) as [_ P].
      + intros Z. unfold hits in HH. rewrite forallb_forall in HH. specialize (HH (fst t) (in_map fst _ _ Ht)).
        apply hit_spec in HH as (e & He & Eb).
        assert (I : In e (filter (fun e => pair_eqb (block_of g e) (fst t)) S)).
        { apply filter_In. split; [exact He|]. rewrite Eb. destruct (pair_eqb_spec (fst t) (fst t)); [reflexivity | contradiction]. }
        rewrite Z in I. destruct I.
      + intros e He. apply filter_In in He as [He _]. apply HP. exact He.
      + lra. }
  rewrite E. pose proof (B1_nodup N g adj Hadj) as ND. unfold B1 in ND. clear -HB ND.
  induction (BB N g adj) as [|t l IH]; [destruct HB|]. cbn [map] in ND. inversion ND as [|? ? Ht Hl]; subst.
  cbn [suml]. destruct HB as [->|HB].
  - cbn [fst snd]. destruct (pair_eqb_spec (a, b) (a, b)) as [_|]; [|contradiction].
    rewrite suml_zero; [ring|]. intros t' H'. destruct (pair_eqb_spec (fst t') (a, b)) as [E|]; [|reflexivity].
    exfalso. apply Ht. cbn [fst]. rewrite <- E. apply in_map. exact H'.
  - rewrite (IH HB Hl). destruct (pair_eqb_spec (fst t) (a, b)) as [E|]; [|ring].
    exfalso. apply Ht. rewrite E. change (a, b) with (fst (a, b, w)). apply in_map. exact HB.
Qed.
End Wagg.

End CondP.
