(** Independent links grouped in blocks, conditioned on the aggregate graph. *)
From Verif Require Import Base Num Spec Prob EnsembleFacts LayerProps.
From Coq Require Import Sorting.Permutation.

Notation link := (nat * nat)%type.

(** Expectation over the sub-lists of [l] when each element is kept with probability [p]. *)
Fixpoint mean_sub {A} (p : A -> R) (l : list A) (f : list A -> R) : R :=
  match l with
  | [] => f []
  | e :: t => p e * mean_sub p t (fun G => f (e :: G)) + (1 - p e) * mean_sub p t f
  end.

Section MeanSub.
Variable A : Type.
Variable p : A -> R.
Notation E := (mean_sub p).

Lemma mean_sub_ext : forall l f g, (forall S, In S (sublists l) -> f S = g S) -> E l f = E l g.
Proof.
  intros l; induction l as [|e t IH]; intros f g H; simpl; [apply H; left; reflexivity|].
  rewrite (IH f g), (IH (fun G => f (e :: G)) (fun G => g (e :: G))); [reflexivity| |];
    intros S HS; apply H; simpl; apply in_or_app; [left; apply in_map; exact HS | right; exact HS].
Qed.

Lemma mean_sub_scal : forall l c f, E l (fun S => c * f S) = c * E l f.
Proof.
  intros l; induction l as [|e t IH]; intros c f; simpl; [reflexivity|].
  rewrite (IH c f), (IH c (fun G => f (e :: G))). ring.
Qed.

Lemma mean_sub_plus : forall l f g, E l (fun S => f S + g S) = E l f + E l g.
Proof.
  intros l; induction l as [|e t IH]; intros f g; simpl; [reflexivity|].
  rewrite (IH f g), (IH (fun G => f (e :: G)) (fun G => g (e :: G))). ring.
Qed.

Lemma mean_sub_const : forall l c, E l (fun _ => c) = c.
Proof. intros l; induction l as [|e t IH]; intros c; simpl; [reflexivity|]. rewrite !IH. ring. Qed.

Lemma mean_sub_app : forall l1 l2 f, E (l1 ++ l2) f = E l1 (fun S1 => E l2 (fun S2 => f (S1 ++ S2))).
Proof.
  intros l1; induction l1 as [|e t IH]; intros l2 f; simpl; [reflexivity|]. rewrite !IH. reflexivity.
Qed.

(** Only the empty sub-list. *)
Lemma mean_sub_nil : forall l (g : list A -> R), (forall S, S <> [] -> g S = 0) ->
  E l g = prodl (fun e => 1 - p e) l * g [].
Proof.
  intros l; induction l as [|e t IH]; intros g H; simpl; [ring|].
  rewrite (IH g H). rewrite (mean_sub_ext t (fun G => g (e :: G)) (fun _ => 0)) by (intros; apply H; discriminate).
  rewrite mean_sub_const. ring.
Qed.

Lemma mean_sub_perm : forall l l' f, Permutation l l' ->
  (forall S S', Permutation S S' -> f S = f S') -> E l f = E l' f.
Proof.
  intros l l' f HP. revert f. induction HP as [|e l l' HP IH|a b l|l l' l'' H1 IH1 H2 IH2]; intros f Hf; simpl.
  - reflexivity.
  - rewrite (IH f Hf). rewrite (IH (fun G => f (e :: G))); [reflexivity|].
    intros S S' HS. apply Hf. constructor. exact HS.
  - rewrite (mean_sub_ext l (fun G => f (b :: a :: G)) (fun G => f (a :: b :: G)))
      by (intros S _; apply Hf; apply perm_swap). ring.
  - rewrite IH1, IH2 by exact Hf. reflexivity.
Qed.

Lemma mean_sub_nonneg : forall l f, (forall e, In e l -> 0 <= p e <= 1) -> (forall S, In S (sublists l) -> 0 <= f S) -> 0 <= E l f.
Proof.
  intros l; induction l as [|e t IH]; intros f Hp H; simpl; [apply H; left; reflexivity|].
  assert (Ht : forall x, In x t -> 0 <= p x <= 1) by (intros; apply Hp; right; assumption).
  pose proof (Hp e (or_introl eq_refl)). apply Rplus_le_le_0_compat; apply Rmult_le_pos; try lra; apply IH; try exact Ht;
    intros S HS; apply H; simpl; apply in_or_app; [left; apply in_map; exact HS | right; exact HS].
Qed.
End MeanSub.

Lemma bern_mean_sub : forall A F (p : A -> R) (mark : A -> F) l acc f,
  expect (bern p mark l acc) f = mean_sub p l (fun S => f (acc ++ map mark S)).
Proof.
  intros A F p mark l; induction l as [|e t IH]; intros acc f; rewrite bern_expect; cbn [mean_sub];
    [rewrite app_nil_r; reflexivity|].
  rewrite !IH. f_equal. f_equal. apply mean_sub_ext. intros S _. rewrite <- app_assoc. reflexivity.
Qed.

Lemma ensemble_mean_sub : forall N sl p f,
  ensemble_mean N sl (graph_weight N sl p) f = mean_sub (fun e => p (fst e) (snd e)) (pairs N sl) f.
Proof.
  intros N sl p f. rewrite mean_lweight.
  transitivity (expect (bern (fun e => p (fst e) (snd e)) (fun e => e) (pairs N sl) []) f).
  - rewrite bern_sublists by apply NoDup_pairs. apply suml_ext. intros G _. cbn [app]. rewrite map_id. reflexivity.
  - rewrite bern_mean_sub. apply mean_sub_ext. intros S _. cbn [app]. rewrite map_id. reflexivity.
Qed.

Lemma mean_sub_mem : forall (p : link -> R) l e, NoDup l -> In e l -> mean_sub p l (fun S => b2r (mem e S)) = p e.
Proof.
  intros p l; induction l as [|a t IH]; intros e ND He; [destruct He|]. inversion ND as [|? ? Ha Ht]; subst.
  cbn [mean_sub]. destruct He as [<-|He].
  - rewrite (mean_sub_ext _ p t (fun G => b2r (mem a (a :: G))) (fun _ => 1)).
    + rewrite (mean_sub_ext _ p t (fun G => b2r (mem a G)) (fun _ => 0)).
      * rewrite !mean_sub_const. ring.
      * intros S HS. destruct (mem a S) eqn:M; [|reflexivity]. apply mem_spec in M.
        exfalso. apply Ha. eapply sublists_incl; eassumption.
    + intros S _. replace (mem a (a :: S)) with true; [reflexivity|]. symmetry. apply mem_spec. left. reflexivity.
  - rewrite (mean_sub_ext _ p t (fun G => b2r (mem e (a :: G))) (fun G => b2r (mem e G))).
    + rewrite IH by assumption. ring.
    + intros S _. f_equal. cbn [mem existsb]. destruct (pair_eqb_spec e a) as [->|]; [contradiction | reflexivity].
Qed.

(** ** Blocks *)

Lemma forallb_ext_in : forall A (f h : A -> bool) l, (forall x, In x l -> f x = h x) -> forallb f l = forallb h l.
Proof.
  intros A f h l; induction l as [|a l IH]; intros H; [reflexivity|]. simpl. rewrite H by (left; reflexivity).
  rewrite IH by (intros; apply H; right; assumption). reflexivity.
Qed.

Lemma forallb_perm : forall A (f : A -> bool) l l', Permutation l l' -> forallb f l = forallb f l'.
Proof.
  intros A f l l' H. induction H; simpl; [reflexivity | congruence | | congruence].
  destruct (f y), (f x); reflexivity.
Qed.

Lemma prodl_perm : forall A (f : A -> R) l l', Permutation l l' -> prodl f l = prodl f l'.
Proof. intros A f l l' H. induction H; simpl; [reflexivity | congruence | ring | congruence]. Qed.

Lemma suml_perm : forall A (f : A -> R) l l', Permutation l l' -> suml f l = suml f l'.
Proof. intros A f l l' H. induction H; simpl; [reflexivity | congruence | ring | congruence]. Qed.

Lemma Permutation_partition : forall A (f : A -> bool) l,
  Permutation l (filter f l ++ filter (fun x => negb (f x)) l).
Proof.
  intros A f l; induction l as [|a l IH]; [constructor|]. simpl. destruct (f a); simpl; [constructor; exact IH|].
  apply Permutation_cons_app. exact IH.
Qed.

Definition block_of (g : nat -> nat) (e : link) : link := (g (fst e), g (snd e)).
Definition block (N : nat) (sl : bool) (g : nat -> nat) (c : link) : list link :=
  filter (fun e => pair_eqb (block_of g e) c) (pairs N sl).
(** Probability that the block has no link. *)
Definition empty_prob (N : nat) (sl : bool) (p : link -> R) (g : nat -> nat) (c : link) : R :=
  prodl (fun e => 1 - p e) (block N sl g c).
(** Some link of [S] is in block [c]. *)
Definition hit (g : nat -> nat) (c : link) (S : list link) : bool := blocks_linked g (fst c) (snd c) S.
Definition hits (g : nat -> nat) (B : list link) (S : list link) : bool := forallb (fun c => hit g c S) B.

Lemma hit_spec : forall g c S, hit g c S = true <-> exists e, In e S /\ block_of g e = c.
Proof.
  intros g [a b] S. unfold hit, blocks_linked. rewrite existsb_exists. cbn [fst snd]. split.
  - intros (e & He & H). apply andb_prop in H as [H1 H2]. apply Nat.eqb_eq in H1, H2. exists e. split; [exact He|].
    unfold block_of. congruence.
  - intros (e & He & H). exists e. split; [exact He|]. inversion H; subst. rewrite !Nat.eqb_refl. reflexivity.
Qed.

Lemma hit_app : forall g c S T, hit g c (S ++ T) = hit g c S || hit g c T.
Proof. intros. unfold hit, blocks_linked. apply existsb_app. Qed.

Lemma hit_perm : forall g c S T, Permutation S T -> hit g c S = hit g c T.
Proof.
  intros g c S T H. apply Bool.eq_iff_eq_true. rewrite !hit_spec.
  split; intros (e & He & E); exists e; (split; [|exact E]); [apply (Permutation_in _ H He) | apply (Permutation_in _ (Permutation_sym H) He)].
Qed.

Lemma NoDup_list_prod : forall X Y (l : list X) (m : list Y), NoDup l -> NoDup m -> NoDup (list_prod l m).
Proof.
  intros X Y l m Hl Hm. induction Hl as [|a l Ha Hl IH]; simpl; [constructor|].
  apply NoDup_app; [|exact IH|].
  - apply FinFun.Injective_map_NoDup; [|exact Hm]. intros u v E. inversion E. reflexivity.
  - intros [u v] Hu Hv. apply in_map_iff in Hu as (w & E & _). inversion E; subst. apply in_prod_iff in Hv. tauto.
Qed.

Section Blocks.
Variables (N : nat) (sl : bool) (g : nat -> nat).
Notation bl := (block N sl g).

Lemma in_block : forall c e, In e (bl c) <-> In e (pairs N sl) /\ block_of g e = c.
Proof.
  intros c e. unfold block. rewrite filter_In. split; intros [H1 H2]; (split; [exact H1|]).
  - destruct (pair_eqb_spec (block_of g e) c); [assumption | discriminate].
  - subst. destruct (pair_eqb_spec (block_of g e) (block_of g e)); [reflexivity | contradiction].
Qed.

Lemma NoDup_block : forall c, NoDup (bl c).
Proof. intros c. apply NoDup_filter, NoDup_pairs. Qed.

Lemma block_sub : forall c S e, In S (sublists (bl c)) -> In e S -> block_of g e = c.
Proof. intros c S e HS He. apply (in_block c). eapply sublists_incl; eassumption. Qed.

Lemma hit_block : forall c S, In S (sublists (bl c)) -> hit g c S = match S with [] => false | _ => true end.
Proof.
  intros c [|e S] HS; [reflexivity|]. apply hit_spec. exists e. split; [left; reflexivity|].
  eapply block_sub; [exact HS | left; reflexivity].
Qed.

Lemma flat_sub : forall B S e, In S (sublists (flat_map bl B)) -> In e S -> In (block_of g e) B.
Proof.
  intros B S e HS He. pose proof (sublists_incl _ _ _ _ HS He) as H. apply in_flat_map in H as (c & Hc & H).
  apply in_block in H as [_ <-]. exact Hc.
Qed.

Lemma hit_other : forall c S, (forall e, In e S -> block_of g e <> c) -> hit g c S = false.
Proof.
  intros c S H. destruct (hit g c S) eqn:E; [|reflexivity]. apply hit_spec in E as (e & He & E). exfalso. eapply H; eassumption.
Qed.

Lemma NoDup_flat : forall B, NoDup B -> NoDup (flat_map bl B).
Proof.
  intros B; induction B as [|c B IH]; intros H; [constructor|]. inversion H as [|? ? Hc HB]; subst. simpl.
  apply NoDup_app; [apply NoDup_block | apply IH; exact HB|].
  intros e He Hf. apply in_block in He as [_ <-]. apply in_flat_map in Hf as (c' & Hc' & Hf).
  apply in_block in Hf as [_ E]. apply Hc. rewrite E. exact Hc'.
Qed.

(** The pairs, sorted by block. *)
Lemma pairs_blocks : forall B, NoDup B -> (forall e, In e (pairs N sl) -> In (block_of g e) B) ->
  Permutation (pairs N sl) (flat_map bl B).
Proof.
  intros B HB Hall. apply NoDup_Permutation; [apply NoDup_pairs | apply NoDup_flat; exact HB|].
  intros e. rewrite in_flat_map. split.
  - intros He. exists (block_of g e). split; [apply Hall; exact He | apply in_block; split; [exact He | reflexivity]].
  - intros (c & _ & He). apply in_block in He. apply He.
Qed.

Variable p : link -> R.
Notation E := (mean_sub p).
Notation Q := (empty_prob N sl p g).

Lemma mean_block_hit : forall c f,
  E (bl c) (fun S => f S * b2r (hit g c S)) = E (bl c) f - Q c * f [].
Proof.
  intros c f. pose proof (mean_sub_nil _ p (bl c) (fun S => match S with [] => f [] | _ => 0 end)) as Z.
  rewrite (mean_sub_ext _ p (bl c) f (fun S => f S * b2r (hit g c S) + match S with [] => f [] | _ => 0 end)).
  - rewrite mean_sub_plus, Z; [unfold empty_prob; ring|]. intros [|] H; [contradiction | reflexivity].
  - intros S HS. rewrite (hit_block _ _ HS). destruct S; simpl; ring.
Qed.

Lemma hits_split : forall c B S1 S2, ~ In c B -> In S1 (sublists (bl c)) -> In S2 (sublists (flat_map bl B)) ->
  hits g (c :: B) (S1 ++ S2) = hit g c S1 && hits g B S2.
Proof.
  intros c B S1 S2 Hc H1 H2. cbn [hits forallb]. rewrite hit_app.
  rewrite (hit_other c S2), Bool.orb_false_r by (intros e He E; apply Hc; rewrite <- E; eapply flat_sub; eassumption).
  f_equal. unfold hits. apply forallb_ext_in; intros c' Hc'. rewrite hit_app.
  rewrite (hit_other c' S1); [reflexivity|]. intros e He E. rewrite (block_sub _ _ _ H1 He) in E. subst. contradiction.
Qed.

Lemma mean_hits_cons : forall c B f, ~ In c B ->
  E (flat_map bl (c :: B)) (fun S => f S * b2r (hits g (c :: B) S))
  = E (bl c) (fun S1 => E (flat_map bl B) (fun S2 => f (S1 ++ S2) * b2r (hits g B S2)) * b2r (hit g c S1)).
Proof.
  intros c B f Hc. cbn [flat_map]. rewrite mean_sub_app. apply mean_sub_ext. intros S1 H1.
  rewrite Rmult_comm, <- mean_sub_scal. apply mean_sub_ext. intros S2 H2. rewrite hits_split by assumption.
  destruct (hit g c S1), (hits g B S2); simpl; ring.
Qed.

Lemma mean_hits : forall B, NoDup B -> E (flat_map bl B) (fun S => b2r (hits g B S)) = prodl (fun c => 1 - Q c) B.
Proof.
  intros B; induction B as [|c B IH]; intros H; [reflexivity|]. inversion H as [|? ? Hc HB]; subst.
  pose proof (mean_hits_cons c B (fun _ => 1) Hc) as M.
  rewrite (mean_sub_ext _ p _ (fun S => b2r (hits g (c :: B) S)) (fun S => 1 * b2r (hits g (c :: B) S))) by (intros; ring).
  rewrite M. rewrite mean_block_hit, mean_sub_const.
  rewrite (mean_sub_ext _ p _ (fun S2 => 1 * b2r (hits g B S2)) (fun S => b2r (hits g B S))) by (intros; ring).
  rewrite IH by exact HB. simpl. ring.
Qed.

Lemma mean_hits_mem : forall e c B, NoDup B -> In c B -> In e (bl c) ->
  E (flat_map bl B) (fun S => b2r (mem e S) * b2r (hits g B S)) * (1 - Q c) = p e * prodl (fun c => 1 - Q c) B.
Proof.
  intros e c B; induction B as [|c' B IH]; intros H Hc He; [destruct Hc|]. inversion H as [|? ? Hc' HB]; subst.
  rewrite mean_hits_cons by exact Hc'. pose proof (proj1 (in_block c e) He) as [_ Eb].
  destruct Hc as [->|Hc].
  - rewrite (mean_sub_ext _ p (bl c) _ (fun S1 => prodl (fun c => 1 - Q c) B * b2r (mem e S1))).
    + rewrite mean_sub_scal, mean_sub_mem; [simpl; ring | apply NoDup_block | exact He].
    + intros S1 H1.
      rewrite (mean_sub_ext _ p _ (fun S2 => b2r (mem e (S1 ++ S2)) * b2r (hits g B S2))
                 (fun S2 => b2r (mem e S1) * b2r (hits g B S2))).
      * rewrite mean_sub_scal, mean_hits by exact HB. destruct (mem e S1) eqn:M; simpl; [|ring].
        replace (hit g c S1) with true; [simpl; ring|]. symmetry. apply hit_spec. exists e. split; [apply mem_spec; exact M | exact Eb].
      * intros S2 H2. f_equal. f_equal. unfold mem. rewrite existsb_app. fold (mem e S2) (mem e S1).
        replace (mem e S2) with false; [apply Bool.orb_false_r|]. symmetry. apply mem_false. intros I. apply Hc'.
        rewrite <- Eb. eapply flat_sub; eassumption.
  - rewrite (mean_sub_ext _ p (bl c') _
      (fun S1 => E (flat_map bl B) (fun S2 => b2r (mem e S2) * b2r (hits g B S2)) * b2r (hit g c' S1))).
    + rewrite mean_block_hit, mean_sub_const. specialize (IH HB Hc He). simpl.
      transitivity ((1 - Q c') * (E (flat_map bl B) (fun S => b2r (mem e S) * b2r (hits g B S)) * (1 - Q c))); [ring|].
      rewrite IH. ring.
    + intros S1 H1. f_equal. apply mean_sub_ext. intros S2 H2. f_equal. f_equal. unfold mem. rewrite existsb_app.
      fold (mem e S2) (mem e S1). replace (mem e S1) with false; [reflexivity|]. symmetry. apply mem_false. intros I.
      rewrite (block_sub _ _ _ H1 I) in Eb. subst. contradiction.
Qed.

Lemma mean_mem_other : forall e B f, ~ In (block_of g e) B ->
  E (flat_map bl B) (fun S => b2r (mem e S) * f S) = 0.
Proof.
  intros e B f H. rewrite (mean_sub_ext _ p _ _ (fun _ => 0)); [apply mean_sub_const|].
  intros S HS. replace (mem e S) with false; [simpl; ring|]. symmetry. apply mem_false. intros I. apply H. eapply flat_sub; eassumption.
Qed.

(** ** Conditioning *)

Variables (M : nat) (A : nat -> nat -> bool) (B B' : list link).
Hypothesis HB : Permutation (list_prod (seq 0 M) (seq 0 M)) (B ++ B').
Hypothesis HA : forall c, In c B -> A (fst c) (snd c) = true.
Hypothesis HA' : forall c, In c B' -> A (fst c) (snd c) = false.
Hypothesis HM : forall i, (i < N)%nat -> (g i < M)%nat.

Lemma blocks_nodup : NoDup (B ++ B').
Proof. eapply Permutation_NoDup; [exact HB|]. apply NoDup_list_prod; apply seq_NoDup. Qed.

Lemma blocks_nodup_l : NoDup B.
Proof. pose proof blocks_nodup as H. clear -H. induction B as [|c l IH]; [constructor|]. inversion H; subst. constructor; [|apply IH; assumption]. intros I. apply H2. apply in_or_app. left. exact I. Qed.

Lemma blocks_disjoint : forall c, In c B -> In c B' -> False.
Proof. intros c H H'. pose proof (HA c H) as E. rewrite (HA' c H') in E. discriminate. Qed.

Lemma pairs_in_blocks : forall e, In e (pairs N sl) -> In (block_of g e) (B ++ B').
Proof.
  intros [i j] He. apply in_pairs in He as (Hi & Hj & _). eapply Permutation_in; [exact HB|].
  apply in_prod; apply in_seq; split; try lia; simpl; apply HM; assumption.
Qed.

Lemma agrees_blocks : forall S, agrees M g A S
  = hits g B S && forallb (fun c => negb (hit g c S)) B'.
Proof.
  intros S. unfold agrees. rewrite (forallb_perm _ _ _ _ HB), forallb_app. f_equal; apply forallb_ext_in; intros c Hc.
  - rewrite (HA c Hc). unfold hit. destruct (blocks_linked _ _ _ _); reflexivity.
  - rewrite (HA' c Hc). unfold hit. destruct (blocks_linked _ _ _ _); reflexivity.
Qed.

Lemma agrees_split : forall S1 S2, In S1 (sublists (flat_map bl B)) -> In S2 (sublists (flat_map bl B')) ->
  agrees M g A (S1 ++ S2) = hits g B S1 && match S2 with [] => true | _ => false end.
Proof.
  intros S1 S2 H1 H2. rewrite agrees_blocks. f_equal.
  - apply forallb_ext_in. intros c Hc. rewrite hit_app, (hit_other c S2), Bool.orb_false_r; [reflexivity|].
    intros e He E. apply (blocks_disjoint c Hc). rewrite <- E. eapply flat_sub; eassumption.
  - destruct S2 as [|e S2].
    + rewrite app_nil_r. apply forallb_forall. intros c Hc. rewrite (hit_other c S1); [reflexivity|].
      intros e He E. apply (blocks_disjoint c); [|exact Hc]. rewrite <- E. eapply flat_sub; eassumption.
    + destruct (forallb _ B') eqn:F; [|reflexivity]. rewrite forallb_forall in F.
      specialize (F (block_of g e)). rewrite hit_app in F.
      replace (hit g (block_of g e) (e :: S2)) with true in F.
      * rewrite Bool.orb_true_r in F. symmetry. apply F. eapply flat_sub; [exact H2 | left; reflexivity].
      * symmetry. apply hit_spec. exists e. split; [left|]; reflexivity.
Qed.

Lemma agrees_perm : forall S T, Permutation S T -> agrees M g A S = agrees M g A T.
Proof.
  intros S T H. unfold agrees. apply forallb_ext_in. intros c _. f_equal. apply (hit_perm g c S T H).
Qed.

Lemma mean_agrees : forall f, (forall S T, Permutation S T -> f S = f T) ->
  E (pairs N sl) (fun S => f S * b2r (agrees M g A S))
  = E (flat_map bl B) (fun S => f S * b2r (hits g B S)) * prodl Q B'.
Proof.
  intros f Hf. rewrite (mean_sub_perm _ p (pairs N sl) (flat_map bl B ++ flat_map bl B')).
  - rewrite mean_sub_app. rewrite Rmult_comm, <- mean_sub_scal. apply mean_sub_ext. intros S1 H1.
    rewrite mean_sub_ext with (g := fun S2 => match S2 with [] => f S1 * b2r (hits g B S1) | _ => 0 end).
    + rewrite mean_sub_nil by (intros [|] H; [contradiction | reflexivity]).
      rewrite prodl_flat_map. reflexivity.
    + intros S2 H2. rewrite agrees_split by assumption. destruct S2; simpl.
      * rewrite app_nil_r, Bool.andb_true_r. reflexivity.
      * rewrite Bool.andb_false_r. simpl. ring.
  - rewrite <- flat_map_app. apply pairs_blocks; [apply blocks_nodup | apply pairs_in_blocks].
  - intros S T H. rewrite (Hf S T H), (agrees_perm S T H). reflexivity.
Qed.

Lemma prob_aggregate_blocks : prob_aggregate N sl (fun i j => p (i, j)) M g A = prodl (fun c => 1 - Q c) B * prodl Q B'.
Proof.
  unfold prob_aggregate. rewrite ensemble_mean_sub.
  rewrite (mean_sub_ext _ _ _ _ (fun S => 1 * b2r (agrees M g A S))) by (intros; ring).
  replace (mean_sub (fun e => p (fst e, snd e))) with E.
  - rewrite (mean_agrees (fun _ => 1)) by reflexivity.
    rewrite (mean_sub_ext _ _ _ _ (fun S => b2r (hits g B S))) by (intros; ring).
    rewrite mean_hits by apply blocks_nodup_l. reflexivity.
  - f_equal. apply FunctionalExtensionality.functional_extensionality. intros [i j]. reflexivity.
Qed.

Lemma prob_aggregate_all : prob_aggregate N sl (fun i j => p (i, j)) M g A
  = prodl (fun c => if A (fst c) (snd c) then 1 - Q c else Q c) (list_prod (seq 0 M) (seq 0 M)).
Proof.
  rewrite prob_aggregate_blocks, (prodl_perm _ _ _ _ HB), prodl_app. f_equal; apply prodl_ext; intros c Hc.
  - rewrite (HA c Hc). reflexivity.
  - rewrite (HA' c Hc). reflexivity.
Qed.

(** Mean given the aggregate graph. *)
Lemma cond_mean : forall f, (forall S T, Permutation S T -> f S = f T) ->
  prob_aggregate N sl (fun i j => p (i, j)) M g A <> 0 ->
  ensemble_mean N sl (cond_weight N sl (fun i j => p (i, j)) M g A) f * prodl (fun c => 1 - Q c) B
  = E (flat_map bl B) (fun S => f S * b2r (hits g B S)).
Proof.
  intros f Hf H0. unfold ensemble_mean, cond_weight. fold (all_graphs N sl).
  set (Z := prob_aggregate N sl (fun i j => p (i, j)) M g A) in *.
  rewrite (suml_ext _ _ (fun G => / Z * (graph_weight N sl (fun i j => p (i, j)) G * (f G * b2r (agrees M g A G)))))
    by (intros; unfold Rdiv; ring).
  rewrite suml_scal_l.
  change (suml (fun G => graph_weight N sl (fun i j => p (i, j)) G * (f G * b2r (agrees M g A G))) (all_graphs N sl))
    with (ensemble_mean N sl (graph_weight N sl (fun i j => p (i, j))) (fun G => f G * b2r (agrees M g A G))).
  rewrite ensemble_mean_sub.
  replace (mean_sub (fun e => p (fst e, snd e))) with E
    by (f_equal; apply FunctionalExtensionality.functional_extensionality; intros [i j]; reflexivity).
  rewrite mean_agrees by exact Hf. unfold Z in *. rewrite prob_aggregate_blocks in *. field.
  split; intros E0; apply H0; rewrite E0; ring.
Qed.

Lemma aggregate_pos : prob_aggregate N sl (fun i j => p (i, j)) M g A <> 0 -> forall c, In c B -> 1 - Q c <> 0.
Proof.
  intros H c Hc E0. apply H. rewrite prob_aggregate_blocks, (prodl_zero _ _ _ c Hc E0). ring.
Qed.

End Blocks.
