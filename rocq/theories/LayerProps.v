(** Sums, likelihoods and samples of layers, in the form used by the property theorems. *)
From Verif Require Import Base Num Spec Kernels KernelFacts MultiKernels MultiFacts Prob Ensemble EnsembleFacts
  EnsembleProps Layers LayerFacts.
From Coq Require Import Sorting.Sorted FunctionalExtensionality.

(** ** Sums over the stored entries *)

Definition stored (i : nat) (po : svec) : bool := existsb (Nat.eqb i) (map fst po).

Lemma stored_in : forall i po, stored i po = true <-> In i (map fst po).
Proof.
  intros i po. unfold stored. rewrite existsb_exists. split.
  - intros (x & H1 & H2). apply Nat.eqb_eq in H2. subst; exact H1.
  - intros H. exists i. split; [exact H | apply Nat.eqb_refl].
Qed.

Lemma stored_false : forall i po, stored i po = false -> lookup i po = Fin 0.
Proof. intros i po H. apply lookup_notin. intros K. apply stored_in in K. congruence. Qed.

Lemma canonical_nodup : forall N po, canonical N po -> NoDup (map fst po).
Proof. intros N po [H _]. apply sorted_nodup; exact H. Qed.

Lemma canonical_lt : forall N po i, canonical N po -> In i (map fst po) -> (i < N)%nat.
Proof.
  intros N po i [_ H] Hi. apply in_map_iff in Hi. destruct Hi as (e & <- & He).
  rewrite Forall_forall in H. apply H; exact He.
Qed.

Lemma lookup_in : forall po e, NoDup (map fst po) -> In e po -> lookup (fst e) po = snd e.
Proof.
  induction po as [|[a v] t IH]; intros e ND He; [contradiction|]. inversion ND; subst. simpl.
  destruct He as [<-|He]; simpl; [rewrite Nat.eqb_refl; reflexivity|].
  destruct (Nat.eqb_spec a (fst e)) as [E|E]; [|apply IH; assumption].
  exfalso. apply H1. rewrite E. apply in_map; exact He.
Qed.

Lemma sumn_pick : forall N a (f : nat -> R), (a < N)%nat ->
  sumn N (fun i => if Nat.eqb a i then f i else 0) = f a.
Proof. intros N a f H. rewrite sumn_delta'. destruct (Nat.ltb_spec a N); [reflexivity | lia]. Qed.

Lemma suml_indices : forall N l (f : nat -> R), NoDup l -> (forall i, In i l -> (i < N)%nat) ->
  suml f l = sumn N (fun i => if existsb (Nat.eqb i) l then f i else 0).
Proof.
  intros N l f; induction l as [|a l IH]; intros ND H.
  - simpl. symmetry. apply sumn_0.
  - inversion ND; subst. simpl suml. rewrite IH by (intros; auto; apply H; right; assumption).
    rewrite <- (sumn_pick N a f) by (apply H; left; reflexivity).
    rewrite <- sumn_plus. apply sumn_ext. intros i Hi. simpl.
    rewrite (Nat.eqb_sym i a). destruct (Nat.eqb_spec a i) as [->|Hn]; simpl.
    + destruct (existsb (Nat.eqb i) l) eqn:E; [|ring].
      apply existsb_exists in E. destruct E as (x & Hx & Ex). apply Nat.eqb_eq in Ex. subst. contradiction.
    + ring.
Qed.

Lemma suml_stored : forall N po (f : nat -> num -> R), canonical N po ->
  suml (fun e => f (fst e) (snd e)) po = sumn N (fun i => if stored i po then f i (lookup i po) else 0).
Proof.
  intros N po f C. pose proof (canonical_nodup _ _ C) as ND.
  transitivity (suml (fun i => f i (lookup i po)) (map fst po)).
  - rewrite suml_map. apply suml_ext. intros e He. rewrite (lookup_in po e ND He). reflexivity.
  - apply suml_indices; [exact ND | intros i Hi; apply (canonical_lt N po); assumption].
Qed.

Lemma prodn_delta : forall N a (f : nat -> R), (a < N)%nat ->
  prodn N (fun i => if Nat.eqb a i then f i else 1) = f a.
Proof.
  induction N as [|N IH]; intros a f H; [lia|]. simpl.
  destruct (Nat.eqb_spec a N) as [->|Hn].
  - rewrite (prodn_ext _ _ (fun _ => 1)), prodn_1; [ring|].
    intros i Hi. destruct (Nat.eqb_spec N i); [lia | reflexivity].
  - rewrite IH by lia. ring.
Qed.

Lemma prodl_indices : forall N l (f : nat -> R), NoDup l -> (forall i, In i l -> (i < N)%nat) ->
  prodl f l = prodn N (fun i => if existsb (Nat.eqb i) l then f i else 1).
Proof.
  intros N l f; induction l as [|a l IH]; intros ND H.
  - simpl. symmetry. apply prodn_1.
  - inversion ND; subst. rewrite prodl_cons, IH by (intros; auto; apply H; right; assumption).
    rewrite <- (prodn_delta N a f) by (apply H; left; reflexivity).
    rewrite <- prodn_mult. apply prodn_ext. intros i Hi. simpl.
    rewrite (Nat.eqb_sym i a). destruct (Nat.eqb_spec a i) as [->|Hn]; simpl.
    + destruct (existsb (Nat.eqb i) l) eqn:E; [|ring].
      apply existsb_exists in E. destruct E as (x & Hx & Ex). apply Nat.eqb_eq in Ex. subst. contradiction.
    + ring.
Qed.

Lemma prodl_stored : forall N po (f : nat -> num -> R), canonical N po ->
  prodl (fun e => f (fst e) (snd e)) po = prodn N (fun i => if stored i po then f i (lookup i po) else 1).
Proof.
  intros N po f C. pose proof (canonical_nodup _ _ C) as ND.
  transitivity (prodl (fun i => f i (lookup i po)) (map fst po)).
  - rewrite prodl_map. apply prodl_ext. intros e He. rewrite (lookup_in po e ND He). reflexivity.
  - apply prodl_indices; [exact ND | intros i Hi; apply (canonical_lt N po); assumption].
Qed.

Lemma value_at_lookup : forall po i, value_at po i = lookup i po.
Proof.
  intros po i. unfold value_at. induction po as [|[a v] t IH]; simpl; [reflexivity|].
  destruct (Nat.eqb a i); [reflexivity | exact IH].
Qed.

(** ** Loops with an invariant *)
Lemma for_each_sum_inv : forall (X S : Type) (Inv : S -> Prop) (view : S -> R) (body : X -> S -> S) (c : X -> R) l s,
  Inv s -> (forall x s, In x l -> Inv s -> Inv (body x s) /\ view (body x s) = view s + c x) ->
  Inv (for_each l body s) /\ view (for_each l body s) = view s + suml c l.
Proof.
  intros X S Inv view body c l; induction l as [|x l IH]; intros s Hs H.
  - simpl. split; [exact Hs | unfold for_each; simpl; ring].
  - rewrite for_each_cons. destruct (H x s (or_introl eq_refl) Hs) as [H1 H2].
    destruct (IH (body x s) H1) as [H3 H4]; [intros; apply H; [right|]; assumption|].
    split; [exact H3|]. rewrite H4, H2. simpl. ring.
Qed.

(** ** Dictionaries *)

Definition key_eqb (a b : nat * nat) : bool := Nat.eqb (fst a) (fst b) && Nat.eqb (snd a) (snd b).

Lemma key_eqb_spec : forall a b, reflect (a = b) (key_eqb a b).
Proof.
  intros [a1 a2] [b1 b2]. unfold key_eqb; simpl.
  destruct (Nat.eqb_spec a1 b1), (Nat.eqb_spec a2 b2); simpl; constructor; congruence.
Qed.

Definition dget (d : dok) (k : nat * nat) : R :=
  match find (fun e => key_eqb k (fst e)) d with Some e => snd e | None => 0 end.

Lemma dok_at_dget : forall d i l, dok_at d i l = dget d (i, l). Proof. reflexivity. Qed.

Lemma incr_fst : forall k v d, map fst (incr k v d) = map fst d.
Proof.
  intros k v d. unfold incr. rewrite map_map. apply map_ext. intros e.
  destruct (Nat.eqb (fst k) (fst (fst e)) && Nat.eqb (snd k) (snd (fst e))); reflexivity.
Qed.

Lemma has_fst : forall k d o, map fst d = map fst o -> has k d = has k o.
Proof.
  intros k d; unfold has; induction d as [|e d IH]; intros [|f o] H; simpl in *; try discriminate; [reflexivity|].
  injection H as H1 H2. rewrite H1, (IH o H2). reflexivity.
Qed.

Lemma dget_incr : forall d k v k', has k d = true ->
  dget (incr k v d) k' = dget d k' + (if key_eqb k' k then v else 0).
Proof.
  induction d as [|e d IH]; intros k v k' H; [discriminate|]. unfold has in H. simpl in H. fold (has k d) in H.
  unfold incr; simpl. fold (incr k v d).
  change (Nat.eqb (fst k) (fst (fst e)) && Nat.eqb (snd k) (snd (fst e))) with (key_eqb k (fst e)) in *.
  unfold dget; simpl. destruct (key_eqb_spec k (fst e)) as [E|E]; simpl.
  - destruct (key_eqb_spec k' (fst e)) as [E'|E']; simpl.
    + destruct (key_eqb_spec k' k) as [_|K]; [reflexivity | congruence].
    + destruct (key_eqb_spec k' k) as [K|_]; [congruence|].
      destruct (has k d) eqn:Hd.
      * fold (dget (incr k v d) k'). fold (dget d k'). rewrite IH by exact Hd.
        destruct (key_eqb_spec k' k) as [K|_]; [congruence | reflexivity].
      * assert (Hid : incr k v d = d).
        { clear -Hd. induction d as [|x d IHd]; [reflexivity|]. unfold has in Hd; simpl in Hd.
          apply orb_false_iff in Hd. destruct Hd as [H1 H2]. unfold incr; simpl. rewrite H1.
          f_equal. apply IHd. exact H2. }
        rewrite Hid. ring.
  - simpl in H. destruct (key_eqb_spec k' (fst e)) as [E'|E'].
    + destruct (key_eqb_spec k' k) as [K|_]; [congruence | ring].
    + fold (dget (incr k v d) k'). fold (dget d k'). apply IH. exact H.
Qed.

Lemma dget_app : forall d k v k', has k d = false ->
  dget (d ++ [(k, v)]) k' = dget d k' + (if key_eqb k' k then v else 0).
Proof.
  induction d as [|e d IH]; intros k v k' H.
  - unfold dget; simpl. destruct (key_eqb k' k); simpl; ring.
  - unfold has in H; simpl in H. apply orb_false_iff in H. destruct H as [H1 H2].
    change (Nat.eqb (fst k) (fst (fst e)) && Nat.eqb (snd k) (snd (fst e))) with (key_eqb k (fst e)) in H1.
    unfold dget; simpl. destruct (key_eqb_spec k' (fst e)) as [E'|E']; simpl.
    + destruct (key_eqb_spec k' k) as [K|_]; [|ring]. exfalso.
      destruct (key_eqb_spec k (fst e)); congruence.
    + apply IH. exact H2.
Qed.

Definition same_keys (st : doks) : Prop :=
  let '(d, o, n) := st in map fst d = map fst o /\ map fst d = map fst n.

Definition v1 (k : nat * nat) (st : doks) : R := let '(d, _, _) := st in dget d k.
Definition v2 (k : nat * nat) (st : doks) : R := let '(_, o, _) := st in dget o k.
Definition v3 (k : nat * nat) (st : doks) : R := let '(_, _, n) := st in dget n k.

Lemma bump_spec : forall k p a b st, same_keys st ->
  same_keys (bump k p a b st) /\
  (forall k', v1 k' (bump k p a b st) = v1 k' st + (if key_eqb k' k then p else 0)) /\
  (forall k', v2 k' (bump k p a b st) = v2 k' st + (if key_eqb k' k then a else 0)) /\
  (forall k', v3 k' (bump k p a b st) = v3 k' st + (if key_eqb k' k then b else 0)).
Proof.
  intros k p a b [[d o] n] [H1 H2]. unfold bump. destruct (has k d) eqn:E; cbn [v1 v2 v3 same_keys].
  - split; [rewrite !incr_fst; auto|].
    repeat split; intros k'; apply dget_incr; [exact E | rewrite <- (has_fst k d o H1); exact E
      | rewrite <- (has_fst k d n H2); exact E].
  - split; [rewrite !map_app, H1, <- H2, H1; auto|].
    repeat split; intros k'; apply dget_app; [exact E | rewrite <- (has_fst k d o H1); exact E
      | rewrite <- (has_fst k d n H2); exact E].
Qed.

(** ** Each pair visited once *)

Lemma sumn_single : forall N v (f : nat -> R), (v < N)%nat -> (forall i, (i < N)%nat -> i <> v -> f i = 0) ->
  sumn N f = f v.
Proof.
  intros N v f Hv H. rewrite <- (sumn_pick N v f Hv). apply sumn_ext. intros i Hi.
  destruct (Nat.eqb_spec v i) as [->|Hn]; [reflexivity | apply H; [exact Hi | congruence]].
Qed.

(** What the two nested loops over the stored entries add at vertex [v]. *)
Lemma visit_sum : forall N (po pin : svec) (sl : bool) v (h : nat -> nat -> R) (s : nat -> R), (v < N)%nat ->
  canonical N po -> canonical N pin ->
  suml (fun o => suml (fun q =>
    if negb (Nat.eqb (fst o) (fst q)) then
      (if Nat.eqb v (fst o) then h v (fst q) else 0) + (if Nat.eqb v (fst q) then h v (fst o) else 0)
    else if sl then (if Nat.eqb v (fst o) then s v else 0) else 0) pin) po
  = sumn N (fun j => if Nat.eqb v j then (if sl && stored v po && stored v pin then s v else 0)
      else (if stored v po && stored j pin then h v j else 0) + (if stored j po && stored v pin then h v j else 0)).
Proof.
  intros N po pin sl v h s Hv C1 C2.
  set (c := fun i j => if negb (Nat.eqb i j) then
      (if Nat.eqb v i then h v j else 0) + (if Nat.eqb v j then h v i else 0)
    else if sl then (if Nat.eqb v i then s v else 0) else 0).
  transitivity (sumn N (fun i => sumn N (fun j => if stored i po && stored j pin then c i j else 0))).
  - etransitivity; [exact (suml_stored N po (fun i _ => suml (fun q => c i (fst q)) pin) C1)|].
    apply sumn_ext. intros i Hi. destruct (stored i po); simpl; [|symmetry; apply sumn_0].
    exact (suml_stored N pin (fun j _ => c i j) C2).
  - set (A := fun i j => if negb (Nat.eqb i j) && Nat.eqb v i && (stored i po && stored j pin) then h v j else 0).
    set (B := fun i j => if negb (Nat.eqb i j) && Nat.eqb v j && (stored i po && stored j pin) then h v i else 0).
    set (D := fun i j => if Nat.eqb i j && sl && Nat.eqb v i && (stored i po && stored j pin) then s v else 0).
    transitivity (sumn N (fun i => sumn N (fun j => A i j)) + sumn N (fun i => sumn N (fun j => B i j))
                  + sumn N (fun i => sumn N (fun j => D i j))).
    { rewrite <- !sumn_plus. apply sumn_ext. intros i Hi. rewrite <- !sumn_plus. apply sumn_ext. intros j Hj.
      unfold A, B, D, c. destruct (stored i po && stored j pin); rewrite ?andb_false_r, ?andb_true_r; [|ring].
      destruct (Nat.eqb i j); simpl; [destruct sl; simpl; destruct (Nat.eqb v i); ring | destruct (Nat.eqb v i), (Nat.eqb v j); ring]. }
    rewrite (sumn_single N v (fun i => sumn N (fun j => A i j)) Hv).
    2:{ intros i Hi Hn. apply sumn_zero. intros j Hj. unfold A.
        destruct (Nat.eqb_spec v i); [congruence|]. rewrite andb_false_r. reflexivity. }
    rewrite (sumn_swap N N B). rewrite (sumn_single N v (fun j => sumn N (fun i => B i j)) Hv).
    2:{ intros i Hi Hn. apply sumn_zero. intros j Hj. unfold B.
        destruct (Nat.eqb_spec v i); [congruence|]. rewrite andb_false_r. reflexivity. }
    rewrite (sumn_single N v (fun i => sumn N (fun j => D i j)) Hv).
    2:{ intros i Hi Hn. apply sumn_zero. intros j Hj. unfold D.
        destruct (Nat.eqb_spec v i); [congruence|]. rewrite andb_false_r. reflexivity. }
    rewrite <- !sumn_plus. apply sumn_ext. intros j Hj. unfold A, B, D.
    rewrite (Nat.eqb_sym j v). rewrite !Nat.eqb_refl.
    destruct (Nat.eqb_spec v j) as [->|Hn]; simpl.
    + rewrite andb_true_r. destruct sl, (stored j po), (stored j pin); simpl; ring.
    + destruct (stored v po), (stored j pin), (stored j po), (stored v pin); simpl; ring.
Qed.

(** When no pair is stored in both orientations, each contribution is counted once. *)
Lemma visit_once : forall N (po pin : svec) (sl : bool) v (h : nat -> nat -> R) (s : nat -> R), (v < N)%nat ->
  canonical N po -> canonical N pin ->
  (forall j, (j < N)%nat -> j <> v -> stored v po && stored j pin && (stored j po && stored v pin) = false) ->
  (forall j, (j < N)%nat -> j <> v -> stored v po && stored j pin = false -> stored j po && stored v pin = false ->
     h v j = 0) ->
  (stored v po && stored v pin = false -> s v = 0) ->
  suml (fun o => suml (fun q =>
    if negb (Nat.eqb (fst o) (fst q)) then
      (if Nat.eqb v (fst o) then h v (fst q) else 0) + (if Nat.eqb v (fst q) then h v (fst o) else 0)
    else if sl then (if Nat.eqb v (fst o) then s v else 0) else 0) pin) po
  = sumn N (fun j => if allowed sl v j then (if Nat.eqb v j then s v else h v j) else 0).
Proof.
  intros N po pin sl v h s Hv C1 C2 H1 H2 H3. rewrite (visit_sum N) by assumption.
  apply sumn_ext. intros j Hj. unfold allowed. destruct (Nat.eqb_spec v j) as [<-|Hn]; simpl.
  - destruct sl; simpl; [|reflexivity].
    destruct (stored v po && stored v pin) eqn:E; [reflexivity | rewrite H3 by reflexivity; reflexivity].
  - assert (Hn' : j <> v) by congruence. specialize (H1 j Hj Hn'). specialize (H2 j Hj Hn').
    destruct (stored v po && stored j pin), (stored j po && stored v pin); try discriminate; try ring.
    rewrite H2 by reflexivity. ring.
Qed.

Lemma suml_combine_seq : forall A (xs : list A) (f : nat * A -> R) d s,
  suml f (combine (seq s (length xs)) xs) = sumn (length xs) (fun k => f ((s + k)%nat, nth k xs d)).
Proof.
  intros A xs f d; induction xs as [|x xs IH]; intros s; [reflexivity|].
  cbn [length seq combine suml]. rewrite IH, sumn_S_l, Nat.add_0_r. f_equal. apply sumn_ext. intros k Hk.
  rewrite Nat.add_succ_r. reflexivity.
Qed.

(** ** One layer *)

Section OneLayer.
Variable Z : Type.
Variables (p : num -> num -> num -> Z -> R) (lp l1p : num -> num -> num -> Z -> num) (z : nat -> nat -> Z).
Variables (N : nat) (d : num) (po pin : svec).
Hypothesis C1 : canonical N po.
Hypothesis C2 : canonical N pin.
Hypothesis Hz1 : forall y w, p d (Fin 0) y w = 0.
Hypothesis Hz2 : forall x w, p d x (Fin 0) w = 0.
Let P (i j : nat) : R := p d (lookup i po) (lookup j pin) (z i j).

Lemma P_out : forall i j, stored i po = false -> P i j = 0.
Proof. intros i j H. unfold P. rewrite (stored_false i po H). apply Hz1. Qed.
Lemma P_in : forall i j, stored j pin = false -> P i j = 0.
Proof. intros i j H. unfold P. rewrite (stored_false j pin H). apply Hz2. Qed.

Lemma in_lookup_out : forall o, In o po -> snd o = lookup (fst o) po.
Proof. intros o Ho. symmetry. apply lookup_in; [apply (canonical_nodup N), C1 | exact Ho]. Qed.
Lemma in_lookup_in : forall q, In q pin -> snd q = lookup (fst q) pin.
Proof. intros q Hq. symmetry. apply lookup_in; [apply (canonical_nodup N), C2 | exact Hq]. Qed.

Lemma layer_edges : forall sl, exp_edges_layer p z d po pin sl = pair_sum N sl P.
Proof.
  intros sl. unfold exp_edges_layer.
  rewrite (for_each_sum _ R (fun e => e) po _ (fun o => suml (fun q =>
    if allowed sl (fst o) (fst q) then p d (snd o) (snd q) (z (fst o) (fst q)) else 0) pin)).
  2:{ intros [i x] s _. apply (for_each_sum _ R (fun e => e) pin). intros [j y] s' _. simpl.
      change (adm sl i j) with (allowed sl i j). destruct (allowed sl i j); ring. }
  rewrite Rplus_0_l.
  etransitivity; [exact (suml_stored N po (fun i x => suml (fun q =>
    if allowed sl i (fst q) then p d x (snd q) (z i (fst q)) else 0) pin) C1)|].
  unfold pair_sum. apply sumn_ext. intros i Hi. destruct (stored i po) eqn:E.
  - etransitivity; [exact (suml_stored N pin (fun j y =>
      if allowed sl i j then p d (lookup i po) y (z i j) else 0) C2)|].
    apply sumn_ext. intros j Hj. destruct (stored j pin) eqn:E'; [reflexivity|].
    destruct (allowed sl i j); [symmetry; apply P_in; exact E' | reflexivity].
  - symmetry. apply sumn_zero. intros j Hj. destruct (allowed sl i j); [apply P_out; exact E | reflexivity].
Qed.

(** Contributions of the visit of the pair (i,j) to vertex [v]. *)
Definition visit (h : nat -> nat -> R) (s : nat -> R) (sl : bool) (v : nat) (o q : nat * num) : R :=
  if negb (Nat.eqb (fst o) (fst q)) then
    (if Nat.eqb v (fst o) then h v (fst q) else 0) + (if Nat.eqb v (fst q) then h v (fst o) else 0)
  else if sl then (if Nat.eqb v (fst o) then s v else 0) else 0.

Let U (i j : nat) : R := P i j + P j i - P i j * P j i.

Definition visits (l lbl v : nat) (sl : bool) (body : doks -> doks) (o q : nat * num) : Prop :=
  forall st, same_keys st ->
    same_keys (body st) /\
    v1 (v, l) (body st) = v1 (v, l) st + (if Nat.eqb l lbl then visit U (fun i => P i i) sl v o q else 0) /\
    v2 (v, l) (body st) = v2 (v, l) st + (if Nat.eqb l lbl then visit P (fun i => P i i) sl v o q else 0) /\
    v3 (v, l) (body st) = v3 (v, l) st
      + (if Nat.eqb l lbl then visit (fun a b => P b a) (fun i => P i i) sl v o q else 0).

Lemma visits_pair : forall l lbl v sl o q u a b, fst o <> fst q ->
  u = U (fst o) (fst q) -> a = P (fst o) (fst q) -> b = P (fst q) (fst o) ->
  visits l lbl v sl (fun st => bump (fst q, lbl) u b a (bump (fst o, lbl) u a b st)) o q.
Proof.
  intros l lbl v sl [i x] [j y] u a b Hn Hu Ha Hb st Hst. cbn [fst snd] in *.
  destruct (bump_spec (i, lbl) u a b st Hst) as (K1 & A1 & B1 & D1).
  destruct (bump_spec (j, lbl) u b a _ K1) as (K2 & A2 & B2 & D2).
  split; [exact K2|]. rewrite A2, A1, B2, B1, D2, D1. unfold visit; cbn [fst].
  destruct (Nat.eqb_spec i j) as [|_]; [contradiction|]. cbn [negb].
  unfold key_eqb; cbn [fst snd]. rewrite Hu, Ha, Hb. clear.
  destruct (Nat.eqb l lbl); rewrite ?andb_true_r, ?andb_false_r; [|repeat split; ring].
  unfold U. destruct (Nat.eqb_spec v i) as [E1|E1], (Nat.eqb_spec v j) as [E2|E2]; subst; repeat split; ring.
Qed.

Lemma visits_loop : forall l lbl v (sl : bool) o q a, fst o = fst q -> a = P (fst o) (fst q) ->
  visits l lbl v sl (fun st => if sl then bump (fst o, lbl) a a a st else st) o q.
Proof.
  intros l lbl v sl [i x] [j y] a E Ha st Hst. cbn [fst snd] in *. subst j.
  unfold visit; cbn [fst]. rewrite Nat.eqb_refl. cbn [negb]. destruct sl.
  - destruct (bump_spec (i, lbl) a a a st Hst) as (K1 & A1 & B1 & D1).
    split; [exact K1|]. rewrite A1, B1, D1. unfold key_eqb; cbn [fst snd]. rewrite Ha.
    destruct (Nat.eqb l lbl); rewrite ?andb_true_r, ?andb_false_r; [|repeat split; ring].
    destruct (Nat.eqb_spec v i) as [->|]; repeat split; ring.
  - split; [exact Hst|]. destruct (Nat.eqb l lbl); repeat split; ring.
Qed.

Lemma sparse_visits : forall l lbl v sl o q, In o po -> In q pin ->
  visits l lbl v sl (degrees_label_body p z d lbl po pin sl (fst o) (snd o) (value_at pin (fst o)) (fst q) (snd q)) o q.
Proof.
  intros l lbl v sl o q Ho Hq st Hst. unfold degrees_label_body. rewrite !value_at_lookup.
  rewrite (in_lookup_out o Ho), (in_lookup_in q Hq).
  destruct (Nat.eqb_spec (fst o) (fst q)) as [E|E]; cbn [negb].
  - apply (visits_loop l lbl v sl o q); [exact E | reflexivity | exact Hst].
  - apply (visits_pair l lbl v sl o q); [exact E | | | | exact Hst]; reflexivity.
Qed.

(** The Spark body: kernels do not look at the dyad. *)
Lemma spark_visits : (forall x y w w', p d x y w = p d x y w') ->
  forall l lbl v sl o q, In o po -> In q pin ->
  visits l lbl v sl (degrees_layer_body p z d lbl po pin sl (fst o) (snd o) (fst q) (snd q)) o q.
Proof.
  intros Hd l lbl v sl o q Ho Hq st Hst. unfold degrees_layer_body. rewrite !value_at_lookup.
  rewrite (in_lookup_out o Ho), (in_lookup_in q Hq).
  destruct (Nat.eqb_spec (fst o) (fst q)) as [E|E]; cbn [negb].
  - apply (visits_loop l lbl v sl o q); [exact E | reflexivity | exact Hst].
  - assert (F : forall (v : svec) i, existsb (fun e => Nat.eqb (fst e) i) v = stored i v).
    { intros w i. unfold stored. clear. induction w as [|e w IH]; simpl; [reflexivity|].
      rewrite IH, Nat.eqb_sym. reflexivity. }
    rewrite !F. destruct (stored (fst o) pin && stored (fst q) po) eqn:B.
    + apply (visits_pair l lbl v sl o q); [exact E | | reflexivity | apply Hd | exact Hst].
      unfold U, P. rewrite (Hd (lookup (fst q) po) (lookup (fst o) pin) (z (fst o) (fst q)) (z (fst q) (fst o))).
      reflexivity.
    + assert (Pz : P (fst q) (fst o) = 0).
      { apply andb_false_iff in B. destruct B as [B|B]; [apply P_in | apply P_out]; exact B. }
      apply (visits_pair l lbl v sl o q); [exact E | | reflexivity | symmetry; exact Pz | exact Hst].
      unfold U. rewrite Pz. unfold P. ring.
Qed.

(** The nested loops over a layer. *)
Lemma layer_visits : forall l lbl v sl (body : nat * num -> nat * num -> doks -> doks),
  (forall o q, In o po -> In q pin -> visits l lbl v sl (body o q) o q) ->
  forall st, same_keys st ->
  let st' := for_each po (fun o st => for_each pin (fun q st => body o q st) st) st in
  same_keys st' /\
  v1 (v, l) st' = v1 (v, l) st
    + (if Nat.eqb l lbl then suml (fun o => suml (fun q => visit U (fun i => P i i) sl v o q) pin) po else 0) /\
  v2 (v, l) st' = v2 (v, l) st
    + (if Nat.eqb l lbl then suml (fun o => suml (fun q => visit P (fun i => P i i) sl v o q) pin) po else 0) /\
  v3 (v, l) st' = v3 (v, l) st
    + (if Nat.eqb l lbl then suml (fun o => suml (fun q => visit (fun a b => P b a) (fun i => P i i) sl v o q) pin) po else 0).
Proof.
  intros l lbl v sl body H st Hst st'.
  assert (G : forall (view : doks -> R) (c : nat * num -> nat * num -> R),
    (forall o q s, In o po -> In q pin -> same_keys s ->
       same_keys (body o q s) /\ view (body o q s) = view s + (if Nat.eqb l lbl then c o q else 0)) ->
    same_keys st' /\ view st' = view st + (if Nat.eqb l lbl then suml (fun o => suml (fun q => c o q) pin) po else 0)).
  { intros view c Hc. unfold st'.
    destruct (for_each_sum_inv _ doks same_keys view
      (fun o st => for_each pin (fun q st => body o q st) st)
      (fun o => suml (fun q => if Nat.eqb l lbl then c o q else 0) pin) po st Hst) as [K1 K2].
    - intros o s Ho Hs.
      apply (for_each_sum_inv _ doks same_keys view (fun q st => body o q st)
        (fun q => if Nat.eqb l lbl then c o q else 0) pin s Hs).
      intros q s' Hq Hs'. apply Hc; assumption.
    - split; [exact K1|]. rewrite K2. f_equal. destruct (Nat.eqb l lbl); [reflexivity|].
      apply suml_zero. intros o _. apply suml_zero. reflexivity. }
  destruct (G (v1 (v, l)) (visit U (fun i => P i i) sl v)) as [K1 K2].
  { intros o q s Ho Hq Hs. destruct (H o q Ho Hq s Hs) as (A & B & _). auto. }
  destruct (G (v2 (v, l)) (visit P (fun i => P i i) sl v)) as [_ K3].
  { intros o q s Ho Hq Hs. destruct (H o q Ho Hq s Hs) as (A & _ & B & _). auto. }
  destruct (G (v3 (v, l)) (visit (fun a b => P b a) (fun i => P i i) sl v)) as [_ K4].
  { intros o q s Ho Hq Hs. destruct (H o q Ho Hq s Hs) as (A & _ & _ & B). auto. }
  auto.
Qed.

(** When no two distinct vertices both have stored out- and in-fitness, the sums of the visits are the
    expected degrees. *)
Lemma once_degrees : forall sl v, (v < N)%nat ->
  (forall j, (j < N)%nat -> j <> v -> stored v po && stored j pin && (stored j po && stored v pin) = false) ->
  suml (fun o => suml (fun q => visit U (fun i => P i i) sl v o q) pin) po = nb_degree N sl (either_link P) v /\
  suml (fun o => suml (fun q => visit P (fun i => P i i) sl v o q) pin) po = nb_degree N sl (out_link P) v /\
  suml (fun o => suml (fun q => visit (fun a b => P b a) (fun i => P i i) sl v o q) pin) po
    = nb_degree N sl (in_link P) v.
Proof.
  intros sl v Hv Hone.
  assert (Z0 : forall i j, stored i po && stored j pin = false -> P i j = 0).
  { intros i j H. apply andb_false_iff in H. destruct H; [apply P_out | apply P_in]; assumption. }
  repeat split; (etransitivity; [eapply (visit_once N po pin sl v); try assumption|]).
  - intros j Hj Hn A B. unfold U. rewrite (Z0 v j A), (Z0 j v B). ring.
  - intros A. apply Z0; exact A.
  - unfold nb_degree. apply sumn_ext. intros j Hj. destruct (allowed sl v j); [|reflexivity].
    unfold either_link, U. destruct (Nat.eqb_spec v j) as [<-|]; [reflexivity | ring].
  - intros j Hj Hn A B. apply Z0; exact A.
  - intros A. apply Z0; exact A.
  - unfold nb_degree. apply sumn_ext. intros j Hj. destruct (allowed sl v j); [|reflexivity].
    unfold out_link. destruct (Nat.eqb_spec v j) as [<-|]; reflexivity.
  - intros j Hj Hn A B. apply Z0; exact B.
  - intros A. apply Z0; exact A.
  - unfold nb_degree. apply sumn_ext. intros j Hj. destruct (allowed sl v j); [|reflexivity].
    unfold in_link. destruct (Nat.eqb_spec v j) as [<-|]; reflexivity.
Qed.

(** *** Likelihood *)

Hypothesis Hlog : forall i j, log_of (P i j) (lp d (lookup i po) (lookup j pin) (z i j)) /\
                              log_of (1 - P i j) (l1p d (lookup i po) (lookup j pin) (z i j)).

Definition tracks (W : R) (f : flow num num) : Prop :=
  match f with Next like => 0 < W /\ like = Fin (ln W) | Return t => W = 0 /\ t = NInf end.

Lemma tracks_log : forall W f, tracks W f -> log_of W (flow_val f).
Proof. intros W [like|t] [H1 H2]; [left | right]; auto. Qed.

Lemma each_tracks : forall X (l : list X) body (w : X -> R) W s,
  (forall x W s, In x l -> tracks W (Next s) -> tracks (W * w x) (body x s)) ->
  tracks W (Next s) -> tracks (W * prodl w l) (each_flow l body s).
Proof.
  intros X l body w; induction l as [|x l IH]; intros W s H Hs.
  - simpl. rewrite Rmult_1_r. exact Hs.
  - cbn [each_flow]. rewrite prodl_cons, <- Rmult_assoc.
    pose proof (H x W s (or_introl eq_refl) Hs) as Hx. destruct (body x s) as [s'|t] eqn:E.
    + apply IH; [intros; apply H; [right|]; assumption | exact Hx].
    + destruct Hx as [Hx1 Hx2]. simpl. rewrite Hx1. split; [ring | exact Hx2].
Qed.

Lemma no_fitness_spec : forall (v : svec) i, NoDup (map fst v) -> no_fitness v i = is0 (lookup i v).
Proof.
  intros v i ND. unfold no_fitness. rewrite filter_label by exact ND.
  destruct (existsb (Nat.eqb i) (map fst v)) eqn:E; simpl.
  - rewrite orb_false_r. reflexivity.
  - rewrite (stored_false i v E). simpl. symmetry. apply is0_0.
Qed.

Lemma row_of_in : forall G i j, In j (row_of G i) <-> In (i, j) G.
Proof.
  intros G i j. rewrite <- mem_spec, <- row_of_mem, existsb_exists. split.
  - intros H. exists j. split; [exact H | apply Nat.eqb_refl].
  - intros (x & H1 & H2). apply Nat.eqb_eq in H2. subst; exact H1.
Qed.

Lemma impossible_spec : forall G, (forall e, In e G -> (fst e < N)%nat) ->
  impossible_link po pin (row_of G) N = true <->
  exists i j, In (i, j) G /\ (is0 (lookup i po) = true \/ is0 (lookup j pin) = true).
Proof.
  intros G HG. unfold impossible_link. rewrite existsb_exists.
  pose proof (canonical_nodup _ _ C1) as N1. pose proof (canonical_nodup _ _ C2) as N2. split.
  - intros (i & Hi & H). apply andb_true_iff in H. destruct H as [H1 H2].
    apply orb_true_iff in H2. destruct H2 as [H2|H2].
    + destruct (row_of G i) as [|j t] eqn:E; [discriminate|].
      exists i, j. split; [apply row_of_in; rewrite E; left; reflexivity|].
      left. rewrite <- (no_fitness_spec po i N1). exact H2.
    + apply existsb_exists in H2. destruct H2 as (j & Hj & H2). exists i, j.
      split; [apply row_of_in; exact Hj|]. right. rewrite <- (no_fitness_spec pin j N2). exact H2.
  - intros (i & j & Hij & H). exists i. split; [apply in_seq; pose proof (HG _ Hij); simpl in *; lia|].
    assert (Hj : In j (row_of G i)) by (apply row_of_in; exact Hij).
    apply andb_true_iff. split; [destruct (row_of G i); [contradiction | reflexivity]|].
    apply orb_true_iff. destruct H as [H|H].
    + left. rewrite no_fitness_spec by exact N1. exact H.
    + right. apply existsb_exists. exists j. split; [exact Hj|]. rewrite no_fitness_spec by exact N2. exact H.
Qed.

Lemma is0_true : forall a, is0 a = true -> a = Fin 0.
Proof. intros [x| | |] H; simpl in H; try discriminate. f_equal. destruct (Reqb_spec x 0); [assumption | discriminate]. Qed.

Definition factor (G : list (nat * nat)) (i j : nat) : R := if mem (i, j) G then P i j else 1 - P i j.

Lemma layer_lik : forall sl G,
  (forall i j, In (i, j) G -> (i < N)%nat /\ (j < N)%nat /\ allowed sl i j = true) ->
  log_of (graph_weight N sl P G) (likelihood_layer lp l1p z d po pin (row_of G) N sl).
Proof.
  intros sl G HG. unfold likelihood_layer.
  destruct (impossible_link po pin (row_of G) N) eqn:Im.
  - right. split; [|reflexivity]. apply impossible_spec in Im.
    2:{ intros [i j] He. apply (HG i j He). }
    destruct Im as (i & j & Hij & H). destruct (HG i j Hij) as (Hi & Hj & Ha).
    rewrite graph_weight_list. apply (prodl_zero _ _ _ (i, j)); [apply in_pairs; auto|]. simpl.
    replace (mem (i, j) G) with true by (symmetry; apply mem_spec; exact Hij).
    unfold P. destruct H as [H|H]; apply is0_true in H; rewrite H; [apply Hz1 | apply Hz2].
  - assert (Pos : forall i j, In (i, j) G -> stored i po && stored j pin = true).
    { intros i j Hij. destruct (stored i po && stored j pin) eqn:E; [reflexivity|]. exfalso.
      assert (K : impossible_link po pin (row_of G) N = true); [|congruence].
      apply impossible_spec; [intros [a b] He; apply (HG a b He)|]. exists i, j. split; [exact Hij|].
      apply andb_false_iff in E. destruct E as [E|E]; apply stored_false in E; rewrite E; [left | right]; apply is0_0. }
    apply tracks_log.
    replace (graph_weight N sl P G) with (1 * prodl (fun o => prodl (fun q =>
      if allowed sl (fst o) (fst q) then factor G (fst o) (fst q) else 1) pin) po).
    + apply each_tracks; [|simpl; split; [lra | rewrite ln_1; reflexivity]].
      intros o W s Ho Hs. apply each_tracks; [|exact Hs].
      clear W s Hs. intros q W s Hq [HW ->]. destruct o as [i x], q as [j y]. cbn [fst snd].
      pose proof (in_lookup_out _ Ho) as Ex. pose proof (in_lookup_in _ Hq) as Ey. cbn [fst snd] in Ex, Ey. subst x y.
      change (adm sl i j) with (allowed sl i j). destruct (allowed sl i j); [|simpl; rewrite Rmult_1_r; auto].
      rewrite row_of_mem. unfold factor. cbv zeta.
      destruct (Hlog i j) as [L1 L2].
      assert (L : log_of (if mem (i, j) G then P i j else 1 - P i j)
        (if mem (i, j) G then lp d (lookup i po) (lookup j pin) (z i j) else l1p d (lookup i po) (lookup j pin) (z i j)))
        by (destruct (mem (i, j) G); assumption).
      destruct (isinf (if mem (i, j) G then lp d (lookup i po) (lookup j pin) (z i j)
                       else l1p d (lookup i po) (lookup j pin) (z i j))) eqn:I.
      * destruct (log_of_isinf _ _ L I) as [-> ->]. simpl. split; [ring | reflexivity].
      * destruct (log_of_not_isinf _ _ L I) as [Hp ->]. simpl.
        split; [apply Rmult_lt_0_compat; assumption | rewrite ln_mult by assumption; reflexivity].
    + rewrite Rmult_1_l.
      etransitivity; [exact (prodl_stored N po (fun i _ => prodl (fun q =>
        if allowed sl i (fst q) then factor G i (fst q) else 1) pin) C1)|].
      unfold graph_weight. apply prodn_ext. intros i Hi. destruct (stored i po) eqn:Ei.
      * etransitivity; [exact (prodl_stored N pin (fun j _ => if allowed sl i j then factor G i j else 1) C2)|].
        apply prodn_ext. intros j Hj. destruct (stored j pin) eqn:Ej; [reflexivity|].
        destruct (allowed sl i j); [|reflexivity].
        replace (mem (i, j) G) with false; [rewrite P_in by exact Ej; ring|].
        symmetry. apply mem_false. intros K. apply Pos in K. rewrite Ej, andb_false_r in K. discriminate.
      * symmetry. etransitivity; [apply (prodn_ext N _ (fun _ => 1)) | apply prodn_1].
        intros j Hj. destruct (allowed sl i j); [|reflexivity].
        replace (mem (i, j) G) with false; [rewrite P_out by exact Ei; ring|].
        symmetry. apply mem_false. intros K. apply Pos in K. rewrite Ei in K. discriminate.
Qed.
End OneLayer.

(** ** Sampling *)

Lemma seq_plus1 : forall n s, seq s (S n) = seq s n ++ [(s + n)%nat].
Proof. intros n s. replace (S n) with (n + 1)%nat by lia. rewrite seq_app. reflexivity. Qed.

(** A strictly increasing list of indices below [N] is the filter of the range. *)
Lemma sorted_filter : forall l s N, StronglySorted lt l -> (forall i, In i l -> (s <= i < s + N)%nat) ->
  l = filter (fun i => existsb (Nat.eqb i) l) (seq s N).
Proof.
  intros l s N; revert l s; induction N as [|N IH]; intros l s S H.
  - destruct l as [|a l]; [reflexivity|]. specialize (H a (or_introl eq_refl)). lia.
  - cbn [seq filter]. destruct (existsb (Nat.eqb s) l) eqn:E.
    + apply existsb_exists in E. destruct E as (x & Hx & E). apply Nat.eqb_eq in E. subst x.
      destruct l as [|a l]; [contradiction|]. inversion S as [|? ? S' F]; subst. rewrite Forall_forall in F.
      assert (a = s).
      { destruct Hx as [->|Hx]; [reflexivity|]. specialize (F s Hx). specialize (H a (or_introl eq_refl)). lia. }
      subst a. f_equal.
      rewrite (IH l (Datatypes.S s) S') at 1.
      2:{ intros i Hi. specialize (F i Hi). specialize (H i (or_intror Hi)). lia. }
      apply filter_ext_in. intros i Hi. apply in_seq in Hi. simpl.
      destruct (Nat.eqb_spec i s); [lia | reflexivity].
    + apply IH; [exact S|]. intros i Hi. pose proof (H i Hi). enough (i <> s) by lia. intros ->.
      assert (K : existsb (Nat.eqb s) l = true); [|congruence].
      apply existsb_exists. exists s. split; [exact Hi | apply Nat.eqb_refl].
Qed.

Lemma canonical_filter : forall N (po : svec), canonical N po ->
  map fst po = filter (fun i => stored i po) (seq 0 N).
Proof.
  intros N po [C1 C2]. apply sorted_filter; [exact C1|]. intros i Hi.
  pose proof (canonical_lt N po i (conj C1 C2) Hi). lia.
Qed.

Lemma list_prod_filter : forall A B (f : A -> bool) (g : B -> bool) l m,
  list_prod (filter f l) (filter g m) = filter (fun e => f (fst e) && g (snd e)) (list_prod l m).
Proof.
  intros A B f g l m; induction l as [|a l IH]; simpl; [reflexivity|]. rewrite filter_app.
  destruct (f a) eqn:E; cbn [list_prod]; rewrite IH; f_equal.
  - clear -E. induction m as [|b m IHm]; simpl; [reflexivity|]. rewrite E. simpl.
    destruct (g b); simpl; rewrite IHm; reflexivity.
  - change (filter (fun e => f (fst e) && g (snd e)) (list_prod l m))
      with ([] ++ filter (fun e => f (fst e) && g (snd e)) (list_prod l m)) at 1. f_equal.
    clear -E. induction m as [|b m IHm]; simpl; [reflexivity|]. rewrite E. simpl. exact IHm.
Qed.

Lemma list_prod_map : forall A B C D (f : A -> C) (g : B -> D) l m,
  list_prod (map f l) (map g m) = map (fun e => (f (fst e), g (snd e))) (list_prod l m).
Proof.
  intros A B C D f g l m; induction l as [|a l IH]; simpl; [reflexivity|]. rewrite map_app, IH, !map_map. reflexivity.
Qed.

Lemma filter_map : forall A B (f : A -> B) (c : B -> bool) l, filter c (map f l) = map f (filter (fun x => c (f x)) l).
Proof.
  intros A B f c l; induction l as [|a l IH]; simpl; [reflexivity|]. destruct (c (f a)); simpl; rewrite IH; reflexivity.
Qed.

Lemma filter_filter : forall A (c d : A -> bool) l, filter c (filter d l) = filter (fun x => d x && c x) l.
Proof.
  intros A c d l; induction l as [|a l IH]; simpl; [reflexivity|]. destruct (d a); simpl; rewrite IH; reflexivity.
Qed.

Lemma bern_ext : forall E F (p q : E -> R) (mark : E -> F) l acc, (forall e, In e l -> p e = q e) ->
  bern p mark l acc = bern q mark l acc.
Proof.
  intros E F p q mark l; unfold bern; induction l as [|e l IH]; intros acc H; [reflexivity|]. simpl.
  rewrite (H e (or_introl eq_refl)). f_equal. apply functional_extensionality. intros b.
  apply IH. intros; apply H; right; assumption.
Qed.

Lemma bern_map : forall E E' F (f : E -> E') (p : E' -> R) (mark : E' -> F) l acc,
  bern p mark (map f l) acc = bern (fun e => p (f e)) (fun e => mark (f e)) l acc.
Proof. intros. unfold bern. apply for_prog_map. Qed.

(** Tests of probability zero can be left out. *)
Lemma bern_drop : forall E F (p : E -> R) (mark : E -> F) (c : E -> bool) l acc f,
  (forall e, In e l -> c e = false -> p e = 0) ->
  expect (bern p mark (filter c l) acc) f = expect (bern p mark l acc) f.
Proof.
  intros E F p mark c l; induction l as [|e l IH]; intros acc f H; [reflexivity|].
  assert (H' : forall e, In e l -> c e = false -> p e = 0) by (intros; apply H; [right|]; assumption).
  simpl filter. rewrite (bern_expect _ _ p mark (e :: l)). destruct (c e) eqn:Ec.
  - rewrite bern_expect, !IH by exact H'. reflexivity.
  - rewrite IH, (H e (or_introl eq_refl) Ec) by exact H'. ring.
Qed.

Lemma bern_mark : forall E F (p : E -> R) (mark : E -> F) l acc,
  bern p mark l acc = pbind (bern p (fun e => e) l []) (fun G => Ret (acc ++ map mark G)).
Proof.
  intros E F p mark l acc.
  enough (G : forall G0, bern p mark l (acc ++ map mark G0)
    = pbind (bern p (fun e => e) l G0) (fun G => Ret (acc ++ map mark G))).
  { specialize (G []). simpl in G. rewrite app_nil_r in G. exact G. }
  unfold bern; induction l as [|e l IH]; intros G0; simpl; [reflexivity|].
  f_equal. apply functional_extensionality. intros [|]; [|apply IH].
  rewrite <- IH, map_app, app_assoc. reflexivity.
Qed.

Section LayerSample.
Variable Z : Type.
Variables (p : num -> num -> num -> Z -> R) (z : nat -> nat -> Z) (N : nat) (d : num) (po pin : svec).
Hypothesis C1 : canonical N po.
Hypothesis C2 : canonical N pin.
Let P (i j : nat) : R := p d (lookup i po) (lookup j pin) (z i j).
Let support (sl : bool) : list (nat * nat) :=
  filter (fun e => stored (fst e) po && stored (snd e) pin) (pairs N sl).

Lemma entries_support : forall sl,
  map (fun e => (fst (fst e), fst (snd e))) (filter (fun e => allowed sl (fst (fst e)) (fst (snd e))) (list_prod po pin))
  = support sl.
Proof.
  intros sl. unfold support, pairs. rewrite filter_filter.
  transitivity (filter (fun e => allowed sl (fst e) (snd e)) (list_prod (map fst po) (map fst pin))).
  - rewrite list_prod_map, filter_map. reflexivity.
  - rewrite (canonical_filter N po C1), (canonical_filter N pin C2), list_prod_filter, filter_filter.
    apply filter_ext. intros e. apply andb_comm.
Qed.

Lemma sample_support : forall sl,
  binary_sample_layer p z d po pin sl = bern (fun e => P (fst e) (snd e)) (fun e => e) (support sl) [].
Proof.
  intros sl. rewrite <- entries_support, bern_map.
  transitivity (bern (fun e => p d (snd (fst e)) (snd (snd e)) (z (fst (fst e)) (fst (snd e))))
    (fun e => (fst (fst e), fst (snd e))) (filter (fun e => allowed sl (fst (fst e)) (fst (snd e))) (list_prod po pin)) []).
  - unfold bern. rewrite for_prog_filter, for_prog_prod. unfold binary_sample_layer.
    f_equal. apply functional_extensionality. intros [i x]. apply functional_extensionality. intros acc.
    f_equal. apply functional_extensionality. intros [j y]. apply functional_extensionality. intros acc'. reflexivity.
  - apply bern_ext. intros [[i x] [j y]] He. apply filter_In in He. destruct He as [He _].
    apply in_prod_iff in He. destruct He as [Hi Hj]. unfold P; cbn [fst snd].
    pose proof (lookup_in po _ (canonical_nodup _ _ C1) Hi) as Ei. pose proof (lookup_in pin _ (canonical_nodup _ _ C2) Hj) as Ej.
    cbn [fst snd] in Ei, Ej. rewrite Ei, Ej. reflexivity.
Qed.

Hypothesis Hz1 : forall y w, p d (Fin 0) y w = 0.
Hypothesis Hz2 : forall x w, p d x (Fin 0) w = 0.

Lemma sample_expect : forall sl f,
  expect (binary_sample_layer p z d po pin sl) f
  = expect (bern (fun e => P (fst e) (snd e)) (fun e => e) (pairs N sl) []) f.
Proof.
  intros sl f. rewrite sample_support. unfold support. apply bern_drop. intros e _ H.
  apply andb_false_iff in H. unfold P. destruct H as [H|H]; apply stored_false in H; rewrite H; auto.
Qed.

Lemma sample_prob : forall sl G, In G (all_graphs N sl) ->
  prob (binary_sample_layer p z d po pin sl) (fun H => list_eqb H G) = graph_weight N sl P G.
Proof.
  intros sl G HG. unfold prob. rewrite sample_expect, bern_sublists by apply NoDup_pairs.
  rewrite graph_weight_lweight. unfold all_graphs in HG.
  rewrite <- (sum_indicator (sublists (pairs N sl)) (lweight (fun e => P (fst e) (snd e)) (pairs N sl)) G
    (NoDup_sublists _ _ (NoDup_pairs N sl)) HG).
  apply suml_ext. intros H _. simpl. rewrite map_id. reflexivity.
Qed.

Lemma sublists_filter : forall A (c : A -> bool) l G, In G (sublists (filter c l)) -> In G (sublists l).
Proof.
  intros A c l; induction l as [|a l IH]; intros G H; [exact H|]. simpl in *. destruct (c a).
  - simpl in H. apply in_app_or in H. apply in_or_app. destruct H as [H|H]; [left | right; apply IH; exact H].
    apply in_map_iff in H. destruct H as (G' & <- & H). apply in_map. apply IH; exact H.
  - apply in_or_app. right. apply IH; exact H.
Qed.

Lemma sample_outcome : forall sl G, outcome (binary_sample_layer p z d po pin sl) G ->
  In G (all_graphs N sl) /\ forall i j, In (i, j) G -> 0 < P i j.
Proof.
  intros sl G H. rewrite sample_support in H. apply outcome_bern in H.
  destruct H as (H & Hs & -> & Hp & _). simpl. rewrite map_id. split.
  - apply (sublists_filter _ _ _ _ Hs).
  - intros i j Hij. apply (Hp (i, j) Hij).
Qed.
End LayerSample.

(** ** Tensors *)

Definition layers_prog (m : nat -> prog (list (nat * nat))) (ks : list nat) (acc : list (list (nat * nat))) :=
  for_prog ks (fun k acc => pbind (m k) (fun links => Ret (acc ++ [links]))) acc.

Lemma layers_acc : forall m ks acc f,
  expect (layers_prog m ks acc) f = expect (layers_prog m ks []) (fun a => f (acc ++ a)).
Proof.
  intros m ks; induction ks as [|k ks IH]; intros acc f.
  - simpl. rewrite app_nil_r. reflexivity.
  - unfold layers_prog; cbn [for_prog]. rewrite !pbind_assoc, !expect_bind. apply expect_ext. intros G.
    cbn [pbind app]. fold (layers_prog m ks (acc ++ [G])). fold (layers_prog m ks [G]).
    rewrite (IH (acc ++ [G])), (IH [G]). apply expect_ext. intros a. rewrite <- app_assoc. reflexivity.
Qed.

Lemma layers_prob : forall m ks Gs, length Gs = length ks ->
  prob (layers_prog m ks []) (fun a => tensor_eqb a Gs)
  = prodl (fun kG => prob (m (fst kG)) (fun H => list_eqb H (snd kG))) (combine ks Gs).
Proof.
  intros m ks; induction ks as [|k ks IH]; intros [|G Gs] H; try discriminate.
  - unfold prob; simpl. reflexivity.
  - cbn [combine]. rewrite prodl_cons, <- (IH Gs) by (injection H as H; exact H). cbn [fst snd].
    unfold prob at 1. unfold layers_prog; cbn [for_prog]. rewrite pbind_assoc, expect_bind.
    unfold prob at 1. rewrite Rmult_comm, <- expect_scal. apply expect_ext. intros G'. cbn [pbind app].
    fold (layers_prog m ks [G']). rewrite layers_acc. unfold prob. rewrite Rmult_comm, <- expect_scal. apply expect_ext. intros a. simpl. unfold b2r.
    destruct (list_eqb G' G), (tensor_eqb a Gs); simpl; ring.
Qed.

Lemma layers_outcome : forall m ks acc Gs, outcome (layers_prog m ks acc) Gs ->
  exists Hs, Gs = acc ++ Hs /\ Forall2 (fun k H => outcome (m k) H) ks Hs.
Proof.
  intros m ks; induction ks as [|k ks IH]; intros acc Gs H.
  - simpl in H. subst. exists []. split; [rewrite app_nil_r; reflexivity | constructor].
  - unfold layers_prog in H; cbn [for_prog] in H. rewrite pbind_assoc in H. apply (proj1 (outcome_bind _ _ _ _ _)) in H.
    destruct H as (G & HG & H). cbn [pbind] in H. fold (layers_prog m ks (acc ++ [G])) in H.
    apply IH in H. destruct H as (Hs & -> & F). exists (G :: Hs). split; [rewrite <- app_assoc; reflexivity|].
    constructor; assumption.
Qed.

Definition flat (ks : list nat) (Gs : list (list (nat * nat))) : list (nat * (nat * nat)) :=
  flat_map (fun kG => map (pair (fst kG)) (snd kG)) (combine ks Gs).

Lemma flat_prog : forall (m : nat -> prog (list (nat * nat))) ks acc f,
  expect (for_prog ks (fun k acc => pbind (m k) (fun G => Ret (acc ++ map (pair k) G))) acc) f
  = expect (layers_prog m ks []) (fun Gs => f (acc ++ flat ks Gs)).
Proof.
  intros m ks; induction ks as [|k ks IH]; intros acc f.
  - simpl. rewrite app_nil_r. reflexivity.
  - unfold layers_prog; cbn [for_prog]. rewrite !pbind_assoc, !expect_bind. apply expect_ext. intros G.
    cbn [pbind app]. rewrite IH. fold (layers_prog m ks [G]). rewrite (layers_acc m ks [G]).
    apply expect_ext. intros Gs. unfold flat. simpl. rewrite app_assoc. reflexivity.
Qed.

Lemma flat_low : forall Gs s t, (s < t)%nat ->
  filter (fun e : nat * (nat * nat) => Nat.eqb (fst e) s) (flat (seq t (length Gs)) Gs) = [].
Proof.
  induction Gs as [|G Gs IH]; intros s t Ht; [reflexivity|]. unfold flat. cbn [length seq combine flat_map fst snd].
  rewrite filter_app. fold (flat (seq (S t) (length Gs)) Gs). rewrite IH by lia. rewrite app_nil_r.
  induction G as [|e G IH']; simpl; [reflexivity|]. destruct (Nat.eqb_spec t s); [lia | exact IH'].
Qed.

Lemma slices_flat : forall Gs s, map (fun k => map snd (filter (fun e => Nat.eqb (fst e) k) (flat (seq s (length Gs)) Gs)))
  (seq s (length Gs)) = Gs.
Proof.
  induction Gs as [|G Gs IH]; intros s; [reflexivity|]. unfold flat. cbn [length seq combine flat_map map fst snd].
  fold (flat (seq (S s) (length Gs)) Gs). f_equal.
  - rewrite filter_app, map_app.
    replace (filter (fun e : nat * (nat * nat) => Nat.eqb (fst e) s) (flat (seq (S s) (length Gs)) Gs)) with (@nil (nat * (nat * nat))).
    + rewrite app_nil_r. clear. induction G as [|e G IH]; simpl; [reflexivity|].
      rewrite Nat.eqb_refl. simpl. rewrite IH. reflexivity.
    + symmetry. apply flat_low. lia.
  - etransitivity; [|exact (IH (S s))]. apply map_ext_in. intros k Hk. apply in_seq in Hk. rewrite filter_app, map_app.
    replace (filter (fun e : nat * (nat * nat) => Nat.eqb (fst e) k) (map (pair s) G)) with (@nil (nat * (nat * nat))); [reflexivity|].
    clear -Hk. induction G as [|e G IH]; simpl; [reflexivity|]. destruct (Nat.eqb_spec s k); [lia | exact IH].
Qed.
