(** Lemmas about Graphs.v. *)
From Verif Require Import Base Num Spec Ids Ensemble Lib IdFacts Graphs.
From Coq Require Import Sorting.Sorted Sorting.Permutation.

(** * Matrices *)

Notation W A i j := (entry (sp_row A i) j).

(** Canonical CSR matrix of size N with positive values (ones when boolean). *)
Definition wf (N : nat) (A : spm) : Prop :=
  forall i, (i < N)%nat ->
    StronglySorted lt (map fst (sp_row A i)) /\
    Forall (fun e => (fst e < N)%nat /\ 0 < snd e /\ (sp_bool A = true -> snd e = 1)) (sp_row A i).

Lemma entry_cons : forall p r j, entry (p :: r) j = (if Nat.eqb (fst p) j then snd p else 0) + entry r j.
Proof. reflexivity. Qed.

Lemma entry_notin : forall r j, ~ In j (map fst r) -> entry r j = 0.
Proof.
  induction r as [|[k v] r IH]; intros j H; [reflexivity|]. rewrite entry_cons. cbn in *.
  destruct (Nat.eqb_spec k j) as [->|_]; [exfalso; apply H; left; reflexivity|]. rewrite IH; [lra|].
  intros Hin. apply H. right. exact Hin.
Qed.

Lemma entry_in : forall r j v, NoDup (map fst r) -> In (j, v) r -> entry r j = v.
Proof.
  induction r as [|[k u] r IH]; intros j v H Hin; [destruct Hin|]. rewrite entry_cons. cbn in H. inversion H; subst.
  destruct Hin as [E|Hin].
  - injection E as -> ->. cbn. rewrite Nat.eqb_refl, entry_notin by assumption. lra.
  - cbn. destruct (Nat.eqb_spec k j) as [->|_].
    + exfalso. apply H2. apply in_map_iff. exists (j, v). split; [reflexivity | exact Hin].
    + rewrite (IH j v) by assumption. lra.
Qed.

Lemma stored_entry : forall r j, NoDup (map fst r) -> stored r j = entry r j.
Proof.
  induction r as [|[k v] r IH]; intros j H; [reflexivity|]. cbn in H. inversion H; subst. cbn [stored].
  rewrite entry_cons. cbn [fst snd]. destruct (Nat.eqb_spec k j) as [->|_].
  - rewrite entry_notin by assumption. lra.
  - rewrite IH by assumption. lra.
Qed.

Lemma sorted_lt_nodup : forall l, StronglySorted lt l -> NoDup l.
Proof.
  intros l H. induction H as [|x l Hl IH Hx]; constructor; [|exact IH].
  intros Hin. rewrite Forall_forall in Hx. specialize (Hx x Hin). lia.
Qed.

Lemma sorted_filter : forall (A : Type) (f : A -> nat) (b : A -> bool) l,
  StronglySorted lt (map f l) -> StronglySorted lt (map f (filter b l)).
Proof.
  intros A f b l. induction l as [|x l IH]; cbn; intros H; [constructor|]. inversion H as [|y m Hl Hx]; subst.
  destruct (b x); cbn; [|apply IH, Hl]. constructor; [apply IH, Hl|].
  rewrite Forall_forall in *. intros y Hy. apply in_map_iff in Hy as [z [<- Hz]]. apply filter_In in Hz as [Hz _].
  apply Hx, in_map, Hz.
Qed.

Lemma sorted_seq : forall n s, StronglySorted lt (seq s n).
Proof.
  induction n as [|n IH]; intros s; cbn; constructor; [apply IH|]. apply Forall_forall. intros x Hx. apply in_seq in Hx. lia.
Qed.

Section Wf.
Variables (N : nat) (A : spm).
Hypothesis HA : wf N A.

Lemma wf_nodup : forall i, (i < N)%nat -> NoDup (map fst (sp_row A i)).
Proof. intros i Hi. apply sorted_lt_nodup, (HA i Hi). Qed.

Lemma wf_get : forall i j, (i < N)%nat -> sp_get A i j = W A i j.
Proof. intros i j Hi. apply stored_entry, wf_nodup, Hi. Qed.

Lemma wf_nonneg : forall i j, (i < N)%nat -> 0 <= W A i j.
Proof.
  intros i j Hi. unfold entry. apply suml_nonneg. intros e He. destruct (HA i Hi) as [_ F].
  rewrite Forall_forall in F. destruct (F e He) as [_ [P _]]. destruct (Nat.eqb (fst e) j); lra.
Qed.

Lemma wf_pos_in : forall i j, (i < N)%nat -> (0 < W A i j <-> In j (map fst (sp_row A i))).
Proof.
  intros i j Hi. split.
  - intros H. destruct (in_dec Nat.eq_dec j (map fst (sp_row A i))) as [D|D]; [exact D|].
    rewrite entry_notin in H by exact D. lra.
  - intros H. apply in_map_iff in H as [[k v] [E Hin]]. cbn in E. subst k.
    rewrite (entry_in _ j v); [|apply wf_nodup, Hi | exact Hin].
    destruct (HA i Hi) as [_ F]. rewrite Forall_forall in F. apply (F _ Hin).
Qed.

Lemma wf_zero : forall i j, (i < N)%nat -> (N <= j)%nat -> W A i j = 0.
Proof.
  intros i j Hi Hj. apply entry_notin. intros H. apply in_map_iff in H as [e [E Hin]].
  destruct (HA i Hi) as [_ F]. rewrite Forall_forall in F. destruct (F e Hin). lia.
Qed.

Lemma wf_bool : forall i j, (i < N)%nat -> sp_bool A = true -> W A i j = present (W A i j).
Proof.
  intros i j Hi B. unfold present. destruct (Req_EM_T (W A i j) 0) as [E|E]; [exact E|].
  assert (H : In j (map fst (sp_row A i))).
  { destruct (in_dec Nat.eq_dec j (map fst (sp_row A i))) as [D|D]; [exact D|]. rewrite entry_notin in E by exact D. contradiction. }
  apply in_map_iff in H as [[k v] [Ek Hin]]. cbn in Ek. subst k.
  rewrite (entry_in _ j v); [|apply wf_nodup, Hi | exact Hin].
  destruct (HA i Hi) as [_ F]. rewrite Forall_forall in F. apply (F _ Hin), B.
Qed.

(** Sums over stored entries are sums over all columns. *)
Lemma row_sum : forall i (f : nat -> R -> R), (i < N)%nat -> (forall j, f j 0 = 0) ->
  suml (fun e => f (fst e) (snd e)) (sp_row A i) = sumn N (fun j => f j (W A i j)).
Proof.
  intros i f Hi Hf. destruct (HA i Hi) as [S F].
  assert (G : forall r, NoDup (map fst r) -> Forall (fun e => (fst e < N)%nat) r ->
    suml (fun e => f (fst e) (snd e)) r = sumn N (fun j => f j (entry r j))).
  { induction r as [|[k v] r IH]; intros H1 H2.
    - cbn. rewrite sumn_zero; [reflexivity|]. intros j _. apply Hf.
    - cbn in H1. inversion H1; subst. inversion H2; subst. cbn [suml fst snd]. rewrite IH by assumption.
      rewrite (sumn_ext N (fun j => f j (entry ((k, v) :: r) j))
                 (fun j => (if Nat.eqb j k then f j v else 0) + f j (entry r j))).
      + rewrite sumn_plus, sumn_delta. cbn in H5. apply Nat.ltb_lt in H5. rewrite H5. reflexivity.
      + intros j _. rewrite entry_cons. cbn [fst snd]. rewrite (Nat.eqb_sym k j). destruct (Nat.eqb_spec j k) as [->|_].
        * rewrite (entry_notin r k) by assumption. rewrite Hf. rewrite Rplus_0_r. lra.
        * rewrite Rplus_0_l. lra. }
  apply G; [apply sorted_lt_nodup, S|]. eapply Forall_impl; [|exact F]. cbn. intros e He. apply He.
Qed.

Lemma axis1_sum : forall i, (i < N)%nat -> sum_axis1 A i = sumn N (fun j => W A i j).
Proof.
  intros i Hi. unfold sum_axis1, row_total.
  rewrite (for_each_sum _ _ (fun x => x) _ _ snd) by (intros; reflexivity). rewrite Rplus_0_l.
  apply (row_sum i (fun _ x => x) Hi). reflexivity.
Qed.

Lemma axis0_sum : forall j, sum_axis0 N A j = sumn N (fun i => W A i j).
Proof.
  intros j. unfold sum_axis0.
  rewrite (for_range_sum _ (fun x => x) _ _ (fun i => W A i j)); [lra|].
  intros i s Hi. rewrite (for_each_sum _ _ (fun x => x) _ _ (fun e => if Nat.eqb (fst e) j then snd e else 0)); [reflexivity|].
  intros e s' _. destruct (Nat.eqb (fst e) j); lra.
Qed.

Lemma all_sum : sum_all N A = sumn N (fun i => sumn N (fun j => W A i j)).
Proof.
  unfold sum_all. rewrite (for_range_sum _ (fun x => x) _ _ (fun i => sumn N (fun j => W A i j))); [lra|].
  intros i s Hi. rewrite axis1_sum by exact Hi. reflexivity.
Qed.

Lemma nnz_sum : INR (sp_nnz N A) = sumn N (fun i => sumn N (fun j => present (W A i j))).
Proof.
  unfold sp_nnz. rewrite (for_range_sum _ INR _ _ (fun i => sumn N (fun j => present (W A i j)))); [cbn; lra|].
  intros i k Hi. rewrite plus_INR. f_equal.
  rewrite <- (row_sum i (fun _ x => present x) Hi).
  - rewrite (suml_ext _ _ (fun _ => 1)); [rewrite suml_const; lra|].
    intros e He. destruct (HA i Hi) as [_ F]. rewrite Forall_forall in F. destruct (F e He) as [_ [P _]].
    unfold present. destruct (Req_EM_T (snd e) 0); lra.
  - intros _. unfold present. destruct (Req_EM_T 0 0); lra.
Qed.
End Wf.

Lemma vec_sum_eq : forall N x, vec_sum N x = sumn N x.
Proof. intros N x. unfold vec_sum. rewrite (for_range_sum _ (fun x => x) _ _ x); [lra|]. reflexivity. Qed.

Lemma present_0 : present 0 = 0.
Proof. unfold present. destruct (Req_EM_T 0 0); lra. Qed.
Lemma present_pos : forall x, 0 < x -> present x = 1.
Proof. intros x H. unfold present. destruct (Req_EM_T x 0); lra. Qed.
Lemma present_range : forall x, 0 <= present x <= 1.
Proof. intros x. unfold present. destruct (Req_EM_T x 0); lra. Qed.
Lemma present_idem : forall x, present (present x) = present x.
Proof. intros x. unfold present at 2 3. destruct (Req_EM_T x 0); [apply present_0 | apply present_pos; lra]. Qed.

Lemma present_sum : forall x y, 0 <= x -> 0 <= y -> present (present x + present y) = present (x + y).
Proof.
  intros x y Hx Hy. destruct (Req_EM_T x 0) as [->|Nx]; [rewrite present_0, !Rplus_0_l; apply present_idem|].
  rewrite (present_pos x), (present_pos (x + y)) by lra. pose proof (present_range y). apply present_pos. lra.
Qed.
Lemma present_double : forall x, present (x + x) = present x.
Proof. intros x. unfold present. destruct (Req_EM_T (x + x) 0), (Req_EM_T x 0); lra. Qed.

(** ** Building matrices *)

Lemma csr_of_wf : forall b N f, (forall i j, (i < N)%nat -> (j < N)%nat -> 0 <= f i j) ->
  (b = true -> forall i j, (i < N)%nat -> (j < N)%nat -> f i j = present (f i j)) -> wf N (csr_of b N f).
Proof.
  intros b N f Hf Hb i Hi. cbn [csr_of sp_row]. split.
  - apply sorted_filter. rewrite map_map. cbn. rewrite map_id. apply sorted_seq.
  - apply Forall_forall. intros [k v] H. apply filter_In in H as [H1 H2]. apply in_map_iff in H1 as [j [E Hj]].
    injection E as -> <-. apply in_seq in Hj. cbn in *. destruct (Reqb_spec (f i k) 0) as [E|E]; [discriminate|].
    assert (Hk : (k < N)%nat) by lia. specialize (Hf i k Hi Hk). split; [lia|]. split; [lra|].
    intros B. rewrite (Hb B i k Hi Hk). apply present_pos. lra.
Qed.

Lemma csr_of_entry : forall b N f i j, (j < N)%nat -> W (csr_of b N f) i j = f i j.
Proof.
  intros b N f i j Hj. cbn [csr_of sp_row]. unfold entry. rewrite suml_filter, suml_map. cbn [fst snd].
  rewrite suml_seq. rewrite (sumn_ext N _ (fun k => if Nat.eqb k j then f i k else 0)).
  - rewrite sumn_delta. apply Nat.ltb_lt in Hj. rewrite Hj. reflexivity.
  - intros k _. destruct (Reqb_spec (f i k) 0) as [E|E]; cbn; [|reflexivity]. destruct (Nat.eqb k j); lra.
Qed.

Definition in_range (N : nat) (l : list (nat * nat * R)) : Prop :=
  Forall (fun t => (fst (fst t) < N)%nat /\ (snd (fst t) < N)%nat /\ 0 < snd t) l.

Lemma coo_pos : forall l i j, Forall (fun t => 0 < snd t) l -> existsb (hits i j) l = true ->
  0 < suml (fun t => if hits i j t then snd t else 0) l.
Proof.
  induction l as [|t l IH]; intros i j F E; [discriminate|]. inversion F; subst. cbn in *.
  assert (0 <= suml (fun t => if hits i j t then snd t else 0) l).
  { apply suml_nonneg. intros x Hx. rewrite Forall_forall in H2. specialize (H2 x Hx). destruct (hits i j x); lra. }
  destruct (hits i j t); [lra|]. cbn in E. specialize (IH i j H2 E). lra.
Qed.

Lemma coo_zero : forall l i j, existsb (hits i j) l = false ->
  suml (fun t => if hits i j t then snd t else 0) l = 0.
Proof.
  induction l as [|t l IH]; intros i j E; [reflexivity|]. cbn in *. destruct (hits i j t); [discriminate|]. rewrite IH; [lra | exact E].
Qed.

Lemma coo_value : forall l i j, for_each (filter (hits i j) l) (fun t acc => acc + snd t) 0
  = suml (fun t => if hits i j t then snd t else 0) l.
Proof.
  intros l i j. rewrite (for_each_sum _ _ (fun x => x) _ _ snd) by (intros; reflexivity). rewrite Rplus_0_l, suml_filter. reflexivity.
Qed.

Lemma coo_wf : forall b N l, Forall (fun t => 0 < snd t) l -> wf N (coo_tocsr b N l).
Proof.
  intros b N l H i Hi. cbn [coo_tocsr sp_row sp_bool]. split.
  - rewrite map_map. cbn [fst]. rewrite map_id. rewrite <- (map_id (filter _ _)). apply sorted_filter. rewrite map_id. apply sorted_seq.
  - apply Forall_forall. intros e He. apply in_map_iff in He as [j [<- Hj]]. apply filter_In in Hj as [Hj E]. apply in_seq in Hj. cbn [fst snd].
    split; [lia|]. split; [|intros ->; reflexivity]. destruct b; [lra|]. rewrite coo_value. apply coo_pos; assumption.
Qed.

Lemma coo_in : forall b N l i j, (j < N)%nat -> (In j (map fst (sp_row (coo_tocsr b N l) i)) <-> existsb (hits i j) l = true).
Proof.
  intros b N l i j Hj. cbn [coo_tocsr sp_row]. rewrite map_map. cbn [fst]. rewrite map_id, filter_In, in_seq. intuition lia.
Qed.

Lemma coo_entry : forall N l i j, (j < N)%nat ->
  W (coo_tocsr false N l) i j = suml (fun t => if hits i j t then snd t else 0) l.
Proof.
  intros N l i j Hj. cbn [coo_tocsr sp_row]. unfold entry. rewrite suml_map. cbn [fst snd]. rewrite suml_filter, suml_seq.
  rewrite (sumn_ext N _ (fun k => if Nat.eqb k j then suml (fun t => if hits i k t then snd t else 0) l else 0)).
  - rewrite sumn_delta. apply Nat.ltb_lt in Hj. rewrite Hj. reflexivity.
  - intros k _. rewrite coo_value. destruct (existsb (hits i k) l) eqn:E; [reflexivity|].
    rewrite coo_zero by exact E. destruct (Nat.eqb k j); lra.
Qed.

Lemma coo_bool_entry : forall N l i j, (j < N)%nat ->
  W (coo_tocsr true N l) i j = b2r (existsb (hits i j) l).
Proof.
  intros N l i j Hj. cbn [coo_tocsr sp_row]. unfold entry. rewrite suml_map. cbn [fst snd]. rewrite suml_filter, suml_seq.
  rewrite (sumn_ext N _ (fun k => if Nat.eqb k j then b2r (existsb (hits i k) l) else 0)).
  - rewrite sumn_delta. apply Nat.ltb_lt in Hj. rewrite Hj. reflexivity.
  - intros k _. destruct (existsb (hits i k) l); cbn; destruct (Nat.eqb k j); lra.
Qed.

Lemma nonzero_wf : forall N A, wf N A -> wf N (sp_nonzero A).
Proof.
  intros N A H i Hi. destruct (H i Hi) as [S F]. cbn [sp_nonzero sp_row sp_bool]. split.
  - rewrite map_map. cbn [fst]. apply sorted_filter, S.
  - apply Forall_forall. intros e He. apply in_map_iff in He as [p [<- Hp]]. apply filter_In in Hp as [Hp _].
    rewrite Forall_forall in F. destruct (F p Hp) as [L _]. cbn. split; [exact L|]. split; [lra | reflexivity].
Qed.

Lemma nonzero_entry : forall N A i j, wf N A -> (i < N)%nat -> W (sp_nonzero A) i j = present (W A i j).
Proof.
  intros N A i j H Hi. destruct (H i Hi) as [S F]. cbn [sp_nonzero sp_row].
  assert (G : forall r, NoDup (map fst r) -> Forall (fun e => 0 < snd e) r ->
    entry (map (fun e => (fst e, 1)) (filter (fun e => negb (Reqb (snd e) 0)) r)) j = present (entry r j)).
  { induction r as [|[k v] r IH]; intros H1 H2; [cbn; rewrite present_0; reflexivity|].
    cbn in H1. inversion H1; subst. inversion H2 as [|a b Hv Hr]; subst. cbn in Hv. cbn [filter snd]. rewrite Reqb_false by lra. cbn [negb map fst].
    rewrite !entry_cons. cbn [fst snd]. rewrite IH by assumption. destruct (Nat.eqb_spec k j) as [->|_].
    - rewrite (entry_notin r j) by assumption. rewrite present_0, present_pos by lra. lra.
    - rewrite !Rplus_0_l. reflexivity. }
  apply G; [apply sorted_lt_nodup, S|]. eapply Forall_impl; [|exact F]. cbn. intros e He. apply He.
Qed.

Lemma T_entry : forall N A i j, (j < N)%nat -> W (sp_T N A) i j = W A j i.
Proof.
  intros N A i j Hj. cbn [sp_T sp_row]. unfold csc, entry. rewrite suml_flat_map.
  rewrite (suml_ext _ _ (fun r => if Nat.eqb r j then suml (fun e => if Nat.eqb (fst e) i then snd e else 0) (sp_row A r) else 0)).
  - rewrite suml_seq, sumn_delta. apply Nat.ltb_lt in Hj. rewrite Hj. reflexivity.
  - intros r _. rewrite suml_map. cbn. destruct (Nat.eqb r j).
    + rewrite suml_filter. apply suml_ext. intros e _. destruct (Nat.eqb (fst e) i); reflexivity.
    + apply suml_zero. reflexivity.
Qed.

Lemma sorted_app : forall l m, StronglySorted lt l -> StronglySorted lt m ->
  (forall x y, In x l -> In y m -> (x < y)%nat) -> StronglySorted lt (l ++ m).
Proof.
  intros l m Hl Hm H. induction Hl as [|x l Hl IH Hx]; [exact Hm|]. cbn. constructor.
  - apply IH. intros a b Ha Hb. apply H; [right; exact Ha | exact Hb].
  - apply Forall_forall. intros y Hy. apply in_app_iff in Hy as [Hy|Hy].
    + rewrite Forall_forall in Hx. apply Hx, Hy.
    + apply H; [left; reflexivity | exact Hy].
Qed.

Lemma T_wf : forall N A, wf N A -> wf N (sp_T N A).
Proof.
  intros N A H i Hi. cbn [sp_T sp_row sp_bool]. unfold csc. split.
  - rewrite seq_flat_map || idtac.
    assert (G : forall n s, (s + n <= N)%nat -> StronglySorted lt
      (map fst (flat_map (fun r => map (fun e => (r, snd e)) (filter (fun e => Nat.eqb (fst e) i) (sp_row A r))) (seq s n)))).
    { induction n as [|n IH]; intros s Hs; cbn [seq flat_map]; [constructor|]. rewrite map_app. apply sorted_app.
      - rewrite map_map. cbn [fst]. destruct (H s ltac:(lia)) as [S _]. apply sorted_lt_nodup in S.
        assert (G1 : forall r : list (nat * R), NoDup (map fst r) -> (length (filter (fun e => Nat.eqb (fst e) i) r) <= 1)%nat).
        { induction r as [|[k v] r IHr]; intros Hn; cbn; [lia|]. cbn in Hn. inversion Hn; subst. destruct (Nat.eqb_spec k i) as [->|_]; [|apply IHr; assumption].
          cbn. replace (filter (fun e => Nat.eqb (fst e) i) r) with (@nil (nat * R)); [cbn; lia|].
          symmetry. destruct (filter (fun e => Nat.eqb (fst e) i) r) as [|p t] eqn:E; [reflexivity|]. exfalso. apply H2.
          assert (Hp : In p (filter (fun e => Nat.eqb (fst e) i) r)) by (rewrite E; left; reflexivity).
          apply filter_In in Hp as [Hp Ep]. apply Nat.eqb_eq in Ep. apply in_map_iff. exists p. split; assumption. }
        specialize (G1 _ S). destruct (filter _ (sp_row A s)) as [|p [|q t]]; cbn in *; [constructor | constructor; constructor | lia].
      - apply IH. lia.
      - intros x y Hx Hy. rewrite map_map in Hx. apply in_map_iff in Hx as [p [<- _]]. cbn.
        apply in_map_iff in Hy as [q [<- Hq]]. apply in_flat_map in Hq as [r [Hr Hq]]. apply in_seq in Hr.
        apply in_map_iff in Hq as [z [<- _]]. cbn. lia. }
    apply G. lia.
  - apply Forall_forall. intros e He. apply in_flat_map in He as [r [Hr He]]. apply in_seq in Hr.
    apply in_map_iff in He as [p [<- Hp]]. apply filter_In in Hp as [Hp _]. cbn [fst snd].
    destruct (H r ltac:(lia)) as [_ F]. rewrite Forall_forall in F. destruct (F p Hp) as [_ F2]. split; [lia | exact F2].
Qed.

Lemma add_wf : forall N A B, wf N A -> wf N B -> wf N (sp_add N A B).
Proof.
  intros N A B HA HB. unfold sp_add. cbv zeta. apply csr_of_wf.
  - intros i j Hi Hj. rewrite (wf_get N A HA), (wf_get N B HB) by assumption.
    pose proof (wf_nonneg N A HA i j Hi). pose proof (wf_nonneg N B HB i j Hi).
    destruct (sp_bool A && sp_bool B); [destruct (Reqb _ 0); lra | lra].
  - intros -> i j Hi Hj. destruct (Reqb (sp_get A i j + sp_get B i j) 0); [rewrite present_0 | rewrite present_pos by lra]; reflexivity.
Qed.

Lemma add_entry : forall N A B i j, wf N A -> wf N B -> (i < N)%nat -> (j < N)%nat ->
  W (sp_add N A B) i j = if sp_bool A && sp_bool B then present (W A i j + W B i j) else W A i j + W B i j.
Proof.
  intros N A B i j HA HB Hi Hj. unfold sp_add. cbv zeta. rewrite csr_of_entry by exact Hj.
  rewrite (wf_get N A HA), (wf_get N B HB) by assumption. destruct (sp_bool A && sp_bool B); [|reflexivity].
  unfold present, Reqb. destruct (Req_EM_T (W A i j + W B i j) 0); reflexivity.
Qed.

Lemma sub_diag_entry : forall N A d i j, wf N A -> (i < N)%nat -> (j < N)%nat ->
  W (sp_sub_diag N A d) i j = if Nat.eqb i j then W A i j - d i else W A i j.
Proof.
  intros N A d i j HA Hi Hj. unfold sp_sub_diag. rewrite csr_of_entry by exact Hj.
  rewrite (wf_get N A HA) by exact Hi. reflexivity.
Qed.

Lemma either_way_wf : forall N A, wf N A -> wf N (either_way N A).
Proof. intros N A H. unfold either_way. cbv zeta. apply add_wf; [apply nonzero_wf, H | apply T_wf, nonzero_wf, H]. Qed.

Lemma either_way_entry : forall N A i j, wf N A -> (i < N)%nat -> (j < N)%nat ->
  W (either_way N A) i j = neighbours (fun i j => W A i j) i j.
Proof.
  intros N A i j H Hi Hj. unfold either_way. cbv zeta.
  rewrite add_entry; [|apply nonzero_wf, H | apply T_wf, nonzero_wf, H | assumption | assumption].
  cbn [sp_nonzero sp_T sp_bool andb]. rewrite T_entry by exact Hj.
  rewrite !(nonzero_entry N A) by assumption. unfold neighbours, both_ways.
  pose proof (wf_nonneg N A H i j Hi). pose proof (wf_nonneg N A H j i Hj).
  rewrite present_sum by assumption. destruct (Nat.eqb_spec i j) as [->|_]; [apply present_double | reflexivity].
Qed.

Lemma symmetrize_entry : forall N A i j, wf N A -> (i < N)%nat -> (j < N)%nat ->
  W (symmetrize N A) i j =
  if sp_bool A then (if Nat.eqb i j then 0 else present (W A i j + W A j i))
  else both_ways (fun i j => W A i j) i j.
Proof.
  intros N A i j H Hi Hj. unfold symmetrize. rewrite sub_diag_entry; [|apply add_wf; [exact H | apply T_wf, H] | exact Hi | exact Hj].
  rewrite add_entry; [|exact H | apply T_wf, H | exact Hi | exact Hj]. rewrite T_entry by exact Hj.
  cbn [sp_T sp_bool]. rewrite andb_diag. unfold sp_diagonal. rewrite (wf_get N A H) by exact Hi.
  unfold both_ways. destruct (Nat.eqb_spec i j) as [->|_]; [|reflexivity].
  destruct (sp_bool A) eqn:B; [|lra]. pose proof (wf_bool N A H j j Hj B). pose proof (wf_nonneg N A H j j Hj).
  revert H0. unfold present. destruct (Req_EM_T (W A j j) 0) as [E|E]; [rewrite !E|]; destruct (Req_EM_T _ 0); lra.
Qed.

Lemma symmetrize_wf : forall N A, wf N A -> wf N (symmetrize N A).
Proof.
  intros N A H. unfold symmetrize, sp_sub_diag. pose proof (add_wf N A _ H (T_wf N A H)) as HS.
  assert (Hval : forall i j, (i < N)%nat -> (j < N)%nat ->
     (if Nat.eqb i j then sp_get (sp_add N A (sp_T N A)) i j - sp_diagonal A i else sp_get (sp_add N A (sp_T N A)) i j)
     = W (symmetrize N A) i j).
  { intros i j Hi Hj. unfold symmetrize, sp_sub_diag. rewrite csr_of_entry by exact Hj. reflexivity. }
  apply csr_of_wf.
  - intros i j Hi Hj. rewrite Hval by assumption. rewrite symmetrize_entry by assumption.
    pose proof (wf_nonneg N A H i j Hi). pose proof (wf_nonneg N A H j i Hj). pose proof (wf_nonneg N A H i i Hi).
    pose proof (present_range (W A i j + W A j i)). unfold both_ways. destruct (sp_bool A), (Nat.eqb i j); lra.
  - intros B i j Hi Hj. rewrite Hval by assumption. rewrite symmetrize_entry by assumption.
    cbn [sp_add csr_of sp_T sp_bool] in B. rewrite andb_diag in B. rewrite B.
    destruct (Nat.eqb i j); [rewrite present_0 | rewrite present_idem]; reflexivity.
Qed.

(** * Library graphs *)

(** Directed link weights of the object: the entry of the matrix, summed over labels. *)
Definition link (s : shape) (i j : nat) : R :=
  match s with
  | SGraph A | SDiGraph A => W A i j
  | SMultiGraph L | SMultiDiGraph L => suml (fun A => W A i j) L
  end.

Definition layers (s : shape) : list spm :=
  match s with SGraph A | SDiGraph A => [A] | SMultiGraph L | SMultiDiGraph L => L end.

(** All matrices are canonical and have the same kind. *)
Definition valid (weighted : bool) (N : nat) (s : shape) : Prop :=
  Forall (fun A => wf N A /\ sp_bool A = negb weighted) (layers s).

Lemma link_nonneg : forall w N s i j, valid w N s -> (i < N)%nat -> 0 <= link s i j.
Proof.
  intros w N s i j H Hi. unfold valid in H. rewrite Forall_forall in H.
  destruct s as [A|A|L|L]; cbn [link layers] in *.
  - apply (wf_nonneg N A); [apply H; left; reflexivity | exact Hi].
  - apply (wf_nonneg N A); [apply H; left; reflexivity | exact Hi].
  - apply suml_nonneg. intros A HA. apply (wf_nonneg N A); [apply H, HA | exact Hi].
  - apply suml_nonneg. intros A HA. apply (wf_nonneg N A); [apply H, HA | exact Hi].
Qed.

Lemma flatten_spec : forall w N L A, Forall (fun A => wf N A /\ sp_bool A = negb w) L -> flatten N L = Ok A ->
  wf N A /\ sp_bool A = negb w /\
  forall i j, (i < N)%nat -> (j < N)%nat ->
    W A i j = if w then suml (fun B => W B i j) L else present (suml (fun B => W B i j) L).
Proof.
  intros w N L A H E. destruct L as [|B0 L]; [discriminate|]. cbn [flatten] in E. injection E as <-.
  inversion H as [|x y [H1 H2] H3]; subst. clear H.
  assert (G : forall L acc (base : nat -> nat -> R), Forall (fun A => wf N A /\ sp_bool A = negb w) L ->
     wf N acc -> sp_bool acc = negb w -> (forall i j, (i < N)%nat -> (j < N)%nat -> 0 <= base i j) ->
     (forall i j, (i < N)%nat -> (j < N)%nat -> W acc i j = if w then base i j else present (base i j)) ->
     let A := for_each L (fun B acc => sp_add N acc B) acc in
     wf N A /\ sp_bool A = negb w /\ forall i j, (i < N)%nat -> (j < N)%nat ->
       W A i j = if w then base i j + suml (fun B => W B i j) L else present (base i j + suml (fun B => W B i j) L)).
  { clear. induction L as [|B L IH]; intros acc base H Hacc Hb Hpos Hbase.
    - cbn. split; [exact Hacc|]. split; [exact Hb|]. intros i j Hi Hj. rewrite Rplus_0_r. apply Hbase; assumption.
    - inversion H as [|x y [H1 H2] H3]; subst. cbn [for_each fold_left]. cbv zeta.
      change (fold_left (fun s x => sp_add N s x) L (sp_add N acc B)) with (for_each L (fun B acc => sp_add N acc B) (sp_add N acc B)).
      destruct (IH (sp_add N acc B) (fun i j => base i j + W B i j)) as [K1 [K2 K3]].
      + exact H3.
      + apply add_wf; assumption.
      + cbn [sp_add csr_of sp_bool]. rewrite Hb, H2. apply andb_diag.
      + intros i j Hi Hj. specialize (Hpos i j Hi Hj). pose proof (wf_nonneg N B H1 i j Hi). lra.
      + intros i j Hi Hj. rewrite add_entry by assumption. rewrite Hb, H2, andb_diag, Hbase by assumption.
        destruct w; cbn [negb]; [reflexivity|]. specialize (Hpos i j Hi Hj). pose proof (wf_nonneg N B H1 i j Hi).
        unfold present. destruct (Req_EM_T (base i j) 0), (Req_EM_T (base i j + W B i j) 0), (Req_EM_T _ 0); lra.
      + split; [exact K1|]. split; [exact K2|]. intros i j Hi Hj. rewrite K3 by assumption. cbn [suml]. destruct w; [lra | f_equal; lra]. }
  destruct (G L B0 (fun i j => W B0 i j) H3 H1 H2) as [K1 [K2 K3]].
  - intros i j Hi _. apply (wf_nonneg N); assumption.
  - intros i j Hi Hj. destruct w; [reflexivity|]. apply (wf_bool N B0 H1 i j Hi). exact H2.
  - split; [exact K1|]. split; [exact K2|]. intros i j Hi Hj. rewrite K3 by assumption. reflexivity.
Qed.

(** The four views of the adjacency matrix of a weighted or unweighted object. *)
Definition view (weighted_graph directed_class : bool) (w : nat -> nat -> R) (directed weighted : bool) (i j : nat) : R :=
  if directed && directed_class
  then (if weighted && weighted_graph then w i j else present (w i j))
  else (if weighted then (if weighted_graph then both_ways w i j else (if Nat.eqb i j then 0 else neighbours w i j))
        else neighbours w i j).


Lemma view_matrix : forall w N A (lk : nat -> nat -> R), wf N A -> sp_bool A = negb w ->
  (forall i j, (i < N)%nat -> (j < N)%nat -> 0 <= lk i j) ->
  (forall i j, (i < N)%nat -> (j < N)%nat -> W A i j = if w then lk i j else present (lk i j)) ->
  forall i j, (i < N)%nat -> (j < N)%nat ->
    W (symmetrize N A) i j = (if w then both_ways lk i j else if Nat.eqb i j then 0 else neighbours lk i j) /\
    W (either_way N A) i j = neighbours lk i j /\
    W (sp_nonzero A) i j = present (lk i j).
Proof.
  intros w N A lk HA HB Hp HW i j Hi Hj. split; [|split].
  - rewrite symmetrize_entry by assumption. rewrite HB. unfold neighbours, both_ways. rewrite !HW by assumption. destruct w; cbn [negb].
    + reflexivity.
    + destruct (Nat.eqb i j); [reflexivity|]. apply present_sum; apply Hp; assumption.
  - rewrite either_way_entry by assumption. unfold neighbours, both_ways. rewrite !HW by assumption. destruct w; [reflexivity|].
    destruct (Nat.eqb i j); [apply present_idem | apply present_sum; apply Hp; assumption].
  - rewrite (nonzero_entry N) by assumption. rewrite HW by assumption. destruct w; [reflexivity | apply present_idem].
Qed.

Lemma adjacency_spec : forall w N s directed weighted A, valid w N s -> adjacency_matrix N s directed weighted = Ok A ->
  wf N A /\ forall i j, (i < N)%nat -> (j < N)%nat -> W A i j = view w (is_directed s) (link s) directed weighted i j.
Proof.
  intros w N s directed weighted A H E.
  assert (Hlk : forall i j, (i < N)%nat -> (j < N)%nat -> 0 <= link s i j) by (intros i j Hi _; eapply link_nonneg; eassumption).
  unfold valid in H. unfold view.
  destruct s as [B|B|L|L]; cbn [adjacency_matrix layers is_directed link] in *.
  - injection E as <-. inversion H as [|x y [H1 H2] _]; subst.
    assert (HW : forall i j, (i < N)%nat -> (j < N)%nat -> W B i j = if w then W B i j else present (W B i j)).
    { intros i j Hi _. destruct w; [reflexivity | apply (wf_bool N B H1 i j Hi), H2]. }
    rewrite andb_false_r. unfold graph_adjacency. split; [destruct weighted; [apply symmetrize_wf | apply either_way_wf]; exact H1|].
    intros i j Hi Hj. destruct (view_matrix w N B (fun i j => W B i j) H1 H2 Hlk HW i j Hi Hj) as [V1 [V2 V3]]. destruct weighted; assumption.
  - injection E as <-. inversion H as [|x y [H1 H2] _]; subst.
    assert (HW : forall i j, (i < N)%nat -> (j < N)%nat -> W B i j = if w then W B i j else present (W B i j)).
    { intros i j Hi _. destruct w; [reflexivity | apply (wf_bool N B H1 i j Hi), H2]. }
    unfold digraph_adjacency. split.
    + destruct directed, weighted; cbn [andb negb]; [exact H1 | apply nonzero_wf, H1 | apply symmetrize_wf, H1 | apply either_way_wf, H1].
    + intros i j Hi Hj. destruct (view_matrix w N B (fun i j => W B i j) H1 H2 Hlk HW i j Hi Hj) as [V1 [V2 V3]].
      destruct directed, weighted; cbn [andb negb]; try assumption. rewrite <- HW by assumption. reflexivity.
  - unfold multigraph_adjacency in E. destruct (flatten N L) as [B|x] eqn:F; [|discriminate]. cbn [bind] in E. injection E as <-.
    destruct (flatten_spec w N L B H F) as [H1 [H2 HW]]. rewrite andb_false_r. split; [destruct weighted; [apply symmetrize_wf | apply either_way_wf]; exact H1|].
    intros i j Hi Hj. destruct (view_matrix w N B (fun i j => suml (fun A => W A i j) L) H1 H2 Hlk HW i j Hi Hj) as [V1 [V2 V3]]. destruct weighted; assumption.
  - unfold multidigraph_adjacency in E. destruct (flatten N L) as [B|x] eqn:F; [|discriminate]. cbn [bind] in E. injection E as <-.
    destruct (flatten_spec w N L B H F) as [H1 [H2 HW]]. split.
    + destruct directed, weighted; cbn [andb negb]; [exact H1 | apply nonzero_wf, H1 | apply symmetrize_wf, H1 | apply either_way_wf, H1].
    + intros i j Hi Hj. destruct (view_matrix w N B (fun i j => suml (fun A => W A i j) L) H1 H2 Hlk HW i j Hi Hj) as [V1 [V2 V3]].
      destruct directed, weighted; cbn [andb negb]; try assumption. apply HW; assumption.
Qed.

Lemma adjacency_ok : forall N s directed weighted, layers s <> [] -> exists A, adjacency_matrix N s directed weighted = Ok A.
Proof.
  intros N s directed weighted H. destruct s as [A|A|[|A L]|[|A L]]; cbn in *; try (eexists; reflexivity); contradiction.
Qed.

(** The objects the four constructors build from a vertex table and an edge table. *)
Inductive graph_of {ID G Lb : Type} leb_id leb_g leb_l (grouped sl dl weighted : bool) (v : list (ID * G))
    (e : list (erow ID Lb)) (b : base ID G) : shape -> Prop :=
| of_graph : forall A, sparse_graph leb_id leb_g grouped sl dl weighted v e = Ok (b, A) ->
    graph_of leb_id leb_g leb_l grouped sl dl weighted v e b (SGraph A)
| of_digraph : forall A, sparse_graph leb_id leb_g grouped sl dl weighted v e = Ok (b, A) ->
    graph_of leb_id leb_g leb_l grouped sl dl weighted v e b (SDiGraph A)
| of_multigraph : forall lab L, sparse_multigraph leb_id leb_g leb_l grouped sl dl weighted v e = Ok (b, lab, L) ->
    graph_of leb_id leb_g leb_l grouped sl dl weighted v e b (SMultiGraph L)
| of_multidigraph : forall lab L, sparse_multigraph leb_id leb_g leb_l grouped sl dl weighted v e = Ok (b, lab, L) ->
    graph_of leb_id leb_g leb_l grouped sl dl weighted v e b (SMultiDiGraph L).

(** Graphs built by the library from some tables, with the groups of their vertices. *)
Inductive library_graph (weighted : bool) (N : nat) (s : shape) (gr : grouping) : Prop :=
| built : forall (ID G Lb : Type) leb_id leb_g leb_l grouped sl dl (v : list (ID * G)) (e : list (erow ID Lb)) b,
    total_order leb_id -> total_order leb_g -> total_order leb_l ->
    graph_of leb_id leb_g leb_l grouped sl dl weighted v e b s -> N = b_n b -> gr = grouping_of b ->
    library_graph weighted N s gr.

Section Built.
Context {ID G Lb : Type} (leb_id : ID -> ID -> bool) (leb_g : G -> G -> bool) (leb_l : Lb -> Lb -> bool).
Context (oid : total_order leb_id) (og : total_order leb_g) (ol : total_order leb_l).

Lemma edges_in_range : forall grouped sl dl w (v : list (ID * G)) (e : list (erow ID Lb)) b,
  read_tables leb_id leb_g grouped sl dl w v e = Ok b -> in_range (b_n b) (b_edges b).
Proof.
  intros grouped sl dl w v e b H.
  destruct (read_tables_ok leb_id leb_g oid og _ _ _ _ _ _ _ H) as [_ [E [Hl [Hn [_ [_ [_ [Hr He]]]]]]]].
  unfold in_range. rewrite He, Hn. unfold inner. apply Forall_forall. intros t Ht. apply in_map_iff in Ht as [r [<- Hin]].
  cbn [fst snd]. destruct (Hr r Hin) as [S [D P]]. destruct E as [E1 [E2 _]].
  assert (I : forall x, In x (map fst v) -> (mapped (dict_get leb_id (b_ids b) x) < length v)%nat).
  { intros x Hx. destruct (proj1 (E1 x) Hx) as [i Hi]. rewrite Hi. cbn. rewrite <- Hl. eapply E2, Hi. }
  split; [apply I, S|]. split; [apply I, D|]. destruct w; [apply P; reflexivity | lra].
Qed.

Lemma in_range_pos : forall N l, in_range N l -> Forall (fun t => 0 < snd t) l.
Proof. intros N l H. eapply Forall_impl; [|exact H]. cbn. intros t Ht. apply Ht. Qed.

Lemma grouping_lt : forall grouped sl dl w (v : list (ID * G)) (e : list (erow ID Lb)) b M g,
  read_tables leb_id leb_g grouped sl dl w v e = Ok b -> grouping_of b = Some (M, g) ->
  forall i, (i < b_n b)%nat -> (g i < M)%nat.
Proof.
  intros grouped sl dl w v e b M g H Hg i Hi.
  destruct (read_tables_ok leb_id leb_g oid og _ _ _ _ _ _ _ H) as [_ [E [Hl [Hn [Hgr _]]]]].
  unfold grouping_of in Hg. unfold groups_ok in Hgr. destruct grouped; [|rewrite Hgr in Hg; discriminate].
  destruct Hgr as [gd [ga [Eg [En [Lg Hga]]]]]. rewrite Eg in Hg. injection Hg as <- <-.
  destruct E as [_ [_ [E3 _]]]. destruct (E3 i) as [x [Hx Gx]]; [lia|]. apply in_map_iff in Hx as [r [<- Hr]].
  destruct (Hga r Hr) as [k [Gk Nk]]. rewrite Gx in Nk. cbn [mapped] in Nk.
  rewrite (nth_error_nth _ _ _ Nk). destruct En as [_ [En _]]. eapply En, Gk.
Qed.

Lemma multi_pieces : forall grouped sl dl w (v : list (ID * G)) (e : list (erow ID Lb)) b lab L,
  sparse_multigraph leb_id leb_g leb_l grouped sl dl w v e = Ok (b, lab, L) ->
  read_tables leb_id leb_g grouped sl dl w v e = Ok b /\ enumerates leb_l lab (map r_label e) /\
  L = map (fun lbl => coo_tocsr (negb w) (b_n b)
        (map snd (filter (fun p => Nat.eqb (fst p) lbl)
           (map (fun r => (mapped (dict_get leb_l lab (r_label r)),
                           (mapped (dict_get leb_id (b_ids b) (r_src r)), mapped (dict_get leb_id (b_ids b) (r_dst r)),
                            if w then r_weight r else 1))) e)))) (seq 0 (length lab)).
Proof.
  intros grouped sl dl w v e b lab L H. unfold sparse_multigraph in H.
  destruct (read_tables leb_id leb_g grouped sl dl w v e) as [b'|x] eqn:Eb; [|discriminate]. cbn [bind] in H.
  unfold read_labels in H. destruct (generate_id_dict leb_l (map r_label e) false) as [d|x] eqn:Ed; [|discriminate].
  cbn [bind] in H. injection H as <- <- <-. destruct (generate_enumerates leb_l ol _ _ _ Ed) as [En _].
  split; [reflexivity|]. split; [exact En|].
  destruct (read_tables_ok leb_id leb_g oid og _ _ _ _ _ _ _ Eb) as [_ [_ [_ [_ [_ [_ [_ [_ He]]]]]]]].
  rewrite He. unfold inner. apply map_ext. intros lbl. f_equal. f_equal. f_equal. rewrite combine_map. apply map_ext_in.
  intros r Hr. f_equal. apply astype_id. destruct En as [E1 [E2 _]]. destruct (proj1 (E1 (r_label r)) (in_map r_label _ _ Hr)) as [k Hk].
  rewrite Hk. cbn. specialize (E2 _ _ Hk). lia.
Qed.

Lemma layers_wf : forall grouped sl dl w (v : list (ID * G)) (e : list (erow ID Lb)) b lab L,
  sparse_multigraph leb_id leb_g leb_l grouped sl dl w v e = Ok (b, lab, L) ->
  Forall (fun A => wf (b_n b) A /\ sp_bool A = negb w) L.
Proof.
  intros grouped sl dl w v e b lab L H. destruct (multi_pieces _ _ _ _ _ _ _ _ _ H) as [Hb [_ ->]].
  apply Forall_forall. intros A HA. apply in_map_iff in HA as [lbl [<- _]]. split; [|reflexivity].
  apply coo_wf. apply Forall_forall. intros t Ht. apply in_map_iff in Ht as [p [<- Hp]]. apply filter_In in Hp as [Hp _].
  apply in_map_iff in Hp as [r [<- Hr]]. cbn.
  destruct (read_tables_ok leb_id leb_g oid og _ _ _ _ _ _ _ Hb) as [_ [_ [_ [_ [_ [_ [_ [P _]]]]]]]].
  destruct w; [apply P; [exact Hr | reflexivity] | lra].
Qed.
End Built.

Lemma simple_pieces : forall ID G Lb leb_id leb_g grouped sl dl w (v : list (ID * G)) (e : list (erow ID Lb)) b A,
  sparse_graph leb_id leb_g grouped sl dl w v e = Ok (b, A) ->
  read_tables leb_id leb_g grouped sl dl w v e = Ok b /\ A = coo_tocsr (negb w) (b_n b) (b_edges b).
Proof.
  intros ID G Lb leb_id leb_g grouped sl dl w v e b A H. unfold sparse_graph in H.
  destruct (read_tables leb_id leb_g grouped sl dl w v e) as [b'|x]; [|discriminate]. cbn [bind] in H. injection H as <- <-. auto.
Qed.

Lemma built_tables : forall ID G Lb li lg ll grouped sl dl w (v : list (ID * G)) (e : list (erow ID Lb)) b s,
  total_order li -> total_order lg -> total_order ll ->
  graph_of li lg ll grouped sl dl w v e b s -> read_tables li lg grouped sl dl w v e = Ok b /\ valid w (b_n b) s.
Proof.
  intros ID G Lb li lg ll grouped sl dl w v e b s Oi Og Ol H.
  destruct H as [A H|A H|lab L H|lab L H]; unfold valid; cbn [layers].
  - apply simple_pieces in H as [Hb ->]. split; [exact Hb|]. constructor; [|constructor]. split; [|reflexivity]. apply coo_wf. eapply in_range_pos, edges_in_range; eassumption.
  - apply simple_pieces in H as [Hb ->]. split; [exact Hb|]. constructor; [|constructor]. split; [|reflexivity]. apply coo_wf. eapply in_range_pos, edges_in_range; eassumption.
  - split; [apply (multi_pieces li lg ll Oi Og Ol) in H; apply H|]. eapply (layers_wf li lg ll); eassumption.
  - split; [apply (multi_pieces li lg ll Oi Og Ol) in H; apply H|]. eapply (layers_wf li lg ll); eassumption.
Qed.

Lemma library_valid : forall w N s gr, library_graph w N s gr -> valid w N s.
Proof.
  intros w N s gr H. destruct H as [ID G Lb li lg ll grouped sl dl v e b Oi Og Ol H -> ->].
  eapply built_tables; [exact Oi | exact Og | exact Ol | exact H].
Qed.

Lemma library_groups : forall w N s M g, library_graph w N s (Some (M, g)) -> forall i, (i < N)%nat -> (g i < M)%nat.
Proof.
  intros w N s M g H i Hi. destruct H as [ID G Lb li lg ll grouped sl dl v e b Oi Og Ol H -> E].
  destruct (built_tables _ _ _ _ _ _ _ _ _ _ _ _ _ _ Oi Og Ol H) as [Hb _].
  eapply grouping_lt; [exact Oi | exact Og | exact Hb | symmetry; exact E | exact Hi].
Qed.

(** ** Links and rows of the edge table *)

Section Rows.
Context {ID G Lb : Type} (leb_id : ID -> ID -> bool) (leb_g : G -> G -> bool) (leb_l : Lb -> Lb -> bool).
Context (oid : total_order leb_id) (og : total_order leb_g) (ol : total_order leb_l).

Definition row_matches (x y : ID) (r : erow ID Lb) : bool := eq_key leb_id x (r_src r) && eq_key leb_id y (r_dst r).

Lemma hits_row : forall d col, enumerates leb_id d col -> forall r : erow ID Lb, In (r_src r) col -> In (r_dst r) col ->
  forall x y i j, dict_get leb_id d x = Some i -> dict_get leb_id d y = Some j -> forall v,
  hits i j (mapped (dict_get leb_id d (r_src r)), mapped (dict_get leb_id d (r_dst r)), v) = row_matches x y r.
Proof.
  intros d col [E1 [_ [_ [E4 _]]]] r Hs Hd x y i j Hx Hy v. unfold hits, row_matches. cbn [fst snd].
  assert (K : forall z u k, In u col -> dict_get leb_id d z = Some k -> Nat.eqb (mapped (dict_get leb_id d u)) k = eq_key leb_id z u).
  { intros z u k Hu Hz. destruct (proj1 (E1 u) Hu) as [m Hm]. rewrite Hm. cbn [mapped].
    change (eq_key leb_id z u) with (same leb_id z u). destruct (same_spec leb_id oid z u) as [->|Hne].
    - rewrite Hz in Hm. injection Hm as ->. apply Nat.eqb_refl.
    - apply Nat.eqb_neq. intros ->. apply Hne. eapply E4; eassumption. }
  rewrite (K x _ i Hs Hx), (K y _ j Hd Hy). reflexivity.
Qed.

Lemma existsb_filter : forall (A : Type) (p q : A -> bool) l, existsb p (filter q l) = existsb (fun x => q x && p x) l.
Proof. induction l as [|a l IH]; [reflexivity|]. cbn. destruct (q a); cbn; rewrite IH; reflexivity. Qed.

Lemma existsb_map : forall (A B : Type) (p : B -> bool) (f : A -> B) l, existsb p (map f l) = existsb (fun x => p (f x)) l.
Proof. induction l as [|a l IH]; [reflexivity|]. cbn. rewrite IH. reflexivity. Qed.

Lemma existsb_ext_in : forall (A : Type) (p q : A -> bool) l, (forall x, In x l -> p x = q x) -> existsb p l = existsb q l.
Proof. induction l as [|a l IH]; intros H; [reflexivity|]. cbn. rewrite H by (left; reflexivity). rewrite IH; [reflexivity|]. intros x Hx. apply H. right; exact Hx. Qed.

Variables (grouped sl dl w : bool) (v : list (ID * G)) (e : list (erow ID Lb)).

Lemma simple_cell : forall b A, sparse_graph leb_id leb_g grouped sl dl w v e = Ok (b, A) ->
  forall x y i j, dict_get leb_id (b_ids b) x = Some i -> dict_get leb_id (b_ids b) y = Some j ->
  (In j (map fst (sp_row A i)) <-> existsb (row_matches x y) e = true) /\
  W A i j = if w then suml (fun r => if row_matches x y r then r_weight r else 0) e else b2r (existsb (row_matches x y) e).
Proof.
  intros b A H x y i j Hx Hy. apply simple_pieces in H as [Hb ->].
  destruct (read_tables_ok leb_id leb_g oid og _ _ _ _ _ _ _ Hb) as [_ [E [Hl [Hn [_ [_ [_ [Hr He]]]]]]]].
  assert (Hj : (j < b_n b)%nat). { rewrite Hn, <- Hl. destruct E as [_ [E _]]. eapply E, Hy. }
  assert (X : existsb (hits i j) (b_edges b) = existsb (row_matches x y) e).
  { rewrite He. unfold inner. rewrite existsb_map. apply existsb_ext_in. intros r Hin. destruct (Hr r Hin) as [S [D _]].
    eapply hits_row; eassumption. }
  split; [rewrite coo_in, X by exact Hj; reflexivity|].
  destruct w; cbn [negb].
  - rewrite coo_entry by exact Hj. rewrite He. unfold inner. rewrite suml_map. apply suml_ext. intros r Hin. destruct (Hr r Hin) as [S [D _]].
    rewrite (hits_row _ _ E r S D x y i j Hx Hy). cbn [snd]. reflexivity.
  - rewrite coo_bool_entry, X by exact Hj. reflexivity.
Qed.

Definition row_labelled (x y : ID) (l : Lb) (r : erow ID Lb) : bool := row_matches x y r && eq_key leb_l l (r_label r).

Lemma label_key : forall d col, enumerates leb_l d col -> forall z u k, In u col -> dict_get leb_l d z = Some k ->
  Nat.eqb (mapped (dict_get leb_l d u)) k = eq_key leb_l z u.
Proof.
  intros d col [E1 [_ [_ [E4 _]]]] z u k Hu Hz. destruct (proj1 (E1 u) Hu) as [m Hm]. rewrite Hm. cbn [mapped].
  change (eq_key leb_l z u) with (same leb_l z u). destruct (same_spec leb_l ol z u) as [->|Hne].
  - rewrite Hz in Hm. injection Hm as ->. apply Nat.eqb_refl.
  - apply Nat.eqb_neq. intros ->. apply Hne. eapply E4; eassumption.
Qed.

Lemma layer_cell : forall b lab L, sparse_multigraph leb_id leb_g leb_l grouped sl dl w v e = Ok (b, lab, L) ->
  length L = length lab /\
  forall x y z i j l, dict_get leb_id (b_ids b) x = Some i -> dict_get leb_id (b_ids b) y = Some j ->
  dict_get leb_l lab z = Some l -> exists A, nth_error L l = Some A /\
  (In j (map fst (sp_row A i)) <-> existsb (row_labelled x y z) e = true) /\
  W A i j = if w then suml (fun r => if row_labelled x y z r then r_weight r else 0) e else b2r (existsb (row_labelled x y z) e).
Proof.
  intros b lab L H. destruct (multi_pieces leb_id leb_g leb_l oid og ol _ _ _ _ _ _ _ _ _ H) as [Hb [El ->]].
  split; [rewrite map_length, seq_length; reflexivity|]. intros x y z i j l Hx Hy Hz.
  destruct (read_tables_ok leb_id leb_g oid og _ _ _ _ _ _ _ Hb) as [_ [E [Hl [Hn [_ [_ [_ [Hr He]]]]]]]].
  assert (Hj : (j < b_n b)%nat). { rewrite Hn, <- Hl. destruct E as [_ [E _]]. eapply E, Hy. }
  assert (Hll : (l < length lab)%nat) by (destruct El as [_ [El _]]; eapply El, Hz).
  eexists. split.
  { rewrite nth_error_map, nth_error_nth' with (d := 0%nat) by (rewrite seq_length; exact Hll). rewrite seq_nth by exact Hll. reflexivity. }
  cbn [plus]. set (rows := map snd _).
  assert (X : existsb (hits i j) rows = existsb (row_labelled x y z) e).
  { unfold rows. rewrite existsb_map, existsb_filter, existsb_map. apply existsb_ext_in. intros r Hin. destruct (Hr r Hin) as [S [D _]].
    cbn [fst snd]. rewrite (hits_row _ _ E r S D x y i j Hx Hy). rewrite (label_key lab _ El z _ l (in_map r_label _ _ Hin) Hz).
    unfold row_labelled. apply andb_comm. }
  split; [rewrite coo_in, X by exact Hj; reflexivity|].
  destruct w; cbn [negb].
  - rewrite coo_entry by exact Hj. unfold rows. rewrite suml_map, suml_filter, suml_map. apply suml_ext. intros r Hin. destruct (Hr r Hin) as [S [D _]].
    cbn [fst snd]. rewrite (hits_row _ _ E r S D x y i j Hx Hy). rewrite (label_key lab _ El z _ l (in_map r_label _ _ Hin) Hz).
    unfold row_labelled. destruct (row_matches x y r), (eq_key leb_l z (r_label r)); reflexivity.
  - rewrite coo_bool_entry, X by exact Hj. reflexivity.
Qed.

(** The link between two vertices collects the rows between them. *)
Lemma link_rows : forall b s, graph_of leb_id leb_g leb_l grouped sl dl w v e b s ->
  forall x y i j, dict_get leb_id (b_ids b) x = Some i -> dict_get leb_id (b_ids b) y = Some j ->
  present (link s i j) = b2r (existsb (row_matches x y) e) /\
  (w = true -> link s i j = suml (fun r => if row_matches x y r then r_weight r else 0) e).
Proof.
  intros b s H x y i j Hx Hy.
  assert (HN : forall x i, dict_get leb_id (b_ids b) x = Some i -> (i < b_n b)%nat).
  { intros u k Hu. destruct (built_tables _ _ _ _ _ _ _ _ _ _ _ _ _ _ oid og ol H) as [Hb _].
    destruct (read_tables_ok leb_id leb_g oid og _ _ _ _ _ _ _ Hb) as [_ [E [Hl [Hn _]]]]. rewrite Hn, <- Hl. destruct E as [_ [E _]]. eapply E, Hu. }
  assert (Simple : forall A, sparse_graph leb_id leb_g grouped sl dl w v e = Ok (b, A) ->
     present (W A i j) = b2r (existsb (row_matches x y) e) /\
     (w = true -> W A i j = suml (fun r => if row_matches x y r then r_weight r else 0) e)).
  { intros A HA. destruct (simple_cell b A HA x y i j Hx Hy) as [C1 C2]. split; [|intros ->; exact C2].
    assert (Wf : wf (b_n b) A).
    { apply simple_pieces in HA as [Hb ->]. apply coo_wf. eapply in_range_pos, edges_in_range; eassumption. }
    destruct (existsb (row_matches x y) e) eqn:Ex; cbn [b2r].
    - apply present_pos. apply (wf_pos_in _ _ Wf); [eapply HN, Hx|]. apply C1. reflexivity.
    - rewrite entry_notin; [apply present_0|]. rewrite C1. discriminate. }
  assert (Multi : forall lab L, sparse_multigraph leb_id leb_g leb_l grouped sl dl w v e = Ok (b, lab, L) ->
     present (suml (fun A => W A i j) L) = b2r (existsb (row_matches x y) e) /\
     (w = true -> suml (fun A => W A i j) L = suml (fun r => if row_matches x y r then r_weight r else 0) e)).
  { intros lab L HL. pose proof (layers_wf leb_id leb_g leb_l oid og ol _ _ _ _ _ _ _ _ _ HL) as Wf.
    destruct (layer_cell b lab L HL) as [Hlen Hcell].
    destruct (multi_pieces leb_id leb_g leb_l oid og ol _ _ _ _ _ _ _ _ _ HL) as [_ [El EL]].
    split.
    - destruct (existsb (row_matches x y) e) eqn:Ex; cbn [b2r].
      + apply present_pos. apply existsb_exists in Ex as [r [Hr Hm]].
        destruct El as [E1 _]. destruct (proj1 (E1 (r_label r)) (in_map r_label _ _ Hr)) as [l Hlab].
        destruct (Hcell x y (r_label r) i j l Hx Hy Hlab) as [A [HA [C1 _]]].
        apply nth_error_In in HA. rewrite Forall_forall in Wf.
        apply Rlt_le_trans with (W A i j).
        * apply (wf_pos_in _ _ (proj1 (Wf A HA))); [eapply HN, Hx|]. apply C1. apply existsb_exists. exists r. split; [exact Hr|].
          unfold row_labelled. rewrite Hm. apply (same_refl leb_l ol).
        * apply (suml_in_le _ (fun A => W A i j) L A); [|exact HA]. intros B HB. apply (wf_nonneg _ _ (proj1 (Wf B HB))). eapply HN, Hx.
      + rewrite suml_zero; [apply present_0|]. intros A HA. apply In_nth_error in HA as [l HA].
        assert (Hll : (l < length lab)%nat) by (rewrite <- Hlen; apply nth_error_Some; rewrite HA; discriminate).
        destruct El as [_ [_ [E3 _]]]. destruct (E3 l Hll) as [z [_ Hz]].
        destruct (Hcell x y z i j l Hx Hy Hz) as [A' [HA' [C1 _]]]. rewrite HA in HA'. injection HA' as <-.
        apply entry_notin. rewrite C1. intros K. apply existsb_exists in K as [r [Hr Hm]]. unfold row_labelled in Hm.
        apply andb_true_iff in Hm as [Hm _]. assert (existsb (row_matches x y) e = true) by (apply existsb_exists; eauto). congruence.
    - intros Hw.
      transitivity (suml (fun l => suml (fun r => if Nat.eqb (mapped (dict_get leb_l lab (r_label r))) l && row_matches x y r then r_weight r else 0) e) (seq 0 (length lab))).
      + rewrite EL, suml_map. apply suml_ext. intros l Hl. apply in_seq in Hl. destruct El as [F1 [F2 [F3 F4]]]. destruct (F3 l) as [z [_ Hz]]; [lia|].
        destruct (Hcell x y z i j l Hx Hy Hz) as [A [HA [_ C2]]]. rewrite EL in HA.
        rewrite nth_error_map, nth_error_nth' with (d := 0%nat) in HA by (rewrite seq_length; lia). rewrite seq_nth in HA by lia. cbn [option_map plus] in HA.
        injection HA as HA. rewrite HA, C2, Hw. apply suml_ext. intros r Hr. unfold row_labelled.
        rewrite (label_key lab (map r_label e)) with (z := z); [|repeat split; apply F1 || apply F2 || apply F3 || apply F4|apply in_map, Hr|exact Hz].
        rewrite andb_comm. reflexivity.
      + rewrite suml_swap. apply suml_ext. intros r Hr. rewrite suml_seq.
        rewrite (sumn_ext _ _ (fun l => if Nat.eqb (mapped (dict_get leb_l lab (r_label r))) l then (if row_matches x y r then r_weight r else 0) else 0)).
        2:{ intros l _. destruct (Nat.eqb _ l), (row_matches x y r); reflexivity. }
        rewrite sumn_delta'. destruct El as [F1 [F2 _]]. destruct (proj1 (F1 (r_label r)) (in_map r_label _ _ Hr)) as [k Hk]. rewrite Hk. cbn [mapped].
        specialize (F2 _ _ Hk). apply Nat.ltb_lt in F2. rewrite F2. reflexivity. }
  destruct H as [A H|A H|lab L H|lab L H]; cbn [link]; eauto.
Qed.
End Rows.

(** * Measures *)

Section Measures.
Variables (w : bool) (N : nat) (s : shape).
Hypothesis Hs : valid w N s.

Notation V d x i j := (view w (is_directed s) (link s) d x i j).

Lemma axis0_view : forall d x A, adjacency_matrix N s d x = Ok A -> forall j, (j < N)%nat ->
  sum_axis0 N A j = sumn N (fun i => V d x i j).
Proof.
  intros d x A E j Hj. destruct (adjacency_spec w N s d x A Hs E) as [HA HV]. rewrite axis0_sum.
  apply sumn_ext. intros i Hi. apply HV; assumption.
Qed.

Lemma axis1_view : forall d x A, adjacency_matrix N s d x = Ok A -> forall i, (i < N)%nat ->
  sum_axis1 A i = sumn N (fun j => V d x i j).
Proof.
  intros d x A E i Hi. destruct (adjacency_spec w N s d x A Hs E) as [HA HV]. rewrite (axis1_sum N A HA i Hi).
  apply sumn_ext. intros j Hj. apply HV; assumption.
Qed.

Lemma all_view : forall d x A, adjacency_matrix N s d x = Ok A ->
  sum_all N A = sumn N (fun i => sumn N (fun j => V d x i j)).
Proof.
  intros d x A E. destruct (adjacency_spec w N s d x A Hs E) as [HA HV]. rewrite (all_sum N A HA).
  apply sumn_ext. intros i Hi. apply sumn_ext. intros j Hj. apply HV; assumption.
Qed.

Lemma diag_view : forall d x A, adjacency_matrix N s d x = Ok A ->
  vec_sum N (sp_diagonal A) = sumn N (fun i => V d x i i).
Proof.
  intros d x A E. destruct (adjacency_spec w N s d x A Hs E) as [HA HV]. rewrite vec_sum_eq.
  apply sumn_ext. intros i Hi. unfold sp_diagonal. rewrite (wf_get N A HA) by exact Hi. apply HV; assumption.
Qed.
End Measures.

(** ** By group *)

Lemma tally_entry : forall d g v h, entry (tally d g v) h = entry d h + (if Nat.eqb g h then v else 0).
Proof.
  induction d as [|[k u] d IH]; intros g v h; cbn [tally].
  - rewrite entry_cons. cbn. lra.
  - destruct (Nat.eqb_spec k g) as [->|Hne]; rewrite !entry_cons; cbn [fst snd].
    + destruct (Nat.eqb g h); lra.
    + rewrite IH. lra.
Qed.

Lemma sum_by_group_entry : forall N row g_arr dtype M i g, (i < N)%nat -> (g < M)%nat ->
  W (coo_tocsr false M (sum_by_group N row g_arr dtype)) i g
  = suml (fun e => if Nat.eqb (g_arr (fst e)) g then dtype (snd e) else 0) (row i).
Proof.
  intros N row g_arr dtype M i g Hi Hg. rewrite coo_entry by exact Hg. unfold sum_by_group.
  set (cell := fun k => suml (fun e => if Nat.eqb (g_arr (fst e)) g then dtype (snd e) else 0) (row k)).
  rewrite (for_range_sum _ (fun l => suml (fun t => if hits i g t then snd t else 0) l) _ _
             (fun k => if Nat.eqb k i then cell k else 0)).
  - cbn [suml]. rewrite Rplus_0_l, sumn_delta. apply Nat.ltb_lt in Hi. rewrite Hi. reflexivity.
  - intros k acc _. rewrite suml_app. f_equal. rewrite suml_map. unfold hits. cbn [fst snd].
    destruct (Nat.eqb k i); cbn [andb].
    + unfold cell. change (fun x : nat * R => if Nat.eqb (fst x) g then snd x else 0) with (fun x : nat * R => if Nat.eqb (fst x) g then snd x else 0).
      rewrite (for_each_sum _ _ (fun d => suml (fun x : nat * R => if Nat.eqb (fst x) g then snd x else 0) d) _ _
                 (fun e => if Nat.eqb (g_arr (fst e)) g then dtype (snd e) else 0)); [cbn [suml]; lra|].
      intros e d _. apply tally_entry.
    + apply suml_zero. reflexivity.
Qed.

Lemma to_int64_1 : to_int64 1 = 1.
Proof. unfold to_int64. rewrite Rltb_false by lra. rewrite int_part_1. reflexivity. Qed.

Lemma by_group_entry : forall N A M g dtype B, wf N A -> by_group N (Some (M, g)) A dtype = Ok B ->
  (dtype = to_float64 \/ (dtype = to_int64 /\ sp_bool A = true)) ->
  forall i k, (i < N)%nat -> (k < M)%nat -> W B i k = sumn N (fun j => if Nat.eqb (g j) k then W A i j else 0).
Proof.
  intros N A M g dtype B HA E Hd i k Hi Hk. cbn [by_group] in E. injection E as <-.
  rewrite sum_by_group_entry by assumption.
  rewrite <- (row_sum N A HA i (fun j x => if Nat.eqb (g j) k then x else 0) Hi).
  - apply suml_ext. intros e He. destruct Hd as [->|[-> Hb]]; [reflexivity|].
    destruct (HA i Hi) as [_ F]. rewrite Forall_forall in F. destruct (F e He) as [_ [_ F1]]. rewrite (F1 Hb), to_int64_1. reflexivity.
  - intros j. destruct (Nat.eqb (g j) k); reflexivity.
Qed.

Lemma group_partition : forall N M (g : nat -> nat) (f : nat -> R), (forall j, (j < N)%nat -> (g j < M)%nat) ->
  sumn M (fun k => sumn N (fun j => if Nat.eqb (g j) k then f j else 0)) = sumn N f.
Proof.
  intros N M g f H. rewrite sumn_swap. apply sumn_ext. intros j Hj. rewrite sumn_delta'.
  specialize (H j Hj). apply Nat.ltb_lt in H. rewrite H. reflexivity.
Qed.

Lemma adjacency_bool : forall w N s d A, valid w N s -> adjacency_matrix N s d false = Ok A -> sp_bool A = true.
Proof.
  intros w N s d A H E. unfold valid in H. destruct s as [B|B|L|L]; cbn [adjacency_matrix] in E.
  - injection E as <-. reflexivity.
  - injection E as <-. destruct d; reflexivity.
  - unfold multigraph_adjacency in E. destruct (flatten N L); [|discriminate]. cbn in E. injection E as <-. reflexivity.
  - unfold multidigraph_adjacency in E. destruct (flatten N L); [|discriminate]. cbn in E. injection E as <-. destruct d; reflexivity.
Qed.

(** ** Nearest neighbours *)

Lemma av_nn_prop_val : forall N A prop sl i, wf N A -> (i < N)%nat ->
  av_nn_prop N (sp_row A) prop sl i = sumn N (fun j => if allowed sl i j then present (W A i j) * prop j else 0).
Proof.
  intros N A prop sl i HA Hi. unfold av_nn_prop.
  set (cell := fun k => suml (fun e => if allowed sl k (fst e) then prop (fst e) else 0) (sp_row A k)).
  rewrite (for_range_sum _ (fun f => f i) _ _ (fun k => if Nat.eqb k i then cell k else 0)).
  - rewrite Rplus_0_l, sumn_delta. pose proof Hi as Hi'. apply Nat.ltb_lt in Hi'. rewrite Hi'. unfold cell.
    rewrite <- (row_sum N A HA i (fun j x => if allowed sl i j then present x * prop j else 0) Hi).
    + apply suml_ext. intros e He. destruct (HA i Hi) as [_ F]. rewrite Forall_forall in F. destruct (F e He) as [_ [P _]].
      rewrite present_pos by exact P. destruct (allowed sl i (fst e)); lra.
    + intros j. rewrite present_0. destruct (allowed sl i j); lra.
  - intros k f Hk. rewrite (for_each_sum _ _ (fun f => f i) _ _ (fun e => if Nat.eqb k i then (if allowed sl k (fst e) then prop (fst e) else 0) else 0)).
    + f_equal. unfold cell. destruct (Nat.eqb k i); [reflexivity|]. apply suml_zero. reflexivity.
    + intros e f' _. unfold allowed. destruct (negb (Nat.eqb k (fst e)) || sl).
      * rewrite add_at_val, (Nat.eqb_sym i k). destruct (Nat.eqb k i); lra.
      * destruct (Nat.eqb k i); lra.
Qed.

Lemma divide_ok : forall N av deg f, divide_by_degree N av deg = Ok f ->
  forall i, f i = if Reqb (deg i) 0 then av i else av i / deg i.
Proof.
  intros N av deg f H i. unfold divide_by_degree, guard in H. destruct (forallb _ _); [|discriminate]. injection H as <-. reflexivity.
Qed.

Lemma divide_total : forall N av deg, (forall i, (i < N)%nat -> deg i = 0 -> av i = 0) ->
  exists f, divide_by_degree N av deg = Ok f.
Proof.
  intros N av deg H. unfold divide_by_degree, guard.
  replace (forallb _ _) with true; [eexists; reflexivity|]. symmetry. apply forallb_forall. intros i Hi. apply in_seq in Hi.
  destruct (Reqb_spec (deg i) 0) as [E|E]; [|reflexivity]. cbn. rewrite Reqb_true; [reflexivity|]. apply H; [lia | exact E].
Qed.

(** The neighbourhood relation a direction stands for. *)
Definition nbr (s : shape) (ndir : dir) (i j : nat) : R :=
  if is_directed s then
    match ndir with
    | Dout => present (link s i j)
    | Din => present (link s j i)
    | _ => neighbours (link s) i j
    end
  else neighbours (link s) i j.

Lemma nbr_present : forall s ndir i j, nbr s ndir i j = present (nbr s ndir i j).
Proof. intros s ndir i j. unfold nbr, neighbours. destruct (is_directed s), ndir; rewrite present_idem; reflexivity. Qed.

Lemma nn_core : forall N A prop sl (q : nat -> nat -> R) deg, wf N A ->
  (forall i j, (i < N)%nat -> (j < N)%nat -> present (W A i j) = q i j) ->
  (forall i, (i < N)%nat -> deg i = sumn N (fun j => q i j)) ->
  exists f, divide_by_degree N (av_nn_prop N (sp_row A) prop sl) deg = Ok f /\
  forall i, (i < N)%nat -> f i = if Req_EM_T (sumn N (fun j => q i j)) 0 then 0
                                 else nb_total N sl q prop i / sumn N (fun j => q i j).
Proof.
  intros N A prop sl q deg HA Hq Hdeg.
  assert (Hav : forall i, (i < N)%nat -> av_nn_prop N (sp_row A) prop sl i = nb_total N sl q prop i).
  { intros i Hi. rewrite av_nn_prop_val by assumption. unfold nb_total. apply sumn_ext. intros j Hj. rewrite Hq by assumption. reflexivity. }
  assert (Hz : forall i, (i < N)%nat -> sumn N (fun j => q i j) = 0 -> nb_total N sl q prop i = 0).
  { intros i Hi E. unfold nb_total. apply sumn_zero. intros j Hj.
    assert (Q : q i j = 0).
    { apply (sumn_zero_inv N (fun j => q i j)); [|exact E | exact Hj]. intros k Hk. rewrite <- Hq by assumption. apply present_range. }
    rewrite Q. destruct (allowed sl i j); lra. }
  destruct (divide_total N (av_nn_prop N (sp_row A) prop sl) deg) as [f Hf].
  { intros i Hi E. rewrite Hav by exact Hi. apply Hz; [exact Hi|]. rewrite <- Hdeg by exact Hi. exact E. }
  exists f. split; [exact Hf|]. intros i Hi. rewrite (divide_ok _ _ _ _ Hf). rewrite Hdeg, Hav by exact Hi.
  unfold Reqb. destruct (Req_EM_T (sumn N (fun j => q i j)) 0) as [E|E]; [apply Hz; assumption | reflexivity].
Qed.

Lemma nn_property_val : forall w N s prop ndir sl, valid w N s -> layers s <> [] -> (is_directed s = true -> ndir <> Dother) ->
  exists f, average_nn_property N s N prop ndir (Some sl) = Ok f /\
  forall i, (i < N)%nat -> f i = if Req_EM_T (sumn N (fun j => nbr s ndir i j)) 0 then 0
     else nb_total N sl (nbr s ndir) prop i / sumn N (fun j => nbr s ndir i j).
Proof.
  intros w N s prop ndir sl Hv Hl Hd. unfold average_nn_property, guard. rewrite Nat.eqb_refl.
  destruct (adjacency_ok N s false false Hl) as [Au EAu]. destruct (adjacency_ok N s true false Hl) as [Ad EAd].
  destruct (adjacency_spec w N s false false Au Hv EAu) as [WAu VAu]. destruct (adjacency_spec w N s true false Ad Hv EAd) as [WAd VAd].
  assert (U : exists f, (do deg <- degree N s ; do A <- adjacency_matrix N s false false ;
                divide_by_degree N (av_nn_prop N (sp_row A) prop sl) deg) = Ok f /\
     forall i, (i < N)%nat -> f i = if Req_EM_T (sumn N (fun j => neighbours (link s) i j)) 0 then 0
       else nb_total N sl (neighbours (link s)) prop i / sumn N (fun j => neighbours (link s) i j)).
  { unfold degree. rewrite EAu. cbn [bind]. apply nn_core; [exact WAu| |].
    - intros i j Hi Hj. rewrite VAu by assumption. unfold view. cbn. unfold neighbours. apply present_idem.
    - intros i Hi. rewrite (axis0_view w N s Hv _ _ _ EAu i Hi). apply sumn_ext. intros j Hj. unfold view. cbn.
      unfold neighbours, both_ways. rewrite (Nat.eqb_sym j i). destruct (Nat.eqb_spec i j) as [->|_]; [reflexivity|].
      rewrite (Rplus_comm (link s j i)). reflexivity. }
  unfold nbr. destruct (is_directed s) eqn:Ed; [|exact U]. destruct ndir.
  - unfold out_degree, guard. rewrite Ed, EAd. cbn [bind]. apply nn_core; [exact WAd| |].
    + intros i j Hi Hj. rewrite VAd by assumption. unfold view. cbn. apply present_idem.
    + intros i Hi. rewrite (axis1_view w N s Hv _ _ _ EAd i Hi). apply sumn_ext. intros j Hj. rewrite Ed. unfold view. cbn. reflexivity.
  - unfold in_degree, guard. rewrite Ed, EAd. cbn [bind]. apply nn_core; [apply T_wf, WAd| |].
    + intros i j Hi Hj. rewrite T_entry by exact Hj. rewrite VAd by assumption. unfold view. cbn. apply present_idem.
    + intros i Hi. rewrite (axis0_view w N s Hv _ _ _ EAd i Hi). apply sumn_ext. intros j Hj. rewrite Ed. unfold view. cbn. reflexivity.
  - exact U.
  - exfalso. apply Hd; reflexivity.
Qed.

(** ** Totals *)

Lemma coo_total : forall N l, in_range N l ->
  sumn N (fun i => sumn N (fun j => W (coo_tocsr false N l) i j)) = suml snd l.
Proof.
  intros N l H.
  rewrite (sumn_ext _ _ (fun i => suml (fun t => if Nat.eqb (fst (fst t)) i then snd t else 0) l)).
  2:{ intros i Hi. rewrite (sumn_ext _ _ (fun j => suml (fun t => if hits i j t then snd t else 0) l)) by (intros j Hj; apply coo_entry; exact Hj).
      rewrite <- suml_sumn_swap. apply suml_ext. intros t Ht. unfold in_range in H. rewrite Forall_forall in H. destruct (H t Ht) as [_ [T _]].
      unfold hits. destruct (Nat.eqb (fst (fst t)) i); cbn [andb]; [|apply sumn_zero; reflexivity].
      rewrite sumn_delta'. apply Nat.ltb_lt in T. rewrite T. reflexivity. }
  rewrite <- suml_sumn_swap. apply suml_ext. intros t Ht. unfold in_range in H. rewrite Forall_forall in H. destruct (H t Ht) as [T _].
  rewrite sumn_delta'. apply Nat.ltb_lt in T. rewrite T. reflexivity.
Qed.

Lemma in_range_incl : forall N l m, in_range N l -> incl m l -> in_range N m.
Proof. unfold in_range. intros N l m H I. rewrite Forall_forall in *. intros t Ht. apply H, I, Ht. Qed.

Section Total.
Context {ID G Lb : Type} (leb_id : ID -> ID -> bool) (leb_g : G -> G -> bool) (leb_l : Lb -> Lb -> bool).
Context (oid : total_order leb_id) (og : total_order leb_g) (ol : total_order leb_l).

Lemma link_total : forall grouped sl dl v (e : list (erow ID Lb)) b s,
  graph_of leb_id leb_g leb_l grouped sl dl true v e b s ->
  sumn (b_n b) (fun i => sumn (b_n b) (fun j => link s i j)) = suml r_weight e.
Proof.
  intros grouped sl dl v e b s H. destruct (built_tables _ _ _ _ _ _ _ _ _ _ _ _ _ _ oid og ol H) as [Hb _].
  pose proof (edges_in_range leb_id leb_g oid og _ _ _ _ _ _ _ Hb) as IR.
  destruct (read_tables_ok leb_id leb_g oid og _ _ _ _ _ _ _ Hb) as [_ [_ [_ [_ [_ [_ [_ [_ He]]]]]]]].
  assert (S : suml snd (b_edges b) = suml r_weight e) by (rewrite He; unfold inner; rewrite suml_map; apply suml_ext; reflexivity).
  assert (M : forall lab L, sparse_multigraph leb_id leb_g leb_l grouped sl dl true v e = Ok (b, lab, L) ->
     sumn (b_n b) (fun i => sumn (b_n b) (fun j => suml (fun A => W A i j) L)) = suml r_weight e).
  { intros lab L HL. destruct (multi_pieces leb_id leb_g leb_l oid og ol _ _ _ _ _ _ _ _ _ HL) as [_ [El EL]].
    transitivity (suml (fun A => sumn (b_n b) (fun i => sumn (b_n b) (fun j => W A i j))) L).
    { rewrite suml_sumn_swap. apply sumn_ext. intros i Hi. symmetry. apply suml_sumn_swap. }
    rewrite EL, suml_map.
    transitivity (suml (fun l => suml (fun r => if Nat.eqb (mapped (dict_get leb_l lab (r_label r))) l then r_weight r else 0) e) (seq 0 (length lab))).
    { apply suml_ext. intros l _. cbn [negb]. rewrite coo_total.
      - rewrite suml_map, suml_filter, suml_map. apply suml_ext. intros r _. cbn [fst snd]. reflexivity.
      - eapply in_range_incl; [exact IR|]. intros t Ht. apply in_map_iff in Ht as [p [<- Hp]]. apply filter_In in Hp as [Hp _].
        apply in_map_iff in Hp as [r [<- Hr]]. rewrite He. unfold inner. apply in_map_iff. exists r. split; [reflexivity | exact Hr]. }
    rewrite suml_swap. apply suml_ext. intros r Hr. rewrite suml_seq, sumn_delta'. destruct El as [F1 [F2 _]].
    destruct (proj1 (F1 (r_label r)) (in_map r_label _ _ Hr)) as [k Hk]. rewrite Hk. cbn [mapped].
    specialize (F2 _ _ Hk). apply Nat.ltb_lt in F2. rewrite F2. reflexivity. }
  destruct H as [A H|A H|lab L H|lab L H]; cbn [link].
  - apply simple_pieces in H as [_ ->]. cbn [negb]. rewrite coo_total by exact IR. exact S.
  - apply simple_pieces in H as [_ ->]. cbn [negb]. rewrite coo_total by exact IR. exact S.
  - eapply M, H.
  - eapply M, H.
Qed.
End Total.

(** ** Building concrete graphs *)

Lemma nat_order : total_order Nat.leb.
Proof.
  split; [|split].
  - intros x y. rewrite !Nat.leb_le. lia.
  - intros x y z. rewrite !Nat.leb_le. lia.
  - intros x y. rewrite !Nat.leb_le. lia.
Qed.

Section Build.
Context {ID G Lb : Type} (leb_id : ID -> ID -> bool) (leb_g : G -> G -> bool) (leb_l : Lb -> Lb -> bool).
Context (oid : total_order leb_id) (og : total_order leb_g) (ol : total_order leb_l).

Definition enum_of {K : Type} (leb : K -> K -> bool) (col : list K) : dict K :=
  combine (np_unique leb col) (seq 0 (length (np_unique leb col))).

Lemma build : forall grouped sl w v (e : list (erow ID Lb)), NoDup (map fst v) ->
  (forall r, In r e -> In (r_src r) (map fst v) /\ In (r_dst r) (map fst v) /\ (w = true -> 0 < r_weight r)) ->
  exists gr, read_tables leb_id leb_g grouped sl sl w v e
    = Ok (mkBase (length v) (enum_of leb_id (map fst v)) gr w (inner leb_id (enum_of leb_id (map fst v)) w e))
    /\ groups_ok leb_id leb_g (enum_of leb_id (map fst v)) v grouped gr.
Proof.
  intros grouped sl w v e HN He.
  destruct (read_tables_eq leb_id leb_g oid og grouped sl sl w v e) as [[C _]|[d [gr [_ [Hd [E [Hl [Hg ->]]]]]]]]; [contradiction|].
  assert (Ed : d = enum_of leb_id (map fst v)).
  { unfold generate_id_dict, guard in Hd. destruct (_ || _); [|discriminate]. injection Hd as <-. reflexivity. }
  subst d. exists gr. split; [|exact Hg]. rewrite Bool.eqb_reflx. cbn [guard].
  assert (K : forall f : erow ID Lb -> ID, (forall r, In r e -> In (f r) (map fst v)) ->
     any_isnan (map (fun r => dict_get leb_id (enum_of leb_id (map fst v)) (f r)) e) = Ok false).
  { intros f Hf. rewrite any_isnan_map.
    assert (A : forall r, In r e -> known leb_id (enum_of leb_id (map fst v)) (f r) = true).
    { intros r Hr. apply (known_in leb_id _ _ _ E). apply Hf, Hr. }
    destruct e as [|r e']; [reflexivity|]. replace (existsb _ _) with true.
    - replace (forallb _ _) with true; [reflexivity|]. symmetry. apply forallb_forall. exact A.
    - symmetry. apply existsb_exists. exists r. split; [left; reflexivity|]. apply A. left; reflexivity. }
  rewrite K by (intros r Hr; apply He, Hr). cbn [bind]. rewrite K by (intros r Hr; apply He, Hr). cbn [bind guard negb].
  replace (_ || _) with true; [reflexivity|]. symmetry. destruct w; [|reflexivity]. cbn [negb orb]. apply forallb_forall.
  intros r Hr. apply Rltb_true. apply He; [exact Hr | reflexivity].
Qed.

Lemma build_graph : forall grouped sl w v (e : list (erow ID Lb)), NoDup (map fst v) ->
  (forall r, In r e -> In (r_src r) (map fst v) /\ In (r_dst r) (map fst v) /\ (w = true -> 0 < r_weight r)) ->
  exists gr, let b := mkBase (length v) (enum_of leb_id (map fst v)) gr w (inner leb_id (enum_of leb_id (map fst v)) w e) in
    let A := coo_tocsr (negb w) (length v) (inner leb_id (enum_of leb_id (map fst v)) w e) in
    groups_ok leb_id leb_g (enum_of leb_id (map fst v)) v grouped gr /\
    graph_of leb_id leb_g leb_l grouped sl sl w v e b (SGraph A) /\ graph_of leb_id leb_g leb_l grouped sl sl w v e b (SDiGraph A).
Proof.
  intros grouped sl w v e HN He. destruct (build grouped sl w v e HN He) as [gr [Hb Hg]]. exists gr. cbv zeta. split; [exact Hg|].
  split; [apply of_graph|apply of_digraph]; unfold sparse_graph; rewrite Hb; reflexivity.
Qed.

Lemma build_multigraph : forall grouped sl w v (e : list (erow ID Lb)), NoDup (map fst v) ->
  (forall r, In r e -> In (r_src r) (map fst v) /\ In (r_dst r) (map fst v) /\ (w = true -> 0 < r_weight r)) ->
  exists gr, let b := mkBase (length v) (enum_of leb_id (map fst v)) gr w (inner leb_id (enum_of leb_id (map fst v)) w e) in
    let lab := enum_of leb_l (map r_label e) in
    let L := map (fun lbl => coo_tocsr (negb w) (length v)
        (map snd (filter (fun p => Nat.eqb (fst p) lbl)
           (map (fun r => (mapped (dict_get leb_l lab (r_label r)),
                           (mapped (dict_get leb_id (b_ids b) (r_src r)), mapped (dict_get leb_id (b_ids b) (r_dst r)),
                            if w then r_weight r else 1))) e)))) (seq 0 (length lab)) in
    groups_ok leb_id leb_g (enum_of leb_id (map fst v)) v grouped gr /\
    sparse_multigraph leb_id leb_g leb_l grouped sl sl w v e = Ok (b, lab, L).
Proof.
  intros grouped sl w v e HN He. destruct (build grouped sl w v e HN He) as [gr [Hb Hg]]. exists gr. cbv zeta. split; [exact Hg|].
  assert (X : exists L, sparse_multigraph leb_id leb_g leb_l grouped sl sl w v e
     = Ok (mkBase (length v) (enum_of leb_id (map fst v)) gr w (inner leb_id (enum_of leb_id (map fst v)) w e), enum_of leb_l (map r_label e), L)).
  { unfold sparse_multigraph, read_labels, generate_id_dict. rewrite Hb. cbn [bind guard negb orb]. eexists. reflexivity. }
  destruct X as [L X]. rewrite X. destruct (multi_pieces leb_id leb_g leb_l oid og ol _ _ _ _ _ _ _ _ _ X) as [_ [_ ->]]. reflexivity.
Qed.
End Build.

(** ** Sums over labels *)

Lemma layer_view : forall w N A d x i j, wf N A -> sp_bool A = negb w -> (i < N)%nat -> (j < N)%nat ->
  W (digraph_adjacency N A d x) i j = view w true (fun i j => W A i j) d x i j /\
  W (graph_adjacency N A d x) i j = view w false (fun i j => W A i j) d x i j.
Proof.
  intros w N A d x i j HA Hb Hi Hj.
  assert (E : forall i j, (i < N)%nat -> (j < N)%nat -> W A i j = if w then W A i j else present (W A i j)).
  { intros k m Hk Hm. destruct w; [reflexivity|]. apply (wf_bool N A HA); assumption. }
  destruct (view_matrix w N A (fun i j => W A i j) HA Hb (fun k m Hk Hm => wf_nonneg N A HA k m Hk) E i j Hi Hj) as [V1 [V2 V3]].
  unfold digraph_adjacency, graph_adjacency, view. destruct d, x; cbn [andb negb].
  - split; [|exact V1]. destruct w; [reflexivity | exact (E i j Hi Hj)].
  - split; [exact V3 | exact V2].
  - split; exact V1.
  - split; exact V2.
Qed.

Lemma multidigraph_tensor_map : forall N L d x, multidigraph_tensor N L d x = map (fun A => digraph_adjacency N A d x) L.
Proof. reflexivity. Qed.
Lemma multigraph_tensor_map : forall N L d x, multigraph_tensor N L d x = map (fun A => graph_adjacency N A d x) L.
Proof. reflexivity. Qed.

Lemma both_ways_sum : forall (L : list spm) i j,
  suml (fun A => both_ways (fun i j => W A i j) i j) L = both_ways (fun i j => suml (fun A => W A i j) L) i j.
Proof. intros L i j. unfold both_ways. destruct (Nat.eqb i j); [reflexivity | apply suml_plus]. Qed.

Lemma present_suml_le : forall (A : Type) (f : A -> R) l, present (suml f l) <= suml (fun x => present (f x)) l.
Proof.
  intros A f l. induction l as [|a l IH]; cbn [suml]; [rewrite present_0; lra|].
  pose proof (present_range (f a)). pose proof (present_range (suml f l)).
  unfold present at 1. destruct (Req_EM_T (f a + suml f l) 0) as [E|E]; [lra|].
  unfold present in *. destruct (Req_EM_T (f a) 0); destruct (Req_EM_T (suml f l) 0); lra.
Qed.

Lemma present_nonneg_zero : forall x, 0 <= x -> present x = 0 -> x = 0.
Proof. intros x H E. unfold present in E. destruct (Req_EM_T x 0); lra. Qed.

Lemma present_eq : forall x y, 0 <= x -> 0 <= y -> (x = 0 <-> y = 0) -> present x = present y.
Proof. intros x y Hx Hy H. unfold present. destruct (Req_EM_T x 0), (Req_EM_T y 0); tauto. Qed.

Lemma suml_zero_iff : forall (A : Type) (f : A -> R) l, (forall x, In x l -> 0 <= f x) ->
  (suml f l = 0 <-> forall x, In x l -> f x = 0).
Proof.
  intros A f l H. split; [|intros K; apply suml_zero; exact K].
  induction l as [|a l IH]; intros E x Hx; [destruct Hx|]. cbn [suml] in E.
  assert (0 <= f a) by (apply H; left; reflexivity).
  assert (0 <= suml f l) by (apply suml_nonneg; intros y Hy; apply H; right; exact Hy).
  destruct Hx as [<-|Hx]; [lra|]. apply IH; [intros y Hy; apply H; right; exact Hy | lra | exact Hx].
Qed.

Lemma both_ways_nonneg : forall N (w : nat -> nat -> R) i j, (forall i j, (i < N)%nat -> (j < N)%nat -> 0 <= w i j) ->
  (i < N)%nat -> (j < N)%nat -> 0 <= both_ways w i j.
Proof. intros N w i j H Hi Hj. unfold both_ways. destruct (Nat.eqb i j); [apply H; assumption|]. pose proof (H i j Hi Hj). pose proof (H j i Hj Hi). lra. Qed.

(** The union over the labels of a view is the view of the sum. *)
Lemma view_union : forall w c N L d x i j, Forall (fun A => wf N A /\ sp_bool A = negb w) L -> (i < N)%nat -> (j < N)%nat ->
  let S := suml (fun A => view w c (fun i j => W A i j) d x i j) L in
  let V := view w c (fun i j => suml (fun A => W A i j) L) d x i j in
  (w && x = true -> S = V) /\ present S = present V.
Proof.
  intros w c N L d x i j HL Hi Hj. rewrite Forall_forall in HL.
  assert (NN : forall A i j, In A L -> (i < N)%nat -> (j < N)%nat -> 0 <= W A i j).
  { intros A k m HA Hk Hm. apply (wf_nonneg N); [apply HL, HA | exact Hk]. }
  assert (BN : forall A, In A L -> 0 <= both_ways (fun i j => W A i j) i j).
  { intros A HA. apply (both_ways_nonneg N); [|exact Hi|exact Hj]. intros k m Hk Hm. apply NN; assumption. }
  assert (P1 : forall g : spm -> R, (forall A, In A L -> 0 <= g A) -> present (suml (fun A => present (g A)) L) = present (suml g L)).
  { intros g Hg. apply present_eq; [apply suml_nonneg; intros; apply present_range | apply suml_nonneg; exact Hg|].
    rewrite !suml_zero_iff; [|exact Hg | intros; apply present_range]. split; intros K A HA.
    - apply present_nonneg_zero; [apply Hg, HA | apply K, HA].
    - rewrite K by exact HA. apply present_0. }
  cbv zeta. unfold view, neighbours.
  destruct (d && c).
  - destruct (x && w) eqn:Exw.
    + split; reflexivity.
    + split; [intros K; rewrite andb_comm in K; congruence|]. rewrite present_idem. apply P1. intros A HA. apply NN; assumption.
  - destruct x; [destruct w|].
    + split; [intros _; apply both_ways_sum|]. rewrite both_ways_sum. reflexivity.
    + split; [discriminate|]. destruct (Nat.eqb i j).
      * rewrite suml_zero by reflexivity. reflexivity.
      * rewrite present_idem, <- both_ways_sum. apply P1, BN.
    + split; [rewrite andb_false_r; discriminate|]. rewrite present_idem, <- both_ways_sum. apply P1, BN.
Qed.

(** ** Identities on views *)

Lemma both_ways_total : forall N (w : nat -> nat -> R),
  sumn N (fun i => sumn N (fun j => both_ways w i j)) + sumn N (fun i => w i i)
  = 2 * sumn N (fun i => sumn N (fun j => w i j)).
Proof.
  intros N w.
  assert (D : sumn N (fun i => w i i) = sumn N (fun i => sumn N (fun j => if Nat.eqb i j then w i j else 0))).
  { apply sumn_ext. intros i Hi. rewrite sumn_delta'. apply Nat.ltb_lt in Hi. rewrite Hi. reflexivity. }
  assert (T : sumn N (fun i => sumn N (fun j => w j i)) = sumn N (fun i => sumn N (fun j => w i j))) by apply sumn_swap.
  transitivity (sumn N (fun i => sumn N (fun j => w i j)) + sumn N (fun i => sumn N (fun j => w j i))); [|rewrite T; ring].
  rewrite D, <- !sumn_plus. apply sumn_ext. intros i Hi. rewrite <- !sumn_plus. apply sumn_ext. intros j Hj.
  unfold both_ways. destruct (Nat.eqb_spec i j) as [->|_]; lra.
Qed.

Lemma both_ways_sym : forall w i j, both_ways w i j = both_ways w j i.
Proof. intros w i j. unfold both_ways. rewrite (Nat.eqb_sym j i). destruct (Nat.eqb_spec i j) as [->|_]; lra. Qed.

Lemma neighbours_sym : forall w i j, neighbours w i j = neighbours w j i.
Proof. intros w i j. unfold neighbours. rewrite both_ways_sym. reflexivity. Qed.

Lemma neighbours_bounds : forall w i j, 0 <= w i j -> 0 <= w j i ->
  present (w i j) <= neighbours w i j /\ present (w j i) <= neighbours w i j /\
  neighbours w i j <= present (w i j) + present (w j i).
Proof.
  intros w i j H1 H2. unfold neighbours, both_ways. destruct (Nat.eqb_spec i j) as [->|_].
  - pose proof (present_range (w j j)). lra.
  - unfold present. destruct (Req_EM_T (w i j) 0), (Req_EM_T (w j i) 0), (Req_EM_T (w i j + w j i) 0); lra.
Qed.
