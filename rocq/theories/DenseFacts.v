(** Lemmas about DenseGraphs.v. *)
From Verif Require Import Base Num Spec Ids Ensemble Lib IdFacts Graphs GraphFacts DenseGraphs.

Lemma acc_sum : forall N f, for_range N (fun j acc => acc + f j) 0 = sumn N f.
Proof. intros N f. rewrite (for_range_sum _ (fun x => x) _ _ f); [lra|]. reflexivity. Qed.

Lemma d_sum1_eq : forall N A i, d_sum1 N A i = sumn N (fun j => A i j).
Proof. intros. unfold d_sum1. apply acc_sum. Qed.
Lemma d_sum0_eq : forall N A j, d_sum0 N A j = sumn N (fun i => A i j).
Proof. intros. unfold d_sum0. apply (acc_sum N (fun i => A i j)). Qed.
Lemma d_sum_eq : forall N A, d_sum N A = sumn N (fun i => sumn N (fun j => A i j)).
Proof. intros. unfold d_sum. rewrite acc_sum. apply sumn_ext. intros i _. apply d_sum1_eq. Qed.
Lemma d_halved_eq : forall N A, d_halved N A = (sumn N (fun i => sumn N (fun j => A i j)) + sumn N (fun i => A i i)) / 2.
Proof. intros. unfold d_halved. rewrite d_sum_eq, (acc_sum N (fun i => A i i)). reflexivity. Qed.
Lemma d_flatten_eq : forall n adj i j, d_flatten n adj i j = sumn n (fun l => adj l i j).
Proof. intros. unfold d_flatten. apply (acc_sum n (fun l => adj l i j)). Qed.

(** * Assignments *)

Notation set_all l a := (for_each l (fun (t : nat * nat * R) adj => mset adj (fst (fst t)) (snd (fst t)) (snd t)) a).

Lemma set_all_miss : forall l a i j, existsb (hits i j) l = false -> set_all l a i j = a i j.
Proof.
  unfold for_each. induction l as [|t l IH]; intros a i j H; [reflexivity|]. cbn [existsb] in H. apply orb_false_iff in H as [Ht Hl].
  cbn [fold_left]. rewrite IH by exact Hl. unfold mset. unfold hits in Ht. rewrite Ht. reflexivity.
Qed.

(** The value is that of the last row for the pair. *)
Lemma assign_last : forall l1 t l2 i j, hits i j t = true -> existsb (hits i j) l2 = false ->
  assign_all (l1 ++ t :: l2) i j = snd t.
Proof.
  intros l1 t l2 i j Ht H2. unfold assign_all, for_each. rewrite fold_left_app. cbn [fold_left].
  pose proof (set_all_miss l2 (mset (fold_left (fun s x => mset s (fst (fst x)) (snd (fst x)) (snd x)) l1 (fun _ _ => 0)) (fst (fst t)) (snd (fst t)) (snd t)) i j H2) as M.
  unfold for_each in M. rewrite M. unfold mset, hits in *. rewrite Ht. reflexivity.
Qed.

Lemma assign_none : forall l i j, existsb (hits i j) l = false -> assign_all l i j = 0.
Proof. intros l i j H. unfold assign_all. rewrite set_all_miss by exact H. reflexivity. Qed.

Lemma split_last : forall (A : Type) (p : A -> bool) l, existsb p l = true ->
  exists l1 t l2, l = l1 ++ t :: l2 /\ p t = true /\ existsb p l2 = false.
Proof.
  intros A p l. induction l as [|a l IH]; intros H; [discriminate|]. cbn [existsb] in H.
  destruct (existsb p l) eqn:E.
  - destruct (IH eq_refl) as [l1 [t [l2 [-> [H1 H2]]]]]. exists (a :: l1), t, l2. auto.
  - rewrite orb_false_r in H. exists [], a, l. auto.
Qed.

Lemma assign_const : forall l c i j, (forall t, In t l -> hits i j t = true -> snd t = c) ->
  assign_all l i j = if existsb (hits i j) l then c else 0.
Proof.
  intros l c i j H. destruct (existsb (hits i j) l) eqn:E; [|apply assign_none, E].
  destruct (split_last _ _ _ E) as [l1 [t [l2 [-> [Ht H2]]]]]. rewrite assign_last by assumption.
  apply H; [apply in_or_app; right; left; reflexivity | exact Ht].
Qed.

Lemma assign_sum : forall l i j, NoDup (map fst l) ->
  assign_all l i j = suml (fun t => if hits i j t then snd t else 0) l.
Proof.
  intros l i j H. destruct (existsb (hits i j) l) eqn:E.
  - destruct (split_last _ _ _ E) as [l1 [t [l2 [-> [Ht H2]]]]]. rewrite assign_last by assumption.
    rewrite suml_app. cbn [suml]. rewrite Ht, (coo_zero l2 i j H2).
    rewrite suml_zero; [lra|]. intros u Hu. destruct (hits i j u) eqn:Hh; [|reflexivity].
    exfalso. rewrite map_app in H. cbn [map] in H. apply NoDup_remove_2 in H. apply H. apply in_or_app. left.
    assert (fst u = fst t) as <-; [|apply in_map, Hu].
    unfold hits in *. apply andb_true_iff in Ht as [T1 T2], Hh as [U1 U2]. apply Nat.eqb_eq in T1, T2, U1, U2.
    destruct u as [[? ?] ?], t as [[? ?] ?]; cbn in *. congruence.
  - rewrite assign_none by exact E. symmetry. apply coo_zero, E.
Qed.

Lemma assign_in : forall l i j, assign_all l i j = 0 \/ exists t, In t l /\ hits i j t = true /\ assign_all l i j = snd t.
Proof.
  intros l i j. destruct (existsb (hits i j) l) eqn:E; [|left; apply assign_none, E].
  destruct (split_last _ _ _ E) as [l1 [t [l2 [-> [Ht H2]]]]]. right. exists t.
  split; [apply in_or_app; right; left; reflexivity|]. split; [exact Ht|]. apply assign_last; assumption.
Qed.

Lemma assign_layers_eq : forall l k, assign_layers l k = assign_all (map snd (filter (fun p => Nat.eqb (fst p) k) l)).
Proof.
  intros l k. unfold assign_layers, assign_all, for_each.
  assert (G : forall l (a : nat -> mat) (b : mat), a k = b ->
    fold_left (fun s x => fun k0 => if Nat.eqb (fst x) k0 then mset (s k0) (fst (fst (snd x))) (snd (fst (snd x))) (snd (snd x)) else s k0) l a k
    = fold_left (fun s x => mset s (fst (fst x)) (snd (fst x)) (snd x)) (map snd (filter (fun p : nat * (nat * nat * R) => Nat.eqb (fst p) k) l)) b).
  { induction l0 as [|p l0 IH]; intros a b E; [exact E|]. cbn [fold_left filter]. destruct (Nat.eqb (fst p) k) eqn:Ek.
    - cbn [map fold_left]. apply IH. rewrite Ek, E. reflexivity.
    - apply IH. rewrite Ek. exact E. }
  apply G. reflexivity.
Qed.

(** * Views *)

Lemma nonzero_present : forall A i j, d_nonzero A i j = present (A i j).
Proof. intros. unfold d_nonzero, present, Reqb. destruct (Req_EM_T (A i j) 0); reflexivity. Qed.

Lemma d_add_bool : forall a b, d_add true a b = present (a + b).
Proof. intros. unfold d_add, present, Reqb. destruct (Req_EM_T (a + b) 0); reflexivity. Qed.

Definition nonneg (A : mat) : Prop := forall i j, 0 <= A i j.

Lemma d_either_eq : forall A i j, nonneg A -> d_either A i j = neighbours A i j.
Proof.
  intros A i j H. unfold d_either. rewrite d_add_bool, !nonzero_present, present_sum by apply H.
  unfold neighbours, both_ways. destruct (Nat.eqb_spec i j) as [->|_]; [apply present_double | reflexivity].
Qed.

Lemma d_symmetrize_num : forall A i j, d_symmetrize false A i j = both_ways A i j.
Proof. intros. unfold d_symmetrize, set_diag, d_add, both_ways. reflexivity. Qed.

Lemma d_symmetrize_bool : forall A i j, nonneg A -> (forall i j, A i j = present (A i j)) -> d_symmetrize true A i j = neighbours A i j.
Proof.
  intros A i j H B. unfold d_symmetrize, set_diag, neighbours, both_ways. destruct (Nat.eqb_spec i j) as [->|_]; [apply B|].
  apply d_add_bool.
Qed.

Lemma d_symmetrize_flat_eq : forall A i j, d_symmetrize_flat A i j = A i j + A j i.
Proof. intros. unfold d_symmetrize_flat, set_diag. destruct (Nat.eqb_spec i j) as [->|_]; reflexivity. Qed.

(** Directed link weights. *)
Definition dlink (s : dshape) (i j : nat) : R :=
  match s with
  | DGraph A | DDiGraph A => A i j
  | DMultiGraph n A | DMultiDiGraph n A => sumn n (fun l => A l i j)
  end.

Definition dmat_ok (w : bool) (A : mat) : Prop := nonneg A /\ (w = false -> forall i j, A i j = present (A i j)).
Definition dvalid (w : bool) (s : dshape) : Prop :=
  match s with
  | DGraph A | DDiGraph A => dmat_ok w A
  | DMultiGraph n A | DMultiDiGraph n A => forall l, dmat_ok w (A l)
  end.

Lemma dlink_nonneg : forall w s, dvalid w s -> nonneg (dlink s).
Proof.
  intros w s H i j. destruct s; cbn [dvalid dlink] in *; try apply H; apply sumn_nonneg; intros l _; apply H.
Qed.

Definition d_multi (s : dshape) : bool := match s with DMultiGraph _ _ | DMultiDiGraph _ _ => true | _ => false end.

Lemma present_ext : forall A B : mat, (forall i j, A i j = B i j) -> forall i j, neighbours A i j = neighbours B i j.
Proof. intros A B H i j. unfold neighbours, both_ways. rewrite !H. reflexivity. Qed.

Lemma d_view : forall w s d x i j, dvalid w s ->
  d_adjacency w s d x i j =
  if d && d_directed s then (if x then dlink s i j else present (dlink s i j))
  else if x then (if d_multi s then dlink s i j + dlink s j i else if w then both_ways (dlink s) i j else neighbours (dlink s) i j)
  else neighbours (dlink s) i j.
Proof.
  intros w s d x i j H. pose proof (dlink_nonneg w s H) as NN.
  assert (F : forall n A i j, d_flatten n A i j = dlink (DMultiDiGraph n A) i j) by (intros; apply d_flatten_eq).
  assert (NF : forall n A, (forall l, dmat_ok w (A l)) -> nonneg (d_flatten n A)).
  { intros n A HA a b. rewrite d_flatten_eq. apply sumn_nonneg. intros l _. apply HA. }
  destruct s as [A|A|n A|n A]; cbn [d_adjacency d_directed d_multi dvalid] in *.
  - rewrite andb_false_r. destruct x; [destruct w; cbn [negb]; [apply d_symmetrize_num | apply d_symmetrize_bool; [exact NN | apply H; reflexivity]] | apply d_either_eq, NN].
  - destruct d, x; cbn [andb negb]; [reflexivity | apply nonzero_present | | apply d_either_eq, NN].
    destruct w; cbn [negb]; [apply d_symmetrize_num | apply d_symmetrize_bool; [exact NN | apply H; reflexivity]].
  - rewrite andb_false_r. destruct x; [rewrite d_symmetrize_flat_eq, !F; reflexivity|].
    rewrite d_either_eq by (apply NF, H). apply present_ext. intros a b. apply F.
  - destruct d, x; cbn [andb negb]; [apply F | rewrite nonzero_present, F; reflexivity | rewrite d_symmetrize_flat_eq, !F; reflexivity|].
    rewrite d_either_eq by (apply NF, H). apply present_ext. intros a b. apply F.
Qed.

Lemma d_tensor_view : forall w c A d x l i j, dmat_ok w (A l) ->
  d_tensor w c A d x l i j =
  if d && c then (if x then A l i j else present (A l i j))
  else if x then (if w then both_ways (A l) i j else neighbours (A l) i j) else neighbours (A l) i j.
Proof.
  intros w c A d x l i j [N B]. unfold d_tensor. destruct (d && c), x; [reflexivity | apply nonzero_present | | apply d_either_eq, N].
  destruct w; cbn [negb]; [apply d_symmetrize_num | apply d_symmetrize_bool; [exact N | apply B; reflexivity]].
Qed.

(** * Graphs built from tables *)

Inductive dense_of {ID G Lb : Type} leb_id leb_g leb_l (grouped sl dl weighted : bool) (v : list (ID * G))
    (e : list (erow ID Lb)) (b : base ID G) : dshape -> Prop :=
| of_dense : forall A, dense_graph leb_id leb_g grouped sl dl weighted v e = Ok (b, A) ->
    dense_of leb_id leb_g leb_l grouped sl dl weighted v e b (DGraph A)
| of_dense_di : forall A, dense_graph leb_id leb_g grouped sl dl weighted v e = Ok (b, A) ->
    dense_of leb_id leb_g leb_l grouped sl dl weighted v e b (DDiGraph A)
| of_dense_multi : forall lab L, dense_multigraph leb_id leb_g leb_l grouped sl dl weighted v e = Ok (b, lab, L) ->
    dense_of leb_id leb_g leb_l grouped sl dl weighted v e b (DMultiGraph (length lab) L)
| of_dense_multidi : forall lab L, dense_multigraph leb_id leb_g leb_l grouped sl dl weighted v e = Ok (b, lab, L) ->
    dense_of leb_id leb_g leb_l grouped sl dl weighted v e b (DMultiDiGraph (length lab) L).

Inductive library_dense (weighted : bool) (N : nat) (s : dshape) (gr : grouping) : Prop :=
| dbuilt : forall (ID G Lb : Type) leb_id leb_g leb_l grouped sl dl (v : list (ID * G)) (e : list (erow ID Lb)) b,
    total_order leb_id -> total_order leb_g -> total_order leb_l ->
    dense_of leb_id leb_g leb_l grouped sl dl weighted v e b s -> N = b_n b -> gr = grouping_of b ->
    library_dense weighted N s gr.

Section Tables.
Context {ID G Lb : Type} (leb_id : ID -> ID -> bool) (leb_g : G -> G -> bool) (leb_l : Lb -> Lb -> bool).
Context (oid : total_order leb_id) (og : total_order leb_g) (ol : total_order leb_l).
Variables (grouped sl dl w : bool) (v : list (ID * G)) (e : list (erow ID Lb)).

Lemma dense_pieces : forall b A, dense_graph leb_id leb_g grouped sl dl w v e = Ok (b, A) ->
  read_tables leb_id leb_g grouped sl dl w v e = Ok b /\ A = assign_all (b_edges b).
Proof.
  intros b A H. unfold dense_graph in H. destruct (read_tables leb_id leb_g grouped sl dl w v e) as [b'|]; [|discriminate].
  cbn [bind] in H. injection H as <- <-. auto.
Qed.

Lemma dense_multi_pieces : forall b lab L, dense_multigraph leb_id leb_g leb_l grouped sl dl w v e = Ok (b, lab, L) ->
  read_tables leb_id leb_g grouped sl dl w v e = Ok b /\ enumerates leb_l lab (map r_label e) /\
  forall l, L l = assign_all (map snd (filter (fun p => Nat.eqb (fst p) l)
           (map (fun r => (mapped (dict_get leb_l lab (r_label r)),
                           (mapped (dict_get leb_id (b_ids b) (r_src r)), mapped (dict_get leb_id (b_ids b) (r_dst r)),
                            if w then r_weight r else 1))) e))).
Proof.
  intros b lab L H. unfold dense_multigraph in H.
  destruct (read_tables leb_id leb_g grouped sl dl w v e) as [b'|x] eqn:Eb; [|discriminate]. cbn [bind] in H.
  unfold read_labels in H. destruct (generate_id_dict leb_l (map r_label e) false) as [d|x] eqn:Ed; [|discriminate].
  cbn [bind] in H. injection H as <- <- <-. destruct (generate_enumerates leb_l ol _ _ _ Ed) as [En _].
  split; [reflexivity|]. split; [exact En|]. intros l. rewrite assign_layers_eq.
  destruct (read_tables_ok leb_id leb_g oid og _ _ _ _ _ _ _ Eb) as [_ [_ [_ [_ [_ [_ [_ [_ He]]]]]]]].
  rewrite He. unfold inner. f_equal. f_equal. f_equal. rewrite combine_map. apply map_ext_in.
  intros r Hr. f_equal. apply astype_id. destruct En as [E1 [E2 _]]. destruct (proj1 (E1 (r_label r)) (in_map r_label _ _ Hr)) as [k Hk].
  rewrite Hk. cbn. specialize (E2 _ _ Hk). lia.
Qed.

Lemma assign_ok : forall l, (forall t, In t l -> 0 < snd t /\ (w = false -> snd t = 1)) -> dmat_ok w (assign_all l).
Proof.
  intros l H. split.
  - intros i j. destruct (assign_in l i j) as [->|[t [Ht [_ ->]]]]; [lra|]. destruct (H t Ht). lra.
  - intros Hw i j. destruct (assign_in l i j) as [->|[t [Ht [_ ->]]]]; [symmetry; apply present_0|].
    destruct (H t Ht) as [_ E]. rewrite (E Hw). symmetry. apply present_pos. lra.
Qed.

Lemma row_value : forall b, read_tables leb_id leb_g grouped sl dl w v e = Ok b -> forall r, In r e ->
  0 < (if w then r_weight r else 1) /\ (w = false -> (if w then r_weight r else 1) = 1).
Proof.
  intros b Hb r Hr. destruct (read_tables_ok leb_id leb_g oid og _ _ _ _ _ _ _ Hb) as [_ [_ [_ [_ [_ [_ [_ [P _]]]]]]]].
  destruct w; [|split; [lra | reflexivity]]. split; [apply P; [exact Hr | reflexivity] | discriminate].
Qed.

Lemma dense_mat_ok : forall b A, dense_graph leb_id leb_g grouped sl dl w v e = Ok (b, A) -> dmat_ok w A.
Proof.
  intros b A H. apply dense_pieces in H as [Hb ->].
  destruct (read_tables_ok leb_id leb_g oid og _ _ _ _ _ _ _ Hb) as [_ [_ [_ [_ [_ [_ [_ [_ He]]]]]]]].
  rewrite He. apply assign_ok. intros t Ht. unfold inner in Ht. apply in_map_iff in Ht as [r [<- Hr]]. cbn [snd]. eapply row_value; eassumption.
Qed.

Lemma sparse_valid : forall b A, sparse_graph leb_id leb_g grouped sl dl w v e = Ok (b, A) ->
  valid w (b_n b) (SGraph A) /\ valid w (b_n b) (SDiGraph A).
Proof.
  intros b A H. apply simple_pieces in H as [Hb ->]. apply (edges_in_range leb_id leb_g oid og), in_range_pos in Hb.
  assert (valid w (b_n b) (SGraph (coo_tocsr (negb w) (b_n b) (b_edges b)))).
  { constructor; [|constructor]. split; [apply coo_wf, Hb | reflexivity]. }
  split; assumption.
Qed.

Lemma dense_valid : forall b s, dense_of leb_id leb_g leb_l grouped sl dl w v e b s -> dvalid w s.
Proof.
  assert (S2 : forall b lab L, dense_multigraph leb_id leb_g leb_l grouped sl dl w v e = Ok (b, lab, L) -> forall l, dmat_ok w (L l)).
  { intros b lab L H l. apply dense_multi_pieces in H as [Hb [_ E]]. rewrite E. apply assign_ok. intros t Ht.
    apply in_map_iff in Ht as [p [<- Hp]]. apply filter_In in Hp as [Hp _]. apply in_map_iff in Hp as [r [<- Hr]]. cbn [snd]. eapply row_value; eassumption. }
  intros b s H. destruct H as [A H|A H|lab L H|lab L H]; cbn [dvalid]; eauto using dense_mat_ok.
Qed.

(** The stored value between two vertices is that of the last row between them. *)
Lemma dense_last : forall b A, dense_graph leb_id leb_g grouped sl dl w v e = Ok (b, A) ->
  forall x y i j, dict_get leb_id (b_ids b) x = Some i -> dict_get leb_id (b_ids b) y = Some j ->
  (existsb (row_matches leb_id x y) e = false -> A i j = 0) /\
  (forall e1 r e2, e = e1 ++ r :: e2 -> row_matches leb_id x y r = true -> existsb (row_matches leb_id x y) e2 = false ->
     A i j = if w then r_weight r else 1).
Proof.
  intros b A H x y i j Hx Hy. apply dense_pieces in H as [Hb ->].
  destruct (read_tables_ok leb_id leb_g oid og _ _ _ _ _ _ _ Hb) as [_ [E [_ [_ [_ [_ [_ [Hr He]]]]]]]].
  assert (X : forall e', incl e' e -> existsb (hits i j) (inner leb_id (b_ids b) w e') = existsb (row_matches leb_id x y) e').
  { intros e' I. unfold inner. rewrite existsb_map. apply existsb_ext_in. intros r Hin. destruct (Hr r (I r Hin)) as [S [D _]].
    eapply hits_row; eassumption. }
  rewrite He. split.
  - intros N. apply assign_none. rewrite X; [exact N | apply incl_refl].
  - intros e1 r e2 Ee Hm H2. subst e. unfold inner. rewrite map_app. cbn [map].
    rewrite assign_last; [reflexivity| |].
    + destruct (Hr r) as [S [D _]]; [apply in_or_app; right; left; reflexivity|]. erewrite hits_row; eassumption.
    + change (map _ e2) with (inner leb_id (b_ids b) w e2). rewrite X; [exact H2|]. intros q Hq. apply in_or_app. right; right; exact Hq.
Qed.

(** The same for each label of a multigraph. *)
Lemma dense_layer_last : forall b lab L, dense_multigraph leb_id leb_g leb_l grouped sl dl w v e = Ok (b, lab, L) ->
  forall x y z i j l, dict_get leb_id (b_ids b) x = Some i -> dict_get leb_id (b_ids b) y = Some j -> dict_get leb_l lab z = Some l ->
  (existsb (row_labelled leb_id leb_l x y z) e = false -> L l i j = 0) /\
  (forall e1 r e2, e = e1 ++ r :: e2 -> row_labelled leb_id leb_l x y z r = true -> existsb (row_labelled leb_id leb_l x y z) e2 = false ->
     L l i j = if w then r_weight r else 1).
Proof.
  intros b lab L H x y z i j l Hx Hy Hz. apply dense_multi_pieces in H as [Hb [En E]].
  destruct (read_tables_ok leb_id leb_g oid og _ _ _ _ _ _ _ Hb) as [_ [Ei [_ [_ [_ [_ [_ [Hr _]]]]]]]].
  set (f := fun r : erow ID Lb => (mapped (dict_get leb_l lab (r_label r)),
     (mapped (dict_get leb_id (b_ids b) (r_src r)), mapped (dict_get leb_id (b_ids b) (r_dst r)), if w then r_weight r else 1))) in *.
  assert (X1 : forall r, In r e -> Nat.eqb (fst (f r)) l = eq_key leb_l z (r_label r)).
  { intros r Hin. cbn [fst f]. eapply label_key; [exact ol | exact En | apply in_map; exact Hin | exact Hz]. }
  assert (X2 : forall r, In r e -> hits i j (snd (f r)) = row_matches leb_id x y r).
  { intros r Hin. destruct (Hr r Hin) as [S [D _]]. cbn [snd f]. eapply hits_row; eassumption. }
  assert (X : forall e', incl e' e -> existsb (hits i j) (map snd (filter (fun p => Nat.eqb (fst p) l) (map f e'))) = existsb (row_labelled leb_id leb_l x y z) e').
  { intros e' I. rewrite existsb_map, existsb_filter, existsb_map. apply existsb_ext_in. intros r Hin.
    rewrite X1, X2 by (apply I; exact Hin). unfold row_labelled. apply andb_comm. }
  rewrite E. split.
  - intros Hn. apply assign_none. rewrite X; [exact Hn | apply incl_refl].
  - intros e1 r e2 Ee Hm H2. assert (Hin : In r e) by (rewrite Ee; apply in_or_app; right; left; reflexivity).
    unfold row_labelled in Hm. apply andb_true_iff in Hm as [M1 M2].
    rewrite Ee, map_app, filter_app. cbn [map filter]. rewrite X1, M2 by exact Hin. rewrite map_app. cbn [map].
    rewrite assign_last; [reflexivity| rewrite X2 by exact Hin; exact M1|].
    rewrite X; [exact H2|]. intros q Hq. rewrite Ee. apply in_or_app. right; right; exact Hq.
Qed.

(** Without repeated pairs the dense and the sparse matrix agree. *)
Lemma dense_sparse : forall b A D, sparse_graph leb_id leb_g grouped sl dl w v e = Ok (b, A) ->
  dense_graph leb_id leb_g grouped sl dl w v e = Ok (b, D) ->
  (w = true -> NoDup (map (fun r => (r_src r, r_dst r)) e)) ->
  forall i j, (j < b_n b)%nat -> D i j = W A i j.
Proof.
  intros b A D HA HD Hd i j Hj. apply simple_pieces in HA as [Hb ->]. apply dense_pieces in HD as [_ ->].
  destruct (read_tables_ok leb_id leb_g oid og _ _ _ _ _ _ _ Hb) as [_ [E [_ [_ [_ [_ [_ [Hr He]]]]]]]].
  destruct w; cbn [negb].
  - rewrite coo_entry by exact Hj. apply assign_sum. rewrite He. unfold inner. rewrite map_map. cbn [fst].
    specialize (Hd eq_refl). clear - Hd Hr E oid. destruct E as [E1 [_ [_ [E4 _]]]].
    induction e as [|r e' IH]; [constructor|]. cbn [map]. cbn [map] in Hd. inversion Hd as [|a l Hn Hd']. subst. constructor.
    + intros Hin. apply in_map_iff in Hin as [q [Eq Hq]]. injection Eq as Q1 Q2. apply Hn. apply in_map_iff. exists q. split; [|exact Hq].
      destruct (Hr r (or_introl eq_refl)) as [R1 [R2 _]]. destruct (Hr q (or_intror Hq)) as [S1 [S2 _]].
      destruct (proj1 (E1 _) R1) as [a Ha]. destruct (proj1 (E1 _) R2) as [c Hc]. destruct (proj1 (E1 _) S1) as [a' Ha']. destruct (proj1 (E1 _) S2) as [c' Hc'].
      rewrite Ha, Ha' in Q1. rewrite Hc, Hc' in Q2. cbn in Q1, Q2. subst. f_equal; eapply E4; eassumption.
    + apply IH; [exact Hd'|]. intros q Hq. apply Hr. right; exact Hq.
  - rewrite coo_bool_entry by exact Hj. rewrite (assign_const _ 1); [destruct (existsb _ _); reflexivity|].
    intros t Ht _. rewrite He in Ht. unfold inner in Ht. apply in_map_iff in Ht as [r [<- _]]. reflexivity.
Qed.
End Tables.

Lemma library_dense_valid : forall w N s gr, library_dense w N s gr -> dvalid w s.
Proof.
  intros w N s gr H. destruct H as [ID G Lb li lg ll grouped sl dl v e b Oi Og Ol H -> ->].
  eapply dense_valid; [exact Oi | exact Og | exact Ol | exact H].
Qed.

Lemma dense_tables : forall ID G Lb li lg ll grouped sl dl w (v : list (ID * G)) (e : list (erow ID Lb)) b s,
  total_order li -> total_order lg -> total_order ll ->
  dense_of li lg ll grouped sl dl w v e b s -> read_tables li lg grouped sl dl w v e = Ok b.
Proof.
  intros ID G Lb li lg ll grouped sl dl w v e b s Oi Og Ol H. destruct H as [A H|A H|lab L H|lab L H].
  - apply dense_pieces in H as [H _]. exact H.
  - apply dense_pieces in H as [H _]. exact H.
  - apply dense_multi_pieces in H as [H _]; assumption.
  - apply dense_multi_pieces in H as [H _]; assumption.
Qed.

Lemma library_dense_groups : forall w N s M g, library_dense w N s (Some (M, g)) -> forall i, (i < N)%nat -> (g i < M)%nat.
Proof.
  intros w N s M g H i Hi. destruct H as [ID G Lb li lg ll grouped sl dl v e b Oi Og Ol H -> E].
  apply dense_tables in H; [|assumption|assumption|assumption].
  eapply grouping_lt; [exact Oi | exact Og | exact H | symmetry; exact E | exact Hi].
Qed.

(** * Groups *)

Lemma d_group_val : forall N A g i k, d_sum_by_group N A g i k = to_int64 (sumn N (fun j => if Nat.eqb (g j) k then A i j else 0)).
Proof.
  intros N A g i k. unfold d_sum_by_group. f_equal.
  rewrite (for_each_sum _ _ (fun x => x) _ _ (fun j => A i j)) by reflexivity.
  rewrite suml_filter, suml_seq. lra.
Qed.

Lemma to_int64_IZR : forall z, to_int64 (IZR z) = IZR z.
Proof.
  intros z. unfold to_int64.
  assert (I : forall z, Int_part (IZR z) = z).
  { intros y. destruct (base_Int_part (IZR y)) as [A B]. apply Z.le_antisymm; [apply le_IZR, A|].
    apply Z.lt_succ_r. apply lt_IZR. rewrite succ_IZR. lra. }
  destruct (Rltb (IZR z) 0); [rewrite <- (opp_IZR z), I, opp_IZR; lra | rewrite I; reflexivity].
Qed.

Definition integral (x : R) : Prop := exists z, x = IZR z.

Lemma sum_integral : forall n f, (forall i, (i < n)%nat -> integral (f i)) -> integral (sumn n f).
Proof.
  intros n f. induction n as [|n IH]; intros H; [exists 0%Z; reflexivity|].
  destruct IH as [a Ha]; [intros i Hi; apply H; lia|]. destruct (H n) as [b Hb]; [lia|].
  exists (a + b)%Z. cbn [sumn]. rewrite Ha, Hb, plus_IZR. reflexivity.
Qed.

Lemma present_integral : forall x, integral (present x).
Proof. intros x. unfold present. destruct (Req_EM_T x 0); [exists 0%Z | exists 1%Z]; reflexivity. Qed.

Lemma group_exact : forall N A g i k, (forall j, (j < N)%nat -> integral (A i j)) ->
  d_sum_by_group N A g i k = sumn N (fun j => if Nat.eqb (g j) k then A i j else 0).
Proof.
  intros N A g i k H. rewrite d_group_val.
  destruct (sum_integral N (fun j => if Nat.eqb (g j) k then A i j else 0)) as [z ->]; [|apply to_int64_IZR].
  intros j Hj. destruct (Nat.eqb (g j) k); [apply H, Hj | exists 0%Z; reflexivity].
Qed.

(** * Nearest neighbours *)

Lemma d_av_val : forall N A tr prop sl i, (i < N)%nat ->
  d_av_nn_prop N A tr prop sl i
  = sumn N (fun j => if sl || (tr && negb (Nat.eqb N 1)) || negb (Nat.eqb i j) then A i j * prop j else 0).
Proof.
  intros N A tr prop sl i Hi. unfold d_av_nn_prop. rewrite acc_sum. apply sumn_ext. intros j Hj.
  destruct sl; [reflexivity|]. destruct (tr && negb (Nat.eqb N 1)); [reflexivity|]. cbn [orb]. unfold set_diag.
  destruct (Nat.eqb i j); cbn [negb]; lra.
Qed.

Definition dnbr (s : dshape) (ndir : dir) (i j : nat) : R :=
  if d_directed s then
    match ndir with
    | Dout => present (dlink s i j)
    | Din => present (dlink s j i)
    | _ => neighbours (dlink s) i j
    end
  else neighbours (dlink s) i j.

(** Whether the vertex itself stays in the sum: as asked for, and always along incoming links. *)
Definition keeps_self (s : dshape) (ndir : dir) (N : nat) (sl : bool) : bool :=
  sl || (d_directed s && match ndir with Din => negb (Nat.eqb N 1) | _ => false end).

Lemma d_nn_core : forall N A tr prop sl (q : nat -> nat -> R) deg,
  (forall i j, (i < N)%nat -> (j < N)%nat -> A i j = q i j) -> (forall i j, q i j = present (q i j)) ->
  (forall i, (i < N)%nat -> deg i = sumn N (fun j => q i j)) ->
  exists f, divide_by_degree N (d_av_nn_prop N A tr prop sl) deg = Ok f /\
  forall i, (i < N)%nat -> f i = if Req_EM_T (sumn N (fun j => q i j)) 0 then 0
     else nb_total N (sl || (tr && negb (Nat.eqb N 1))) q prop i / sumn N (fun j => q i j).
Proof.
  intros N A tr prop sl q deg Hq Hp Hdeg. set (sl' := sl || (tr && negb (Nat.eqb N 1))).
  assert (Hav : forall i, (i < N)%nat -> d_av_nn_prop N A tr prop sl i = nb_total N sl' q prop i).
  { intros i Hi. rewrite d_av_val by exact Hi. unfold nb_total. apply sumn_ext. intros j Hj. rewrite Hq by assumption.
    fold sl'. unfold allowed. rewrite (orb_comm sl'). reflexivity. }
  assert (Hz : forall i, (i < N)%nat -> sumn N (fun j => q i j) = 0 -> nb_total N sl' q prop i = 0).
  { intros i Hi E. unfold nb_total. apply sumn_zero. intros j Hj.
    assert (Q : q i j = 0).
    { apply (sumn_zero_inv N (fun j => q i j)); [|exact E | exact Hj]. intros k Hk. rewrite Hp. apply present_range. }
    rewrite Q. destruct (allowed sl' i j); lra. }
  destruct (divide_total N (d_av_nn_prop N A tr prop sl) deg) as [f Hf].
  { intros i Hi E. rewrite Hav by exact Hi. apply Hz; [exact Hi|]. rewrite <- Hdeg by exact Hi. exact E. }
  exists f. split; [exact Hf|]. intros i Hi. rewrite (divide_ok _ _ _ _ Hf). rewrite Hdeg, Hav by exact Hi.
  unfold Reqb. destruct (Req_EM_T (sumn N (fun j => q i j)) 0) as [E|E]; [apply Hz; assumption | reflexivity].
Qed.

Lemma d_nn_val : forall w N s prop ndir sl, dvalid w s -> (d_directed s = true -> ndir <> Dother) ->
  exists f, d_average_nn_property N w s N prop ndir (Some sl) = Ok f /\
  forall i, (i < N)%nat -> f i = if Req_EM_T (sumn N (fun j => dnbr s ndir i j)) 0 then 0
     else nb_total N (keeps_self s ndir N sl) (dnbr s ndir) prop i / sumn N (fun j => dnbr s ndir i j).
Proof.
  intros w N s prop ndir sl Hv Hd. unfold d_average_nn_property, guard. rewrite Nat.eqb_refl.
  assert (U : exists f, divide_by_degree N (d_av_nn_prop N (d_adjacency w s false false) false prop sl) (d_degree N w s) = Ok f /\
     forall i, (i < N)%nat -> f i = if Req_EM_T (sumn N (fun j => neighbours (dlink s) i j)) 0 then 0
       else nb_total N (sl || false) (neighbours (dlink s)) prop i / sumn N (fun j => neighbours (dlink s) i j)).
  { apply d_nn_core.
    - intros i j _ _. rewrite (d_view w s false false i j Hv). reflexivity.
    - intros i j. unfold neighbours. symmetry. apply present_idem.
    - intros i Hi. unfold d_degree. rewrite d_sum0_eq. apply sumn_ext. intros j _. rewrite (d_view w s false false j i Hv). cbn [andb]. apply neighbours_sym. }
  unfold dnbr, keeps_self. destruct (d_directed s) eqn:Ed; [|exact U]. destruct ndir; cbn [andb].
  - apply (d_nn_core N _ false prop sl (fun i j => present (dlink s i j))).
    + intros i j _ _. rewrite (d_view w s true false i j Hv), Ed. reflexivity.
    + intros i j. symmetry. apply present_idem.
    + intros i Hi. rewrite d_sum1_eq. apply sumn_ext. intros j _. rewrite (d_view w s true false i j Hv), Ed. reflexivity.
  - apply (d_nn_core N _ true prop sl (fun i j => present (dlink s j i))).
    + intros i j _ _. rewrite (d_view w s true false j i Hv), Ed. reflexivity.
    + intros i j. symmetry. apply present_idem.
    + intros i Hi. rewrite d_sum0_eq. apply sumn_ext. intros j _. rewrite (d_view w s true false j i Hv), Ed. reflexivity.
  - exact U.
  - exfalso. apply Hd; reflexivity.
Qed.

(** * Concrete graphs *)

Section Build.
Context {ID G Lb : Type} (leb_id : ID -> ID -> bool) (leb_g : G -> G -> bool) (leb_l : Lb -> Lb -> bool).
Context (oid : total_order leb_id) (og : total_order leb_g) (ol : total_order leb_l).

Lemma dense_build : forall grouped sl w (v : list (ID * G)) (e : list (erow ID Lb)), NoDup (map fst v) ->
  (forall r, In r e -> In (r_src r) (map fst v) /\ In (r_dst r) (map fst v) /\ (w = true -> 0 < r_weight r)) ->
  exists gr, let b := mkBase (length v) (enum_of leb_id (map fst v)) gr w (inner leb_id (enum_of leb_id (map fst v)) w e) in
    groups_ok leb_id leb_g (enum_of leb_id (map fst v)) v grouped gr /\
    dense_graph leb_id leb_g grouped sl sl w v e = Ok (b, assign_all (inner leb_id (enum_of leb_id (map fst v)) w e)) /\
    exists L, dense_multigraph leb_id leb_g leb_l grouped sl sl w v e = Ok (b, enum_of leb_l (map r_label e), L).
Proof.
  intros grouped sl w v e HN He. destruct (build leb_id leb_g oid og grouped sl w v e HN He) as [gr [Hb Hg]]. exists gr. cbv zeta.
  split; [exact Hg|]. unfold dense_graph, dense_multigraph, read_labels, generate_id_dict. rewrite Hb. cbn [bind guard negb orb].
  split; [reflexivity|]. eexists. reflexivity.
Qed.
End Build.

(** Graphs on the vertices 0 and 1, all with the same group and label. *)
Lemma dense_two : forall (w : bool) (l : list (nat * nat * R)), (forall t, In t l -> (fst (fst t) < 2)%nat /\ (snd (fst t) < 2)%nat /\ 0 < snd t) ->
  let D := assign_all (map (fun t => (fst t, if w then snd t else 1)) l) in
  exists b, dense_graph Nat.leb Nat.leb true false false w [(0, 0); (1, 0)]%nat (map (fun t : nat * nat * R => mkRow (fst (fst t)) (snd (fst t)) (snd t) 0%nat) l) = Ok (b, D) /\
  b_n b = 2%nat /\ exists g, grouping_of b = Some (1%nat, g) /\ (forall i, (i < 2)%nat -> g i = 0%nat).
Proof.
  intros w l Hl D. set (v := [(0, 0); (1, 0)]%nat). set (e := map (fun t : nat * nat * R => mkRow (fst (fst t)) (snd (fst t)) (snd t) 0%nat) l).
  assert (HN : NoDup (map fst v)) by (repeat (constructor; [cbn; intuition lia|]); constructor).
  assert (HE : forall r, In r e -> In (r_src r) (map fst v) /\ In (r_dst r) (map fst v) /\ (w = true -> 0 < r_weight r)).
  { intros r Hr. apply in_map_iff in Hr as [t [<- Ht]]. destruct (Hl t Ht) as [A [B C]]. cbn. split; [lia|]. split; [lia|]. intros _. exact C. }
  destruct (dense_build Nat.leb Nat.leb Nat.leb nat_order nat_order true false w v e HN HE) as [gr [Hg [H _]]]. cbv zeta in H.
  assert (I : inner Nat.leb (enum_of Nat.leb (map fst v)) w e = map (fun t => (fst t, if w then snd t else 1)) l).
  { unfold inner, e. rewrite map_map. apply map_ext_in. intros t Ht. destruct (Hl t Ht) as [A [B _]]. cbn [r_src r_dst r_weight].
    destruct t as [[x y] z]. cbn [fst snd] in *. destruct x as [|[|x]], y as [|[|y]]; try lia; reflexivity. }
  rewrite I in H. eexists. split; [exact H|]. split; [reflexivity|].
  assert (Hb : read_tables Nat.leb Nat.leb true false false w v e = Ok (mkBase (length v) (enum_of Nat.leb (map fst v)) gr w (map (fun t => (fst t, if w then snd t else 1)) l))).
  { apply dense_pieces in H as [H _]. exact H. }
  destruct Hg as [gd [ga [-> [[E1 [E2 [E3 [E4 _]]]] _]]]].
  assert (M : length gd = 1%nat).
  { destruct (proj1 (E1 0%nat)) as [i0 H0]; [left; reflexivity|]. pose proof (E2 _ _ H0) as L0.
    destruct (le_lt_dec (length gd) 1) as [L1|L1]; [lia|]. exfalso.
    destruct (E3 0%nat) as [x [Hx Ix]]; [lia|]. destruct (E3 1%nat) as [y [Hy Iy]]; [lia|].
    destruct Hx as [<-|[<-|[]]], Hy as [<-|[<-|[]]]; cbn [snd] in *; congruence. }
  exists (fun i => nth i ga 0%nat). unfold grouping_of. cbn [b_groups]. rewrite M. split; [reflexivity|]. intros i Hi.
  assert ((nth i ga 0 < 1)%nat); [|lia]. rewrite <- M.
  apply (grouping_lt Nat.leb Nat.leb nat_order nat_order _ _ _ _ _ _ _ (length gd) (fun i => nth i ga 0%nat) Hb); [reflexivity | exact Hi].
Qed.
