(** Properties of the graph constructors: C01 to C05 and C14 (entries). *)
From Verif Require Import Base Num Spec Ids Ensemble Lib IdFacts Graphs GraphFacts.

(** Tables used in the examples: vertices 30, 10, 20 (groups 7, 5, 7) and five edge rows, two of them
    parallel, one a self-loop, with labels 1 and 2. *)
Definition ex_v : list (nat * nat) := [(30, 7); (10, 5); (20, 7)]%nat.
Definition ex_e : list (erow nat nat) :=
  [mkRow 10%nat 20%nat (3/2) 1%nat; mkRow 10%nat 20%nat 1 2%nat; mkRow 20%nat 10%nat 2 1%nat;
   mkRow 30%nat 30%nat 4 1%nat; mkRow 30%nat 10%nat 1 2%nat].

Lemma ex_nodup : NoDup (map fst ex_v).
Proof. cbn. repeat (constructor; [cbn; intuition lia|]). constructor. Qed.

Lemma ex_rows : forall w r, In r ex_e -> In (r_src r) (map fst ex_v) /\ In (r_dst r) (map fst ex_v) /\ (w = true -> 0 < r_weight r).
Proof.
  intros w r H. cbn in H. destruct H as [<-|[<-|[<-|[<-|[<-|[]]]]]]; cbn; (split; [tauto|]; split; [tauto|]; intros _; lra).
Qed.

(** * C01: identifiers *)

Theorem C01_ids : forall (ID G Lb : Type) leb_id leb_g grouped sl dl w (v : list (ID * G)) (e : list (erow ID Lb)) b,
  total_order leb_id -> total_order leb_g ->
  read_tables leb_id leb_g grouped sl dl w v e = Ok b ->
  let index := dict_get leb_id (b_ids b) in
  b_n b = length v /\
  (forall x, In x (map fst v) <-> exists i, index x = Some i) /\
  (forall x i, index x = Some i -> (i < b_n b)%nat) /\
  (forall i, (i < b_n b)%nat -> exists x, In x (map fst v) /\ index x = Some i) /\
  (forall x y i, index x = Some i -> index y = Some i -> x = y) /\
  (forall x y i j, index x = Some i -> index y = Some j -> leb_id x y = true -> (i <= j)%nat).
Proof.
  intros ID G Lb leb_id leb_g grouped sl dl w v e b Oi Og H. cbv zeta.
  destruct (read_tables_ok leb_id leb_g Oi Og _ _ _ _ _ _ _ H) as [_ [[E1 [E2 [E3 [E4 E5]]]] [Hl [Hn _]]]].
  rewrite Hn, <- Hl. auto 10.
Qed.
Print Assumptions C01_ids.

Example C01_case : exists b, read_tables Nat.leb Nat.leb true false false true ex_v ex_e = Ok b /\
  b_n b = 3%nat /\ dict_get Nat.leb (b_ids b) 10%nat = Some 0%nat /\ dict_get Nat.leb (b_ids b) 20%nat = Some 1%nat /\
  dict_get Nat.leb (b_ids b) 30%nat = Some 2%nat /\ dict_get Nat.leb (b_ids b) 11%nat = None.
Proof.
  destruct (build Nat.leb Nat.leb nat_order nat_order true false true ex_v ex_e ex_nodup (ex_rows true)) as [gr [H _]].
  rewrite H. eexists. split; [reflexivity|]. repeat split.
Qed.

(** Group names and labels, which may repeat, are numbered in the same way. *)
Theorem C01_names : forall (K : Type) leb (col : list K), total_order leb ->
  exists d, generate_id_dict leb col false = Ok d /\
  (forall x, In x col <-> exists i, dict_get leb d x = Some i) /\
  (forall x i, dict_get leb d x = Some i -> (i < length d)%nat) /\
  (forall i, (i < length d)%nat -> exists x, In x col /\ dict_get leb d x = Some i) /\
  (forall x y i, dict_get leb d x = Some i -> dict_get leb d y = Some i -> x = y) /\
  (forall x y i j, dict_get leb d x = Some i -> dict_get leb d y = Some j -> leb x y = true -> (i <= j)%nat).
Proof.
  intros K leb col O. destruct (generate_false_ok leb col) as [d Hd]. exists d. split; [exact Hd|].
  apply (generate_enumerates leb O _ _ _ Hd).
Qed.
Print Assumptions C01_names.

Example C01_names_case : exists d, generate_id_dict Nat.leb [7; 5; 7; 9]%nat false = Ok d /\
  length d = 3%nat /\ dict_get Nat.leb d 7%nat = Some 1%nat.
Proof. eexists. split; [reflexivity|]. split; reflexivity. Qed.

(** * C02: acceptance *)

Theorem C02_accepted : forall (ID G Lb : Type) leb_id leb_g grouped sl dl w (v : list (ID * G)) (e : list (erow ID Lb)),
  total_order leb_id -> total_order leb_g ->
  ((exists b A, sparse_graph leb_id leb_g grouped sl dl w v e = Ok (b, A)) <->
   NoDup (map fst v) /\ sl = dl /\
   (forall r, In r e -> In (r_src r) (map fst v) /\ In (r_dst r) (map fst v) /\ (w = true -> 0 < r_weight r))).
Proof.
  intros ID G Lb leb_id leb_g grouped sl dl w v e Oi Og. split.
  - intros [b [A H]]. apply simple_pieces in H as [H _].
    destruct (read_tables_ok leb_id leb_g Oi Og _ _ _ _ _ _ _ H) as [H1 [_ [_ [_ [_ [_ [H2 [H3 _]]]]]]]]. auto.
  - intros [HN [-> He]]. destruct (build leb_id leb_g Oi Og grouped dl w v e HN He) as [gr [H _]].
    unfold sparse_graph. rewrite H. eexists _, _. reflexivity.
Qed.
Print Assumptions C02_accepted.

Theorem C02_accepted_multi : forall (ID G Lb : Type) leb_id leb_g leb_l grouped sl dl w (v : list (ID * G)) (e : list (erow ID Lb)),
  total_order leb_id -> total_order leb_g -> total_order leb_l ->
  ((exists b lab L, sparse_multigraph leb_id leb_g leb_l grouped sl dl w v e = Ok (b, lab, L)) <->
   NoDup (map fst v) /\ sl = dl /\
   (forall r, In r e -> In (r_src r) (map fst v) /\ In (r_dst r) (map fst v) /\ (w = true -> 0 < r_weight r))).
Proof.
  intros ID G Lb leb_id leb_g leb_l grouped sl dl w v e Oi Og Ol. split.
  - intros [b [lab [L H]]]. apply (multi_pieces leb_id leb_g leb_l Oi Og Ol) in H as [H _].
    destruct (read_tables_ok leb_id leb_g Oi Og _ _ _ _ _ _ _ H) as [H1 [_ [_ [_ [_ [_ [H2 [H3 _]]]]]]]]. auto.
  - intros [HN [-> He]]. destruct (build_multigraph leb_id leb_g leb_l Oi Og Ol grouped dl w v e HN He) as [gr [_ H]]. eauto.
Qed.
Print Assumptions C02_accepted_multi.

Example C02_case : exists b A, sparse_graph Nat.leb Nat.leb true true true true ex_v ex_e = Ok (b, A).
Proof. apply C02_accepted; [exact nat_order | exact nat_order|]. split; [exact ex_nodup|]. split; [reflexivity|]. apply ex_rows. Qed.

(** Which exception is raised: the first violated condition decides.  Full property: an unknown endpoint
    always raises AssertionError; here some source and some destination must be known, see
    [C02_unknown_refuted]. *)
Theorem C02_exceptions_partial : forall (ID G Lb : Type) leb_id leb_g grouped sl dl w (v : list (ID * G)) (e : list (erow ID Lb)),
  total_order leb_id -> total_order leb_g ->
  (~ NoDup (map fst v) -> sparse_graph leb_id leb_g grouped sl dl w v e = Raise GenericException) /\
  (NoDup (map fst v) -> sl <> dl -> sparse_graph leb_id leb_g grouped sl dl w v e = Raise ValueError) /\
  (NoDup (map fst v) -> sl = dl ->
     (exists r, In r e /\ (~ In (r_src r) (map fst v) \/ ~ In (r_dst r) (map fst v))) ->
     (exists r, In r e /\ In (r_src r) (map fst v)) -> (exists r, In r e /\ In (r_dst r) (map fst v)) ->
     sparse_graph leb_id leb_g grouped sl dl w v e = Raise AssertionError) /\
  (NoDup (map fst v) -> sl = dl -> (forall r, In r e -> In (r_src r) (map fst v) /\ In (r_dst r) (map fst v)) ->
     w = true -> (exists r, In r e /\ r_weight r <= 0) ->
     sparse_graph leb_id leb_g grouped sl dl w v e = Raise AssertionError).
Proof.
  intros ID G Lb leb_id leb_g grouped sl dl w v e Oi Og. unfold sparse_graph.
  destruct (read_tables_eq leb_id leb_g Oi Og grouped sl dl w v e) as [[C ->]|[d [gr [HN [_ [E [_ [_ ->]]]]]]]].
  { split; [reflexivity|]. split; [contradiction|]. split; contradiction. }
  pose proof (fun x => known_in leb_id d _ x E) as KI.
  assert (Kf : forall x, known leb_id d x = false <-> ~ In x (map fst v)).
  { intros x. rewrite <- KI. destruct (known leb_id d x); split; congruence. }
  split; [contradiction|]. split; [|split].
  - intros _ Hne. unfold guard at 1. destruct (Bool.eqb sl dl) eqn:Eb; [apply Bool.eqb_prop in Eb; contradiction | reflexivity].
  - intros _ -> [r [Hr Hu]] [r1 [H1 K1]] [r2 [H2 K2]]. rewrite Bool.eqb_reflx. cbn [guard]. rewrite !any_isnan_map.
    destruct e as [|r0 e0]; [destruct Hr|]. set (e := r0 :: e0) in *.
    replace (existsb (fun r => known leb_id d (r_src r)) e) with true by (symmetry; apply existsb_exists; exists r1; split; [exact H1 | apply KI, K1]).
    replace (existsb (fun r => known leb_id d (r_dst r)) e) with true by (symmetry; apply existsb_exists; exists r2; split; [exact H2 | apply KI, K2]).
    cbn [bind]. destruct (forallb (fun r => known leb_id d (r_src r)) e) eqn:F1; [|reflexivity].
    destruct (forallb (fun r => known leb_id d (r_dst r)) e) eqn:F2; [|reflexivity].
    exfalso. rewrite forallb_forall in F1, F2. specialize (F1 r Hr). specialize (F2 r Hr). apply KI in F1, F2. tauto.
  - intros _ -> Hk -> [r [Hr Hw]]. rewrite Bool.eqb_reflx. cbn [guard].
    assert (K : forall f : erow ID Lb -> ID, (forall r, In r e -> In (f r) (map fst v)) ->
       any_isnan (map (fun r => dict_get leb_id d (f r)) e) = Ok false).
    { intros f Hf. rewrite any_isnan_map. assert (A : forall r, In r e -> known leb_id d (f r) = true) by (intros q Hq; apply KI, Hf, Hq).
      destruct e as [|r0 e0]; [reflexivity|]. replace (existsb _ _) with true.
      - replace (forallb _ _) with true; [reflexivity|]. symmetry. apply forallb_forall. exact A.
      - symmetry. apply existsb_exists. exists r0. split; [left; reflexivity|]. apply A. left; reflexivity. }
    rewrite K by (intros q Hq; apply Hk, Hq). cbn [bind]. rewrite K by (intros q Hq; apply Hk, Hq). cbn [bind guard negb orb].
    replace (forallb _ _) with false; [reflexivity|]. symmetry. apply Bool.not_true_is_false. intros F. rewrite forallb_forall in F.
    specialize (F r Hr). destruct (Rltb_spec 0 (r_weight r)); [lra | discriminate].
Qed.
Print Assumptions C02_exceptions_partial.

Example C02_exceptions_case : sparse_graph Nat.leb Nat.leb false false false true ex_v
  (mkRow 10%nat 77%nat 1 0%nat :: ex_e) = Raise AssertionError.
Proof.
  destruct (C02_exceptions_partial _ _ _ Nat.leb Nat.leb false false false true ex_v (mkRow 10%nat 77%nat 1 0%nat :: ex_e) nat_order nat_order) as [_ [_ [H _]]].
  apply H; [exact ex_nodup | reflexivity | | |].
  - eexists. split; [left; reflexivity|]. right. cbn. lia.
  - eexists. split; [left; reflexivity|]. cbn. tauto.
  - exists (mkRow 10%nat 20%nat 1 2%nat). split; [cbn; tauto|]. cbn. tauto.
Qed.

(** When every source (or destination) is unknown pandas keeps a column of [None] and the check itself
    fails: TypeError instead of the documented message. *)
Theorem C02_unknown_refuted : exists (v : list (nat * nat)) (e : list (erow nat nat)),
  NoDup (map fst v) /\ (exists r, In r e /\ ~ In (r_src r) (map fst v)) /\
  sparse_graph Nat.leb Nat.leb false false false true v e = Raise TypeError.
Proof.
  exists [(1, 0); (2, 0)]%nat, [mkRow 3%nat 1%nat 1 0%nat].
  assert (N : NoDup (map fst [(1, 0); (2, 0)]%nat)) by (repeat (constructor; [cbn; intuition lia|]); constructor).
  split; [exact N|]. split; [eexists; split; [left; reflexivity | cbn; lia]|].
  unfold sparse_graph.
  destruct (read_tables_eq Nat.leb Nat.leb nat_order nat_order false false false true [(1, 0); (2, 0)]%nat [mkRow 3%nat 1%nat 1 0%nat])
    as [[C _]|[d [gr [_ [Hd [E [_ [_ ->]]]]]]]]; [contradiction|].
  injection Hd as <-. reflexivity.
Qed.
Print Assumptions C02_unknown_refuted.

(** * C03: index types *)

Theorem C03_bytes : forall n, exists k, get_num_bytes n = (2 ^ k)%nat /\ (n < 256 ^ (2 ^ k))%nat /\
  (forall k', (n < 256 ^ (2 ^ k'))%nat -> (k <= k')%nat).
Proof. exact num_bytes_spec. Qed.
Print Assumptions C03_bytes.

Theorem C03_no_wrap : forall n x, (x <= n)%nat -> astype_u (get_num_bytes n) x = x.
Proof. exact astype_id. Qed.
Print Assumptions C03_no_wrap.

Example C03_case : get_num_bytes 255 = 1%nat /\ get_num_bytes 256 = 2%nat /\ get_num_bytes 0 = 1%nat.
Proof.
  assert (K : forall n k, (n < 256 ^ (2 ^ k))%nat -> (forall k', (k' < k)%nat -> (256 ^ (2 ^ k') <= n)%nat) -> get_num_bytes n = (2 ^ k)%nat).
  { intros n k H1 H2. destruct (C03_bytes n) as [m [-> [A B]]]. f_equal. specialize (B k H1).
    destruct (Nat.lt_ge_cases m k) as [C|C]; [specialize (H2 m C)|]; lia. }
  split; [|split].
  - apply (K 255%nat 0%nat); [cbn; lia | intros; lia].
  - apply (K 256%nat 1%nat); [|intros k' Hk; replace k' with 0%nat by lia; cbn; lia].
    change (2 ^ 1)%nat with 2%nat. rewrite <- (Nat.pow_1_r 256) at 1. apply Nat.pow_lt_mono_r; lia.
  - apply (K 0%nat 0%nat); [cbn; lia | intros; lia].
Qed.

(** * C04: groups *)

Theorem C04_groups : forall (ID G Lb : Type) leb_id leb_g sl dl w (v : list (ID * G)) (e : list (erow ID Lb)) b,
  total_order leb_id -> total_order leb_g -> read_tables leb_id leb_g true sl dl w v e = Ok b ->
  exists names groups, b_groups b = Some (names, groups) /\ length groups = length v /\
  forall x g, In (x, g) v -> exists i k, dict_get leb_id (b_ids b) x = Some i /\ dict_get leb_g names g = Some k /\
    nth_error groups i = Some k.
Proof.
  intros ID G Lb leb_id leb_g sl dl w v e b Oi Og H.
  destruct (read_tables_ok leb_id leb_g Oi Og _ _ _ _ _ _ _ H) as [_ [E [_ [_ [[gd [ga [Eg [_ [Lg Hg]]]]] _]]]]].
  exists gd, ga. split; [exact Eg|]. split; [exact Lg|]. intros x g Hin. destruct (Hg (x, g) Hin) as [k [Gk Nk]]. cbn [fst snd] in *.
  destruct E as [E1 _]. destruct (proj1 (E1 x)) as [i Hi]; [apply (in_map fst) in Hin; exact Hin|].
  exists i, k. rewrite Hi in Nk. auto.
Qed.
Print Assumptions C04_groups.

Example C04_case : exists b names, read_tables Nat.leb Nat.leb true false false true ex_v ex_e = Ok b /\
  b_groups b = Some (names, [0; 1; 1]%nat) /\ dict_get Nat.leb names 5%nat = Some 0%nat.
Proof.
  destruct (build Nat.leb Nat.leb nat_order nat_order true false true ex_v ex_e ex_nodup (ex_rows true)) as [gr [H [gd [ga [Eg [En [Lg Hg]]]]]]].
  rewrite H. eexists _, gd. split; [reflexivity|]. cbn [b_groups]. rewrite Eg.
  destruct (Hg (30, 7)%nat) as [k1 [G1 N1]]; [cbn; tauto|]. destruct (Hg (10, 5)%nat) as [k2 [G2 N2]]; [cbn; tauto|].
  destruct (Hg (20, 7)%nat) as [k3 [G3 N3]]; [cbn; tauto|]. cbn in N1, N2, N3, G1, G2, G3, Lg.
  assert (k1 = k3) by congruence. subst k3. destruct En as [E1 [E2 [E3 [E4 E5]]]]. cbn in *.
  assert (k2 <= k1)%nat by (eapply E5; [exact G2 | exact G1 | reflexivity]).
  assert (k2 <> k1). { intros ->. discriminate (E4 _ _ _ G1 G2). }
  assert (forall k, (k < length gd)%nat -> k = k1 \/ k = k2).
  { intros k Hk. destruct (E3 k Hk) as [x [Hx Kx]]. destruct Hx as [<-|[<-|[<-|[]]]]; [left|right|left]; congruence. }
  pose proof (E2 _ _ G1). destruct (H2 0%nat); [lia|lia|]. subst k2.
  assert (k1 = 1%nat). { destruct (H2 1%nat); lia. } subst k1.
  split; [|exact G2]. do 2 f_equal. destruct ga as [|a [|b [|c [|]]]]; try discriminate Lg. cbn in N1, N2, N3. congruence.
Qed.

(** * C05: entries of the sparse matrix *)

(** Entry of the stored matrix, between the vertices with identifiers [x] and [y]: the sum of the weights
    of the rows from [x] to [y]; stored exactly when there is such a row. *)
Theorem C05_summed : forall (ID G Lb : Type) leb_id leb_g grouped sl dl w (v : list (ID * G)) (e : list (erow ID Lb)) b A,
  total_order leb_id -> total_order leb_g ->
  sparse_graph leb_id leb_g grouped sl dl w v e = Ok (b, A) ->
  forall x y i j, dict_get leb_id (b_ids b) x = Some i -> dict_get leb_id (b_ids b) y = Some j ->
  let rows := filter (fun r => eq_key leb_id x (r_src r) && eq_key leb_id y (r_dst r)) e in
  (In j (map fst (sp_row A i)) <-> rows <> []) /\
  (w = true -> entry (sp_row A i) j = suml r_weight rows) /\
  (w = false -> entry (sp_row A i) j = if rows then 0 else 1) /\
  digraph_adjacency (b_n b) A true true = A.
Proof.
  intros ID G Lb leb_id leb_g grouped sl dl w v e b A Oi Og H x y i j Hx Hy rows.
  destruct (simple_cell leb_id leb_g Oi Og _ _ _ _ _ _ _ _ H x y i j Hx Hy) as [C1 C2].
  assert (R : existsb (row_matches leb_id x y) e = match rows with [] => false | _ => true end).
  { unfold rows. clear. induction e as [|r e IH]; [reflexivity|]. cbn [existsb filter]. unfold row_matches at 1.
    destruct (_ && _); [reflexivity | exact IH]. }
  split; [rewrite C1, R; destruct rows; split; congruence|]. split; [|split; [|reflexivity]].
  - intros ->. rewrite C2. unfold rows. rewrite suml_filter. reflexivity.
  - intros ->. rewrite C2, R. destruct rows; reflexivity.
Qed.
Print Assumptions C05_summed.

Example C05_case : exists b A, sparse_graph Nat.leb Nat.leb false false false true ex_v ex_e = Ok (b, A) /\
  entry (sp_row A 0%nat) 1%nat = 5/2 /\ entry (sp_row A 2%nat) 2%nat = 4 /\ ~ In 2%nat (map fst (sp_row A 0%nat)).
Proof.
  destruct (build_graph Nat.leb Nat.leb Nat.leb nat_order nat_order false false true ex_v ex_e ex_nodup (ex_rows true)) as [gr [_ [_ H]]].
  inversion H as [|A H' E| |]. eexists _, _. split; [exact H'|]. subst A.
  destruct (C05_summed _ _ _ _ _ _ _ _ _ _ _ _ _ nat_order nat_order H' 10 20 0 1 eq_refl eq_refl)%nat as [_ [V1 _]].
  destruct (C05_summed _ _ _ _ _ _ _ _ _ _ _ _ _ nat_order nat_order H' 30 30 2 2 eq_refl eq_refl)%nat as [_ [V2 _]].
  destruct (C05_summed _ _ _ _ _ _ _ _ _ _ _ _ _ nat_order nat_order H' 10 30 0 2 eq_refl eq_refl)%nat as [V3 _].
  split; [rewrite V1 by reflexivity; cbn; lra|]. split; [rewrite V2 by reflexivity; cbn; lra|]. rewrite V3. cbn. tauto.
Qed.

(** * C14: entries of the tensor *)

Theorem C14_entries : forall (ID G Lb : Type) leb_id leb_g leb_l grouped sl dl w (v : list (ID * G)) (e : list (erow ID Lb)) b lab L,
  total_order leb_id -> total_order leb_g -> total_order leb_l ->
  sparse_multigraph leb_id leb_g leb_l grouped sl dl w v e = Ok (b, lab, L) ->
  length L = length lab /\ multidigraph_tensor (b_n b) L true true = L /\
  forall x y z i j l, dict_get leb_id (b_ids b) x = Some i -> dict_get leb_id (b_ids b) y = Some j -> dict_get leb_l lab z = Some l ->
  exists A, nth_error L l = Some A /\
  let rows := filter (fun r => eq_key leb_id x (r_src r) && eq_key leb_id y (r_dst r) && eq_key leb_l z (r_label r)) e in
  (In j (map fst (sp_row A i)) <-> rows <> []) /\
  (w = true -> entry (sp_row A i) j = suml r_weight rows) /\
  (w = false -> entry (sp_row A i) j = if rows then 0 else 1).
Proof.
  intros ID G Lb leb_id leb_g leb_l grouped sl dl w v e b lab L Oi Og Ol H.
  destruct (layer_cell leb_id leb_g leb_l Oi Og Ol _ _ _ _ _ _ _ _ _ H) as [HL HC].
  split; [exact HL|]. split; [apply map_id|].
  intros x y z i j l Hx Hy Hz. destruct (HC x y z i j l Hx Hy Hz) as [A [HA [C1 C2]]]. exists A. split; [exact HA|]. cbv zeta.
  set (rows := filter _ e).
  assert (R : existsb (row_labelled leb_id leb_l x y z) e = match rows with [] => false | _ => true end).
  { unfold rows. clear. induction e as [|r e IH]; [reflexivity|]. cbn [existsb filter]. unfold row_labelled at 1, row_matches at 1.
    destruct (_ && _); [reflexivity | exact IH]. }
  split; [rewrite C1, R; destruct rows; split; congruence|]. split.
  - intros ->. rewrite C2. unfold rows. rewrite suml_filter. reflexivity.
  - intros ->. rewrite C2, R. destruct rows; reflexivity.
Qed.
Print Assumptions C14_entries.

Example C14_entries_case : exists b lab L A, sparse_multigraph Nat.leb Nat.leb Nat.leb false false false true ex_v ex_e = Ok (b, lab, L) /\
  nth_error L 1%nat = Some A /\ entry (sp_row A 0%nat) 1%nat = 1 /\ entry (sp_row A 1%nat) 0%nat = 0.
Proof.
  destruct (build_multigraph Nat.leb Nat.leb Nat.leb nat_order nat_order nat_order false false true ex_v ex_e ex_nodup (ex_rows true)) as [gr [_ H]].
  cbv zeta in H.
  destruct (C14_entries _ _ _ _ _ _ _ _ _ _ _ _ _ _ _ nat_order nat_order nat_order H) as [_ [_ C]].
  destruct (C 10 20 2 0 1 1 eq_refl eq_refl eq_refl)%nat as [A [HA [_ [V _]]]].
  destruct (C 20 10 2 1 0 1 eq_refl eq_refl eq_refl)%nat as [A' [HA' [_ [V' _]]]].
  eexists _, _, _, A. split; [exact H|]. split; [exact HA|]. rewrite HA in HA'. injection HA' as <-.
  split; [rewrite V by reflexivity; cbn; lra|]. rewrite V' by reflexivity. reflexivity.
Qed.
