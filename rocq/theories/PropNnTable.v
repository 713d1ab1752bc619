(** Property C82: the neighbour average of a property table is the table of the averages of its columns; the
    average of a boolean property is the fraction of the neighbours that have it.  [table_outcome]
    (NnTableFacts.v) is what a caller gets instead. *)
From Verif Require Import Base Num Spec Ids Kernels KernelFacts Ensemble EnsembleFacts EnsembleProps EnsembleState Models
  ModelFacts StateFacts StateProps Lib IdFacts Graphs GraphFacts DenseGraphs DenseFacts PropTables PropGraph PropDense Random
  Spark SparkFacts SparkMeasures SparkLib SparkState SparkStateFacts PropSparkState NnTable NnTableFacts.
Import Num Spec.

(** The averages asked for: column by column, zero for an empty neighbourhood. *)
Definition averages (N K : nat) (T : table) (D : nat -> R) (a : table) : Prop :=
  forall i k, (i < N)%nat -> (k < K)%nat -> a i k = if Req_EM_T (D i) 0 then 0 else T i k / D i.

(** ** Ensembles *)

Definition o_av_nn_table (m : model) := expected_av_nn_table (m_p_ij m) (m_out m) (m_in m) (m_dyad m) (m_N m).
Definition so_av_nn_table (m : model) (B : nat) := sp_av_nn_table (m_p_ij m) (m_out m) (m_in m) (m_dyad m) (m_N m) B.

Section Lib.
Variables (m : model) (q : nat -> nat -> R).
Let N := m_N m.

Lemma empty_total : forall nd sl prop v, (forall i j, (i < N)%nat -> (j < N)%nat -> 0 <= q i j <= 1) ->
  nd <> Dother -> (v < N)%nat -> nb_degree N sl (dir_link nd q) v = 0 -> nb_total N sl (dir_link nd q) prop v = 0.
Proof.
  intros nd sl prop v Hq Hnd Hv H. unfold nb_degree in H. unfold nb_total.
  assert (T : forall j, (j < N)%nat -> 0 <= (if allowed sl v j then dir_link nd q v j else 0)).
  { intros j Hj. destruct (allowed sl v j); [|lra]. pose proof (Hq v j Hv Hj). pose proof (Hq j v Hj Hv).
    destruct nd; cbn; unfold out_link, in_link, either_link; try lra. pose proof (Hq v v Hv Hv). destruct (Nat.eqb v j); nra. }
  apply sumn_zero. intros j Hj. pose proof (sumn_zero_inv N _ T H j Hj) as K. cbn in K.
  destruct (allowed sl v j); [rewrite K; ring | reflexivity].
Qed.

Lemma rows_total : library_model m q -> forall prop nd sl, constant_dyad m -> nd <> Dother -> (sl = true -> (2 <= N)%nat) ->
  exists t, exp_av_nn_rows (m_p_ij m) (m_out m) (m_in m) (m_dyad m) N (m_param m) prop nd sl = Ok t /\
    forall v k, (v < N)%nat -> t v k = nb_total N sl (dir_link nd q) (col k prop) v.
Proof.
  intros Hm prop nd sl Hc Hnd HN.
  destruct (exp_av_nn_rows (m_p_ij m) (m_out m) (m_in m) (m_dyad m) N (m_param m) prop nd sl) as [t|e] eqn:E.
  - exists t. split; [reflexivity|]. intros v k Hv.
    pose proof (exp_rows_col _ _ _ (m_p_ij m) (m_out m) (m_in m) (m_dyad m) N k (m_param m) prop nd sl) as C. rewrite E in C.
    destruct (exp_av_nn_spec _ _ _ (m_p_ij m) (m_param m) (m_out m) (m_in m) (m_dyad m) N (col k prop) nd sl Hnd HN) as (a & Ea & A).
    rewrite C in Ea. injection Ea as <-. specialize (A v Hv). unfold col at 1 in A. rewrite A. unfold nb_total.
    rewrite (Hc v (N - 2)%nat v), (proj1 (library_kernel m q Hm v v Hv Hv)).
    replace (if sl then q v v * col k prop v else 0)
      with (if Nat.ltb v N then (if sl then dir_link nd q v v * col k prop v else 0) else 0).
    2:{ apply Nat.ltb_lt in Hv as Hv'. rewrite Hv'. destruct sl; [|reflexivity].
        destruct nd; cbn; unfold out_link, in_link, either_link; rewrite ?Nat.eqb_refl; try reflexivity. exfalso; apply Hnd; reflexivity. }
    rewrite <- (sumn_delta' N v (fun j => if sl then dir_link nd q v j * col k prop j else 0)), <- sumn_plus.
    apply sumn_ext; intros j Hj. unfold allowed. destruct (Nat.eqb_spec v j) as [<-|Hne]; cbn [negb orb].
    + destruct sl; ring.
    + rewrite Rplus_0_r. unfold dir_prob, dir_link, out_link, in_link, either_link.
      rewrite (proj1 (library_kernel m q Hm v j Hv Hj)), (proj1 (library_kernel m q Hm j v Hj Hv)).
      destruct nd; try reflexivity. destruct (Nat.eqb_spec v j); [contradiction|]. ring.
  - exfalso.
    pose proof (exp_rows_col _ _ _ (m_p_ij m) (m_out m) (m_in m) (m_dyad m) N 0 (m_param m) prop nd sl) as C. rewrite E in C.
    destruct (exp_av_nn_spec _ _ _ (m_p_ij m) (m_param m) (m_out m) (m_in m) (m_dyad m) N (col 0 prop) nd sl Hnd HN) as (a & Ea & _).
    rewrite C in Ea. discriminate.
Qed.
End Lib.

(** What every call gives, and the option afterwards: restored after an answer, left at the argument after an
    exception. *)
Theorem C82_ensemble : forall m q s K prop nd sl dr, library_model m q -> a_param s = Some (m_param m) ->
  constant_dyad m -> nd <> Dother -> (effective sl (a_selfloops s) = true -> (2 <= m_N m)%nat) ->
  dr = true \/ degrees_current m s ->
  let b := effective sl (a_selfloops s) in
  let (r, s') := o_av_nn_table m (m_N m) K prop nd sl dr s in
  table_outcome (m_N m) K (fun v k => nb_total (m_N m) b (dir_link nd q) (col k prop) v)
    (nb_degree (m_N m) b (dir_link nd q)) r /\
  a_selfloops s' = match r with Ok _ => a_selfloops s | Raise _ => b end.
Proof.
  intros m q s K prop nd sl dr Hm Hp Hc Hd HN Hs b. unfold o_av_nn_table, expected_av_nn_table. rewrite Hp, Nat.eqb_refl. cbn [negb].
  set (N := m_N m) in *.
  pose proof (h_set_selfloops_now _ (fun p e => exp_degrees (m_p_ij m) p (m_out m) (m_in m) (m_dyad m) N e) (m_param m) sl dr s Hp Hs) as S1.
  destruct (set_selfloops sl dr s) as [dr1 s1]. destruct S1 as (P1 & L1 & _ & _ & D1 & _).
  change (h_eff _ sl s) with b in L1.
  destruct (degree_of_now _ _ _ (m_p_ij m) (m_out m) (m_in m) (m_dyad m) N (m_param m) nd dr1 s1 P1 Hd D1) as (s2 & E & P2 & L2 & _ & _ & D2).
  rewrite E. rewrite L2, L1 in *.
  destruct (rows_total m q Hm prop nd b Hc Hd HN) as (t & Et & Vt). fold N in Et, Vt. rewrite Et. cbn [bind].
  assert (O : table_outcome N K (fun v k => nb_total N b (dir_link nd q) (col k prop) v) (nb_degree N b (dir_link nd q))
    (divide_table N K t (deg_now _ _ _ (m_p_ij m) (m_out m) (m_in m) (m_dyad m) N nd (m_param m) b))).
  { apply divide_outcome.
    - intros i k Hi _. apply Vt; exact Hi.
    - intros i Hi. apply deg_lib; assumption.
    - intros i k Hi _ H0. apply empty_total; try assumption. intros x y Hx Hy. apply (lib_prob m q Hm); assumption. }
  destruct (divide_table _ _ _ _) as [a|e].
  - split; [exact O|]. unfold restore. destruct (Bool.eqb (a_selfloops s) (a_selfloops s2)) eqn:Eb; [|reflexivity].
    apply Bool.eqb_prop in Eb. symmetry. exact Eb.
  - split; [exact O | exact L2].
Qed.
Print Assumptions C82_ensemble.

(** Full statement: the result is [averages] for every table.  It holds when exactly one vertex has a non-empty
    neighbourhood, and is false otherwise ([C82_error_refuted], [C82_wrong_refuted]). *)
Theorem C82_ensemble_partial : forall m q s K prop nd sl dr, library_model m q -> a_param s = Some (m_param m) ->
  constant_dyad m -> nd <> Dother -> (effective sl (a_selfloops s) = true -> (2 <= m_N m)%nat) ->
  dr = true \/ degrees_current m s ->
  let b := effective sl (a_selfloops s) in
  let D := nb_degree (m_N m) b (dir_link nd q) in
  (exists v, (v < m_N m)%nat /\ forall w, (w < m_N m)%nat -> (D w <> 0 <-> w = v)) ->
  exists a s', o_av_nn_table m (m_N m) K prop nd sl dr s = (Ok a, s') /\ a_selfloops s' = a_selfloops s /\
    averages (m_N m) K (fun v k => nb_total (m_N m) b (dir_link nd q) (col k prop) v) D a.
Proof.
  intros m q s K prop nd sl dr Hm Hp Hc Hd HN Hs b D (v & Hv & U).
  pose proof (C82_ensemble m q s K prop nd sl dr Hm Hp Hc Hd HN Hs) as C. cbv zeta in C. fold b D in C.
  destruct (o_av_nn_table m (m_N m) K prop nd sl dr s) as [r s']. destruct C as [[O _] L].
  destruct O as (a & -> & V).
  - apply (nonempty_single _ _ v); assumption.
  - exists a, s'. split; [reflexivity|]. split; [exact L|]. exact V.
Qed.
Print Assumptions C82_ensemble_partial.

(** The same for objects of the spark module, for any number of blocks. *)
Theorem C82_spark : forall m q B s K prop nd sl, spark_single m q -> (1 <= m_N m)%nat -> (1 <= B)%nat ->
  a_param s = Some (m_param m) -> nd <> Dother ->
  let b := effective sl (a_selfloops s) in
  let (r, s') := so_av_nn_table m B (m_N m) K prop nd sl true s in
  table_outcome (m_N m) K (fun v k => nb_total (m_N m) b (dir_link nd q) (col k prop) v)
    (nb_degree (m_N m) b (dir_link nd q)) r /\
  a_selfloops s' = match r with Ok _ => a_selfloops s | Raise _ => b end.
Proof.
  intros m q B s K prop nd sl Hm HN HB Hp Hd b. unfold so_av_nn_table, sp_av_nn_table. rewrite Hp, Nat.eqb_refl. cbn [negb].
  set (N := m_N m) in *. set (dgs := fun p e => spark_degrees p (m_out m) (m_in m) (m_dyad m) N B (m_p_ij m) e).
  pose proof (h_set_selfloops_now _ dgs (m_param m) sl true s Hp (or_introl eq_refl)) as S1.
  destruct (set_selfloops sl true s) as [dr1 s1]. destruct S1 as (P1 & L1 & _ & _ & D1 & _).
  change (h_eff _ sl s) with b in L1.
  destruct (h_degree_of_now _ dgs (m_param m) nd dr1 s1 P1 Hd D1) as (s2 & E & P2 & L2 & _ & _ & D2).
  change (sp_degree_of (m_p_ij m) (m_out m) (m_in m) (m_dyad m) N B nd dr1 s1) with (g_degree_of dgs nd dr1 s1).
  rewrite E. rewrite L1 in L2 |- *. change (match sl with Some b0 => b0 | None => a_selfloops s end) with b.
  assert (O : table_outcome N K (fun v k => nb_total N b (dir_link nd q) (col k prop) v) (nb_degree N b (dir_link nd q))
    (divide_table N K (spark_av_nn_rows (m_p_ij m) (m_out m) (m_in m) (m_dyad m) N B (m_param m) prop nd b) (h_deg_now _ dgs nd (m_param m) b))).
  { apply divide_outcome.
    - intros i k Hi _. change (col k (spark_av_nn_rows (m_p_ij m) (m_out m) (m_in m) (m_dyad m) N B (m_param m) prop nd b) i
        = nb_total N b (dir_link nd q) (col k prop) i).
      rewrite spark_rows_col. exact (s_av_nn_spec m q (single_spark m q Hm) HN B HB (col k prop) nd b i Hd Hi).
    - intros i Hi. exact (so_deg m q B (single_spark m q Hm) HN HB nd b i Hd Hi).
    - intros i k Hi _ H0. exact (so_empty m q (single_spark m q Hm) nd b (col k prop) i Hd Hi H0). }
  destruct (divide_table _ _ _ _) as [a|e].
  - split; [exact O|]. unfold restore. destruct (Bool.eqb (a_selfloops s) (a_selfloops s2)) eqn:Eb; [|reflexivity].
    apply Bool.eqb_prop in Eb. symmetry. exact Eb.
  - split; [exact O | exact L2].
Qed.
Print Assumptions C82_spark.

(** ** Graphs *)

(** Sparse graphs.  The degrees count self-loops whatever [sl] (C16). *)
Theorem C82_graph : forall w N s gr K prop ndir sl, library_graph w N s gr -> layers s <> [] ->
  (is_directed s = true -> ndir <> Dother) ->
  table_outcome N K (fun i k => nb_total N sl (nbr s ndir) (col k prop) i) (fun i => sumn N (fun j => nbr s ndir i j))
    (average_nn_table N s N K prop ndir (Some sl)).
Proof.
  intros w N s gr K prop ndir sl HG Hl Hd. apply library_valid in HG. rename HG into Hv.
  unfold average_nn_table, guard. rewrite Nat.eqb_refl.
  destruct (adjacency_ok N s false false Hl) as [Au EAu]. destruct (adjacency_ok N s true false Hl) as [Ad EAd].
  destruct (adjacency_spec w N s false false Au Hv EAu) as [WAu VAu]. destruct (adjacency_spec w N s true false Ad Hv EAd) as [WAd VAd].
  assert (C : forall A (q : nat -> nat -> R) deg, wf N A ->
    (forall i j, (i < N)%nat -> (j < N)%nat -> present (W A i j) = q i j) ->
    (forall i, (i < N)%nat -> deg i = sumn N (fun j => q i j)) ->
    table_outcome N K (fun i k => nb_total N sl q (col k prop) i) (fun i => sumn N (fun j => q i j))
      (divide_table N K (av_nn_rows N (sp_row A) prop sl) deg)).
  { intros A q deg HA Hq Hdeg. apply divide_outcome.
    - intros i k Hi _. change (col k (av_nn_rows N (sp_row A) prop sl) i = nb_total N sl q (col k prop) i). rewrite av_rows_col.
      rewrite av_nn_prop_val by assumption. unfold nb_total. apply sumn_ext. intros j Hj. rewrite Hq by assumption. reflexivity.
    - exact Hdeg.
    - intros i k Hi _ E. unfold nb_total. apply sumn_zero. intros j Hj.
      assert (Q : q i j = 0).
      { apply (sumn_zero_inv N (fun j => q i j)); [|exact E | exact Hj]. intros x Hx. rewrite <- Hq by assumption. apply present_range. }
      rewrite Q. destruct (allowed sl i j); lra. }
  assert (U : table_outcome N K (fun i k => nb_total N sl (neighbours (link s)) (col k prop) i)
      (fun i => sumn N (fun j => neighbours (link s) i j))
      (do deg <- degree N s ; do A <- adjacency_matrix N s false false ;
       divide_table N K (av_nn_rows N (sp_row A) prop sl) deg)).
  { unfold degree. rewrite EAu. cbn [bind]. apply C; [exact WAu| |].
    - intros i j Hi Hj. rewrite VAu by assumption. unfold view. cbn. unfold neighbours. apply present_idem.
    - intros i Hi. rewrite (axis0_view w N s Hv _ _ _ EAu i Hi). apply sumn_ext. intros j Hj. unfold view. cbn.
      unfold neighbours, both_ways. rewrite (Nat.eqb_sym j i). destruct (Nat.eqb_spec i j) as [->|_]; [reflexivity|].
      rewrite (Rplus_comm (link s j i)). reflexivity. }
  unfold nbr. destruct (is_directed s) eqn:Ed; [|exact U]. destruct ndir.
  - unfold out_degree, guard. rewrite Ed, EAd. cbn [bind]. apply C; [exact WAd| |].
    + intros i j Hi Hj. rewrite VAd by assumption. unfold view. cbn. apply present_idem.
    + intros i Hi. rewrite (axis1_view w N s Hv _ _ _ EAd i Hi). apply sumn_ext. intros j Hj. rewrite Ed. unfold view. cbn. reflexivity.
  - unfold in_degree, guard. rewrite Ed, EAd. cbn [bind]. apply C; [apply T_wf, WAd| |].
    + intros i j Hi Hj. rewrite T_entry by exact Hj. rewrite VAd by assumption. unfold view. cbn. apply present_idem.
    + intros i Hi. rewrite (axis0_view w N s Hv _ _ _ EAd i Hi). apply sumn_ext. intros j Hj. rewrite Ed. unfold view. cbn. reflexivity.
  - exact U.
  - exfalso. apply Hd; reflexivity.
Qed.
Print Assumptions C82_graph.

(** Dense graphs.  Along incoming links the vertex itself stays in the total (C16): [keeps_self]. *)
Theorem C82_dense : forall w N s gr K prop ndir sl, library_dense w N s gr -> (d_directed s = true -> ndir <> Dother) ->
  table_outcome N K (fun i k => nb_total N (keeps_self s ndir N sl) (dnbr s ndir) (col k prop) i)
    (fun i => sumn N (fun j => dnbr s ndir i j)) (d_average_nn_table N w s N K prop ndir (Some sl)).
Proof.
  intros w N s gr K prop ndir sl HG Hd. apply library_dense_valid in HG. rename HG into Hv.
  unfold d_average_nn_table, guard. rewrite Nat.eqb_refl.
  assert (C : forall A tr (q : nat -> nat -> R) deg,
    (forall i j, (i < N)%nat -> (j < N)%nat -> A i j = q i j) -> (forall i j, q i j = present (q i j)) ->
    (forall i, (i < N)%nat -> deg i = sumn N (fun j => q i j)) ->
    table_outcome N K (fun i k => nb_total N (sl || (tr && negb (Nat.eqb N 1))) q (col k prop) i) (fun i => sumn N (fun j => q i j))
      (divide_table N K (d_av_nn_rows N A tr prop sl) deg)).
  { intros A tr q deg Hq Hp Hdeg. set (sl' := sl || (tr && negb (Nat.eqb N 1))). apply divide_outcome.
    - intros i k Hi _. rewrite d_av_rows_col, d_av_val by exact Hi. unfold nb_total. apply sumn_ext. intros j Hj. rewrite Hq by assumption.
      fold sl'. unfold allowed. rewrite (orb_comm sl'). reflexivity.
    - exact Hdeg.
    - intros i k Hi _ E. unfold nb_total. apply sumn_zero. intros j Hj.
      assert (Q : q i j = 0).
      { apply (sumn_zero_inv N (fun j => q i j)); [|exact E | exact Hj]. intros x Hx. rewrite Hp. apply present_range. }
      rewrite Q. destruct (allowed sl' i j); lra. }
  assert (U : table_outcome N K (fun i k => nb_total N (sl || false) (neighbours (dlink s)) (col k prop) i)
      (fun i => sumn N (fun j => neighbours (dlink s) i j))
      (divide_table N K (d_av_nn_rows N (d_adjacency w s false false) false prop sl) (d_degree N w s))).
  { apply (C _ false (neighbours (dlink s))).
    - intros i j _ _. rewrite (d_view w s false false i j Hv). reflexivity.
    - intros i j. unfold neighbours. symmetry. apply present_idem.
    - intros i Hi. unfold d_degree. rewrite d_sum0_eq. apply sumn_ext. intros j _. rewrite (d_view w s false false j i Hv). cbn [andb]. apply neighbours_sym. }
  unfold dnbr, keeps_self. destruct (d_directed s) eqn:Ed; [|exact U]. destruct ndir; cbn [andb].
  - apply (C _ false (fun i j => present (dlink s i j))).
    + intros i j _ _. rewrite (d_view w s true false i j Hv), Ed. reflexivity.
    + intros i j. symmetry. apply present_idem.
    + intros i Hi. rewrite d_sum1_eq. apply sumn_ext. intros j _. rewrite (d_view w s true false i j Hv), Ed. reflexivity.
  - apply (C _ true (fun i j => present (dlink s j i))).
    + intros i j _ _. rewrite (d_view w s true false j i Hv), Ed. reflexivity.
    + intros i j. symmetry. apply present_idem.
    + intros i Hi. rewrite d_sum0_eq. apply sumn_ext. intros j _. rewrite (d_view w s true false j i Hv), Ed. reflexivity.
  - exact U.
  - exfalso. apply Hd; reflexivity.
Qed.
Print Assumptions C82_dense.

(** A graph has no option of its own: [selfloops = None] fails.  A table with another number of rows is refused. *)
Theorem C82_refused : forall w N s len K prop ndir sl,
  (d_average_nn_table N w s N K prop ndir None = Raise AttributeError) /\
  (len <> N -> d_average_nn_table N w s len K prop ndir sl = Raise ValueError).
Proof.
  intros w N s len K prop ndir sl. unfold d_average_nn_table, guard. rewrite Nat.eqb_refl. split; [reflexivity|].
  intros H. apply Nat.eqb_neq in H. rewrite H. reflexivity.
Qed.
Print Assumptions C82_refused.

(** ** A boolean property of a dense graph *)

(** The number of neighbours (of [i], itself included if [b]) with the property. *)
Definition having (N : nat) (b : bool) (q : nat -> nat -> R) (prop : nat -> bool) (i : nat) : R :=
  nb_total N b q (indicator prop) i.

Lemma bool_dot : forall N (c : nat -> bool), for_range N (fun j acc => acc || c j) false = existsb c (seq 0 N).
Proof.
  intros N c. induction N as [|N IH]; [reflexivity|]. cbn [for_range]. rewrite IH, seq_S, existsb_app. cbn. rewrite orb_false_r. reflexivity.
Qed.

(** Every answer is 1 / degree where some neighbour has the property, 0 elsewhere. *)
Theorem C82_boolean : forall w N s gr prop ndir sl, library_dense w N s gr -> (d_directed s = true -> ndir <> Dother) ->
  exists f, d_average_nn_bool N w s N prop ndir (Some sl) = Ok f /\
  forall i, (i < N)%nat ->
    let deg := sumn N (fun j => dnbr s ndir i j) in
    (having N (keeps_self s ndir N sl) (dnbr s ndir) prop i = 0 -> f i = 0) /\
    (having N (keeps_self s ndir N sl) (dnbr s ndir) prop i <> 0 -> f i = 1 / deg).
Proof.
  intros w N s gr prop ndir sl HG Hd. apply library_dense_valid in HG. rename HG into Hv.
  unfold d_average_nn_bool, guard. rewrite Nat.eqb_refl.
  assert (C : forall A tr (q : nat -> nat -> R) deg,
    (forall i j, (i < N)%nat -> (j < N)%nat -> A i j = q i j) -> (forall i j, q i j = present (q i j)) ->
    (forall i, (i < N)%nat -> deg i = sumn N (fun j => q i j)) ->
    exists f, divide_by_degree N (d_av_nn_bool N A tr prop sl) deg = Ok f /\ forall i, (i < N)%nat ->
      let D := sumn N (fun j => q i j) in
      (having N (sl || (tr && negb (Nat.eqb N 1))) q prop i = 0 -> f i = 0) /\
      (having N (sl || (tr && negb (Nat.eqb N 1))) q prop i <> 0 -> f i = 1 / D)).
  { intros A tr q deg Hq Hp Hdeg. set (sl' := sl || (tr && negb (Nat.eqb N 1))).
    assert (Q : forall i j, 0 <= q i j) by (intros i j; rewrite Hp; apply present_range).
    assert (Hav : forall i, (i < N)%nat -> d_av_nn_bool N A tr prop sl i = if Req_EM_T (having N sl' q prop i) 0 then 0 else 1).
    { intros i Hi. unfold d_av_nn_bool.
      set (B := if sl then A else if tr && negb (Nat.eqb N 1) then A else set_diag A (fun _ => 0)).
      assert (HB : forall j, (j < N)%nat -> B i j = if allowed sl' i j then q i j else 0).
      { intros j Hj. unfold B, sl', allowed, set_diag. destruct sl; cbn [orb]; [rewrite orb_true_r; apply Hq; assumption|].
        destruct (tr && negb (Nat.eqb N 1)); [rewrite orb_true_r; apply Hq; assumption|]. rewrite orb_false_r.
        destruct (Nat.eqb i j); [reflexivity | apply Hq; assumption]. }
      rewrite bool_dot. unfold having, nb_total, indicator.
      assert (P : forall j, (j < N)%nat -> 0 <= (if allowed sl' i j then q i j * (if prop j then 1 else 0) else 0)).
      { intros j _. destruct (allowed sl' i j); [|lra]. specialize (Q i j). destruct (prop j); lra. }
      destruct (existsb _ (seq 0 N)) eqn:E.
      - apply existsb_exists in E. destruct E as (j & Hj & E). apply in_seq in Hj. apply andb_true_iff in E. destruct E as [E1 E2].
        destruct (Req_EM_T _ 0) as [E0|_]; [|reflexivity]. exfalso.
        pose proof (sumn_zero_inv N _ P E0 j ltac:(lia)) as Z. cbn beta in Z. rewrite HB in E1 by lia. rewrite E2 in Z.
        destruct (allowed sl' i j); [|rewrite Reqb_true in E1 by reflexivity; discriminate].
        rewrite Reqb_true in E1 by lra. discriminate.
      - destruct (Req_EM_T _ 0) as [_|E0]; [reflexivity|]. exfalso. apply E0. apply sumn_zero. intros j Hj.
        destruct (prop j) eqn:Ep; [|destruct (allowed sl' i j); ring].
        assert (K : negb (Reqb (B i j) 0) && prop j = false).
        { apply not_true_is_false. intros K. assert (X : existsb (fun j0 => negb (Reqb (B i j0) 0) && prop j0) (seq 0 N) = true)
            by (apply existsb_exists; exists j; split; [apply in_seq; lia | exact K]). exact (diff_true_false (eq_trans (eq_sym X) E)). }
        rewrite Ep, andb_true_r in K. apply negb_false_iff in K. destruct (Reqb_spec (B i j) 0) as [Eb|]; [|discriminate].
        rewrite HB in Eb by exact Hj. destruct (allowed sl' i j); lra. }
    assert (Hz : forall i, (i < N)%nat -> sumn N (fun j => q i j) = 0 -> having N sl' q prop i = 0).
    { intros i Hi E. unfold having, nb_total. apply sumn_zero. intros j Hj.
      rewrite (sumn_zero_inv N (fun j => q i j) (fun k _ => Q i k) E j Hj). destruct (allowed sl' i j); lra. }
    destruct (divide_total N (d_av_nn_bool N A tr prop sl) deg) as [f Hf].
    { intros i Hi E. rewrite Hav by exact Hi. rewrite Hdeg in E by exact Hi. rewrite (Hz i Hi E). destruct (Req_EM_T 0 0); [reflexivity|lra]. }
    exists f. split; [exact Hf|]. intros i Hi D. rewrite (divide_ok _ _ _ _ Hf). rewrite Hdeg, Hav by exact Hi. fold D. split; intros E.
    - rewrite E. destruct (Req_EM_T 0 0) as [_|]; [|lra]. destruct (Reqb D 0); [reflexivity | unfold Rdiv; ring].
    - destruct (Req_EM_T _ 0) as [|_]; [contradiction|]. destruct (Reqb_spec D 0) as [E0|_]; [exfalso; apply E, Hz; assumption | reflexivity]. }
  assert (U : exists f, divide_by_degree N (d_av_nn_bool N (d_adjacency w s false false) false prop sl) (d_degree N w s) = Ok f /\
    forall i, (i < N)%nat -> let D := sumn N (fun j => neighbours (dlink s) i j) in
      (having N (sl || false) (neighbours (dlink s)) prop i = 0 -> f i = 0) /\
      (having N (sl || false) (neighbours (dlink s)) prop i <> 0 -> f i = 1 / D)).
  { apply (C _ false (neighbours (dlink s))).
    - intros i j _ _. rewrite (d_view w s false false i j Hv). reflexivity.
    - intros i j. unfold neighbours. symmetry. apply present_idem.
    - intros i Hi. unfold d_degree. rewrite d_sum0_eq. apply sumn_ext. intros j _. rewrite (d_view w s false false j i Hv). cbn [andb]. apply neighbours_sym. }
  unfold dnbr, keeps_self. destruct (d_directed s) eqn:Ed; [|exact U]. destruct ndir; cbn [andb].
  - apply (C _ false (fun i j => present (dlink s i j))).
    + intros i j _ _. rewrite (d_view w s true false i j Hv), Ed. reflexivity.
    + intros i j. symmetry. apply present_idem.
    + intros i Hi. rewrite d_sum1_eq. apply sumn_ext. intros j _. rewrite (d_view w s true false i j Hv), Ed. reflexivity.
  - apply (C _ true (fun i j => present (dlink s j i))).
    + intros i j _ _. rewrite (d_view w s true false j i Hv), Ed. reflexivity.
    + intros i j. symmetry. apply present_idem.
    + intros i Hi. rewrite d_sum0_eq. apply sumn_ext. intros j _. rewrite (d_view w s true false j i Hv), Ed. reflexivity.
  - exact U.
  - exfalso. apply Hd; reflexivity.
Qed.
Print Assumptions C82_boolean.

(** Full statement: [f i] is [having … / degree]: the fraction of the neighbours with the property.  It holds where
    at most one neighbour has it and is false otherwise ([C82_boolean_refuted]). *)
Theorem C82_boolean_partial : forall w N s gr prop ndir sl f i, library_dense w N s gr -> (d_directed s = true -> ndir <> Dother) ->
  d_average_nn_bool N w s N prop ndir (Some sl) = Ok f -> (i < N)%nat ->
  let n := having N (keeps_self s ndir N sl) (dnbr s ndir) prop i in
  n = 0 \/ n = 1 -> f i = n / sumn N (fun j => dnbr s ndir i j).
Proof.
  intros w N s gr prop ndir sl f i HG Hd E Hi n Hn.
  destruct (C82_boolean w N s gr prop ndir sl HG Hd) as (f' & E' & V). rewrite E in E'. injection E' as <-.
  specialize (V i Hi). cbv zeta in V. fold n in V. destruct V as [V0 V1]. destruct Hn as [Hn|Hn].
  - rewrite V0 by exact Hn. rewrite Hn. unfold Rdiv. ring.
  - rewrite V1 by lra. rewrite Hn. reflexivity.
Qed.
Print Assumptions C82_boolean_partial.

(** ** RandomDiGraph *)

Lemma sum_all : forall N K c prop, np_sum_all N K (fun i k => nmul (Fin c) (Fin (prop i k)))
  = Fin (sumn N (fun i => sumn K (fun k => c * prop i k))).
Proof.
  intros N K c prop. unfold np_sum_all.
  assert (I : forall n x i, for_range n (fun k acc => nadd acc (nmul (Fin c) (Fin (prop i k)))) (Fin x) = Fin (x + sumn n (fun k => c * prop i k))).
  { induction n as [|n IH]; intros x i; cbn [for_range sumn]; [f_equal; ring|]. rewrite IH. cbn. f_equal. ring. }
  induction N as [|N IH]; [reflexivity|]. cbn [for_range sumn]. rewrite IH, I. f_equal.
Qed.

(** Without self-loops no table is accepted, and the option stays changed; with self-loops the columns are added
    up, whatever their number. *)
Theorem C82_random : forall s p q K prop nd sl, r_param s = Some (Fin p, q) -> 0 < p <= 1 -> (1 <= r_N s)%nat ->
  (effective sl (r_selfloops s) = false -> exists s',
     rnd_av_nn_table (r_N s) K prop nd sl s = (Raise ValueError, s') /\ r_selfloops s' = false) /\
  (effective sl (r_selfloops s) = true -> nd = Dout \/ nd = Din -> exists a s',
     rnd_av_nn_table (r_N s) K prop nd sl s = (Ok a, s') /\ r_selfloops s' = r_selfloops s /\ forall v, (v < r_N s)%nat ->
     a v = Fin (sumn K (fun k => nb_total (r_N s) true (out_link (fun _ _ => p)) (col k prop) v)
                / nb_degree (r_N s) true (out_link (fun _ _ => p)) v)).
Proof.
  intros [N b0 re rw rd rp] p q K prop nd sl Hs Hp HN. cbn [r_param r_N r_selfloops] in *. subst rp.
  assert (HI : 1 <= INR N) by (apply (le_INR 1); exact HN).
  set (s0 := match sl with None => mkRnd N b0 re rw rd (Some (Fin p, q)) | Some b => if Bool.eqb b b0
     then mkRnd N b0 re rw rd (Some (Fin p, q)) else with_rself (mkRnd N b0 re rw rd (Some (Fin p, q))) b end).
  assert (S0 : r_selfloops s0 = effective sl b0 /\ r_N s0 = N /\ r_param s0 = Some (Fin p, q)).
  { unfold s0, effective. destruct sl as [b|]; [|auto]. destruct (Bool.eqb b b0) eqn:E; [apply Bool.eqb_prop in E; subst; auto | auto]. }
  destruct S0 as (S1 & S2 & S3).
  split.
  - intros Hb. exists s0. split; [|rewrite S1; exact Hb]. unfold rnd_av_nn_table. cbn [r_param r_N r_selfloops]. rewrite Nat.eqb_refl. cbn [negb].
    fold s0. unfold rnd_out_degree, rnd_in_degree, rnd_degree, rnd_out_degree. rewrite !S3, S1, Hb.
    destruct nd; cbn [negb]; try reflexivity.
  - intros Hb Hnd.
    assert (T : forall v, (v < N)%nat -> sumn N (fun i => sumn K (fun k => p * prop i k))
        = sumn K (fun k => nb_total N true (out_link (fun _ _ => p)) (col k prop) v)).
    { intros v Hv. rewrite sumn_swap. apply sumn_ext. intros k _. unfold nb_total, out_link, allowed, col. apply sumn_ext. intros j _. rewrite orb_true_r. reflexivity. }
    assert (Dg : forall v, nb_degree N true (out_link (fun _ _ => p)) v = p * INR N).
    { intros v. unfold nb_degree, out_link, allowed. rewrite (sumn_ext N _ (fun _ => p)) by (intros; rewrite orb_true_r; reflexivity). rewrite sumn_const. ring. }
    exists (fun _ => Fin (sumn N (fun i => sumn K (fun k => p * prop i k)) / (p * INR N))).
    exists (if Bool.eqb b0 (r_selfloops s0) then s0 else with_rself s0 b0).
    split; [|split].
    + unfold rnd_av_nn_table. cbn [r_param r_N r_selfloops]. rewrite Nat.eqb_refl. cbn [negb]. fold s0.
      assert (Hn0 : p * INR N <> 0) by nra.
      assert (F : forall (x : num) l, forallb (fun i : nat => negb (is0 (nmul (Fin p) (Fin (INR N)))) || is0 x) l = true).
      { intros x l. apply forallb_forall. intros i _. cbn. rewrite Reqb_false by exact Hn0. reflexivity. }
      assert (Ho : rnd_out_degree s0 = Ok (fun _ => nmul (Fin p) (Fin (INR N)))).
      { unfold rnd_out_degree. rewrite S3, S1, Hb, S2. reflexivity. }
      unfold rnd_in_degree. rewrite Ho, S2.
      destruct Hnd as [-> | ->]; rewrite sum_all; cbn beta; rewrite F; cbn; rewrite Reqb_false by exact Hn0; rewrite S1, Hb; reflexivity.
    + cbn [r_selfloops]. destruct (Bool.eqb b0 (r_selfloops s0)) eqn:E; [apply Bool.eqb_prop in E; auto | reflexivity].
    + intros v Hv. rewrite Dg, (T v Hv). reflexivity.
Qed.
Print Assumptions C82_random.

(** ** Concrete cases: two vertices with out-fitness [a] and [b], in-fitness and parameter 1. *)
Definition two_x (a b : R) (i : nat) : num := Fin (if Nat.eqb i 0 then a else b).
Definition two (a b : R) : model := FitnessModel 2 (Fin 1) (two_x a b) (fun _ => Fin 1) (fun _ _ => Fin 1).
Definition two_q (a b : R) (i j : nat) : R := link_prob logistic [Fin 1; two_x a b i; Fin 1; Fin 1].
Lemma two_lib : forall a b, 0 <= a -> 0 <= b -> library_model (two a b) (two_q a b).
Proof.
  intros a b Ha Hb. apply (lib_fitness 2 (Fin 1) (two_x a b) (fun _ => Fin 1) (fun _ _ => Fin 1)); try (intros; simpl; lra).
  intros i _. unfold two_x. destruct (Nat.eqb i 0); simpl; lra.
Qed.
Lemma two_val : forall a b i j, 0 <= a -> 0 <= b -> two_q a b i j = if Nat.eqb i 0 then a / (1 + a) else b / (1 + b).
Proof.
  intros a b i j Ha Hb. unfold two_q, two_x, link_prob. cbn [existsb is_zero is_infinite orb].
  rewrite !(Reqb_false 1 0) by lra.
  destruct (Nat.eqb i 0); [destruct (Reqb_spec a 0) as [->|]|destruct (Reqb_spec b 0) as [->|]]; cbn; unfold logistic; try field; lra.
Qed.

Lemma two_deg : forall a b v sl, 0 <= a -> 0 <= b -> (v < 2)%nat -> nb_degree 2 sl (dir_link Dout (two_q a b)) v
  = (if Nat.eqb v 0 then a / (1 + a) else b / (1 + b)) * (if sl then 2 else 1).
Proof.
  intros a b v sl Ha Hb Hv. unfold nb_degree, dir_link, out_link, allowed. cbn [sumn]. rewrite !two_val by assumption.
  destruct v as [|[|v]]; [| |lia]; destruct sl; cbn; ring.
Qed.

Lemma two_nonempty : forall a b sl, 0 < a -> 0 < b -> nonempty 2 (nb_degree 2 sl (dir_link Dout (two_q a b))) = [0%nat; 1%nat].
Proof.
  intros a b sl Ha Hb. unfold nonempty. cbn [seq filter]. rewrite !two_deg by (lra || lia). cbn [Nat.eqb].
  assert (Pa : 0 < a / (1 + a)) by (apply Rdiv_lt_0_compat; lra). assert (Pb : 0 < b / (1 + b)) by (apply Rdiv_lt_0_compat; lra).
  destruct (Req_EM_T _ 0) as [E|_]; [destruct sl; lra|]. destruct (Req_EM_T _ 0) as [E|_]; [destruct sl; lra|]. reflexivity.
Qed.

Example C82_ensemble_case : library_model (two 1 3) (two_q 1 3) /\ constant_dyad (two 1 3) /\
  degrees_current (two 1 3) (new_ens (Some (m_param (two 1 3))) false) /\
  length (nonempty 2 (nb_degree 2 false (dir_link Dout (two_q 1 3)))) = 2%nat.
Proof.
  split; [apply two_lib; lra|]. split; [intros i j k; reflexivity|]. split; [left; auto|]. rewrite two_nonempty by lra. reflexivity.
Qed.

Example C82_ensemble_partial_case : library_model (two 3 0) (two_q 3 0) /\
  exists v, (v < 2)%nat /\ forall w, (w < 2)%nat -> (nb_degree 2 true (dir_link Dout (two_q 3 0)) w <> 0 <-> w = v).
Proof.
  split; [apply two_lib; lra|]. exists 0%nat. split; [lia|]. intros w Hw. rewrite two_deg by (lra || lia).
  destruct w as [|[|w]]; [| |lia]; cbn [Nat.eqb]; split; intros H; try reflexivity; try lra; try discriminate.
Qed.

(** A table of one column is refused when both vertices have neighbours, and the option stays at the argument. *)
Theorem C82_error_refuted : exists m q s prop s', library_model m q /\ s = new_ens (Some (m_param m)) false /\
  (forall v, (v < m_N m)%nat -> nb_degree (m_N m) true (dir_link Dout q) v <> 0) /\
  o_av_nn_table m (m_N m) 1 prop Dout (Some true) false s = (Raise ValueError, s') /\ a_selfloops s' = true.
Proof.
  exists (two 1 3), (two_q 1 3), (new_ens (Some (m_param (two 1 3))) false), (fun _ _ => 1).
  assert (L := two_lib 1 3 ltac:(lra) ltac:(lra)).
  pose proof (C82_ensemble (two 1 3) (two_q 1 3) (new_ens (Some (m_param (two 1 3))) false) 1 (fun _ _ => 1) Dout (Some true) false L
    eq_refl ltac:(intros i j k; reflexivity) ltac:(discriminate) ltac:(intros; cbn; lia) ltac:(right; left; auto)) as C. cbv zeta in C.
  destruct (o_av_nn_table (two 1 3) (m_N (two 1 3)) 1 (fun _ _ => 1) Dout (Some true) false (new_ens (Some (m_param (two 1 3))) false)) as [r s'] eqn:E.
  destruct C as [(_ & _ & O) S]. cbn [effective] in O. change (m_N (two 1 3)) with 2%nat in O. rewrite two_nonempty in O by lra.
  specialize (O ltac:(discriminate) ltac:(discriminate)). subst r. exists s'. split; [exact L|]. split; [reflexivity|]. split; [|split].
  - intros v Hv. change (m_N (two 1 3)) with 2%nat in *. rewrite two_deg by (lra || assumption). destruct (Nat.eqb v 0); lra.
  - first [exact E | reflexivity].
  - exact S.
Qed.
Print Assumptions C82_error_refuted.

(** With two columns of ones, whose averages are 1, the result has an entry 2/3. *)
Theorem C82_wrong_refuted : exists m q s prop a s', library_model m q /\ s = new_ens (Some (m_param m)) false /\
  (forall i k, prop i k = 1) /\ (forall v, (v < m_N m)%nat -> nb_degree (m_N m) false (dir_link Dout q) v <> 0) /\
  o_av_nn_table m (m_N m) 2 prop Dout None false s = (Ok a, s') /\
  (forall v k, (v < m_N m)%nat -> nb_total (m_N m) false (dir_link Dout q) (col k prop) v / nb_degree (m_N m) false (dir_link Dout q) v = 1) /\
  a 0%nat 1%nat = 2 / 3.
Proof.
  exists (two 1 3), (two_q 1 3), (new_ens (Some (m_param (two 1 3))) false), (fun _ _ => 1).
  assert (L := two_lib 1 3 ltac:(lra) ltac:(lra)).
  pose proof (C82_ensemble (two 1 3) (two_q 1 3) (new_ens (Some (m_param (two 1 3))) false) 2 (fun _ _ => 1) Dout None false L
    eq_refl ltac:(intros i j k; reflexivity) ltac:(discriminate) ltac:(intros; cbn; lia) ltac:(right; left; auto)) as C. cbv zeta in C.
  destruct (o_av_nn_table (two 1 3) (m_N (two 1 3)) 2 (fun _ _ => 1) Dout None false (new_ens (Some (m_param (two 1 3))) false)) as [r s'] eqn:E.
  destruct C as [(_ & O & _) S]. cbn [effective a_selfloops new_ens] in O. change (m_N (two 1 3)) with 2%nat in *.
  assert (Nn := two_nonempty 1 3 false ltac:(lra) ltac:(lra)).
  destruct O as (a & -> & V); [rewrite Nn; discriminate | rewrite Nn; reflexivity|].
  assert (Tt : forall v k, (v < 2)%nat -> nb_total 2 false (dir_link Dout (two_q 1 3)) (col k (fun _ _ => 1)) v = nb_degree 2 false (dir_link Dout (two_q 1 3)) v).
  { intros v k Hv. unfold nb_total, nb_degree, col. apply sumn_ext. intros j _. destruct (allowed false v j); ring. }
  assert (Dn : forall v, (v < 2)%nat -> nb_degree 2 false (dir_link Dout (two_q 1 3)) v <> 0).
  { intros v Hv. rewrite two_deg by (lra || assumption). destruct (Nat.eqb v 0); lra. }
  exists a, s'. split; [exact L|]. split; [reflexivity|]. split; [reflexivity|]. split; [exact Dn|]. split; [first [exact E | reflexivity]|]. split.
  - intros v k Hv. rewrite Tt by exact Hv. field. apply Dn; exact Hv.
  - rewrite (V 0%nat 1%nat) by lia. rewrite Nn. cbn [nth]. destruct (Req_EM_T _ 0) as [E0|_]; [exfalso; apply (Dn 0%nat ltac:(lia) E0)|].
    rewrite Tt by lia. rewrite !two_deg by (lra || lia). cbn [Nat.eqb]. field.
Qed.
Print Assumptions C82_wrong_refuted.

Example C82_spark_case : spark_single ex_m ex_q /\ (1 <= m_N ex_m)%nat /\
  length (nonempty 3 (nb_degree 3 false (dir_link Din ex_q))) = 2%nat.
Proof.
  split; [exact ex_single|]. split; [cbn; lia|].
  assert (Q : forall i j, ex_q i j = if Nat.eqb j 2 then 0 else 1 / 2).
  { intros i j. unfold ex_q, ex_y, link_prob. destruct (Nat.eqb j 2); cbn [existsb is_zero is_infinite orb]; rewrite !(Reqb_false 1 0) by lra;
      rewrite ?(Reqb_true 0 0) by lra; cbn; unfold logistic; try field; reflexivity. }
  unfold nonempty. cbn [seq filter]. unfold nb_degree, dir_link, in_link, allowed. cbn [sumn]. rewrite !Q. cbn.
  destruct (Req_EM_T _ 0) as [E|_]; [lra|]. destruct (Req_EM_T _ 0) as [E|_]; [lra|]. destruct (Req_EM_T _ 0) as [_|E]; [reflexivity|lra].
Qed.

(** Graphs: a link each way between two vertices, and a table of one column. *)
Lemma two_way : forall i, (i < 2)%nat -> forall s, s = DDiGraph (assign_all (map (fun t => (fst t, snd t)) [(0%nat, 1%nat, 1); (1%nat, 0%nat, 1)])) ->
  sumn 2 (fun j => dnbr s Dout i j) = 1.
Proof.
  intros i Hi s ->. unfold dnbr. cbn. destruct i as [|[|i]]; [| |lia]; cbn; rewrite !present_0; rewrite !present_pos by lra; lra.
Qed.

Theorem C82_dense_refuted : exists s gr prop, library_dense true 2 s gr /\
  (forall i, (i < 2)%nat -> sumn 2 (fun j => dnbr s Dout i j) = 1) /\
  d_average_nn_table 2 true s 2 1 prop Dout (Some true) = Raise ValueError.
Proof.
  destruct (dense_two_library true [(0%nat, 1%nat, 1); (1%nat, 0%nat, 1)]) as [g [_ [_ G]]]; [small_rows|].
  eexists _, _, (fun _ _ => 1). split; [exact G|].
  assert (D := fun i Hi => two_way i Hi _ eq_refl). split; [exact D|].
  destruct (C82_dense true 2 _ _ 1 (fun _ _ => 1) Dout true G ltac:(discriminate)) as (_ & _ & O). cbv zeta in O.
  assert (Nn : nonempty 2 (fun i => sumn 2 (fun j => dnbr (DDiGraph (assign_all (map (fun t => (fst t, snd t)) [(0%nat, 1%nat, 1); (1%nat, 0%nat, 1)]))) Dout i j)) = [0%nat; 1%nat]).
  { unfold nonempty. cbn [seq filter]. rewrite !D by lia. destruct (Req_EM_T 1 0); [lra|reflexivity]. }
  apply O; rewrite Nn; discriminate.
Qed.
Print Assumptions C82_dense_refuted.

(** A vertex with two neighbours (itself and the other one), both with the property: 1/2 instead of 1. *)
Theorem C82_boolean_refuted : exists s gr f, library_dense true 2 s gr /\
  d_average_nn_bool 2 true s 2 (fun _ => true) Dout (Some true) = Ok f /\
  having 2 true (dnbr s Dout) (fun _ => true) 0 / sumn 2 (fun j => dnbr s Dout 0 j) = 1 /\ f 0%nat = 1 / 2.
Proof.
  destruct (dense_two_library true [(0%nat, 0%nat, 1); (0%nat, 1%nat, 1)]) as [g [_ [_ G]]]; [small_rows|].
  destruct (C82_boolean true 2 _ _ (fun _ => true) Dout true G ltac:(discriminate)) as (f & E & V).
  eexists _, _, f. split; [exact G|]. split; [exact E|].
  specialize (V 0%nat ltac:(lia)). cbv zeta in V. destruct V as [_ V].
  match type of V with ?h <> 0 -> f 0%nat = 1 / ?d => assert (H : h = 2) by (unfold having, nb_total, dnbr, keeps_self, indicator; cbn; rewrite !present_pos by lra; lra);
    assert (Hd : d = 2) by (unfold dnbr; cbn; rewrite !present_pos by lra; lra) end.
  rewrite H, Hd in V. split; [|apply V; lra].
  change (having 2 true ?q ?p ?i) with (having 2 (keeps_self (DDiGraph (fun _ _ => 0)) Dout 2 true) q p i).
  unfold keeps_self in H |- *. cbn [orb] in H |- *. rewrite H, Hd. lra.
Qed.
Print Assumptions C82_boolean_refuted.

(** One neighbour has the property. *)
Example C82_boolean_partial_case : exists s gr f, library_dense true 2 s gr /\
  d_average_nn_bool 2 true s 2 (Nat.eqb 1) Dout (Some true) = Ok f /\
  having 2 true (dnbr s Dout) (Nat.eqb 1) 0 = 1 /\ f 0%nat = 1 / 2.
Proof.
  destruct (dense_two_library true [(0%nat, 0%nat, 1); (0%nat, 1%nat, 1)]) as [g [_ [_ G]]]; [small_rows|].
  destruct (C82_boolean true 2 _ _ (Nat.eqb 1) Dout true G ltac:(discriminate)) as (f & E & V).
  eexists _, _, f. split; [exact G|]. split; [exact E|].
  specialize (V 0%nat ltac:(lia)). cbv zeta in V. destruct V as [_ V].
  match type of V with ?h <> 0 -> f 0%nat = 1 / ?d => assert (H : h = 1) by (unfold having, nb_total, dnbr, keeps_self, indicator; cbn; rewrite !present_pos by lra; lra);
    assert (Hd : d = 2) by (unfold dnbr; cbn; rewrite !present_pos by lra; lra) end.
  rewrite H, Hd in V. split; [|apply V; lra]. unfold keeps_self in H. cbn [orb] in H. exact H.
Qed.

(** Two columns of a random graph with self-loops: the averages are 1 and 2, the answer is the vector of threes. *)
Theorem C82_random_refuted : exists s prop a s', r_param s = Some (Fin (1/2), Fin 0) /\ r_N s = 2%nat /\
  rnd_av_nn_table 2 2 prop Dout (Some true) s = (Ok a, s') /\
  nb_total 2 true (out_link (fun _ _ => 1/2)) (col 0 prop) 0 / nb_degree 2 true (out_link (fun _ _ => 1/2)) 0 = 1 /\
  nb_total 2 true (out_link (fun _ _ => 1/2)) (col 1 prop) 0 / nb_degree 2 true (out_link (fun _ _ => 1/2)) 0 = 2 /\
  a 0%nat = Fin 3.
Proof.
  set (s := mkRnd 2 false None None None (Some (Fin (1/2), Fin 0))). set (prop := fun _ k : nat => INR k + 1).
  destruct (C82_random s (1/2) (Fin 0) 2 prop Dout (Some true) eq_refl ltac:(lra) ltac:(cbn; lia)) as [_ H].
  destruct (H eq_refl (or_introl eq_refl)) as (a & s' & E & _ & V). exists s, prop, a, s'.
  split; [reflexivity|]. split; [reflexivity|]. split; [exact E|].
  split; [unfold nb_total, nb_degree, out_link, allowed, col, prop; cbn; field|].
  split; [unfold nb_total, nb_degree, out_link, allowed, col, prop; cbn; field|].
  rewrite (V 0%nat) by (cbn; lia). f_equal. unfold nb_total, nb_degree, out_link, allowed, col, prop. cbn. field.
Qed.
Print Assumptions C82_random_refuted.

Example C82_random_case : r_param (mkRnd 3 true None None None (Some (Fin (1/4), Fin 0))) = Some (Fin (1/4), Fin 0) /\
  snd (rnd_av_nn_table 3 2 (fun i k => INR (i + k)) Doutin (Some false) (mkRnd 3 true None None None (Some (Fin (1/4), Fin 0))))
  = mkRnd 3 false None None None (Some (Fin (1/4), Fin 0)).
Proof. split; reflexivity. Qed.
