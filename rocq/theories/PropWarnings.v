(** Property of the graph constructors: C74, the warnings about vertices without edges. *)
From Verif Require Import Base Num Spec Ids Ensemble Lib IdFacts Graphs GraphFacts DenseGraphs DenseFacts PropTables Warnings.
Import Num Spec.
From Coq Require Import Sorting.Sorted.

(** What the warning [w] must be: it names the vertices at no end of a row, each once, in increasing order. *)
Definition right_warning {ID G Lb} (leb : ID -> ID -> bool) (v : list (ID * G)) (e : list (erow ID Lb)) (w : warning ID) : Prop :=
  exists names,
    (forall x, In x names <-> In x (map fst v) /\ forall r, In r e -> r_src r <> x /\ r_dst r <> x) /\
    StronglySorted (fun x y => leb x y = true /\ x <> y) names /\
    w = match names with [] => Silent | [x] => OneVertex x | _ => Vertices names end.

Lemma warning_right : forall ID G Lb leb_id leb_g grouped sl dl w (v : list (ID * G)) (e : list (erow ID Lb)) b (q : nat -> nat -> R) d,
  total_order leb_id -> total_order leb_g -> read_tables leb_id leb_g grouped sl dl w v e = Ok b ->
  (forall i, (i < b_n b)%nat -> d i = sumn (b_n b) (fun j => q i j)) -> (forall i j, 0 <= q i j) ->
  (forall y z i j, dict_get leb_id (b_ids b) y = Some i -> dict_get leb_id (b_ids b) z = Some j ->
     (q i j = 0 <-> existsb (row_matches leb_id y z) e = false /\ existsb (row_matches leb_id z y) e = false)) ->
  exists k, warn_zero (b_n b) (b_ids b) d = Ok k /\ right_warning leb_id v e k.
Proof.
  intros ID G Lb leb_id leb_g grouped sl dl w v e b q d Oi Og Hb Hd Hq HQ.
  destruct (ids_enum leb_id leb_g Oi Og _ _ _ _ _ _ _ Hb) as [Ei En].
  destruct (read_tables_ok leb_id leb_g Oi Og _ _ _ _ _ _ _ Hb) as (_ & E & Hl & Hn & _ & _ & _ & Hr & _).
  set (l := np_unique leb_id (map fst v)) in *.
  assert (Hs : StronglySorted (ltk leb_id) l) by apply (unique_sorted leb_id Oi).
  destruct (warn_spec leb_id (b_ids b) l d Hs Ei) as (k & Hk & K1 & K2 & K3 & K4 & K5).
  rewrite En. exists k. split; [exact Hk|]. exists (named k). split; [|split; [exact K5|]].
  - assert (P : forall x p, nth_error l p = Some x -> (In x (named k) <-> forall r, In r e -> r_src r <> x /\ r_dst r <> x)).
    { intros x p Hp. rewrite (K3 p x Hp). assert (Lp : (p < b_n b)%nat) by (rewrite En; apply nth_error_Some; congruence).
      rewrite (Hd p Lp). apply (no_rows leb_id Oi v e (b_n b) (b_ids b) q x p E).
      - congruence.
      - intros r Hin. destruct (Hr r Hin) as (A & B & _). split; assumption.
      - exact Hq.
      - exact HQ.
      - rewrite Ei. apply (get_enum leb_id Oi); [apply (sorted_nodup leb_id _ Hs)|]. rewrite Nat.sub_0_r. split; [lia | exact Hp]. }
    intros x. split.
    + intros H. pose proof (K4 x H) as Hx. destruct (In_nth_error _ _ Hx) as [p Hp]. split; [apply (unique_in leb_id Oi), Hx|].
      apply (P x p Hp), H.
    + intros [Hx H]. apply (unique_in leb_id Oi) in Hx. destruct (In_nth_error _ _ Hx) as [p Hp]. apply (P x p Hp), H.
  - destruct k as [|x|names]; cbn [named] in *; [reflexivity | reflexivity|].
    destruct names as [|x [|y t]]; [apply K1; reflexivity | apply K2; reflexivity | reflexivity].
Qed.

Lemma neighbours_zero : forall w i j, 0 <= w i j -> 0 <= w j i -> (neighbours w i j = 0 <-> w i j = 0 /\ w j i = 0).
Proof.
  intros w i j P1 P2. unfold neighbours, both_ways. destruct (Nat.eqb_spec i j) as [->|]; split.
  - intros Q. apply present_nonneg_zero in Q; [|exact P1]. split; exact Q.
  - intros [-> _]. apply present_0.
  - intros Q. apply present_nonneg_zero in Q; lra.
  - intros [-> ->]. rewrite Rplus_0_l. apply present_0.
Qed.

(** The warning of the sparse classes; [A] is the matrix of all rows, whatever their labels. *)
Theorem C74_sparse : forall (ID G Lb : Type) leb_id leb_g grouped sl dl w (v : list (ID * G)) (e : list (erow ID Lb)) b A,
  total_order leb_id -> total_order leb_g ->
  sparse_graph leb_id leb_g grouped sl dl w v e = Ok (b, A) ->
  exists k, sparse_warning (b_n b) (b_ids b) A = Ok k /\ right_warning leb_id v e k.
Proof.
  intros ID G Lb leb_id leb_g grouped sl dl w v e b A Oi Og H.
  pose proof (simple_pieces _ _ _ _ _ _ _ _ _ _ _ _ _ H) as [Hb HA].
  destruct (read_tables_ok leb_id leb_g Oi Og _ _ _ _ _ _ _ Hb) as (_ & (E1 & E2 & _) & Hl & Hn & _ & _ & _ & Hr & _).
  assert (F : wf (b_n b) A). { rewrite HA. apply coo_wf. eapply in_range_pos, edges_in_range; eassumption. }
  unfold sparse_warning.
  apply (warning_right ID G Lb leb_id leb_g grouped sl dl w v e b (fun i j => neighbours (fun i j => W A i j) i j)); try assumption.
  - intros i Hi. rewrite (axis1_sum _ _ (either_way_wf _ _ F)) by exact Hi. apply sumn_ext. intros j Hj. apply either_way_entry; assumption.
  - intros i j. unfold neighbours. apply present_range.
  - intros y z i j Hy Hz. destruct (simple_cell leb_id leb_g Oi Og _ _ _ _ _ _ b A H y z i j Hy Hz) as [C1 _].
    destruct (simple_cell leb_id leb_g Oi Og _ _ _ _ _ _ b A H z y j i Hz Hy) as [C2 _].
    assert (Li : (i < b_n b)%nat) by (rewrite Hn, <- Hl; apply (E2 _ _ Hy)). assert (Lj : (j < b_n b)%nat) by (rewrite Hn, <- Hl; apply (E2 _ _ Hz)).
    rewrite <- (wf_pos_in _ _ F) in C1, C2 by assumption. pose proof (wf_nonneg _ _ F i j Li) as P1. pose proof (wf_nonneg _ _ F j i Lj) as P2.
    rewrite (neighbours_zero (fun i j => W A i j) i j P1 P2). split.
    + intros [Z1 Z2].
      split; [destruct (existsb (row_matches leb_id y z) e); [|reflexivity] | destruct (existsb (row_matches leb_id z y) e); [|reflexivity]].
      * assert (0 < W A i j) by (apply C1; reflexivity). lra.
      * assert (0 < W A j i) by (apply C2; reflexivity). lra.
    + intros [Q1 Q2]. rewrite Q1 in C1. rewrite Q2 in C2. split.
      * destruct P1 as [P1|P1]; [apply C1 in P1; discriminate | symmetry; exact P1].
      * destruct P2 as [P2|P2]; [apply C2 in P2; discriminate | symmetry; exact P2].
Qed.
Print Assumptions C74_sparse.

(** The warning of the dense classes. *)
Theorem C74_dense : forall (ID G Lb : Type) leb_id leb_g grouped sl dl w (v : list (ID * G)) (e : list (erow ID Lb)) b D,
  total_order leb_id -> total_order leb_g ->
  dense_graph leb_id leb_g grouped sl dl w v e = Ok (b, D) ->
  exists k, dense_warning (b_n b) (b_ids b) D = Ok k /\ right_warning leb_id v e k.
Proof.
  intros ID G Lb leb_id leb_g grouped sl dl w v e b D Oi Og H.
  pose proof (dense_pieces leb_id leb_g _ _ _ _ _ _ b D H) as [Hb HD].
  destruct (read_tables_ok leb_id leb_g Oi Og _ _ _ _ _ _ _ Hb) as (_ & (E1 & E2 & _) & Hl & Hn & _ & _ & _ & Hr & _).
  destruct (dense_mat_ok leb_id leb_g Oi Og _ _ _ _ _ _ b D H) as [F _].
  unfold dense_warning.
  apply (warning_right ID G Lb leb_id leb_g grouped sl dl w v e b (fun i j => neighbours D i j)); try assumption.
  - intros i Hi. rewrite d_sum1_eq. apply sumn_ext. intros j Hj. apply d_either_eq, F.
  - intros i j. unfold neighbours. apply present_range.
  - assert (C : forall y z i j, dict_get leb_id (b_ids b) y = Some i -> dict_get leb_id (b_ids b) z = Some j ->
              (D i j = 0 <-> existsb (row_matches leb_id y z) e = false)).
    { intros y z i j Hy Hz. destruct (dense_last leb_id leb_g Oi Og _ _ _ _ _ _ b D H y z i j Hy Hz) as [C1 C2]. split; [|exact C1].
      intros Q. destruct (existsb (row_matches leb_id y z) e) eqn:X; [|reflexivity]. exfalso.
      apply split_last in X as (e1 & r & e2 & Ee & M1 & M2). pose proof (C2 e1 r e2 Ee M1 M2) as V.
      destruct (Hr r) as (_ & _ & P); [rewrite Ee; apply in_elt|]. destruct w; [specialize (P eq_refl)|]; lra. }
    intros y z i j Hy Hz. rewrite (neighbours_zero D i j (F i j) (F j i)), (C y z i j Hy Hz), (C z y j i Hz Hy). reflexivity.
Qed.
Print Assumptions C74_dense.

(** Vertices 40, 5 added to those of [ex_v]: both are named; a vertex with a self-loop only is not. *)
Definition ex_v5 : list (nat * nat) := ((40, 5) :: (5, 5) :: ex_v)%nat.
Definition ex_e1 : list (erow nat nat) := [mkRow 30%nat 30%nat 4 1%nat; mkRow 20%nat 10%nat 1 2%nat].

Lemma ex5_ok : NoDup (map fst ex_v5) /\ forall w r, In r ex_e1 -> In (r_src r) (map fst ex_v5) /\ In (r_dst r) (map fst ex_v5) /\ (w = true -> 0 < r_weight r).
Proof.
  split; [cbn; repeat (constructor; [cbn; intuition lia|]); constructor|].
  intros w r H. cbn in H. destruct H as [<-|[<-|[]]]; cbn; (split; [tauto|]; split; [tauto|]; intros _; lra).
Qed.

Lemma ex5_names : forall k, right_warning Nat.leb ex_v5 ex_e1 k -> k = Vertices [5; 40]%nat.
Proof.
  intros k (names & M & S & ->).
  assert (I : forall x, In x names <-> x = 5%nat \/ x = 40%nat).
  { intros x. rewrite M. cbn. split.
    - intros [[<-|[<-|[<-|[<-|[<-|[]]]]]] H]; auto; exfalso;
        first [destruct (H _ (or_introl eq_refl)) as [A B]; cbn in A, B; congruence
              | destruct (H _ (or_intror (or_introl eq_refl))) as [A B]; cbn in A, B; congruence].
    - intros [-> | ->]; (split; [tauto|]); intros r [<-|[<-|[]]]; cbn; split; lia. }
  clear M. assert (L : names = [5; 40]%nat); [|rewrite L; reflexivity].
  assert (N : NoDup names) by (apply (sorted_nodup Nat.leb); exact S).
  destruct names as [|x [|y t]].
  - exfalso. apply (proj2 (I 5%nat)). auto.
  - exfalso. destruct (proj2 (I 5%nat) (or_introl eq_refl)) as [A|[]]. destruct (proj2 (I 40%nat) (or_intror eq_refl)) as [B|[]]. lia.
  - apply StronglySorted_inv in S as [S1 S2]. inversion S2 as [|? ? [Q1 Q2] _]; subst. apply Nat.leb_le in Q1.
    destruct (proj1 (I x) (or_introl eq_refl)); destruct (proj1 (I y) (or_intror (or_introl eq_refl))); subst; try lia.
    destruct t as [|z t]; [reflexivity|]. exfalso. inversion N as [|? ? N1 N2]; subst. inversion N2 as [|? ? N3 _]; subst.
    destruct (proj1 (I z) (or_intror (or_intror (or_introl eq_refl)))); subst; [apply N1 | apply N3]; cbn; auto.
Qed.

Example C74_case : exists b A D,
  sparse_graph Nat.leb Nat.leb true false false true ex_v5 ex_e1 = Ok (b, A) /\
  dense_graph Nat.leb Nat.leb true false false true ex_v5 ex_e1 = Ok (b, D) /\
  sparse_warning (b_n b) (b_ids b) A = Ok (Vertices [5; 40]%nat) /\
  dense_warning (b_n b) (b_ids b) D = Ok (Vertices [5; 40]%nat).
Proof.
  destruct ex5_ok as [Hn Hr].
  destruct (build Nat.leb Nat.leb nat_order nat_order true false true ex_v5 ex_e1 Hn (Hr true)) as [gr [Hb _]].
  eexists. eexists. eexists. unfold sparse_graph, dense_graph. rewrite Hb. cbn [bind]. split; [reflexivity|]. split; [reflexivity|]. split.
  - edestruct (C74_sparse nat nat nat Nat.leb Nat.leb true false false true ex_v5 ex_e1) as (k & Hk & R);
      [exact nat_order | exact nat_order | unfold sparse_graph; rewrite Hb; reflexivity|]. rewrite (ex5_names k R) in Hk. exact Hk.
  - edestruct (C74_dense nat nat nat Nat.leb Nat.leb true false false true ex_v5 ex_e1) as (k & Hk & R);
      [exact nat_order | exact nat_order | unfold dense_graph; rewrite Hb; reflexivity|]. rewrite (ex5_names k R) in Hk. exact Hk.
Qed.
