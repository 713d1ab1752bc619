(** Property C84: the multi-label classes of the spark module compute the documented measures of the
    projection (at least one layer linked) from compressed sparse rows cut into blocks, and their objects
    answer accordingly.  [u] gives the kernels, the size and the fitnesses as lists of rows; [cx], [cy]
    are the same fitnesses as the class stores them. *)
From Coq Require Import ZArith Permutation FunctionalExtensionality Classical_Prop.
From Verif Require Import Base Num Spec Kernels KernelFacts MultiKernels MultiFacts Prob Ensemble EnsembleFacts
  EnsembleProps Lib Ids Graphs DenseGraphs EnsembleState Models ModelFacts StateFacts StateProps Solver Fit Spark SparkFacts SparkMeasures
  SparkConfusion SparkLib SparkState SparkStateFacts PropSparkState Layers LayerFacts LayerProps LayerLib PropLayers
  MultiState MultiStateFacts MultiStateProps PropMultiState PropSpark SparkMulti SparkMultiFacts.
Import Num Spec.

(** The compressed sparse row form of a list of rows: the labels and the values one row after the other,
    and the position at which each row starts. *)
Definition csr_of (c : csx) (rows : list (list nat * list num)) : Prop :=
  c_indices c = concat (map fst rows) /\ c_data c = concat (map snd rows) /\
  length (c_indptr c) = S (length rows) /\
  forall i, (i <= length rows)%nat -> nth i (c_indptr c) 0%nat = length (concat (map fst (firstn i rows))).

Lemma concat_fst_length : forall (rows : list tuple),
  length (concat (map fst rows)) = sum_list (map (fun t => length (fst t)) rows).
Proof. intros rows. rewrite concat_length, map_map. reflexivity. Qed.

Lemma csr_pack : forall c rows, csr_of c rows <-> c = pack rows.
Proof.
  intros [d ix ptr] rows. unfold csr_of, pack; cbn [c_data c_indices c_indptr].
  assert (Q : forall i, (i <= length rows)%nat ->
    nth i (prefix_sums 0 (map (fun t : tuple => length (fst t)) rows)) 0%nat = length (concat (map fst (firstn i rows)))).
  { intros i Hi. rewrite prefix_sums_nth by (rewrite map_length; exact Hi). rewrite Nat.add_0_l, firstn_map.
    symmetry. apply concat_fst_length. }
  split.
  - intros (-> & -> & L & H). f_equal. apply (list_eq_nth _ _ _ 0%nat).
    + rewrite L, prefix_sums_length, map_length. reflexivity.
    + intros k Hk. rewrite L in Hk. rewrite H, Q by (unfold tuple in *; lia). reflexivity.
  - intros [= -> -> ->]. repeat split.
    + rewrite prefix_sums_length, map_length. reflexivity.
    + exact Q.
Qed.

(** ** Row slices: the slice of the matrix is the matrix of the slice. *)
Theorem C84_rows : forall c rows lo hi, csr_of c rows -> Forall (fun r => length (fst r) = length (snd r)) rows ->
  (lo <= hi <= length rows)%nat -> csr_of (take_rows c (lo, hi)) (firstn (hi - lo) (skipn lo rows)).
Proof.
  intros c rows lo hi H G [H1 H2]. apply csr_pack in H. subst c.
  set (A := firstn lo rows). set (M := firstn (hi - lo) (skipn lo rows)). set (Z := skipn (hi - lo) (skipn lo rows)).
  assert (D : rows = A ++ M ++ Z) by (unfold A, M, Z; rewrite firstn_skipn, firstn_skipn; reflexivity).
  assert (LA : length A = lo) by (unfold A; rewrite firstn_length; lia).
  assert (LM : length M = (hi - lo)%nat) by (unfold M; rewrite firstn_length, skipn_length; lia).
  assert (K : forall k, (k <= hi - lo)%nat -> firstn (lo + k) rows = A ++ firstn k M).
  { intros k Hk. rewrite D, firstn_app, LA. rewrite firstn_all2 by lia. f_equal.
    replace (lo + k - lo)%nat with k by lia. rewrite firstn_app, LM. replace (k - (hi - lo))%nat with 0%nat by lia.
    rewrite firstn_O, app_nil_r. reflexivity. }
  assert (P : forall k, (k <= length rows)%nat ->
    nth k (c_indptr (pack rows)) 0%nat = length (concat (map fst (firstn k rows)))).
  { apply (proj2 (csr_pack (pack rows) rows) eq_refl). }
  assert (S : forall T (f : list nat * list num -> list T), (forall k, (k <= length rows)%nat ->
      length (concat (map f (firstn k rows))) = length (concat (map fst (firstn k rows)))) ->
    Layers.slice (concat (map f rows)) (nth lo (c_indptr (pack rows)) 0%nat) (nth hi (c_indptr (pack rows)) 0%nat)
    = concat (map f M)).
  { intros T f Hf. rewrite !P by lia. rewrite <- !Hf by lia.
    replace hi with (lo + (hi - lo))%nat at 1 by lia. rewrite K by lia. rewrite firstn_all2 with (l := M) by lia.
    replace (firstn lo rows) with A by reflexivity. rewrite D. rewrite !map_app, !concat_app, app_length.
    unfold Layers.slice. rewrite skipn_app, skipn_all, Nat.sub_diag. cbn [app]. rewrite skipn_O.
    replace (length (concat (map f A)) + length (concat (map f M)) - length (concat (map f A)))%nat
      with (length (concat (map f M))) by lia.
    rewrite firstn_app, firstn_all, Nat.sub_diag, firstn_O. apply app_nil_r. }
  assert (E : forall rs : list (list nat * list num), Forall (fun r => length (fst r) = length (snd r)) rs ->
    length (concat (map snd rs)) = length (concat (map fst rs))).
  { intros rs F. induction F as [|r t Hr F IH]; [reflexivity|]. cbn [map concat]. rewrite !app_length, IH, Hr. reflexivity. }
  unfold csr_of, take_rows. cbn [c_indices c_data c_indptr fst snd]. split; [|split; [|split]].
  - apply (S nat fst). reflexivity.
  - apply (S num snd). intros k Hk. apply E. rewrite <- (firstn_skipn k rows) in G. apply Forall_app in G. apply G.
  - rewrite map_length, seq_length. fold M. rewrite LM. reflexivity.
  - intros i Hi. fold M in Hi |- *. rewrite LM in Hi.
    rewrite (nth_indep _ 0%nat ((fun k => (nth k (c_indptr (pack rows)) 0 - nth lo (c_indptr (pack rows)) 0)%nat) 0%nat))
      by (rewrite map_length, seq_length; unfold len; cbn [fst snd]; lia).
    rewrite (map_nth (fun k => (nth k (c_indptr (pack rows)) 0 - nth lo (c_indptr (pack rows)) 0)%nat)).
    rewrite seq_nth by (unfold len; cbn [fst snd]; lia). rewrite !P by lia. rewrite K by lia. fold A.
    rewrite map_app, concat_app, app_length. lia.
Qed.
Print Assumptions C84_rows.

(** The kernels of the class, on the arrays of two rows. *)
Definition ux_p (u : multi) : kern (nat -> num) R := on_arrays (fun d x y => u_p_ij u d x y tt).
Definition ux_logp (u : multi) : kern (nat -> num) num := on_arrays (fun d x y => u_logp u d x y tt).
Definition ux_log1mp (u : multi) : kern (nat -> num) num := on_arrays (fun d x y => u_log1mp u d x y tt).

Section Same.
Variables (u : multi) (g : R -> R) (cx cy : csx) (B : nat).
Hypothesis Hu : library_multi u g.
Hypothesis Hx : csr_of cx (u_xs u).
Hypothesis Hy : csr_of cy (u_ys u).
Hypothesis HB : (1 <= B)%nat.
Notation vx := (vertex (u_xs u)).
Notation vy := (vertex (u_ys u)).
Notation nod := (fun _ _ : nat => tt).

Lemma tables_good : good_rows (u_xs u) /\ good_rows (u_ys u) /\ length (u_xs u) = u_N u /\ length (u_ys u) = u_N u.
Proof. destruct (multi_tables u g Hu) as ((_ & A & _) & (_ & C & _) & D & E). repeat split; assumption. Qed.

Lemma unit_kernel : forall (P T : Type) (f : P -> svec -> svec -> unit -> T), (fun d x y (_ : unit) => f d x y tt) = f.
Proof. intros P T f. do 4 (apply functional_extensionality; intro). destruct x2. reflexivity. Qed.

Lemma ux_edges : forall d sl, mspark_edges d cx cy (u_N u) B (ux_p u) sl = spark_edges d vx vy nod (u_N u) B (u_p_ij u) sl.
Proof.
  intros d sl. destruct tables_good as (A & C & D & E). apply csr_pack in Hx, Hy. rewrite Hx, Hy. unfold ux_p.
  rewrite (mspark_edges_eq _ _ _ _ _ A C D E HB (fun d x y => u_p_ij u d x y tt)), unit_kernel. reflexivity.
Qed.
Lemma ux_degrees : forall d sl, mspark_degrees d cx cy (u_N u) B (ux_p u) sl = spark_degrees d vx vy nod (u_N u) B (u_p_ij u) sl.
Proof.
  intros d sl. destruct tables_good as (A & C & D & E). apply csr_pack in Hx, Hy. rewrite Hx, Hy. unfold ux_p.
  rewrite (mspark_degrees_eq _ _ _ _ _ A C D E HB (fun d x y => u_p_ij u d x y tt)), unit_kernel. reflexivity.
Qed.
Lemma ux_av_nn : forall d prop nd sl,
  mspark_av_nn d cx cy (u_N u) B (ux_p u) prop nd sl = spark_av_nn d vx vy nod (u_N u) B (u_p_ij u) prop nd sl.
Proof.
  intros d prop nd sl. destruct tables_good as (A & C & D & E). apply csr_pack in Hx, Hy. rewrite Hx, Hy. unfold ux_p.
  rewrite (mspark_av_nn_eq _ _ _ _ _ A C D E HB (fun d x y => u_p_ij u d x y tt)), unit_kernel. reflexivity.
Qed.
Lemma ux_likelihood : forall d row sl,
  mspark_likelihood d cx cy (u_N u) B (ux_logp u) (ux_log1mp u) row sl
  = spark_likelihood d vx vy nod (u_N u) B (u_logp u) (u_log1mp u) row sl.
Proof.
  intros d row sl. destruct tables_good as (A & C & D & E). apply csr_pack in Hx, Hy. rewrite Hx, Hy. unfold ux_logp, ux_log1mp.
  rewrite (mspark_likelihood_eq _ _ _ _ _ A C D E HB (fun d x y => u_logp u d x y tt) (fun d x y => u_log1mp u d x y tt)), !unit_kernel.
  reflexivity.
Qed.
Lemma ux_confusion : forall d th row sl,
  mspark_confusion d cx cy (u_N u) B th (ux_p u) row sl = spark_confusion d vx vy nod (u_N u) B th (u_p_ij u) row sl.
Proof.
  intros d th row sl. destruct tables_good as (A & C & D & E). apply csr_pack in Hx, Hy. rewrite Hx, Hy. unfold ux_p.
  rewrite (mspark_confusion_eq _ _ _ _ _ A C D E HB (fun d x y => u_p_ij u d x y tt)), unit_kernel. reflexivity.
Qed.
End Same.

Lemma multi_pos : forall u g, library_multi u g -> (1 <= u_N u)%nat.
Proof.
  intros u g Hu. destruct (multi_tables u g Hu) as ((A & _) & _ & D & _). rewrite <- D.
  destruct (u_xs u) as [|r t]; [elim A; reflexivity | simpl; lia].
Qed.

(** ** The measures, for any number of blocks: expected number of links, the three degrees, and the total
    of a property over the expected neighbourhood. *)
Theorem C84_measures : forall u g d cx cy B sl, library_multi u g -> (forall k, (k < u_L u)%nat -> nonneg (d k)) ->
  csr_of cx (u_xs u) -> csr_of cy (u_ys u) -> (1 <= B)%nat ->
  let q i j := 1 - prodn (u_L u) (fun k => 1 - layer_prob g d (u_xs u) (u_ys u) k i j) in
  mspark_edges d cx cy (u_N u) B (ux_p u) sl = pair_sum (u_N u) sl q /\
  exists a o i, mspark_degrees d cx cy (u_N u) B (ux_p u) sl = (a, o, i) /\
  forall v, (v < u_N u)%nat ->
    a v = nb_degree (u_N u) sl (either_link q) v /\
    o v = nb_degree (u_N u) sl (out_link q) v /\
    i v = nb_degree (u_N u) sl (in_link q) v /\
    forall prop nd, nd <> Dother ->
      mspark_av_nn d cx cy (u_N u) B (ux_p u) prop nd sl v = nb_total (u_N u) sl (dir_link nd q) prop v.
Proof.
  intros u g d cx cy B sl Hu Hd Hx Hy HB q.
  pose proof (multi_spark_model u g d Hu Hd) as M. pose proof (multi_pos u g Hu) as HN.
  assert (Q : q = some_layer g (u_L u) d (u_xs u) (u_ys u)) by reflexivity. rewrite Q.
  split; [rewrite (ux_edges u g) by assumption; exact (proj1 (s_edges_spec _ _ M B HB sl))|].
  rewrite (ux_degrees u g) by assumption.
  assert (S : forall nd v, nd <> Dother -> (v < u_N u)%nat ->
    (let '(a, o, i) := spark_degrees d (vertex (u_xs u)) (vertex (u_ys u)) (fun _ _ => tt) (u_N u) B (u_p_ij u) sl in
     match nd with Dout => o | Din => i | Doutin => a | Dother => fun _ => 0 end) v
    = nb_degree (u_N u) sl (dir_link nd (some_layer g (u_L u) d (u_xs u) (u_ys u))) v)
    by (intros nd v Hnd Hv; exact (s_degree_spec _ _ M HN B HB nd sl v Hnd Hv)).
  destruct (spark_degrees d (vertex (u_xs u)) (vertex (u_ys u)) (fun _ _ => tt) (u_N u) B (u_p_ij u) sl) as [[a o] i] eqn:E.
  exists a, o, i. split; [reflexivity|]. intros v Hv.
  pose proof (fun nd Hnd => S nd v Hnd Hv) as S'.
  split; [exact (S' Doutin ltac:(discriminate))|]. split; [exact (S' Dout ltac:(discriminate))|].
  split; [exact (S' Din ltac:(discriminate))|].
  intros prop nd Hnd. rewrite (ux_av_nn u g) by assumption. exact (s_av_nn_spec _ _ M HN B HB prop nd sl v Hnd Hv).
Qed.
Print Assumptions C84_measures.

(** ** The likelihood of a graph given by one matrix, and the counts of confusion_matrix. *)
Theorem C84_likelihood : forall u g d cx cy B s arg selfloops G, library_multi u g -> (forall k, (k < u_L u)%nat -> nonneg (d k)) ->
  csr_of cx (u_xs u) -> csr_of cy (u_ys u) -> (1 <= B)%nat -> a_param s = Some d ->
  (exists row, arg_rows (u_N u) arg = Ok row /\ forall i j, (i < u_N u)%nat -> (j < u_N u)%nat ->
     existsb (Nat.eqb j) (row i) = mem (i, j) G) ->
  exists l, sm_log_likelihood u cx cy B arg selfloops s = Ok l /\
    log_of (graph_weight (u_N u) (effective selfloops (a_selfloops s))
              (fun i j => 1 - prodn (u_L u) (fun k => 1 - layer_prob g d (u_xs u) (u_ys u) k i j)) G) l.
Proof.
  intros u g d cx cy B s arg selfloops G Hu Hd Hx Hy HB Hp (row & E1 & E2).
  pose proof (multi_spark_model u g d Hu Hd) as M.
  unfold sm_log_likelihood. rewrite Hp, E1. cbn [bind]. eexists. split; [reflexivity|].
  fold (ux_logp u) (ux_log1mp u). rewrite (ux_likelihood u g) by assumption.
  change (effective_loops selfloops s) with (effective selfloops (a_selfloops s)). set (e := effective selfloops (a_selfloops s)).
  set (q := fun i j => _).
  pose proof (spark_kernel _ _ M) as K. pose proof (spark_no_dyad _ _ M) as (D1 & D2 & D3).
  cbn [m_param m_out m_in m_dyad m_N m_p_ij m_logp m_log1mp u_model] in K, D1, D2, D3.
  replace (graph_weight (u_N u) e q G) with (prodn (u_N u) (fun i => prodn (u_N u) (fun j =>
    if allowed e i j then (if existsb (Nat.eqb j) (row i)
      then u_p_ij u d (vertex (u_xs u) i) (vertex (u_ys u) j) tt
      else 1 - u_p_ij u d (vertex (u_xs u) i) (vertex (u_ys u) j) tt) else 1))).
  - apply (spark_likelihood_log _ _ _ _ (u_p_ij u)); try assumption.
    + intros i j Hi Hj. destruct (K i j Hi Hj) as (-> & A & _). exact A.
    + intros i j Hi Hj. destruct (K i j Hi Hj) as (-> & _ & A). exact A.
  - unfold graph_weight. apply prodn_ext; intros i Hi. apply prodn_ext; intros j Hj.
    rewrite E2 by assumption. rewrite (proj1 (K i j Hi Hj)). reflexivity.
Qed.
Print Assumptions C84_likelihood.

(** The method confusion_matrix with given thresholds, a graph given by a dense array or by a matrix
    without stored zeros: at every threshold the counts are those of the admissible pairs, split by
    whether the pair is a link of the graph and whether its probability reaches the threshold. *)
Theorem C84_confusion : forall u g d cx cy B s arg selfloops l, library_multi u g -> (forall k, (k < u_L u)%nat -> nonneg (d k)) ->
  csr_of cx (u_xs u) -> csr_of cy (u_ys u) -> (1 <= B)%nat -> a_param s = Some d ->
  square_arg (u_N u) arg -> no_stored_zeros arg ->
  let q i j := 1 - prodn (u_L u) (fun k => 1 - layer_prob g d (u_xs u) (u_ys u) k i j) in
  exists c, sm_confusion_matrix u cx cy B arg (ThArray l) selfloops s = Ok (c, length l) /\
  forall k, (k < length l)%nat ->
    let n f := length (filter (fun e => f (nonzero arg (fst e) (snd e)) (ngeb (Fin (q (fst e) (snd e))) (nth k l NaN)))
                         (pairs (u_N u) (effective selfloops (a_selfloops s)))) in
    tp_of c k = n (fun link positive => link && positive) /\ fp_of c k = n (fun link positive => negb link && positive) /\
    tn_of c k = n (fun link positive => negb link && negb positive) /\ fn_of c k = n (fun link positive => link && negb positive).
Proof.
  intros u g d cx cy B s arg selfloops l Hu Hd Hx Hy HB Hp Hsq Hz q.
  pose proof (multi_spark_model u g d Hu Hd) as M.
  assert (E : exists row, arg_rows (u_N u) arg = Ok row).
  { destruct arg as [r c e|r c a|]; cbn in Hsq; [| |contradiction]; destruct Hsq as [-> ->]; cbn; rewrite Nat.eqb_refl; cbn;
      eexists; reflexivity. }
  destruct E as [row E]. unfold sm_confusion_matrix. rewrite Hp. cbn [mthresholds bind]. rewrite E. cbn [bind].
  change (effective_loops selfloops s) with (effective selfloops (a_selfloops s)). set (e := effective selfloops (a_selfloops s)).
  eexists. split; [reflexivity|]. intros k Hk. fold (ux_p u). rewrite (ux_confusion u g) by assumption.
  set (n := fun f : bool -> bool -> bool => length (filter (fun e => f (nonzero arg (fst e) (snd e)) (ngeb (Fin (q (fst e) (snd e))) (nth k l NaN)))
                         (pairs (u_N u) e))).
  destruct (confusion_spec _ _ _ _ (u_p_ij u) d (vertex (u_xs u)) (vertex (u_ys u)) (fun _ _ => tt) (u_N u) B e row l HB
    ltac:(intros; destruct z, z'; reflexivity) k Hk) as (E1 & E2 & E3 & E4). cbv beta in E1, E2, E3, E4.
  rewrite E1, E2, E3, E4.
  assert (F : forall f : bool -> bool -> bool,
    length (filter (fun e => f (existsb (Nat.eqb (snd e)) (row (fst e)))
      (ngeb (Fin (u_p_ij u d (vertex (u_xs u) (fst e)) (vertex (u_ys u) (snd e)) tt)) (nth k l NaN))) (pairs (u_N u) e)) = n f).
  { intros f. unfold n. f_equal. apply filter_ext_in. intros [i j] He. cbn [fst snd].
    apply filter_In in He. destruct He as [He _]. apply in_prod_iff in He. destruct He as [Hi Hj]. apply in_seq in Hi, Hj.
    rewrite (arg_rows_nonzero _ arg row E Hz i j) by lia.
    rewrite (proj1 (spark_kernel _ _ M i j ltac:(cbn; lia) ltac:(cbn; lia)) : u_p_ij u d (vertex (u_xs u) i) (vertex (u_ys u) j) tt = _).
    reflexivity. }
  split; [exact (F (fun a b => a && b))|]. split; [exact (F (fun a b => negb a && b))|].
  split; [exact (F (fun a b => negb a && negb b))|]. exact (F (fun a b => a && negb b)).
Qed.
Print Assumptions C84_confusion.

(** ** Automatic thresholds exist exactly when the parameter of the first label is positive and both
    matrices have a non-zero entry; otherwise the call fails. *)
Lemma fold_min_pos : forall l v, 0 < v -> (forall w, In w l -> 0 < w) -> 0 < fold_left Rmin l v.
Proof.
  induction l as [|w l IH]; intros v Hv H; [exact Hv|]. cbn [fold_left]. apply IH; [|intros w' Hw'; apply H; right; exact Hw'].
  apply Rmin_pos; [exact Hv | apply H; left; reflexivity].
Qed.
Lemma fold_max_ge : forall l v, v <= fold_left Rmax l v /\ forall w, In w l -> w <= fold_left Rmax l v.
Proof.
  induction l as [|x l IH]; intros v; [split; [apply Rle_refl | intros w []]|]. cbn [fold_left].
  destruct (IH (Rmax v x)) as [A C]. pose proof (Rmax_l v x). pose proof (Rmax_r v x). split; [lra|].
  intros w [-> | Hw]; [lra | apply C, Hw].
Qed.
Lemma one_minus_exp : forall t, 0 < t -> 0 < - (exp (- t) - 1).
Proof. intros t Ht. pose proof (exp_increasing (- t) 0 ltac:(lra)) as H. rewrite exp_0 in H. lra. Qed.

Theorem C84_automatic : forall d0 cx cy, 0 <= d0 -> (forall v, In v (c_data cx ++ c_data cy) -> exists r, v = Fin r /\ 0 <= r) ->
  let works := 0 < d0 /\ (exists r, In (Fin r) (c_data cx) /\ r <> 0) /\ (exists r, In (Fin r) (c_data cy) /\ r <> 0) in
  (forall th n, th = ThNone /\ n = 20%nat \/ th = ThInt (Z.of_nat n) ->
    (works -> exists l, mthresholds d0 cx cy th = Ok l /\ length l = n) /\
    (~ works -> mthresholds d0 cx cy th = Raise ValueError)) /\
  (forall z, (z < 0)%Z -> mthresholds d0 cx cy (ThInt z) = Raise ValueError) /\
  mthresholds d0 cx cy ThOther = Raise ValueError.
Proof.
  intros d0 cx cy Hd Hv works.
  set (auto := fun n : nat =>
    let p_max := - (exp (- d0 * stored_max cx * stored_max cy) - 1) in
    do mx <- nonzero_min cx ;
    do my <- nonzero_min cy ;
    let p_min := - (exp (- d0 * mx * my) - 1) in
    guard (Rltb 0 p_min && Rltb 0 p_max) ValueError (Ok (map Fin (logspace (ln p_min) (ln p_max) n)))).
  assert (MN : forall c, (forall v, In v (c_data c) -> exists r, v = Fin r /\ 0 <= r) ->
    (exists r, In (Fin r) (c_data c) /\ r <> 0) -> (exists m, nonzero_min c = Ok m /\ 0 < m) /\ 0 < stored_max c).
  { intros c Hc (r & Hr & Hn). destruct (Hc _ Hr) as (r' & [= <-] & Hr0).
    assert (Ht : In r (map toR (c_data c))) by (apply in_map_iff; exists (Fin r); split; [reflexivity | exact Hr]).
    split.
    - unfold nonzero_min. destruct (filter _ _) as [|v t] eqn:E.
      + exfalso. assert (K : In r []); [|exact K]. rewrite <- E. apply filter_In. split; [exact Ht|].
        rewrite (Reqb_false r 0) by exact Hn. reflexivity.
      + exists (fold_left Rmin t v). split; [reflexivity|].
        assert (K : forall w, In w (v :: t) -> 0 < w).
        { intros w Hw. rewrite <- E in Hw. apply filter_In in Hw. destruct Hw as [Hw Hz]. apply in_map_iff in Hw.
          destruct Hw as (x & <- & Hx). destruct (Hc x Hx) as (rx & -> & Hx0). cbn in *.
          destruct (Reqb_spec rx 0); [discriminate | lra]. }
        apply fold_min_pos; [apply K; left; reflexivity | intros w Hw; apply K; right; exact Hw].
    - unfold stored_max. destruct (fold_max_ge (map toR (c_data c)) 0) as [_ K]. specialize (K r Ht). lra. }
  assert (ME : forall c, (forall v, In v (c_data c) -> exists r, v = Fin r /\ 0 <= r) ->
    ~ (exists r, In (Fin r) (c_data c) /\ r <> 0) -> nonzero_min c = Raise ValueError).
  { intros c Hc Hn. unfold nonzero_min. destruct (filter _ _) as [|v t] eqn:E; [reflexivity|]. exfalso. apply Hn.
    assert (K : In v (v :: t)) by (left; reflexivity). rewrite <- E in K. apply filter_In in K. destruct K as [K Kz].
    apply in_map_iff in K. destruct K as (x & <- & Hx). destruct (Hc x Hx) as (rx & -> & _). exists rx. split; [exact Hx|].
    cbn in Kz. intros ->. rewrite (Reqb_true 0 0 eq_refl) in Kz. discriminate. }
  assert (Hcx : forall v, In v (c_data cx) -> exists r, v = Fin r /\ 0 <= r) by (intros; apply Hv, in_or_app; left; assumption).
  assert (Hcy : forall v, In v (c_data cy) -> exists r, v = Fin r /\ 0 <= r) by (intros; apply Hv, in_or_app; right; assumption).
  assert (AU : forall n, (works -> exists l, auto n = Ok l /\ length l = n) /\ (~ works -> auto n = Raise ValueError)).
  { intros n. split.
  - intros (D & X & Y). destruct (MN cx Hcx X) as ((mx & Ex & Px) & Sx). destruct (MN cy Hcy Y) as ((my & Ey & Py) & Sy).
    unfold auto. rewrite Ex, Ey. cbn [bind].
    replace (- d0 * mx * my) with (- (d0 * mx * my)) by ring. replace (- d0 * stored_max cx * stored_max cy) with (- (d0 * stored_max cx * stored_max cy)) by ring.
    rewrite (Rltb_true 0 (- (exp (- (d0 * mx * my)) - 1))) by (apply one_minus_exp; repeat apply Rmult_lt_0_compat; assumption).
    rewrite (Rltb_true 0 (- (exp (- (d0 * stored_max cx * stored_max cy)) - 1))) by (apply one_minus_exp; repeat apply Rmult_lt_0_compat; assumption).
    cbn [andb guard]. eexists. split; [reflexivity|]. rewrite map_length. unfold logspace. rewrite map_length, seq_length. reflexivity.
  - intros W. unfold auto.
    destruct (classic (exists r, In (Fin r) (c_data cx) /\ r <> 0)) as [X|X]; [|rewrite (ME cx Hcx X); reflexivity].
    destruct (MN cx Hcx X) as ((mx & Ex & Px) & Sx). rewrite Ex. cbn [bind].
    destruct (classic (exists r, In (Fin r) (c_data cy) /\ r <> 0)) as [Y|Y]; [|rewrite (ME cy Hcy Y); reflexivity].
    destruct (MN cy Hcy Y) as ((my & Ey & Py) & Sy). rewrite Ey. cbn [bind].
    assert (D : d0 = 0) by (destruct (Rle_lt_or_eq_dec 0 d0 Hd) as [L|L]; [exfalso; apply W; repeat split; assumption | symmetry; exact L]).
    subst d0. replace (- 0 * mx * my) with 0 by ring. rewrite exp_0. rewrite (Rltb_false 0 (- (1 - 1))) by lra. reflexivity. }
  split; [|split; [|reflexivity]].
  - intros th n [[-> ->] | ->]; [exact (AU 20%nat)|]. unfold mthresholds. replace (Z.of_nat n <? 0)%Z with false by (symmetry; apply Z.ltb_ge; lia).
    rewrite Nat2Z.id. exact (AU n).
  - intros z Hz. unfold mthresholds. replace (z <? 0)%Z with true by (symmetry; apply Z.ltb_lt; exact Hz).
    destruct (classic works) as [K|K]; [destruct (proj1 (AU 0%nat) K) as (l & E & _) | pose proof (proj2 (AU 0%nat) K) as E]; unfold auto in E; rewrite E; reflexivity.
Qed.
Print Assumptions C84_automatic.

(** ** Histories of an object *)
Section Objects.
Variables (u : multi) (g : R -> R) (d : nat -> num) (cx cy : csx) (B : nat).
Hypothesis Hu : library_multi u g.
Hypothesis Hd : forall k, (k < u_L u)%nat -> nonneg (d k).
Hypothesis Hx : csr_of cx (u_xs u).
Hypothesis Hy : csr_of cy (u_ys u).
Hypothesis HB : (1 <= B)%nat.
Let m := u_model u d.
Let sp := sp_query (u_p_ij u) (vertex (u_xs u)) (vertex (u_ys u)) (fun _ _ => tt) (u_N u) B.
Let tot p sl := spark_edges p (vertex (u_xs u)) (vertex (u_ys u)) (fun _ _ => tt) (u_N u) B (u_p_ij u) sl.
Let dgs p sl := spark_degrees p (vertex (u_xs u)) (vertex (u_ys u)) (fun _ _ => tt) (u_N u) B (u_p_ij u) sl.
Let nnf p prop nd sl : res (nat -> R) :=
  Ok (spark_av_nn p (vertex (u_xs u)) (vertex (u_ys u)) (fun _ _ => tt) (u_N u) B (u_p_ij u) prop nd sl).

Lemma sm_degree_of_sp : forall nd rc s, sm_degree_of u cx cy B nd rc s
  = sp_degree_of (u_p_ij u) (vertex (u_xs u)) (vertex (u_ys u)) (fun _ _ => tt) (u_N u) B nd rc s.
Proof.
  intros nd rc s.
  assert (E : sm_degree u cx cy B rc s = sp_degree (u_p_ij u) (vertex (u_xs u)) (vertex (u_ys u)) (fun _ _ => tt) (u_N u) B rc s).
  { unfold sm_degree, sp_degree. destruct (a_param s) as [p|]; [|reflexivity].
    fold (ux_p u). rewrite (ux_degrees u g) by assumption. reflexivity. }
  destruct nd; cbn [sm_degree_of sp_degree_of]; unfold sm_out_degree, sm_in_degree, sp_out_degree, sp_in_degree; rewrite ?E; reflexivity.
Qed.
Lemma sm_property_sp : forall len prop nd sl dr s, sm_av_nn_property u cx cy B len prop nd sl dr s
  = sp_av_nn_property (u_p_ij u) (vertex (u_xs u)) (vertex (u_ys u)) (fun _ _ => tt) (u_N u) B len prop nd sl dr s.
Proof.
  intros len prop nd sl dr s. unfold sm_av_nn_property, sp_av_nn_property. destruct (a_param s) as [p|]; [|reflexivity].
  destruct (negb _); [reflexivity|]. destruct (set_selfloops sl dr s) as [dr1 s1]. rewrite sm_degree_of_sp.
  destruct (sp_degree_of _ _ _ _ _ _ nd dr1 s1) as [[v|e] s2]; [|reflexivity].
  fold (ux_p u). rewrite (ux_av_nn u g) by assumption. reflexivity.
Qed.
Lemma sm_nn_sp : forall dd nd sl dr rc s, sm_av_nn_degree u cx cy B dd nd sl dr rc s
  = sp_av_nn_degree (u_p_ij u) (vertex (u_xs u)) (vertex (u_ys u)) (fun _ _ => tt) (u_N u) B dd nd sl dr rc s.
Proof.
  intros dd nd sl dr rc s. unfold sm_av_nn_degree, sp_av_nn_degree. destruct (a_param s) as [p|]; [|reflexivity].
  destruct (is_none (a_nn s nd dd) || rc || dr); [|reflexivity]. destruct (set_selfloops sl dr s) as [dr1 s1]. rewrite sm_degree_of_sp.
  destruct (sp_degree_of _ _ _ _ _ _ dd dr1 s1) as [[v|e] s2]; [|reflexivity]. rewrite sm_property_sp. reflexivity.
Qed.

(** Inherited queries other than the number of links. *)
Definition not_edges (q : query) : Prop := match q with QEdges _ => False | _ => True end.
Lemma sm_base : forall q s, not_edges q -> sm_query u cx cy B (LBase q) s
  = (rmap ABase (fst (sp q (fst s))), (snd (sp q (fst s)), snd s)).
Proof.
  intros [r|nd r|len prop nd sl r|dd nd sl dr r] s H; [contradiction| | |]; unfold sm_query, lift, sp, sp_query, lift_res, rmap; cbn [fst snd].
  - rewrite sm_degree_of_sp. destruct (sp_degree_of _ _ _ _ _ _ _ _ _) as [[v|e] s']; reflexivity.
  - rewrite sm_property_sp. destruct (sp_av_nn_property _ _ _ _ _ _ _ _ _ _ _ _) as [[v|e] s']; reflexivity.
  - rewrite sm_nn_sp. destruct (sp_av_nn_degree _ _ _ _ _ _ _ _ _ _ _ _) as [[v|e] s']; reflexivity.
Qed.

(** No inherited query but the number of links touches the cached number of links. *)
Lemma h_query_edges : forall b own q s, h_fresh_ok _ tot dgs nnf b d s -> a_selfloops s = own -> valid_query b own q -> not_edges q ->
  exists s', sp q s = (h_answer_now _ (u_N u) tot dgs nnf d own q, s') /\ h_fresh_ok _ tot dgs nnf b d s' /\ a_selfloops s' = own /\
    a_edges s' = a_edges s.
Proof.
  intros b own q s F <- V H.
  assert (T : h_total_ok _ (u_N u) dgs nnf d)
    by exact (so_total_ok m _ B (multi_spark_model u g d Hu Hd) (multi_pos u g Hu) HB).
  destruct (h_query_now _ (u_N u) tot dgs nnf b d q s T F V) as (s' & E & F' & S').
  exists s'. unfold sp. rewrite sp_query_machine. split; [exact E|]. split; [exact F'|]. split; [exact S'|].
  destruct F as (HP & HE & HD & HN).
  destruct q as [r|nd r|len prop nd sl r|dd nd sl dr r]; [contradiction| | |]; cbn [g_query valid_query] in E, V; unfold lift_res in E.
  - destruct (h_degree_of_now _ dgs d nd r s HP V (or_intror HD)) as (s2 & E2 & _ & _ & K & _). rewrite E2 in E. injection E as <-. exact K.
  - cbn [h_answer_now] in E. destruct (Nat.eqb_spec len (u_N u)) as [->|Hl].
    + destruct (h_property_now _ (u_N u) dgs nnf d prop nd sl r s HP (or_intror HD) T V) as (s2 & E2 & _ & _ & K & _).
      rewrite E2 in E. injection E as <-. exact K.
    + unfold g_av_nn_property in E. rewrite HP in E. destruct (Nat.eqb_spec len (u_N u)); [contradiction|]. cbn in E.
      injection E as <-. reflexivity.
  - destruct V as (Vd & Vn & Vb).
    destruct (h_nn_degree_now _ (u_N u) dgs nnf d dd nd sl dr r s HP (or_intror HD)) as (s2 & E2 & _ & _ & K & _); auto.
    { left. replace (h_eff _ sl s) with b by (symmetry; exact Vb). exact HN. }
    rewrite E2 in E. injection E as <-. exact K.
Qed.
End Objects.

(** What the answers [rs] to the queries [qs] are, [right] telling the correct ones: all are correct, except
    that the number of links, asked for without recomputing it, is an AttributeError when the links by label
    have been asked for ([lab]) and the number of links has not ([tot]). *)
Fixpoint answers {A} (right : lquery -> res A -> Prop) (lab tot : bool) (qs : list lquery) (rs : list (res A)) : Prop :=
  match qs, rs with
  | [], [] => True
  | q :: qs, r :: rs =>
      match q with
      | LBase (QEdges recompute) =>
          if lab && negb tot && negb recompute then r = Raise AttributeError /\ answers right lab tot qs rs
          else right q r /\ answers right lab true qs rs
      | LEdges _ => right q r /\ answers right true tot qs rs
      | _ => right q r /\ answers right lab tot qs rs
      end
  | _, _ => False
  end.

Lemma label_degrees_keep : forall u r s,
  let k (x : res (nat -> nat -> R) * obj (nat -> num) (nat -> R) (nat -> nat -> R)) :=
    fst (snd x) = fst s /\ b_edges (snd (snd x)) = b_edges (snd s) in
  k (lbl_degree (w_degrees_label u) r s) /\ k (lbl_out (w_degrees_label u) false r s) /\ k (lbl_in (w_degrees_label u) false r s).
Proof.
  intros u r s k.
  assert (K : forall r, k (lbl_degree (w_degrees_label u) r s)).
  { intros r'. unfold k, lbl_degree. destruct (a_param (fst s)) as [p|]; [|split; reflexivity].
    destruct (is_none (b_degree (snd s)) || r'); [|split; reflexivity].
    destruct (w_degrees_label u p (a_selfloops (fst s))) as [[[x y] z]|e]; split; reflexivity. }
  split; [apply K|]. unfold k, lbl_out, lbl_in. specialize (K (false && r)). unfold k in K.
  destruct (lbl_degree (w_degrees_label u) (false && r) s) as [[v|e] s'].
  - destruct (is_none (b_out (snd s)) || r), (is_none (b_in (snd s)) || r); cbn [fst snd] in *; intuition.
  - destruct (is_none (b_out (snd s)) || r), (is_none (b_in (snd s)) || r); cbn [fst snd] in *; intuition.
Qed.

(** Full statement: every answer of every history is correct.  Missing: the AttributeErrors that [answers]
    spells out ([C84_history_refuted]); neighbour degrees asked for with different self-loop options
    (as C81); matrices without any admissible pair ([some_pair], C71_spark_empty_refuted). *)
Theorem C84_history_partial : forall u g d cx cy B b own qs, library_multi u g -> (forall k, (k < u_L u)%nat -> nonneg (d k)) ->
  csr_of cx (u_xs u) -> csr_of cy (u_ys u) -> (1 <= B)%nat -> some_pair u own -> Forall (valid_lquery b own) qs ->
  answers (correct_multi u g d own) false false qs (fst (sm_asks u cx cy B qs (MultiState.new_obj (Some d) own))).
Proof.
  intros u g d cx cy B b own qs Hu Hd Hx Hy HB Hsp V.
  destruct (w_edges_spec u g Hu d own Hd) as (e & E1 & E2).
  destruct (w_degrees_spec u g Hu d own Hd Hsp) as (x & y & z & D1 & D2).
  pose proof (multi_spark_model u g d Hu Hd) as M.
  set (tot := fun p sl => spark_edges p (vertex (u_xs u)) (vertex (u_ys u)) (fun _ _ => tt) (u_N u) B (u_p_ij u) sl).
  set (dgs := fun p sl => spark_degrees p (vertex (u_xs u)) (vertex (u_ys u)) (fun _ _ => tt) (u_N u) B (u_p_ij u) sl).
  set (nnf := fun p prop nd sl => Ok (spark_av_nn p (vertex (u_xs u)) (vertex (u_ys u)) (fun _ _ => tt) (u_N u) B (u_p_ij u) prop nd sl)).
  set (I := fun (lab tt : bool) (s : obj (nat -> num) (nat -> R) (nat -> nat -> R)) =>
    h_fresh_ok _ tot dgs nnf b d (fst s) /\ a_selfloops (fst s) = own /\ lab_ok _ _ (Ok e) (Ok (x, y, z)) (snd s) /\
    is_none (b_edges (snd s)) = negb lab /\ is_none (a_edges (fst s)) = negb tt).
  assert (KA : forall q, valid_query b own q -> correct_multi u g d own (LBase q) (rmap ABase (h_answer_now _ (u_N u) tot dgs nnf d own q))).
  { intros q Vq. cbn [correct_multi correct_label]. exists (h_answer_now _ (u_N u) tot dgs nnf d own q). split; [|reflexivity].
    exact (so_answer (u_model u d) _ B M (multi_pos u g Hu) HB b own q Vq). }
  assert (KL : forall q, label_query q -> correct_multi u g d own q (lanswer_now _ _ (Ok e) (Ok (x, y, z)) (fun _ => Raise AttributeError) q)).
  { intros q Hq. apply (label_now (u_N u) (u_L u) own _ _ _ _ e x y z _ _ E2 D2 (fun _ => False)); [intros ? []|].
    destruct q; exact Hq. }
  assert (ST : forall lab tt s q, I lab tt s -> label_query q -> exists l,
    sm_query u cx cy B q s = (lanswer_now _ _ (Ok e) (Ok (x, y, z)) (fun _ => Raise AttributeError) q, (fst s, l)) /\
    I (match q with LEdges _ => true | _ => lab end) tt (fst s, l)).
  { intros lab tt s q (I1 & I2 & I3 & I4 & I5) Hq. pose proof (proj1 I1) as Hp.
    destruct q as [q|r|r|r|r]; [contradiction| | | |]; cbn [sm_query lanswer_now].
    - destruct (lbl_edges_now _ _ _ (w_edges_label u) d own (Ok e) (Ok (x, y, z)) E1 r s Hp I2 (or_intror I3)) as (l & El & Hl).
      exists l. rewrite El. split; [reflexivity|]. split; [exact I1|]. split; [exact I2|]. split; [exact (Hl I3)|]. split; [|exact I5].
      cbn [fst snd negb]. unfold lbl_num_edges in El. rewrite Hp, I2, E1 in El.
      destruct (is_none (b_edges (snd s)) || r) eqn:C.
      + injection El as <-. reflexivity.
      + assert (K : snd s = l) by exact (f_equal (fun p => snd (snd p)) El). rewrite <- K. apply orb_false_iff in C. apply C.
    - destruct (lbl_degree_now _ _ _ (w_degrees_label u) d own (Ok e) (Ok (x, y, z)) D1 r s Hp I2 (or_intror I3)) as (l & El & Hl & _).
      exists l. pose proof (proj1 (label_degrees_keep u r s)) as K. rewrite El in K. cbn [fst snd] in K. rewrite El. split; [reflexivity|].
      split; [exact I1|]. split; [exact I2|]. split; [exact (Hl I3)|]. split; [|exact I5]. cbn [snd]. rewrite (proj2 K). exact I4.
    - destruct (lbl_out_now _ _ _ (w_degrees_label u) false d own (Ok e) (Ok (x, y, z)) D1 r s Hp I2 (or_intror I3)) as (l & El & Hl).
      exists l. pose proof (proj1 (proj2 (label_degrees_keep u r s))) as K. rewrite El in K. cbn [fst snd] in K. rewrite El. split; [reflexivity|].
      split; [exact I1|]. split; [exact I2|]. split; [exact (Hl I3)|]. split; [|exact I5]. cbn [snd]. rewrite (proj2 K). exact I4.
    - destruct (lbl_in_now _ _ _ (w_degrees_label u) false d own (Ok e) (Ok (x, y, z)) D1 r s Hp I2 (or_intror I3)) as (l & El & Hl).
      exists l. pose proof (proj2 (proj2 (label_degrees_keep u r s))) as K. rewrite El in K. cbn [fst snd] in K. rewrite El. split; [reflexivity|].
      split; [exact I1|]. split; [exact I2|]. split; [exact (Hl I3)|]. split; [|exact I5]. cbn [snd]. rewrite (proj2 K). exact I4. }
  assert (SB : forall lab tt s q, I lab tt s -> valid_query b own q -> not_edges q -> exists s',
    sm_query u cx cy B (LBase q) s = (rmap ABase (h_answer_now _ (u_N u) tot dgs nnf d own q), s') /\ I lab tt s').
  { intros lab tt s q (I1 & I2 & I3 & I4 & I5) Vq Hq.
    destruct (h_query_edges u g d B Hu Hd HB b own q (fst s) I1 I2 Vq Hq) as (s' & Es & F & S' & K).
    rewrite (sm_base u g cx cy B Hu Hx Hy HB q s Hq). rewrite Es. cbn [fst snd]. eexists. split; [reflexivity|].
    split; [exact F|]. split; [exact S'|]. split; [exact I3|]. split; [exact I4|]. cbn [fst]. rewrite K. exact I5. }
  assert (SE : forall lab tt s r, I lab tt s -> 
    if lab && negb tt && negb r then sm_query u cx cy B (LBase (QEdges r)) s = (Raise AttributeError, s)
    else exists s', sm_query u cx cy B (LBase (QEdges r)) s = (Ok (ABase (Scalar (tot d own))), s') /\ I lab true s').
  { intros lab tt s r (I1 & I2 & I3 & I4 & I5). pose proof I1 as (HP & HE & HD & HN). cbn [sm_query].
    unfold spark_num_edges. rewrite HP, I4, I2. fold (ux_p u). rewrite (ux_edges u g) by assumption. fold (tot d own).
    destruct (negb lab || r) eqn:C.
    - replace (lab && negb tt && negb r) with false by (destruct lab, tt, r; try reflexivity; discriminate).
      eexists. split; [reflexivity|]. split; [|split; [exact I2|split; [exact I3|split; [exact I4 | reflexivity]]]].
      split; [exact HP|]. split; [right; change (Some (tot d own) = Some (tot d (a_selfloops (fst s)))); rewrite I2; reflexivity|]. split; [exact HD | exact HN].
    - apply orb_false_iff in C. destruct C as [C ->]. destruct lab; [|discriminate]. cbn [andb negb].
      destruct tt; cbn [andb negb] in I5 |- *.
      + exists s. destruct HE as [HE|HE]; [rewrite HE in I5; discriminate|]. rewrite HE, I2. split; [reflexivity|].
        split; [exact I1|]. split; [exact I2|]. split; [exact I3|]. split; [exact I4 | exact I5].
      + destruct (a_edges (fst s)); [discriminate | reflexivity]. }
  assert (ALL : forall qs lab tt s, I lab tt s -> Forall (valid_lquery b own) qs ->
    answers (correct_multi u g d own) lab tt qs (fst (sm_asks u cx cy B qs s))).
  { clear V qs. induction qs as [|q qs IH]; intros lab tt s Is V; [exact Logic.I|].
    apply Forall_cons_iff in V. destruct V as [Vq V]. cbn [sm_asks].
    destruct q as [[r|nd r|len prop nd sl r|dd nd sl dr r]|r|r|r|r].
    - cbn [answers]. specialize (SE lab tt s r Is). destruct (lab && negb tt && negb r).
      + rewrite SE. specialize (IH lab tt s Is V). destruct (sm_asks u cx cy B qs s) as [l s2]. cbn [fst answers]. split; [reflexivity | exact IH].
      + destruct SE as (s' & Es & Is'). rewrite Es. specialize (IH lab true s' Is' V). destruct (sm_asks u cx cy B qs s') as [l s2].
        cbn [fst] in *. split; [exact (KA (QEdges r) Vq) | exact IH].
    - destruct (SB lab tt s (QDegree nd r) Is Vq Logic.I) as (s' & Es & Is'). rewrite Es. specialize (IH lab tt s' Is' V).
      destruct (sm_asks u cx cy B qs s') as [l s2]. cbn [fst answers] in *. split; [exact (KA _ Vq) | exact IH].
    - destruct (SB lab tt s (QProperty len prop nd sl r) Is Vq Logic.I) as (s' & Es & Is'). rewrite Es. specialize (IH lab tt s' Is' V).
      destruct (sm_asks u cx cy B qs s') as [l s2]. cbn [fst answers] in *. split; [exact (KA _ Vq) | exact IH].
    - destruct (SB lab tt s (QNNDegree dd nd sl dr r) Is Vq Logic.I) as (s' & Es & Is'). rewrite Es. specialize (IH lab tt s' Is' V).
      destruct (sm_asks u cx cy B qs s') as [l s2]. cbn [fst answers] in *. split; [exact (KA _ Vq) | exact IH].
    - destruct (ST lab tt s (LEdges r) Is Logic.I) as (l & El & Il). rewrite El. specialize (IH true tt (fst s, l) Il V).
      destruct (sm_asks u cx cy B qs (fst s, l)) as [l2 s2]. cbn [fst answers] in *. split; [exact (KL (LEdges r) Logic.I) | exact IH].
    - destruct (ST lab tt s (LDegree r) Is Logic.I) as (l & El & Il). rewrite El. specialize (IH lab tt (fst s, l) Il V).
      destruct (sm_asks u cx cy B qs (fst s, l)) as [l2 s2]. cbn [fst answers] in *. split; [exact (KL (LDegree r) Logic.I) | exact IH].
    - destruct (ST lab tt s (LOut r) Is Logic.I) as (l & El & Il). rewrite El. specialize (IH lab tt (fst s, l) Il V).
      destruct (sm_asks u cx cy B qs (fst s, l)) as [l2 s2]. cbn [fst answers] in *. split; [exact (KL (LOut r) Logic.I) | exact IH].
    - destruct (ST lab tt s (LIn r) Is Logic.I) as (l & El & Il). rewrite El. specialize (IH lab tt (fst s, l) Il V).
      destruct (sm_asks u cx cy B qs (fst s, l)) as [l2 s2]. cbn [fst answers] in *. split; [exact (KL (LIn r) Logic.I) | exact IH]. }
  apply ALL; [|exact V]. split; [apply h_new_fresh|]. split; [reflexivity|]. split; [apply no_lab_ok|]. split; reflexivity.
Qed.
Print Assumptions C84_history_partial.

(** ** A concrete case: two vertices and two labels; the first label has parameter 0. *)
Definition two_labels : list (list nat * list num) := [([0%nat; 1%nat], [Fin 1; Fin 1]); ([0%nat; 1%nat], [Fin 1; Fin 1])].
Definition two_multi : multi := multi_fitness 2 2 two_labels two_labels (fun _ _ => Fin 1).
Definition two_csr : csx := mkCsx [Fin 1; Fin 1; Fin 1; Fin 1] [0; 1; 0; 1]%nat [0; 2; 4]%nat.
Definition two_param (k : nat) : num := if Nat.eqb k 0 then Fin 0 else Fin 1.
Lemma two_table : label_table 2 two_labels.
Proof.
  unfold label_table, two_labels. split; [discriminate|].
  split; repeat constructor; cbn; try lia; try lra.
Qed.
Lemma two_csr_ok : csr_of two_csr two_labels.
Proof.
  split; [reflexivity|]. split; [reflexivity|]. split; [reflexivity|].
  intros i Hi. destruct i as [|[|[|i]]]; [reflexivity..|cbn in Hi; lia].
Qed.
Lemma two_ok : library_multi two_multi logistic.
Proof. apply lm_fitness; try exact two_table; reflexivity. Qed.
Lemma two_nonneg : forall k, (k < u_L two_multi)%nat -> nonneg (two_param k).
Proof. intros [|k] _; cbn; lra. Qed.
Lemma two_prob : forall i j, (i < 2)%nat -> (j < 2)%nat ->
  1 - prodn 2 (fun k => 1 - layer_prob logistic two_param two_labels two_labels k i j) = 1 / 2.
Proof.
  intros i j Hi Hj. unfold prodn, layer_prob, link_prob, label_value, two_param.
  destruct i as [|[|i]]; [| |lia]; (destruct j as [|[|j]]; [| |lia]); cbn;
    destruct (Reqb_spec 0 0); try lra; destruct (Reqb_spec 1 0); try lra; cbn; unfold logistic; lra.
Qed.

Definition two_graph : Spark.graph_arg := Dense 2 2 (fun i j => if Nat.eqb i 0 && Nat.eqb j 1 then 1 else 0).
Example C84_case : library_multi two_multi logistic /\ (forall k, (k < u_L two_multi)%nat -> nonneg (two_param k)) /\
  csr_of two_csr (u_xs two_multi) /\ csr_of two_csr (u_ys two_multi) /\
  Forall (fun r => length (fst r) = length (snd r)) two_labels /\ some_pair two_multi false /\
  Forall (valid_lquery true false) [LBase (QDegree Dout false); LEdges false; LBase (QEdges true); LBase (QEdges false);
    LBase (QNNDegree Dout Din (Some true) true false); LIn false] /\
  square_arg 2 two_graph /\ no_stored_zeros two_graph /\
  (exists row, arg_rows 2 two_graph = Ok row /\ forall i j, (i < 2)%nat -> (j < 2)%nat ->
     existsb (Nat.eqb j) (row i) = mem (i, j) [(0%nat, 1%nat)]).
Proof.
  split; [exact two_ok|]. split; [exact two_nonneg|]. split; [exact two_csr_ok|]. split; [exact two_csr_ok|].
  split; [exact (proj1 (proj2 two_table))|].
  split; [exists 0%nat, 0%nat, 1%nat; cbn; repeat split; try lia; cbn; auto|].
  split; [repeat (apply Forall_cons || apply Forall_nil); cbn; try exact I; try discriminate; repeat split; discriminate|].
  split; [split; reflexivity|]. split; [exact I|]. eexists. split; [reflexivity|].
  intros i j Hi Hj. destruct i as [|[|i]]; [| |lia]; (destruct j as [|[|j]]; [| |lia]); cbn;
    repeat match goal with |- context [Reqb ?a ?b] => destruct (Reqb_spec a b); try lra end; reflexivity.
Qed.

(** ** False: the automatic thresholds span the probabilities of the pairs.  They are computed from the
    parameter of the first label only, with the formula of the scale-invariant model, and with base-10
    powers of natural logarithms (as C70).  With one label, unit fitnesses and parameter 1 every pair is linked with
    probability 1/2, and all twenty thresholds are the same and below 1/2. *)
Theorem C84_thresholds_refuted : exists u d cx cy l, library_multi u logistic /\ csr_of cx (u_xs u) /\ csr_of cy (u_ys u) /\
  (forall i j, (i < u_N u)%nat -> (j < u_N u)%nat ->
     1 - prodn (u_L u) (fun k => 1 - layer_prob logistic d (u_xs u) (u_ys u) k i j) = 1 / 2) /\
  mthresholds (toR (d 0%nat)) cx cy ThNone = Ok (map Fin l) /\ length l = 20%nat /\ forall t, In t l -> t < 1 / 2.
Proof.
  set (c := mkCsx [Fin 1; Fin 1] [0; 0]%nat [0; 1; 2]%nat).
  assert (Hc : csr_of c (ex_table 2)).
  { split; [reflexivity|]. split; [reflexivity|]. split; [reflexivity|].
    intros i Hi. destruct i as [|[|[|i]]]; [reflexivity..|cbn in Hi; lia]. }
  set (p := - (exp (- (1)) - 1)).
  exists ex_multi, (fun _ => Fin 1), c, c, (logspace (ln p) (ln p) 20).
  split; [exact ex_multi_ok|]. split; [exact Hc|]. split; [exact Hc|]. split.
  - intros i j Hi Hj. cbn [u_L u_xs u_ys ex_multi multi_fitness]. unfold prodn. rewrite ex_multi_prob; [lra | lra | exact Hi | exact Hj].
  - assert (P0 : 0 < p) by (apply (one_minus_exp 1); lra).
    assert (P1 : p <= 2 / 3).
    { unfold p. rewrite exp_Ropp. assert (E3 := exp_le_3). pose proof (exp_pos 1).
      assert (/ 3 <= / exp 1) by (apply Rinv_le_contravar; lra). lra. }
    split; [|split].
    + unfold mthresholds, nonzero_min, stored_max. cbn [c c_data map toR filter].
      rewrite (Reqb_false 1 0) by lra. cbn [negb fold_left bind].
      replace (Rmin 1 1) with 1 by (symmetry; apply Rmin_left; lra).
      replace (Rmax (Rmax 0 1) 1) with 1 by (rewrite (Rmax_right 0 1) by lra; symmetry; apply Rmax_left; lra).
      replace (- (1) * 1 * 1) with (- (1)) by ring. fold p. rewrite (Rltb_true 0 p P0). reflexivity.
    + unfold logspace. rewrite map_length, seq_length. reflexivity.
    + intros t Ht. unfold logspace in Ht. apply in_map_iff in Ht. destruct Ht as (k & <- & _). cbn [Nat.eqb].
      replace (ln p + INR k * ((ln p - ln p) / INR (20 - 1))) with (ln p) by (unfold Rdiv; ring).
      unfold Rpower.
      assert (L10 : 2 < ln 10).
      { rewrite <- (ln_exp 2). apply ln_increasing; [apply exp_pos|]. replace 2 with (1 + 1) by ring. rewrite exp_plus.
        assert (E3 := exp_le_3). pose proof (exp_pos 1). nra. }
      assert (Lp : ln p < 0) by (rewrite <- ln_1; apply ln_increasing; lra).
      apply Rlt_trans with (exp (ln p + ln p)).
      * apply exp_increasing. nra.
      * rewrite exp_plus, exp_ln by exact P0. nra.
Qed.
Print Assumptions C84_thresholds_refuted.

(** Nor do they exist whenever the pairs have positive probabilities: here all of these are 1/2, and the
    call fails since the parameter of the first label is zero. *)
Theorem C84_first_label_refuted : exists u d cx cy s arg, library_multi u logistic /\ csr_of cx (u_xs u) /\ csr_of cy (u_ys u) /\
  a_param s = Some d /\ square_arg (u_N u) arg /\
  (forall i j, (i < u_N u)%nat -> (j < u_N u)%nat ->
     1 - prodn (u_L u) (fun k => 1 - layer_prob logistic d (u_xs u) (u_ys u) k i j) = 1 / 2) /\
  sm_confusion_matrix u cx cy 1 arg ThNone None s = Raise ValueError.
Proof.
  exists two_multi, two_param, two_csr, two_csr, (new_ens (Some two_param) false), two_graph.
  split; [exact two_ok|]. split; [exact two_csr_ok|]. split; [exact two_csr_ok|]. split; [reflexivity|].
  split; [split; reflexivity|]. split; [exact two_prob|].
  unfold sm_confusion_matrix. cbn [a_param new_ens].
  rewrite (proj2 (proj1 (C84_automatic (toR (two_param 0)) two_csr two_csr (Rle_refl 0)
    ltac:(intros v Hv; cbn in Hv; repeat (destruct Hv as [<-|Hv]; [exists 1; split; [reflexivity | lra]|]); destruct Hv)) ThNone 20%nat (or_introl (conj eq_refl eq_refl)))); [reflexivity|].
  intros [H _]. cbn in H. lra.
Qed.
Print Assumptions C84_first_label_refuted.

Example C84_automatic_case :
  (forall v, In v (c_data two_csr ++ c_data two_csr) -> exists r, v = Fin r /\ 0 <= r) /\
  (exists r, In (Fin r) (c_data two_csr) /\ r <> 0).
Proof.
  split; [|exists 1; split; [left; reflexivity | lra]].
  intros v Hv. cbn in Hv. repeat (destruct Hv as [<-|Hv]; [exists 1; split; [reflexivity | lra]|]). destruct Hv.
Qed.

(** ** False: a valid history has correct answers only.  Asking for the links by label first makes the
    number of links an AttributeError, although its value is 1. *)
Theorem C84_history_refuted : exists u d cx cy qs own, library_multi u logistic /\ csr_of cx (u_xs u) /\ csr_of cy (u_ys u) /\
  some_pair u own /\ Forall (valid_lquery own own) qs /\
  pair_sum (u_N u) own (fun i j => 1 - prodn (u_L u) (fun k => 1 - layer_prob logistic d (u_xs u) (u_ys u) k i j)) = 1 /\
  nth 1 (fst (sm_asks u cx cy 1 qs (MultiState.new_obj (Some d) own))) (Ok (ABase (Scalar 0))) = Raise AttributeError /\
  nth 0 (fst (sm_asks u cx cy 1 (tl qs) (MultiState.new_obj (Some d) own))) (Raise AttributeError) = Ok (ABase (Scalar 1)).
Proof.
  set (qs := [LEdges false; LBase (QEdges false)]).
  assert (Hp : some_pair two_multi false) by apply C84_case.
  assert (V : Forall (valid_lquery false false) qs) by (repeat (apply Forall_cons || apply Forall_nil); exact I).
  assert (T : pair_sum 2 false (fun i j => 1 - prodn 2 (fun k => 1 - layer_prob logistic two_param two_labels two_labels k i j)) = 1).
  { transitivity (pair_sum 2 false (fun _ _ => 1 / 2)); [|unfold pair_sum; cbn; lra].
    unfold pair_sum. apply sumn_ext; intros i Hi. apply sumn_ext; intros j Hj. rewrite two_prob by assumption. reflexivity. }
  exists two_multi, two_param, two_csr, two_csr, qs, false.
  split; [exact two_ok|]. split; [exact two_csr_ok|]. split; [exact two_csr_ok|]. split; [exact Hp|]. split; [exact V|].
  split; [exact T|]. split.
  - pose proof (C84_history_partial two_multi logistic two_param two_csr two_csr 1 false false qs two_ok two_nonneg two_csr_ok two_csr_ok
      (le_n 1) Hp V) as H.
    destruct (fst (sm_asks two_multi two_csr two_csr 1 qs _)) as [|r1 [|r2 rs]]; [contradiction | destruct H; contradiction|].
    destruct H as (_ & H & _). exact H.
  - pose proof (C84_history_partial two_multi logistic two_param two_csr two_csr 1 false false (tl qs) two_ok two_nonneg two_csr_ok two_csr_ok
      (le_n 1) Hp ltac:(apply Forall_cons_iff in V; apply V)) as H.
    destruct (fst (sm_asks two_multi two_csr two_csr 1 (tl qs) _)) as [|r1 rs]; [contradiction|].
    destruct H as ((a & H1 & H2) & _). cbn [nth]. rewrite H2. cbn [correct_answer] in H1. rewrite H1.
    do 3 f_equal. exact T.
Qed.
Print Assumptions C84_history_refuted.
