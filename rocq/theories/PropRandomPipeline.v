(** Property C90: from an observed graph to the Erdos-Renyi model of it. *)
From Coq Require Import ZArith String Sorted.
From Verif Require Import Base Num Spec Prob Ensemble EnsembleFacts EnsembleProps EnsembleState Ids IdFacts Graphs GraphFacts PropTables
  PropGraph Random RandomFacts PropRandom LayerProps Construct ConstructFacts PropConstruct Kernels KernelFacts MultiKernels MultiFacts
  Models ModelFacts Solver SolverFacts SolverConcave Fit FitFacts FitModels FitLib PropEnsemble Pipeline PropPipeline PropLikelihood RandomPipeline Sampled MultiLik.

Open Scope R_scope.
Open Scope string_scope.
Open Scope list_scope.

(** Number of edges of a graph: linked ordered pairs of a directed graph, linked unordered pairs of an undirected one;
    and the sum of the weights. *)
Definition edges_of (N : nat) (s : shape) : R :=
  if is_directed s then links N s else sumn N (fun i => sumn (S i) (fun j => neighbours (link s) i j)).
Definition weights_of (N : nat) (s : shape) : R := sumn N (fun i => sumn N (fun j => link s i j)).

Lemma half_square : forall N f, (forall i j, f i j = f j i) ->
  (sumn N (fun i => sumn N (fun j => f i j)) + sumn N (fun i => f i i)) / 2 = sumn N (fun i => sumn (S i) (fun j => f i j)).
Proof.
  intros N f S. rewrite sumn_triangle.
  rewrite (sumn_ext N (fun i => sumn i (fun j => f i j + f j i)) (fun i => 2 * sumn i (fun j => f i j))).
  2:{ intros i _. rewrite <- sumn_scal_l. apply sumn_ext. intros j _. rewrite (S j i). ring. }
  rewrite sumn_scal_l. cbn [sumn]. rewrite sumn_plus. field.
Qed.

Lemma edges_nat : forall N s, exists m, edges_of N s = INR m.
Proof.
  intros N s. unfold edges_of. destruct (is_directed s); [apply links_nat|].
  apply sumn_nat. intros i _. apply sumn_nat. intros j _. unfold neighbours, present.
  destruct (Req_EM_T (both_ways (link s) i j) 0); [exists 0%nat | exists 1%nat]; reflexivity.
Qed.

(** * C90: what the model reads from the graph *)
Theorem C90_read : forall w N s gr, library_graph w N s gr -> layers s <> [] ->
  exists m, edges_of N s = INR m /\
  read_graph w N s = Ok {| rd_vertices := N; rd_edges := m; rd_weight := if w then Some (Fin (weights_of N s)) else None |}.
Proof.
  intros w N s gr H L. pose proof (library_valid _ _ _ _ H) as V. destruct (edges_nat N s) as [m Em]. exists m. split; [exact Em|].
  unfold read_graph.
  assert (E1 : num_edges N s = Ok (INR m)).
  { rewrite <- Em. unfold num_edges, edges_of. destruct (is_directed s) eqn:D.
    - destruct (adjacency_ok N s true false L) as [A EA]. rewrite EA. cbn [bind]. rewrite (all_view w N s V true false A EA), D. reflexivity.
    - destruct (adjacency_ok N s false false L) as [A EA]. rewrite EA. cbn [bind]. unfold halved.
      rewrite (all_view w N s V _ _ _ EA), (diag_view w N s V _ _ _ EA), D. f_equal. unfold view. cbn [andb]. apply half_square. apply neighbours_sym. }
  assert (E2 : (if w then do t <- total_weight N s ; Ok (Some (Fin t)) else Ok None) = Ok (if w then Some (Fin (weights_of N s)) else None)).
  { destruct w; [|reflexivity]. unfold total_weight, weights_of. destruct (is_directed s) eqn:D.
    - destruct (adjacency_ok N s true true L) as [A EA]. rewrite EA. cbn [bind]. rewrite (all_view true N s V true true A EA), D. reflexivity.
    - destruct (adjacency_ok N s false true L) as [A EA]. rewrite EA. cbn [bind]. unfold halved.
      rewrite (all_view true N s V _ _ _ EA), (diag_view true N s V _ _ _ EA), D. do 3 f_equal. unfold view. cbn [andb].
      rewrite (sumn_ext N (fun i => both_ways (link s) i i) (fun i => link s i i)) by (intros i _; unfold both_ways; rewrite Nat.eqb_refl; reflexivity).
      rewrite both_ways_total. field. }
  rewrite E1. cbn [bind]. rewrite E2. cbn [bind]. rewrite Int_part_INR, Nat2Z.id. reflexivity.
Qed.
Print Assumptions C90_read.

(** The options that go with a graph, given or not. *)
Definition option_list (o1 o2 : option bool) : list (string * value) :=
  (match o1 with Some b => [("selfloops", Sc (SBool b))] | None => [] end)
  ++ (match o2 with Some b => [("discrete_weights", Sc (SBool b))] | None => [] end).
Definition given_or (o : option bool) : bool := match o with Some b => b | None => false end.

Lemma count_int : forall N, (1 <= N)%nat -> count_arg (int_value N) = Ok N.
Proof.
  intros N HN. apply count_arg_spec. split; [exact HN|]. left. exists (SInt (Z.of_nat N)). split; [reflexivity|].
  rewrite INR_IZR_INZ. constructor.
Qed.
Lemma count_none : count_arg (int_value 0) = Raise ValueError.
Proof.
  destruct (count_arg (int_value 0)) as [n|e] eqn:Ec.
  - apply count_arg_spec in Ec. destruct Ec as [Hn [(s' & Es & Hs) | (d & sh & Es & _)]]; [|discriminate].
    injection Es as <-. inversion Hs as [z Ez| |]; subst. apply (lt_INR 0) in Hn. simpl in Hn. lra.
  - revert Ec. unfold count_arg, int_value. simpl. intros Ec. destruct (py_int 0 =? 0)%Z; [congruence|].
    destruct (Reqb _ 1); cbn [guard] in Ec; [|congruence]. destruct (py_int 0 <=? 0)%Z; cbn [negb guard] in Ec; congruence.
Qed.
Lemma number_int : forall m, number_arg (int_value m) = Ok (Sc (SFloat (Fin (INR m)))).
Proof.
  intros m. unfold number_arg, int_value. cbn [py_len bind py_times_one sc_num py_negative neg nltb].
  rewrite <- INR_IZR_INZ, Rltb_false by apply pos_INR. reflexivity.
Qed.
Lemma number_float : forall r, 0 <= r -> number_arg (Sc (SFloat (Fin r))) = Ok (Sc (SFloat (Fin r))).
Proof.
  intros r Hr. unfold number_arg. cbn [py_len bind py_times_one sc_num py_negative neg nltb]. rewrite Rltb_false by exact Hr. reflexivity.
Qed.

Lemma weights_nonneg : forall w N s, valid w N s -> 0 <= weights_of N s.
Proof. intros w N s V. apply sumn_nonneg. intros i Hi. apply sumn_nonneg. intros j _. exact (link_nonneg _ _ _ _ _ V Hi). Qed.

(** Graphs of every class are accepted, directed or not. *)
Theorem C90_accept : forall w N s gr o1 o2, library_graph w N s gr -> layers s <> [] ->
  ((1 <= N)%nat -> random_of w N s (option_list o1 o2) = Ok
    {| rs_vertices := N; rs_selfloops := Sc (SBool (given_or o1)); rs_edges := Some (Sc (SFloat (Fin (edges_of N s))));
       rs_param := None;
       rs_discrete := match o2 with Some b => Some (Sc (SBool b)) | None => if w then Some (Sc (SBool false)) else None end;
       rs_weight := if w then Some (Sc (SFloat (Fin (weights_of N s)))) else None |}) /\
  (N = 0%nat -> random_of w N s (option_list o1 o2) = Raise ValueError).
Proof.
  intros w N s gr o1 o2 H L. destruct (C90_read w N s gr H L) as (m & Em & E). pose proof (library_valid _ _ _ _ H) as V.
  unfold random_of. rewrite E. cbn [bind]. unfold random_init. cbn [random_args bind]. rewrite Em.
  set (W := weights_of N s). pose proof (weights_nonneg w N s V : 0 <= W) as HW. clearbody W. clear E V H.
  assert (A : apply_kwargs random_allowed (option_list o1 o2)
      (random_attrs {| rd_vertices := N; rd_edges := m; rd_weight := if w then Some (Fin W) else None |})
    = Ok ((match o2 with Some b => [("discrete_weights", Sc (SBool b))] | None => [] end) ++
          (match o1 with Some b => [("selfloops", Sc (SBool b))] | None => [] end) ++
          random_attrs {| rd_vertices := N; rd_edges := m; rd_weight := if w then Some (Fin W) else None |})).
  { destruct o1, o2, w; reflexivity. }
  rewrite A. cbn [bind]. clear A. split; intros HN.
  - destruct o1, o2, w; unfold random_checks, required; cbn -[count_arg number_arg int_value]; rewrite (count_int N HN); cbn -[number_arg int_value];
      rewrite number_int; cbn -[number_arg]; rewrite ?number_float by exact HW; reflexivity.
  - subst N. destruct o1, o2, w; unfold random_checks, required; cbn -[count_arg number_arg int_value]; rewrite count_none; reflexivity.
Qed.
Print Assumptions C90_accept.

(** * C90: the fitted model *)

(** The object built from the graph. *)
Definition graph_model (w : bool) (N : nat) (s : shape) (o1 o2 : option bool) : rnd :=
  mkRnd N (given_or o1) (Some (edges_of N s, true)) (if w then Some (weights_of N s, true) else None)
    (match o2 with Some b => Some b | None => if w then Some false else None end) None.

Lemma object_built : forall w N s gr o1 o2, library_graph w N s gr -> layers s <> [] -> (1 <= N)%nat ->
  exists o, random_of w N s (option_list o1 o2) = Ok o /\ random_object (option_list o1 o2) o = Some (graph_model w N s o1 o2).
Proof.
  intros w N s gr o1 o2 H L HN. destruct (C90_accept w N s gr o1 o2 H L) as [A _]. rewrite (A HN). eexists. split; [reflexivity|].
  destruct o1, o2, w; reflexivity.
Qed.

Lemma links_le_pairs : forall N s sl, loops_counted N s sl -> links N s <= pairs_of N sl.
Proof.
  intros N s sl Lc. rewrite <- (Rmult_1_r (pairs_of N sl)), <- pair_count. unfold links, pair_sum.
  apply sumn_le. intros i Hi. apply sumn_le. intros j Hj. destruct (allowed sl i j) eqn:A; [apply present_range|].
  unfold allowed in A. destruct (Nat.eqb_spec i j) as [<- | ]; [|destruct sl; discriminate].
  destruct Lc as [-> | Lc]; [discriminate|]. rewrite (Lc i Hi), present_0. lra.
Qed.

(** A directed graph whose self-loops, if any, are admitted: the probability of a link is the fraction of admissible pairs
    that are linked, and the mean number of links over the graphs of the model is the number of links of the graph.
    Second parameter: none without weights; otherwise links per unit of weight, or one minus that; not a number when
    there is no link. *)
Theorem C90_fitted : forall w N s gr o1 o2, library_graph w N s gr -> is_directed s = true -> layers s <> [] ->
  (1 <= N)%nat -> (given_or o1 = false -> (2 <= N)%nat) -> loops_counted N s (given_or o1) ->
  exists o r r' p q, random_of w N s (option_list o1 o2) = Ok o /\ random_object (option_list o1 o2) o = Some r /\
    rnd_fit r = Ok r' /\ r_param r' = Some (Fin p, q) /\ 0 <= p <= 1 /\
    p * INR (length (pairs N (given_or o1))) = links N s /\
    rnd_num_edges r' = Ok (Fin (links N s)) /\
    ensemble_mean N (given_or o1) (graph_weight N (given_or o1) (fun _ _ => p)) (g_edges N) = links N s /\
    (w = false -> q = Fin 0) /\
    (w = true -> 0 < links N s -> 0 < weights_of N s /\
       q = Fin (if given_or o2 then 1 - links N s / weights_of N s else links N s / weights_of N s)) /\
    (w = true -> links N s = 0 -> q = NaN).
Proof.
  intros w N s gr o1 o2 H D L HN HN2 Lc. destruct (object_built w N s gr o1 o2 H L HN) as (o & E1 & E2).
  pose proof (library_valid _ _ _ _ H) as V.
  set (sl := given_or o1) in *. pose proof (pairs_of_pos N sl HN HN2) as P. pose proof (links_le_pairs N s sl Lc) as LP.
  pose proof (links_nonneg N s) as L0.
  set (p := links N s / pairs_of N sl).
  assert (Ep : p * pairs_of N sl = links N s) by (unfold p; field; lra).
  assert (EE : edges_of N s = links N s) by (unfold edges_of; rewrite D; reflexivity).
  assert (WL : (0 < links N s -> 0 < weights_of N s) /\ (links N s = 0 -> weights_of N s = 0)).
  { unfold links, weights_of. split; intros K.
    - apply sumn_pos in K; [|intros; apply sumn_nonneg; intros; apply present_range]. destruct K as (i & Hi & K).
      apply sumn_pos in K; [|intros; apply present_range]. destruct K as (j & Hj & K).
      apply sumn_pos; [intros k Hk; apply sumn_nonneg; intros; exact (link_nonneg _ _ _ _ _ V Hk)|]. exists i. split; [exact Hi|].
      apply sumn_pos; [intros; exact (link_nonneg _ _ _ _ _ V Hi)|]. exists j. split; [exact Hj|].
      pose proof (link_nonneg _ _ _ i j V Hi) as [K' | K']; [exact K'|]. rewrite <- K', present_0 in K. lra.
    - apply sumn_zero. intros i Hi. apply sumn_zero. intros j Hj.
      apply present_nonneg_zero; [exact (link_nonneg _ _ _ _ _ V Hi)|].
      apply (sumn_zero_inv N (fun j => present (link s i j))); [intros; apply present_range | | exact Hj].
      apply (sumn_zero_inv N (fun i => sumn N (fun j => present (link s i j)))); [intros; apply sumn_nonneg; intros; apply present_range | exact K | exact Hi]. }
  destruct WL as [WP WZ].
  set (q := if w then (if given_or o2 then nsub (Fin 1) (ndiv (Fin (links N s)) (Fin (weights_of N s))) else ndiv (Fin (links N s)) (Fin (weights_of N s))) else Fin 0).
  exists o, (graph_model w N s o1 o2), (with_rparam (graph_model w N s o1 o2) (Fin p) q), p, q.
  split; [exact E1|]. split; [exact E2|].
  split.
  { unfold rnd_fit, graph_model, scalar_div. cbn [r_edges r_weight r_discrete r_N r_selfloops]. fold sl. rewrite EE. unfold ndiv.
    rewrite (Reqb_false (pairs_of N sl)) by lra. fold p. cbn [bind]. unfold q. destruct w; [|reflexivity].
    destruct o2 as [[]|]; cbn [orb given_or]; reflexivity. }
  split; [reflexivity|].
  split. { unfold p. split; [apply Rmult_le_pos; [lra | left; apply Rinv_0_lt_compat; lra]|]. apply (Rmult_le_reg_r (pairs_of N sl)); [lra|]. fold p. lra. }
  split; [rewrite pairs_length; exact Ep|].
  split.
  { unfold rnd_num_edges, with_rparam, graph_model. cbn [r_param r_selfloops r_N]. fold sl. do 2 f_equal. rewrite <- Ep. unfold pairs_of.
    destruct sl; cbn [nmul]; f_equal; ring. }
  split; [rewrite mean_edges, pair_count; lra|].
  split; [intros ->; reflexivity|]. split.
  - intros -> K. specialize (WP K). split; [exact WP|]. unfold q, ndiv. rewrite Reqb_false by lra. destruct (given_or o2); reflexivity.
  - intros -> K. unfold q, ndiv. rewrite (WZ K), K, !(Reqb_true 0 0 eq_refl). destruct (given_or o2); reflexivity.
Qed.
Print Assumptions C90_fitted.

(** * C90: the likelihood of the graph itself *)

(** The matrix that log_likelihood takes from a directed graph has exactly its links, in order. *)
Lemma row_of_filter : forall N f i, (i < N)%nat -> row_of (filter (fun e => f (fst e) (snd e)) (pairs N true)) i = filter (f i) (seq 0 N).
Proof.
  intros N f i Hi. unfold row_of, pairs.
  assert (Q : forall (l : list nat) (a : nat), map snd (filter (fun e => Nat.eqb (fst e) i) (filter (fun e => f (fst e) (snd e))
      (filter (fun e : nat * nat => allowed true (fst e) (snd e)) (map (fun y => (a, y)) l)))) = if Nat.eqb a i then filter (f i) l else []).
  { intros l a. induction l as [|b l IH]; [destruct (Nat.eqb a i); reflexivity|].
    cbn [map filter fst snd]. replace (allowed true a b) with true by (unfold allowed; destruct (Nat.eqb a b); reflexivity). cbn [filter fst snd]. destruct (f a b) eqn:F; cbn [filter fst].
    - destruct (Nat.eqb_spec a i) as [E | Hne]; cbn [map snd]; rewrite IH; [|reflexivity]. rewrite <- E, F. reflexivity.
    - rewrite IH. destruct (Nat.eqb_spec a i) as [E | Hne]; [rewrite <- E, F|]; reflexivity. }
  assert (R : forall n s, map snd (filter (fun e => Nat.eqb (fst e) i) (filter (fun e => f (fst e) (snd e))
      (filter (fun e : nat * nat => allowed true (fst e) (snd e)) (list_prod (seq s n) (seq 0 N)))))
    = if Nat.leb s i && Nat.ltb i (s + n) then filter (f i) (seq 0 N) else []).
  { induction n as [|n IH]; intros s.
    - cbn [seq list_prod filter map]. destruct (Nat.leb_spec s i), (Nat.ltb_spec i (s + 0)); try reflexivity; lia.
    - cbn [seq list_prod]. rewrite !filter_app, map_app, Q, IH.
      destruct (Nat.eqb_spec s i), (Nat.leb_spec s i), (Nat.leb_spec (S s) i), (Nat.ltb_spec i (S s + n)), (Nat.ltb_spec i (s + S n)); cbn [andb]; try lia;
        rewrite ?app_nil_r; reflexivity. }
  rewrite R. destruct (Nat.leb_spec 0 i), (Nat.ltb_spec i (0 + N)); try lia. reflexivity.
Qed.

Theorem C90_matrix : forall w N s gr, library_graph w N s gr -> is_directed s = true -> layers s <> [] ->
  exists row, graph_matrix N s = Ok (Matrix N N row) /\ forall i, (i < N)%nat -> row i = row_of (observed_links N s true) i.
Proof.
  intros w N s gr H D L. pose proof (library_valid _ _ _ _ H) as V. destruct (adjacency_ok N s true false L) as [A EA].
  destruct (adjacency_spec w N s true false A V EA) as [HA HV]. unfold graph_matrix. rewrite EA. cbn [bind]. eexists. split; [reflexivity|].
  intros i Hi. unfold observed_links. rewrite (row_of_filter N (fun i j => negb (Reqb (link s i j) 0)) i Hi).
  destruct (HA i Hi) as [S F]. rewrite Forall_forall in F.
  rewrite (sorted_filter (map fst (sp_row A i)) 0 N S).
  2:{ intros j Hj. apply in_map_iff in Hj. destruct Hj as (e & <- & He). destruct (F e He) as [B _]. lia. }
  apply filter_ext_in. intros j Hj. apply in_seq in Hj. specialize (HV i j Hi ltac:(lia)). rewrite D in HV. unfold view in HV. cbn [andb] in HV.
  destruct (existsb (Nat.eqb j) (map fst (sp_row A i))) eqn:X.
  - apply existsb_exists in X. destruct X as (k & Hk & X). apply Nat.eqb_eq in X. subst k. apply in_map_iff in Hk. destruct Hk as ((k & v) & <- & He).
    destruct (F _ He) as (_ & Hv & _). cbn [fst snd] in *. rewrite (entry_in _ k v (sorted_lt_nodup _ S) He) in HV.
    destruct (Reqb_spec (link s i k) 0) as [Z | Z]; [|reflexivity]. rewrite Z, present_0 in HV. lra.
  - assert (Nj : ~ In j (map fst (sp_row A i))).
    { intros K. assert (T : existsb (Nat.eqb j) (map fst (sp_row A i)) = true) by (apply existsb_exists; exists j; split; [exact K | apply Nat.eqb_refl]). congruence. }
    rewrite (entry_notin _ _ Nj) in HV. destruct (Reqb_spec (link s i j) 0) as [Z | Z]; [reflexivity|]. exfalso. apply Z.
    apply present_nonneg_zero; [exact (link_nonneg _ _ _ _ _ V Hi) | symmetry; exact HV].
Qed.
Print Assumptions C90_matrix.

Lemma observed_all : forall N s sl, loops_counted N s sl -> observed_links N s sl = observed_links N s true.
Proof.
  intros N s sl Lc. unfold observed_links, pairs. rewrite !LayerProps.filter_filter. apply filter_ext_in. intros (i, j) Hin. apply in_prod_iff in Hin.
  destruct Hin as [Hi _]. apply in_seq in Hi. cbn [fst snd]. unfold allowed. destruct (Nat.eqb_spec i j) as [<- |]; [|destruct sl; reflexivity].
  destruct Lc as [-> | Lc]; [reflexivity|]. rewrite (Lc i ltac:(lia)), (Reqb_true 0 0 eq_refl). destruct sl; reflexivity.
Qed.

Lemma observed_length : forall N s sl, loops_counted N s sl -> INR (length (observed_links N s sl)) = links N s.
Proof.
  intros N s sl Lc. rewrite <- (observed_edges N s sl Lc). symmetry. apply g_counts.
  - apply NoDup_filter, NoDup_pairs.
  - intros i j H. apply observed_mem in H. tauto.
Qed.

Lemma rnd_lik_ext : forall N row row' s s', (forall i, (i < N)%nat -> row i = row' i) -> r_N s = N -> r_N s' = N -> r_selfloops s = r_selfloops s' ->
  option_map fst (r_param s) = option_map fst (r_param s') ->
  rnd_log_likelihood (Matrix N N row) None s = rnd_log_likelihood (Matrix N N row') None s'.
Proof.
  intros N row row' s s' H Es Es' El Ep. unfold rnd_log_likelihood. rewrite Es, Es', El.
  assert (A : nnz N row = nnz N row' /\ diag_count N row = diag_count N row').
  { unfold nnz, diag_count. split; apply for_range_ext; intros i k Hi; rewrite (H i Hi); reflexivity. }
  destruct A as [-> ->]. destruct (r_param s) as [[p q]|], (r_param s') as [[p' q']|]; cbn in Ep; try discriminate; [|reflexivity].
  injection Ep as ->. reflexivity.
Qed.

(** If some but not all admissible pairs are linked, the fitted probability is the one at which the graph is most likely,
    by the log_likelihood method called with the graph. *)
Theorem C90_maximum : forall w N s gr o1 o2, library_graph w N s gr -> is_directed s = true -> layers s <> [] ->
  loops_counted N s (given_or o1) -> 0 < links N s < INR (length (pairs N (given_or o1))) ->
  exists o r r' p q g l, random_of w N s (option_list o1 o2) = Ok o /\ random_object (option_list o1 o2) o = Some r /\
    rnd_fit r = Ok r' /\ r_param r' = Some (Fin p, q) /\ graph_matrix N s = Ok g /\ rnd_log_likelihood g None r' = Ok (Fin l) /\
    forall p' q', 0 < p' < 1 -> p' <> p -> exists l', rnd_log_likelihood g None (with_rparam r' (Fin p') q') = Ok (Fin l') /\ l' < l.
Proof.
  intros w N s gr o1 o2 H D L Lc B. set (sl := given_or o1) in *. set (G := observed_links N s sl).
  assert (HG : In G (all_graphs N sl)) by apply filter_sublist.
  assert (EL : INR (length G) = links N s) by (apply observed_length; exact Lc).
  assert (HL : (0 < length G < length (pairs N sl))%nat) by (rewrite <- EL in B; split; apply INR_lt; [exact (proj1 B) | exact (proj2 B)]).
  assert (HN : (1 <= N)%nat). { destruct N; [|lia]. cbn in HL. lia. }
  assert (HN2 : sl = false -> (2 <= N)%nat). { intros Es. destruct N as [|[|N]]; [lia| |lia]. rewrite Es in HL. cbn in HL. lia. }
  destruct (C90_fitted w N s gr o1 o2 H D L HN HN2 Lc) as (o & r & r' & p & q & E1 & E2 & E3 & Hp & _ & P & _). fold sl in P.
  destruct (C90_matrix w N s gr H D L) as (row & Eg & Er). rewrite <- (observed_all N s sl Lc) in Er. fold G in Er.
  destruct (C89_random N sl None true None G HG HL) as (s0 & p0 & l & F0 & P0 & _ & L0 & M0).
  assert (S0 : r_N s0 = N /\ r_selfloops s0 = sl /\ p0 = p).
  { unfold rnd_fit in F0. cbn [r_edges r_weight scalar_div r_N r_selfloops] in F0. destruct (ndiv (Fin (INR (length G))) (Fin (pairs_of N sl))) eqn:Ed; cbn [bind] in F0;
      injection F0 as <-; cbn [with_rparam r_param r_N r_selfloops] in *; try discriminate. split; [reflexivity|]. split; [reflexivity|].
    injection P0 as ->. unfold ndiv in Ed. rewrite <- (pairs_length N sl) in Ed.
    assert (0 < INR (length (pairs N sl))) by lra. rewrite Reqb_false in Ed by lra. injection Ed as <-. rewrite EL, <- P. field. lra. }
  destruct S0 as (S1 & S2 & ->).
  assert (R' : r_N r' = N /\ r_selfloops r' = sl).
  { assert (Eo : r = graph_model w N s o1 o2). { destruct (object_built w N s gr o1 o2 H L HN) as (o' & A1 & A2). congruence. }
    subst r. unfold rnd_fit in E3. cbn [graph_model r_edges scalar_div bind] in E3. destruct w; cbn [graph_model r_weight r_discrete] in E3;
      [destruct o2 as [[]|]|]; cbn [scalar_div bind orb] in E3; injection E3 as <-; split; reflexivity. }
  destruct R' as [R1 R2].
  exists o, r, r', p, q, (Matrix N N row), l. split; [exact E1|]. split; [exact E2|]. split; [exact E3|]. split; [exact Hp|]. split; [exact Eg|].
  split.
  - rewrite <- L0. apply rnd_lik_ext; try assumption; [congruence|]. rewrite Hp, P0. reflexivity.
  - intros p' q' Hp' Hne. destruct (M0 p' q' Hp' Hne) as (l' & L1 & L2). exists l'. split; [|exact L2]. rewrite <- L1.
    apply rnd_lik_ext; cbn [with_rparam r_N r_selfloops r_param]; try assumption; [congruence | reflexivity].
Qed.
Print Assumptions C90_maximum.

(** The same for a fitness model fitted to the graph: the value of log_likelihood for the graph is the one of its links,
    and no other parameter is more likely by more than the tolerance of the fit allows. *)
Theorem C90_fitness : forall w N s gr kw sl st x0 at_ rho mi, library_graph w N s gr -> is_directed s = true ->
  layers s <> [] -> (1 <= N)%nat -> options kw sl -> loops_counted N s sl -> start_at st x0 -> 0 <= x0 -> 0 < at_ -> 0 <= rho ->
  exists o f d g, fitness_of N s kw = Ok o /\ fit_object (jac_of false) o st Density (Fin at_) (Fin rho) mi = Some (Ok f) /\
    fitted_param f = Fin d /\ graph_matrix N s = Ok g /\
    (sol_converged (fitted_sol f) = true -> 0 < d -> forall d' a a', 0 < d' ->
     a_param a = Some (Fin d) -> a_selfloops a = sl -> a_param a' = Some (Fin d') -> a_selfloops a' = sl ->
     exists l l', o_log_likelihood (model_of false w N s d) g None a = Ok (Fin l) /\
       o_log_likelihood (model_of false w N s d') g None a' = Ok (Fin l') /\
       l' <= l + (at_ + rho * links N s) * Rabs (ln (d' / d))).
Proof.
  intros w N s gr kw sl st x0 at_ rho mi H D L HN O Lc S Hx Ha Hr.
  destruct (C89_fitted w N s gr kw sl st x0 at_ rho mi H D L HN O Lc S Hx Ha Hr) as (o & f & d & E1 & E2 & E3 & Hd & C).
  destruct (C90_matrix w N s gr H D L) as (row & Eg & Er). rewrite <- (observed_all N s sl Lc) in Er.
  exists o, f, d, (Matrix N N row). split; [exact E1|]. split; [exact E2|]. split; [exact E3|]. split; [exact Eg|].
  intros Hc Hp d' a a' Hd' A1 A2 A3 A4. destruct (C Hc Hp d' Hd') as (l & l' & L1 & L2 & B). exists l, l'.
  assert (Q : forall e k v, a_param e = Some (Fin k) -> a_selfloops e = sl -> m_likelihood (model_of false w N s k) (observed_links N s sl) sl = Fin v ->
    o_log_likelihood (model_of false w N s k) (Matrix N N row) None e = Ok (Fin v)).
  { intros e k v B1 B2 B3. rewrite <- B3.
    transitivity (log_likelihood (P := num) (m_logp (model_of false w N s k)) (m_log1mp (model_of false w N s k)) (m_out (model_of false w N s k))
      (m_in (model_of false w N s k)) (m_dyad (model_of false w N s k)) N (Matrix N N row) None e); [reflexivity|].
    unfold log_likelihood. rewrite B1, B2, !Nat.eqb_refl. cbn [andb guard]. f_equal. unfold m_likelihood. rewrite model_N.
    apply MultiLik.likelihood_rows. intros i j Hi. rewrite (Er i Hi). reflexivity. }
  split; [exact (Q a d l A1 A2 L1)|]. split; [exact (Q a' d' l' A3 A4 L2) | exact B].
Qed.
Print Assumptions C90_fitness.

(** * Examples and graphs without a fitting model *)

Lemma any_library : forall N l, let v := map (fun i => (i, 0%nat)) (seq 0 N) in NoDup (map fst v) ->
  (forall r, In r (rows_of l) -> In (r_src r) (map fst v) /\ In (r_dst r) (map fst v) /\ (true = true -> 0 < Ids.r_weight r)) ->
  inner Nat.leb (enum_of Nat.leb (map fst v)) true (rows_of l) = l -> library_graph true N (small_graph N l) None.
Proof.
  intros N l v HN HE HI. destruct (build Nat.leb Nat.leb nat_order nat_order false false true v (rows_of l) HN HE) as (gr & H & Hg).
  rewrite HI in H.
  apply (built true N (small_graph N l) None nat nat nat Nat.leb Nat.leb Nat.leb false false false v (rows_of l)
    (mkBase (length v) (enum_of Nat.leb (map fst v)) gr true l) nat_order nat_order nat_order).
  - apply of_digraph. unfold sparse_graph. rewrite H. cbn [bind b_n b_edges negb]. unfold v. rewrite map_length, seq_length. reflexivity.
  - cbn [b_n]. unfold v. rewrite map_length, seq_length. reflexivity.
  - unfold grouping_of. cbn [b_groups]. cbn in Hg. subst gr. reflexivity.
Qed.
Definition both : list (nat * nat * R) := [(0%nat, 1%nat, 1); (1%nat, 0%nat, 1)].
Definition three : list (nat * nat * R) := [(0%nat, 0%nat, 1); (0%nat, 1%nat, 1); (1%nat, 0%nat, 1)].
Lemma few_library : forall l, l = both \/ l = three \/ l = [] -> library_graph true 2 (small_graph 2 l) None.
Proof.
  intros l [-> | [-> | ->]].
  all: apply any_library; [repeat (constructor; [cbn; intuition lia|]); constructor
    | intros r Hr; cbn in Hr; intuition (subst; cbn; try lia; try lra) | reflexivity].
Qed.
Lemma few_links : links 2 (small_graph 2 both) = 2 /\ links 2 (small_graph 2 three) = 3 /\ links 2 (small_graph 2 []) = 0.
Proof.
  unfold links. cbn [sumn]. rewrite !small_link by lia. cbn [suml both three hits fst snd Nat.eqb andb].
  rewrite ?Rplus_0_r, ?Rplus_0_l, !present_0, !present_pos by lra. lra.
Qed.

(** A path of two links among the six ordered pairs of three vertices. *)
Example C90_case : library_graph true 3 (small_graph 3 path) None /\ is_directed (small_graph 3 path) = true /\
  layers (small_graph 3 path) <> [] /\ loops_counted 3 (small_graph 3 path) (given_or None) /\
  0 < links 3 (small_graph 3 path) < INR (length (pairs 3 false)) /\
  exists o r r' p q, random_of true 3 (small_graph 3 path) (option_list None None) = Ok o /\ random_object (option_list None None) o = Some r /\
    rnd_fit r = Ok r' /\ r_param r' = Some (Fin p, Fin q) /\ p = 1 / 3 /\ q = 2 / 3.
Proof.
  pose proof (small_library 3 path ltac:(auto)) as H. destruct path_open as [_ Hl].
  split; [exact H|]. split; [reflexivity|]. split; [discriminate|]. split; [exact Hl|].
  split; [rewrite path_links; cbn; lra|].
  destruct (C90_fitted true 3 _ None None None H eq_refl ltac:(discriminate) ltac:(lia) ltac:(lia) Hl) as (o & r & r' & p & q & E1 & E2 & E3 & Hp & _ & P & _ & _ & _ & Q & _).
  rewrite path_links in *. destruct (Q eq_refl ltac:(lra)) as [_ ->]. exists o, r, r', p, (2 / weights_of 3 (small_graph 3 path)).
  split; [exact E1|]. split; [exact E2|]. split; [exact E3|]. split; [exact Hp|]. split.
  - cbn in P. lra.
  - unfold weights_of. cbn [sumn]. rewrite !small_link by lia. cbn [suml path hits fst snd Nat.eqb andb]. lra.
Qed.

(** The fitness model of that path, from the start 1 (C87_terminates gives convergence or a stop for every tolerance). *)
Example C90_fitness_case : library_graph true 3 (small_graph 3 path) None /\ is_directed (small_graph 3 path) = true /\
  layers (small_graph 3 path) <> [] /\ options [] false /\ loops_counted 3 (small_graph 3 path) false /\
  start_at (Some (Numeric [Fin 1])) 1 /\ open_pair 3 (small_graph 3 path) false /\
  exists g, graph_matrix 3 (small_graph 3 path) = Ok g.
Proof.
  destruct path_open as [Ho Hl]. pose proof (small_library 3 path ltac:(auto)) as H.
  split; [exact H|]. split; [reflexivity|]. split; [discriminate|]. split; [left; auto|]. split; [exact Hl|]. split; [right; reflexivity|].
  split; [exact Ho|]. destruct (C90_matrix true 3 _ None H eq_refl ltac:(discriminate)) as (row & E & _). exists (Matrix 3 3 row). exact E.
Qed.

(** Self-loops are counted although the default model has none: with three links, one of them a self-loop, among two vertices
    the probability of a link is 3/2, and log_likelihood raises ValueError for every matrix of the right shape. *)
Theorem C90_above_one_refuted : exists N s gr o r r' p q, library_graph true N s gr /\ is_directed s = true /\
  random_of true N s [] = Ok o /\ random_object [] o = Some r /\ rnd_fit r = Ok r' /\ r_param r' = Some (Fin p, q) /\ 1 < p /\
  forall row, rnd_log_likelihood (Matrix N N row) None r' = Raise ValueError.
Proof.
  pose proof (few_library three ltac:(auto)) as H. destruct few_links as (_ & E & _).
  exists 2%nat, (small_graph 2 three), None.
  destruct (object_built true 2 _ None None None H ltac:(discriminate) ltac:(lia)) as (o & E1 & E2).
  exists o, (graph_model true 2 (small_graph 2 three) None None).
  assert (F : exists q, rnd_fit (graph_model true 2 (small_graph 2 three) None None) = Ok (with_rparam (graph_model true 2 (small_graph 2 three) None None) (Fin (3 / pairs_of 2 false)) q)).
  { eexists. unfold rnd_fit, graph_model. cbn [r_edges r_weight r_discrete r_N r_selfloops given_or scalar_div orb].
    unfold edges_of. cbn [is_directed small_graph]. change (SDiGraph (coo_tocsr false 2 three)) with (small_graph 2 three). rewrite E. unfold ndiv at 1.
    rewrite (Reqb_false (pairs_of 2 false)) by (unfold pairs_of; cbn; lra). cbn [bind]. reflexivity. }
  destruct F as [q F]. eexists _, (3 / pairs_of 2 false), q. split; [exact H|]. split; [reflexivity|]. split; [exact E1|]. split; [exact E2|].
  split; [exact F|]. split; [reflexivity|]. assert (P : 3 / pairs_of 2 false = 3 / 2) by (unfold pairs_of; cbn; field). rewrite P. split; [lra|].
  intros row. unfold rnd_log_likelihood, with_rparam, graph_model. cbn [r_param r_N r_selfloops given_or Nat.eqb andb guard]. unfold neqb.
  rewrite (Reqb_false (3 / 2) 0), (Reqb_false (3 / 2) 1) by lra. cbn [andb]. unfold py_log. rewrite Rltb_true by lra. cbn [bind].
  unfold py_log1p. cbn [nopp nadd]. unfold py_log. rewrite Rltb_false by lra. reflexivity.
Qed.
Print Assumptions C90_above_one_refuted.

(** A graph with all admissible links is the only graph of its model, and log_likelihood gives it minus infinity; for a graph
    without links log_likelihood raises ValueError. *)
Theorem C90_own_refuted : exists s gr s' gr' g g' r r' q q', library_graph true 2 s gr /\ library_graph true 2 s' gr' /\
  is_directed s = true /\ is_directed s' = true /\ graph_matrix 2 s = Ok g /\ graph_matrix 2 s' = Ok g' /\
  (exists o, random_of true 2 s [] = Ok o /\ exists t, random_object [] o = Some t /\ rnd_fit t = Ok r) /\
  (exists o, random_of true 2 s' [] = Ok o /\ exists t, random_object [] o = Some t /\ rnd_fit t = Ok r') /\
  r_param r = Some (Fin 1, q) /\ graph_weight 2 false (fun _ _ => 1) (observed_links 2 s false) = 1 /\ rnd_log_likelihood g None r = Ok NInf /\
  r_param r' = Some (Fin 0, q') /\ graph_weight 2 false (fun _ _ => 0) (observed_links 2 s' false) = 1 /\ rnd_log_likelihood g' None r' = Raise ValueError.
Proof.
  pose proof (few_library both ltac:(auto)) as H. pose proof (few_library [] ltac:(auto)) as H'. destruct few_links as (E & _ & E').
  assert (Lc : loops_counted 2 (small_graph 2 both) false /\ loops_counted 2 (small_graph 2 []) false).
  { split; right; intros i Hi; rewrite small_link by exact Hi; destruct i as [|[|i]]; try lia; cbn; lra. }
  destruct Lc as [Lc Lc'].
  destruct (C90_fitted true 2 _ None None None H eq_refl ltac:(discriminate) ltac:(lia) ltac:(lia) Lc) as (o & t & r & p & q & E1 & E2 & E3 & Hp & _ & P & _).
  destruct (C90_fitted true 2 _ None None None H' eq_refl ltac:(discriminate) ltac:(lia) ltac:(lia) Lc') as (o' & t' & r' & p' & q' & E1' & E2' & E3' & Hp' & _ & P' & _).
  destruct (C90_matrix true 2 _ None H eq_refl ltac:(discriminate)) as (row & Eg & Er).
  destruct (C90_matrix true 2 _ None H' eq_refl ltac:(discriminate)) as (row' & Eg' & Er').
  rewrite E in P. rewrite E' in P'. cbn [given_or pairs list_prod seq map app filter allowed fst snd Nat.eqb negb orb length INR] in P, P'.
  assert (p = 1) by lra. assert (p' = 0) by lra. subst p p'.
  exists (small_graph 2 both), None, (small_graph 2 []), None, (Matrix 2 2 row), (Matrix 2 2 row'), r, r', q, q'.
  assert (O : observed_links 2 (small_graph 2 both) false = [(0, 1); (1, 0)]%nat /\ observed_links 2 (small_graph 2 both) true = [(0, 1); (1, 0)]%nat /\
    observed_links 2 (small_graph 2 []) false = [] /\ observed_links 2 (small_graph 2 []) true = []).
  { unfold observed_links. cbn [pairs list_prod seq map app filter allowed fst snd Nat.eqb negb orb]. rewrite !small_link by lia.
    cbn [suml both hits fst snd Nat.eqb andb]. rewrite ?Rplus_0_r, ?Rplus_0_l, !(Reqb_true 0 0 eq_refl), ?(Reqb_false 1 0) by lra. auto. }
  destruct O as (O1 & O2 & O3 & O4).
  assert (R : r_N r = 2%nat /\ r_N r' = 2%nat).
  { assert (G : forall l o t r, library_graph true 2 (small_graph 2 l) None -> random_of true 2 (small_graph 2 l) (option_list None None) = Ok o ->
        random_object (option_list None None) o = Some t -> rnd_fit t = Ok r -> r_N r = 2%nat).
    { intros l a b c Hl A1 A2 A3. destruct (object_built true 2 _ None None None Hl ltac:(discriminate) ltac:(lia)) as (a' & B1 & B2).
      assert (b = graph_model true 2 (small_graph 2 l) None None) by congruence. subst b. unfold rnd_fit in A3.
      cbn [graph_model r_edges r_weight r_discrete scalar_div bind orb] in A3. injection A3 as <-. reflexivity. }
    split; [exact (G both o t r H E1 E2 E3) | exact (G [] o' t' r' H' E1' E2' E3')]. }
  destruct R as [R R'].
  split; [exact H|]. split; [exact H'|]. split; [reflexivity|]. split; [reflexivity|]. split; [exact Eg|]. split; [exact Eg'|].
  split; [exists o; split; [exact E1 | exists t; split; [exact E2 | exact E3]]|].
  split; [exists o'; split; [exact E1' | exists t'; split; [exact E2' | exact E3']]|].
  split; [exact Hp|]. split; [rewrite O1; unfold graph_weight; cbn; ring|]. split.
  { unfold rnd_log_likelihood. rewrite Hp, R. cbn [Nat.eqb andb guard].
    assert (K : nnz 2 row = 2%nat). { unfold nnz. cbn [for_range seq fold_left]. rewrite !Er, O2 by lia. reflexivity. }
    rewrite K. unfold neqb. rewrite (Reqb_false 1 0), (Reqb_true 1 1 eq_refl) by lra. reflexivity. }
  split; [exact Hp'|]. split; [rewrite O3; unfold graph_weight; cbn; ring|].
  unfold rnd_log_likelihood. rewrite Hp', R'. cbn [Nat.eqb andb guard].
  assert (K : nnz 2 row' = 0%nat). { unfold nnz. cbn [for_range seq fold_left]. rewrite !Er', O4 by lia. reflexivity. }
  rewrite K. unfold neqb. rewrite (Reqb_false 0 1) by lra. cbn [Nat.ltb Nat.leb andb]. rewrite andb_false_r. unfold py_log. rewrite Rltb_false by lra. reflexivity.
Qed.
Print Assumptions C90_own_refuted.

(** Undirected graphs are accepted as well.  Their edges are counted once, so that a model of ordered pairs gets half the density:
    for two vertices and one edge the probability is 1/2, the expected degree 3/4 instead of 1, and the graph is more likely at the
    probability 3/4. *)
Theorem C90_undirected_refuted : exists s gr o r r' q g l l' dg d, library_graph true 2 s gr /\ is_directed s = false /\
  random_of true 2 s [] = Ok o /\ random_object [] o = Some r /\ rnd_fit r = Ok r' /\ r_param r' = Some (Fin (1 / 2), q) /\
  rnd_num_edges r' = Ok (Fin 1) /\ num_edges 2 s = Ok 1 /\
  degree 2 s = Ok dg /\ dg 0%nat = 1 /\ rnd_degree r' = Ok d /\ d 0%nat = Fin (3 / 4) /\
  graph_matrix 2 s = Ok g /\ rnd_log_likelihood g None r' = Ok (Fin l) /\
  rnd_log_likelihood g None (with_rparam r' (Fin (3 / 4)) q) = Ok (Fin l') /\ l < l'.
Proof.
  destruct (one_edge_library true 0 1 ltac:(lia) ltac:(lia)) as (A & gr & H & _ & EA). set (s := SGraph A) in *.
  pose proof (library_valid _ _ _ _ H) as V.
  assert (Lk : forall i j, (i < 2)%nat -> (j < 2)%nat -> link s i j = if Nat.eqb i 0 && Nat.eqb j 1 then 1 else 0).
  { intros i j Hi Hj. unfold s. cbn [link]. rewrite EA. cbn [negb]. rewrite coo_entry by exact Hj.
    destruct i as [|[|i]], j as [|[|j]]; try lia; cbn; lra. }
  assert (Nb : forall i j, (i < 2)%nat -> (j < 2)%nat -> neighbours (link s) i j = if Nat.eqb i j then 0 else 1).
  { intros i j Hi Hj. unfold neighbours, both_ways. rewrite !Lk by assumption.
    destruct i as [|[|i]], j as [|[|j]]; try lia; cbn [Nat.eqb andb]; rewrite ?Rplus_0_r, ?Rplus_0_l, ?present_0, ?present_pos by lra; reflexivity. }
  assert (E : edges_of 2 s = 1). { unfold edges_of. cbn [is_directed s sumn]. rewrite !Nb by lia. cbn. lra. }
  assert (Ew : weights_of 2 s = 1). { unfold weights_of. cbn [sumn]. rewrite !Lk by lia. cbn. lra. }
  destruct (object_built true 2 s gr None None H ltac:(discriminate) ltac:(lia)) as (o & E1 & E2).
  destruct (C90_read true 2 s gr H ltac:(discriminate)) as (m & Em & Er).
  destruct (adjacency_ok 2 s true false ltac:(discriminate)) as [B EB]. destruct (adjacency_spec true 2 s true false B V EB) as [HB VB].
  destruct (adjacency_ok 2 s false false ltac:(discriminate)) as [C EC].
  set (r' := mkRnd 2 false (Some (1, true)) (Some (1, true)) (Some false) (Some (Fin (1 / 2), Fin 1))).
  assert (F : rnd_fit (graph_model true 2 s None None) = Ok r').
  { unfold rnd_fit, graph_model. cbn [r_edges r_weight r_discrete r_N r_selfloops given_or scalar_div orb bind]. rewrite E, Ew. unfold ndiv.
    rewrite (Reqb_false 1 0), (Reqb_false (pairs_of 2 false)) by (unfold pairs_of; cbn; lra). unfold with_rparam, r', graph_model. cbn [r_N r_selfloops r_edges r_weight r_discrete].
    repeat f_equal; unfold pairs_of; cbn; field. }
  assert (K : forall i, (i < 2)%nat -> map fst (sp_row B i) = if Nat.eqb i 0 then [1%nat] else [0%nat]).
  { intros i Hi. destruct (HB i Hi) as [S Fo]. rewrite Forall_forall in Fo. rewrite (sorted_filter (map fst (sp_row B i)) 0 2 S).
    2:{ intros j Hj. apply in_map_iff in Hj. destruct Hj as (e & <- & He). destruct (Fo e He) as [Bd _]. lia. }
    assert (X : forall j, (j < 2)%nat -> existsb (Nat.eqb j) (map fst (sp_row B i)) = negb (Nat.eqb i j)).
    { intros j Hj. assert (Q : entry (sp_row B i) j = if Nat.eqb i j then 0 else 1).
      { rewrite (VB i j Hi Hj). unfold view. cbn [is_directed s andb]. apply Nb; assumption. }
      pose proof (wf_pos_in 2 B HB i j Hi) as PI. destruct (existsb (Nat.eqb j) (map fst (sp_row B i))) eqn:Ex.
      - apply existsb_exists in Ex. destruct Ex as (k & Hk & Ek). apply Nat.eqb_eq in Ek. subst k. apply PI in Hk. rewrite Q in Hk. destruct (Nat.eqb i j); [lra | reflexivity].
      - destruct (Nat.eqb i j); [reflexivity|]. assert (In j (map fst (sp_row B i))) as Hk by (apply PI; rewrite Q; lra).
        assert (Z : existsb (Nat.eqb j) (map fst (sp_row B i)) = true) by (apply existsb_exists; exists j; split; [exact Hk | apply Nat.eqb_refl]). congruence. }
    cbn [seq filter]. rewrite !X by lia. destruct i as [|[|i]]; try lia; reflexivity. }
  assert (Lik : forall p q, 0 < p < 1 -> rnd_log_likelihood (Matrix 2 2 (fun i => map fst (sp_row B i))) None (with_rparam r' (Fin p) q) = Ok (Fin (2 * ln p))).
  { intros p q Hp. unfold rnd_log_likelihood, with_rparam, r'. cbn [r_param r_N r_selfloops Nat.eqb andb guard].
    assert (K1 : nnz 2 (fun i => map fst (sp_row B i)) = 2%nat). { unfold nnz. cbn [for_range seq fold_left]. rewrite !K by lia. reflexivity. }
    assert (K2 : diag_count 2 (fun i => map fst (sp_row B i)) = 0%nat). { unfold diag_count. cbn [for_range seq fold_left]. rewrite !K by lia. reflexivity. }
    rewrite K1, K2. unfold neqb. rewrite (Reqb_false p 0), (Reqb_false p 1) by lra. cbn [andb]. unfold py_log1p. cbn [nopp nadd]. unfold py_log.
    rewrite !Rltb_true by lra. cbn [bind times nmul nadd Nat.ltb Nat.leb]. do 2 f_equal. unfold pairs_of. cbn [INR]. ring. }
  exists s, gr, o, (graph_model true 2 s None None), r', (Fin 1), (Matrix 2 2 (fun i => map fst (sp_row B i))), (2 * ln (1 / 2)), (2 * ln (3 / 4)).
  eexists _, _. split; [exact H|]. split; [reflexivity|]. split; [exact E1|]. split; [exact E2|]. split; [exact F|]. split; [reflexivity|].
  split; [unfold rnd_num_edges, r'; cbn [r_param r_selfloops r_N nmul]; do 2 f_equal; cbn; field|].
  split.
  { unfold read_graph in Er. destruct (num_edges 2 s) as [x|] eqn:En; [|discriminate]. cbn [bind] in Er. f_equal. revert En. unfold num_edges. cbn [is_directed s].
    change (SGraph A) with s. rewrite EC. cbn [bind]. intros En. injection En as <-. rewrite <- E. unfold halved, edges_of.
    rewrite (all_view true 2 s V _ _ _ EC), (diag_view true 2 s V _ _ _ EC). cbn [is_directed s]. unfold view. cbn [andb]. apply half_square. apply neighbours_sym. }
  split; [unfold degree; rewrite EC; reflexivity|].
  split. { rewrite (axis0_view true 2 s V _ _ _ EC) by lia. unfold view. cbn [andb sumn]. rewrite !Nb by lia. cbn. lra. }
  split; [unfold rnd_degree, r'; cbn [r_param]; reflexivity|].
  split. { cbn [r_selfloops r' r_N]. unfold either. cbn [nmul nsub nadd nopp]. f_equal. cbn. field. }
  split; [unfold graph_matrix; rewrite EB; reflexivity|].
  split; [exact (Lik (1 / 2) (Fin 1) ltac:(lra))|]. split; [exact (Lik (3 / 4) (Fin 1) ltac:(lra))|].
  assert (ln (1 / 2) < ln (3 / 4)) by (apply ln_increasing; lra). lra.
Qed.
Print Assumptions C90_undirected_refuted.
