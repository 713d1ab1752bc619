(** Property C87: from an observed directed graph to the model fitted to it. *)
From Coq Require Import ZArith String FunctionalExtensionality.
From Verif Require Import Base Num Spec Kernels KernelFacts MultiKernels MultiFacts Prob Ensemble EnsembleFacts EnsembleState
  Models ModelFacts Solver SolverFacts SolverConcave Fit FitFacts FitModels FitLib Ids IdFacts Graphs GraphFacts PropTables PropGraph
  PropEnsemble Construct ConstructFacts PropConstruct Pipeline.

Open Scope R_scope.
Open Scope string_scope.
Open Scope list_scope.

(** [link s i j] is the weight of the rows from [i] to [j] (C05_links).  The weight of a link as its graph counts it:
    an unweighted graph gives every link the weight 1. *)
Definition weight (w : bool) (s : shape) (i j : nat) : R := if w then link s i j else present (link s i j).
(** Number of ordered pairs that are linked, and the strengths. *)
Definition links (N : nat) (s : shape) : R := sumn N (fun i => sumn N (fun j => present (link s i j))).
Definition strength_out (w : bool) (N : nat) (s : shape) (i : nat) : R := sumn N (fun j => weight w s i j).
Definition strength_in (w : bool) (N : nat) (s : shape) (j : nat) : R := sumn N (fun i => weight w s i j).

Lemma weight_nonneg : forall w N s i j, valid w N s -> (i < N)%nat -> 0 <= weight w s i j.
Proof.
  intros w N s i j V Hi. unfold weight. destruct w; [exact (link_nonneg _ _ _ _ _ V Hi) | apply present_range].
Qed.

Lemma weight_pos : forall w N s i j, valid w N s -> (i < N)%nat -> (0 < weight w s i j <-> link s i j <> 0).
Proof.
  intros w N s i j V Hi. unfold weight. pose proof (link_nonneg _ _ _ i j V Hi) as Hl. destruct w.
  - split; intros H; [lra|]. destruct Hl as [Hl | Hl]; [exact Hl | symmetry in Hl; contradiction].
  - unfold present. destruct (Req_EM_T (link s i j) 0); split; intros; try lra; contradiction.
Qed.

Lemma sumn_nat : forall n f, (forall k, (k < n)%nat -> exists m, f k = INR m) -> exists m, sumn n f = INR m.
Proof.
  induction n as [|n IH]; intros f H; [exists 0%nat; reflexivity|].
  destruct (IH f ltac:(intros; apply H; lia)) as [a Ea]. destruct (H n ltac:(lia)) as [b Eb].
  exists (a + b)%nat. cbn [sumn]. rewrite Ea, Eb, plus_INR. reflexivity.
Qed.

Lemma links_nat : forall N s, exists m, links N s = INR m.
Proof.
  intros N s. apply sumn_nat. intros i _. apply sumn_nat. intros j _. unfold present.
  destruct (Req_EM_T (link s i j) 0); [exists 0%nat | exists 1%nat]; reflexivity.
Qed.

(** * C87: what the model reads from the graph *)
Theorem C87_read : forall w N s gr, library_graph w N s gr -> is_directed s = true -> layers s <> [] ->
  exists m, links N s = INR m /\
  read_digraph N s = Ok {| gd_vertices := N; gd_edges := m; gd_out := map (fun i => Fin (strength_out w N s i)) (seq 0 N);
    gd_in := map (fun j => Fin (strength_in w N s j)) (seq 0 N); gd_groups := None |}.
Proof.
  intros w N s gr H D L. pose proof (library_valid _ _ _ _ H) as V. destruct (links_nat N s) as [m Em]. exists m. split; [exact Em|].
  destruct (adjacency_ok N s true false L) as [A EA]. destruct (adjacency_ok N s true true L) as [B EB].
  unfold read_digraph, num_edges, out_strength, in_strength. rewrite D. cbn [guard]. rewrite EA, EB. cbn [bind].
  rewrite (all_view w N s V true false A EA). rewrite D. cbn [guard].
  replace (sumn N (fun i => sumn N (fun j => view w true (link s) true false i j))) with (INR m) by (rewrite <- Em; reflexivity).
  f_equal. f_equal.
  - rewrite Int_part_INR. apply Nat2Z.id.
  - apply map_ext_in. intros i Hi. apply in_seq in Hi. f_equal. rewrite (axis1_view w N s V true true B EB) by lia.
    rewrite D. unfold strength_out. apply sumn_ext. intros j Hj. unfold view, weight. destruct w; reflexivity.
  - apply map_ext_in. intros i Hi. apply in_seq in Hi. f_equal. rewrite (axis0_view w N s V true true B EB) by lia.
    rewrite D. unfold strength_in. apply sumn_ext. intros j Hj. unfold view, weight. destruct w; reflexivity.
Qed.
Print Assumptions C87_read.

(** The object built from the graph, with the self-loop option given or not. *)
Definition observed (w : bool) (N : nat) (s : shape) (sl : bool) : fitness_state :=
  {| fs_vertices := N; fs_out := map (fun i => Fin (strength_out w N s i)) (seq 0 N);
     fs_in := map (fun j => Fin (strength_in w N s j)) (seq 0 N);
     fs_selfloops := Sc (SBool sl); fs_edges := Some (Sc (SFloat (Fin (links N s)))); fs_param := None |}.
Definition options (kw : list (string * value)) (sl : bool) : Prop :=
  (kw = [] /\ sl = false) \/ kw = [("selfloops", Sc (SBool sl))].

Lemma strengths_nonneg : forall w N s i, valid w N s -> (i < N)%nat -> 0 <= strength_out w N s i /\ 0 <= strength_in w N s i.
Proof.
  intros w N s i V Hi. split; apply sumn_nonneg; intros k Hk; apply (weight_nonneg w N); assumption.
Qed.

Lemma links_nonneg : forall N s, 0 <= links N s.
Proof. intros N s. destruct (links_nat N s) as [m ->]. apply pos_INR. Qed.

Theorem C87_accept : forall w N s gr kw sl, library_graph w N s gr -> options kw sl ->
  (is_directed s = false -> fitness_of N s kw = Raise ValueError) /\
  (is_directed s = true -> layers s <> [] ->
   ((1 <= N)%nat -> fitness_of N s kw = Ok (observed w N s sl)) /\
   (N = 0%nat -> fitness_of N s kw = Raise ValueError)).
Proof.
  intros w N s gr kw sl H O. pose proof (library_valid _ _ _ _ H) as V. split.
  { intros D. unfold fitness_of. rewrite D. reflexivity. }
  intros D L. destruct (C87_read w N s gr H D L) as (m & Em & E). unfold fitness_of. rewrite D, E. cbn [bind].
  set (g := {| gd_vertices := N; gd_edges := m; gd_out := _; gd_in := _; gd_groups := None |}).
  assert (Kn : NoDup (map fst kw) /\ (forall n v, In (n, v) kw -> n = "selfloops" /\ v = Sc (SBool sl))).
  { destruct O as [[-> _] | ->]; (split; [no_dup|]); intros n v Hin; simpl in Hin; [contradiction|].
    destruct Hin as [Hin | []]. injection Hin as <- <-. auto. }
  destruct Kn as [Kd Kv]. split.
  - intros HN. apply C64_fitness; [exact Kd | intros n v Hin; destruct (Kv n v Hin) as [_ ->]; exact I|].
    split; [intros n v Hin; destruct (Kv n v Hin) as [-> _]; simpl; tauto|].
    exists (from_digraph g). split; [right; exists g, []; auto|].
    assert (Nk : forall n, n <> "selfloops" -> ~ In n (map fst kw)).
    { intros n Hn Hin. apply in_map_iff in Hin. destruct Hin as ((n', v) & <- & Hin). destruct (Kv _ _ Hin) as [E' _]. exact (Hn E'). }
    assert (G : forall n v, n <> "selfloops" -> In (n, v) (from_digraph g) -> given (from_digraph g) kw n v).
    { intros n v Hn Hin. right. split; [exact (Nk n Hn) | exact Hin]. }
    unfold fitness_holds, observed. cbn [fs_vertices fs_out fs_in fs_selfloops fs_edges fs_param]. repeat split.
    + exists (Sc (SInt (Z.of_nat N))). split; [apply G; [discriminate | simpl; tauto]|]. split; [exact HN|]. left.
      exists (SInt (Z.of_nat N)). split; [reflexivity|]. rewrite INR_IZR_INZ. constructor.
    + eexists. split; [apply G; [discriminate | simpl; right; right; left; reflexivity]|]. unfold g; cbn [gd_out].
      exists DFloat. rewrite map_length, seq_length. split; [reflexivity|]. split; [right; left; reflexivity|].
      apply Forall_forall. intros x Hx. apply in_map_iff in Hx. destruct Hx as (i & <- & Hi). apply in_seq in Hi.
      apply nonneg_fin. apply strengths_nonneg; [exact V | lia].
    + eexists. split; [apply G; [discriminate | simpl; right; right; right; left; reflexivity]|]. unfold g; cbn [gd_in].
      exists DFloat. rewrite map_length, seq_length. split; [reflexivity|]. split; [right; left; reflexivity|].
      apply Forall_forall. intros x Hx. apply in_map_iff in Hx. destruct Hx as (i & <- & Hi). apply in_seq in Hi.
      apply nonneg_fin. apply strengths_nonneg; [exact V | lia].
    + destruct O as [[-> ->] | ->].
      * right. split; [|reflexivity]. split; [simpl; tauto | simpl; intuition discriminate].
      * left. left. left. reflexivity.
    + exists (Sc (SInt (Z.of_nat m))). split; [apply G; [discriminate | simpl; right; left; reflexivity]|].
      rewrite Em, INR_IZR_INZ. apply ss_scalar; [constructor|]. apply notneg_fin. rewrite <- INR_IZR_INZ. apply pos_INR.
    + apply Nk. discriminate.
    + simpl. intuition discriminate.
    + left. discriminate.
  - intros HN. unfold fitness_init. cbn [fitness_args bind].
    assert (A : exists a, apply_kwargs fitness_allowed kw (graph_attrs g) = Ok a /\ getattr a "num_vertices" = Some (int_value 0)).
    { destruct O as [[-> _] | ->]; eexists; (split; [reflexivity|]); unfold g; subst N; reflexivity. }
    destruct A as (a & Ea & En). rewrite Ea. cbn [bind]. unfold fitness_checks, required. rewrite En. cbn [bind].
    assert (C : count_arg (int_value 0) = Raise ValueError).
    { destruct (count_arg (int_value 0)) as [n|e] eqn:Ec.
      - apply count_arg_spec in Ec. destruct Ec as [Hn [(s' & Es & Hs) | (d & sh & Es & _)]]; [|discriminate].
        injection Es as <-. inversion Hs as [z Ez| |]; subst. apply (lt_INR 0) in Hn. simpl in Hn. lra.
      - revert Ec. unfold count_arg, int_value. simpl. intros Ec. destruct (py_int 0 =? 0)%Z; [congruence|].
        destruct (Reqb _ 1); cbn [guard] in Ec; [|congruence]. destruct (py_int 0 <=? 0)%Z; cbn [negb guard] in Ec; congruence. }
    rewrite C. reflexivity.
Qed.
Print Assumptions C87_accept.

(** * C87: the fitted object *)

(** The model of the graph with parameter [d]: a vertex has its strengths as fitnesses. *)
Definition model_of (inv w : bool) (N : nat) (s : shape) (d : R) : model :=
  (if inv then ScaleInvariantModel else FitnessModel) N (Fin d) (fun i => Fin (strength_out w N s i))
    (fun j => Fin (strength_in w N s j)) (fun _ _ => Fin 1).
Definition jac_of (inv : bool) : num -> num -> num -> num -> num * num := if inv then inv_p_jac else fit_p_jac.

(** An admissible pair that can be linked: the first has out-links, the second in-links. *)
Definition can_link (w : bool) (N : nat) (s : shape) (i j : nat) : bool :=
  Rltb 0 (strength_out w N s i * strength_in w N s j * 1).

Lemma f_jac_ext : forall X Y Z (k : num -> X -> Y -> Z -> num * num) d x x' y y' z N sl,
  (forall i, (i < N)%nat -> x i = x' i) -> (forall i, (i < N)%nat -> y i = y' i) ->
  exp_edges_f_jac k d x y z N sl = exp_edges_f_jac k d x' y' z N sl.
Proof.
  intros X Y Z k d x x' y y' z N sl Hx Hy. unfold exp_edges_f_jac.
  apply for_range_ext. intros i s Hi. apply for_range_ext. intros j t Hj. rewrite (Hx i Hi), (Hy j Hj). reflexivity.
Qed.

Lemma nth_map_seq : forall A (f : nat -> A) N i d, (i < N)%nat -> nth i (map f (seq 0 N)) d = f i.
Proof.
  intros A f N i d Hi. rewrite (nth_indep _ _ (f 0%nat)) by (rewrite map_length, seq_length; exact Hi).
  rewrite (map_nth f), seq_nth by exact Hi. reflexivity.
Qed.

Lemma observed_fit : forall inv w N s sl, valid w N s ->
  library_fit (density_fit_fun (jac_of inv) (observed w N s sl) sl) (model_of inv w N s) sl (can_link w N s).
Proof.
  intros inv w N s sl V.
  assert (E : density_fit_fun (jac_of inv) (observed w N s sl) sl
    = fun d => exp_edges_f_jac (jac_of inv) d (finarr (strength_out w N s)) (finarr (strength_in w N s)) (finmat (fun _ _ => 1)) N sl).
  { apply functional_extensionality. intros d. unfold density_fit_fun, observed. cbn [fs_out fs_in fs_vertices].
    apply f_jac_ext; intros i Hi; rewrite nth_map_seq by exact Hi; reflexivity. }
  rewrite E. unfold jac_of, model_of, can_link.
  destruct inv; [apply (fit_invariant N sl (strength_out w N s) (strength_in w N s) (fun _ _ => 1))
    | apply (fit_fitness N sl (strength_out w N s) (strength_in w N s) (fun _ _ => 1))].
  all: try (intros i Hi; apply strengths_nonneg; assumption); intros; lra.
Qed.

Lemma model_library : forall inv w N s d, valid w N s -> 0 <= d ->
  library_model (model_of inv w N s d)
    (fun i j => link_prob (if inv then poissonian else logistic) [Fin d; Fin (strength_out w N s i); Fin (strength_in w N s j); Fin 1]).
Proof.
  intros inv w N s d V Hd. unfold model_of.
  destruct inv; [apply (lib_invariant N (Fin d) (fun i => Fin (strength_out w N s i)) (fun j => Fin (strength_in w N s j)) (fun _ _ => Fin 1))
    | apply (lib_fitness N (Fin d) (fun i => Fin (strength_out w N s i)) (fun j => Fin (strength_in w N s j)) (fun _ _ => Fin 1))].
  all: try exact Hd; try (intros i Hi; apply strengths_nonneg; assumption); intros; simpl; lra.
Qed.

(** The start of a fit: none, or a number. *)
Definition start_at (st : option user_array) (x0 : R) : Prop := (st = None /\ x0 = 0) \/ st = Some (Numeric [Fin x0]).
Lemma start_fit : forall fn T st x0 at_ rho mi, start_at st x0 ->
  fitness_fit fn T st Density at_ rho mi = fitness_fit fn T (Some (Numeric [Fin x0])) Density at_ rho mi.
Proof. intros fn T st x0 at_ rho mi [[-> ->] | ->]; reflexivity. Qed.

(** The graph is read, the model accepted and fitted without exception, and the fit is marked converged exactly when
    the mean number of links over all graphs on these vertices, each with the probability the fitted model gives it,
    is the number of linked pairs of the graph up to the tolerance. *)
Theorem C87_fitted : forall inv w N s gr kw sl st x0 at_ rho mi, library_graph w N s gr -> is_directed s = true ->
  layers s <> [] -> (1 <= N)%nat -> options kw sl -> start_at st x0 -> 0 <= x0 -> 0 < at_ -> 0 <= rho ->
  exists o f d, fitness_of N s kw = Ok o /\
    fit_object (jac_of inv) o st Density (Fin at_) (Fin rho) mi = Some (Ok f) /\
    fitted_param f = Fin d /\ 0 <= d /\
    let mean := ensemble_mean N sl (fun G => toR (nexp (m_likelihood (model_of inv w N s d) G sl))) in
    (sol_converged (fitted_sol f) = true <-> Rabs (mean (g_edges N) - links N s) <= at_ + rho * links N s).
Proof.
  intros inv w N s gr kw sl st x0 at_ rho mi H D L HN O S Hx Ha Hr. pose proof (library_valid _ _ _ _ H) as V.
  destruct (C87_accept w N s gr kw sl H O) as [_ A]. destruct (A D L) as [E _].
  destruct (lib_fit_total _ _ _ _ (observed_fit inv w N s sl V) (links N s) at_ rho x0 mi (links_nonneg N s) Ha Hr Hx)
    as (f & d & Ef & Ep & Hd & C & _).
  exists (observed w N s sl), f, d. split; [exact (E HN)|]. split.
  { unfold fit_object. cbn [observed fs_selfloops fs_edges]. rewrite (start_fit _ _ st x0 _ _ _ S). f_equal. exact Ef. }
  split; [exact Ep|]. split; [exact Hd|]. cbv zeta.
  pose proof (C37_expected_means _ _ sl (model_library inv w N s d V Hd)) as M. cbv zeta in M.
  destruct (m_degrees (model_of inv w N s d) sl) as [[dd dout] din]. destruct M as [M _].
  assert (EN : m_N (model_of inv w N s d) = N) by (unfold model_of; destruct inv; reflexivity).
  rewrite EN in M. rewrite <- M. exact C.
Qed.
Print Assumptions C87_fitted.

(** * C87: which graphs have a model with their number of links *)

(** The number of links a model can have on average: any between none and the number of pairs that can be linked, the
    latter excluded; and only one parameter gives it. *)
Lemma lib_strict : forall fn M sl can, library_fit fn M sl can -> 0 < linkable (m_N (M 0)) sl can ->
  forall d d', 0 <= d -> d < d' -> m_edges (M d) sl < m_edges (M d') sl.
Proof.
  intros fn M sl can H Hc d d' Hd Hlt. destruct (library_fit_objective fn M sl can H) as (pr & (a & h' & Ht & Hact & _) & _ & _ & He).
  rewrite linkable_list in Hc. rewrite <- (active_act _ _ a _ Hact) in Hc.
  rewrite (He d Hd), (He d' ltac:(lra)).
  pose proof (F_tangent _ _ a pr h' Ht d d' Hd ltac:(lra)) as Hf. pose proof (D_pos _ _ a pr h' Ht Hc d' ltac:(lra)) as Hp.
  assert (0 < suml (fun e => h' e d') (pairs (m_N (M 0)) sl) * (d' - d)) by (apply Rmult_lt_0_compat; lra). lra.
Qed.

Theorem C87_attained : forall fn M sl can, library_fit fn M sl can -> forall T,
  (exists d, 0 <= d /\ m_edges (M d) sl = T) <-> T = 0 \/ 0 <= T < linkable (m_N (M 0)) sl can.
Proof.
  intros fn M sl can H T. pose proof (lib_fit_range fn M sl can H) as Rg. split.
  - intros (d & Hd & <-). pose proof (Rg d Hd) as R1.
    destruct (Rle_lt_or_eq_dec 0 (linkable (m_N (M 0)) sl can)) as [Hc | Hc]; [lra | |left; lra].
    right. split; [lra|]. pose proof (lib_strict fn M sl can H Hc d (d + 1) Hd ltac:(lra)). pose proof (Rg (d + 1) ltac:(lra)). lra.
  - intros [-> | [H0 Hc]].
    + exists 0. split; [lra | exact (lib_fit_zero fn M sl can H)].
    + destruct (library_fit_objective fn M sl can H) as (pr & (a & h' & Ht & Hact & _) & _ & _ & He).
      rewrite linkable_list in Hc. rewrite <- (active_act _ _ a _ Hact) in Hc.
      destruct (root_exists _ _ a pr h' Ht T H0 Hc) as (r & Hr & Er). exists r. split; [exact Hr|]. rewrite (He r Hr). exact Er.
Qed.
Print Assumptions C87_attained.

Theorem C87_unique : forall fn M sl can, library_fit fn M sl can -> 0 < linkable (m_N (M 0)) sl can ->
  forall d d', 0 <= d -> 0 <= d' -> m_edges (M d) sl = m_edges (M d') sl -> d = d'.
Proof.
  intros fn M sl can H Hc d d' Hd Hd' E.
  destruct (Rtotal_order d d') as [L | [L | L]]; [| exact L |].
  - pose proof (lib_strict fn M sl can H Hc d d' Hd L). lra.
  - pose proof (lib_strict fn M sl can H Hc d' d Hd' L). lra.
Qed.
Print Assumptions C87_unique.

(** A pair the graph leaves open: admissible, not linked, the first with some out-link and the second with some
    in-link. *)
Definition open_pair (N : nat) (s : shape) (sl : bool) : Prop :=
  exists i j, (i < N)%nat /\ (j < N)%nat /\ (sl = true \/ i <> j) /\ link s i j = 0 /\
    (exists k, (k < N)%nat /\ link s i k <> 0) /\ (exists k, (k < N)%nat /\ link s k j <> 0).
(** The graph has no self-loop the model leaves out. *)
Definition loops_counted (N : nat) (s : shape) (sl : bool) : Prop := sl = true \/ forall i, (i < N)%nat -> link s i i = 0.

Lemma sumn_pos : forall n f, (forall k, (k < n)%nat -> 0 <= f k) -> (0 < sumn n f <-> exists k, (k < n)%nat /\ 0 < f k).
Proof.
  intros n f H. split.
  - induction n as [|n IH]; cbn [sumn]; intros Hs; [lra|].
    destruct (Rlt_dec 0 (f n)) as [Hp | Hp]; [exists n; split; [lia | exact Hp]|].
    destruct IH as (k & Hk & Hf); [intros; apply H; lia | pose proof (H n ltac:(lia)); lra|]. exists k. split; [lia | exact Hf].
  - intros (k & Hk & Hf). apply Rlt_le_trans with (f k); [exact Hf|]. clear Hf. induction n as [|n IH]; [lia|]. cbn [sumn].
    pose proof (H n ltac:(lia)). destruct (Nat.eq_dec k n) as [-> | Hne].
    + pose proof (sumn_nonneg n f ltac:(intros; apply H; lia)). lra.
    + pose proof (IH ltac:(intros; apply H; lia) ltac:(lia)). lra.
Qed.

Lemma can_link_spec : forall w N s i j, valid w N s -> (i < N)%nat -> (j < N)%nat ->
  (can_link w N s i j = true <-> (exists k, (k < N)%nat /\ link s i k <> 0) /\ (exists k, (k < N)%nat /\ link s k j <> 0)).
Proof.
  intros w N s i j V Hi Hj. destruct (strengths_nonneg w N s i V Hi) as [So _]. destruct (strengths_nonneg w N s j V Hj) as [_ Si].
  assert (E1 : 0 < strength_out w N s i <-> exists k, (k < N)%nat /\ link s i k <> 0).
  { unfold strength_out. rewrite sumn_pos by (intros; apply (weight_nonneg w N); assumption).
    split; intros (k & Hk & Hl); exists k; (split; [exact Hk|]); apply (weight_pos w N s i k V Hi); exact Hl. }
  assert (E2 : 0 < strength_in w N s j <-> exists k, (k < N)%nat /\ link s k j <> 0).
  { unfold strength_in. rewrite sumn_pos by (intros; apply (weight_nonneg w N); assumption).
    split; intros (k & Hk & Hl); exists k; (split; [exact Hk|]); apply (weight_pos w N s k j V Hk); exact Hl. }
  rewrite <- E1, <- E2. unfold can_link. destruct (Rltb_spec 0 (strength_out w N s i * strength_in w N s j * 1)) as [Hp | Hp].
  - split; [intros _ | reflexivity]. rewrite Rmult_1_r in Hp.
    destruct So as [So | So]; [|rewrite <- So, Rmult_0_l in Hp; lra].
    destruct Si as [Si | Si]; [|rewrite <- Si, Rmult_0_r in Hp; lra]. auto.
  - split; [discriminate|]. intros [H1 H2]. exfalso. apply Hp. rewrite Rmult_1_r. apply Rmult_lt_0_compat; assumption.
Qed.

Lemma links_can : forall w N s sl, valid w N s -> loops_counted N s sl ->
  linkable N sl (can_link w N s) - links N s
  = sumn N (fun i => sumn N (fun j => if allowed sl i j then b2r (can_link w N s i j) - present (link s i j) else 0)) /\
  forall i j, (i < N)%nat -> (j < N)%nat -> 0 <= (if allowed sl i j then b2r (can_link w N s i j) - present (link s i j) else 0).
Proof.
  intros w N s sl V Lc. split.
  - unfold linkable, links, pair_sum. rewrite <- sumn_minus. apply sumn_ext. intros i Hi. rewrite <- sumn_minus. apply sumn_ext. intros j Hj.
    destruct (allowed sl i j) eqn:E; [reflexivity|].
    destruct Lc as [-> | Lc]; [unfold allowed in E; rewrite orb_true_r in E; discriminate|].
    unfold allowed in E. apply orb_false_iff in E. destruct E as [E _]. apply negb_false_iff, Nat.eqb_eq in E. subst j.
    rewrite (Lc i Hi), present_0. ring.
  - intros i j Hi Hj. destruct (allowed sl i j); [|lra]. unfold present. destruct (Req_EM_T (link s i j) 0) as [E | E].
    + pose proof (b2r_range (can_link w N s i j)). lra.
    + replace (can_link w N s i j) with true; [simpl; lra|]. symmetry. apply can_link_spec; [assumption..|].
      split; [exists j | exists i]; auto.
Qed.

Lemma feasible : forall w N s sl, valid w N s -> loops_counted N s sl ->
  links N s <= linkable N sl (can_link w N s) /\ (links N s < linkable N sl (can_link w N s) <-> open_pair N s sl).
Proof.
  intros w N s sl V Lc. destruct (links_can w N s sl V Lc) as [E P].
  set (f := fun i j => if allowed sl i j then b2r (can_link w N s i j) - present (link s i j) else 0) in *.
  assert (P' : forall i, (i < N)%nat -> 0 <= sumn N (fun j => f i j)) by (intros i Hi; apply sumn_nonneg; intros j Hj; apply P; assumption).
  pose proof (sumn_nonneg N (fun i => sumn N (fun j => f i j)) P') as P0. split; [unfold f in *; lra|].
  assert (Q : 0 < sumn N (fun i => sumn N (fun j => f i j)) <-> open_pair N s sl).
  { rewrite sumn_pos by exact P'. split.
    - intros (i & Hi & Hs). apply (sumn_pos N (fun j => f i j) (fun j Hj => P i j Hi Hj)) in Hs. destruct Hs as (j & Hj & Hs).
      exists i, j. split; [exact Hi|]. split; [exact Hj|]. unfold f, allowed, present in Hs.
      destruct (negb (Nat.eqb i j) || sl)%bool eqn:Ea; [|lra].
      destruct (Req_EM_T (link s i j) 0) as [E0 | E0]; [|pose proof (b2r_range (can_link w N s i j)); lra].
      destruct (can_link w N s i j) eqn:Ec; [|simpl in Hs; lra]. apply can_link_spec in Ec; [|assumption..].
      split; [|split; [exact E0 | exact Ec]]. apply orb_true_iff in Ea. destruct Ea as [Ea | Ea]; [right | left; exact Ea].
      apply negb_true_iff, Nat.eqb_neq in Ea. exact Ea.
    - intros (i & j & Hi & Hj & Ha & E0 & Ec). exists i. split; [exact Hi|]. apply (sumn_pos N (fun j => f i j) (fun j Hj => P i j Hi Hj)).
      exists j. split; [exact Hj|]. unfold f. replace (allowed sl i j) with true.
      + rewrite E0, present_0. replace (can_link w N s i j) with true; [simpl; lra|]. symmetry. apply can_link_spec; assumption.
      + unfold allowed. symmetry. apply orb_true_iff. destruct Ha as [-> | Ha]; [right; reflexivity | left].
        apply negb_true_iff, Nat.eqb_neq. exact Ha. }
  rewrite <- Q. unfold f in *. split; intros; lra.
Qed.

Lemma model_N : forall inv w N s d, m_N (model_of inv w N s d) = N.
Proof. intros [] w N s d; reflexivity. Qed.

Lemma valid_parameter : forall inv w N s sl, valid w N s -> loops_counted N s sl ->
  ((exists d, 0 <= d /\ m_edges (model_of inv w N s d) sl = links N s) <-> links N s = 0 \/ open_pair N s sl) /\
  (links N s <> 0 -> forall d d', 0 <= d -> 0 <= d' -> m_edges (model_of inv w N s d) sl = m_edges (model_of inv w N s d') sl -> d = d').
Proof.
  intros inv w N s sl V Lc. pose proof (observed_fit inv w N s sl V) as F.
  destruct (feasible w N s sl V Lc) as [Fl Fs]. split.
  - rewrite (C87_attained _ _ _ _ F), model_N, Fs. pose proof (links_nonneg N s). tauto.
  - intros Hn. apply (C87_unique _ _ _ _ F). rewrite model_N. pose proof (links_nonneg N s). lra.
Qed.

(** A parameter giving the graph's number of links on average exists exactly when the graph has no links or leaves a pair
    open (self-loops of the graph being admitted by the model); it is unique unless there are no links. *)
Theorem C87_parameter : forall inv w N s gr sl, library_graph w N s gr -> loops_counted N s sl ->
  ((exists d, 0 <= d /\ m_edges (model_of inv w N s d) sl = links N s) <-> links N s = 0 \/ open_pair N s sl) /\
  (links N s <> 0 -> forall d d', 0 <= d -> 0 <= d' -> m_edges (model_of inv w N s d) sl = m_edges (model_of inv w N s d') sl -> d = d').
Proof. intros inv w N s gr sl H. apply valid_parameter. exact (library_valid _ _ _ _ H). Qed.
Print Assumptions C87_parameter.

(** When the graph leaves a pair open the fit stops by itself. *)
Theorem C87_terminates : forall inv w N s gr kw sl st x0 at_ rho, library_graph w N s gr -> is_directed s = true ->
  layers s <> [] -> (1 <= N)%nat -> options kw sl -> start_at st x0 -> 0 <= x0 -> 0 < at_ -> 0 <= rho ->
  loops_counted N s sl -> open_pair N s sl ->
  exists o B, fitness_of N s kw = Ok o /\ forall mi, (B <= mi)%nat ->
  exists f, fit_object (jac_of inv) o st Density (Fin at_) (Fin rho) mi = Some (Ok f) /\
    (sol_converged (fitted_sol f) = true \/ sol_no_change_stop (fitted_sol f) = true).
Proof.
  intros inv w N s gr kw sl st x0 at_ rho H D L HN O S Hx Ha Hr Lc Op. pose proof (library_valid _ _ _ _ H) as V.
  destruct (C87_accept w N s gr kw sl H O) as [_ A]. destruct (A D L) as [E _]. exists (observed w N s sl).
  destruct (feasible w N s sl V Lc) as [_ Fs]. pose proof (links_nonneg N s) as Ln.
  assert (0 <= rho * links N s) by (apply Rmult_le_pos; lra).
  destruct (lib_fit_terminates _ _ _ _ (observed_fit inv w N s sl V) (links N s) at_ rho x0) as [B HB].
  - rewrite model_N. split; [exact Ln | apply Fs; exact Op].
  - lra. - lra. - lra. - exact Hx. - right; exact Ha.
  - exists B. split; [exact (E HN)|]. intros mi Hmi. destruct (HB mi Hmi) as (f & Ef & Hf). exists f. split; [|exact Hf].
    unfold fit_object. cbn [observed fs_selfloops fs_edges]. rewrite (start_fit _ _ st x0 _ _ _ S). f_equal. exact Ef.
Qed.
Print Assumptions C87_terminates.

(** * Examples and graphs without a fitting parameter *)

(** The graphs with vertices 0, 1, ... and the given rows. *)
Definition rows_of (l : list (nat * nat * R)) : list (erow nat nat) := map (fun t => mkRow (fst (fst t)) (snd (fst t)) (snd t) 0%nat) l.
Definition one_link : list (nat * nat * R) := [(0%nat, 1%nat, 1)].
Definition one_loop : list (nat * nat * R) := [(0%nat, 0%nat, 1)].
Definition path : list (nat * nat * R) := [(0%nat, 1%nat, 1); (1%nat, 2%nat, 2)].
Definition small_graph (N : nat) (l : list (nat * nat * R)) : shape := SDiGraph (coo_tocsr false N l).

Lemma small_library : forall N l, (N, l) = (2%nat, one_link) \/ (N, l) = (1%nat, one_loop) \/ (N, l) = (3%nat, path) ->
  library_graph true N (small_graph N l) None.
Proof.
  assert (K : forall N l, let v := map (fun i => (i, 0%nat)) (seq 0 N) in NoDup (map fst v) ->
    (forall r, In r (rows_of l) -> In (r_src r) (map fst v) /\ In (r_dst r) (map fst v) /\ (true = true -> 0 < r_weight r)) ->
    inner Nat.leb (enum_of Nat.leb (map fst v)) true (rows_of l) = l -> library_graph true N (small_graph N l) None).
  { intros N l v HN HE HI. destruct (build Nat.leb Nat.leb nat_order nat_order false false true v (rows_of l) HN HE) as (gr & H & Hg).
    rewrite HI in H.
    apply (built true N (small_graph N l) None nat nat nat Nat.leb Nat.leb Nat.leb false false false v (rows_of l)
      (mkBase (length v) (enum_of Nat.leb (map fst v)) gr true l) nat_order nat_order nat_order).
    - apply of_digraph. unfold sparse_graph. rewrite H. cbn [bind b_n b_edges negb]. unfold v. rewrite map_length, seq_length. reflexivity.
    - cbn [b_n]. unfold v. rewrite map_length, seq_length. reflexivity.
    - unfold grouping_of. cbn [b_groups]. cbn in Hg. subst gr. reflexivity. }
  intros N l [H | [H | H]]; injection H as -> ->.
  all: apply K; [repeat (constructor; [cbn; intuition lia|]); constructor
    | intros r Hr; cbn in Hr; intuition (subst; cbn; try lia; try lra) | reflexivity].
Qed.

Lemma small_link : forall N l i j, (j < N)%nat -> link (small_graph N l) i j = suml (fun t => if hits i j t then snd t else 0) l.
Proof. intros N l i j Hj. cbn [link small_graph]. apply coo_entry. exact Hj. Qed.

(** A path of two links leaves one pair open. *)
Lemma path_links : links 3 (small_graph 3 path) = 2.
Proof.
  unfold links. cbn [sumn]. rewrite !small_link by lia. cbn. rewrite !Rplus_0_r, !Rplus_0_l, !present_0, !present_pos by lra. lra.
Qed.
Lemma path_open : open_pair 3 (small_graph 3 path) false /\ loops_counted 3 (small_graph 3 path) false.
Proof.
  split.
  - exists 0%nat, 2%nat. split; [lia|]. split; [lia|]. split; [right; lia|]. split; [rewrite small_link by lia; cbn; lra|].
    split; exists 1%nat; (split; [lia|]); rewrite small_link by lia; cbn; lra.
  - right. intros i Hi. rewrite small_link by exact Hi. destruct i as [|[|[|i]]]; try lia; cbn; lra.
Qed.

Example C87_case : library_graph true 3 (small_graph 3 path) None /\ is_directed (small_graph 3 path) = true /\
  layers (small_graph 3 path) <> [] /\ links 3 (small_graph 3 path) = 2 /\ open_pair 3 (small_graph 3 path) false /\
  loops_counted 3 (small_graph 3 path) false /\ options [] false /\ options [("selfloops", Sc (SBool true))] true /\ start_at None 0 /\
  fitness_of 3 (small_graph 3 path) [] = Ok {| fs_vertices := 3; fs_out := [Fin 1; Fin 2; Fin 0]; fs_in := [Fin 0; Fin 1; Fin 2];
    fs_selfloops := Sc (SBool false); fs_edges := Some (Sc (SFloat (Fin 2))); fs_param := None |}.
Proof.
  pose proof (small_library 3 path ltac:(auto)) as H. destruct path_open as [Ho Hl].
  split; [exact H|]. split; [reflexivity|]. split; [discriminate|]. split; [exact path_links|]. split; [exact Ho|]. split; [exact Hl|].
  split; [left; auto|]. split; [right; reflexivity|]. split; [left; auto|].
  destruct (C87_accept true 3 (small_graph 3 path) None [] false H (or_introl (conj eq_refl eq_refl))) as [_ A].
  destruct (A eq_refl ltac:(discriminate)) as [E _]. rewrite (E ltac:(lia)). unfold observed. rewrite path_links.
  cbn [map seq]. unfold strength_out, strength_in, weight. cbn [sumn]. rewrite !small_link by lia. cbn [suml path hits fst snd Nat.eqb andb].
  repeat f_equal; lra.
Qed.

(** A single link: the model's only possible link is that one, its probability stays below one, and no parameter gives
    the number of links of the graph. *)
Theorem C87_saturated_refuted : exists N s gr, library_graph true N s gr /\ is_directed s = true /\ links N s = 1 /\
  (forall i, (i < N)%nat -> link s i i = 0) /\ forall inv d, 0 <= d -> m_edges (model_of inv true N s d) false < links N s.
Proof.
  exists 2%nat, (small_graph 2 one_link), None. pose proof (small_library 2 one_link ltac:(auto)) as H.
  assert (L1 : links 2 (small_graph 2 one_link) = 1).
  { unfold links. cbn [sumn]. rewrite !small_link by lia. cbn. rewrite !Rplus_0_r, !present_0, !present_pos by lra. lra. }
  assert (Z : forall i, (i < 2)%nat -> link (small_graph 2 one_link) i i = 0).
  { intros i Hi. rewrite small_link by exact Hi. destruct i as [|[|i]]; try lia; cbn; lra. }
  split; [exact H|]. split; [reflexivity|]. split; [exact L1|]. split; [exact Z|]. intros inv d Hd.
  pose proof (library_valid _ _ _ _ H) as V. destruct (feasible true 2 (small_graph 2 one_link) false V (or_intror Z)) as [Fl Fs].
  pose proof (lib_fit_range _ _ _ _ (observed_fit inv true 2 (small_graph 2 one_link) false V) d Hd) as Rg. rewrite model_N in Rg.
  assert (No : ~ open_pair 2 (small_graph 2 one_link) false).
  { intros (i & j & Hi & Hj & Ha & E0 & (k & Hk & Ek) & (k' & Hk' & Ek')). rewrite small_link in E0, Ek, Ek' by assumption.
    destruct i as [|[|i]]; destruct j as [|[|j]]; try lia; cbn in E0, Ek, Ek'; lra. }
  destruct (C87_parameter inv true 2 (small_graph 2 one_link) None false H (or_intror Z)) as [[P _] _].
  destruct (Rtotal_order (m_edges (model_of inv true 2 (small_graph 2 one_link) d) false) (links 2 (small_graph 2 one_link))) as [Lt | [Eq | Gt]].
  - exact Lt.
  - exfalso. destruct P as [P | P]; [exists d; auto | lra | exact (No P)].
  - exfalso. apply No. apply Fs. lra.
Qed.
Print Assumptions C87_saturated_refuted.

(** The number of edges read from a graph counts its self-loops, which a model without self-loops (the default) cannot
    have: a vertex with a self-loop is accepted, and its fit never converges. *)
Theorem C87_selfloops_refuted : exists N s gr, library_graph true N s gr /\ is_directed s = true /\ links N s = 1 /\
  exists o, fitness_of N s [] = Ok o /\ fs_selfloops o = Sc (SBool false) /\
  forall inv x0 at_ rho mi, 0 <= x0 -> 0 < at_ -> 0 <= rho -> at_ + rho < 1 ->
  exists f, fit_object (jac_of inv) o (Some (Numeric [Fin x0])) Density (Fin at_) (Fin rho) mi = Some (Ok f) /\
    sol_converged (fitted_sol f) = false.
Proof.
  exists 1%nat, (small_graph 1 one_loop), None. pose proof (small_library 1 one_loop ltac:(auto)) as H.
  assert (L1 : links 1 (small_graph 1 one_loop) = 1).
  { unfold links. cbn [sumn]. rewrite !small_link by lia. cbn. rewrite !Rplus_0_r, !present_pos by lra. lra. }
  pose proof (library_valid _ _ _ _ H) as V.
  split; [exact H|]. split; [reflexivity|]. split; [exact L1|]. exists (observed true 1 (small_graph 1 one_loop) false).
  destruct (C87_accept true 1 (small_graph 1 one_loop) None [] false H (or_introl (conj eq_refl eq_refl))) as [_ A].
  destruct (A eq_refl ltac:(discriminate)) as [E _]. split; [exact (E ltac:(lia))|]. split; [reflexivity|].
  intros inv x0 at_ rho mi Hx Ha Hr Ht. pose proof (observed_fit inv true 1 (small_graph 1 one_loop) false V) as F.
  destruct (lib_fit_total _ _ _ _ F (links 1 (small_graph 1 one_loop)) at_ rho x0 mi (links_nonneg _ _) Ha Hr Hx)
    as (f & d & Ef & _ & Hd & C & _).
  exists f. split; [unfold fit_object; cbn [observed fs_selfloops fs_edges]; f_equal; exact Ef|].
  apply not_true_is_false. intros T. apply C in T.
  pose proof (lib_fit_range _ _ _ _ F d Hd) as Rg. rewrite model_N in Rg.
  replace (linkable 1 false (can_link true 1 (small_graph 1 one_loop))) with 0 in Rg by (unfold linkable, pair_sum; cbn; lra).
  rewrite L1 in T. replace (m_edges (model_of inv true 1 (small_graph 1 one_loop) d) false) with 0 in T by lra.
  unfold Rminus in T. rewrite Rplus_0_l, Rabs_Ropp, Rabs_R1 in T. lra.
Qed.
Print Assumptions C87_selfloops_refuted.

(** * C87: weighted samples of the fitted model *)

Lemma strength_total : forall w N s, sumn N (strength_out w N s) = sumn N (strength_in w N s).
Proof. intros w N s. unfold strength_out, strength_in. apply sumn_swap. Qed.

(** With self-loops admitted, weighted samples of the fitted model have on average the strengths of the graph, whatever
    its self-loops; the fit need only have converged with a tolerance below the number of links. *)
Theorem C87_strengths : forall inv N s gr st x0 at_ rho mi, library_graph true N s gr -> is_directed s = true ->
  layers s <> [] -> (1 <= N)%nat -> start_at st x0 -> 0 <= x0 -> 0 < at_ -> 0 <= rho -> at_ + rho * links N s < links N s ->
  exists o f d, fitness_of N s [("selfloops", Sc (SBool true))] = Ok o /\
    fit_object (jac_of inv) o st Density (Fin at_) (Fin rho) mi = Some (Ok f) /\ fitted_param f = Fin d /\
    (sol_converged (fitted_sol f) = true ->
     exists p, m_cremb (model_of inv true N s d) (strength_out true N s) (strength_in true N s) true = Ok p /\
     (forall i, (i < N)%nat -> expect p (fun G => sumn N (fun j => w_pair i j G)) = strength_out true N s i) /\
     (forall j, (j < N)%nat -> expect p (fun G => sumn N (fun i => w_pair i j G)) = strength_in true N s j)).
Proof.
  intros inv N s gr st x0 at_ rho mi H D L HN S Hx Ha Hr Ht. pose proof (library_valid _ _ _ _ H) as V.
  destruct (C87_accept true N s gr [("selfloops", Sc (SBool true))] true H (or_intror eq_refl)) as [_ A]. destruct (A D L) as [E _].
  pose proof (observed_fit inv true N s true V) as F.
  destruct (lib_fit_total _ _ _ _ F (links N s) at_ rho x0 mi (links_nonneg N s) Ha Hr Hx) as (f & d & Ef & Ep & Hd & C & _).
  exists (observed true N s true), f, d. split; [exact (E HN)|]. split.
  { unfold fit_object. cbn [observed fs_selfloops fs_edges]. rewrite (start_fit _ _ st x0 _ _ _ S). f_equal. exact Ef. }
  split; [exact Ep|]. intros T. apply C in T.
  assert (Hr' : 0 <= rho * links N s) by (apply Rmult_le_pos; [exact Hr | apply links_nonneg]).
  assert (Dp : 0 < d).
  { destruct Hd as [Hd | Hd]; [exact Hd|]. subst d. rewrite (lib_fit_zero _ _ _ _ F) in T.
    unfold Rminus in T. rewrite Rplus_0_l, Rabs_Ropp, Rabs_pos_eq in T by apply links_nonneg. lra. }
  pose proof (C43_strengths _ _ (strength_out true N s) (strength_in true N s) (model_library inv true N s d V Hd)) as P.
  cbv zeta in P. rewrite model_N in P.
  destruct P as (p & Pe & _ & P1 & P2).
  - symmetry. apply strength_total.
  - assert (Lp : 0 < links N s) by lra. apply Rgt_not_eq.
    unfold links in Lp. apply sumn_pos in Lp; [|intros; apply sumn_nonneg; intros; apply present_range].
    destruct Lp as (i & Hi & Lp). apply sumn_pos in Lp; [|intros; apply present_range]. destruct Lp as (j & Hj & Lp).
    apply sumn_pos; [intros k Hk; apply strengths_nonneg; assumption|]. exists i. split; [exact Hi|].
    apply sumn_pos; [intros k Hk; apply (weight_nonneg true N); assumption|]. exists j. split; [exact Hj|].
    apply (weight_pos true N s i j V Hi). intros E0. rewrite E0, present_0 in Lp. lra.
  - intros i j Hi Hj Hn. unfold link_prob. cbn [existsb is_zero is_infinite].
    assert (So : strength_out true N s i <> 0) by (intros Z; rewrite Z, Rmult_0_l in Hn; exact (Hn eq_refl)).
    assert (Si : strength_in true N s j <> 0) by (intros Z; rewrite Z, Rmult_0_r in Hn; exact (Hn eq_refl)).
    destruct (strengths_nonneg true N s i V Hi) as [Po _]. destruct (strengths_nonneg true N s j V Hj) as [_ Pi].
    destruct (Reqb_spec d 0); [lra|]. destruct (Reqb_spec (strength_out true N s i) 0); [contradiction|].
    destruct (Reqb_spec (strength_in true N s j) 0); [contradiction|]. destruct (Reqb_spec 1 0); [lra|]. cbn [orb].
    assert (X : 0 < d * (strength_out true N s i * (strength_in true N s j * (1 * 1)))).
    { repeat apply Rmult_lt_0_compat; lra. }
    destruct inv; cbn; apply Rgt_not_eq; [apply poissonian_pos | apply logistic_pos]; exact X.
  - exists p. auto.
Qed.
Print Assumptions C87_strengths.

(** The path has two links: any tolerance below 2 is meaningful. *)
Example C87_strengths_case : library_graph true 3 (small_graph 3 path) None /\
  1/2 + 1/10 * links 3 (small_graph 3 path) < links 3 (small_graph 3 path) /\ strength_out true 3 (small_graph 3 path) 1 = 2.
Proof.
  split; [exact (small_library 3 path ltac:(auto))|]. rewrite path_links. split; [lra|].
  unfold strength_out, weight. cbn [sumn]. rewrite !small_link by lia. cbn. lra.
Qed.
