(** Property C103: from two observed graphs, of the vertices and of their groups, to the conditional model fitted to them. *)
From Coq Require Import ZArith String Classical Sorted Sorting.Permutation FunctionalExtensionality.
From Verif Require Import Base Num Spec Kernels KernelFacts MultiKernels MultiFacts Prob Ensemble EnsembleFacts EnsembleProps EnsembleState
  Models ModelFacts StateFacts StateProps Solver SolverFacts Fit PropSolver Ids IdFacts Graphs GraphFacts PropTables PropGraph DenseGraphs DenseFacts Sampled PropSampled
  Layers LayerFacts LayerProps LayerLib Aggregate CondDist Conditional CondFacts CondModel CondMeasures CondLik CondProps CondState
  MultiState MultiStateFacts MultiLik Construct ConstructFacts PropConstruct Pipeline PropPipeline PropLikelihood GraphArgs PropGraphArgs
  PropConditional PropCondFit PropCondState Repeat PropSampleLik CondObject PropCondObject CondPipeline.
Import Num Spec.

Open Scope R_scope.
Open Scope string_scope.
Open Scope list_scope.

(** * What a graph of the library holds *)

Lemma coo_outside : forall bo N l i j, GraphFacts.in_range N l -> (N <= i \/ N <= j)%nat -> entry (sp_row (coo_tocsr bo N l) i) j = 0.
Proof.
  intros bo N l i j H O. unfold entry. apply suml_zero. intros e He. cbn [coo_tocsr sp_row] in He. apply in_map_iff in He as (k & <- & Hk).
  apply filter_In in Hk as [Hk E]. apply in_seq in Hk. apply existsb_exists in E as (t & Ht & Eh). unfold hits in Eh.
  apply andb_prop in Eh as [E1 E2]. apply Nat.eqb_eq in E1, E2. unfold GraphFacts.in_range in H. rewrite Forall_forall in H. destruct (H t Ht) as (T & _).
  cbn [fst]. destruct (Nat.eqb_spec k j); [lia | reflexivity].
Qed.

Lemma library_outside : forall w N s gr i j, library_graph w N s gr -> (N <= i \/ N <= j)%nat -> GraphFacts.link s i j = 0.
Proof.
  intros w N s gr i j H O. destruct H as [ID G Lb li lg ll grouped sl dl v e b Oi Og Ol H -> _].
  destruct H as [A H|A H|lab L H|lab L H]; cbn [GraphFacts.link].
  - apply simple_pieces in H as [Hb ->]. apply coo_outside; [eapply edges_in_range; eassumption | exact O].
  - apply simple_pieces in H as [Hb ->]. apply coo_outside; [eapply edges_in_range; eassumption | exact O].
  - apply suml_zero. intros A HA. destruct (multi_pieces li lg ll Oi Og Ol _ _ _ _ _ _ _ _ _ H) as (Hb & _ & ->).
    apply in_map_iff in HA as (k & <- & _). apply coo_outside; [|exact O].
    apply (edges_in_range li lg Oi Og) in Hb as R. destruct (read_tables_ok li lg Oi Og _ _ _ _ _ _ _ Hb) as (_ & _ & _ & _ & _ & _ & _ & _ & He).
    eapply in_range_incl; [exact R|]. rewrite He. intros t Ht. apply in_map_iff in Ht as (p & <- & Hp). apply filter_In in Hp as [Hp _].
    apply in_map_iff in Hp as (r & <- & Hr). cbn [snd]. unfold inner. apply in_map_iff. exists r. auto.
  - apply suml_zero. intros A HA. destruct (multi_pieces li lg ll Oi Og Ol _ _ _ _ _ _ _ _ _ H) as (Hb & _ & ->).
    apply in_map_iff in HA as (k & <- & _). apply coo_outside; [|exact O].
    apply (edges_in_range li lg Oi Og) in Hb as R. destruct (read_tables_ok li lg Oi Og _ _ _ _ _ _ _ Hb) as (_ & _ & _ & _ & _ & _ & _ & _ & He).
    eapply in_range_incl; [exact R|]. rewrite He. intros t Ht. apply in_map_iff in Ht as (p & <- & Hp). apply filter_In in Hp as [Hp _].
    apply in_map_iff in Hp as (r & <- & Hr). cbn [snd]. unfold inner. apply in_map_iff. exists r. auto.
Qed.

(** Every group has a vertex, and the array of groups has one entry per vertex. *)
Lemma library_partition : forall w N s K g, library_graph w N s (Some (K, g)) ->
  (forall i, (i < N)%nat -> (g i < K)%nat) /\ (forall k, (k < K)%nat -> exists i, (i < N)%nat /\ g i = k) /\ (forall i, (N <= i)%nat -> g i = 0%nat).
Proof.
  intros w N s K g H. split; [exact (library_groups _ _ _ _ _ H)|].
  destruct H as [ID G Lb li lg ll grouped sl dl v e b Oi Og Ol H -> Hg].
  destruct (built_tables _ _ _ _ _ _ _ _ _ _ _ _ _ _ Oi Og Ol H) as [Hb _].
  destruct (read_tables_ok li lg Oi Og _ _ _ _ _ _ _ Hb) as (_ & E & Hl & Hn & Hgr & _).
  unfold grouping_of in Hg. unfold groups_ok in Hgr. destruct grouped; [|rewrite Hgr in Hg; discriminate].
  destruct Hgr as (gd & ga & Eg & En & Lg & Hga). rewrite Eg in Hg. injection Hg as -> ->. split.
  - intros k Hk. destruct En as (_ & _ & En & _). destruct (En k Hk) as (c & Hc & Gc). apply in_map_iff in Hc as (r & <- & Hr).
    destruct (Hga r Hr) as (k' & Gk & Nk). rewrite Gc in Gk. injection Gk as <-. exists (mapped (dict_get li (b_ids b) (fst r))). split.
    + rewrite Hn, <- Lg. apply nth_error_Some. congruence.
    + apply nth_error_nth with (d := 0%nat) in Nk. exact Nk.
  - intros i Hi. apply nth_overflow. lia.
Qed.

Lemma partition_count : forall N K g, (1 <= N)%nat -> (forall i, (i < N)%nat -> (g i < K)%nat) ->
  (forall k, (k < K)%nat -> exists i, (i < N)%nat /\ g i = k) -> num_groups N g = K.
Proof.
  intros N K g HN Hlt On. unfold num_groups. destruct K as [|K]; [specialize (Hlt 0%nat HN); lia|]. f_equal. apply Nat.le_antisymm.
  - apply list_max_le. apply Forall_forall. intros k Hk. apply in_map_iff in Hk as (i & <- & Hi). apply in_seq in Hi. specialize (Hlt i ltac:(lia)). lia.
  - destruct (On K ltac:(lia)) as (i & Hi & Eg). assert (M : Forall (fun k => (k <= list_max (map g (seq 0 N)))%nat) (map g (seq 0 N))) by (apply list_max_le; lia).
    rewrite Forall_forall in M. specialize (M (g i)). rewrite Eg in M. apply M. rewrite <- Eg. apply in_map. apply in_seq. lia.
Qed.

(** * What the model holds *)

(** The rows of the macro graph: the columns in increasing order, with the weights. *)
Definition macro_rows (w : bool) (M : nat) (t : shape) (a : nat) : list (nat * R) :=
  map (fun b => (b, weight w t a b)) (filter (fun b => negb (Reqb (GraphFacts.link t a b) 0)) (seq 0 M)).

Lemma rows_unique : forall (l : list (nat * R)) M (f : nat -> R), StronglySorted lt (map fst l) ->
  (forall e, In e l -> (fst e < M)%nat /\ 0 < snd e) -> (forall b, (b < M)%nat -> entry l b = f b) ->
  l = map (fun b => (b, f b)) (filter (fun b => negb (Reqb (f b) 0)) (seq 0 M)).
Proof.
  intros l M f HS HP HE.
  assert (ND : NoDup (map fst l)) by (apply sorted_lt_nodup; exact HS).
  assert (V : forall b v, In (b, v) l -> entry l b = v).
  { clear HS HP HE. induction l as [|[c u] l IH]; intros b v Hin; [destruct Hin|]. inversion ND as [|? ? Nc ND']; subst. rewrite entry_cons. cbn [fst snd].
    destruct Hin as [E | Hin].
    - injection E as -> ->. rewrite Nat.eqb_refl. unfold entry. rewrite suml_zero; [ring|]. intros e He. destruct (Nat.eqb_spec (fst e) b) as [<- | ]; [|reflexivity].
      exfalso. apply Nc. apply in_map. exact He.
    - destruct (Nat.eqb_spec c b) as [-> | ]; [exfalso; apply Nc; apply (in_map fst) in Hin; exact Hin|]. rewrite (IH ND' b v Hin). ring. }
  assert (Ef : forall e, In e l -> f (fst e) = snd e).
  { intros [b v] He. cbn [fst snd]. rewrite <- (HE b) by (apply (HP _ He)). apply V. exact He. }
  assert (K : map fst l = filter (fun b => negb (Reqb (f b) 0)) (seq 0 M)).
  { rewrite (LayerProps.sorted_filter (map fst l) 0 M HS) by (intros b Hb; apply in_map_iff in Hb as (e & <- & He); specialize (HP e He); lia).
    apply filter_ext_in. intros b Hb. apply in_seq in Hb. destruct (existsb (Nat.eqb b) (map fst l)) eqn:E.
    - apply existsb_exists in E as (c & Hc & E). apply Nat.eqb_eq in E. subst c. apply in_map_iff in Hc as (e & <- & He).
      rewrite (Ef e He). specialize (HP e He). destruct (Reqb_spec (snd e) 0); [lra | reflexivity].
    - rewrite <- HE by lia. unfold entry. rewrite suml_zero; [destruct (Reqb_spec 0 0); [reflexivity | lra]|].
      intros e He. destruct (Nat.eqb_spec (fst e) b) as [<- | ]; [|reflexivity]. exfalso. apply not_true_iff_false in E. apply E.
      apply existsb_exists. exists (fst e). split; [apply in_map; exact He | apply Nat.eqb_refl]. }
  rewrite <- K, map_map. rewrite <- (map_id l) at 1. apply map_ext_in. intros [b v] He. pose proof (Ef _ He) as Ev. cbn [fst snd] in Ev |- *. rewrite Ev. reflexivity.
Qed.

Lemma macro_read : forall w M t gr, library_graph w M t gr -> is_directed t = true -> layers t <> [] ->
  read_macro M t = Ok (Csr M (map (fun a => map (fun e => (fst e, Fin (snd e))) (macro_rows w M t a)) (seq 0 M))).
Proof.
  intros w M t gr H D L. pose proof (library_valid _ _ _ _ H) as V. destruct (adjacency_ok M t true true L) as [A EA].
  destruct (adjacency_spec w M t true true A V EA) as [WA HA]. unfold read_macro. rewrite EA. cbn [bind]. f_equal. f_equal.
  apply map_ext_in. intros a Ha. apply in_seq in Ha. f_equal. destruct (WA a ltac:(lia)) as [HS HF]. rewrite Forall_forall in HF.
  rewrite (rows_unique (sp_row A a) M (fun b => weight w t a b) HS).
  - unfold macro_rows. f_equal. apply filter_ext_in. intros b Hb. apply in_seq in Hb. f_equal.
    unfold weight, present. destruct w; [reflexivity|]. destruct (Req_EM_T (GraphFacts.link t a b) 0) as [-> | N]; [reflexivity|].
    destruct (Reqb_spec 1 0), (Reqb_spec (GraphFacts.link t a b) 0); try lra; try contradiction; reflexivity.
  - intros e He. destruct (HF e He) as (P1 & P2 & _). auto.
  - intros b Hb. rewrite HA by lia. unfold view. rewrite D. reflexivity.
Qed.

(** Strengths, groups and the rows of the macro graph. *)
Definition cond_observed (w : bool) (N : nat) (s : shape) (g : nat -> nat) (w' : bool) (M : nat) (t : shape) (sl : bool) : cond_state :=
  {| cs_base := observed w N s sl; cs_groups := Arr DInt [N] (map (fun i => Fin (INR (g i))) (seq 0 N)); cs_num_groups := M; cs_adj_cols := M;
     cs_adj := map (fun a => map (fun e => (fst e, Fin (snd e))) (macro_rows w' M t a)) (seq 0 M) |}.

Lemma checks_same : forall a a', (forall n, n <> "adj" -> n <> "groups" -> getattr a n = getattr a' n) -> fitness_checks a = fitness_checks a'.
Proof.
  intros a a' H. unfold fitness_checks, required, hasattr.
  rewrite (H "num_vertices"), (H "prop_out"), (H "prop_in"), (H "selfloops"), (H "num_edges"), (H "param") by discriminate. reflexivity.
Qed.

Lemma max_fold : forall (g : nat -> nat) l k,
  fold_left nmax2 (map (fun i => Fin (INR (g i))) l) (Fin (INR k)) = Fin (INR (Nat.max k (list_max (map g l)))).
Proof.
  intros g l; induction l as [|i l IH]; intros k; cbn [map fold_left list_max fold_right].
  - rewrite Nat.max_0_r. reflexivity.
  - assert (E : nmax2 (Fin (INR k)) (Fin (INR (g i))) = Fin (INR (Nat.max k (g i)))).
    { cbn [nmax2 nltb]. destruct (Rltb_spec (INR k) (INR (g i))) as [L | L].
      - apply INR_lt in L. rewrite Nat.max_r by lia. reflexivity.
      - rewrite Nat.max_l; [reflexivity|]. apply INR_le. lra. }
    rewrite E, IH. change (fold_right Nat.max 0%nat (map g l)) with (list_max (map g l)). rewrite Nat.max_assoc. reflexivity.
Qed.

(** * C103: which pairs of graphs are accepted *)

(** With the two graphs, the model holds the strengths and the groups of the first and the weights of the second.  It is refused unless both are
    directed, the first has groups, and there are as many groups as vertices of the second graph. *)
Theorem C103_accept : forall w N s gr w' M t gr' kw sl, library_graph w N s gr -> library_graph w' M t gr' -> options kw sl ->
  layers s <> [] -> layers t <> [] -> (1 <= N)%nat ->
  conditional_of N s gr M t kw =
    if is_directed s && is_directed t then
      match gr with
      | None => Raise ValueError
      | Some (K, g) => if Nat.eqb K M then Ok (cond_observed w N s g w' M t sl) else Raise AssertionError
      end
    else Raise ValueError.
Proof.
  intros w N s gr w' M t gr' kw sl H H' O L L' HN. unfold conditional_of. destruct (is_directed s) eqn:D; [|reflexivity].
  destruct (C87_read w N s gr H D L) as (m & Em & E). unfold read_micro. rewrite E. cbn [bind gd_vertices gd_edges gd_out gd_in].
  destruct (C87_accept w N s gr kw sl H O) as [_ Acc]. destruct (Acc D L) as [Acc' _]. specialize (Acc' HN). clear Acc.
  unfold fitness_of in Acc'. rewrite D, E in Acc'. cbn [bind] in Acc'. cbn [andb].
  set (g0 := {| gd_vertices := N; gd_edges := m; gd_out := _; gd_in := _; gd_groups := None |}) in Acc'.
  set (g1 := {| gd_vertices := N; gd_edges := m; gd_out := _; gd_in := _; gd_groups := match gr with Some _ => _ | None => None end |}).
  destruct (is_directed t) eqn:D'; [|reflexivity]. rewrite (macro_read w' M t gr' H' D' L'). cbn [bind].
  set (rows := map _ (seq 0 M)).
  assert (B : forall a, (exists k, a = rev kw ++ k ++ graph_attrs g0 /\ (forall n v, In (n, v) k -> n = "adj" \/ n = "groups")) -> fitness_checks a = Ok (observed w N s sl)).
  { intros a (k & -> & Hk). rewrite <- Acc'. unfold fitness_init. cbn [fitness_args bind].
    assert (A : apply_kwargs fitness_allowed kw (graph_attrs g0) = Ok (rev kw ++ graph_attrs g0)).
    { apply apply_kwargs_ok. split; [reflexivity|]. intros n v Hin. destruct O as [[-> _] | ->]; [destruct Hin|].
      destruct Hin as [Hin | []]. injection Hin as <- _. simpl. tauto. }
    rewrite A. cbn [bind]. apply checks_same. intros n N1 N2.
    assert (G : forall k, (forall n v, In (n, v) k -> n = "adj" \/ n = "groups") -> getattr (k ++ graph_attrs g0) n = getattr (graph_attrs g0) n).
    { clear - N1 N2. intros k; induction k as [|[c v] k IH]; intros Hk; [reflexivity|]. cbn [app getattr]. destruct (String.eqb_spec c n) as [-> | ].
      - destruct (Hk n v (or_introl eq_refl)); contradiction.
      - apply IH. intros n' v' Hin. apply (Hk n' v'). right. exact Hin. }
    destruct O as [[-> _] | ->]; cbn [rev app]; [apply G; exact Hk|]. cbn [getattr]. destruct (String.eqb "selfloops" n); [reflexivity | apply G; exact Hk]. }
  unfold cond_init. cbn [cond_args bind].
  assert (A : apply_kwargs cond_allowed kw (("adj", Csr M rows) :: cond_graph_attrs g1) = Ok (rev kw ++ ("adj", Csr M rows) :: cond_graph_attrs g1)).
  { apply apply_kwargs_ok. split; [reflexivity|]. intros n v Hin. destruct O as [[-> _] | ->]; [destruct Hin|].
    destruct Hin as [Hin | []]. injection Hin as <- _. simpl. tauto. }
  rewrite A. cbn [bind]. unfold cond_checks.
  rewrite (B (rev kw ++ ("adj", Csr M rows) :: cond_graph_attrs g1)).
  2:{ exists (("adj", Csr M rows) :: match gd_groups g1 with Some v => [("groups", v)] | None => [] end). split.
      - unfold cond_graph_attrs. rewrite <- app_comm_cons. reflexivity.
      - intros n v [Hin | Hin]; [injection Hin as <- _; auto|]. destruct (gd_groups g1); [|destruct Hin]. destruct Hin as [Hin | []]. injection Hin as <- _. auto. }
  cbn [bind].
  assert (G1 : getattr (rev kw ++ ("adj", Csr M rows) :: cond_graph_attrs g1) "adj" = Some (Csr M rows)) by (destruct O as [[-> _] | ->]; reflexivity).
  assert (G2 : getattr (rev kw ++ ("adj", Csr M rows) :: cond_graph_attrs g1) "groups" = gd_groups g1).
  { destruct O as [[-> _] | ->]; unfold g1, cond_graph_attrs; destruct gr as [[K g]|]; reflexivity. }
  unfold required. rewrite G1, G2. cbn [bind]. unfold g1. cbn [gd_groups]. destruct gr as [[K g]|]; [|reflexivity]. cbn [bind adj_arg fst snd].
  match goal with |- context [Nat.eqb M ?l] => assert (LR : l = M) by (unfold rows; rewrite map_length, seq_length; reflexivity) end.
  rewrite LR, Nat.eqb_refl. cbn [guard].
  destruct (library_partition _ _ _ _ _ H) as (P1 & P2 & P3). pose proof (partition_count N K g HN P1 P2) as PC.
  destruct N as [|n]; [lia|]. cbn [first_is_int bind guard group_max has_arith seq map].
  change (map (fun i => Fin (INR (g i))) (seq 1 n)) with (map (fun i => Fin (INR (g i))) (seq 1 n)). rewrite max_fold. cbn [bind nadd].
  unfold num_groups in PC. cbn [seq map list_max fold_right] in PC. change (fold_right Nat.max 0%nat (map g (seq 1 n))) with (list_max (map g (seq 1 n))) in PC.
  change 1 with (INR 1). rewrite <- plus_INR, Nat.add_1_r, PC. cbn [neqb].
  destruct (Nat.eqb_spec K M) as [-> | NE].
  - destruct (Reqb_spec (INR M) (INR M)); [|lra]. cbn [guard]. reflexivity.
  - destruct (Reqb_spec (INR K) (INR M)) as [C | C]; [apply INR_eq in C; contradiction|]. reflexivity.
Qed.
Print Assumptions C103_accept.

(** * C103: two tables that describe the same groups *)

Lemma enum_below : forall (K : Type) (leb : K -> K -> bool) d d' col col', total_order leb -> enumerates leb d col -> enumerates leb d' col' ->
  (forall x, In x col -> In x col') -> forall i x i', dict_get leb d x = Some i -> dict_get leb d' x = Some i' -> (i <= i')%nat.
Proof.
  intros K leb d d' col col' (Tot & _ & _) (E1 & E2 & E3 & E4 & E5) (D1 & D2 & D3 & D4 & D5) Inc. induction i as [|k IH]; intros x i' Gx Gx'; [lia|].
  destruct (E3 k) as (y & Hy & Gy); [pose proof (E2 _ _ Gx); lia|]. destruct (proj1 (D1 y) (Inc y Hy)) as (k' & Gy').
  pose proof (IH y k' Gy Gy'). assert (L : leb y x = true).
  { destruct (Tot y x) as [L | L]; [exact L|]. pose proof (E5 _ _ _ _ Gx Gy L). lia. }
  pose proof (D5 _ _ _ _ Gy' Gx' L). assert (k' <> i'); [|lia]. intros <-. pose proof (D4 _ _ _ Gy' Gx'). subst y. rewrite Gx in Gy. injection Gy. lia.
Qed.

Lemma enum_same : forall (K : Type) (leb : K -> K -> bool) d d' col col', total_order leb -> enumerates leb d col -> enumerates leb d' col' ->
  (forall x, In x col <-> In x col') -> length d = length d' /\ forall x, dict_get leb d x = dict_get leb d' x.
Proof.
  intros K leb d d' col col' T E D Same.
  assert (V : forall x, dict_get leb d x = dict_get leb d' x).
  { intros x. destruct (dict_get leb d x) as [i|] eqn:Gx, (dict_get leb d' x) as [i'|] eqn:Gx'.
    - f_equal. apply Nat.le_antisymm; [eapply (enum_below K leb d d') | eapply (enum_below K leb d' d)]; try eassumption; intros; apply Same; assumption.
    - exfalso. assert (Hx : In x col') by (apply Same; apply (proj1 E); eauto). apply (proj1 D) in Hx as (k & Hk). congruence.
    - exfalso. assert (Hx : In x col) by (apply Same; apply (proj1 D); eauto). apply (proj1 E) in Hx as (k & Hk). congruence.
    - reflexivity. }
  split; [|exact V]. destruct E as (_ & E2 & E3 & _), D as (_ & D2 & D3 & _).
  assert (A : forall n m, (forall k, (k < n)%nat -> (k < m)%nat) -> (n <= m)%nat) by (intros [|n] m H; [lia | specialize (H n ltac:(lia)); lia]).
  apply Nat.le_antisymm; apply A; intros k Hk.
  - destruct (E3 k Hk) as (x & _ & Gx). rewrite V in Gx. apply (D2 _ _ Gx).
  - destruct (D3 k Hk) as (x & _ & Gx). rewrite <- V in Gx. apply (E2 _ _ Gx).
Qed.

(** The macro graph links two groups exactly when some vertex of the first is linked to some vertex of the second. *)
Definition coarse (N : nat) (s : shape) (g : nat -> nat) (M : nat) (t : shape) : Prop :=
  forall a b, (a < M)%nat -> (b < M)%nat ->
    (GraphFacts.link t a b <> 0 <-> exists i j, (i < N)%nat /\ (j < N)%nat /\ g i = a /\ g j = b /\ GraphFacts.link s i j <> 0).

Lemma linked_rows : forall (ID G Lb : Type) leb_id leb_g leb_l grouped sl dl w (v : list (ID * G)) (e : list (erow ID Lb)) b s,
  total_order leb_id -> total_order leb_g -> total_order leb_l -> graph_of leb_id leb_g leb_l grouped sl dl w v e b s ->
  forall x y i j, dict_get leb_id (b_ids b) x = Some i -> dict_get leb_id (b_ids b) y = Some j ->
  (GraphFacts.link s i j <> 0 <-> exists r, In r e /\ r_src r = x /\ r_dst r = y).
Proof.
  intros ID G Lb li lg ll grouped sl dl w v e b s Oi Og Ol H x y i j Gx Gy.
  destruct (C05_links ID G Lb li lg ll grouped sl dl w v e b s Oi Og Ol H x y i j Gx Gy) as [P _].
  assert (Eq : forall u z, eq_key li u z = true <-> z = u).
  { intros u z. unfold eq_key. destruct Oi as (Tot & _ & An). split.
    - intros K. apply andb_prop in K as [K1 K2]. symmetry. apply An; assumption.
    - intros ->. destruct (Tot u u) as [-> | ->]; reflexivity. }
  destruct (filter _ e) as [|r l] eqn:Ef in P.
  - split; [intros C; exfalso; unfold present in P; destruct (Req_EM_T (GraphFacts.link s i j) 0); [contradiction | lra]|].
    intros (r & Hr & E1 & E2). exfalso. assert (In r []) as []. rewrite <- Ef. apply filter_In. split; [exact Hr|].
    apply andb_true_intro. split; apply Eq; assumption.
  - assert (Hr : In r (r :: l)) by (left; reflexivity). rewrite <- Ef in Hr. apply filter_In in Hr as [Hr K]. apply andb_prop in K as [K1 K2].
    apply Eq in K1, K2. split; [intros _; exists r; auto|]. intros _ C. unfold present in P. destruct (Req_EM_T (GraphFacts.link s i j) 0); [lra | contradiction].
Qed.

(** A table of vertices with groups and a table of edges; a table whose vertices are these groups and an edge table that has a row from one
    group to another exactly when the first edge table has a row between vertices of these groups.  Then the group numbers of the first graph
    are the vertex numbers of the second, and the second graph is the graph of the groups. *)
Theorem C103_tables : forall (ID G G' Lb Lb' : Type) li lg lg' ll ll' sl dl w (v : list (ID * G)) (e : list (erow ID Lb)) b s
    grouped' sl' dl' w' (vm : list (G * G')) (em : list (erow G Lb')) b' t,
  total_order li -> total_order lg -> total_order lg' -> total_order ll -> total_order ll' ->
  graph_of li lg ll true sl dl w v e b s -> graph_of lg lg' ll' grouped' sl' dl' w' vm em b' t ->
  (forall c, In c (map fst vm) <-> In c (map snd v)) ->
  (forall c c', (exists r, In r em /\ r_src r = c /\ r_dst r = c') <-> (exists r, In r e /\ In (r_src r, c) v /\ In (r_dst r, c') v)) ->
  exists g, grouping_of b = Some (b_n b', g) /\
    (forall x c, In (x, c) v -> exists i, dict_get li (b_ids b) x = Some i /\ dict_get lg (b_ids b') c = Some (g i)) /\
    coarse (b_n b) s g (b_n b') t.
Proof.
  intros ID G G' Lb Lb' li lg lg' ll ll' sl dl w v e b s grouped' sl' dl' w' vm em b' t Oi Og Og' Ol Ol' H H' Names Rows.
  destruct (built_tables _ _ _ _ _ _ _ _ _ _ _ _ _ _ Oi Og Ol H) as [Hb _].
  destruct (built_tables _ _ _ _ _ _ _ _ _ _ _ _ _ _ Og Og' Ol' H') as [Hb' _].
  destruct (read_tables_ok li lg Oi Og _ _ _ _ _ _ _ Hb) as (ND & E & Hl & Hn & Hgr & _ & _ & Hr & _).
  destruct (read_tables_ok lg lg' Og Og' _ _ _ _ _ _ _ Hb') as (ND' & E' & Hl' & Hn' & _ & _ & _ & Hr' & _).
  unfold groups_ok in Hgr. destruct Hgr as (gd & ga & Eg & En & Lg & Hga).
  destruct (enum_same G lg gd (b_ids b') _ _ Og En E') as [EL EV]; [intros c; symmetry; apply Names|].
  set (g := fun i => nth i ga 0%nat).
  assert (Idx : forall x c, In (x, c) v -> exists i, dict_get li (b_ids b) x = Some i /\ (i < b_n b)%nat /\ dict_get lg (b_ids b') c = Some (g i)).
  { intros x c Hx. destruct (Hga _ Hx) as (k & Gk & Nk). cbn [fst snd] in Gk, Nk.
    assert (In x (map fst v)) as Ix by (apply in_map_iff; exists (x, c); auto). apply (proj1 E) in Ix as (i & Gi). rewrite Gi in Nk. cbn [mapped] in Nk.
    exists i. split; [exact Gi|]. split; [rewrite Hn, <- Hl; apply (proj1 (proj2 E) _ _ Gi)|]. rewrite <- EV, Gk. f_equal. unfold g. symmetry. apply nth_error_nth. exact Nk. }
  exists g. split; [unfold grouping_of; rewrite Eg, EL, Hl', Hn'; reflexivity|]. split.
  { intros x c Hx. destruct (Idx x c Hx) as (i & Gi & _ & Gc). exists i. auto. }
  intros a c Ha Hc. rewrite Hn', <- Hl' in Ha, Hc. destruct E' as (E1' & E2' & E3' & E4' & _).
  destruct (E3' a Ha) as (na & Ina & Gna). destruct (E3' c Hc) as (nc & Inc & Gnc).
  rewrite (linked_rows _ _ _ _ _ _ _ _ _ _ _ _ _ _ Og Og' Ol' H' na nc a c Gna Gnc), Rows. split.
  - intros (r & Hin & V1 & V2). destruct (Idx _ _ V1) as (i & Gi & Li & Gi'). destruct (Idx _ _ V2) as (j & Gj & Lj & Gj').
    exists i, j. split; [exact Li|]. split; [exact Lj|]. split; [congruence|]. split; [congruence|].
    rewrite (linked_rows _ _ _ _ _ _ _ _ _ _ _ _ _ _ Oi Og Ol H _ _ i j Gi Gj). exists r. auto.
  - intros (i & j & Li & Lj & Ei & Ej & Lk). rewrite Hn, <- Hl in Li, Lj. destruct E as (_ & _ & E3 & E4 & _).
    destruct (E3 i Li) as (x & Ix & Gx). destruct (E3 j Lj) as (y & Iy & Gy).
    rewrite (linked_rows _ _ _ _ _ _ _ _ _ _ _ _ _ _ Oi Og Ol H x y i j Gx Gy) in Lk. destruct Lk as (r & Hin & <- & <-).
    apply in_map_iff in Ix as ([x' cx] & Ex & Ix), Iy as ([y' cy] & Ey & Iy). cbn [fst] in Ex, Ey. subst x' y'.
    destruct (Idx _ _ Ix) as (i' & Gi' & _ & Gcx). destruct (Idx _ _ Iy) as (j' & Gj' & _ & Gcy). rewrite Gx in Gi'. injection Gi' as <-. rewrite Gy in Gj'. injection Gj' as <-.
    rewrite Ei in Gcx. rewrite Ej in Gcy. pose proof (E4' _ _ _ Gcx Gna). pose proof (E4' _ _ _ Gcy Gnc). subst cx cy. exists r. auto.
Qed.
Print Assumptions C103_tables.

(** * C103: the model of the two graphs *)

(** The links of the first graph, as a set of admissible pairs. *)
Definition links_of (N : nat) (s : shape) (sl : bool) : list (nat * nat) :=
  filter (fun e => negb (Reqb (GraphFacts.link s (fst e) (snd e)) 0)) (pairs N sl).

Lemma in_links : forall N s sl i j, In (i, j) (links_of N s sl) <->
  (i < N)%nat /\ (j < N)%nat /\ allowed sl i j = true /\ GraphFacts.link s i j <> 0.
Proof.
  intros N s sl i j. unfold links_of. rewrite filter_In, in_pairs. cbn [fst snd]. destruct (Reqb_spec (GraphFacts.link s i j) 0) as [E | E]; cbn [negb].
  - split; [intros [_ C]; discriminate | intros (_ & _ & _ & C); contradiction].
  - tauto.
Qed.

Lemma counted_allowed : forall N s sl i j, loops_counted N s sl -> (i < N)%nat -> GraphFacts.link s i j <> 0 -> allowed sl i j = true.
Proof.
  intros N s sl i j H Hi L. unfold allowed. destruct H as [-> | H]; [apply orb_true_r|].
  destruct (Nat.eqb_spec i j) as [<- | ]; [|reflexivity]. exfalso. apply L, H, Hi.
Qed.

Lemma macro_rows_link : forall w M t a b, macro_link (macro_rows w M t) a b = true <-> (b < M)%nat /\ GraphFacts.link t a b <> 0.
Proof.
  intros w M t a b. unfold macro_link. rewrite existsb_exists. unfold macro_rows. split.
  - intros (e & He & E). apply Nat.eqb_eq in E. apply in_map_iff in He as (c & <- & Hc). cbn [fst] in E. subst c. apply filter_In in Hc as [Hc L].
    apply in_seq in Hc. split; [lia|]. intros C. rewrite C in L. destruct (Reqb_spec 0 0); [discriminate | lra].
  - intros [Hb L]. exists (b, weight w t a b). split; [|apply Nat.eqb_refl]. apply in_map_iff. exists b. split; [reflexivity|].
    apply filter_In. split; [apply in_seq; lia|]. destruct (Reqb_spec (GraphFacts.link t a b) 0); [contradiction | reflexivity].
Qed.

Lemma macro_rows_graph : forall w M t, aggregate_graph M (macro_rows w M t).
Proof.
  intros w M t a _. unfold macro_rows. rewrite map_map. cbn [fst]. rewrite map_id. split; [apply NoDup_filter, seq_NoDup|].
  intros e He. apply in_map_iff in He as (b & <- & Hb). apply filter_In in Hb as [Hb _]. apply in_seq in Hb. cbn [fst]. lia.
Qed.

Lemma macro_rows_pos : forall w M t a e, valid w M t -> (a < M)%nat -> In e (macro_rows w M t a) -> 0 < snd e.
Proof.
  intros w M t a e V Ha He. apply in_map_iff in He as (b & <- & Hb). apply filter_In in Hb as [_ L]. cbn [snd]. apply (weight_pos w M t a b V Ha).
  intros C. rewrite C in L. destruct (Reqb_spec 0 0); [discriminate | lra].
Qed.

Lemma strength_all : forall w N s gr i, library_graph w N s gr -> 0 <= strength_out w N s i /\ 0 <= strength_in w N s i.
Proof.
  intros w N s gr i H. pose proof (library_valid _ _ _ _ H) as V. destruct (Nat.lt_ge_cases i N) as [Hi | Hi]; [apply strengths_nonneg; assumption|].
  unfold strength_out, strength_in, weight. split; right; symmetry; apply sumn_zero; intros j Hj.
  - rewrite (library_outside _ _ _ _ i j H) by lia. destruct w; [reflexivity | apply present_0].
  - rewrite (library_outside _ _ _ _ j i H) by lia. destruct w; [reflexivity | apply present_0].
Qed.

Lemma strengths_linked : forall w N s i j, valid w N s -> (i < N)%nat -> (j < N)%nat -> GraphFacts.link s i j <> 0 ->
  0 < strength_out w N s i /\ 0 < strength_in w N s j.
Proof.
  intros w N s i j V Hi Hj L. apply (weight_pos w N s i j V Hi) in L. split.
  - apply Rlt_le_trans with (1 := L). apply (sumn_ge_term N (fun j => weight w s i j) j); [|exact Hj]. intros k _. apply (weight_nonneg w N); assumption.
  - apply Rlt_le_trans with (1 := L). apply (sumn_ge_term N (fun i => weight w s i j) i); [|exact Hi]. intros k Hk. apply (weight_nonneg w N); assumption.
Qed.

(** A graph of positive probability that agrees. *)
Lemma possible_pos : forall N sl p M g A G, (forall i j, 0 <= p i j < 1) -> (forall i j, In (i, j) G -> 0 < p i j) -> In G (all_graphs N sl) ->
  agrees M g A G = true -> 0 < graph_weight N sl p G /\ 0 < prob_aggregate N sl p M g A.
Proof.
  intros N sl p M g A G Hp HG HIn HA.
  assert (WG : 0 < graph_weight N sl p G).
  { rewrite graph_weight_list. apply prodl_pos. intros [i j] _. cbn [fst snd]. pose proof (Hp i j). destruct (mem (i, j) G) eqn:Em; [|lra].
    apply HG. apply mem_spec. exact Em. }
  split; [exact WG|]. unfold prob_aggregate, ensemble_mean.
  apply Rlt_le_trans with (graph_weight N sl p G * b2r (agrees M g A G)); [rewrite HA; simpl; lra|].
  apply (suml_in_le _ (fun G => graph_weight N sl p G * b2r (agrees M g A G))); [|exact HIn].
  intros H _. apply Rmult_le_pos; [|destruct (agrees M g A H); simpl; lra].
  rewrite graph_weight_list. apply prodl_nonneg. intros [i j] _. cbn [fst snd]. pose proof (Hp i j). destruct (mem (i, j) H); lra.
Qed.

Lemma links_agree : forall w N s g M t sl, loops_counted N s sl -> (forall i, (i < N)%nat -> (g i < M)%nat) -> coarse N s g M t ->
  agrees M g (macro_link (macro_rows w M t)) (links_of N s sl) = true.
Proof.
  intros w N s g M t sl Lc Hg C. unfold agrees. apply forallb_forall. intros [a b] Hab. apply in_prod_iff in Hab as [Ha Hb]. apply in_seq in Ha, Hb. cbn [fst snd].
  apply eqb_true_iff. apply Bool.eq_iff_eq_true. rewrite blocks_linked_in, macro_rows_link, (C a b) by lia. split.
  - intros (i & j & K & E1 & E2). apply in_links in K as (K1 & K2 & _ & K3). split; [lia|]. exists i, j. auto.
  - intros (_ & i & j & K1 & K2 & E1 & E2 & K3). exists i, j. split; [|auto]. apply in_links. split; [exact K1|]. split; [exact K2|].
    split; [apply (counted_allowed N s sl i j Lc K1 K3) | exact K3].
Qed.

Lemma coarse_setting : forall w N s g w' M t gr' sl d, library_graph w N s (Some (M, g)) -> library_graph w' M t gr' -> (1 <= N)%nat ->
  loops_counted N s sl -> coarse N s g M t -> 0 < d ->
  num_groups N g = M /\ setting (Fin d) (strength_out w N s) (strength_in w N s) N g (macro_rows w' M t) sl /\
  In (links_of N s sl) (all_graphs N sl) /\ 0 < given (Fin d) (strength_out w N s) (strength_in w N s) N g (macro_rows w' M t) sl (links_of N s sl).
Proof.
  intros w N s g w' M t gr' sl d H H' HN Lc C Hd. pose proof (library_valid _ _ _ _ H) as V.
  destruct (library_partition _ _ _ _ _ H) as (P1 & P2 & _). pose proof (partition_count N M g HN P1 P2) as PC.
  set (x := strength_out w N s). set (y := strength_in w N s).
  assert (Hx : forall i, 0 <= x i) by (intros i; apply (strength_all w N s _ i H)). assert (Hy : forall i, 0 <= y i) by (intros i; apply (strength_all w N s _ i H)).
  assert (Nd : nonneg (Fin d)) by (simpl; lra).
  assert (Hp : forall i j, 0 <= inv_prob (Fin d) x y i j < 1).
  { intros i j. rewrite (inv_prob_pm (Fin d) x y Nd Hx Hy). unfold pm. cbn [fst snd survive]. pose proof (exp_pos (- (d * (x i * y j)))). split; [|lra].
    assert (0 <= d * (x i * y j)) by (apply Rmult_le_pos; [lra | apply Rmult_le_pos; auto]).
    assert (exp (- (d * (x i * y j))) <= 1); [|lra]. rewrite <- exp_0. destruct (Req_dec (d * (x i * y j)) 0) as [-> | ]; [rewrite Ropp_0; lra|].
    left. apply exp_increasing. lra. }
  assert (HG : forall i j, In (i, j) (links_of N s sl) -> 0 < inv_prob (Fin d) x y i j).
  { intros i j K. apply in_links in K as (K1 & K2 & _ & K3). destruct (strengths_linked w N s i j V K1 K2 K3) as [S1 S2]. fold x in S1. fold y in S2.
    rewrite (inv_prob_pm (Fin d) x y Nd Hx Hy). unfold pm. cbn [fst snd survive].
    assert (0 < d * (x i * y j)) by (apply Rmult_lt_0_compat; [exact Hd | apply Rmult_lt_0_compat; assumption]).
    assert (exp (- (d * (x i * y j))) < exp 0) by (apply exp_increasing; lra). rewrite exp_0 in *. lra. }
  assert (HI : In (links_of N s sl) (all_graphs N sl)) by apply filter_sublist.
  pose proof (links_agree w' N s g M t sl Lc P1 C) as Ag.
  destruct (possible_pos N sl (inv_prob (Fin d) x y) M g (macro_link (macro_rows w' M t)) (links_of N s sl) Hp HG HI Ag) as [WP AP].
  split; [exact PC|]. split; [|split; [exact HI|]].
  - split; [exact Nd|]. split; [exact Hx|]. split; [exact Hy|]. rewrite PC. split; [apply macro_rows_graph | exact AP].
  - unfold given, cond_weight. rewrite PC, Ag. cbn [b2r]. rewrite Rmult_1_r. apply Rdiv_lt_0_compat; assumption.
Qed.

(** What the methods read from the object. *)
Lemma object_reads : forall w N s g w' M t gr' sl, library_graph w N s (Some (M, g)) -> library_graph w' M t gr' ->
  let o := cond_observed w N s g w' M t sl in
  co_out o = F (strength_out w N s) /\ co_in o = F (strength_in w N s) /\ co_groups o = Some g /\ co_adj o = macro_rows w' M t.
Proof.
  intros w N s g w' M t gr' sl H H' o. destruct (library_partition _ _ _ _ _ H) as (P1 & P2 & P3).
  split; [|split; [|split]].
  - apply functional_extensionality; intros i. unfold co_out, o. cbn [cond_observed cs_base observed fs_out].
    destruct (Nat.lt_ge_cases i N) as [Hi | Hi]; [apply nth_map_seq; exact Hi|]. rewrite nth_overflow by (rewrite map_length, seq_length; exact Hi).
    f_equal. symmetry. apply sumn_zero. intros j Hj. unfold weight. rewrite (library_outside _ _ _ _ i j H) by lia. destruct w; [reflexivity | apply present_0].
  - apply functional_extensionality; intros i. unfold co_in, o. cbn [cond_observed cs_base observed fs_in].
    destruct (Nat.lt_ge_cases i N) as [Hi | Hi]; [apply (nth_map_seq _ (F (strength_in w N s)) N i (Fin 0)); exact Hi|]. rewrite nth_overflow by (rewrite map_length, seq_length; exact Hi).
    f_equal. symmetry. apply sumn_zero. intros j Hj. unfold weight. rewrite (library_outside _ _ _ _ j i H) by lia. destruct w; [reflexivity | apply present_0].
  - unfold co_groups, o. cbn [cond_observed cs_groups]. f_equal. apply functional_extensionality; intros i.
    destruct (Nat.lt_ge_cases i N) as [Hi | Hi].
    + rewrite (nth_map_seq _ (fun i => Fin (INR (g i))) N i (Fin 0)) by exact Hi. cbn [toR]. rewrite INR_IZR_INZ.
      assert (E : Int_part (IZR (Z.of_nat (g i))) = Z.of_nat (g i)).
      { destruct (base_Int_part (IZR (Z.of_nat (g i)))) as [B1 B2]. apply le_IZR in B1.
        assert (IZR (Z.of_nat (g i)) < IZR (Int_part (IZR (Z.of_nat (g i))) + 1)) as B3 by (rewrite plus_IZR; lra). apply lt_IZR in B3. lia. }
      rewrite E, Nat2Z.id. reflexivity.
    + rewrite nth_overflow by (rewrite map_length, seq_length; exact Hi). cbn [toR]. rewrite P3 by exact Hi.
      assert (E : Int_part 0 = 0%Z).
      { destruct (base_Int_part 0) as [B1 B2]. apply le_IZR in B1. assert (IZR 0 < IZR (Int_part 0 + 1)) as B3 by (rewrite plus_IZR; lra). apply lt_IZR in B3. lia. }
      rewrite E. reflexivity.
  - apply functional_extensionality; intros a. unfold co_adj, o. cbn [cond_observed cs_adj].
    destruct (Nat.lt_ge_cases a M) as [Ha | Ha].
    + etransitivity; [apply f_equal; apply (nth_map_seq _ _ M a); exact Ha|]. rewrite map_map. cbn [fst snd toR].
      rewrite <- map_id. apply map_ext. intros [b v]. reflexivity.
    + rewrite nth_overflow by (rewrite map_length, seq_length; exact Ha). cbn [map]. unfold macro_rows. symmetry.
      rewrite (filter_ext_in _ (fun _ => false)); [|intros b _; rewrite (library_outside _ _ _ _ a b H') by lia; destruct (Reqb_spec 0 0); [reflexivity | lra]].
      clear. induction (seq 0 M); [reflexivity | assumption].
Qed.

(** ** The likelihood of the observed graph *)

(** Every group has links to some group and from some group. *)
Definition groups_linked (M : nat) (t : shape) : Prop :=
  forall a, (a < M)%nat -> (exists b, (b < M)%nat /\ GraphFacts.link t a b <> 0) /\ (exists b, (b < M)%nat /\ GraphFacts.link t b a <> 0).

Lemma group_strength : forall N (x : nat -> R) g a i, (forall i, 0 <= x i) -> (i < N)%nat -> g i = a -> 0 < x i ->
  0 < sumn N (fun i => if Nat.eqb (g i) a then x i else 0).
Proof.
  intros N x g a i Hx Hi E P. apply Rlt_le_trans with (x i); [exact P|].
  pose proof (sumn_ge_term N (fun i => if Nat.eqb (g i) a then x i else 0) i) as K. cbv beta in K. rewrite E, Nat.eqb_refl in K. apply K; [|exact Hi].
  intros k _. destruct (Nat.eqb (g k) a); [apply Hx | lra].
Qed.

(** The object with the parameter [d], and the log-likelihood of the graph it was built from: the logarithm of a positive probability. *)
Theorem C103_likelihood : forall w N s g w' M t gr' sl d o, library_graph w N s (Some (M, g)) -> library_graph w' M t gr' -> (1 <= N)%nat ->
  is_directed s = true -> layers s <> [] -> loops_counted N s sl -> coarse N s g M t -> (sl = false -> groups_linked M t) -> 0 < d ->
  a_param o = Some (Fin d) -> a_selfloops o = sl ->
  let x := strength_out w N s in let y := strength_in w N s in let adj := macro_rows w' M t in
  let p := given (Fin d) x y N g adj sl (links_of N s sl) in
  c_log_likelihood x y N g adj (GGraph N s) o = Ok (Fin (ln p)) /\ 0 < p <= 1.
Proof.
  intros w N s g w' M t gr' sl d o H H' HN D L Lc C GL Hd Ho Hsl x y adj p. pose proof (library_valid _ _ _ _ H) as V. pose proof (library_valid _ _ _ _ H') as V'.
  destruct (coarse_setting w N s g w' M t gr' sl d H H' HN Lc C Hd) as (PC & HS & HI & HP). fold x y adj in HS. fold x y adj p in HP.
  assert (U : usable x y N g adj sl).
  { split.
    - intros a e Ha He. rewrite PC in Ha. apply (macro_rows_pos w' M t a e V' Ha He).
    - intros Esl a Ha. rewrite PC in Ha. destruct (GL Esl a Ha) as [(b & Hb & K) (b' & Hb' & K')]. apply (C a b Ha Hb) in K as (i & j & Hi & Hj & E1 & E2 & K).
      apply (C b' a Hb' Ha) in K' as (i' & j' & Hi' & Hj' & E1' & E2' & K'). destruct HS as (_ & Hx & Hy & _). split.
      + apply (group_strength N x g a i Hx Hi E1). apply (strengths_linked w N s i j V Hi Hj K).
      + apply (group_strength N y g a j' Hy Hj' E2'). apply (strengths_linked w N s i' j' V Hi' Hj' K'). }
  assert (LF : link_form N (GGraph N s) (links_of N s sl)).
  { split; [reflexivity|]. split; [left; exists w, (Some (M, g)); exact H|]. split; [exact L|]. intros i j Hi Hj. rewrite in_links. split.
    - intros [K | [K _]]; [|congruence]. split; [exact Hi|]. split; [exact Hj|]. split; [apply (counted_allowed N s sl i j Lc Hi); lra | lra].
    - intros (_ & _ & _ & K). left. pose proof (link_nonneg _ _ _ i j V Hi). lra. }
  subst sl. destruct (C95_likelihood (Fin d) x y N g adj o (GGraph N s) (links_of N s (a_selfloops o)) HS U Ho) as (l & E & LO).
  - intros i j K. apply in_links in K. tauto.
  - intros i j K. apply in_links in K. tauto.
  - exact LF.
  - exact I.
  - fold p in LO. destruct LO as [[_ ->] | [Z _]]; [|lra]. split; [exact E|]. split; [exact HP|].
    destruct HS as (Nd & Hx & Hy & _ & AP). unfold p, given, cond_weight.
    apply Rmult_le_reg_r with (1 := AP). unfold Rdiv. rewrite Rmult_assoc, Rinv_l, Rmult_1_r, Rmult_1_l by lra.
    unfold prob_aggregate at 1. unfold ensemble_mean.
    apply (suml_in_le _ (fun G => graph_weight N (a_selfloops o) (inv_prob (Fin d) x y) G * b2r (agrees (num_groups N g) g (macro_link adj) G))); [|exact HI].
    intros G _. apply Rmult_le_pos; [|destruct (agrees (num_groups N g) g (macro_link adj) G); simpl; lra].
    rewrite graph_weight_list. apply prodl_nonneg. intros e _. rewrite (inv_prob_pm (Fin d) x y Nd Hx Hy).
    pose proof (pm_range (Fin d) x y Nd Hx Hy (fst e, snd e)). destruct (mem e G); lra.
Qed.
Print Assumptions C103_likelihood.

(** Without self-loops, a group that has no link to any group, or from any group, makes the log-likelihood of the observed graph raise. *)
Lemma sink_loop : forall d x y N g sl (T : nat -> nat -> bool) (l : list (nat * nat)) like, nonneg d -> (forall i, 0 <= x i) -> (forall i, 0 <= y i) -> sl = false ->
  (forall c, In c l -> 0 < if T (fst c) (snd c) then 1 - empty_prob N sl (pm d x y) g c else empty_prob N sl (pm d x y) g c) ->
  (exists a, In (a, a) l /\ group_sum N g x a * group_sum N g y a = 0) ->
  agg_lik_loop d (F x) (F y) N g sl T l like = Raise ZeroDivisionError.
Proof.
  intros d x y N g sl T l; induction l as [|[a b] l IH]; intros like Hd Hx Hy Hsl HP (k & Hk & Z); [destruct Hk|]. cbn [agg_lik_loop].
  destruct (Nat.eq_dec a b) as [Eab | Nab], (Req_dec (group_sum N g x a * group_sum N g y a) 0) as [Za | Na].
  1: subst b; rewrite (z_block_raise x y N g sl a Hsl Za); reflexivity.
  all: assert (BD : block_defined N sl g x y (a, b)) by
    (intros _ Eq; cbn [fst snd] in *; try congruence; pose proof (group_sum_nonneg N g x Hx a); pose proof (group_sum_nonneg N g y Hy a); nra).
  all: destruct (z_block_spec x y N g sl Hx Hy a b BD) as (z & -> & Hz & Er); cbn [bind];
    destruct (aggregates_spec N g x y a) as (E1 & _ & _); destruct (aggregates_spec N g x y b) as (_ & E2 & _); rewrite E1, E2.
  all: assert (K1 : log_of (1 - empty_prob N sl (pm d x y) g (a, b)) (inv_logp d (Fin (group_sum N g x a)) (Fin (group_sum N g y b)) (Fin z))) by
    (rewrite (Q_survive d x y N g sl Hx Hy), <- Er, <- inv_survive; try assumption; try (apply group_sum_nonneg; assumption);
      apply inv_logp_spec; simpl; try assumption; apply group_sum_nonneg; assumption).
  all: assert (K2 : log_of (empty_prob N sl (pm d x y) g (a, b)) (inv_log1mp d (Fin (group_sum N g x a)) (Fin (group_sum N g y b)) (Fin z))) by
    (replace (empty_prob N sl (pm d x y) g (a, b)) with (1 - (1 - empty_prob N sl (pm d x y) g (a, b))) by ring;
      rewrite (Q_survive d x y N g sl Hx Hy), <- Er, <- inv_survive; try assumption; try (apply group_sum_nonneg; assumption);
      apply inv_log1mp_spec; simpl; try assumption; apply group_sum_nonneg; assumption).
  all: pose proof (HP (a, b) (or_introl eq_refl)) as V; cbn [fst snd] in V; set (tmp := if T a b then _ else _);
    assert (I : isinf tmp = false) by (unfold tmp; destruct (T a b); [destruct K1 as [[_ ->] | [C _]] | destruct K2 as [[_ ->] | [C _]]]; try reflexivity; lra);
    rewrite I; apply IH; try assumption; [intros c Hc; apply HP; right; exact Hc|]; exists k; (split; [|exact Z]);
    destruct Hk as [Hk | Hk]; [exfalso; injection Hk as -> ->; congruence | exact Hk].
Qed.

Theorem C103_sink : forall w N s g w' M t gr' d o a, library_graph w N s (Some (M, g)) -> library_graph w' M t gr' -> (1 <= N)%nat ->
  is_directed s = true -> layers s <> [] -> loops_counted N s false -> coarse N s g M t -> 0 < d ->
  a_param o = Some (Fin d) -> a_selfloops o = false ->
  (a < M)%nat -> ((forall b, (b < M)%nat -> GraphFacts.link t a b = 0) \/ (forall b, (b < M)%nat -> GraphFacts.link t b a = 0)) ->
  c_log_likelihood (strength_out w N s) (strength_in w N s) N g (macro_rows w' M t) (GGraph N s) o = Raise ZeroDivisionError.
Proof.
  intros w N s g w' M t gr' d o a H H' HN D L Lc C Hd Ho Hsl Ha Hsink. pose proof (library_valid _ _ _ _ H) as V. pose proof (library_valid _ _ _ _ H') as V'.
  destruct (coarse_setting w N s g w' M t gr' false d H H' HN Lc C Hd) as (PC & (Nd & Hx & Hy & Hadj & AP) & HI & _).
  destruct (library_partition _ _ _ _ _ H) as (P1 & _). pose proof (links_agree w' N s g M t false Lc P1 C) as Ag.
  set (x := strength_out w N s) in *. set (y := strength_in w N s) in *. set (adj := macro_rows w' M t) in *. set (G := links_of N s false) in *.
  assert (LF : link_form N (GGraph N s) G).
  { split; [reflexivity|]. split; [left; exists w, (Some (M, g)); exact H|]. split; [exact L|]. intros i j Hi Hj. unfold G. rewrite in_links. split.
    - intros [K | [K _]]; [|congruence]. split; [exact Hi|]. split; [exact Hj|]. split; [apply (counted_allowed N s false i j Lc Hi); lra | lra].
    - intros (_ & _ & _ & K). left. pose proof (link_nonneg _ _ _ i j V Hi). lra. }
  assert (HG : MultiLik.in_range N G) by (intros i j K; apply in_links in K; tauto).
  rewrite (argument_links (Fin d) x y N g adj o (GGraph N s) G Ho HG LF I), Hsl.
  assert (HV : forall a e, (a < num_groups N g)%nat -> In e (adj a) -> 0 < snd e) by (intros a' e Ha' He; rewrite PC in Ha'; apply (macro_rows_pos w' M t a' e V' Ha' He)).
  rewrite (cond_lik_cases (Fin d) x y N g adj false HV) by (intros [i j] K; apply (HG i j K)). rewrite PC, Ag. unfold agg_likelihood. rewrite max_group_num, PC.
  rewrite (sink_loop (Fin d) x y N g false (fun a b => blocks_linked g a b G) _ (Fin 0) Nd Hx Hy eq_refl); [reflexivity| |].
  - intros [b c] Hc. cbn [fst snd]. rewrite (pij_eq (Fin d) x y Nd Hx Hy) in AP. rewrite PC in AP.
    rewrite (prob_aggregate_all N false g (pm (Fin d) x y) M (macro_link adj) (B1 N g adj) (B0 N g adj)) in AP.
    + unfold agrees in Ag. rewrite forallb_forall in Ag. specialize (Ag _ Hc). apply Bool.eqb_prop in Ag. cbn [fst snd] in Ag. rewrite Ag.
      set (f := fun c => if macro_link adj (fst c) (snd c) then 1 - empty_prob N false (pm (Fin d) x y) g c else empty_prob N false (pm (Fin d) x y) g c) in AP.
      change (0 < f (b, c)). assert (F0 : 0 <= f (b, c)).
      { unfold f. pose proof (Q_range (Fin d) x y N g false Nd Hx Hy (b, c)). destruct (macro_link adj (fst (b, c)) (snd (b, c))); lra. }
      destruct (Req_dec (f (b, c)) 0) as [Z | Z]; [|lra]. exfalso. rewrite (prodl_zero _ f _ (b, c) Hc Z) in AP. lra.
    + rewrite <- PC. apply blocks_perm; assumption.
    + apply B1_linked.
    + apply B0_unlinked.
    + intros i Hi. apply P1. exact Hi.
  - exists a. split; [apply in_prod_iff; rewrite in_seq; lia|].
    assert (Z : forall i j, (i < N)%nat -> (j < N)%nat -> GraphFacts.link s i j <> 0 -> GraphFacts.link t (g i) (g j) <> 0).
    { intros i j Hi Hj K. apply (C (g i) (g j) (P1 i Hi) (P1 j Hj)). exists i, j. auto. }
    assert (Zw : forall i j, (i < N)%nat -> (j < N)%nat -> GraphFacts.link t (g i) (g j) = 0 -> weight w s i j = 0).
    { intros i j Hi Hj K. assert (E : GraphFacts.link s i j = 0) by (destruct (Req_dec (GraphFacts.link s i j) 0) as [E | E]; [exact E | exfalso; apply (Z i j Hi Hj E K)]).
      unfold weight. rewrite E. destruct w; [reflexivity | apply present_0]. }
    destruct Hsink as [S | S].
    + assert (E : group_sum N g x a = 0); [|rewrite E; ring]. apply sumn_zero. intros i Hi. destruct (Nat.eqb_spec (g i) a) as [E | ]; [|reflexivity].
      apply sumn_zero. intros j Hj. apply Zw; try assumption. rewrite E. apply S. apply P1, Hj.
    + assert (E : group_sum N g y a = 0); [|rewrite E; ring]. apply sumn_zero. intros j Hj. destruct (Nat.eqb_spec (g j) a) as [E | ]; [|reflexivity].
      apply sumn_zero. intros i Hi. apply Zw; try assumption. rewrite E. apply S. apply P1, Hi.
Qed.
Print Assumptions C103_sink.

(** ** The fit *)

Lemma sum_groups : forall N M g (f : nat -> R), (forall i, (i < N)%nat -> (g i < M)%nat) ->
  sumn N f = sumn M (fun a => sumn N (fun i => if Nat.eqb (g i) a then f i else 0)).
Proof.
  intros N M g f H. rewrite sumn_swap. apply sumn_ext. intros i Hi. rewrite (sumn_pick M (g i) (fun _ => f i)); [reflexivity | apply H, Hi].
Qed.

Lemma filter_count : forall (p : nat -> bool) M, INR (length (filter p (seq 0 M))) = sumn M (fun b => if p b then 1 else 0).
Proof.
  intros p M. induction M as [|M IH]; [reflexivity|]. rewrite seq_S, filter_app, app_length, plus_INR, IH. cbn [filter Nat.add sumn]. destruct (p M); reflexivity.
Qed.

Lemma macro_count : forall w N g M t, num_groups N g = M ->
  num_macro N g (macro_rows w M t) = sumn M (fun a => sumn M (fun b => present (GraphFacts.link t a b))).
Proof.
  intros w N g M t E. unfold num_macro. rewrite E. apply sumn_ext. intros a _. unfold macro_rows. rewrite map_length, filter_count. apply sumn_ext. intros b _.
  unfold present. destruct (Req_EM_T (GraphFacts.link t a b) 0) as [Z | Z], (Reqb_spec (GraphFacts.link t a b) 0); try contradiction; reflexivity.
Qed.

Lemma links_between : forall w N s g w' M t gr' sl, library_graph w N s (Some (M, g)) -> library_graph w' M t gr' -> (1 <= N)%nat ->
  loops_counted N s sl -> coarse N s g M t ->
  num_macro N g (macro_rows w' M t) <= links N s <= num_available N sl g (macro_rows w' M t) (strength_out w N s) (strength_in w N s).
Proof.
  intros w N s g w' M t gr' sl H H' HN Lc C. pose proof (library_valid _ _ _ _ H) as V.
  destruct (library_partition _ _ _ _ _ H) as (P1 & P2 & _). pose proof (partition_count N M g HN P1 P2) as PC.
  assert (P0 : forall z, 0 <= present z <= 1) by (intros z; unfold present; destruct (Req_EM_T z 0); lra). split.
  - rewrite (macro_count w' N g M t PC). unfold links.
    rewrite (sum_groups N M g _ P1). apply sumn_le. intros a Ha.
    assert (E : forall i, (if Nat.eqb (g i) a then sumn N (fun j => present (GraphFacts.link s i j)) else 0)
      = sumn M (fun b => if Nat.eqb (g i) a then sumn N (fun j => if Nat.eqb (g j) b then present (GraphFacts.link s i j) else 0) else 0)).
    { intros i. destruct (Nat.eqb (g i) a); [apply sum_groups; exact P1 | symmetry; apply sumn_zero; reflexivity]. }
    rewrite (sumn_ext N _ _ (fun i _ => E i)), sumn_swap. apply sumn_le. intros b Hb.
    destruct (Req_EM_T (GraphFacts.link t a b) 0) as [Z | Z].
    + rewrite Z, present_0. apply sumn_nonneg. intros i _. destruct (Nat.eqb (g i) a); [|lra]. apply sumn_nonneg. intros j _. destruct (Nat.eqb (g j) b); [apply P0 | lra].
    + apply (C a b Ha Hb) in Z. destruct Z as (i & j & Hi & Hj & Ea & Eb & K). apply Rle_trans with (present (GraphFacts.link s i j)).
      { assert (present (GraphFacts.link s i j) = 1) as -> by (unfold present; destruct (Req_EM_T (GraphFacts.link s i j) 0); [contradiction | reflexivity]). apply P0. }
      pose proof (sumn_ge_term N (fun j => if Nat.eqb (g j) b then present (GraphFacts.link s i j) else 0) j) as K1. cbv beta in K1. rewrite Eb, Nat.eqb_refl in K1.
      pose proof (sumn_ge_term N (fun i => if Nat.eqb (g i) a then sumn N (fun j => if Nat.eqb (g j) b then present (GraphFacts.link s i j) else 0) else 0) i) as K2.
      cbv beta in K2. rewrite Ea, Nat.eqb_refl in K2. eapply Rle_trans; [apply K1; [|exact Hj]|apply K2; [|exact Hi]].
      * intros k _. destruct (Nat.eqb (g k) b); [apply P0 | lra].
      * intros k _. destruct (Nat.eqb (g k) a); [|lra]. apply sumn_nonneg. intros k' _. destruct (Nat.eqb (g k') b); [apply P0 | lra].
  - unfold links, num_available, pair_sum. apply sumn_le; intros i Hi. apply sumn_le; intros j Hj. unfold present. destruct (Req_EM_T (GraphFacts.link s i j) 0) as [Z | Z].
    + destruct (allowed sl i j); [|lra]. destruct (_ && _); lra.
    + rewrite (counted_allowed N s sl i j Lc Hi Z). destruct (strengths_linked w N s i j V Hi Hj Z) as [S1 S2].
      assert (ML : macro_link (macro_rows w' M t) (g i) (g j) = true).
      { apply macro_rows_link. split; [apply P1, Hj|]. apply (C (g i) (g j) (P1 i Hi) (P1 j Hj)). exists i, j. auto. }
      rewrite ML. cbn [andb]. destruct (Rltb_spec 0 (strength_out w N s i * strength_in w N s j)) as [_ | F0]; [lra|].
      exfalso. apply F0. apply Rmult_lt_0_compat; assumption.
Qed.

(** The model of two such graphs is accepted and fitted without exception.  A fit marked converged at a positive parameter has on average,
    over the graphs that agree with the macro graph, the observed number of links up to the tolerance (and a term of 2e-12 per pair). *)
Theorem C103_fit : forall w N s g w' M t gr' kw sl x0 v at_ rho mi, library_graph w N s (Some (M, g)) -> library_graph w' M t gr' -> (1 <= N)%nat ->
  is_directed s = true -> is_directed t = true -> layers s <> [] -> layers t <> [] -> options kw sl -> loops_counted N s sl -> coarse N s g M t ->
  0 < at_ -> 0 <= rho -> (x0 = None \/ x0 = Some (Numeric [v])) -> nle (Fin 0) v ->
  exists o f, conditional_of N s (Some (M, g)) M t kw = Ok o /\ cond_fit_object o x0 Density (Fin at_) (Fin rho) mi = Some (Ok f) /\
    nle (Fin 0) (fitted_param f) /\ fitted_warned f = negb (sol_converged (fitted_sol f)) /\
    (forall d, fitted_param f = Fin d -> 0 < d -> sol_converged (fitted_sol f) = true ->
     Rabs (ensemble_mean N sl (given (Fin d) (strength_out w N s) (strength_in w N s) N g (macro_rows w' M t) sl) (g_edges N) - links N s)
       <= at_ + rho * links N s + INR N * INR N * (2 * / 10 ^ 12)).
Proof.
  intros w N s g w' M t gr' kw sl x0 v at_ rho mi H H' HN D D' L L' O Lc C Hat Hrho Hx0 Hv.
  exists (cond_observed w N s g w' M t sl). destruct (object_reads w N s g w' M t gr' sl H H') as (R1 & R2 & R3 & R4).
  destruct (coarse_setting w N s g w' M t gr' sl 1 H H' HN Lc C ltac:(lra)) as (PC & HS & _).
  pose proof (links_between w N s g w' M t gr' sl H H' HN Lc C) as LB. pose proof (links_nonneg N s) as LN.
  destruct (C80_total (strength_out w N s) (strength_in w N s) N g (macro_rows w' M t) sl (links N s) at_ rho mi x0 v HS LB Hat) as (f & Ef & Fx & Ep);
    [|exact Hx0|exact Hv|].
  { pose proof (Rmult_le_pos rho (links N s) Hrho LN). lra. }
  exists f. split; [|split].
  - rewrite (C103_accept w N s (Some (M, g)) w' M t gr' kw sl H H' O L L' HN), D, D', Nat.eqb_refl. reflexivity.
  - unfold cond_fit_object. rewrite R1, R2, R3, R4. cbn [cond_observed cs_base observed fs_selfloops fs_edges fs_vertices]. f_equal. exact Ef.
  - assert (W : forall d, fitted_param f = Fin d -> 0 <= d -> fitted_warned f = negb (sol_converged (fitted_sol f)) /\
      (sol_converged (fitted_sol f) = true -> exists e, cond_exp_edges (Fin d) (F (strength_out w N s)) (F (strength_in w N s)) N g (macro_rows w' M t) sl = Ok e /\
        Rabs (e - links N s) <= at_ + rho * links N s + INR N * INR N * (2 * / 10 ^ 12))).
    { intros d Ed Hd. apply (C69_converged _ _ _ _ _ _ _ x0 _ _ mi f d HS Ef Ed Hd). }
    assert (I : In (sol_x (fitted_sol f)) (sol_x_seq (fitted_sol f)) /\ fitted_warned f = negb (sol_converged (fitted_sol f))).
    { clear - Ef. unfold cond_fit in Ef. destruct (cond_f_jac (Fin 0) _ _ _ _ _ _); [|discriminate]. cbn [bind] in Ef. unfold fitness_fit, guard in Ef.
      destruct (Nat.eqb _ 1); [|discriminate]. destruct (match x0 with None => Numeric [Fin 0] | Some a => a end) as [l|n]; [|discriminate].
      destruct (negb (any_neg l)); [|discriminate]. match type of Ef with (do s <- ?m ; _) = _ => destruct m as [sol|ex] eqn:ES end; [|discriminate].
      cbn [bind] in Ef. injection Ef as <-. cbn [fitted_sol fitted_warned]. split; [|reflexivity].
      destruct (report_truthful _ _ _ _ _ _ _ _ _ _ _ ES) as (_ & _ & _ & _ & _ & _ & Ln & _ & _ & Hl & _). rewrite <- Hl. clear - Ln.
      destruct (sol_x_seq sol) as [|u q]; [discriminate|]. clear. revert u. induction q as [|z q IH]; intros u; [left; reflexivity|]. right. apply IH. }
    destruct I as [I1 I2]. split; [|split; [exact I2|]].
    + rewrite Ep. rewrite Forall_forall in Fx. apply Fx. exact I1.
    + intros d Ed Hd Hc. destruct (W d Ed ltac:(lra)) as [_ K]. destruct (K Hc) as (e & Ee & Be).
      destruct (coarse_setting w N s g w' M t gr' sl d H H' HN Lc C Hd) as (_ & HSd & _).
      rewrite (C68_edges _ _ _ _ _ _ _ HSd) in Ee. injection Ee as <-. exact Be.
Qed.
Print Assumptions C103_fit.

(** ** The samples *)

(** The samples of the fitted object have links exactly between the groups that the observed graph links; with the weights [wagg] the total
    weight between two groups is that of the macro graph. *)
Theorem C103_samples : forall w N s g w' M t gr' sl d us, library_graph w N s (Some (M, g)) -> library_graph w' M t gr' -> (1 <= N)%nat ->
  loops_counted N s sl -> coarse N s g M t -> 0 < d -> (forall u, In u us -> 0 <= u < 1) ->
  let x := strength_out w N s in let y := strength_in w N s in let adj := macro_rows w' M t in
  (forall r rest, run_draws (cond_binary_sample (Fin d) (F x) (F y) N g adj sl) us = Some (r, rest) -> exists G, r = Ok G /\ NoDup G /\
     forall a b, (a < M)%nat -> (b < M)%nat ->
       (blocks_linked g a b G = true <-> exists i j, (i < N)%nat /\ (j < N)%nat /\ g i = a /\ g j = b /\ GraphFacts.link s i j <> 0)) /\
  (forall r rest, run_draws (cond_wagg_sample (Fin d) (F x) (F y) N g adj sl x y) us = Some (r, rest) -> exists G, r = Ok G /\
     forall a b, (a < M)%nat -> (b < M)%nat -> block_weight g a b G = weight w' t a b).
Proof.
  intros w N s g w' M t gr' sl d us H H' HN Lc C Hd Hus x y adj.
  destruct (coarse_setting w N s g w' M t gr' sl d H H' HN Lc C Hd) as (PC & HS & _). fold x y adj in HS. split; intros r rest Hr.
  - destruct (C56_binary (Fin d) x y N g adj sl us r rest HS Hus Hr) as (G & E & ND & B & _). exists G. split; [exact E|]. split; [exact ND|].
    intros a b Ha Hb. rewrite B by (rewrite PC; assumption). unfold adj. rewrite macro_rows_link, (C a b Ha Hb). tauto.
  - pose proof HS as (Nd & Hx & Hy & _).
    destruct (C60_block_weights (Fin d) x y N g adj sl x y us r rest HS (default_able (Fin d) x y N Nd Hx Hy) Hus Hr) as (G & E & B1' & B0'). exists G. split; [exact E|].
    intros a b Ha Hb. rewrite PC in B1', B0'. destruct (Req_dec (GraphFacts.link t a b) 0) as [Z | Z].
    + rewrite B0'; [|exact Ha|exact Hb|].
      * unfold weight. rewrite Z. destruct w'; [reflexivity | symmetry; apply present_0].
      * destruct (macro_link adj a b) eqn:K; [|reflexivity]. apply macro_rows_link in K. destruct K; contradiction.
    + apply B1'; [exact Ha|]. unfold adj, macro_rows. apply in_map_iff. exists b. split; [reflexivity|]. apply filter_In. split; [apply in_seq; lia|].
      destruct (Reqb_spec (GraphFacts.link t a b) 0); [contradiction | reflexivity].
Qed.
Print Assumptions C103_samples.

(** ** The weights *)

(** The macro graph has as weight between two groups the total weight between their vertices. *)
Definition coarse_weights (N : nat) (s : shape) (g : nat -> nat) (M : nat) (t : shape) : Prop :=
  forall a b, (a < M)%nat -> (b < M)%nat ->
    GraphFacts.link t a b = sumn N (fun i => sumn N (fun j => if Nat.eqb (g i) a && Nat.eqb (g j) b then GraphFacts.link s i j else 0)).

Lemma weights_coarse : forall w N s g M t, valid w N s -> coarse_weights N s g M t -> coarse N s g M t.
Proof.
  intros w N s g M t V C a b Ha Hb. rewrite (C a b Ha Hb).
  set (f := fun i j => if Nat.eqb (g i) a && Nat.eqb (g j) b then GraphFacts.link s i j else 0).
  assert (P : forall i j, (i < N)%nat -> (j < N)%nat -> 0 <= f i j) by (intros i j Hi Hj; unfold f; destruct (_ && _); [apply (link_nonneg _ _ _ i j V Hi) | lra]).
  change (sumn N (fun i => sumn N (f i)) <> 0 <-> exists i j, (i < N)%nat /\ (j < N)%nat /\ g i = a /\ g j = b /\ GraphFacts.link s i j <> 0). split.
  - intros NZ. apply NNPP. intros No. apply NZ. apply sumn_zero. intros i Hi. apply sumn_zero. intros j Hj. unfold f.
    destruct (Nat.eqb_spec (g i) a) as [Ei | ]; [|reflexivity]. destruct (Nat.eqb_spec (g j) b) as [Ej | ]; [|reflexivity]. cbn [andb].
    apply NNPP. intros L. apply No. exists i, j. auto.
  - intros (i & j & Hi & Hj & Ei & Ej & L).
    pose proof (sumn_ge_term N (f i) j (fun k Hk => P i k Hi Hk) Hj) as K1.
    pose proof (sumn_ge_term N (fun i => sumn N (f i)) i (fun k Hk => sumn_nonneg N (f k) (fun k' Hk' => P k k' Hk Hk')) Hi) as K2. cbv beta in K2.
    assert (0 < f i j); [|lra]. unfold f. rewrite Ei, Ej, !Nat.eqb_refl. cbn [andb]. pose proof (link_nonneg _ _ _ i j V Hi). lra.
Qed.

Lemma rows_link : forall (ID G Lb : Type) li lg ll grouped sl dl (v : list (ID * G)) (e : list (erow ID Lb)) b s,
  total_order li -> total_order lg -> total_order ll -> graph_of li lg ll grouped sl dl true v e b s -> forall i j, (i < b_n b)%nat -> (j < b_n b)%nat ->
  GraphFacts.link s i j = suml (fun r => if Nat.eqb (mapped (dict_get li (b_ids b) (r_src r))) i && Nat.eqb (mapped (dict_get li (b_ids b) (r_dst r))) j then r_weight r else 0) e.
Proof.
  intros ID G Lb li lg ll grouped sl dl v e b s Oi Og Ol H i j Hi Hj.
  destruct (built_tables _ _ _ _ _ _ _ _ _ _ _ _ _ _ Oi Og Ol H) as [Hb _].
  destruct (read_tables_ok li lg Oi Og _ _ _ _ _ _ _ Hb) as (ND & (E1 & E2 & E3 & E4 & _) & Hl & Hn & _ & _ & _ & Hr & _).
  rewrite Hn, <- Hl in Hi, Hj. destruct (E3 i Hi) as (x & _ & Gx). destruct (E3 j Hj) as (y & _ & Gy).
  destruct (C05_links ID G Lb li lg ll grouped sl dl true v e b s Oi Og Ol H x y i j Gx Gy) as [_ W]. rewrite (W eq_refl), suml_filter.
  apply suml_ext. intros r Hin. destruct (Hr r Hin) as (I1 & I2 & _). apply E1 in I1 as (i' & Gi). apply E1 in I2 as (j' & Gj). rewrite Gi, Gj. cbn [mapped].
  assert (K : forall u z k k', dict_get li (b_ids b) u = Some k -> dict_get li (b_ids b) z = Some k' -> eq_key li u z = Nat.eqb k' k).
  { intros u z k k' Gu Gz. unfold eq_key. destruct Oi as (Tot & _ & An). destruct (Nat.eqb_spec k' k) as [-> | NE].
    - rewrite (E4 _ _ _ Gu Gz). destruct (Tot z z) as [-> | ->]; reflexivity.
    - destruct (li u z && li z u) eqn:A; [|reflexivity]. apply andb_prop in A as [A1 A2]. rewrite (An u z A1 A2) in Gu. congruence. }
  rewrite (K _ _ _ _ Gx Gi), (K _ _ _ _ Gy Gj). reflexivity.
Qed.

(** If the weights of the macro edges between two groups add up to those of the edges between their vertices, the macro graph has as weight
    between two groups the total weight between their vertices. *)
Theorem C103_weights : forall (ID G G' Lb Lb' : Type) li lg lg' ll ll' sl dl (v : list (ID * G)) (e : list (erow ID Lb)) b s
    grouped' sl' dl' (vm : list (G * G')) (em : list (erow G Lb')) b' t (grp : ID -> G),
  total_order li -> total_order lg -> total_order lg' -> total_order ll -> total_order ll' ->
  graph_of li lg ll true sl dl true v e b s -> graph_of lg lg' ll' grouped' sl' dl' true vm em b' t ->
  (forall c, In c (map fst vm) <-> In c (map snd v)) -> (forall x c, In (x, c) v -> c = grp x) ->
  (forall c c', suml r_weight (filter (fun r => eq_key lg c (r_src r) && eq_key lg c' (r_dst r)) em)
              = suml r_weight (filter (fun r => eq_key lg c (grp (r_src r)) && eq_key lg c' (grp (r_dst r))) e)) ->
  exists g, grouping_of b = Some (b_n b', g) /\ coarse (b_n b) s g (b_n b') t /\ coarse_weights (b_n b) s g (b_n b') t.
Proof.
  intros ID G G' Lb Lb' li lg lg' ll ll' sl dl v e b s grouped' sl' dl' vm em b' t grp Oi Og Og' Ol Ol' H H' Names Grp Sums.
  destruct (built_tables _ _ _ _ _ _ _ _ _ _ _ _ _ _ Oi Og Ol H) as [Hb _].
  destruct (built_tables _ _ _ _ _ _ _ _ _ _ _ _ _ _ Og Og' Ol' H') as [Hb' _].
  destruct (read_tables_ok li lg Oi Og _ _ _ _ _ _ _ Hb) as (ND & E & Hl & Hn & Hgr & _ & _ & Hr & _).
  destruct (read_tables_ok lg lg' Og Og' _ _ _ _ _ _ _ Hb') as (ND' & E' & Hl' & Hn' & _ & _ & _ & Hr' & _).
  assert (Kp : forall u z, eq_key lg u z = true <-> z = u).
  { intros u z. unfold eq_key. destruct Og as (Tot & _ & An). split.
    - intros K. apply andb_prop in K as [K1 K2]. symmetry. apply An; assumption.
    - intros ->. destruct (Tot u u) as [-> | ->]; reflexivity. }
  assert (Gv : forall x, In x (map fst v) -> In (x, grp x) v).
  { intros x Hx. apply in_map_iff in Hx as ([x' c] & Ex & Ix). cbn [fst] in Ex. subst x'. rewrite <- (Grp x c Ix). exact Ix. }
  assert (Pos : forall (T : Type) (p : T -> bool) (f : T -> R) l, (forall r, In r l -> 0 < f r) -> (0 < suml f (filter p l) <-> exists r, In r l /\ p r = true)).
  { intros T p f l Hp. split.
    - intros K. destruct (filter p l) as [|r q] eqn:Ef; [cbn in K; lra|]. exists r. apply filter_In. rewrite Ef. left. reflexivity.
    - intros (r & Hin & Ep). assert (In r (filter p l)) as I by (apply filter_In; auto).
      assert (P0 : forall q, (forall r, In r q -> 0 < f r) -> 0 <= suml f q) by (induction q as [|z q IH]; intros HH; cbn; [lra|]; pose proof (HH z (or_introl eq_refl)); specialize (IH (fun r Hr => HH r (or_intror Hr))); lra).
      assert (P1 : forall q, (forall r, In r q -> 0 < f r) -> In r q -> 0 < suml f q).
      { induction q as [|z q IH]; intros HH []; cbn; pose proof (HH z (or_introl eq_refl)); [pose proof (P0 q (fun r Hr => HH r (or_intror Hr))); lra | specialize (IH (fun r Hr => HH r (or_intror Hr)) ltac:(assumption)); lra]. }
      apply P1; [intros z Hz; apply filter_In in Hz as [Hz _]; auto | exact I]. }
  destruct (C103_tables _ _ _ _ _ _ _ _ _ _ _ _ _ _ _ _ _ _ _ _ _ _ _ _ _ Oi Og Og' Ol Ol' H H' Names) as (g & Eg & Ix & C).
  { intros c c'. specialize (Sums c c').
    pose proof (Pos _ (fun r => eq_key lg c (r_src r) && eq_key lg c' (r_dst r)) r_weight em (fun r Hin => proj2 (proj2 (Hr' r Hin)) eq_refl)) as Q1.
    pose proof (Pos _ (fun r => eq_key lg c (grp (r_src r)) && eq_key lg c' (grp (r_dst r))) r_weight e (fun r Hin => proj2 (proj2 (Hr r Hin)) eq_refl)) as Q2.
    rewrite Sums in Q1. split.
    - intros (r & Hin & <- & <-). destruct (proj1 Q2) as (r' & Hin' & K).
      { apply Q1. exists r. split; [exact Hin|]. rewrite !(proj2 (Kp _ _) eq_refl). reflexivity. }
      apply andb_prop in K as [K1 K2]. apply Kp in K1, K2. exists r'. split; [exact Hin'|]. rewrite <- K1, <- K2. destruct (Hr r' Hin') as (I1 & I2 & _). split; apply Gv; assumption.
    - intros (r & Hin & V1 & V2). rewrite (Grp _ _ V1), (Grp _ _ V2) in *. destruct (proj1 Q1) as (r' & Hin' & K).
      { apply Q2. exists r. split; [exact Hin|]. rewrite !(proj2 (Kp _ _) eq_refl). reflexivity. }
      apply andb_prop in K as [K1 K2]. apply Kp in K1, K2. exists r'. auto. }
  exists g. split; [exact Eg|]. split; [exact C|]. intros a c Ha Hc.
  rewrite Hn', <- Hl' in Ha, Hc. destruct E' as (E1' & E2' & E3' & E4' & _). destruct E as (E1 & E2 & _).
  destruct (E3' a Ha) as (na & Ina & Gna). destruct (E3' c Hc) as (nc & Inc & Gnc).
  destruct (C05_links G G' Lb' lg lg' ll' grouped' sl' dl' true vm em b' t Og Og' Ol' H' na nc a c Gna Gnc) as [_ W]. rewrite (W eq_refl), Sums, suml_filter.
  set (I := fun r : erow ID Lb => mapped (dict_get li (b_ids b) (r_src r))). set (J := fun r : erow ID Lb => mapped (dict_get li (b_ids b) (r_dst r))).
  transitivity (suml (fun r => sumn (b_n b) (fun i => sumn (b_n b) (fun j => if Nat.eqb (g i) a && Nat.eqb (g j) c then (if Nat.eqb (I r) i && Nat.eqb (J r) j then r_weight r else 0) else 0))) e).
  - apply suml_ext. intros r Hin. destruct (Hr r Hin) as (I1 & I2 & _).
    destruct (Ix _ _ (Gv _ I1)) as (i & Gi & Gci). destruct (Ix _ _ (Gv _ I2)) as (j & Gj & Gcj). unfold I, J. rewrite Gi, Gj. cbn [mapped].
    assert (Li : (i < b_n b)%nat) by (rewrite Hn, <- Hl; apply (E2 _ _ Gi)). assert (Lj : (j < b_n b)%nat) by (rewrite Hn, <- Hl; apply (E2 _ _ Gj)).
    rewrite (sumn_single (b_n b) i) by first [exact Li | intros k _ Nk; apply sumn_zero; intros k' _; destruct (Nat.eqb_spec i k); [congruence | cbn [andb]; destruct (_ && _); reflexivity]].
    rewrite (sumn_single (b_n b) j) by first [exact Lj | intros k _ Nk; destruct (Nat.eqb_spec j k); [congruence | rewrite andb_false_r; destruct (_ && _); reflexivity]].
    rewrite !Nat.eqb_refl. cbn [andb].
    assert (K : forall n k z u, dict_get lg (b_ids b') n = Some k -> dict_get lg (b_ids b') z = Some u -> eq_key lg n z = Nat.eqb u k).
    { intros n k z u G1 G2. destruct (Nat.eqb_spec u k) as [-> | NE].
      - apply Kp. apply (E4' _ _ _ G2 G1).
      - destruct (eq_key lg n z) eqn:A; [|reflexivity]. apply Kp in A. subst z. congruence. }
    rewrite (K _ _ _ _ Gna Gci), (K _ _ _ _ Gnc Gcj). reflexivity.
  - rewrite suml_sumn_swap. apply sumn_ext. intros i Hi. rewrite suml_sumn_swap. apply sumn_ext. intros j Hj.
    destruct (_ && _); [|apply suml_zero; reflexivity]. symmetry. apply (rows_link ID G Lb li lg ll true sl dl v e b s Oi Og Ol H i j Hi Hj).
Qed.
Print Assumptions C103_weights.

(** Then a weighted sample has between two groups the weight observed between them, whatever the draws, and every group keeps its total out- and
    in-strength. *)
Theorem C103_strengths : forall N s g M t gr' sl d us, library_graph true N s (Some (M, g)) -> library_graph true M t gr' -> (1 <= N)%nat ->
  loops_counted N s sl -> coarse_weights N s g M t -> 0 < d -> (forall u, In u us -> 0 <= u < 1) ->
  let x := strength_out true N s in let y := strength_in true N s in
  forall r rest, run_draws (cond_wagg_sample (Fin d) (F x) (F y) N g (macro_rows true M t) sl x y) us = Some (r, rest) -> exists G, r = Ok G /\
    (forall a b, (a < M)%nat -> (b < M)%nat -> block_weight g a b G =
       sumn N (fun i => sumn N (fun j => if Nat.eqb (g i) a && Nat.eqb (g j) b then GraphFacts.link s i j else 0))) /\
    (forall a, (a < M)%nat -> sumn M (fun b => block_weight g a b G) = sumn N (fun i => if Nat.eqb (g i) a then x i else 0)) /\
    (forall b, (b < M)%nat -> sumn M (fun a => block_weight g a b G) = sumn N (fun j => if Nat.eqb (g j) b then y j else 0)).
Proof.
  intros N s g M t gr' sl d us H H' HN Lc C Hd Hus x y r rest Hr. pose proof (library_valid _ _ _ _ H) as V.
  destruct (library_partition _ _ _ _ _ H) as (P1 & _).
  destruct (C103_samples true N s g true M t gr' sl d us H H' HN Lc (weights_coarse true N s g M t V C) Hd Hus) as [_ S2].
  destruct (S2 r rest Hr) as (G & E & B). exists G. split; [exact E|].
  assert (B' : forall a b, (a < M)%nat -> (b < M)%nat -> block_weight g a b G =
       sumn N (fun i => sumn N (fun j => if Nat.eqb (g i) a && Nat.eqb (g j) b then GraphFacts.link s i j else 0))) by (intros a b Ha Hb; rewrite (B a b Ha Hb); apply (C a b Ha Hb)).
  split; [exact B'|]. split.
  - intros a Ha. rewrite (sumn_ext M _ _ (fun b Hb => B' a b Ha Hb)), sumn_swap. apply sumn_ext. intros i Hi.
    destruct (Nat.eqb (g i) a) eqn:Ei; cbn [andb]; [|apply sumn_zero; intros b _; apply sumn_zero; intros j _; reflexivity].
    rewrite <- (sum_groups N M g (fun j => GraphFacts.link s i j) P1). reflexivity.
  - intros b Hb. rewrite (sumn_ext M _ _ (fun a Ha => B' a b Ha Hb)). unfold y, strength_in, weight.
    rewrite (sumn_ext M _ (fun a => sumn N (fun j => sumn N (fun i => if Nat.eqb (g i) a && Nat.eqb (g j) b then GraphFacts.link s i j else 0)))) by (intros a Ha; apply sumn_swap).
    rewrite sumn_swap. apply sumn_ext. intros j Hj. destruct (Nat.eqb (g j) b) eqn:Ej; [|apply sumn_zero; intros a _; apply sumn_zero; intros i _; rewrite andb_false_r; reflexivity].
    rewrite (sum_groups N M g (fun i => GraphFacts.link s i j) P1). apply sumn_ext. intros a _. apply sumn_ext. intros i _. rewrite andb_true_r. reflexivity.
Qed.
Print Assumptions C103_strengths.

(** * Concrete graphs *)

Lemma nat_graph : forall grouped (v : list (nat * nat)) (e : list (erow nat nat)) N l, NoDup (map fst v) -> N = length v ->
  (forall r, In r e -> In (r_src r) (map fst v) /\ In (r_dst r) (map fst v) /\ 0 < r_weight r) ->
  inner Nat.leb (enum_of Nat.leb (map fst v)) true e = l ->
  exists b, graph_of Nat.leb Nat.leb Nat.leb grouped false false true v e b (small_graph N l) /\ b_n b = N /\ b_ids b = enum_of Nat.leb (map fst v) /\
    (grouped = false -> grouping_of b = None).
Proof.
  intros grouped v e N l ND -> HE HI. destruct (build Nat.leb Nat.leb nat_order nat_order grouped false true v e ND) as (gr & H & Hg).
  { intros r Hr. destruct (HE r Hr) as (A & B & C). auto. }
  rewrite HI in H. exists (mkBase (length v) (enum_of Nat.leb (map fst v)) gr true l). split; [|split; [reflexivity | split; [reflexivity|]]].
  - apply of_digraph. unfold sparse_graph. rewrite H. reflexivity.
  - intros ->. cbn in Hg. unfold grouping_of. cbn [b_groups]. rewrite Hg. reflexivity.
Qed.

(** Three vertices in the groups 7, 5 and 7, and the graph of the groups. *)
Definition tri_v : list (nat * nat) := [(10, 7); (20, 5); (30, 7)]%nat.
Definition tri_e : list (erow nat nat) := [mkRow 10%nat 20%nat 2 0%nat; mkRow 20%nat 30%nat 1 0%nat; mkRow 10%nat 30%nat 3 0%nat].
Definition duo_v : list (nat * nat) := [(7, 0); (5, 0)]%nat.
Definition duo_e : list (erow nat nat) := [mkRow 7%nat 5%nat 2 0%nat; mkRow 5%nat 7%nat 1 0%nat; mkRow 7%nat 7%nat 3 0%nat].
Definition tri : shape := small_graph 3 [(0%nat, 1%nat, 2); (1%nat, 2%nat, 1); (0%nat, 2%nat, 3)].
Definition duo : shape := small_graph 2 [(1%nat, 0%nat, 2); (0%nat, 1%nat, 1); (1%nat, 1%nat, 3)].

Ltac nodup := repeat (constructor; [cbn; intuition lia|]); constructor.
Ltac rows := let r := fresh in let Hr := fresh in intros r Hr; cbn in Hr; intuition (subst; cbn; try lia; try lra).

Lemma tri_tables : exists b b', graph_of Nat.leb Nat.leb Nat.leb true false false true tri_v tri_e b tri /\
  graph_of Nat.leb Nat.leb Nat.leb false false false true duo_v duo_e b' duo /\ b_n b = 3%nat /\ b_n b' = 2%nat /\ grouping_of b' = None /\
  b_ids b = enum_of Nat.leb (map fst tri_v) /\ b_ids b' = enum_of Nat.leb (map fst duo_v).
Proof.
  destruct (nat_graph true tri_v tri_e 3 _ ltac:(nodup) eq_refl ltac:(rows) eq_refl) as (b & H & Hn & Hi & _).
  destruct (nat_graph false duo_v duo_e 2 _ ltac:(nodup) eq_refl ltac:(rows) eq_refl) as (b' & H' & Hn' & Hi' & Hg').
  exists b, b'. split; [exact H|]. split; [exact H'|]. auto.
Qed.

(** These tables satisfy the hypotheses of C103_tables. *)
Example C103_tables_case : (forall c, In c (map fst duo_v) <-> In c (map snd tri_v)) /\
  (forall c c', (exists r, In r duo_e /\ r_src r = c /\ r_dst r = c') <-> (exists r, In r tri_e /\ In (r_src r, c) tri_v /\ In (r_dst r, c') tri_v)) /\
  exists b b', graph_of Nat.leb Nat.leb Nat.leb true false false true tri_v tri_e b tri /\ graph_of Nat.leb Nat.leb Nat.leb false false false true duo_v duo_e b' duo.
Proof.
  split; [intros c; cbn; intuition congruence|]. split.
  - intros c c'. split.
    + intros (r & Hr & <- & <-). cbn in Hr. destruct Hr as [<- | [<- | [<- | []]]]; cbn.
      * exists (mkRow 10%nat 20%nat 2 0%nat). cbn. auto 10.
      * exists (mkRow 20%nat 30%nat 1 0%nat). cbn. auto 10.
      * exists (mkRow 10%nat 30%nat 3 0%nat). cbn. auto 10.
    + intros (r & Hr & K1 & K2). cbn in Hr. destruct Hr as [<- | [<- | [<- | []]]]; cbn in K1, K2;
        destruct K1 as [K1 | [K1 | [K1 | []]]]; try discriminate K1; injection K1 as <-; destruct K2 as [K2 | [K2 | [K2 | []]]]; try discriminate K2; injection K2 as <-.
      * exists (mkRow 7%nat 5%nat 2 0%nat). cbn. auto 10.
      * exists (mkRow 5%nat 7%nat 1 0%nat). cbn. auto 10.
      * exists (mkRow 7%nat 7%nat 3 0%nat). cbn. auto 10.
  - destruct tri_tables as (b & b' & H & H' & _). exists b, b'. auto.
Qed.

(** The groups are numbered 1, 0, 1. *)
Lemma tri_library : exists g, library_graph true 3 tri (Some (2%nat, g)) /\ library_graph true 2 duo None /\ g 0%nat = 1%nat /\ g 1%nat = 0%nat /\ g 2%nat = 1%nat /\
  coarse 3 tri g 2 duo.
Proof.
  destruct tri_tables as (b & b' & H & H' & Hn & Hn' & Hg' & Hi & Hi'). destruct C103_tables_case as (Nm & Rw & _).
  destruct (C103_tables _ _ _ _ _ _ _ _ _ _ _ _ _ _ _ _ _ _ _ _ _ _ _ _ _ nat_order nat_order nat_order nat_order nat_order H H' Nm Rw) as (g & Eg & Ix & C).
  rewrite Hn' in Eg. exists g. split; [|split; [|split; [|split; [|split]]]].
  - eapply (built true 3 tri _ nat nat nat); [exact nat_order|exact nat_order|exact nat_order|exact H|symmetry; exact Hn|symmetry; exact Eg].
  - eapply (built true 2 duo _ nat nat nat); [exact nat_order|exact nat_order|exact nat_order|exact H'|symmetry; exact Hn'|symmetry; exact Hg'].
  - destruct (Ix 10%nat 7%nat) as (i & Gi & Gc); [cbn; auto|]. rewrite Hi in Gi. rewrite Hi' in Gc. cbn in Gi, Gc. congruence.
  - destruct (Ix 20%nat 5%nat) as (i & Gi & Gc); [cbn; auto|]. rewrite Hi in Gi. rewrite Hi' in Gc. cbn in Gi, Gc. congruence.
  - destruct (Ix 30%nat 7%nat) as (i & Gi & Gc); [cbn; auto|]. rewrite Hi in Gi. rewrite Hi' in Gc. cbn in Gi, Gc. congruence.
  - rewrite Hn, Hn' in C. exact C.
Qed.

(** The hypotheses of the other theorems, with the object that is built. *)
Example C103_case : exists g, library_graph true 3 tri (Some (2%nat, g)) /\ library_graph true 2 duo None /\ coarse 3 tri g 2 duo /\
  loops_counted 3 tri false /\ groups_linked 2 duo /\ options [] false /\ links 3 tri = 3 /\ links 2 duo = 3 /\
  conditional_of 3 tri (Some (2%nat, g)) 2 duo [] = Ok
    {| cs_base := {| fs_vertices := 3; fs_out := [Fin 5; Fin 1; Fin 0]; fs_in := [Fin 0; Fin 2; Fin 4]; fs_selfloops := Sc (SBool false);
         fs_edges := Some (Sc (SFloat (Fin 3))); fs_param := None |};
       cs_groups := Arr DInt [3%nat] [Fin 1; Fin 0; Fin 1]; cs_num_groups := 2; cs_adj_cols := 2;
       cs_adj := [[(1%nat, Fin 1)]; [(0%nat, Fin 2); (1%nat, Fin 3)]] |}.
Proof.
  destruct tri_library as (g & H & H' & G0 & G1 & G2 & C). exists g. split; [exact H|]. split; [exact H'|]. split; [exact C|].
  assert (Lc : loops_counted 3 tri false).
  { right. intros i Hi. unfold tri. rewrite small_link by exact Hi. destruct i as [|[|[|i]]]; try lia; cbn; lra. }
  assert (T3 : links 3 tri = 3).
  { unfold links, tri. cbn [sumn]. rewrite !small_link by lia. cbn. rewrite !Rplus_0_r, !Rplus_0_l, !present_0, !present_pos by lra. lra. }
  split; [exact Lc|]. split; [|split; [left; auto|split; [exact T3|split]]].
  - intros [|[|a]] Ha; [| |lia]; (split; [exists 1%nat | exists (if Nat.eqb 1 0 then 0%nat else 1%nat)]); cbn [Nat.eqb]; try (split; [lia|]; unfold duo; rewrite small_link by lia; cbn; lra).
  - unfold links, duo. cbn [sumn]. rewrite !small_link by lia. cbn. rewrite !Rplus_0_r, !Rplus_0_l, !present_0, !present_pos by lra. lra.
  - rewrite (C103_accept true 3 tri (Some (2%nat, g)) true 2 duo None [] false H H' (or_introl (conj eq_refl eq_refl)) ltac:(discriminate) ltac:(discriminate) ltac:(lia)).
    cbn [is_directed tri duo small_graph andb Nat.eqb]. unfold cond_observed, observed. fold tri duo. rewrite T3. cbn [seq map]. rewrite G0, G1, G2.
    assert (D00 : GraphFacts.link duo 0 0 = 0) by (unfold duo; rewrite small_link by lia; cbn; lra).
    assert (D01 : GraphFacts.link duo 0 1 = 1) by (unfold duo; rewrite small_link by lia; cbn; lra).
    assert (D10 : GraphFacts.link duo 1 0 = 2) by (unfold duo; rewrite small_link by lia; cbn; lra).
    assert (D11 : GraphFacts.link duo 1 1 = 3) by (unfold duo; rewrite small_link by lia; cbn; lra).
    assert (Z0 : Reqb 0 0 = true) by (destruct (Reqb_spec 0 0); [reflexivity | lra]). assert (Z1 : Reqb 1 0 = false) by (destruct (Reqb_spec 1 0); [lra | reflexivity]).
    assert (Z2 : Reqb 2 0 = false) by (destruct (Reqb_spec 2 0); [lra | reflexivity]). assert (Z3 : Reqb 3 0 = false) by (destruct (Reqb_spec 3 0); [lra | reflexivity]).
    unfold macro_rows, weight. cbn [seq filter]. rewrite D00, D01, D10, D11, Z0, Z1, Z2, Z3. cbn [negb map fst snd]. rewrite D01, D10, D11.
    unfold strength_out, strength_in, weight. cbn [sumn]. unfold tri. rewrite !small_link by lia. unfold Graphs.hits. cbn [suml fst snd Nat.eqb andb].
    cbn [INR]. repeat f_equal; lra.
Qed.

(** And those of C103_weights, and so of C103_strengths. *)
Example C103_weights_case : exists grp, (forall x c, In (x, c) tri_v -> c = grp x) /\
  (forall c c', suml r_weight (filter (fun r => eq_key Nat.leb c (r_src r) && eq_key Nat.leb c' (r_dst r)) duo_e)
              = suml r_weight (filter (fun r => eq_key Nat.leb c (grp (r_src r)) && eq_key Nat.leb c' (grp (r_dst r))) tri_e)) /\
  exists g, library_graph true 3 tri (Some (2%nat, g)) /\ library_graph true 2 duo None /\ coarse_weights 3 tri g 2 duo /\ GraphFacts.link duo 1 1 = 3.
Proof.
  exists (fun x => if Nat.eqb x 20 then 5 else 7)%nat.
  assert (G : forall x c, In (x, c) tri_v -> c = if Nat.eqb x 20 then 5%nat else 7%nat).
  { intros x c K. cbn in K. destruct K as [K | [K | [K | []]]]; injection K as <- <-; reflexivity. }
  assert (Q : forall c c', suml r_weight (filter (fun r => eq_key Nat.leb c (r_src r) && eq_key Nat.leb c' (r_dst r)) duo_e)
     = suml r_weight (filter (fun r => eq_key Nat.leb c (if Nat.eqb (r_src r) 20 then 5%nat else 7%nat) && eq_key Nat.leb c' (if Nat.eqb (r_dst r) 20 then 5%nat else 7%nat)) tri_e)).
  { intros c c'. rewrite !suml_filter. cbn [duo_e tri_e suml r_src r_dst r_weight Nat.eqb]. reflexivity. }
  split; [exact G|]. split; [exact Q|].
  destruct tri_tables as (b & b' & H & H' & Hn & Hn' & Hg' & _ & _).
  destruct (C103_weights _ _ _ _ _ _ _ _ _ _ _ _ _ _ _ _ _ _ _ _ _ _ _ _ nat_order nat_order nat_order nat_order nat_order H H' ltac:(intros c; cbn; intuition congruence) G Q) as (g & Eg & C & W).
  rewrite Hn' in Eg. rewrite Hn, Hn' in W. exists g. split; [|split; [|split; [exact W|]]].
  - eapply (built true 3 tri _ nat nat nat); [exact nat_order|exact nat_order|exact nat_order|exact H|symmetry; exact Hn|symmetry; exact Eg].
  - eapply (built true 2 duo _ nat nat nat); [exact nat_order|exact nat_order|exact nat_order|exact H'|symmetry; exact Hn'|symmetry; exact Hg'].
  - unfold duo. rewrite small_link by lia. cbn. lra.
Qed.

(** ** Findings *)

(** Two vertices in groups of their own. *)
Definition pair_v : list (nat * nat) := [(10, 7); (20, 5)]%nat.
Definition pair_e : list (erow nat nat) := [mkRow 10%nat 20%nat 1 0%nat].

(** A group that is only pointed to, in a graph without self-loops: the graph and the macro graph are accepted, the observed graph has
    positive probability given the macro graph, and its log-likelihood raises. *)
Theorem C103_sink_refuted : exists w N s g w' M t gr' o d, library_graph w N s (Some (M, g)) /\ library_graph w' M t gr' /\ coarse N s g M t /\
  loops_counted N s false /\ conditional_of N s (Some (M, g)) M t [] = Ok (cond_observed w N s g w' M t false) /\
  a_param o = Some (Fin d) /\ a_selfloops o = false /\ 0 < d /\
  0 < given (Fin d) (strength_out w N s) (strength_in w N s) N g (macro_rows w' M t) false (links_of N s false) /\
  c_log_likelihood (strength_out w N s) (strength_in w N s) N g (macro_rows w' M t) (GGraph N s) o = Raise ZeroDivisionError.
Proof.
  set (ve := [(7, 0); (5, 0)]%nat : list (nat * nat)). set (ee := [mkRow 7%nat 5%nat 1 0%nat] : list (erow nat nat)).
  destruct (nat_graph true pair_v pair_e 2 _ ltac:(nodup) eq_refl ltac:(rows) eq_refl) as (b & H & Hn & Hi & _).
  destruct (nat_graph false ve ee 2 _ ltac:(nodup) eq_refl ltac:(rows) eq_refl) as (b' & H' & Hn' & Hi' & Hg').
  cbn in H, H'. set (s := small_graph 2 [(0%nat, 1%nat, 1)]) in H. set (t := small_graph 2 [(1%nat, 0%nat, 1)]) in H'.
  destruct (C103_tables _ _ _ _ _ _ _ _ _ _ _ _ _ _ _ _ _ _ _ _ _ _ _ _ _ nat_order nat_order nat_order nat_order nat_order H H') as (g & Eg & Ix & C).
  { intros c. cbn. intuition congruence. }
  { intros c c'. split.
    - intros (r & [<- | []] & <- & <-). exists (mkRow 10%nat 20%nat 1 0%nat). cbn. auto 10.
    - intros (r & [<- | []] & K1 & K2). cbn in K1, K2. destruct K1 as [K1 | [K1 | []]]; try discriminate K1; injection K1 as <-;
        destruct K2 as [K2 | [K2 | []]]; try discriminate K2; injection K2 as <-. exists (mkRow 7%nat 5%nat 1 0%nat). cbn. auto 10. }
  rewrite Hn' in Eg. rewrite Hn, Hn' in C.
  assert (LH : library_graph true 2 s (Some (2%nat, g))) by
    (eapply (built true 2 s _ nat nat nat); [exact nat_order|exact nat_order|exact nat_order|exact H|symmetry; exact Hn|symmetry; exact Eg]).
  assert (LT : library_graph true 2 t None) by
    (eapply (built true 2 t _ nat nat nat); [exact nat_order|exact nat_order|exact nat_order|exact H'|symmetry; exact Hn'|symmetry; exact (Hg' eq_refl)]).
  assert (Lc : loops_counted 2 s false) by (right; intros [|[|i]] Hi0; try lia; unfold s; rewrite small_link by lia; cbn; lra).
  exists true, 2%nat, s, g, true, 2%nat, t, None, (new_ens (Some (Fin 1)) false), 1.
  split; [exact LH|]. split; [exact LT|]. split; [exact C|]. split; [exact Lc|]. split.
  { rewrite (C103_accept true 2 s (Some (2%nat, g)) true 2 t None [] false LH LT (or_introl (conj eq_refl eq_refl)) ltac:(discriminate) ltac:(discriminate) ltac:(lia)). reflexivity. }
  split; [reflexivity|]. split; [reflexivity|]. split; [lra|]. split.
  - apply (coarse_setting true 2 s g true 2 t None false 1 LH LT ltac:(lia) Lc C ltac:(lra)).
  - apply (C103_sink true 2 s g true 2 t None 1 (new_ens (Some (Fin 1)) false) 0 LH LT ltac:(lia) eq_refl ltac:(discriminate) Lc C ltac:(lra) eq_refl eq_refl ltac:(lia)).
    left. intros [|[|k]] Hk; try lia; unfold t; rewrite small_link by lia; cbn; lra.
Qed.
Print Assumptions C103_sink_refuted.

(** Groups and vertices of the macro graph are matched by position, not by name.  A macro graph whose vertices are named after the groups, by
    a renaming that does not keep their order, is accepted, and then the observed graph is impossible. *)
Theorem C103_names_refuted : exists (v : list (nat * nat)) (e : list (erow nat nat)) b s (vm : list (nat * nat)) (em : list (erow nat nat)) b' t name o g,
  graph_of Nat.leb Nat.leb Nat.leb true false false true v e b s /\ graph_of Nat.leb Nat.leb Nat.leb false false false true vm em b' t /\
  (forall c c', In c (map snd v) -> In c' (map snd v) -> name c = name c' -> c = c') /\
  (forall n, In n (map fst vm) <-> exists c, In c (map snd v) /\ n = name c) /\
  (forall c c', In c (map snd v) -> In c' (map snd v) ->
     ((exists r, In r em /\ r_src r = name c /\ r_dst r = name c') <-> (exists r, In r e /\ In (r_src r, c) v /\ In (r_dst r, c') v))) /\
  conditional_of (b_n b) s (grouping_of b) (b_n b') t [] = Ok o /\ co_groups o = Some g /\
  forall d, 0 < d -> c_log_likelihood (fun i => toR (co_out o i)) (fun i => toR (co_in o i)) (b_n b) g (co_adj o) (GGraph (b_n b) s) (new_ens (Some (Fin d)) false) = Ok NInf.
Proof.
  set (ve := [(1, 0); (5, 0)]%nat : list (nat * nat)). set (ee := [mkRow 1%nat 5%nat 1 0%nat] : list (erow nat nat)).
  set (name := fun c => (15 - 2 * c)%nat).
  destruct (nat_graph true pair_v pair_e 2 _ ltac:(nodup) eq_refl ltac:(rows) eq_refl) as (b & H & Hn & Hi & _).
  destruct (nat_graph false ve ee 2 _ ltac:(nodup) eq_refl ltac:(rows) eq_refl) as (b' & H' & Hn' & Hi' & Hg').
  cbn in H, H'. set (s := small_graph 2 [(0%nat, 1%nat, 1)]) in H, H'.
  (* the groups, from a macro graph named as the groups are *)
  destruct (nat_graph false [(7, 0); (5, 0)]%nat [mkRow 7%nat 5%nat 1 0%nat] 2 _ ltac:(nodup) eq_refl ltac:(rows) eq_refl) as (b2 & H2 & Hn2 & Hi2 & _).
  destruct (C103_tables _ _ _ _ _ _ _ _ _ _ _ _ _ _ _ _ _ _ _ _ _ _ _ _ _ nat_order nat_order nat_order nat_order nat_order H H2) as (g & Eg & Ix & _).
  { intros c. cbn. intuition congruence. }
  { intros c c'. split.
    - intros (r & [<- | []] & <- & <-). exists (mkRow 10%nat 20%nat 1 0%nat). cbn. auto 10.
    - intros (r & [<- | []] & K1 & K2). cbn in K1, K2. destruct K1 as [K1 | [K1 | []]]; try discriminate K1; injection K1 as <-;
        destruct K2 as [K2 | [K2 | []]]; try discriminate K2; injection K2 as <-. exists (mkRow 7%nat 5%nat 1 0%nat). cbn. auto 10. }
  assert (G0 : g 0%nat = 1%nat) by (destruct (Ix 10%nat 7%nat) as (i & Gi & Gc); [cbn; auto|]; rewrite Hi in Gi; rewrite Hi2 in Gc; cbn in Gi, Gc; congruence).
  assert (G1 : g 1%nat = 0%nat) by (destruct (Ix 20%nat 5%nat) as (i & Gi & Gc); [cbn; auto|]; rewrite Hi in Gi; rewrite Hi2 in Gc; cbn in Gi, Gc; congruence).
  rewrite Hn2 in Eg.
  assert (LH : library_graph true 2 s (Some (2%nat, g))) by
    (eapply (built true 2 s _ nat nat nat); [exact nat_order|exact nat_order|exact nat_order|exact H|symmetry; exact Hn|symmetry; exact Eg]).
  assert (LT : library_graph true 2 s None) by
    (eapply (built true 2 s _ nat nat nat); [exact nat_order|exact nat_order|exact nat_order|exact H'|symmetry; exact Hn'|symmetry; exact (Hg' eq_refl)]).
  destruct (object_reads true 2 s g true 2 s None false LH LT) as (R1 & R2 & R3 & R4).
  exists pair_v, pair_e, b, s, ve, ee, b', s, name, (cond_observed true 2 s g true 2 s false), g.
  split; [exact H|]. split; [exact H'|]. split; [|split; [|split; [|split; [|split; [exact R3|]]]]].
  - intros c c' Hc Hc'. cbn in Hc, Hc'. destruct Hc as [<- | [<- | []]], Hc' as [<- | [<- | []]]; cbn; congruence.
  - intros n. cbn. split.
    + intros [<- | [<- | []]]; [exists 7%nat | exists 5%nat]; auto.
    + intros (c & [<- | [<- | []]] & ->); cbn; auto.
  - intros c c' Hc Hc'. cbn in Hc, Hc'. split.
    + intros (r & [<- | []] & E1 & E2). cbn in E1, E2. destruct Hc as [<- | [<- | []]]; try discriminate E1; destruct Hc' as [<- | [<- | []]]; try discriminate E2.
      exists (mkRow 10%nat 20%nat 1 0%nat). cbn. auto 10.
    + intros (r & [<- | []] & K1 & K2). cbn in K1, K2. destruct K1 as [K1 | [K1 | []]]; try discriminate K1; injection K1 as <-;
        destruct K2 as [K2 | [K2 | []]]; try discriminate K2; injection K2 as <-. exists (mkRow 1%nat 5%nat 1 0%nat). cbn. auto 10.
  - rewrite Hn, Hn', Eg. rewrite (C103_accept true 2 s (Some (2%nat, g)) true 2 s None [] false LH LT (or_introl (conj eq_refl eq_refl)) ltac:(discriminate) ltac:(discriminate) ltac:(lia)). reflexivity.
  - intros d Hd. rewrite Hn, R1, R2, R4. cbn [toR].
    destruct (library_partition _ _ _ _ _ LH) as (P1 & P2 & _). pose proof (partition_count 2 2 g ltac:(lia) P1 P2) as PC.
    assert (L01 : GraphFacts.link s 0 1 = 1) by (unfold s; rewrite small_link by lia; cbn; lra).
    assert (LZ : forall i j, (i < 2)%nat -> (j < 2)%nat -> ~ (i = 0 /\ j = 1)%nat -> GraphFacts.link s i j = 0).
    { intros i j Hi0 Hj Hne. unfold s. rewrite small_link by lia. destruct i as [|[|i]], j as [|[|j]]; try lia; cbn; lra. }
    apply (C95_incompatible (Fin d) (strength_out true 2 s) (strength_in true 2 s) 2 g (macro_rows true 2 s) _ (GGraph 2 s) [(0, 1)]%nat 1 0).
    + reflexivity.
    + simpl. lra.
    + intros i. apply (strength_all true 2 s _ i LH).
    + intros i. apply (strength_all true 2 s _ i LH).
    + rewrite PC. apply macro_rows_graph.
    + intros a ed Ha He. rewrite PC in Ha. apply (macro_rows_pos true 2 s a ed (library_valid _ _ _ _ LT) Ha He).
    + intros i j [K | []]. injection K as <- <-. lia.
    + split; [reflexivity|]. split; [left; exists true, None; exact LT|]. split; [discriminate|]. intros i j Hi0 Hj. split.
      * intros [K | [K _]]; [|discriminate]. destruct (Nat.eq_dec i 0) as [-> | N1], (Nat.eq_dec j 1) as [-> | N2]; [left; reflexivity| | |];
          rewrite LZ in K by (try lia; tauto); lra.
      * intros [K | []]. injection K as <- <-. left. rewrite L01. lra.
    + exact I.
    + rewrite PC. lia.
    + rewrite PC. lia.
    + cbn [blocks_linked existsb fst snd]. rewrite G0, G1. cbn [Nat.eqb andb orb]. destruct (macro_link (macro_rows true 2 s) 1 0) eqn:K; [|discriminate].
      exfalso. apply macro_rows_link in K as [_ K]. apply K. apply LZ; lia.
Qed.
Print Assumptions C103_names_refuted.

(** A self-loop of a vertex that is alone in its group, with the self-loops left out as they are by default: both graphs are accepted and the
    samples miss a link of the macro graph. *)
Theorem C103_loop_refuted : exists w N s g w' M t gr' G, library_graph w N s (Some (M, g)) /\ library_graph w' M t gr' /\ coarse N s g M t /\
  GraphFacts.link t 0 0 <> 0 /\ conditional_of N s (Some (M, g)) M t [] = Ok (cond_observed w N s g w' M t false) /\
  cond_binary_sample (Fin 1) (F (strength_out w N s)) (F (strength_in w N s)) N g (macro_rows w' M t) false = Ret (Ok G) /\ blocks_linked g 0 0 G = false.
Proof.
  destruct (nat_graph true [(10, 7)]%nat [mkRow 10%nat 10%nat 1 0%nat] 1 _ ltac:(nodup) eq_refl ltac:(rows) eq_refl) as (b & H & Hn & Hi & _).
  destruct (nat_graph false [(7, 0)]%nat [mkRow 7%nat 7%nat 1 0%nat] 1 _ ltac:(nodup) eq_refl ltac:(rows) eq_refl) as (b' & H' & Hn' & Hi' & Hg').
  cbn in H, H'. set (s := small_graph 1 [(0%nat, 0%nat, 1)]) in H, H'.
  destruct (C103_tables _ _ _ _ _ _ _ _ _ _ _ _ _ _ _ _ _ _ _ _ _ _ _ _ _ nat_order nat_order nat_order nat_order nat_order H H') as (g & Eg & Ix & C).
  { intros c. cbn. intuition congruence. }
  { intros c c'. split.
    - intros (r & [<- | []] & <- & <-). exists (mkRow 10%nat 10%nat 1 0%nat). cbn. auto 10.
    - intros (r & [<- | []] & K1 & K2). cbn in K1, K2. destruct K1 as [K1 | []]; injection K1 as <-; destruct K2 as [K2 | []]; injection K2 as <-.
      exists (mkRow 7%nat 7%nat 1 0%nat). cbn. auto 10. }
  rewrite Hn' in Eg. rewrite Hn, Hn' in C.
  assert (LH : library_graph true 1 s (Some (1%nat, g))) by
    (eapply (built true 1 s _ nat nat nat); [exact nat_order|exact nat_order|exact nat_order|exact H|symmetry; exact Hn|symmetry; exact Eg]).
  assert (LT : library_graph true 1 s None) by
    (eapply (built true 1 s _ nat nat nat); [exact nat_order|exact nat_order|exact nat_order|exact H'|symmetry; exact Hn'|symmetry; exact (Hg' eq_refl)]).
  assert (L00 : GraphFacts.link s 0 0 = 1) by (unfold s; rewrite small_link by lia; cbn; lra).
  destruct (library_partition _ _ _ _ _ LH) as (P1 & P2 & P3). assert (Eg0 : g = fun _ => 0%nat).
  { apply functional_extensionality. intros [|i]; [specialize (P1 0%nat ltac:(lia)); lia | apply P3; lia]. }
  exists true, 1%nat, s, g, true, 1%nat, s, None, [].
  split; [exact LH|]. split; [exact LT|]. split; [exact C|]. split; [rewrite L00; lra|]. split.
  { rewrite (C103_accept true 1 s (Some (1%nat, g)) true 1 s None [] false LH LT (or_introl (conj eq_refl eq_refl)) ltac:(discriminate) ltac:(discriminate) ltac:(lia)). reflexivity. }
  split; [|reflexivity]. subst g.
  set (x := strength_out true 1 s). set (y := strength_in true 1 s).
  assert (Hx : forall i, 0 <= x i) by (intros i; apply (strength_all true 1 s _ i LH)). assert (Hy : forall i, 0 <= y i) by (intros i; apply (strength_all true 1 s _ i LH)).
  assert (X0 : x 0%nat = 1) by (unfold x, strength_out, weight; cbn [sumn]; rewrite L00; lra). assert (Y0 : y 0%nat = 1) by (unfold y, strength_in, weight; cbn [sumn]; rewrite L00; lra).
  assert (Rw : macro_rows true 1 s 0 = [(0%nat, 1)]).
  { unfold macro_rows, weight. cbn [seq filter]. rewrite L00. destruct (Reqb_spec 1 0); [lra|]. cbn [negb map]. rewrite L00. reflexivity. }
  unfold cond_binary_sample, macro_links. change (max_group 1 (fun _ => 0%nat)) with 1%nat. cbn [seq flat_map map app]. rewrite Rw. cbn [map app fst snd sample_blocks].
  rewrite (p_block_spec (Fin 1) x y 1 (fun _ => 0%nat) false); try assumption; try (simpl; lra).
  - reflexivity.
  - intros _ _. unfold group_sum. cbn -[x y]. rewrite ?X0, ?Y0. lra.
Qed.
Print Assumptions C103_loop_refuted.
