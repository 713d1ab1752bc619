(** Property C88: from an observed directed multi graph to the multi-label model fitted to it. *)
From Coq Require Import ZArith String Sorting.Sorted Classical_Prop.
From Verif Require Import Base Num Spec Kernels KernelFacts MultiKernels MultiFacts Prob Ensemble EnsembleFacts EnsembleState
  Models ModelFacts Solver SolverFacts SolverConcave Fit FitFacts FitModels FitLib Layers LayerFacts LayerProps LayerLib LayerFit
  FitStart PropLayers FitState PropFitState Ids IdFacts Graphs GraphFacts PropTables PropGraph PropLabelValues
  PropEnsemble Construct ConstructFacts PropConstruct Pipeline PropPipeline MultiPipeline.

Open Scope R_scope.
Open Scope string_scope.
Open Scope list_scope.

(** The graph of one label. *)
Definition label_graph (L : list spm) (k : nat) : shape := SDiGraph (nth k L (mkSpm false (fun _ => []))).

(** Row [v] holds, in the order of the labels, the value of each label at [v], leaving out the zeros. *)
Definition by_vertex (N L : nat) (f : nat -> nat -> R) (rows : list (list (nat * num))) : Prop :=
  length rows = N /\
  forall v, (v < N)%nat -> StronglySorted lt (map fst (nth v rows [])) /\
    forall k x, In (k, x) (nth v rows []) <-> (k < L)%nat /\ x = Fin (f k v) /\ f k v <> 0.

Lemma label_valid : forall w N L k, valid w N (SMultiDiGraph L) -> (k < length L)%nat -> valid w N (label_graph L k).
Proof.
  intros w N L k V Hk. unfold valid in *. cbn [layers label_graph] in *. constructor; [|constructor].
  rewrite Forall_forall in V. apply V. apply nth_In. exact Hk.
Qed.

Lemma by_vertex_rows : forall N S f, (forall k v, (k < length S)%nat -> (v < N)%nat -> nth k S (fun _ => 0) v = f k v) ->
  by_vertex N (length S) f (label_rows N S).
Proof.
  intros N S f H. unfold label_rows. split; [rewrite map_length, seq_length; reflexivity|]. intros v Hv. rewrite nth_map_seq by exact Hv.
  split; [apply dense_row_sorted|]. intros k x. rewrite dense_row_in. split.
  - intros (Hk & -> & Hn). rewrite H in * by assumption. split; [exact Hk|]. split; [reflexivity|]. intros E. apply Hn. rewrite E. reflexivity.
  - intros (Hk & -> & Hn). rewrite H by assumption. split; [exact Hk|]. split; [reflexivity|]. intros E. apply Hn. injection E as E. exact E.
Qed.

Lemma nth_map_layers : forall B (g : spm -> B) L k d d', (k < length L)%nat -> nth k (map g L) d = g (nth k L d').
Proof. intros B g L k d d' Hk. rewrite (nth_indep _ d (g d')) by (rewrite map_length; exact Hk). apply map_nth. Qed.

(** * C88: what the model reads from the graph *)
Theorem C88_read : forall w N L gr, library_graph w N (SMultiDiGraph L) gr ->
  (L = [] -> read_multidigraph N (SMultiDiGraph L) = Raise IndexError) /\
  (L <> [] -> exists m o i, links N (SMultiDiGraph L) = INR m /\
    by_vertex N (length L) (fun k v => strength_out w N (label_graph L k) v) o /\
    by_vertex N (length L) (fun k v => strength_in w N (label_graph L k) v) i /\
    read_multidigraph N (SMultiDiGraph L) = Ok {| md_vertices := N; md_labels := length L; md_edges := m;
      md_edges_label := map (fun k => Fin (links N (label_graph L k))) (seq 0 (length L)); md_out := o; md_in := i |}).
Proof.
  intros w N L gr H. pose proof (library_valid _ _ _ _ H) as V. split; [intros ->; reflexivity|]. intros HL.
  destruct (links_nat N (SMultiDiGraph L)) as [m Em].
  destruct (adjacency_ok N (SMultiDiGraph L) true false HL) as [A EA].
  set (So := map sum_axis1 (multidigraph_tensor N L true true)). set (Si := map (sum_axis0 N) (multidigraph_tensor N L true true)).
  assert (LS : length So = length L /\ length Si = length L) by (unfold So, Si; rewrite multidigraph_tensor_map, !map_length; auto).
  destruct LS as [Lo Li].
  exists m, (label_rows N So), (label_rows N Si). split; [exact Em|]. split; [|split].
  - rewrite <- Lo. apply by_vertex_rows. intros k v Hk Hv. rewrite Lo in Hk. unfold So. rewrite multidigraph_tensor_map, map_map.
    rewrite (nth_map_layers _ _ L k _ (mkSpm false (fun _ => [])) Hk).
    unfold valid in V. cbn [layers] in V. rewrite Forall_forall in V. destruct (V _ (nth_In L (mkSpm false (fun _ => [])) Hk)) as [WA BA].
    rewrite (lay_row w N _ WA BA true true true v Hv). unfold strength_out. apply sumn_ext. intros j Hj. unfold view, weight. destruct w; reflexivity.
  - rewrite <- Li. apply by_vertex_rows. intros k v Hk Hv. rewrite Li in Hk. unfold Si. rewrite multidigraph_tensor_map, map_map.
    rewrite (nth_map_layers _ _ L k _ (mkSpm false (fun _ => [])) Hk).
    unfold valid in V. cbn [layers] in V. rewrite Forall_forall in V. destruct (V _ (nth_In L (mkSpm false (fun _ => [])) Hk)) as [WA BA].
    rewrite (lay_col w N _ WA BA true true true v Hv). unfold strength_in. apply sumn_ext. intros j Hj. unfold view, weight. destruct w; reflexivity.
  - unfold read_multidigraph, num_edges. rewrite EA. cbn [bind]. rewrite (all_view w N _ V true false A EA). cbn [is_directed].
    cbn [num_edges_label out_strength_by_label in_strength_by_label bind]. fold So Si.
    replace (sumn N (fun i => sumn N (fun j => view w true (link (SMultiDiGraph L)) true false i j))) with (INR m) by (rewrite <- Em; reflexivity).
    f_equal. f_equal.
    + rewrite map_length, multidigraph_tensor_map, map_length. reflexivity.
    + rewrite Int_part_INR. apply Nat2Z.id.
    + rewrite multidigraph_tensor_map, !map_map. apply nth_ext with (d := NaN) (d' := NaN).
      { rewrite !map_length, seq_length. reflexivity. }
      intros k Hk. rewrite map_length in Hk. rewrite nth_map_seq by exact Hk.
      rewrite (nth_map_layers _ _ L k _ (mkSpm false (fun _ => [])) Hk). f_equal.
      unfold valid in V. cbn [layers] in V. rewrite Forall_forall in V. destruct (V _ (nth_In L (mkSpm false (fun _ => [])) Hk)) as [WA BA].
      rewrite (nnz_sum N _ (lay_wf N _ WA true true false)). unfold links. apply sumn_ext. intros i Hi. apply sumn_ext. intros j Hj.
      rewrite (lay_view w N _ WA BA true true false i j Hi Hj). apply present_idem.
Qed.
Print Assumptions C88_read.

(** The options: self-loops and one parameter per label, each given or not. *)
Definition moptions (kw : list (string * value)) (sl pl : bool) : Prop :=
  NoDup (map fst kw) /\
  (forall n v, In (n, v) kw -> n = "selfloops" /\ v = Sc (SBool sl) \/ n = "per_label" /\ v = Sc (SBool pl)) /\
  (~ In "selfloops" (map fst kw) -> sl = false) /\ (~ In "per_label" (map fst kw) -> pl = true).

(** The object built from the graph. *)
Definition holds_graph (w : bool) (N : nat) (L : list spm) (sl pl : bool) (st : multi_state) : Prop :=
  ms_vertices st = N /\ ms_labels st = length L /\
  by_vertex N (length L) (fun k v => strength_out w N (label_graph L k) v) (ms_out st) /\
  by_vertex N (length L) (fun k v => strength_in w N (label_graph L k) v) (ms_in st) /\
  ms_selfloops st = Sc (SBool sl) /\
  (exists m, links N (SMultiDiGraph L) = INR m /\ ms_edges st = Some (Sc (SInt (Z.of_nat m)))) /\
  ms_edges_label st = Some ([length L], map (fun k => Fin (links N (label_graph L k))) (seq 0 (length L))) /\
  ms_param st = None /\ ms_per_label st = Sc (SBool pl).

Lemma by_vertex_notneg : forall N n f rows, (forall k v, (k < n)%nat -> (v < N)%nat -> 0 <= f k v) -> by_vertex N n f rows ->
  Forall (Forall (fun p => not_negative (snd p))) rows.
Proof.
  intros N n f rows Hf [Hl H]. apply Forall_forall. intros r Hr. apply (In_nth _ _ []) in Hr. destruct Hr as (v & Hv & <-).
  rewrite Hl in Hv. destruct (H v Hv) as [_ Hi]. apply Forall_forall. intros [k x] Hx. apply Hi in Hx. destruct Hx as (Hk & -> & _).
  apply notneg_fin. apply Hf; assumption.
Qed.

Theorem C88_accept : forall w N s gr kw sl pl, library_graph w N s gr -> moptions kw sl pl ->
  ((forall L, s <> SMultiDiGraph L) -> multi_of N s kw = Raise ValueError) /\
  (s = SMultiDiGraph [] -> multi_of N s kw = Raise IndexError) /\
  (forall L, s = SMultiDiGraph L -> L <> [] ->
   ((1 <= N)%nat -> exists st, multi_of N s kw = Ok st /\ holds_graph w N L sl pl st) /\
   (N = 0%nat -> multi_of N s kw = Raise ValueError)).
Proof.
  intros w N s gr kw sl pl H (Kd & Kv & Ks & Kp). split; [|split].
  - intros Hs. destruct s as [A|A|L|L]; try reflexivity. exfalso. apply (Hs L). reflexivity.
  - intros ->. reflexivity.
  - intros L -> HL. pose proof (library_valid _ _ _ _ H) as V.
    destruct (C88_read w N L gr H) as [_ R]. destruct (R HL) as (m & o & i & Em & Ho & Hi & E). unfold multi_of. rewrite E. cbn [bind].
    set (g := {| md_vertices := N; md_labels := length L; md_edges := m; md_edges_label := _; md_out := o; md_in := i |}).
    assert (Nk : forall n, n <> "selfloops" -> n <> "per_label" -> ~ In n (map fst kw)).
    { intros n H1 H2 Hin. apply in_map_iff in Hin. destruct Hin as ((n', v) & <- & Hin). destruct (Kv _ _ Hin) as [[E' _] | [E' _]]; contradiction. }
    split.
    + intros HN. exists {| ms_vertices := N; ms_labels := length L; ms_out := o; ms_in := i; ms_selfloops := Sc (SBool sl);
        ms_edges := Some (Sc (SInt (Z.of_nat m))); ms_edges_label := Some ([length L], md_edges_label g); ms_param := None;
        ms_per_label := Sc (SBool pl) |}.
      split.
      2:{ unfold holds_graph. cbn [ms_vertices ms_labels ms_out ms_in ms_selfloops ms_edges ms_edges_label ms_param ms_per_label].
          repeat (split; [solve [reflexivity | assumption | exists m; auto]|]). reflexivity. }
      apply C64_multi; [exact Kd | intros n v Hin; destruct (Kv n v Hin) as [[_ ->] | [_ ->]]; exact I|].
      split; [intros n v Hin; destruct (Kv n v Hin) as [[-> _] | [-> _]]; simpl; tauto|].
      exists (from_multi g). split; [right; exists g, []; auto|].
      assert (G : forall n v, n <> "selfloops" -> n <> "per_label" -> In (n, v) (from_multi g) -> given (from_multi g) kw n v).
      { intros n v H1 H2 Hin. right. split; [exact (Nk n H1 H2) | exact Hin]. }
      assert (HL' : (1 <= length L)%nat) by (destruct L; [contradiction | simpl; lia]).
      assert (C : forall n, (1 <= n)%nat -> count_spec (Sc (SInt (Z.of_nat n))) n).
      { intros n Hn. split; [exact Hn|]. left. eexists. split; [reflexivity|]. rewrite INR_IZR_INZ. constructor. }
      unfold multi_holds; cbn [ms_vertices ms_labels ms_out ms_in ms_selfloops ms_edges ms_edges_label ms_param ms_per_label].
      split; [eexists; split; [apply G; [discriminate | discriminate | left; reflexivity] | apply C; exact HN]|].
      split; [eexists; split; [apply G; [discriminate | discriminate | right; left; reflexivity] | apply C; exact HL']|].
      split.
      { eexists; split; [apply G; [discriminate | discriminate | do 4 right; left; reflexivity]|]. unfold g; cbn [md_labels md_out].
        apply mx_sparse; [exact (proj1 Ho)|]. eapply by_vertex_notneg; [|exact Ho]. intros k v Hk Hv. cbv beta.
        apply strengths_nonneg; [apply label_valid; assumption | exact Hv]. }
      split.
      { eexists; split; [apply G; [discriminate | discriminate | do 5 right; left; reflexivity]|]. unfold g; cbn [md_labels md_in].
        apply mx_sparse; [exact (proj1 Hi)|]. eapply by_vertex_notneg; [|exact Hi]. intros k v Hk Hv. cbv beta.
        apply strengths_nonneg; [apply label_valid; assumption | exact Hv]. }
      split.
      { destruct (in_dec string_dec "selfloops" (map fst kw)) as [Hin | Hin].
        - left. left. apply in_map_iff in Hin. destruct Hin as ((n', v) & En & Hin). simpl in En. subst n'.
          destruct (Kv _ _ Hin) as [[_ ->] | [E' _]]; [exact Hin | discriminate].
        - right. split; [split; [exact Hin | simpl; intuition discriminate]|]. rewrite (Ks Hin). reflexivity. }
      split.
      { eexists (Some _), (Some _). split; [apply G; [discriminate | discriminate | do 2 right; left; reflexivity]|].
        split; [apply G; [discriminate | discriminate | do 3 right; left; reflexivity]|].
        unfold g; cbn [md_edges_label md_edges]. rewrite map_length, seq_length.
        apply es_labels_any; [|intros (d & sh & data & K); discriminate].
        constructor; [left; reflexivity|]. apply Forall_forall. intros x Hx. apply in_map_iff in Hx. destruct Hx as (k & <- & _).
        apply notneg_fin, links_nonneg. }
      split; [|left; discriminate].
      exists true. split; [split; [apply Nk; discriminate | simpl; intuition discriminate]|]. split; [reflexivity|].
      destruct (in_dec string_dec "per_label" (map fst kw)) as [Hin | Hin].
      * left. apply in_map_iff in Hin. destruct Hin as ((n', v) & En & Hin). simpl in En. subst n'.
        destruct (Kv _ _ Hin) as [[E' _] | [_ ->]]; [discriminate | exact Hin].
      * right. split; [exact Hin|]. rewrite (Kp Hin). reflexivity.
    + intros HN. unfold multi_init. cbn [multi_args bind].
      assert (A : apply_kwargs multi_allowed kw (multi_attrs g) = Ok (rev kw ++ multi_attrs g)).
      { apply apply_kwargs_ok. split; [reflexivity|]. intros n v Hin. destruct (Kv n v Hin) as [[-> _] | [-> _]]; simpl; tauto. }
      rewrite A. cbn [bind]. unfold multi_checks, required.
      replace (getattr (rev kw ++ multi_attrs g) "num_vertices") with (Some (int_value 0)).
      2:{ symmetry. apply (getattr_given (multi_attrs g) kw); [no_dup | exact Kd|]. right. split; [apply Nk; discriminate|].
          unfold g. subst N. left. reflexivity. }
      cbn [bind].
      assert (C : count_arg (int_value 0) = Raise ValueError).
      { destruct (count_arg (int_value 0)) as [n|e] eqn:Ec.
        - apply count_arg_spec in Ec. destruct Ec as [Hn [(s' & Es & Hs) | (d & sh & Es & _)]]; [|discriminate].
          injection Es as <-. inversion Hs as [z Ez| |]; subst. apply (lt_INR 0) in Hn. simpl in Hn. lra.
        - revert Ec. unfold count_arg, int_value. simpl. intros Ec. destruct (py_int 0 =? 0)%Z; [congruence|].
          destruct (Reqb _ 1); cbn [guard] in Ec; [|congruence]. destruct (py_int 0 <=? 0)%Z; cbn [negb guard] in Ec; congruence. }
      rewrite C. reflexivity.
Qed.
Print Assumptions C88_accept.

(** * C88: the fitted object *)

Definition pair_jac (inv : bool) : num -> list (nat * num) -> list (nat * num) -> num * num := if inv then minv_p_jac else mfit_p_jac.
Definition label_jac (inv : bool) : num -> num -> num -> num * num := if inv then inv_p_jac_dense else fit_p_jac_dense.
Definition prob_of (inv : bool) : R -> R := if inv then poissonian else logistic.

Section Rows.
Variables (N n : nat) (f : nat -> nat -> R) (rows : list (list (nat * num))).
Hypothesis Hf : forall k v, (k < n)%nat -> (v < N)%nat -> 0 <= f k v.
Hypothesis HR : by_vertex N n f rows.

Lemma rows_canonical : forall v, (v < N)%nat -> canonical n (nth v rows []) /\ all_finite (nth v rows []).
Proof.
  intros v Hv. destruct HR as [_ H]. destruct (H v Hv) as [S I]. split; [split; [exact S|]|].
  - apply Forall_forall. intros [k x] Hx. apply I in Hx. apply Hx.
  - apply Forall_forall. intros [k x] Hx. apply I in Hx. destruct Hx as (Hk & -> & _). exists (f k v). split; [reflexivity | apply Hf; assumption].
Qed.

Lemma rows_lookup : forall v k, (v < N)%nat -> (k < n)%nat -> lookup k (nth v rows []) = Fin (f k v).
Proof.
  intros v k Hv Hk. destruct HR as [_ H]. destruct (H v Hv) as [_ I]. destruct (rows_canonical v Hv) as [C _].
  destruct (Req_dec (f k v) 0) as [E | E].
  - rewrite E. apply lookup_notin. intros Hin. apply in_map_iff in Hin. destruct Hin as ((k', x) & Ek & Hin). simpl in Ek. subst k'.
    apply I in Hin. apply Hin. exact E.
  - apply (lookup_in _ (k, Fin (f k v))); [exact (canonical_nodup _ _ C)|]. apply I. auto.
Qed.

Lemma rows_vec : forall v, row_vec (nth v (map (@split nat num) rows) ([], [])) = nth v rows [].
Proof.
  intros v. change (@nil nat, @nil num) with (split (@nil (nat * num))). rewrite map_nth. unfold row_vec.
  pose proof (split_combine (nth v rows [])) as E. destruct (split (nth v rows [])) as [a b]. apply E. reflexivity.
Qed.

Lemma rows_table : (1 <= N)%nat -> label_table n (map (@split nat num) rows) /\
  Forall (fun r => all_finite (row_vec r)) (map (@split nat num) rows) /\ length (map (@split nat num) rows) = N.
Proof.
  intros HN. assert (HL : length (map (@split nat num) rows) = N) by (rewrite map_length; apply HR).
  assert (Q : forall r, In r (map (@split nat num) rows) -> canonical n (row_vec r) /\ all_finite (row_vec r)).
  { intros r Hr. apply (In_nth _ _ ([], [])) in Hr. destruct Hr as (v & Hv & <-). rewrite rows_vec. apply rows_canonical. lia. }
  split; [|split; [apply Forall_forall; intros r Hr; apply Q; exact Hr | exact HL]].
  split; [destruct (map (@split nat num) rows); [simpl in HL; lia | discriminate]|]. split; apply Forall_forall; intros r Hr.
  - apply in_map_iff in Hr. destruct Hr as (r' & <- & _). rewrite split_length_l, split_length_r. reflexivity.
  - destruct (Q r Hr) as [C F]. split; [exact C|]. eapply Forall_impl; [|exact F]. intros p (x & -> & Hx). exact Hx.
Qed.
End Rows.

(** The model of one label. *)
Lemma model_edges : forall inv w N s d sl, valid w N s -> 0 <= d ->
  m_edges (model_of inv w N s d) sl
  = pair_sum N sl (fun i j => link_prob (prob_of inv) [Fin d; Fin (strength_out w N s i); Fin (strength_in w N s j); Fin 1]).
Proof.
  intros inv w N s d sl V Hd. pose proof (C36_edges_degrees _ _ sl (model_library inv w N s d V Hd)) as E. cbv zeta in E.
  destruct (m_degrees (model_of inv w N s d) sl) as [[a b] c]. destruct E as [E _]. rewrite model_N in E. exact E.
Qed.

(** One label: its objective is the one of the model of its graph. *)
Section Label.
Variables (inv w : bool) (N : nat) (L : list spm) (sl : bool) (o i : list (list (nat * num))).
Let n := length L.
Hypothesis V : valid w N (SMultiDiGraph L).
Hypothesis HN : (1 <= N)%nat.
Hypothesis Ho : by_vertex N n (fun k v => strength_out w N (label_graph L k) v) o.
Hypothesis Hi : by_vertex N n (fun k v => strength_in w N (label_graph L k) v) i.
Let xs := map (@split nat num) o.
Let ys := map (@split nat num) i.

Lemma out_nonneg : forall k v, (k < n)%nat -> (v < N)%nat -> 0 <= strength_out w N (label_graph L k) v.
Proof. intros k v Hk Hv. apply strengths_nonneg; [apply label_valid; assumption | exact Hv]. Qed.
Lemma in_nonneg : forall k v, (k < n)%nat -> (v < N)%nat -> 0 <= strength_in w N (label_graph L k) v.
Proof. intros k v Hk Hv. apply strengths_nonneg; [apply label_valid; assumption | exact Hv]. Qed.

Lemma label_objective : forall k, (k < n)%nat -> exists (E : Type) (l : list E) pr act,
  density_objective l pr act (fun d => exp_edges_f_jac_layer (label_jac inv) d (column (map zip xs) k) (column (map zip ys) k) sl) /\
  (forall d, 0 <= d -> suml (fun e => pr e d) l = m_edges (model_of inv w N (label_graph L k) d) sl) /\
  suml (fun e => b2r (act e)) l = linkable N sl (can_link w N (label_graph L k)).
Proof.
  intros k Hk.
  destruct (rows_table N n _ o out_nonneg Ho HN) as (Tx & Fx & Nx). destruct (rows_table N n _ i in_nonneg Hi HN) as (Ty & Fy & Ny).
  fold xs in Tx, Fx, Nx. fold ys in Ty, Fy, Ny.
  pose proof (column_finite n N xs ys Nx Ny xs Tx Fx k) as F1. pose proof (column_finite n N xs ys Nx Ny ys Ty Fy k) as F2.
  assert (C1 : canonical N (column (map zip xs) k)) by (rewrite <- Nx; apply (layer_canonical n); exact Tx).
  assert (C2 : canonical N (column (map zip ys) k)) by (rewrite <- Ny; apply (layer_canonical n); exact Ty).
  assert (Vx : forall v, (v < N)%nat -> lookup v (column (map zip xs) k) = Fin (strength_out w N (label_graph L k) v)).
  { intros v Hv. rewrite (layer_lookup n xs Tx). unfold label_value, xs. rewrite rows_vec. apply (rows_lookup N n _ o out_nonneg Ho); assumption. }
  assert (Vy : forall v, (v < N)%nat -> lookup v (column (map zip ys) k) = Fin (strength_in w N (label_graph L k) v)).
  { intros v Hv. rewrite (layer_lookup n ys Ty). unfold label_value, ys. rewrite rows_vec. apply (rows_lookup N n _ i in_nonneg Hi); assumption. }
  assert (Q : forall g d, g 0 = 0 -> 0 <= d ->
    suml (fun e => g (d * (toR (snd (fst e)) * toR (snd (snd e))))) (layer_pairs sl (column (map zip xs) k) (column (map zip ys) k))
    = pair_sum N sl (fun a b => link_prob g [Fin d; Fin (strength_out w N (label_graph L k) a); Fin (strength_in w N (label_graph L k) b); Fin 1])).
  { intros g d G0 Hd. rewrite (layer_rate_sum g N) by assumption. unfold pair_sum. apply sumn_ext. intros a Ha. apply sumn_ext. intros b Hb.
    destruct (allowed sl a b); [|reflexivity]. rewrite Vx, Vy by assumption. reflexivity. }
  exists ((nat * num) * (nat * num))%type, (layer_pairs sl (column (map zip xs) k) (column (map zip ys) k)),
    (fun e d => prob_of inv (d * (toR (snd (fst e)) * toR (snd (snd e))))), (fun e => Rltb 0 (toR (snd (fst e)) * toR (snd (snd e)))).
  split; [|split].
  - unfold label_jac, prob_of. destruct inv; [exact (minv_layer_objective sl _ _ F1 F2) | exact (mfit_layer_objective sl _ _ F1 F2)].
  - intros d Hd. rewrite model_edges by (try exact Hd; apply label_valid; assumption). apply (Q (prob_of inv)); [|exact Hd].
    unfold prob_of. destruct inv; [apply poissonian_0 | apply logistic_0].
  - etransitivity; [apply (suml_ext _ _ (fun e => (fun t => b2r (Rltb 0 t)) (1 * (toR (snd (fst e)) * toR (snd (snd e))))));
      intros e _; rewrite Rmult_1_l; reflexivity|].
    rewrite (Q (fun t => b2r (Rltb 0 t)) 1); [| rewrite Rltb_false by lra; reflexivity | lra].
    unfold linkable, pair_sum. apply sumn_ext. intros a Ha. apply sumn_ext. intros b Hb. destruct (allowed sl a b); [|reflexivity].
    unfold can_link. set (x := strength_out w N (label_graph L k) a). set (y := strength_in w N (label_graph L k) b).
    unfold link_prob. cbn [existsb is_zero is_infinite].
    destruct (Reqb_spec 1 0) as [E1|_]; [lra|].
    destruct (Reqb_spec x 0) as [->|]; [simpl; rewrite Rltb_false by lra; reflexivity|].
    destruct (Reqb_spec y 0) as [->|]; [simpl; rewrite Rltb_false by lra; reflexivity|].
    simpl. do 2 f_equal. ring.
Qed.

Lemma label_solve : forall k, (k < n)%nat -> forall T x0 at_ rho, 0 <= T -> 0 <= x0 -> 0 < at_ -> 0 <= rho ->
  let solve mi := monotonic_newton_solver (fun d => exp_edges_f_jac_layer (label_jac inv) d (column (map zip xs) k) (column (map zip ys) k) sl)
    (Fin x0) (Fin T) (Fin at_) (Fin rho) mi (Fin 0) PInf None None in
  (forall mi, exists sol d, solve mi = Ok sol /\ sol_x sol = Fin d /\ 0 <= d /\
    (sol_converged sol = true <-> Rabs (m_edges (model_of inv w N (label_graph L k) d) sl - T) <= at_ + rho * T)) /\
  (T < linkable N sl (can_link w N (label_graph L k)) -> exists B, forall mi, (B <= mi)%nat -> exists sol, solve mi = Ok sol /\
    (sol_converged sol = true \/ sol_no_change_stop sol = true)).
Proof.
  intros k Hk T x0 at_ rho HT Hx Ha Hr solve. destruct (label_objective k Hk) as (E & l & pr & act & Ob & Su & Ca). split.
  - intros mi. destruct (fit_total _ _ _ _ _ Ob T at_ rho x0 mi HT Ha Hr Hx) as (f & d & Ef & Ep & Hd & C & _).
    unfold fitness_fit in Ef. cbn [arr_len length Nat.eqb guard any_neg existsb nth] in Ef.
    rewrite orb_false_r in Ef. cbn [nltb] in Ef. rewrite Rltb_false in Ef by exact Hx. cbn [negb guard] in Ef. unfold solve.
    destruct (monotonic_newton_solver _ _ _ _ _ _ _ _ _ _) as [sol|ex] eqn:Esol; cbn [bind] in Ef; [|discriminate].
    injection Ef as <-. cbn [fitted_sol fitted_param] in *. exists sol, d. rewrite <- (Su d Hd). auto.
  - intros Hc. destruct (fit_terminates _ _ _ _ _ Ob T at_ rho x0) as [B HB]; [rewrite Ca; lra | lra | exact Hr | pose proof (Rmult_le_pos rho T Hr HT); lra | exact Hx | right; exact Ha |].
    exists B. intros mi Hm. destruct (HB mi Hm) as (f & Ef & Hst).
    unfold fitness_fit in Ef. cbn [arr_len length Nat.eqb guard any_neg existsb nth] in Ef.
    rewrite orb_false_r in Ef. cbn [nltb] in Ef. rewrite Rltb_false in Ef by exact Hx. cbn [negb guard] in Ef. unfold solve.
    destruct (monotonic_newton_solver _ _ _ _ _ _ _ _ _ _) as [sol|ex] eqn:Esol; cbn [bind] in Ef; [|discriminate].
    injection Ef as <-. exists sol. auto.
Qed.
End Label.

Lemma by_vertex_unique : forall N n f r r', by_vertex N n f r -> by_vertex N n f r' -> r = r'.
Proof.
  intros N n f r r' [H1 H] [H1' H']. apply nth_ext with (d := []) (d' := []); [congruence|]. intros v Hv. rewrite H1 in Hv.
  destruct (H v Hv) as [S I]. destruct (H' v Hv) as [S' I']. apply sorted_rows_eq; [exact S | exact S'|]. intros k x. rewrite I, I'. reflexivity.
Qed.

(** The start: none, one number for all labels, or one for each. *)
Definition starts (n : nat) (st : start) (x0 : nat -> R) : Prop :=
  st = Values false (Numeric (map (fun k => Fin (x0 k)) (seq 0 n))) \/
  st = Single false (Fin (x0 0%nat)) /\ (forall k, x0 k = x0 0%nat) \/ st = NoStart /\ (forall k, x0 k = 0).

Lemma starts_array : forall n st x0, starts n st x0 -> start_array n st = (false, Numeric (map (fun k => Fin (x0 k)) (seq 0 n))).
Proof.
  assert (Q : forall n a (f : nat -> R) c, (forall k, f k = c) -> repeat (Fin c) n = map (fun k => Fin (f k)) (seq a n)).
  { induction n as [|n IH]; intros a f c H; [reflexivity|]. cbn [repeat seq map]. rewrite (H a), (IH (S a) f c H). reflexivity. }
  intros n st x0 [-> | [[-> H] | [-> H]]]; cbn [start_array]; [reflexivity | |]; rewrite (Q n 0%nat x0 _ H); reflexivity.
Qed.

Lemma choose : forall B (P : nat -> B -> Prop) n, (forall k, (k < n)%nat -> exists y, P k y) ->
  exists l, length l = n /\ forall k, (k < n)%nat -> exists y, nth_error l k = Some y /\ P k y.
Proof.
  intros B P; induction n as [|n IH]; intros H; [exists []; split; [reflexivity | intros; lia]|].
  destruct IH as (l & Hl & Q); [intros; apply H; lia|]. destruct (H n ltac:(lia)) as [y Hy]. exists (l ++ [y]).
  split; [rewrite app_length; simpl; lia|]. intros k Hk. destruct (Nat.eq_dec k n) as [-> | Hne].
  - exists y. split; [|exact Hy]. rewrite nth_error_app2 by lia. rewrite Hl, Nat.sub_diag. reflexivity.
  - destruct (Q k ltac:(lia)) as (z & Ez & Hz). exists z. split; [|exact Hz]. rewrite nth_error_app1 by lia. exact Ez.
Qed.

(** The calls of the solver, one per label, decide the fit. *)
Lemma fit_by_label : forall inv w N L sl st0 st x0 at_ rho mi (Q : nat -> R -> solution -> Prop), valid w N (SMultiDiGraph L) -> (1 <= N)%nat ->
  holds_graph w N L sl true st0 -> starts (length L) st x0 -> (forall k, (k < length L)%nat -> 0 <= x0 k) ->
  (forall k o i, (k < length L)%nat -> by_vertex N (length L) (fun k v => strength_out w N (label_graph L k) v) o ->
     by_vertex N (length L) (fun k v => strength_in w N (label_graph L k) v) i ->
     exists sol d, monotonic_newton_solver (fun d => exp_edges_f_jac_layer (label_jac inv) d (column (map zip (map (@split nat num) o)) k)
         (column (map zip (map (@split nat num) i)) k) sl)
       (Fin (x0 k)) (Fin (links N (label_graph L k))) (Fin at_) (Fin rho) mi (Fin 0) PInf None None = Ok sol /\
       sol_x sol = Fin d /\ Q k d sol) ->
  exists ds sols, fit_multi_object (pair_jac inv) (label_jac inv) st0 st Density (Fin at_) (Fin rho) mi
      = Some (Ok tt, mkFit (Some (map Fin ds)) (Some (LabelFits (map Some sols)))) /\
    length ds = length L /\ length sols = length L /\
    forall k, (k < length L)%nat -> exists sol, nth_error sols k = Some sol /\ Q k (nth k ds 0) sol.
Proof.
  intros inv w N L sl st0 st x0 at_ rho mi Q V HN HG St Hx Hsol.
  destruct HG as (EN & EL & Ho & Hi & Es & (m & Em & Ee) & En & Ep & Ebl).
  destruct (rows_table N _ _ _ (out_nonneg w N L V) Ho HN) as (Tx & _ & _). destruct (rows_table N _ _ _ (in_nonneg w N L V) Hi HN) as (Ty & _ & _).
  unfold fit_multi_object. rewrite Es, Ebl, Ee, En, EL. cbn [edges_held sc_num edges_label_held]. unfold sparse_layer.
  rewrite (table_layers _ _ Tx), (table_layers _ _ Ty). cbn [bind].
  destruct (choose (R * solution) (fun k p => monotonic_newton_solver (fun d => exp_edges_f_jac_layer (label_jac inv) d
       (column (map zip (map (@split nat num) (ms_out st0))) k) (column (map zip (map (@split nat num) (ms_in st0))) k) sl)
       (Fin (x0 k)) (Fin (links N (label_graph L k))) (Fin at_) (Fin rho) mi (Fin 0) PInf None None = Ok (snd p) /\
       sol_x (snd p) = Fin (fst p) /\ Q k (fst p) (snd p)) (length L)) as (l & Hl & Hp).
  { intros k Hk. destruct (Hsol k _ _ Hk Ho Hi) as (sol & d & E). exists (d, sol). exact E. }
  exists (map fst l), (map snd l). rewrite !map_length. split; [|split; [exact Hl | split; [exact Hl|]]].
  - f_equal. apply (C85_per_label fill_each (length L) _ _ _ _ st _ _ _ _ false (map (fun k => Fin (x0 k)) (seq 0 (length L)))).
    + left. reflexivity.
    + exact (starts_array _ _ _ St).
    + rewrite map_length, seq_length. reflexivity.
    + intros v Hv. apply in_map_iff in Hv. destruct Hv as (k & <- & Hk). apply in_seq in Hk. cbn. apply Rltb_false, Hx. lia.
    + rewrite !map_length. exact Hl.
    + rewrite map_length. exact Hl.
    + intros k Hk. destruct (Hp k Hk) as ([d sol] & Enth & E1 & E2 & _). cbn [fst snd] in *. exists sol.
      split; [rewrite nth_error_map, Enth; reflexivity|]. rewrite !nth_map_seq by exact Hk. split.
      * rewrite <- E1. apply solver_ext. intros d'. rewrite !zip_tuple_of. reflexivity.
      * unfold stored_as. rewrite E2. rewrite map_map. apply nth_error_nth. rewrite nth_error_map, Enth. reflexivity.
  - intros k Hk. destruct (Hp k Hk) as ([d sol] & Enth & _ & _ & HQ). cbn [fst snd] in *. exists sol.
    split; [rewrite nth_error_map, Enth; reflexivity|]. rewrite (nth_error_nth (map fst l) k 0 (x := d)); [exact HQ|]. rewrite nth_error_map, Enth. reflexivity.
Qed.

(** With one parameter per label (the default for an observed graph) the fit raises nothing and leaves for each label a
    parameter and a solution, which is marked converged exactly when the mean number of links of the label, over all graphs
    on these vertices with the probabilities the model gives them, is the observed one up to the tolerance. *)
Theorem C88_fitted : forall inv w N L gr kw sl st x0 at_ rho mi, library_graph w N (SMultiDiGraph L) gr -> L <> [] -> (1 <= N)%nat ->
  moptions kw sl true -> starts (length L) st x0 -> (forall k, (k < length L)%nat -> 0 <= x0 k) -> 0 < at_ -> 0 <= rho ->
  exists o ds sols, multi_of N (SMultiDiGraph L) kw = Ok o /\
    fit_multi_object (pair_jac inv) (label_jac inv) o st Density (Fin at_) (Fin rho) mi
      = Some (Ok tt, mkFit (Some (map Fin ds)) (Some (LabelFits (map Some sols)))) /\
    length ds = length L /\ length sols = length L /\
    forall k, (k < length L)%nat -> let s := label_graph L k in let d := nth k ds 0 in
      let mean := ensemble_mean N sl (fun G => toR (nexp (m_likelihood (model_of inv w N s d) G sl))) in
      0 <= d /\ exists sol, nth_error sols k = Some sol /\
      (sol_converged sol = true <-> Rabs (mean (g_edges N) - links N s) <= at_ + rho * links N s).
Proof.
  intros inv w N L gr kw sl st x0 at_ rho mi H HL HN O St Hx Ha Hr. pose proof (library_valid _ _ _ _ H) as V.
  destruct (C88_accept w N _ gr kw sl true H O) as (_ & _ & A). destruct (A L eq_refl HL) as [A1 _]. destruct (A1 HN) as (o & Eo & HG).
  destruct (fit_by_label inv w N L sl o st x0 at_ rho mi (fun k d sol => 0 <= d /\
     (sol_converged sol = true <-> Rabs (m_edges (model_of inv w N (label_graph L k) d) sl - links N (label_graph L k)) <= at_ + rho * links N (label_graph L k)))
     V HN HG St Hx) as (ds & sols & E & L1 & L2 & R).
  { intros k ro ri Hk Ho Hi. destruct (label_solve inv w N L sl ro ri V HN Ho Hi k Hk (links N (label_graph L k)) (x0 k) at_ rho
      (links_nonneg _ _) (Hx k Hk) Ha Hr) as [S _]. destruct (S mi) as (sol & d & E1 & E2 & E3 & E4). exists sol, d. auto. }
  exists o, ds, sols. repeat (split; [assumption|]). intros k Hk. cbv zeta. destruct (R k Hk) as (sol & En & Hd & C).
  split; [exact Hd|]. exists sol. split; [exact En|].
  pose proof (C37_expected_means _ _ sl (model_library inv w N _ _ (label_valid w N L k V Hk) Hd)) as M. cbv zeta in M.
  destruct (m_degrees _ sl) as [[dd dout] din]. destruct M as [M _]. rewrite model_N in M. rewrite <- M. exact C.
Qed.
Print Assumptions C88_fitted.

(** A parameter giving a label its number of links on average exists exactly when the label has no links or leaves a pair open
    (self-loops being admitted by the model); it is unique unless there are no links. *)
Theorem C88_parameter : forall inv w N L gr sl k, library_graph w N (SMultiDiGraph L) gr -> (k < length L)%nat ->
  let s := label_graph L k in loops_counted N s sl ->
  ((exists d, 0 <= d /\ m_edges (model_of inv w N s d) sl = links N s) <-> links N s = 0 \/ open_pair N s sl) /\
  (links N s <> 0 -> forall d d', 0 <= d -> 0 <= d' -> m_edges (model_of inv w N s d) sl = m_edges (model_of inv w N s d') sl -> d = d').
Proof.
  intros inv w N L gr sl k H Hk s Lc. apply library_valid in H. exact (valid_parameter inv w N s sl (label_valid w N L k H Hk) Lc).
Qed.
Print Assumptions C88_parameter.

(** When every label leaves a pair open the fit of every label stops by itself. *)
Theorem C88_terminates : forall inv w N L gr kw sl st x0 at_ rho, library_graph w N (SMultiDiGraph L) gr -> L <> [] -> (1 <= N)%nat ->
  moptions kw sl true -> starts (length L) st x0 -> (forall k, (k < length L)%nat -> 0 <= x0 k) -> 0 < at_ -> 0 <= rho ->
  (forall k, (k < length L)%nat -> loops_counted N (label_graph L k) sl /\ open_pair N (label_graph L k) sl) ->
  exists o B, multi_of N (SMultiDiGraph L) kw = Ok o /\ forall mi, (B <= mi)%nat ->
  exists ds sols, fit_multi_object (pair_jac inv) (label_jac inv) o st Density (Fin at_) (Fin rho) mi
      = Some (Ok tt, mkFit (Some (map Fin ds)) (Some (LabelFits (map Some sols)))) /\ length sols = length L /\
    Forall (fun sol => sol_converged sol = true \/ sol_no_change_stop sol = true) sols.
Proof.
  intros inv w N L gr kw sl st x0 at_ rho H HL HN O St Hx Ha Hr Op. pose proof (library_valid _ _ _ _ H) as V.
  destruct (C88_accept w N _ gr kw sl true H O) as (_ & _ & A). destruct (A L eq_refl HL) as [A1 _]. destruct (A1 HN) as (o & Eo & HG).
  pose proof HG as (_ & _ & Ho & Hi & _).
  set (solve := fun k mi => monotonic_newton_solver (fun d => exp_edges_f_jac_layer (label_jac inv) d (column (map zip (map (@split nat num) (ms_out o))) k)
         (column (map zip (map (@split nat num) (ms_in o))) k) sl)
       (Fin (x0 k)) (Fin (links N (label_graph L k))) (Fin at_) (Fin rho) mi (Fin 0) PInf None None).
  assert (HB : exists B, forall k, (k < length L)%nat -> forall mi, (B <= mi)%nat -> exists sol, solve k mi = Ok sol /\
    (sol_converged sol = true \/ sol_no_change_stop sol = true)).
  { assert (G : forall n, (n <= length L)%nat -> exists B, forall k, (k < n)%nat -> forall mi, (B <= mi)%nat -> exists sol, solve k mi = Ok sol /\
      (sol_converged sol = true \/ sol_no_change_stop sol = true)).
    { induction n as [|n IH]; intros Hn; [exists 0%nat; intros; lia|]. destruct (IH ltac:(lia)) as [B HB].
      destruct (Op n ltac:(lia)) as [Lc Oq].
      destruct (label_solve inv w N L sl _ _ V HN Ho Hi n Hn (links N (label_graph L n)) (x0 n) at_ rho (links_nonneg _ _) (Hx n Hn) Ha Hr) as [_ S].
      destruct S as [B' HB']; [apply (feasible w N _ sl (label_valid w N L n V Hn) Lc); exact Oq|].
      exists (Nat.max B B'). intros k Hk mi Hm. destruct (Nat.eq_dec k n) as [-> | Hne]; [apply HB'; lia | apply HB; lia]. }
    exact (G (length L) (le_n _)). }
  destruct HB as [B HB]. exists o, B. split; [exact Eo|]. intros mi Hm.
  destruct (fit_by_label inv w N L sl o st x0 at_ rho mi (fun k d sol => sol_converged sol = true \/ sol_no_change_stop sol = true)
     V HN HG St Hx) as (ds & sols & E & L1 & L2 & R).
  { intros k ro ri Hk Hro Hri.
    assert (ro = ms_out o /\ ri = ms_in o) as [-> ->] by (split; eapply by_vertex_unique; eassumption).
    destruct (HB k Hk mi Hm) as (sol & E1 & E2). 
    destruct (label_solve inv w N L sl _ _ V HN Ho Hi k Hk (links N (label_graph L k)) (x0 k) at_ rho
      (links_nonneg _ _) (Hx k Hk) Ha Hr) as [S _]. destruct (S mi) as (sol' & d & E3 & E4 & _). unfold solve in E1. cbv zeta in E3. rewrite E1 in E3.
    injection E3 as <-. exists sol, d. auto. }
  exists ds, sols. split; [exact E|]. split; [exact L2|]. apply Forall_forall. intros sol Hs. apply In_nth_error in Hs. destruct Hs as [k Ek].
  assert (Hk : (k < length L)%nat) by (rewrite <- L2; apply nth_error_Some; congruence).
  destruct (R k Hk) as (sol' & E' & HQ). congruence.
Qed.
Print Assumptions C88_terminates.

(** * C88: one parameter for all labels *)

(** Probability that two vertices are linked in some label. *)
Definition any_label (inv w : bool) (N : nat) (L : list spm) (d : R) (i j : nat) : R :=
  1 - prodn (length L) (fun k => 1 - link_prob (prob_of inv)
    [Fin d; Fin (strength_out w N (label_graph L k) i); Fin (strength_in w N (label_graph L k) j); Fin 1]).

Definition multi_model_of (inv : bool) (st : multi_state) (d : R) : model :=
  (if inv then MultiInvariantModel else MultiFitnessModel) (ms_vertices st) (fun _ => Fin d)
    (fun i => nth i (ms_out st) []) (fun i => nth i (ms_in st) []).
Definition shared (st : multi_state) (i j : nat) : bool := share (ms_labels st) (nth i (ms_out st) []) (nth j (ms_in st) []).

Lemma observed_multi_fit : forall inv w N L sl pl st, valid w N (SMultiDiGraph L) -> holds_graph w N L sl pl st ->
  library_fit (multi_density_fit_fun (pair_jac inv) st sl) (multi_model_of inv st) sl (shared st).
Proof.
  intros inv w N L sl pl st V (EN & EL & Ho & Hi & _). unfold multi_density_fit_fun, multi_model_of, shared. rewrite EN, EL.
  assert (Q : forall v, (v < N)%nat -> canonical (length L) (nth v (ms_out st) []) /\ all_finite (nth v (ms_out st) []) /\
     canonical (length L) (nth v (ms_in st) []) /\ all_finite (nth v (ms_in st) [])).
  { intros v Hv. destruct (rows_canonical N _ _ _ (out_nonneg w N L V) Ho v Hv). destruct (rows_canonical N _ _ _ (in_nonneg w N L V) Hi v Hv). auto. }
  unfold pair_jac. destruct inv.
  - exact (fit_multi_invariant N (length L) sl (fun i => nth i (ms_out st) []) (fun i => nth i (ms_in st) []) Q).
  - exact (fit_multi_fitness N (length L) sl (fun i => nth i (ms_out st) []) (fun i => nth i (ms_in st) []) Q).
Qed.

Lemma multi_model_edges : forall inv w N L sl pl st d, valid w N (SMultiDiGraph L) -> holds_graph w N L sl pl st -> 0 <= d ->
  m_edges (multi_model_of inv st d) sl = pair_sum N sl (any_label inv w N L d).
Proof.
  intros inv w N L sl pl st d V (EN & EL & Ho & Hi & _) Hd.
  assert (Q : forall v, (v < N)%nat -> canonical (length L) (nth v (ms_out st) []) /\ all_nonneg (nth v (ms_out st) []) /\
     canonical (length L) (nth v (ms_in st) []) /\ all_nonneg (nth v (ms_in st) [])).
  { intros v Hv. destruct (rows_canonical N _ _ _ (out_nonneg w N L V) Ho v Hv) as [C1 F1].
    destruct (rows_canonical N _ _ _ (in_nonneg w N L V) Hi v Hv) as [C2 F2]. split; [exact C1|]. split; [|split; [exact C2|]].
    - eapply Forall_impl; [|exact F1]. intros p (x & -> & Hx). exact Hx.
    - eapply Forall_impl; [|exact F2]. intros p (x & -> & Hx). exact Hx. }
  assert (E : pair_sum N sl (fun i j => any_layer (length L) (fun k => link_prob (prob_of inv)
      [Fin d; lookup k (nth i (ms_out st) []); lookup k (nth j (ms_in st) []); Fin 1])) = pair_sum N sl (any_label inv w N L d)).
  { unfold pair_sum. apply sumn_ext. intros i Hvi. apply sumn_ext. intros j Hvj. destruct (allowed sl i j); [|reflexivity].
    unfold any_layer, any_label. f_equal. apply prodn_ext. intros k Hk.
    exact (f_equal2 (fun a b => 1 - link_prob (prob_of inv) [Fin d; a; b; Fin 1])
      (rows_lookup N _ _ _ (out_nonneg w N L V) Ho i k Hvi Hk) (rows_lookup N _ _ _ (in_nonneg w N L V) Hi j k Hvj Hk)). }
  rewrite <- E. unfold multi_model_of, prob_of. rewrite EN. destruct inv.
  - pose proof (C36_edges_degrees _ _ sl (lib_multi_invariant N (length L) (fun _ => Fin d) _ _ (fun _ _ => Hd) Q)) as M. cbv zeta in M.
    destruct (m_degrees _ sl) as [[a b] c]. exact (proj1 M).
  - pose proof (C36_edges_degrees _ _ sl (lib_multi_fitness N (length L) (fun _ => Fin d) _ _ (fun _ _ => Hd) Q)) as M. cbv zeta in M.
    destruct (m_degrees _ sl) as [[a b] c]. exact (proj1 M).
Qed.

(** The fit is marked converged exactly when the expected number of pairs linked in some label is the observed one up to
    the tolerance. *)
Theorem C88_total : forall inv w N L gr kw sl st x0 at_ rho mi, library_graph w N (SMultiDiGraph L) gr -> L <> [] -> (1 <= N)%nat ->
  moptions kw sl false -> starts (length L) st x0 -> (forall k, (k < length L)%nat -> 0 <= x0 k) -> 0 < at_ -> 0 <= rho ->
  exists o sol d, multi_of N (SMultiDiGraph L) kw = Ok o /\
    fit_multi_object (pair_jac inv) (label_jac inv) o st Density (Fin at_) (Fin rho) mi
      = Some (Ok tt, mkFit (Some (repeat (Fin d) (length L))) (Some (OneFit sol))) /\ 0 <= d /\
    (sol_converged sol = true <->
     Rabs (pair_sum N sl (any_label inv w N L d) - links N (SMultiDiGraph L)) <= at_ + rho * links N (SMultiDiGraph L)).
Proof.
  intros inv w N L gr kw sl st x0 at_ rho mi H HL HN O St Hx Ha Hr. pose proof (library_valid _ _ _ _ H) as V.
  destruct (C88_accept w N _ gr kw sl false H O) as (_ & _ & A). destruct (A L eq_refl HL) as [A1 _]. destruct (A1 HN) as (o & Eo & HG).
  assert (HL' : (1 <= length L)%nat) by (destruct L; [contradiction | simpl; lia]).
  pose proof HG as (EN & EL & _ & _ & Es & (m & Em & Ee) & En & Ep & Ebl).
  pose proof (starts_array _ _ _ St) as Ea. rewrite <- (map_map x0 Fin) in Ea.
  destruct (C85_total fill_each _ _ _ _ (observed_multi_fit inv w N L sl false o V HG) (length L)
    (sparse_layer (label_jac inv) (length L) (map (@split nat num) (ms_out o)) (map (@split nat num) (ms_in o)) sl)
    (Some (fun k => nth k (map (fun k => Fin (links N (label_graph L k))) (seq 0 (length L))) NaN))
    (links N (SMultiDiGraph L)) at_ rho (x0 0%nat) (map x0 (seq 1 (length L - 1))) mi false st (mkFit None None)) as (sol & d & E & Hd & C).
  - apply links_nonneg.
  - exact Ha.
  - exact Hr.
  - apply Hx. lia.
  - rewrite Ea. do 3 f_equal. replace (length L) with (S (length L - 1)) at 1 by lia. reflexivity.
  - cbn [length]. rewrite map_length, seq_length. lia.
  - apply Forall_forall. intros y Hy. apply in_map_iff in Hy. destruct Hy as (k & <- & Hk). apply in_seq in Hk. apply Hx. lia.
  - exists o, sol, d. split; [exact Eo|]. split; [|split; [exact Hd|]].
    + unfold fit_multi_object. rewrite Es, Ebl, Ee, En, EL, Ep. cbn [edges_held sc_num edges_label_held].
      rewrite <- INR_IZR_INZ, <- Em. f_equal. exact E.
    + rewrite <- (multi_model_edges inv w N L sl false o d V HG Hd). exact C.
Qed.
Print Assumptions C88_total.

(** A pair left open: admissible, linked in no label, but in some label the first has out-links and the second in-links. *)
Definition open_multi (N : nat) (L : list spm) (sl : bool) : Prop :=
  exists i j, (i < N)%nat /\ (j < N)%nat /\ (sl = true \/ i <> j) /\ link (SMultiDiGraph L) i j = 0 /\
    exists k, (k < length L)%nat /\ (exists v, (v < N)%nat /\ link (label_graph L k) i v <> 0) /\
      (exists v, (v < N)%nat /\ link (label_graph L k) v j <> 0).

Lemma feasible_can : forall N s sl (can : nat -> nat -> bool), loops_counted N s sl ->
  (forall i j, (i < N)%nat -> (j < N)%nat -> link s i j <> 0 -> can i j = true) ->
  links N s <= linkable N sl can /\
  (links N s < linkable N sl can <->
   exists i j, (i < N)%nat /\ (j < N)%nat /\ (sl = true \/ i <> j) /\ link s i j = 0 /\ can i j = true).
Proof.
  intros N s sl can Lc Hc.
  set (f := fun i j => if allowed sl i j then b2r (can i j) - present (link s i j) else 0).
  assert (E : linkable N sl can - links N s = sumn N (fun i => sumn N (fun j => f i j))).
  { unfold linkable, links, pair_sum. rewrite <- sumn_minus. apply sumn_ext. intros i Hi. rewrite <- sumn_minus. apply sumn_ext. intros j Hj.
    unfold f. destruct (allowed sl i j) eqn:E; [reflexivity|].
    destruct Lc as [-> | Lc]; [unfold allowed in E; rewrite orb_true_r in E; discriminate|].
    unfold allowed in E. apply orb_false_iff in E. destruct E as [E _]. apply negb_false_iff, Nat.eqb_eq in E. subst j.
    rewrite (Lc i Hi), present_0. ring. }
  assert (P : forall i j, (i < N)%nat -> (j < N)%nat -> 0 <= f i j).
  { intros i j Hi Hj. unfold f. destruct (allowed sl i j); [|lra]. unfold present. destruct (Req_EM_T (link s i j) 0) as [E0 | E0].
    - pose proof (b2r_range (can i j)). lra.
    - rewrite (Hc i j Hi Hj E0). simpl. lra. }
  assert (P' : forall i, (i < N)%nat -> 0 <= sumn N (fun j => f i j)) by (intros i Hi; apply sumn_nonneg; intros j Hj; apply P; assumption).
  pose proof (sumn_nonneg N (fun i => sumn N (fun j => f i j)) P') as P0. split; [lra|].
  transitivity (0 < sumn N (fun i => sumn N (fun j => f i j))); [split; intros; lra|]. rewrite sumn_pos by exact P'. split.
  - intros (i & Hi & Hs). apply (sumn_pos N (fun j => f i j) (fun j Hj => P i j Hi Hj)) in Hs. destruct Hs as (j & Hj & Hs).
    exists i, j. split; [exact Hi|]. split; [exact Hj|]. unfold f, allowed, present in Hs.
    destruct (negb (Nat.eqb i j) || sl)%bool eqn:Eal; [|lra].
    destruct (Req_EM_T (link s i j) 0) as [E0 | E0]; [|pose proof (b2r_range (can i j)); lra].
    destruct (can i j) eqn:Ec; [|simpl in Hs; lra].
    split; [|split; [exact E0 | reflexivity]]. apply orb_true_iff in Eal. destruct Eal as [Eal | Eal]; [right | left; exact Eal].
    apply negb_true_iff, Nat.eqb_neq in Eal. exact Eal.
  - intros (i & j & Hi & Hj & Hal & E0 & Ec). exists i. split; [exact Hi|]. apply (sumn_pos N (fun j => f i j) (fun j Hj => P i j Hi Hj)).
    exists j. split; [exact Hj|]. unfold f. replace (allowed sl i j) with true.
    + rewrite E0, present_0, Ec. simpl. lra.
    + unfold allowed. symmetry. apply orb_true_iff. destruct Hal as [-> | Hal]; [right; reflexivity | left].
      apply negb_true_iff, Nat.eqb_neq. exact Hal.
Qed.

Lemma both_pos : forall a b, 0 <= a -> 0 <= b -> (0 < a /\ 0 < b <-> Rltb 0 (a * b * 1) = true).
Proof.
  intros a b Pa Pb. rewrite Rmult_1_r. destruct (Rltb_spec 0 (a * b)) as [Hp | Hp].
  - split; [reflexivity|]. intros _. split.
    + destruct Pa as [Pa | Pa]; [exact Pa | rewrite <- Pa, Rmult_0_l in Hp; lra].
    + destruct Pb as [Pb | Pb]; [exact Pb | rewrite <- Pb, Rmult_0_r in Hp; lra].
  - split; [|discriminate]. intros [A B]. exfalso. apply Hp. apply Rmult_lt_0_compat; assumption.
Qed.

Lemma shared_spec : forall w N L sl pl st i j, valid w N (SMultiDiGraph L) -> holds_graph w N L sl pl st -> (i < N)%nat -> (j < N)%nat ->
  (shared st i j = true <-> exists k, (k < length L)%nat /\ (exists v, (v < N)%nat /\ link (label_graph L k) i v <> 0) /\
      (exists v, (v < N)%nat /\ link (label_graph L k) v j <> 0)).
Proof.
  intros w N L sl pl st i j V (EN & EL & Ho & Hi & _) Hvi Hvj. unfold shared. rewrite EL, share_iff.
  destruct (rows_canonical N _ _ _ (out_nonneg w N L V) Ho i Hvi) as [_ F1]. destruct (rows_canonical N _ _ _ (in_nonneg w N L V) Hi j Hvj) as [_ F2].
  assert (E : forall k, (k < length L)%nat -> (0 < fval (nth i (ms_out st) []) k /\ 0 < fval (nth j (ms_in st) []) k) <->
    (exists v, (v < N)%nat /\ link (label_graph L k) i v <> 0) /\ (exists v, (v < N)%nat /\ link (label_graph L k) v j <> 0)).
  { intros k Hk. rewrite <- (can_link_spec w N (label_graph L k) i j (label_valid w N L k V Hk) Hvi Hvj).
    pose proof (rows_lookup N _ _ _ (out_nonneg w N L V) Ho i k Hvi Hk) as E1. pose proof (rows_lookup N _ _ _ (in_nonneg w N L V) Hi j k Hvj Hk) as E2.
    rewrite (proj1 (lookup_fval _ k F1)) in E1. rewrite (proj1 (lookup_fval _ k F2)) in E2. injection E1 as E1. injection E2 as E2.
    unfold can_link. rewrite <- E1, <- E2. pose proof (proj2 (lookup_fval _ k F1)) as P1. pose proof (proj2 (lookup_fval _ k F2)) as P2.
    exact (both_pos _ _ P1 P2). }
  split; intros (k & Hk & Q); exists k; (split; [exact Hk|]); apply E; assumption.
Qed.

(** A parameter giving the number of linked pairs on average exists exactly when there are no links or a pair is left open. *)
Theorem C88_total_parameter : forall inv w N L gr sl, library_graph w N (SMultiDiGraph L) gr -> L <> [] -> (1 <= N)%nat ->
  loops_counted N (SMultiDiGraph L) sl ->
  let total d := pair_sum N sl (any_label inv w N L d) in
  ((exists d, 0 <= d /\ total d = links N (SMultiDiGraph L)) <-> links N (SMultiDiGraph L) = 0 \/ open_multi N L sl) /\
  (links N (SMultiDiGraph L) <> 0 -> forall d d', 0 <= d -> 0 <= d' -> total d = total d' -> d = d').
Proof.
  intros inv w N L gr sl H HL HN Lc total. pose proof (library_valid _ _ _ _ H) as V.
  destruct (C88_accept w N _ gr [("selfloops", Sc (SBool sl))] sl true H) as (_ & _ & A).
  { split; [no_dup|]. split; [intros n v [E | []]; injection E as <- <-; auto|]. split; [simpl; tauto | reflexivity]. }
  destruct (A L eq_refl HL) as [A1 _]. destruct (A1 HN) as (o & _ & HG).
  pose proof (observed_multi_fit inv w N L sl true o V HG) as F.
  assert (EN : forall d, m_N (multi_model_of inv o d) = N) by (intros d; unfold multi_model_of; destruct HG as [-> _]; destruct inv; reflexivity).
  assert (ET : forall d, 0 <= d -> total d = m_edges (multi_model_of inv o d) sl) by (intros d Hd; symmetry; exact (multi_model_edges inv w N L sl true o d V HG Hd)).
  destruct (feasible_can N (SMultiDiGraph L) sl (shared o) Lc) as [Fl Fs].
  { intros i j Hi Hj Hl. apply (shared_spec w N L sl true o i j V HG Hi Hj). cbn [link] in Hl.
    assert (X : exists A, In A L /\ W A i j <> 0).
    { destruct (classic (exists A, In A L /\ W A i j <> 0)) as [X | X]; [exact X|]. exfalso. apply Hl. clear -X.
      induction L as [|A L IH]; [reflexivity|]. cbn [suml]. rewrite IH; [|intros (B & HB & HW); apply X; exists B; split; [right; exact HB | exact HW]].
      destruct (Req_dec (W A i j) 0) as [-> | E]; [ring|]. exfalso. apply X. exists A. split; [left; reflexivity | exact E]. }
    destruct X as (A0 & HA & HW). apply (In_nth _ _ (mkSpm false (fun _ => []))) in HA. destruct HA as (k & Hk & Ek). exists k. split; [exact Hk|].
    assert (EW : link (label_graph L k) i j <> 0) by (unfold label_graph; cbn [link]; rewrite Ek; exact HW).
    split; [exists j; auto | exists i; auto]. }
  assert (Op : (exists i j, (i < N)%nat /\ (j < N)%nat /\ (sl = true \/ i <> j) /\ link (SMultiDiGraph L) i j = 0 /\ shared o i j = true) <-> open_multi N L sl).
  { unfold open_multi. split; intros (i & j & Hi & Hj & Hs & H0 & Hc); exists i, j; repeat (split; [assumption|]);
      apply (shared_spec w N L sl true o i j V HG Hi Hj); exact Hc. }
  rewrite Op in Fs. pose proof (links_nonneg N (SMultiDiGraph L)) as Hn. split.
  - transitivity (exists d, 0 <= d /\ m_edges (multi_model_of inv o d) sl = links N (SMultiDiGraph L)).
    { split; intros (d & Hd & E); exists d; (split; [exact Hd|]); rewrite <- E; [symmetry|]; apply ET; exact Hd. }
    rewrite (C87_attained _ _ _ _ F), EN, <- Fs. tauto.
  - intros Hne d d' Hd Hd'. rewrite (ET d Hd), (ET d' Hd'). apply (C87_unique _ _ _ _ F); [rewrite EN; lra | exact Hd | exact Hd'].
Qed.
Print Assumptions C88_total_parameter.

(** * A graph with two labels *)

(** Label 0 has the links 0 -> 1 -> 2 and label 1 has the links 1 -> 2 -> 0. *)
Definition two_rows : list (erow nat nat) :=
  [mkRow 0%nat 1%nat 1 0%nat; mkRow 1%nat 2%nat 2 0%nat; mkRow 1%nat 2%nat 1 1%nat; mkRow 2%nat 0%nat 3 1%nat].
Definition label0 : list (nat * nat * R) := [(0%nat, 1%nat, 1); (1%nat, 2%nat, 2)].
Definition label1 : list (nat * nat * R) := [(1%nat, 2%nat, 1); (2%nat, 0%nat, 3)].
Definition two_labels : list spm := [coo_tocsr false 3 label0; coo_tocsr false 3 label1].

Lemma two_library : library_graph true 3 (SMultiDiGraph two_labels) None.
Proof.
  set (v := [(0, 0); (1, 0); (2, 0)]%nat).
  assert (HN : NoDup (map fst v)) by (repeat (constructor; [cbn; intuition lia|]); constructor).
  assert (HE : forall r, In r two_rows -> In (r_src r) (map fst v) /\ In (r_dst r) (map fst v) /\ (true = true -> 0 < r_weight r)).
  { intros r Hr. cbn in Hr. intuition (subst; cbn; try lia; try lra). }
  destruct (build_multigraph Nat.leb Nat.leb Nat.leb nat_order nat_order nat_order false false true v two_rows HN HE) as [gr [_ H]]. cbv zeta in H.
  pose proof (of_multidigraph Nat.leb Nat.leb Nat.leb false false false true v two_rows _ _ _ H) as HG.
  eapply (built _ _ _ _ nat nat nat Nat.leb Nat.leb Nat.leb false false false v two_rows); [exact nat_order|exact nat_order|exact nat_order|exact HG|reflexivity|].
  destruct (build Nat.leb Nat.leb nat_order nat_order false false true v two_rows HN HE) as [gr' [H' ->]].
  unfold sparse_multigraph in H. rewrite H' in H. cbn [bind] in H. injection H as <-. reflexivity.
Qed.

Lemma two_link0 : forall i j, (j < 3)%nat -> link (label_graph two_labels 0) i j = suml (fun t => if hits i j t then snd t else 0) label0.
Proof. intros i j Hj. unfold label_graph, two_labels. cbn [link nth]. apply coo_entry. exact Hj. Qed.
Lemma two_link1 : forall i j, (j < 3)%nat -> link (label_graph two_labels 1) i j = suml (fun t => if hits i j t then snd t else 0) label1.
Proof. intros i j Hj. unfold label_graph, two_labels. cbn [link nth]. apply coo_entry. exact Hj. Qed.
Lemma two_link : forall i j, (j < 3)%nat -> link (SMultiDiGraph two_labels) i j =
  suml (fun t => if hits i j t then snd t else 0) label0 + suml (fun t => if hits i j t then snd t else 0) label1.
Proof. intros i j Hj. rewrite <- two_link0, <- two_link1 by exact Hj. cbn [link two_labels label_graph suml nth]. lra. Qed.

(** Every label leaves a pair open, and so does the whole graph. *)
Lemma two_open : (forall k, (k < length two_labels)%nat -> loops_counted 3 (label_graph two_labels k) false /\ open_pair 3 (label_graph two_labels k) false) /\
  loops_counted 3 (SMultiDiGraph two_labels) false /\ open_multi 3 two_labels false.
Proof.
  split; [|split].
  - intros k Hk. cbn [two_labels length] in Hk. destruct k as [|[|k]]; [| |lia]; split.
    + right. intros i Hi. rewrite two_link0 by exact Hi. destruct i as [|[|[|i]]]; [| | |lia]; cbn; lra.
    + exists 0%nat, 2%nat. split; [lia|]. split; [lia|]. split; [right; lia|].
      split; [rewrite two_link0 by lia; cbn; lra|]. split; [exists 1%nat | exists 1%nat]; (split; [lia|]); rewrite two_link0 by lia; cbn; apply Rgt_not_eq; lra.
    + right. intros i Hi. rewrite two_link1 by exact Hi. destruct i as [|[|[|i]]]; [| | |lia]; cbn; lra.
    + exists 1%nat, 0%nat. split; [lia|]. split; [lia|]. split; [right; lia|].
      split; [rewrite two_link1 by lia; cbn; lra|]. split; [exists 2%nat | exists 2%nat]; (split; [lia|]); rewrite two_link1 by lia; cbn; apply Rgt_not_eq; lra.
  - right. intros i Hi. rewrite two_link by exact Hi. destruct i as [|[|[|i]]]; [| | |lia]; cbn; lra.
  - exists 1%nat, 0%nat. split; [lia|]. split; [lia|]. split; [right; lia|]. split; [rewrite two_link by lia; cbn; lra|].
    exists 1%nat. split; [cbn; lia|]. split; [exists 2%nat | exists 2%nat]; (split; [lia|]); rewrite two_link1 by lia; cbn; apply Rgt_not_eq; lra.
Qed.

Example C88_case : library_graph true 3 (SMultiDiGraph two_labels) None /\ two_labels <> [] /\
  links 3 (SMultiDiGraph two_labels) = 3 /\ links 3 (label_graph two_labels 0) = 2 /\ strength_out true 3 (label_graph two_labels 1) 2 = 3 /\
  moptions [] false true /\ moptions [("per_label", Sc (SBool false))] false false /\
  starts 2 NoStart (fun _ => 0) /\ starts 2 (Values false (Numeric [Fin 1; Fin 2])) (fun k => INR k + 1) /\
  (forall k, (k < length two_labels)%nat -> loops_counted 3 (label_graph two_labels k) false /\ open_pair 3 (label_graph two_labels k) false) /\
  loops_counted 3 (SMultiDiGraph two_labels) false /\ open_multi 3 two_labels false.
Proof.
  split; [exact two_library|]. split; [discriminate|].
  split; [unfold links; cbn [sumn]; rewrite !two_link by lia; cbn; rewrite ?Rplus_0_r, ?Rplus_0_l, ?present_0, ?present_pos by lra; lra|].
  split; [unfold links; cbn [sumn]; rewrite !two_link0 by lia; cbn; rewrite ?Rplus_0_r, ?Rplus_0_l, ?present_0, ?present_pos by lra; lra|].
  split; [unfold strength_out, weight; cbn [sumn]; rewrite !two_link1 by lia; cbn; lra|].
  split; [split; [constructor|]; split; [intros n v []|]; split; reflexivity|].
  split; [split; [no_dup|]; split; [intros n v [E | []]; injection E as <- <-; auto|]; split; [reflexivity | simpl; tauto]|].
  split; [right; right; auto|]. split; [left; cbn [map seq INR]; repeat f_equal; lra|]. exact two_open.
Qed.

(** Fitting every label by itself (the default) does not fit the number of linked pairs.  Labels 0 -> 1 -> 2 and
    1 -> 0 -> 2: every parameter giving each label its two links on average gives fewer than the four linked pairs. *)
Definition apart_rows : list (erow nat nat) :=
  [mkRow 0%nat 1%nat 1 0%nat; mkRow 1%nat 2%nat 1 0%nat; mkRow 0%nat 2%nat 1 1%nat; mkRow 1%nat 0%nat 1 1%nat].
Definition apart0 : list (nat * nat * R) := [(0%nat, 1%nat, 1); (1%nat, 2%nat, 1)].
Definition apart1 : list (nat * nat * R) := [(0%nat, 2%nat, 1); (1%nat, 0%nat, 1)].
Definition apart : list spm := [coo_tocsr false 3 apart0; coo_tocsr false 3 apart1].

Lemma apart_library : library_graph true 3 (SMultiDiGraph apart) None.
Proof.
  set (v := [(0, 0); (1, 0); (2, 0)]%nat).
  assert (HN : NoDup (map fst v)) by (repeat (constructor; [cbn; intuition lia|]); constructor).
  assert (HE : forall r, In r apart_rows -> In (r_src r) (map fst v) /\ In (r_dst r) (map fst v) /\ (true = true -> 0 < r_weight r)).
  { intros r Hr. cbn in Hr. intuition (subst; cbn; try lia; try lra). }
  destruct (build_multigraph Nat.leb Nat.leb Nat.leb nat_order nat_order nat_order false false true v apart_rows HN HE) as [gr [_ H]]. cbv zeta in H.
  pose proof (of_multidigraph Nat.leb Nat.leb Nat.leb false false false true v apart_rows _ _ _ H) as HG.
  eapply (built _ _ _ _ nat nat nat Nat.leb Nat.leb Nat.leb false false false v apart_rows); [exact nat_order|exact nat_order|exact nat_order|exact HG|reflexivity|].
  destruct (build Nat.leb Nat.leb nat_order nat_order false false true v apart_rows HN HE) as [gr' [H' ->]].
  unfold sparse_multigraph in H. rewrite H' in H. cbn [bind] in H. injection H as <-. reflexivity.
Qed.

Lemma apart_link0 : forall i j, (j < 3)%nat -> link (label_graph apart 0) i j = suml (fun t => if hits i j t then snd t else 0) apart0.
Proof. intros i j Hj. unfold label_graph, apart. cbn [link nth]. apply coo_entry. exact Hj. Qed.
Lemma apart_link1 : forall i j, (j < 3)%nat -> link (label_graph apart 1) i j = suml (fun t => if hits i j t then snd t else 0) apart1.
Proof. intros i j Hj. unfold label_graph, apart. cbn [link nth]. apply coo_entry. exact Hj. Qed.
Lemma apart_link : forall i j, (j < 3)%nat -> link (SMultiDiGraph apart) i j =
  suml (fun t => if hits i j t then snd t else 0) apart0 + suml (fun t => if hits i j t then snd t else 0) apart1.
Proof. intros i j Hj. rewrite <- apart_link0, <- apart_link1 by exact Hj. cbn [link apart label_graph suml nth]. lra. Qed.

Theorem C88_labels_refuted : exists N L gr, library_graph true N (SMultiDiGraph L) gr /\ length L = 2%nat /\
  forall inv, let exact (ds : nat -> R) := forall k, (k < length L)%nat -> 0 <= ds k /\
    m_edges (model_of inv true N (label_graph L k) (ds k)) false = links N (label_graph L k) in
  (exists ds, exact ds) /\
  forall ds, exact ds -> pair_sum N false (fun i j => 1 - prodn (length L) (fun k => 1 - link_prob (prob_of inv)
      [Fin (ds k); Fin (strength_out true N (label_graph L k) i); Fin (strength_in true N (label_graph L k) j); Fin 1]))
    = links N (SMultiDiGraph L) - 8 / 9.
Proof.
  exists 3%nat, apart, None. pose proof apart_library as H. split; [exact H|]. split; [reflexivity|]. intros inv exact.
  pose proof (library_valid _ _ _ _ H) as V.
  assert (L0 : links 3 (label_graph apart 0) = 2).
  { unfold links; cbn [sumn]; rewrite !apart_link0 by lia; cbn; rewrite ?Rplus_0_r, ?Rplus_0_l, ?present_0, ?present_pos by lra; lra. }
  assert (L1 : links 3 (label_graph apart 1) = 2).
  { unfold links; cbn [sumn]; rewrite !apart_link1 by lia; cbn; rewrite ?Rplus_0_r, ?Rplus_0_l, ?present_0, ?present_pos by lra; lra. }
  assert (LL : links 3 (SMultiDiGraph apart) = 4).
  { unfold links; cbn [sumn]; rewrite !apart_link by lia; cbn; rewrite ?Rplus_0_r, ?Rplus_0_l, ?present_0, ?present_pos by lra; lra. }
  split.
  - assert (P : forall k, (k < 2)%nat -> exists d, 0 <= d /\ m_edges (model_of inv true 3 (label_graph apart k) d) false = links 3 (label_graph apart k)).
    { intros k Hk. apply (C88_parameter inv true 3 apart None false k H Hk).
      - right. intros i Hi. destruct k as [|[|k]]; [rewrite apart_link0 by exact Hi | rewrite apart_link1 by exact Hi | lia];
          destruct i as [|[|[|i]]]; try lia; cbn; lra.
      - right. destruct k as [|[|k]]; [exists 0%nat, 2%nat | exists 1%nat, 2%nat | lia]; (split; [lia|]); (split; [lia|]); (split; [right; lia|]).
        + split; [rewrite apart_link0 by lia; cbn; lra|]. split; [exists 1%nat | exists 1%nat]; (split; [lia|]); rewrite apart_link0 by lia; cbn; apply Rgt_not_eq; lra.
        + split; [rewrite apart_link1 by lia; cbn; lra|]. split; [exists 0%nat | exists 0%nat]; (split; [lia|]); rewrite apart_link1 by lia; cbn; apply Rgt_not_eq; lra. }
    destruct (P 0%nat) as (d0 & H0); [lia|]. destruct (P 1%nat) as (d1 & H1); [lia|].
    exists (fun k => if Nat.eqb k 0 then d0 else d1). intros k Hk. destruct k as [|[|k]]; [exact H0 | exact H1 | cbn in Hk; lia].
  - intros ds Hd. destruct (Hd 0%nat ltac:(cbn; lia)) as [D0 E0]. destruct (Hd 1%nat ltac:(cbn; lia)) as [D1 E1]. clear Hd.
    rewrite (model_edges inv true 3 _ _ false (label_valid true 3 apart 0 V ltac:(cbn; lia)) D0), L0 in E0.
    rewrite (model_edges inv true 3 _ _ false (label_valid true 3 apart 1 V ltac:(cbn; lia)) D1), L1 in E1.
    rewrite LL.
    assert (So0 : forall i, (i < 3)%nat -> strength_out true 3 (label_graph apart 0) i = nth i [1; 1; 0] 0).
    { intros i Hi. unfold strength_out, weight. cbn [sumn]. rewrite !apart_link0 by lia. destruct i as [|[|[|i]]]; [| | |lia]; cbn; lra. }
    assert (Si0 : forall i, (i < 3)%nat -> strength_in true 3 (label_graph apart 0) i = nth i [0; 1; 1] 0).
    { intros i Hi. unfold strength_in, weight. cbn [sumn]. rewrite !apart_link0 by lia. destruct i as [|[|[|i]]]; [| | |lia]; cbn; lra. }
    assert (So1 : forall i, (i < 3)%nat -> strength_out true 3 (label_graph apart 1) i = nth i [1; 1; 0] 0).
    { intros i Hi. unfold strength_out, weight. cbn [sumn]. rewrite !apart_link1 by lia. destruct i as [|[|[|i]]]; [| | |lia]; cbn; lra. }
    assert (Si1 : forall i, (i < 3)%nat -> strength_in true 3 (label_graph apart 1) i = nth i [1; 0; 1] 0).
    { intros i Hi. unfold strength_in, weight. cbn [sumn]. rewrite !apart_link1 by lia. destruct i as [|[|[|i]]]; [| | |lia]; cbn; lra. }
    unfold pair_sum in *. cbn [sumn allowed Nat.eqb negb orb length apart prodn] in *.
    fold apart in *. change [coo_tocsr false 3 apart0; coo_tocsr false 3 apart1] with apart in *.
    rewrite !So0, !Si0 in E0 by lia. rewrite !So1, !Si1 in E1 by lia. rewrite !So0, !So1, !Si0, !Si1 by lia.
    cbn [nth] in *.
    assert (Z1 : forall d y, link_prob (prob_of inv) [Fin d; Fin 0; Fin y; Fin 1] = 0).
    { intros d y. unfold link_prob. cbn [existsb is_zero]. rewrite (Reqb_true 0 0 eq_refl), orb_true_r. reflexivity. }
    assert (Z2 : forall d y, link_prob (prob_of inv) [Fin d; Fin y; Fin 0; Fin 1] = 0).
    { intros d y. unfold link_prob. cbn [existsb is_zero]. rewrite (Reqb_true 0 0 eq_refl), !orb_true_r. reflexivity. }
    rewrite ?Z1, ?Z2 in *.
    set (a := link_prob (prob_of inv) [Fin (ds 0%nat); Fin 1; Fin 1; Fin 1]) in *.
    set (b := link_prob (prob_of inv) [Fin (ds 1%nat); Fin 1; Fin 1; Fin 1]) in *.
    assert (a = 2/3) by lra. assert (b = 2/3) by lra. rewrite H0, H1. lra.
Qed.
Print Assumptions C88_labels_refuted.
