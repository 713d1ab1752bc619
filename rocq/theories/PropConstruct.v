(** Properties of the constructors (C64). *)
From Coq Require Import ZArith String.
From Verif Require Import Base Num MultiKernels Construct ConstructFacts.

Open Scope R_scope.
Open Scope string_scope.
Open Scope list_scope.

(** * FitnessModel *)

(** The values a DiGraph supplies. *)
Definition from_digraph (g : digraph_data) : list (string * value) :=
  [("num_vertices", Sc (SInt (Z.of_nat (gd_vertices g))));
   ("num_edges", Sc (SInt (Z.of_nat (gd_edges g))));
   ("prop_out", Arr DFloat [length (gd_out g)] (gd_out g));
   ("prop_in", Arr DFloat [length (gd_in g)] (gd_in g))].

(** The positional arguments are none, or a DiGraph and ignored others. *)
Definition fitness_graph (args : list arg) (graph : list (string * value)) : Prop :=
  (args = [] /\ graph = []) \/
  (exists g rest, args = AGraph g :: rest /\ graph = from_digraph g).

(** What FitnessModel holds, in terms of the values supplied. *)
Definition fitness_holds (graph kw : list (string * value)) (st : fitness_state) : Prop :=
  (exists v, given graph kw "num_vertices" v /\ count_spec v (fs_vertices st)) /\
  (exists v, given graph kw "prop_out" v /\ fitness_spec (fs_vertices st) v (fs_out st)) /\
  (exists v, given graph kw "prop_in" v /\ fitness_spec (fs_vertices st) v (fs_in st)) /\
  (given graph kw "selfloops" (fs_selfloops st) \/
   not_given graph kw "selfloops" /\ fs_selfloops st = Sc (SBool false)) /\
  optional graph kw "num_edges" single_spec (fs_edges st) /\
  optional graph kw "param" param1_spec (fs_param st) /\
  (fs_edges st <> None \/ fs_param st <> None).

Lemma fitness_checks_spec : forall graph kw st,
  NoDup (map fst graph) -> NoDup (map fst kw) ->
  (forall n v, given graph kw n v -> well_formed v) ->
  fitness_checks (rev kw ++ graph) = Ok st <-> fitness_holds graph kw st.
Proof.
  intros graph kw st Hg Hk Hwf; unfold fitness_checks, fitness_holds.
  rewrite (required_spec graph kw Hg Hk).
  assert (EN : forall o,
    opt_arg number_arg (getattr (rev kw ++ graph) "num_edges") = Ok o <->
    optional graph kw "num_edges" single_spec o).
  { intros o; apply (opt_arg_spec graph kw Hg Hk); intros v Hv x; apply number_arg_spec, (Hwf _ _ Hv). }
  assert (EP : forall o,
    opt_arg param_arg1 (getattr (rev kw ++ graph) "param") = Ok o <->
    optional graph kw "param" param1_spec o).
  { intros o; apply (opt_arg_spec graph kw Hg Hk); intros v Hv x; apply param1_arg_spec. }
  split.
  - intros [vn [Hn H]].
    apply bind_ok in H; destruct H as [N [HN H]]; apply count_arg_spec in HN.
    apply (required_spec graph kw Hg Hk) in H; destruct H as [vo [Ho H]].
    apply (required_spec graph kw Hg Hk) in H; destruct H as [vi [Hi H]].
    cbv zeta in H.
    apply bind_ok in H; destruct H as [po [Hpo H]].
    apply bind_ok in H; destruct H as [pi [Hpi H]].
    apply bind_ok in H; destruct H as [out [Hout H]].
    apply bind_ok in H; destruct H as [inn [Hinn H]].
    apply bind_ok in H; destruct H as [edges [He H]].
    apply bind_ok in H; destruct H as [param [Hp H]].
    apply guard_ok in H; destruct H as [Hb H].
    assert (Est : st = {| fs_vertices := N; fs_out := out; fs_in := inn;
      fs_selfloops := with_default (getattr (rev kw ++ graph) "selfloops") (Sc (SBool false));
      fs_edges := edges; fs_param := param |}) by congruence.
    subst st; cbn [fs_vertices fs_out fs_in fs_selfloops fs_edges fs_param].
    apply EN in He; apply EP in Hp.
    split; [exists vn; auto|].
    split; [exists vo; split; [exact Ho|]; apply prop_spec, bind_ok; exists po; auto|].
    split; [exists vi; split; [exact Hi|]; apply prop_spec, bind_ok; exists pi; auto|].
    split; [apply (default_spec graph kw Hg Hk); reflexivity|].
    split; [exact He|]; split; [exact Hp|].
    apply orb_true_iff in Hb; destruct Hb as [Hb|Hb];
      [left; apply (hasattr_opt _ _ _ _ _ _ Hg Hk He); exact Hb
      | right; apply (hasattr_opt _ _ _ _ _ _ Hg Hk Hp); exact Hb].
  - intros [[vn [Hn HN]] [[vo [Ho Hout]] [[vi [Hi Hinn]] [Hs [He [Hp Hb]]]]]].
    exists vn; split; [exact Hn|].
    apply bind_ok; exists (fs_vertices st); split; [apply count_arg_spec; exact HN|].
    apply (required_spec graph kw Hg Hk); exists vo; split; [exact Ho|].
    apply (required_spec graph kw Hg Hk); exists vi; split; [exact Hi|].
    apply prop_spec, bind_ok in Hout; destruct Hout as [po [Hpo Hout]].
    apply prop_spec, bind_ok in Hinn; destruct Hinn as [pi [Hpi Hinn]].
    cbv zeta.
    apply bind_ok; exists po; split; [exact Hpo|].
    apply bind_ok; exists pi; split; [exact Hpi|].
    apply bind_ok; exists (fs_out st); split; [exact Hout|].
    apply bind_ok; exists (fs_in st); split; [exact Hinn|].
    apply bind_ok; exists (fs_edges st); split; [apply EN; exact He|].
    apply bind_ok; exists (fs_param st); split; [apply EP; exact Hp|].
    apply (default_spec graph kw Hg Hk) in Hs; rewrite Hs.
    apply guard_ok; split; [|destruct st; reflexivity].
    apply orb_true_iff; destruct Hb as [Hb|Hb];
      [left; apply (hasattr_opt _ _ _ _ _ _ Hg Hk He); exact Hb
      | right; apply (hasattr_opt _ _ _ _ _ _ Hg Hk Hp); exact Hb].
Qed.

Lemma fitness_graph_spec : forall args a,
  fitness_args args = Ok a <-> fitness_graph args a.
Proof.
  intros args a; unfold fitness_graph; destruct args as [|[g|v] rest]; simpl; split.
  - intros H; injection H as <-; left; auto.
  - intros [[_ ->]|[g [r [H _]]]]; [reflexivity | discriminate].
  - intros H; right; exists g, rest; split; [reflexivity | assert (graph_attrs g = a) as <- by congruence; reflexivity].
  - intros [[H _]|[g' [r [H ->]]]]; [discriminate | injection H as -> _; reflexivity].
  - discriminate.
  - intros [[H _]|[g' [r [H _]]]]; discriminate.
Qed.

Ltac no_dup := repeat constructor; simpl; intuition discriminate.

Lemma fitness_graph_facts : forall args graph, fitness_graph args graph ->
  NoDup (map fst graph) /\ forall n v, In (n, v) graph -> well_formed v.
Proof.
  intros args graph [[_ ->]|[g [rest [_ ->]]]].
  - split; [constructor | intros ? ? []].
  - split; [no_dup|].
    intros n v H; simpl in H.
    repeat (destruct H as [H|H]; [injection H as <- <-; simpl; lia || exact I|]); destruct H.
Qed.

Lemma given_wf : forall graph kw,
  (forall n v, In (n, v) graph -> well_formed v) ->
  (forall n v, In (n, v) kw -> well_formed v) ->
  forall n v, given graph kw n v -> well_formed v.
Proof. intros graph kw Hg Hk n v [H|[_ H]]; [apply (Hk _ _ H) | apply (Hg _ _ H)]. Qed.

(** C64, FitnessModel: the constructor returns exactly when every keyword is documented,
    the first positional argument is a DiGraph if there is one, and the values supplied
    (by keyword, else by the graph) are complete and valid; the object then holds them. *)
Theorem C64_fitness : forall args kw st,
  NoDup (map fst kw) -> (forall n v, In (n, v) kw -> well_formed v) ->
  (fitness_init args kw = Ok st <->
   (forall n v, In (n, v) kw ->
      In n ["num_vertices"; "num_edges"; "prop_out"; "prop_in"; "param"; "selfloops"]) /\
   exists graph, fitness_graph args graph /\ fitness_holds graph kw st).
Proof.
  intros args kw st Hk Hwf; unfold fitness_init; split.
  - intros H; apply bind_ok in H; destruct H as [a0 [H0 H]].
    apply fitness_graph_spec in H0; destruct (fitness_graph_facts _ _ H0) as [Hg Hgw].
    apply bind_ok in H; destruct H as [a [Ha H]].
    apply apply_kwargs_ok in Ha; destruct Ha as [-> Hn].
    split; [exact Hn|]; exists a0; split; [exact H0|].
    apply fitness_checks_spec; [exact Hg | exact Hk | apply given_wf; assumption | exact H].
  - intros [Hn [graph [H0 H]]]; destruct (fitness_graph_facts _ _ H0) as [Hg Hgw].
    apply bind_ok; exists graph; split; [apply fitness_graph_spec; exact H0|].
    apply bind_ok; exists (rev kw ++ graph); split; [apply apply_kwargs_ok; split; [reflexivity | exact Hn]|].
    apply fitness_checks_spec; [exact Hg | exact Hk | apply given_wf; assumption | exact H].
Qed.
Print Assumptions C64_fitness.

Definition ex_graph : digraph_data :=
  {| gd_vertices := 2; gd_edges := 3; gd_out := [Fin 1; Fin 2]; gd_in := [Fin 3; Fin 0];
     gd_groups := None |}.

Lemma nonneg_fin : forall r, 0 <= r -> non_negative (Fin r).
Proof. intros r H; right; exists r; auto. Qed.

Lemma notneg_fin : forall r, 0 <= r -> not_negative (Fin r).
Proof. intros r H; split; [discriminate | intros r' E; injection E as <-; exact H]. Qed.

Ltac all_nonneg :=
  repeat (apply Forall_cons; [first [apply nonneg_fin | apply notneg_fin]; lra|]); apply Forall_nil.

(** A graph with its number of edges replaced by a keyword. *)
Example C64_fitness_example :
  NoDup (map fst [("num_edges", Seq [SFloat (Fin (5/2))])]) /\
  fitness_init [AGraph ex_graph] [("num_edges", Seq [SFloat (Fin (5/2))])] =
    Ok {| fs_vertices := 2; fs_out := [Fin 1; Fin 2]; fs_in := [Fin 3; Fin 0];
          fs_selfloops := Sc (SBool false); fs_edges := Some (Sc (SFloat (Fin (5/2))));
          fs_param := None |}.
Proof.
  split; [no_dup|].
  apply C64_fitness; [no_dup | intros n v [H|[]]; injection H as <- <-; exact I |].
  split; [intros n v [H|[]]; injection H as <- <-; simpl; auto|].
  exists (from_digraph ex_graph); split; [right; exists ex_graph, []; auto|].
  unfold fitness_holds; cbn [fs_vertices fs_out fs_in fs_selfloops fs_edges fs_param].
  assert (G : forall n v, In (n, v) (from_digraph ex_graph) -> n <> "num_edges" ->
    given (from_digraph ex_graph) [("num_edges", Seq [SFloat (Fin (5/2))])] n v).
  { intros n v H Hn; right; split; [simpl; intuition congruence | exact H]. }
  split.
  { eexists; split; [apply (G _ (Sc (SInt 2))); [left; reflexivity | discriminate]|].
    split; [lia|]; left; eexists; split; [reflexivity|].
    replace (INR 2) with (IZR 2) by (simpl; lra); constructor. }
  split.
  { eexists; split; [apply G; [right; right; left; reflexivity | discriminate]|].
    exists DFloat; split; [reflexivity|]; split; [right; left; reflexivity|].
    all_nonneg. }
  split.
  { eexists; split; [apply G; [right; right; right; left; reflexivity | discriminate]|].
    exists DFloat; split; [reflexivity|]; split; [right; left; reflexivity|].
    all_nonneg. }
  split; [right; split; [split; simpl; intuition discriminate | reflexivity]|].
  split; [exists (Seq [SFloat (Fin (5/2))]); split; [left; left; reflexivity|];
          constructor; [constructor | apply notneg_fin; lra]|].
  split; [split; simpl; intuition discriminate|].
  left; discriminate.
Qed.

(** ** Consequences, for all four constructors *)

Lemma apply_kwargs_unknown : forall allowed kw a n v,
  In (n, v) kw -> ~ In n allowed -> apply_kwargs allowed kw a = Raise ValueError.
Proof.
  intros allowed kw a n v H Hn; destruct (apply_kwargs allowed kw a) as [b|e] eqn:E.
  - apply apply_kwargs_ok in E; destruct E as [_ E]; exfalso; apply Hn, (E n v H).
  - apply apply_kwargs_raise in E; subst; reflexivity.
Qed.

(** C64, unknown keyword: all four constructors reject it with ValueError, whatever the
    other arguments are. *)
Theorem C64_unknown : forall n v kw, In (n, v) kw ->
  (~ In n ["num_vertices"; "num_edges"; "prop_out"; "prop_in"; "param"; "selfloops"] ->
   forall args, fitness_init args kw = Raise ValueError) /\
  (~ In n ["num_vertices"; "num_edges"; "param"; "selfloops"; "total_weight";
           "discrete_weights"] ->
   forall args, random_init args kw = Raise ValueError) /\
  (~ In n ["num_vertices"; "num_edges"; "num_edges_label"; "num_labels"; "prop_out";
           "prop_in"; "param"; "selfloops"; "per_label"] ->
   forall args, multi_init args kw = Raise ValueError) /\
  (~ In n ["num_vertices"; "num_edges"; "prop_out"; "prop_in"; "groups"; "adj"; "param";
           "selfloops"] ->
   forall args, cond_init args kw = Raise ValueError).
Proof.
  intros n v kw H; repeat split; intros Hn args.
  - unfold fitness_init; destruct (fitness_args args) as [a|e] eqn:E; cbn [bind].
    + rewrite (apply_kwargs_unknown _ _ _ _ _ H Hn); reflexivity.
    + destruct args as [|[g|w] r]; simpl in E; congruence.
  - unfold random_init; destruct (random_args args) as [a|e] eqn:E; cbn [bind].
    + rewrite (apply_kwargs_unknown _ _ _ _ _ H Hn); reflexivity.
    + destruct args as [|[g|w] r]; simpl in E; congruence.
  - unfold multi_init; destruct (multi_args args) as [a|e] eqn:E; cbn [bind].
    + rewrite (apply_kwargs_unknown _ _ _ _ _ H Hn); reflexivity.
    + destruct args as [|[g|w] r]; simpl in E; congruence.
  - unfold cond_init; destruct (cond_args args) as [a|e] eqn:E; cbn [bind].
    + rewrite (apply_kwargs_unknown _ _ _ _ _ H Hn); reflexivity.
    + destruct args as [|[g w|w] [|[g' w'|w'] r]]; simpl in E; try congruence;
        destruct w'; congruence.
Qed.
Print Assumptions C64_unknown.

(** A misspelt keyword next to a complete set of arguments. *)
Example C64_unknown_example :
  In ("self_loops", Sc (SBool true)) [("num_edges", Sc (SInt 3)); ("self_loops", Sc (SBool true))] /\
  ~ In "self_loops" ["num_vertices"; "num_edges"; "prop_out"; "prop_in"; "param"; "selfloops"] /\
  exists st, fitness_init [AGraph ex_graph] [("num_edges", Sc (SInt 3))] = Ok st.
Proof.
  split; [right; left; reflexivity|]; split; [simpl; intuition discriminate|].
  assert (C : count_arg (int_value 2) = Ok 2%nat).
  { apply count_arg_spec; split; [lia|]; left; eexists; split; [reflexivity|].
    replace (INR 2) with (IZR 2) by (simpl; lra); constructor. }
  eexists; unfold fitness_init; cbn [fitness_args bind apply_kwargs].
  unfold guard at 1; cbn [mem_name existsb fitness_allowed String.eqb Ascii.eqb Bool.eqb orb].
  unfold fitness_checks, required, ex_graph, graph_attrs.
  cbn [getattr String.eqb Ascii.eqb Bool.eqb bind gd_vertices gd_edges gd_out gd_in].
  rewrite C; cbn [bind float_array prop_format length Nat.eqb guard].
  unfold prop_values; cbn [fst snd has_arith guard].
  assert (F1 : forallb (fun x => nleb (Fin 0) x) [Fin 1; Fin 2] = true)
    by (apply forallb_nonneg; all_nonneg).
  assert (F2 : forallb (fun x => nleb (Fin 0) x) [Fin 3; Fin 0] = true)
    by (apply forallb_nonneg; all_nonneg).
  rewrite F1, F2; cbn [guard bind opt_arg].
  assert (K : number_arg (Sc (SInt 3)) = Ok (Sc (SFloat (Fin 3)))).
  { apply number_arg_spec; [exact I|]; constructor; [constructor | apply notneg_fin; lra]. }
  rewrite K; cbn; reflexivity.
Qed.

(** * RandomDiGraph *)

(** The values a Graph supplies; the total weight only if the graph is weighted. *)
Definition from_graph (g : random_data) : list (string * value) :=
  (match rd_weight g with Some w => [("total_weight", Sc (SFloat w))] | None => [] end) ++
  [("num_vertices", Sc (SInt (Z.of_nat (rd_vertices g))));
   ("num_edges", Sc (SInt (Z.of_nat (rd_edges g))))].

Definition random_graph (args : list rarg) (graph : list (string * value)) : Prop :=
  (args = [] /\ graph = []) \/
  (exists g rest, args = RGraph g :: rest /\ graph = from_graph g).

(** What RandomDiGraph holds, in terms of the values supplied. *)
Definition random_holds (graph kw : list (string * value)) (st : random_state) : Prop :=
  (exists v, given graph kw "num_vertices" v /\ count_spec v (rs_vertices st)) /\
  (given graph kw "selfloops" (rs_selfloops st) \/
   not_given graph kw "selfloops" /\ rs_selfloops st = Sc (SBool false)) /\
  optional graph kw "num_edges" single_spec (rs_edges st) /\
  optional graph kw "param" param2_spec (rs_param st) /\
  (rs_edges st <> None \/ rs_param st <> None) /\
  optional graph kw "total_weight" single_spec (rs_weight st) /\
  (match rs_discrete st with
   | Some v => given graph kw "discrete_weights" v \/
               (not_given graph kw "discrete_weights" /\ rs_weight st <> None /\ v = Sc (SBool false))
   | None => not_given graph kw "discrete_weights" /\ rs_weight st = None
   end).

Lemma random_checks_spec : forall graph kw st,
  NoDup (map fst graph) -> NoDup (map fst kw) ->
  (forall n v, given graph kw n v -> well_formed v) ->
  random_checks (rev kw ++ graph) = Ok st <-> random_holds graph kw st.
Proof.
  intros graph kw st Hg Hk Hwf; unfold random_checks, random_holds.
  rewrite (required_spec graph kw Hg Hk).
  assert (EN : forall n o,
    opt_arg number_arg (getattr (rev kw ++ graph) n) = Ok o <->
    optional graph kw n single_spec o).
  { intros n o; apply (opt_arg_spec graph kw Hg Hk); intros v Hv x; apply number_arg_spec, (Hwf _ _ Hv). }
  assert (EP : forall o,
    opt_arg param_arg2 (getattr (rev kw ++ graph) "param") = Ok o <->
    optional graph kw "param" param2_spec o).
  { intros o; apply (opt_arg_spec graph kw Hg Hk); intros v Hv x; apply param2_arg_spec. }
  split.
  - intros [vn [Hn H]].
    apply bind_ok in H; destruct H as [N [HN H]]; apply count_arg_spec in HN.
    cbv zeta in H.
    apply bind_ok in H; destruct H as [edges [He H]]; apply EN in He.
    apply bind_ok in H; destruct H as [param [Hp H]]; apply EP in Hp.
    apply guard_ok in H; destruct H as [Hb H].
    apply bind_ok in H; destruct H as [weight [Hw H]]; apply EN in Hw.
    injection H as <-; cbn [rs_vertices rs_selfloops rs_edges rs_param rs_weight rs_discrete].
    split; [exists vn; auto|].
    split; [apply (default_spec graph kw Hg Hk); reflexivity|].
    split; [exact He|]; split; [exact Hp|]; split.
    { apply orb_true_iff in Hb; destruct Hb as [Hb|Hb];
        [left; apply (hasattr_opt _ _ _ _ _ _ Hg Hk He); exact Hb
        | right; apply (hasattr_opt _ _ _ _ _ _ Hg Hk Hp); exact Hb]. }
    split; [exact Hw|].
    destruct (getattr (rev kw ++ graph) "discrete_weights") as [d|] eqn:Ed.
    + left; apply (getattr_given graph kw Hg Hk); exact Ed.
    + apply (getattr_not_given graph kw Hk) in Ed || apply getattr_not_given in Ed.
      destruct (hasattr (rev kw ++ graph) "total_weight") eqn:Et.
      * right; split; [exact Ed|]; split; [|reflexivity].
        apply (hasattr_opt _ _ _ _ _ _ Hg Hk Hw); exact Et.
      * split; [exact Ed|]; destruct weight as [w|]; [|reflexivity].
        assert (K : hasattr (rev kw ++ graph) "total_weight" = true)
          by (apply (hasattr_opt _ _ _ _ _ _ Hg Hk Hw); discriminate).
        congruence.
  - intros [[vn [Hn HN]] [Hs [He [Hp [Hb [Hw Hd]]]]]].
    exists vn; split; [exact Hn|].
    apply bind_ok; exists (rs_vertices st); split; [apply count_arg_spec; exact HN|].
    cbv zeta.
    apply bind_ok; exists (rs_edges st); split; [apply EN; exact He|].
    apply bind_ok; exists (rs_param st); split; [apply EP; exact Hp|].
    apply guard_ok; split.
    { apply orb_true_iff; destruct Hb as [Hb|Hb];
        [left; apply (hasattr_opt _ _ _ _ _ _ Hg Hk He); exact Hb
        | right; apply (hasattr_opt _ _ _ _ _ _ Hg Hk Hp); exact Hb]. }
    apply bind_ok; exists (rs_weight st); split; [apply EN; exact Hw|].
    apply (default_spec graph kw Hg Hk) in Hs; rewrite Hs.
    assert (E : match getattr (rev kw ++ graph) "discrete_weights" with
       | Some v => Some v
       | None => if hasattr (rev kw ++ graph) "total_weight" then Some (Sc (SBool false)) else None
       end = rs_discrete st).
    { destruct (rs_discrete st) as [v|].
      - destruct Hd as [Hd|[H1 [H2 ->]]].
        + apply (getattr_given graph kw Hg Hk) in Hd; rewrite Hd; reflexivity.
        + apply getattr_not_given in H1; rewrite H1.
          apply (hasattr_opt _ _ _ _ _ _ Hg Hk Hw) in H2; rewrite H2; reflexivity.
      - destruct Hd as [H1 H2]; apply getattr_not_given in H1; rewrite H1.
        destruct (hasattr (rev kw ++ graph) "total_weight") eqn:Et; [|reflexivity].
        apply (hasattr_opt _ _ _ _ _ _ Hg Hk Hw) in Et; contradiction. }
    rewrite E; destruct st; reflexivity.
Qed.

Lemma random_graph_spec : forall args a,
  random_args args = Ok a <-> random_graph args a.
Proof.
  intros args a; unfold random_graph; destruct args as [|[g|v] rest]; simpl; split.
  - intros H; injection H as <-; left; auto.
  - intros [[_ ->]|[g [r [H _]]]]; [reflexivity | discriminate].
  - intros H; right; exists g, rest; split; [reflexivity|].
    assert (random_attrs g = a) as <- by congruence; reflexivity.
  - intros [[H _]|[g' [r [H ->]]]]; [discriminate | injection H as -> _; reflexivity].
  - discriminate.
  - intros [[H _]|[g' [r [H _]]]]; discriminate.
Qed.

Lemma random_graph_facts : forall args graph, random_graph args graph ->
  NoDup (map fst graph) /\ forall n v, In (n, v) graph -> well_formed v.
Proof.
  intros args graph [[_ ->]|[g [rest [_ ->]]]].
  - split; [constructor | intros ? ? []].
  - unfold from_graph; destruct (rd_weight g) as [w|]; (split; [no_dup|]);
      intros n v H; simpl in H;
      repeat (destruct H as [H|H]; [injection H as <- <-; exact I|]); destruct H.
Qed.

(** C64, RandomDiGraph. *)
Theorem C64_random : forall args kw st,
  NoDup (map fst kw) -> (forall n v, In (n, v) kw -> well_formed v) ->
  (random_init args kw = Ok st <->
   (forall n v, In (n, v) kw ->
      In n ["num_vertices"; "num_edges"; "param"; "selfloops"; "total_weight";
            "discrete_weights"]) /\
   exists graph, random_graph args graph /\ random_holds graph kw st).
Proof.
  intros args kw st Hk Hwf; unfold random_init; split.
  - intros H; apply bind_ok in H; destruct H as [a0 [H0 H]].
    apply random_graph_spec in H0; destruct (random_graph_facts _ _ H0) as [Hg Hgw].
    apply bind_ok in H; destruct H as [a [Ha H]].
    apply apply_kwargs_ok in Ha; destruct Ha as [-> Hn].
    split; [exact Hn|]; exists a0; split; [exact H0|].
    apply random_checks_spec; [exact Hg | exact Hk | apply given_wf; assumption | exact H].
  - intros [Hn [graph [H0 H]]]; destruct (random_graph_facts _ _ H0) as [Hg Hgw].
    apply bind_ok; exists graph; split; [apply random_graph_spec; exact H0|].
    apply bind_ok; exists (rev kw ++ graph); split; [apply apply_kwargs_ok; split; [reflexivity | exact Hn]|].
    apply random_checks_spec; [exact Hg | exact Hk | apply given_wf; assumption | exact H].
Qed.
Print Assumptions C64_random.

(** A number of vertices and a probability. *)
Example C64_random_example :
  NoDup (map fst [("num_vertices", Sc (SFloat (Fin 4))); ("param", Sc (SFloat (Fin (1/2))))]) /\
  random_init [] [("num_vertices", Sc (SFloat (Fin 4))); ("param", Sc (SFloat (Fin (1/2))))] =
    Ok {| rs_vertices := 4; rs_selfloops := Sc (SBool false); rs_edges := None;
          rs_param := Some ([2%nat], [Fin (1/2); Fin 0]); rs_discrete := None;
          rs_weight := None |}.
Proof.
  split; [no_dup|].
  apply C64_random; [no_dup | intros n v [H|[H|[]]]; injection H as <- <-; exact I |].
  split; [intros n v [H|[H|[]]]; injection H as <- <-; simpl; auto|].
  exists []; split; [left; auto|].
  unfold random_holds; cbn [rs_vertices rs_selfloops rs_edges rs_param rs_weight rs_discrete].
  split.
  { eexists; split; [left; left; reflexivity|].
    split; [lia|]; left; eexists; split; [reflexivity|].
    replace (INR 4) with 4 by (simpl; lra); constructor. }
  split; [right; split; [split; simpl; intuition discriminate | reflexivity]|].
  split; [split; simpl; intuition discriminate|].
  split; [eexists; split; [left; right; left; reflexivity|];
          constructor; [constructor | apply notneg_fin; lra]|].
  split; [right; discriminate|].
  split; [split; simpl; intuition discriminate|].
  split; [split; simpl; intuition discriminate | reflexivity].
Qed.

(** * ConditionalInvariantModel *)

(** The values the graphs supply: the first gives the strengths (and the groups if it
    has any), the second the macroscopic matrix. *)
Definition from_micro (g : digraph_data) : list (string * value) :=
  (match gd_groups g with Some v => [("groups", v)] | None => [] end) ++ from_digraph g.

Inductive cond_graph : list carg -> list (string * value) -> Prop :=
| cg_none : cond_graph [] []
| cg_one g a : cond_graph [CGraph g a] (from_micro g)
| cg_two g a g' adj rest :
    cond_graph (CGraph g a :: CGraph g' adj :: rest) (("adj", adj) :: from_micro g)
| cg_dense g a d sh data rest :
    cond_graph (CGraph g a :: CValue (Arr d sh data) :: rest)
      (("adj", Arr d sh data) :: from_micro g)
| cg_sparse g a c rows rest :
    cond_graph (CGraph g a :: CValue (Csr c rows) :: rest)
      (("adj", Csr c rows) :: from_micro g).

(** What ConditionalInvariantModel holds, in terms of the values supplied. *)
Definition cond_holds (graph kw : list (string * value)) (st : cond_state) : Prop :=
  fitness_holds graph kw (cs_base st) /\
  (exists v, given graph kw "adj" v /\ adj_spec (cs_num_groups st) v (cs_adj st)) /\
  given graph kw "groups" (cs_groups st) /\
  groups_spec (cs_num_groups st) (cs_groups st) /\
  cs_adj_cols st = cs_num_groups st.

Lemma cond_checks_spec : forall graph kw st,
  NoDup (map fst graph) -> NoDup (map fst kw) ->
  (forall n v, given graph kw n v -> well_formed v) ->
  cond_checks (rev kw ++ graph) = Ok st <-> cond_holds graph kw st.
Proof.
  intros graph kw st Hg Hk Hwf; unfold cond_checks, cond_holds; split.
  - intros H; apply bind_ok in H; destruct H as [b [Hb H]].
    apply fitness_checks_spec in Hb; [|exact Hg | exact Hk | exact Hwf].
    apply (required_spec graph kw Hg Hk) in H; destruct H as [va [Ha H]].
    apply (required_spec graph kw Hg Hk) in H; destruct H as [vg [Hgr H]].
    apply bind_ok in H; destruct H as [[c rows] [Hm H]]; cbv zeta in H; cbn [fst snd] in H.
    apply guard_ok in H; destruct H as [Hsq H]; apply Nat.eqb_eq in Hsq.
    apply bind_ok in H; destruct H as [i [Hi H]].
    apply guard_ok in H; destruct H as [-> H].
    apply bind_ok in H; destruct H as [g [Hgm H]].
    apply guard_ok in H; destruct H as [Hq H].
    injection H as <-; cbn [cs_base cs_adj cs_groups cs_num_groups cs_adj_cols].
    split; [exact Hb|]; split.
    { exists va; split; [exact Ha|]; apply adj_arg_spec; [apply (Hwf _ _ Ha)|].
      exists c; auto. }
    split; [exact Hgr|]; split; [|exact Hsq].
    apply groups_arg_spec; [apply (Hwf _ _ Hgr)|]; exists g; auto.
  - intros [Hb [[va [Ha Hadj]] [Hgr [Hgs Hsq]]]].
    apply bind_ok; exists (cs_base st); split;
      [apply fitness_checks_spec; assumption|].
    apply (required_spec graph kw Hg Hk); exists va; split; [exact Ha|].
    apply (required_spec graph kw Hg Hk); exists (cs_groups st); split; [exact Hgr|].
    apply adj_arg_spec in Hadj; [|apply (Hwf _ _ Ha)]; destruct Hadj as [c [Hadj [Hc HG]]].
    apply bind_ok; exists (c, cs_adj st); split; [exact Hadj|]; cbv zeta; cbn [fst snd].
    apply guard_ok; split; [apply Nat.eqb_eq; exact Hc|].
    apply groups_arg_spec in Hgs; [|apply (Hwf _ _ Hgr)]; destruct Hgs as [g [H1 [H2 H3]]].
    apply bind_ok; exists true; split; [exact H1|].
    apply guard_ok; split; [reflexivity|].
    apply bind_ok; exists g; split; [exact H2|].
    apply guard_ok; split; [rewrite HG in H3; exact H3|].
    destruct st as [b gr ng co ad]; cbn in *; subst; reflexivity.
Qed.

Lemma cond_graph_spec : forall args a, cond_args args = Ok a <-> cond_graph args a.
Proof.
  intros args a; split.
  - intros H; destruct args as [|[g x|v] rest]; simpl in H; [|
      destruct rest as [|[g' y|[s|l|d sh data|c rows|]] rest]|]; try discriminate;
      injection H as <-; constructor.
  - intros H; destruct H; reflexivity.
Qed.

Definition digraph_wf (g : digraph_data) : Prop :=
  match gd_groups g with Some v => well_formed v | None => True end.

(** The positional arguments are well-formed values. *)
Definition cond_args_wf (args : list carg) : Prop :=
  forall x, In x args ->
    match x with CGraph g adj => digraph_wf g /\ well_formed adj | CValue v => well_formed v end.

Lemma from_micro_facts : forall g, digraph_wf g ->
  NoDup (map fst (from_micro g)) /\
  ~ In "adj" (map fst (from_micro g)) /\
  forall n v, In (n, v) (from_micro g) -> well_formed v.
Proof.
  intros g Hg; unfold from_micro, digraph_wf in *; destruct (gd_groups g) as [w|].
  - split; [no_dup|]; split; [simpl; intuition discriminate|].
    intros n v H; simpl in H.
    destruct H as [H|H]; [injection H as <- <-; exact Hg|].
    repeat (destruct H as [H|H]; [injection H as <- <-; simpl; lia || exact I|]); destruct H.
  - split; [no_dup|]; split; [simpl; intuition discriminate|].
    intros n v H; simpl in H.
    repeat (destruct H as [H|H]; [injection H as <- <-; simpl; lia || exact I|]); destruct H.
Qed.

Lemma cond_graph_facts : forall args graph, cond_args_wf args -> cond_graph args graph ->
  NoDup (map fst graph) /\ forall n v, In (n, v) graph -> well_formed v.
Proof.
  intros args graph Hwf H; unfold cond_args_wf in Hwf.
  destruct H as [|g a|g a g' adj rest|g a d sh data rest|g a c rows rest].
  - split; [constructor | intros ? ? []].
  - destruct (from_micro_facts g) as [H1 [H2 H3]]; [apply (Hwf (CGraph g a)); left; reflexivity|]; auto.
  - destruct (from_micro_facts g) as [H1 [H2 H3]]; [apply (Hwf (CGraph g a)); left; reflexivity|].
    split; [simpl; constructor; assumption|].
    intros n v [K|K]; [injection K as <- <-; apply (Hwf (CGraph g' adj)); right; left; reflexivity
                      | apply (H3 _ _ K)].
  - destruct (from_micro_facts g) as [H1 [H2 H3]]; [apply (Hwf (CGraph g a)); left; reflexivity|].
    split; [simpl; constructor; assumption|].
    intros n v [K|K]; [injection K as <- <-; apply (Hwf (CValue (Arr d sh data))); right; left; reflexivity
                      | apply (H3 _ _ K)].
  - destruct (from_micro_facts g) as [H1 [H2 H3]]; [apply (Hwf (CGraph g a)); left; reflexivity|].
    split; [simpl; constructor; assumption|].
    intros n v [K|K]; [injection K as <- <-; exact I | apply (H3 _ _ K)].
Qed.

(** C64, ConditionalInvariantModel. *)
Theorem C64_conditional : forall args kw st,
  NoDup (map fst kw) -> (forall n v, In (n, v) kw -> well_formed v) -> cond_args_wf args ->
  (cond_init args kw = Ok st <->
   (forall n v, In (n, v) kw ->
      In n ["num_vertices"; "num_edges"; "prop_out"; "prop_in"; "groups"; "adj"; "param";
            "selfloops"]) /\
   exists graph, cond_graph args graph /\ cond_holds graph kw st).
Proof.
  intros args kw st Hk Hwf Hargs; unfold cond_init; split.
  - intros H; apply bind_ok in H; destruct H as [a0 [H0 H]].
    apply cond_graph_spec in H0; destruct (cond_graph_facts _ _ Hargs H0) as [Hg Hgw].
    apply bind_ok in H; destruct H as [a [Ha H]].
    apply apply_kwargs_ok in Ha; destruct Ha as [-> Hn].
    split; [exact Hn|]; exists a0; split; [exact H0|].
    apply cond_checks_spec; [exact Hg | exact Hk | apply given_wf; assumption | exact H].
  - intros [Hn [graph [H0 H]]]; destruct (cond_graph_facts _ _ Hargs H0) as [Hg Hgw].
    apply bind_ok; exists graph; split; [apply cond_graph_spec; exact H0|].
    apply bind_ok; exists (rev kw ++ graph); split; [apply apply_kwargs_ok; split; [reflexivity | exact Hn]|].
    apply cond_checks_spec; [exact Hg | exact Hk | apply given_wf; assumption | exact H].
Qed.
Print Assumptions C64_conditional.

(** Two vertices in two groups, the macroscopic graph having one link. *)
Definition ex_cond_kw : list (string * value) :=
  [("adj", Arr DFloat [2%nat; 2%nat] [Fin 0; Fin 1; Fin 0; Fin 0]);
   ("groups", Arr DInt [2%nat] [Fin 0; Fin 1])].

Definition ex_cond_state : cond_state :=
  {| cs_base := {| fs_vertices := 2; fs_out := [Fin 1; Fin 2]; fs_in := [Fin 3; Fin 0];
                   fs_selfloops := Sc (SBool false); fs_edges := Some (Sc (SFloat (Fin 3)));
                   fs_param := None |};
     cs_groups := Arr DInt [2%nat] [Fin 0; Fin 1]; cs_num_groups := 2; cs_adj_cols := 2;
     cs_adj := [[(1%nat, Fin 1)]; []] |}.

Example C64_conditional_example :
  NoDup (map fst ex_cond_kw) /\ (forall n v, In (n, v) ex_cond_kw -> well_formed v) /\
  cond_args_wf [CGraph ex_graph Obj] /\
  cond_init [CGraph ex_graph Obj] ex_cond_kw = Ok ex_cond_state.
Proof.
  assert (W1 : NoDup (map fst ex_cond_kw)) by no_dup.
  assert (W2 : forall n v, In (n, v) ex_cond_kw -> well_formed v)
    by (intros n v [H|[H|[]]]; injection H as <- <-; reflexivity).
  assert (W3 : cond_args_wf [CGraph ex_graph Obj]) by (intros x [<-|[]]; split; exact I).
  split; [exact W1|]; split; [exact W2|]; split; [exact W3|].
  apply C64_conditional; [exact W1 | exact W2 | exact W3|].
  split; [intros n v [H|[H|[]]]; injection H as <- <-; simpl; auto 10|].
  exists (from_digraph ex_graph); split; [apply (cg_one ex_graph Obj)|].
  assert (G : forall n v, In (n, v) (from_digraph ex_graph) ->
    given (from_digraph ex_graph) ex_cond_kw n v).
  { intros n v H; right; split; [|exact H].
    simpl in H; repeat (destruct H as [H|H]; [injection H as <- <-; simpl; intuition discriminate|]);
      destruct H. }
  unfold cond_holds, fitness_holds, ex_cond_state;
    cbn [cs_base cs_adj cs_groups cs_num_groups cs_adj_cols
         fs_vertices fs_out fs_in fs_selfloops fs_edges fs_param].
  split; [split; [|split; [|split; [|split; [|split; [|split]]]]]|].
  - eexists; split; [apply (G _ (Sc (SInt 2))); left; reflexivity|].
    split; [lia|]; left; eexists; split; [reflexivity|].
    replace (INR 2) with (IZR 2) by (simpl; lra); constructor.
  - eexists; split; [apply G; right; right; left; reflexivity|].
    exists DFloat; split; [reflexivity|]; split; [right; left; reflexivity | all_nonneg].
  - eexists; split; [apply G; right; right; right; left; reflexivity|].
    exists DFloat; split; [reflexivity|]; split; [right; left; reflexivity | all_nonneg].
  - right; split; [split; simpl; intuition discriminate | reflexivity].
  - exists (Sc (SInt 3)); split; [apply G; right; left; reflexivity|].
    constructor; [constructor | apply notneg_fin; lra].
  - split; simpl; intuition discriminate.
  - left; discriminate.
  - split.
    { eexists; split; [left; left; reflexivity|].
      apply ad_dense; [right; left; reflexivity|].
      split; [reflexivity|]; intros i Hi.
      destruct i as [|[|i]]; [| |lia].
      - split; [repeat constructor|]; intros j x; cbn; split.
        + intros [H|[]]; injection H as <- <-; split; [lia|]; split; [reflexivity|].
          intros K; injection K as K; lra.
        + intros [Hj [H1 H2]]; destruct j as [|[|j]]; [| |lia]; cbn in H1; injection H1 as <-.
          * contradiction.
          * left; reflexivity.
      - split; [repeat constructor|]; intros j x; cbn; split; [intros []|].
        intros [Hj [H1 H2]]; destruct j as [|[|j]]; [| |lia]; cbn in H1; injection H1 as <-;
          contradiction. }
    split; [left; right; left; reflexivity|]; split; [|reflexivity].
    constructor; replace (INR 2 - 1) with 1 by (simpl; lra).
    + right; left; reflexivity.
    + apply Forall_cons; [right; exists 0; split; [reflexivity | lra]|].
      apply Forall_cons; [right; exists 1; split; [reflexivity | lra]|]; apply Forall_nil.
Qed.

(** * MultiFitnessModel *)

(** The values a MultiDiGraph supplies. *)
Definition from_multi (g : multi_data) : list (string * value) :=
  [("num_vertices", Sc (SInt (Z.of_nat (md_vertices g))));
   ("num_labels", Sc (SInt (Z.of_nat (md_labels g))));
   ("num_edges", Sc (SInt (Z.of_nat (md_edges g))));
   ("num_edges_label", Arr DInt [length (md_edges_label g)] (md_edges_label g));
   ("prop_out", Csr (md_labels g) (md_out g)); ("prop_in", Csr (md_labels g) (md_in g));
   ("per_label", Sc (SBool true))].

Definition multi_graph (args : list marg) (graph : list (string * value)) : Prop :=
  (args = [] /\ graph = []) \/
  (exists g rest, args = MGraph g :: rest /\ graph = from_multi g).

Definition supplied (graph kw : list (string * value)) (name : string) (o : option value) : Prop :=
  match o with Some v => given graph kw name v | None => not_given graph kw name end.

(** What MultiFitnessModel holds, in terms of the values supplied. *)
Definition multi_holds (graph kw : list (string * value)) (st : multi_state) : Prop :=
  (exists v, given graph kw "num_vertices" v /\ count_spec v (ms_vertices st)) /\
  (exists v, given graph kw "num_labels" v /\ count_spec v (ms_labels st)) /\
  (exists v, given graph kw "prop_out" v /\
             matrix_spec (ms_vertices st) (ms_labels st) v (ms_out st)) /\
  (exists v, given graph kw "prop_in" v /\
             matrix_spec (ms_vertices st) (ms_labels st) v (ms_in st)) /\
  (given graph kw "selfloops" (ms_selfloops st) \/
   not_given graph kw "selfloops" /\ ms_selfloops st = Sc (SBool false)) /\
  (exists ne nl, supplied graph kw "num_edges" ne /\ supplied graph kw "num_edges_label" nl /\
     edges_spec (ms_labels st) ne nl (ms_edges st) (ms_edges_label st)) /\
  (exists by_label,
     optional graph kw "param" (fun v x => multi_param_spec (ms_labels st) v (by_label, x))
       (ms_param st) /\
     (ms_param st = None -> by_label = match ms_edges_label st with Some _ => true | None => false end) /\
     (In ("per_label", ms_per_label st) kw \/
      ~ In "per_label" (map fst kw) /\ ms_per_label st = Sc (SBool by_label))) /\
  (ms_edges st <> None \/ ms_edges_label st <> None \/ ms_param st <> None).

Lemma getattr_supplied : forall graph kw n, NoDup (map fst graph) -> NoDup (map fst kw) ->
  forall o, getattr (rev kw ++ graph) n = o <-> supplied graph kw n o.
Proof.
  intros graph kw n Hg Hk [v|]; simpl; [apply getattr_given; assumption | apply getattr_not_given].
Qed.

Lemma kw_label_spec : forall kw d w, NoDup (map fst kw) ->
  with_default (getattr kw "per_label") d = w <->
  (In ("per_label", w) kw \/ ~ In "per_label" (map fst kw) /\ w = d).
Proof.
  intros kw d w Hk; unfold with_default; destruct (getattr kw "per_label") as [v|] eqn:E.
  - apply getattr_in in E as Hin; split; [intros <-; left; exact Hin|].
    intros [H|[H _]].
    + apply (getattr_unique _ _ _ Hk) in H; congruence.
    + exfalso; apply H, in_map_iff; exists ("per_label", v); auto.
  - apply getattr_none in E; split; [intros <-; right; auto|].
    intros [H|[_ H]]; [|congruence].
    exfalso; apply E, in_map_iff; exists ("per_label", w); auto.
Qed.

Lemma multi_checks_spec : forall graph kw st,
  NoDup (map fst graph) -> NoDup (map fst kw) ->
  (forall n v, given graph kw n v -> well_formed v) ->
  multi_checks (rev kw ++ graph) (getattr kw "per_label") = Ok st <-> multi_holds graph kw st.
Proof.
  intros graph kw st Hg Hk Hwf; unfold multi_checks, multi_holds.
  rewrite (required_spec graph kw Hg Hk).
  assert (EP : forall L o, (1 <= L)%nat ->
    opt_arg (multi_param L) (getattr (rev kw ++ graph) "param") = Ok o <->
    optional graph kw "param" (multi_param_spec L) o).
  { intros L o HL; apply (opt_arg_spec graph kw Hg Hk); intros v Hv x; apply multi_param_arg_spec, HL. }
  split.
  - intros [vn [Hn H]].
    apply bind_ok in H; destruct H as [N [HN H]]; apply count_arg_spec in HN.
    apply (required_spec graph kw Hg Hk) in H; destruct H as [vl [Hl H]].
    apply bind_ok in H; destruct H as [L [HL H]]; apply count_arg_spec in HL.
    apply (required_spec graph kw Hg Hk) in H; destruct H as [vo [Ho H]].
    apply (required_spec graph kw Hg Hk) in H; destruct H as [vi [Hi H]].
    cbv zeta in H.
    apply bind_ok in H; destruct H as [mo [Hmo H]].
    apply bind_ok in H; destruct H as [mi [Hmi H]].
    apply bind_ok in H; destruct H as [out [Hout H]].
    apply bind_ok in H; destruct H as [inn [Hinn H]].
    apply guard_ok in H; destruct H as [Ho1 H]; apply negb_true_iff in Ho1.
    apply guard_ok in H; destruct H as [Hi1 H]; apply negb_true_iff in Hi1.
    apply bind_ok in H; destruct H as [e [He H]].
    apply bind_ok in H; destruct H as [[edges labels] [Hc H]]; cbn [fst snd] in H.
    apply bind_ok in H; destruct H as [p [Hp H]]; apply EP in Hp; [|apply HL].
    assert (Hes : edges_spec L (getattr (rev kw ++ graph) "num_edges")
                    (getattr (rev kw ++ graph) "num_edges_label") edges labels).
    { apply edges_arg_spec.
      - intros v Hv; apply (getattr_given graph kw Hg Hk) in Hv; apply (Hwf _ _ Hv).
      - apply bind_ok; exists e; auto. }
    assert (Hst : (edges <> None \/ labels <> None \/ p <> None) /\
      Ok {| ms_vertices := N; ms_labels := L; ms_out := out; ms_in := inn;
            ms_selfloops := with_default (getattr (rev kw ++ graph) "selfloops") (Sc (SBool false));
            ms_edges := edges; ms_edges_label := labels;
            ms_param := match p with Some (_, x) => Some x | None => None end;
            ms_per_label := with_default (getattr kw "per_label")
              (Sc (SBool (match p with
                          | Some (b, _) => b
                          | None => match labels with Some _ => true | None => false end
                          end))) |} = Ok st).
    { destruct edges, labels, p; try discriminate; split; try exact H;
        try (left; discriminate); right; try (left; discriminate); right; discriminate. }
    clear H; destruct Hst as [Hne Hst]; injection Hst as <-.
    cbn [ms_vertices ms_labels ms_out ms_in ms_selfloops ms_edges ms_edges_label ms_param ms_per_label].
    split; [exists vn; auto|]; split; [exists vl; auto|].
    split; [exists vo; split; [exact Ho|]; apply matrix_arg_spec;
            [apply (Hwf _ _ Ho) | split; [apply bind_ok; exists mo; auto | exact Ho1]]|].
    split; [exists vi; split; [exact Hi|]; apply matrix_arg_spec;
            [apply (Hwf _ _ Hi) | split; [apply bind_ok; exists mi; auto | exact Hi1]]|].
    split; [apply (default_spec graph kw Hg Hk); reflexivity|].
    split.
    { exists (getattr (rev kw ++ graph) "num_edges"), (getattr (rev kw ++ graph) "num_edges_label").
      split; [apply getattr_supplied; auto|]; split; [apply getattr_supplied; auto | exact Hes]. }
    split.
    { exists (match p with Some (b, _) => b
              | None => match labels with Some _ => true | None => false end end).
      split; [destruct p as [[b x]|]; exact Hp|].
      split; [destruct p as [[b x]|]; [discriminate | reflexivity]|].
      apply kw_label_spec; [exact Hk | reflexivity]. }
    destruct Hne as [K|[K|K]]; [left; exact K | right; left; exact K|].
    right; right; destruct p as [[b x]|]; [discriminate | contradiction].
  - intros [[vn [Hn HN]] [[vl [Hl HL]] [[vo [Ho Hout]] [[vi [Hi Hinn]] [Hs [[ne [nl [He [Hle Hes]]]] [[bl [Hp [Hb Hpl]]] Hne]]]]]]].
    exists vn; split; [exact Hn|].
    apply bind_ok; exists (ms_vertices st); split; [apply count_arg_spec; exact HN|].
    apply (required_spec graph kw Hg Hk); exists vl; split; [exact Hl|].
    apply bind_ok; exists (ms_labels st); split; [apply count_arg_spec; exact HL|].
    apply (required_spec graph kw Hg Hk); exists vo; split; [exact Ho|].
    apply (required_spec graph kw Hg Hk); exists vi; split; [exact Hi|].
    apply matrix_arg_spec in Hout; [|apply (Hwf _ _ Ho)]; destruct Hout as [Hout Ho1].
    apply bind_ok in Hout; destruct Hout as [mo [Hmo Hout]].
    apply matrix_arg_spec in Hinn; [|apply (Hwf _ _ Hi)]; destruct Hinn as [Hinn Hi1].
    apply bind_ok in Hinn; destruct Hinn as [mi [Hmi Hinn]].
    cbv zeta.
    apply bind_ok; exists mo; split; [exact Hmo|].
    apply bind_ok; exists mi; split; [exact Hmi|].
    apply bind_ok; exists (ms_out st); split; [exact Hout|].
    apply bind_ok; exists (ms_in st); split; [exact Hinn|].
    apply guard_ok; split; [rewrite Ho1; reflexivity|].
    apply guard_ok; split; [rewrite Hi1; reflexivity|].
    assert (Hwe : forall v, ne = Some v -> well_formed v).
    { intros v ->; simpl in He; apply (Hwf _ _ He). }
    apply (getattr_supplied graph kw _ Hg Hk) in He; apply (getattr_supplied graph kw _ Hg Hk) in Hle.
    rewrite He, Hle.
    apply edges_arg_spec in Hes; [|exact Hwe].
    apply bind_ok in Hes; destruct Hes as [e [Hea Hec]].
    apply bind_ok; exists e; split; [exact Hea|].
    apply bind_ok; exists (ms_edges st, ms_edges_label st); split; [exact Hec|]; cbn [fst snd].
    apply bind_ok; exists (match ms_param st with Some x => Some (bl, x) | None => None end); split.
    { apply EP; [apply HL|]; destruct (ms_param st) as [x|]; exact Hp. }
    apply (default_spec graph kw Hg Hk) in Hs; rewrite Hs.
    apply (kw_label_spec kw (Sc (SBool bl)) _ Hk) in Hpl.
    destruct st as [N L out inn sl edges labels param pl]; cbn in *.
    destruct edges, labels, param; cbn; try rewrite Hpl; try reflexivity;
      try (rewrite (Hb eq_refl) in Hpl; rewrite Hpl; reflexivity).
    destruct Hne as [K|[K|K]]; exfalso; apply K; reflexivity.
Qed.

Lemma multi_graph_spec : forall args a,
  multi_args args = Ok a <-> multi_graph args a.
Proof.
  intros args a; unfold multi_graph; destruct args as [|[g|v] rest]; simpl; split.
  - intros H; injection H as <-; left; auto.
  - intros [[_ ->]|[g [r [H _]]]]; [reflexivity | discriminate].
  - intros H; right; exists g, rest; split; [reflexivity|].
    assert (multi_attrs g = a) as <- by congruence; reflexivity.
  - intros [[H _]|[g' [r [H ->]]]]; [discriminate | injection H as -> _; reflexivity].
  - discriminate.
  - intros [[H _]|[g' [r [H _]]]]; discriminate.
Qed.

Lemma multi_graph_facts : forall args graph, multi_graph args graph ->
  NoDup (map fst graph) /\ forall n v, In (n, v) graph -> well_formed v.
Proof.
  intros args graph [[_ ->]|[g [rest [_ ->]]]].
  - split; [constructor | intros ? ? []].
  - split; [no_dup|].
    intros n v H; simpl in H.
    repeat (destruct H as [H|H]; [injection H as <- <-; simpl; lia || exact I|]); destruct H.
Qed.

(** C64, MultiFitnessModel.  The rule for the two numbers of edges is [edges_spec]:
    [num_edges] is only checked when there is no [num_edges_label], and an array with one
    number per label is refused when there is one; both are shown below to break the
    property. *)
Theorem C64_multi : forall args kw st,
  NoDup (map fst kw) -> (forall n v, In (n, v) kw -> well_formed v) ->
  (multi_init args kw = Ok st <->
   (forall n v, In (n, v) kw ->
      In n ["num_vertices"; "num_edges"; "num_edges_label"; "num_labels"; "prop_out";
            "prop_in"; "param"; "selfloops"; "per_label"]) /\
   exists graph, multi_graph args graph /\ multi_holds graph kw st).
Proof.
  intros args kw st Hk Hwf; unfold multi_init; split.
  - intros H; apply bind_ok in H; destruct H as [a0 [H0 H]].
    apply multi_graph_spec in H0; destruct (multi_graph_facts _ _ H0) as [Hg Hgw].
    apply bind_ok in H; destruct H as [a [Ha H]].
    apply apply_kwargs_ok in Ha; destruct Ha as [-> Hn].
    split; [exact Hn|]; exists a0; split; [exact H0|].
    apply multi_checks_spec; [exact Hg | exact Hk | apply given_wf; assumption | exact H].
  - intros [Hn [graph [H0 H]]]; destruct (multi_graph_facts _ _ H0) as [Hg Hgw].
    apply bind_ok; exists graph; split; [apply multi_graph_spec; exact H0|].
    apply bind_ok; exists (rev kw ++ graph); split; [apply apply_kwargs_ok; split; [reflexivity | exact Hn]|].
    apply multi_checks_spec; [exact Hg | exact Hk | apply given_wf; assumption | exact H].
Qed.
Print Assumptions C64_multi.

(** Two vertices and two labels. *)
Definition ex_multi : multi_data :=
  {| md_vertices := 2; md_labels := 2; md_edges := 2; md_edges_label := [Fin 1; Fin 2];
     md_out := [[(0%nat, Fin 1)]; [(1%nat, Fin 2)]];
     md_in := [[(1%nat, Fin 2)]; [(0%nat, Fin 1)]] |}.

Definition ex_multi_state (edges : option value) : multi_state :=
  {| ms_vertices := 2; ms_labels := 2;
     ms_out := [[(0%nat, Fin 1)]; [(1%nat, Fin 2)]];
     ms_in := [[(1%nat, Fin 2)]; [(0%nat, Fin 1)]];
     ms_selfloops := Sc (SBool false); ms_edges := edges;
     ms_edges_label := Some ([2%nat], [Fin 1; Fin 2]); ms_param := None;
     ms_per_label := Sc (SBool true) |}.

Lemma ex_multi_any : forall v, (forall d sh data, v <> Arr d sh data) -> well_formed v ->
  multi_init [MGraph ex_multi] [("num_edges", v)] = Ok (ex_multi_state (Some v)).
Proof.
  intros v Hv Hwf.
  apply C64_multi; [no_dup | intros n w [H|[]]; injection H as <- <-; exact Hwf|].
  split; [intros n w [H|[]]; injection H as <- <-; simpl; auto|].
  exists (from_multi ex_multi); split; [right; exists ex_multi, []; auto|].
  assert (G : forall n w, In (n, w) (from_multi ex_multi) -> n <> "num_edges" ->
    given (from_multi ex_multi) [("num_edges", v)] n w).
  { intros n w H Hn; right; split; [simpl; intuition congruence | exact H]. }
  assert (C : count_spec (Sc (SInt 2)) 2).
  { split; [lia|]; left; eexists; split; [reflexivity|].
    replace (INR 2) with (IZR 2) by (simpl; lra); constructor. }
  unfold multi_holds, ex_multi_state;
    cbn [ms_vertices ms_labels ms_out ms_in ms_selfloops ms_edges ms_edges_label ms_param ms_per_label].
  split; [exists (Sc (SInt 2)); split; [apply G; [simpl; auto | discriminate] | exact C]|].
  split; [exists (Sc (SInt 2)); split; [apply G; [simpl; auto | discriminate] | exact C]|].
  split.
  { eexists; split; [apply G; [do 4 right; left; reflexivity | discriminate]|].
    apply mx_sparse; [reflexivity|].
    repeat apply Forall_cons; try apply Forall_nil; apply notneg_fin; simpl; lra. }
  split.
  { eexists; split; [apply G; [do 5 right; left; reflexivity | discriminate]|].
    apply mx_sparse; [reflexivity|].
    repeat apply Forall_cons; try apply Forall_nil; apply notneg_fin; simpl; lra. }
  split; [right; split; [split; simpl; intuition discriminate | reflexivity]|].
  split.
  { exists (Some v), (Some (Arr DInt [2%nat] [Fin 1; Fin 2])).
    split; [left; left; reflexivity|].
    split; [apply G; [do 3 right; left; reflexivity | discriminate]|].
    apply es_labels_any; [|apply not_array; exact Hv].
    constructor; [left; reflexivity | all_nonneg]. }
  split.
  { exists true; split; [split; simpl; intuition discriminate|].
    split; [reflexivity|]; right; split; [simpl; intuition discriminate | reflexivity]. }
  left; discriminate.
Qed.

Example C64_multi_example :
  NoDup (map fst [("num_edges", Sc (SInt 7))]) /\
  multi_init [MGraph ex_multi] [("num_edges", Sc (SInt 7))] =
    Ok (ex_multi_state (Some (Sc (SInt 7)))).
Proof. split; [no_dup | apply ex_multi_any; [discriminate | exact I]]. Qed.

(** * Consequences for all constructors *)

Lemma getattr_agree : forall graph graph' kw,
  NoDup (map fst graph) -> NoDup (map fst graph') ->
  (forall n v, ~ In n (map fst kw) -> (In (n, v) graph <-> In (n, v) graph')) ->
  forall n, getattr (rev kw ++ graph) n = getattr (rev kw ++ graph') n.
Proof.
  intros graph graph' kw Hg Hg' H n; rewrite !getattr_app.
  destruct (getattr (rev kw) n) as [v|] eqn:E; [reflexivity|].
  apply getattr_none in E; rewrite in_rev_names in E.
  destruct (getattr graph n) as [v|] eqn:E1.
  - apply getattr_in in E1; apply (H n v E) in E1; symmetry; apply (getattr_unique _ _ _ Hg'); exact E1.
  - destruct (getattr graph' n) as [v|] eqn:E2; [|reflexivity].
    apply getattr_in in E2; apply (H n v E) in E2; apply (getattr_unique _ _ _ Hg) in E2; congruence.
Qed.

Lemma fitness_checks_ext : forall a b, (forall n, getattr a n = getattr b n) ->
  fitness_checks a = fitness_checks b.
Proof. intros a b H; unfold fitness_checks, required, hasattr; rewrite !H; reflexivity. Qed.

Lemma random_checks_ext : forall a b, (forall n, getattr a n = getattr b n) ->
  random_checks a = random_checks b.
Proof. intros a b H; unfold random_checks, required, hasattr; rewrite !H; reflexivity. Qed.

Lemma multi_checks_ext : forall a b l, (forall n, getattr a n = getattr b n) ->
  multi_checks a l = multi_checks b l.
Proof. intros a b l H; unfold multi_checks, required; rewrite !H; reflexivity. Qed.

Lemma cond_checks_ext : forall a b, (forall n, getattr a n = getattr b n) ->
  cond_checks a = cond_checks b.
Proof.
  intros a b H; unfold cond_checks; rewrite (fitness_checks_ext a b H).
  unfold required; rewrite !H; reflexivity.
Qed.

Lemma apply_kwargs_result : forall allowed kw,
  (exists e, forall a, apply_kwargs allowed kw a = Raise e) \/
  (forall a, apply_kwargs allowed kw a = Ok (rev kw ++ a)).
Proof.
  intros allowed kw; induction kw as [|[n v] kw IH]; simpl; [right; reflexivity|].
  unfold guard; destruct (mem_name n allowed); [|left; exists ValueError; reflexivity].
  destruct IH as [[e IH]|IH]; [left; exists e; intros a; apply IH|].
  right; intros a; rewrite IH, <- app_assoc; reflexivity.
Qed.

(** C64, override: a value given by keyword replaces the one of the graph.  The result
    depends on the graph only through the values whose names are not among the keywords;
    in particular a graph all of whose values are given by keyword could be left out. *)
Theorem C64_override : forall kw,
  (forall args args' graph graph', fitness_graph args graph -> fitness_graph args' graph' ->
     (forall n v, ~ In n (map fst kw) -> (In (n, v) graph <-> In (n, v) graph')) ->
     fitness_init args kw = fitness_init args' kw) /\
  (forall args args' graph graph', random_graph args graph -> random_graph args' graph' ->
     (forall n v, ~ In n (map fst kw) -> (In (n, v) graph <-> In (n, v) graph')) ->
     random_init args kw = random_init args' kw) /\
  (forall args args' graph graph', multi_graph args graph -> multi_graph args' graph' ->
     (forall n v, ~ In n (map fst kw) -> (In (n, v) graph <-> In (n, v) graph')) ->
     multi_init args kw = multi_init args' kw) /\
  (forall args args' graph graph', cond_graph args graph -> cond_graph args' graph' ->
     cond_args_wf args -> cond_args_wf args' ->
     (forall n v, ~ In n (map fst kw) -> (In (n, v) graph <-> In (n, v) graph')) ->
     cond_init args kw = cond_init args' kw).
Proof.
  intros kw; split; [|split; [|split]].
  - intros args args' graph graph' H H' HA; unfold fitness_init.
    apply fitness_graph_spec in H as E; apply fitness_graph_spec in H' as E'.
    rewrite E, E'; cbn [bind].
    destruct (apply_kwargs_result fitness_allowed kw) as [[e K]|K]; rewrite !K; [reflexivity|].
    cbn [bind]; apply fitness_checks_ext, getattr_agree; [| |exact HA].
    + apply (fitness_graph_facts _ _ H).
    + apply (fitness_graph_facts _ _ H').
  - intros args args' graph graph' H H' HA; unfold random_init.
    apply random_graph_spec in H as E; apply random_graph_spec in H' as E'.
    rewrite E, E'; cbn [bind].
    destruct (apply_kwargs_result random_allowed kw) as [[e K]|K]; rewrite !K; [reflexivity|].
    cbn [bind]; apply random_checks_ext, getattr_agree; [| |exact HA].
    + apply (random_graph_facts _ _ H).
    + apply (random_graph_facts _ _ H').
  - intros args args' graph graph' H H' HA; unfold multi_init.
    apply multi_graph_spec in H as E; apply multi_graph_spec in H' as E'.
    rewrite E, E'; cbn [bind].
    destruct (apply_kwargs_result multi_allowed kw) as [[e K]|K]; rewrite !K; [reflexivity|].
    cbn [bind]; apply multi_checks_ext, getattr_agree; [| |exact HA].
    + apply (multi_graph_facts _ _ H).
    + apply (multi_graph_facts _ _ H').
  - intros args args' graph graph' H H' W W' HA; unfold cond_init.
    apply cond_graph_spec in H as E; apply cond_graph_spec in H' as E'.
    rewrite E, E'; cbn [bind].
    destruct (apply_kwargs_result cond_allowed kw) as [[e K]|K]; rewrite !K; [reflexivity|].
    cbn [bind]; apply cond_checks_ext, getattr_agree; [| |exact HA].
    + apply (cond_graph_facts _ _ W H).
    + apply (cond_graph_facts _ _ W' H').
Qed.
Print Assumptions C64_override.

(** With all four values given by keyword the graph does not matter. *)
Example C64_override_example : forall kw g,
  In "num_vertices" (map fst kw) -> In "num_edges" (map fst kw) ->
  In "prop_out" (map fst kw) -> In "prop_in" (map fst kw) ->
  fitness_init [AGraph g] kw = fitness_init [] kw.
Proof.
  intros kw g H1 H2 H3 H4.
  apply (proj1 (C64_override kw) _ _ (from_digraph g) []);
    [right; exists g, []; auto | left; auto|].
  intros n v Hn; split; [|intros []].
  intros H; simpl in H.
  repeat (destruct H as [H|H]; [injection H as <- <-; contradiction|]); destruct H.
Qed.

(** Rejection with some exception. *)
Definition rejected {A} (r : res A) : Prop := exists e, r = Raise e.

Lemma not_ok_rejected : forall A (r : res A), (forall st, r <> Ok st) -> rejected r.
Proof.
  intros A r H; destruct r as [x|e]; [exfalso; apply (H x); reflexivity | exists e; reflexivity].
Qed.

(** C64, missing data: what no keyword and no graph supplies. *)
Theorem C64_missing : forall kw,
  NoDup (map fst kw) -> (forall n v, In (n, v) kw -> well_formed v) ->
  (forall args graph name, fitness_graph args graph -> not_given graph kw name ->
     In name ["num_vertices"; "prop_out"; "prop_in"] -> rejected (fitness_init args kw)) /\
  (forall args graph, fitness_graph args graph -> not_given graph kw "num_edges" ->
     not_given graph kw "param" -> rejected (fitness_init args kw)) /\
  (forall args graph, random_graph args graph -> not_given graph kw "num_vertices" ->
     rejected (random_init args kw)) /\
  (forall args graph, random_graph args graph -> not_given graph kw "num_edges" ->
     not_given graph kw "param" -> rejected (random_init args kw)) /\
  (forall args graph name, multi_graph args graph -> not_given graph kw name ->
     In name ["num_vertices"; "num_labels"; "prop_out"; "prop_in"] ->
     rejected (multi_init args kw)) /\
  (forall args graph, multi_graph args graph -> not_given graph kw "num_edges" ->
     not_given graph kw "num_edges_label" -> not_given graph kw "param" ->
     rejected (multi_init args kw)) /\
  (forall args graph name, cond_graph args graph -> cond_args_wf args ->
     not_given graph kw name ->
     In name ["num_vertices"; "prop_out"; "prop_in"; "adj"; "groups"] ->
     rejected (cond_init args kw)) /\
  (forall args graph, cond_graph args graph -> cond_args_wf args ->
     not_given graph kw "num_edges" -> not_given graph kw "param" ->
     rejected (cond_init args kw)).
Proof.
  intros kw Hk Hwf.
  assert (NG : forall graph n v, given graph kw n v -> not_given graph kw n -> False).
  { intros graph n v [H|[_ H]] [H1 H2]; [apply H1 | apply H2]; apply in_map_iff; exists (n, v); auto. }
  assert (NO : forall A graph n (P : value -> A -> Prop) o,
    optional graph kw n P o -> not_given graph kw n -> o = None).
  { intros A graph n P [x|] H Hn; [destruct H as [v [H _]]; destruct (NG _ _ _ H Hn) | reflexivity]. }
  split; [|split; [|split; [|split; [|split; [|split; [|split]]]]]].
  - intros args graph name Hg Hn Hin; apply not_ok_rejected; intros st H.
    apply C64_fitness in H; [|exact Hk | exact Hwf]; destruct H as [_ [graph' [Hg' H]]].
    assert (graph' = graph).
    { apply fitness_graph_spec in Hg; apply fitness_graph_spec in Hg'; congruence. }
    subst graph'; destruct H as [[v1 [H1 _]] [[v2 [H2 _]] [[v3 [H3 _]] _]]].
    simpl in Hin; destruct Hin as [<-|[<-|[<-|[]]]]; (eapply NG; [|exact Hn]; eassumption).
  - intros args graph Hg Hn1 Hn2; apply not_ok_rejected; intros st H.
    apply C64_fitness in H; [|exact Hk | exact Hwf]; destruct H as [_ [graph' [Hg' H]]].
    assert (graph' = graph).
    { apply fitness_graph_spec in Hg; apply fitness_graph_spec in Hg'; congruence. }
    subst graph'; destruct H as [_ [_ [_ [_ [H1 [H2 H3]]]]]].
    apply (NO _ _ _ _ _ H1) in Hn1; apply (NO _ _ _ _ _ H2) in Hn2; tauto.
  - intros args graph Hg Hn; apply not_ok_rejected; intros st H.
    apply C64_random in H; [|exact Hk | exact Hwf]; destruct H as [_ [graph' [Hg' H]]].
    assert (graph' = graph).
    { apply random_graph_spec in Hg; apply random_graph_spec in Hg'; congruence. }
    subst graph'; destruct H as [[v1 [H1 _]] _]; (eapply NG; [|exact Hn]; eassumption).
  - intros args graph Hg Hn1 Hn2; apply not_ok_rejected; intros st H.
    apply C64_random in H; [|exact Hk | exact Hwf]; destruct H as [_ [graph' [Hg' H]]].
    assert (graph' = graph).
    { apply random_graph_spec in Hg; apply random_graph_spec in Hg'; congruence. }
    subst graph'; destruct H as [_ [_ [H1 [H2 [H3 _]]]]].
    apply (NO _ _ _ _ _ H1) in Hn1; apply (NO _ _ _ _ _ H2) in Hn2; tauto.
  - intros args graph name Hg Hn Hin; apply not_ok_rejected; intros st H.
    apply C64_multi in H; [|exact Hk | exact Hwf]; destruct H as [_ [graph' [Hg' H]]].
    assert (graph' = graph).
    { apply multi_graph_spec in Hg; apply multi_graph_spec in Hg'; congruence. }
    subst graph'; destruct H as [[v1 [H1 _]] [[v2 [H2 _]] [[v3 [H3 _]] [[v4 [H4 _]] _]]]].
    simpl in Hin; destruct Hin as [<-|[<-|[<-|[<-|[]]]]]; (eapply NG; [|exact Hn]; eassumption).
  - intros args graph Hg Hn1 Hn2 Hn3; apply not_ok_rejected; intros st H.
    apply C64_multi in H; [|exact Hk | exact Hwf]; destruct H as [_ [graph' [Hg' H]]].
    assert (graph' = graph).
    { apply multi_graph_spec in Hg; apply multi_graph_spec in Hg'; congruence. }
    subst graph'; destruct H as [_ [_ [_ [_ [_ [[ne [nl [H1 [H2 H3]]]] [[bl [H4 _]] H5]]]]]]].
    apply (NO _ _ _ _ _ H4) in Hn3.
    destruct ne as [v|]; [simpl in H1; destruct (NG _ _ _ H1 Hn1)|].
    destruct nl as [v|]; [simpl in H2; destruct (NG _ _ _ H2 Hn2)|].
    inversion H3; intuition congruence.
  - intros args graph name Hg Hw Hn Hin; apply not_ok_rejected; intros st H.
    apply C64_conditional in H; [|exact Hk | exact Hwf | exact Hw]; destruct H as [_ [graph' [Hg' H]]].
    assert (graph' = graph).
    { apply cond_graph_spec in Hg; apply cond_graph_spec in Hg'; congruence. }
    subst graph'; destruct H as [[[v1 [H1 _]] [[v2 [H2 _]] [[v3 [H3 _]] _]]] [[v4 [H4 _]] [H5 _]]].
    simpl in Hin; destruct Hin as [<-|[<-|[<-|[<-|[<-|[]]]]]]; (eapply NG; [|exact Hn]; eassumption).
  - intros args graph Hg Hw Hn1 Hn2; apply not_ok_rejected; intros st H.
    apply C64_conditional in H; [|exact Hk | exact Hwf | exact Hw]; destruct H as [_ [graph' [Hg' H]]].
    assert (graph' = graph).
    { apply cond_graph_spec in Hg; apply cond_graph_spec in Hg'; congruence. }
    subst graph'; destruct H as [[_ [_ [_ [_ [H1 [H2 H3]]]]]] _].
    apply (NO _ _ _ _ _ H1) in Hn1; apply (NO _ _ _ _ _ H2) in Hn2; tauto.
Qed.
Print Assumptions C64_missing.

(** A graph gives everything but the groups of the conditional model. *)
Example C64_missing_example :
  cond_graph [CGraph ex_graph Obj] (from_micro ex_graph) /\
  cond_args_wf [CGraph ex_graph Obj] /\
  not_given (from_micro ex_graph) [("adj", Csr 1 [[]])] "groups" /\
  rejected (cond_init [CGraph ex_graph Obj] [("adj", Csr 1 [[]])]).
Proof.
  assert (W3 : cond_args_wf [CGraph ex_graph Obj]) by (intros x [<-|[]]; split; exact I).
  split; [constructor|]; split; [exact W3|].
  assert (Hn : not_given (from_micro ex_graph) [("adj", Csr 1 [[]])] "groups")
    by (split; simpl; intuition discriminate).
  split; [exact Hn|].
  destruct (C64_missing [("adj", Csr 1 [[]])]) as [_ [_ [_ [_ [_ [_ [H _]]]]]]];
    [no_dup | intros n v [H|[]]; injection H as <- <-; exact I|].
  apply (H _ (from_micro ex_graph) "groups"); [constructor | exact W3 | exact Hn | simpl; auto 10].
Qed.

(** A negative number somewhere in the value. *)
Definition has_negative (v : value) : Prop :=
  exists r, r < 0 /\
  match v with
  | Sc s => scalar_is s (Fin r)
  | Seq l => exists s, In s l /\ scalar_is s (Fin r)
  | Arr _ _ data => In (Fin r) data
  | Csr _ rows => exists row j, In row rows /\ In (j, Fin r) row
  | Obj => False
  end.

Lemma scalar_is_unique : forall s x y, scalar_is s x -> scalar_is s y -> x = y.
Proof. intros s x y H1 H2; apply sc_num_spec in H1; apply sc_num_spec in H2; congruence. Qed.

Lemma not_negative_fin : forall r, r < 0 -> ~ not_negative (Fin r).
Proof. intros r Hr [_ H]; specialize (H r eq_refl); lra. Qed.

Lemma Forall_not_neg : forall l r, Forall not_negative l -> r < 0 -> ~ In (Fin r) l.
Proof. intros l r H Hr Hin; rewrite Forall_forall in H; apply (not_negative_fin r Hr), (H _ Hin). Qed.

Lemma list_not_neg : forall l xs r s, Forall2 scalar_is l xs -> Forall not_negative xs ->
  r < 0 -> In s l -> ~ scalar_is s (Fin r).
Proof.
  intros l xs r s H; induction H as [|s' x l xs Hs _ IH]; intros HF Hr Hin; [destruct Hin|].
  inversion HF; subst; destruct Hin as [<-|Hin]; [|apply IH; assumption].
  intros K; rewrite (scalar_is_unique _ _ _ Hs K) in *; apply (not_negative_fin r Hr); assumption.
Qed.

Lemma single_not_neg : forall v u, single_spec v u -> ~ has_negative v.
Proof.
  intros v u H [r [Hr K]]; destruct H as [s x H1 H2|s x H1 H2|d x H1 H2|d x H1 H2|d n sh data H1 H2 H3|row H].
  - rewrite (scalar_is_unique _ _ _ H1 K) in H2; apply (not_negative_fin r Hr H2).
  - destruct K as [s' [[<-|[]] K]]; rewrite (scalar_is_unique _ _ _ H1 K) in H2; apply (not_negative_fin r Hr H2).
  - destruct K as [->|[]]; apply (not_negative_fin r Hr H2).
  - destruct K as [->|[]]; apply (not_negative_fin r Hr H2).
  - apply (Forall_not_neg data r); assumption.
  - destruct K as [row' [j [[<-|[]] K]]]; rewrite Forall_forall in H; apply (not_negative_fin r Hr), (H _ K).
Qed.

Lemma count_not_neg : forall v n, count_spec v n -> ~ has_negative v.
Proof.
  intros v n [Hn [[s [-> H]]|[d [sh [-> H]]]]] [r [Hr K]]; pose proof (pos_INR n) as P.
  - pose proof (scalar_is_unique _ _ _ H K) as E; injection E as E; lra.
  - destruct K as [K|[]]; injection K as K; lra.
Qed.

Lemma param1_not_neg : forall v a, param1_spec v a -> ~ has_negative v.
Proof.
  intros v a H [r [Hr K]]; destruct H as [s x H1 H2 H3|l xs [H1 _] H3|d sh data H1 H2].
  - rewrite (scalar_is_unique _ _ _ H1 K) in H3; apply (not_negative_fin r Hr H3).
  - destruct K as [s [Hs K]]; apply (list_not_neg l xs r s); assumption.
  - apply (Forall_not_neg data r); assumption.
Qed.

Lemma param2_not_neg : forall v a, param2_spec v a -> ~ has_negative v.
Proof.
  intros v a H [r [Hr K]]; destruct H as [s x H1 H3|d sh data H1 H2].
  - rewrite (scalar_is_unique _ _ _ H1 K) in H3; apply (not_negative_fin r Hr H3).
  - apply (Forall_not_neg data r); assumption.
Qed.

Lemma fitness_not_neg : forall N v l, fitness_spec N v l -> ~ has_negative v.
Proof.
  intros N v l [d [-> [_ H]]] [r [Hr K]]; rewrite Forall_forall in H.
  destruct (H _ K) as [E|[r' [E Hr']]]; [discriminate | injection E as <-; lra].
Qed.

Lemma labels_not_neg : forall L v n, labels_spec L v n -> ~ has_negative v.
Proof. intros L v n H [r [Hr K]]; destruct H; apply (Forall_not_neg data r); assumption. Qed.

Lemma multi_param_not_neg : forall L v p, multi_param_spec L v p -> ~ has_negative v.
Proof.
  intros L v p H [r [Hr K]]; destruct H as [s x H1 H2 H3|s x H1 H2 H3|l xs H1 H2 [H3 _] H4|d sh data H1 H2|d sh data H1 H2 H3].
  - rewrite (scalar_is_unique _ _ _ H1 K) in H3; apply (not_negative_fin r Hr H3).
  - destruct K as [s' [[<-|[]] K]]; rewrite (scalar_is_unique _ _ _ H1 K) in H3; apply (not_negative_fin r Hr H3).
  - destruct K as [s [Hs K]]; apply (list_not_neg l xs r s); assumption.
  - apply (Forall_not_neg data r); assumption.
  - apply (Forall_not_neg data r); assumption.
Qed.

Lemma matrix_not_neg : forall N L v rows, well_formed v -> matrix_spec N L v rows -> ~ has_negative v.
Proof.
  intros N L v rows Hwf H [r [Hr K]]; destruct H as [d data rows H1 H2 H3|rows H1 H2].
  - apply In_nth_error in K; destruct K as [k K].
    assert (Hk : (k < N * L)%nat).
    { assert (k < length data)%nat by (apply nth_error_Some; congruence).
      simpl in Hwf; lia. }
    assert (HL : L <> 0%nat) by (intros ->; lia).
    destruct H2 as [Hlen H2].
    assert (Hi : (k / L < N)%nat) by (apply Nat.div_lt_upper_bound; [exact HL | lia]).
    destruct (H2 (k / L)%nat Hi) as [_ H4].
    assert (Hin : In ((k mod L)%nat, Fin r) (nth (k / L) rows [])).
    { apply H4; split; [apply Nat.mod_upper_bound; exact HL|].
      split; [|intros E; injection E as E; lra].
      rewrite Nat.mul_comm, <- Nat.div_mod by exact HL; exact K. }
    rewrite Forall_forall in H3.
    assert (Hrow : In (nth (k / L) rows []) rows).
    { apply nth_In; rewrite <- Hlen in Hi; exact Hi. }
    specialize (H3 _ Hrow); rewrite Forall_forall in H3; specialize (H3 _ Hin).
    apply (not_negative_fin r Hr H3).
  - destruct K as [row [j [Hrow Hin]]].
    rewrite Forall_forall in H2; specialize (H2 _ Hrow).
    rewrite Forall_forall in H2; apply (not_negative_fin r Hr), (H2 _ Hin).
Qed.

(** C64, negative values: they are rejected, whether they come from a keyword or from the
    graph.  For MultiFitnessModel this leaves out [num_edges]; see
    [C64_multi_negative_refuted]. *)
Theorem C64_negative : forall kw,
  NoDup (map fst kw) -> (forall n v, In (n, v) kw -> well_formed v) ->
  (forall args graph name v, fitness_graph args graph -> given graph kw name v ->
     has_negative v ->
     In name ["num_vertices"; "num_edges"; "prop_out"; "prop_in"; "param"] ->
     rejected (fitness_init args kw)) /\
  (forall args graph name v, random_graph args graph -> given graph kw name v ->
     has_negative v -> In name ["num_vertices"; "num_edges"; "param"; "total_weight"] ->
     rejected (random_init args kw)) /\
  (forall args graph name v, multi_graph args graph -> given graph kw name v ->
     has_negative v ->
     In name ["num_vertices"; "num_labels"; "num_edges_label"; "prop_out"; "prop_in";
              "param"] ->
     rejected (multi_init args kw)) /\
  (forall args graph name v, cond_graph args graph -> cond_args_wf args ->
     given graph kw name v -> has_negative v ->
     In name ["num_vertices"; "num_edges"; "prop_out"; "prop_in"; "param"] ->
     rejected (cond_init args kw)).
Proof.
  intros kw Hk Hwf.
  assert (OP : forall A graph n (P : value -> A -> Prop) o v, NoDup (map fst graph) ->
    optional graph kw n P o -> given graph kw n v -> exists x, P v x).
  { intros A graph n P [x|] v Hg H Hv.
    - destruct H as [w [Hw H]]; exists x; rewrite (given_unique graph kw Hg Hk n v w Hv Hw); exact H.
    - destruct (given_not graph kw Hg Hk n v Hv H). }
  assert (FIT : forall graph st name v, NoDup (map fst graph) ->
    fitness_holds graph kw st -> given graph kw name v -> has_negative v ->
    In name ["num_vertices"; "num_edges"; "prop_out"; "prop_in"; "param"] -> False).
  { intros graph st name v HND [[v1 [H1 S1]] [[v2 [H2 S2]] [[v3 [H3 S3]] [_ [H4 [H5 _]]]]]] Hv Hneg Hin.
    simpl in Hin; destruct Hin as [<-|[<-|[<-|[<-|[<-|[]]]]]].
    - rewrite (given_unique graph kw HND Hk _ _ _ Hv H1) in Hneg; apply (count_not_neg _ _ S1 Hneg).
    - destruct (OP _ _ _ _ _ _ HND H4 Hv) as [x K]; apply (single_not_neg _ _ K Hneg).
    - rewrite (given_unique graph kw HND Hk _ _ _ Hv H2) in Hneg; apply (fitness_not_neg _ _ _ S2 Hneg).
    - rewrite (given_unique graph kw HND Hk _ _ _ Hv H3) in Hneg; apply (fitness_not_neg _ _ _ S3 Hneg).
    - destruct (OP _ _ _ _ _ _ HND H5 Hv) as [x K]; apply (param1_not_neg _ _ K Hneg). }
  split; [|split; [|split]].
  - intros args graph name v Hg Hv Hneg Hin; apply not_ok_rejected; intros st H.
    apply C64_fitness in H; [|exact Hk | exact Hwf]; destruct H as [_ [graph' [Hg' H]]].
    assert (graph' = graph).
    { apply fitness_graph_spec in Hg; apply fitness_graph_spec in Hg'; congruence. }
    subst graph'; apply (FIT _ _ _ _ (proj1 (fitness_graph_facts _ _ Hg)) H Hv Hneg Hin).
  - intros args graph name v Hg Hv Hneg Hin; apply not_ok_rejected; intros st H.
    apply C64_random in H; [|exact Hk | exact Hwf]; destruct H as [_ [graph' [Hg' H]]].
    assert (graph' = graph).
    { apply random_graph_spec in Hg; apply random_graph_spec in Hg'; congruence. }
    subst graph'; destruct (random_graph_facts _ _ Hg) as [HND _].
    destruct H as [[v1 [H1 S1]] [_ [H2 [H3 [_ [H4 _]]]]]].
    simpl in Hin; destruct Hin as [<-|[<-|[<-|[<-|[]]]]].
    + rewrite (given_unique graph kw HND Hk _ _ _ Hv H1) in Hneg; apply (count_not_neg _ _ S1 Hneg).
    + destruct (OP _ _ _ _ _ _ HND H2 Hv) as [x K]; apply (single_not_neg _ _ K Hneg).
    + destruct (OP _ _ _ _ _ _ HND H3 Hv) as [x K]; apply (param2_not_neg _ _ K Hneg).
    + destruct (OP _ _ _ _ _ _ HND H4 Hv) as [x K]; apply (single_not_neg _ _ K Hneg).
  - intros args graph name v Hg Hv Hneg Hin; apply not_ok_rejected; intros st H.
    apply C64_multi in H; [|exact Hk | exact Hwf]; destruct H as [_ [graph' [Hg' H]]].
    assert (graph' = graph).
    { apply multi_graph_spec in Hg; apply multi_graph_spec in Hg'; congruence. }
    subst graph'; destruct (multi_graph_facts _ _ Hg) as [HND Hgw].
    pose proof (given_wf graph kw Hgw Hwf) as HW.
    destruct H as [[v1 [H1 S1]] [[v2 [H2 S2]] [[v3 [H3 S3]] [[v4 [H4 S4]] [_ [[ne [nl [H5 [H6 H7]]]] [[bl [H8 _]] _]]]]]]].
    simpl in Hin; destruct Hin as [<-|[<-|[<-|[<-|[<-|[<-|[]]]]]]].
    + rewrite (given_unique graph kw HND Hk _ _ _ Hv H1) in Hneg; apply (count_not_neg _ _ S1 Hneg).
    + rewrite (given_unique graph kw HND Hk _ _ _ Hv H2) in Hneg; apply (count_not_neg _ _ S2 Hneg).
    + destruct nl as [w|]; [|destruct (given_not graph kw HND Hk _ _ Hv H6)].
      simpl in H6; rewrite (given_unique graph kw HND Hk _ _ _ Hv H6) in Hneg.
      inversion H7; subst; (eapply labels_not_neg; [eassumption | exact Hneg]).
    + rewrite (given_unique graph kw HND Hk _ _ _ Hv H3) in Hneg.
      apply (matrix_not_neg _ _ _ _ (HW _ _ H3) S3 Hneg).
    + rewrite (given_unique graph kw HND Hk _ _ _ Hv H4) in Hneg.
      apply (matrix_not_neg _ _ _ _ (HW _ _ H4) S4 Hneg).
    + destruct (OP _ _ _ _ _ _ HND H8 Hv) as [x K]; apply (multi_param_not_neg _ _ _ K Hneg).
  - intros args graph name v Hg Hw Hv Hneg Hin; apply not_ok_rejected; intros st H.
    apply C64_conditional in H; [|exact Hk | exact Hwf | exact Hw]; destruct H as [_ [graph' [Hg' H]]].
    assert (graph' = graph).
    { apply cond_graph_spec in Hg; apply cond_graph_spec in Hg'; congruence. }
    subst graph'; destruct H as [H _].
    apply (FIT _ _ _ _ (proj1 (cond_graph_facts _ _ Hw Hg)) H Hv Hneg Hin).
Qed.
Print Assumptions C64_negative.

Example C64_negative_example :
  fitness_graph [AGraph ex_graph] (from_digraph ex_graph) /\
  given (from_digraph ex_graph) [("prop_in", Arr DInt [2%nat] [Fin 1; Fin (-1)])] "prop_in"
    (Arr DInt [2%nat] [Fin 1; Fin (-1)]) /\
  has_negative (Arr DInt [2%nat] [Fin 1; Fin (-1)]) /\
  rejected (fitness_init [AGraph ex_graph] [("prop_in", Arr DInt [2%nat] [Fin 1; Fin (-1)])]).
Proof.
  assert (G : fitness_graph [AGraph ex_graph] (from_digraph ex_graph))
    by (right; exists ex_graph, []; auto).
  assert (V : given (from_digraph ex_graph) [("prop_in", Arr DInt [2%nat] [Fin 1; Fin (-1)])] "prop_in"
    (Arr DInt [2%nat] [Fin 1; Fin (-1)])) by (left; left; reflexivity).
  assert (K : has_negative (Arr DInt [2%nat] [Fin 1; Fin (-1)]))
    by (exists (-1); split; [lra | right; left; reflexivity]).
  split; [exact G|]; split; [exact V|]; split; [exact K|].
  destruct (C64_negative [("prop_in", Arr DInt [2%nat] [Fin 1; Fin (-1)])]) as [H _];
    [no_dup | intros n v [H|[]]; injection H as <- <-; reflexivity|].
  apply (H _ _ _ _ G V K); simpl; auto 10.
Qed.

(** * Where the property fails *)

(** A negative number of edges given by keyword is accepted by MultiFitnessModel when the
    graph (or another keyword) supplies the numbers of edges per label: the check is in the
    [elif] branch at sparse/models/fitness.py:524. *)
Theorem C64_multi_negative_refuted :
  exists args kw st, NoDup (map fst kw) /\
    In ("num_edges", Sc (SInt (-5))) kw /\
    multi_init args kw = Ok st /\ ms_edges st = Some (Sc (SInt (-5))).
Proof.
  exists [MGraph ex_multi], [("num_edges", Sc (SInt (-5)))],
    (ex_multi_state (Some (Sc (SInt (-5))))).
  split; [no_dup|]; split; [left; reflexivity|].
  split; [apply ex_multi_any; [discriminate | exact I] | reflexivity].
Qed.
Print Assumptions C64_multi_negative_refuted.

(** Nor need it be a number. *)
Theorem C64_multi_text_refuted :
  exists args kw st, NoDup (map fst kw) /\
    In ("num_edges", Sc (SText "many")) kw /\
    multi_init args kw = Ok st /\ ms_edges st = Some (Sc (SText "many")).
Proof.
  exists [MGraph ex_multi], [("num_edges", Sc (SText "many"))],
    (ex_multi_state (Some (Sc (SText "many")))).
  split; [no_dup|]; split; [left; reflexivity|].
  split; [apply ex_multi_any; [discriminate | exact I] | reflexivity].
Qed.
Print Assumptions C64_multi_text_refuted.

(** A keyword that gives one number of edges per label does not override the numbers of the
    graph: without a graph it is accepted, with one it is rejected
    (sparse/models/fitness.py:493-499). *)
Theorem C64_multi_override_refuted :
  exists g edges rest,
    let kw := ("num_edges", edges) :: rest in
    NoDup (map fst kw) /\
    (exists st, multi_init [] kw = Ok st /\
                ms_edges_label st = Some ([2%nat], [Fin 3; Fin 1])) /\
    multi_init [MGraph g] kw = Raise ValueError.
Proof.
  exists ex_multi, (Arr DInt [2%nat] [Fin 3; Fin 1]),
    [("num_vertices", Sc (SInt 2)); ("num_labels", Sc (SInt 2));
     ("prop_out", Csr 2 [[(0%nat, Fin 1)]; [(1%nat, Fin 2)]]);
     ("prop_in", Csr 2 [[(1%nat, Fin 2)]; [(0%nat, Fin 1)]])].
  cbv zeta; split; [no_dup|].
  assert (C : count_spec (Sc (SInt 2)) 2).
  { split; [lia|]; left; eexists; split; [reflexivity|].
    replace (INR 2) with (IZR 2) by (simpl; lra); constructor. }
  split.
  - exists {| ms_vertices := 2; ms_labels := 2;
              ms_out := [[(0%nat, Fin 1)]; [(1%nat, Fin 2)]];
              ms_in := [[(1%nat, Fin 2)]; [(0%nat, Fin 1)]];
              ms_selfloops := Sc (SBool false);
              ms_edges := Some (Arr DInt [2%nat] [Fin 3; Fin 1]);
              ms_edges_label := Some ([2%nat], [Fin 3; Fin 1]); ms_param := None;
              ms_per_label := Sc (SBool true) |}.
    split; [|reflexivity].
    apply C64_multi; [no_dup | intros n v H; simpl in H |].
    { repeat (destruct H as [H|H]; [injection H as <- <-; simpl; lia || exact I|]); destruct H. }
    split.
    { intros n v H; simpl in H.
      repeat (destruct H as [H|H]; [injection H as <- <-; simpl; auto 10|]); destruct H. }
    exists []; split; [left; auto|].
    unfold multi_holds;
      cbn [ms_vertices ms_labels ms_out ms_in ms_selfloops ms_edges ms_edges_label ms_param ms_per_label].
    split; [exists (Sc (SInt 2)); split; [left; simpl; auto | exact C]|].
    split; [exists (Sc (SInt 2)); split; [left; simpl; auto | exact C]|].
    split.
    { eexists; split; [left; do 3 right; left; reflexivity|].
      apply mx_sparse; [reflexivity|].
      repeat apply Forall_cons; try apply Forall_nil; apply notneg_fin; simpl; lra. }
    split.
    { eexists; split; [left; do 4 right; left; reflexivity|].
      apply mx_sparse; [reflexivity|].
      repeat apply Forall_cons; try apply Forall_nil; apply notneg_fin; simpl; lra. }
    split; [right; split; [split; simpl; intuition discriminate | reflexivity]|].
    split.
    { exists (Some (Arr DInt [2%nat] [Fin 3; Fin 1])), None.
      split; [left; left; reflexivity|].
      split; [split; simpl; intuition discriminate|].
      apply es_array; constructor; [left; reflexivity | all_nonneg]. }
    split.
    { exists true; split; [split; simpl; intuition discriminate|].
      split; [reflexivity|]; right; split; [simpl; intuition discriminate | reflexivity]. }
    left; discriminate.
  - apply count_arg_spec in C.
    unfold multi_init; cbn [multi_args bind apply_kwargs mem_name multi_allowed existsb
      String.eqb Ascii.eqb Bool.eqb orb guard].
    unfold multi_checks, required.
    cbn [getattr String.eqb Ascii.eqb Bool.eqb bind].
    rewrite C; cbn [bind].
    unfold ex_multi, multi_attrs; cbn [getattr String.eqb Ascii.eqb Bool.eqb bind md_vertices md_labels md_edges md_edges_label md_out md_in].
    cbn [matrix_format length Nat.eqb andb guard bind to_csr].
    assert (R1 : rows_negative [[(0%nat, Fin 1)]; [(1%nat, Fin 2)]] = false).
    { apply rows_negative_spec; repeat apply Forall_cons; try apply Forall_nil; apply notneg_fin; simpl; lra. }
    assert (R2 : rows_negative [[(1%nat, Fin 2)]; [(0%nat, Fin 1)]] = false).
    { apply rows_negative_spec; repeat apply Forall_cons; try apply Forall_nil; apply notneg_fin; simpl; lra. }
    rewrite R1, R2; reflexivity.
Qed.
Print Assumptions C64_multi_override_refuted.

(** A list of two parameters is accepted by FitnessModel, which requires one: it becomes an
    array of one row, on which no check of the length is made
    (sparse/models/fitness.py:148-154). *)
Theorem C64_param_refuted :
  exists args kw st, NoDup (map fst kw) /\
    In ("param", Seq [SFloat (Fin 1); SFloat (Fin 2)]) kw /\
    fitness_init args kw = Ok st /\ fs_param st = Some ([1%nat; 2%nat], [Fin 1; Fin 2]).
Proof.
  exists [AGraph ex_graph], [("param", Seq [SFloat (Fin 1); SFloat (Fin 2)])],
    {| fs_vertices := 2; fs_out := [Fin 1; Fin 2]; fs_in := [Fin 3; Fin 0];
       fs_selfloops := Sc (SBool false); fs_edges := Some (Sc (SFloat (Fin 3)));
       fs_param := Some ([1%nat; 2%nat], [Fin 1; Fin 2]) |}.
  split; [no_dup|]; split; [left; reflexivity|]; split; [|reflexivity].
  apply C64_fitness; [no_dup | intros n v [H|[]]; injection H as <- <-; exact I |].
  split; [intros n v [H|[]]; injection H as <- <-; simpl; auto 10|].
  exists (from_digraph ex_graph); split; [right; exists ex_graph, []; auto|].
  unfold fitness_holds; cbn [fs_vertices fs_out fs_in fs_selfloops fs_edges fs_param].
  assert (G : forall n v, In (n, v) (from_digraph ex_graph) -> n <> "param" ->
    given (from_digraph ex_graph) [("param", Seq [SFloat (Fin 1); SFloat (Fin 2)])] n v).
  { intros n v H Hn; right; split; [simpl; intuition congruence | exact H]. }
  split.
  { eexists; split; [apply (G _ (Sc (SInt 2))); [left; reflexivity | discriminate]|].
    split; [lia|]; left; eexists; split; [reflexivity|].
    replace (INR 2) with (IZR 2) by (simpl; lra); constructor. }
  split.
  { eexists; split; [apply G; [right; right; left; reflexivity | discriminate]|].
    exists DFloat; split; [reflexivity|]; split; [right; left; reflexivity | all_nonneg]. }
  split.
  { eexists; split; [apply G; [right; right; right; left; reflexivity | discriminate]|].
    exists DFloat; split; [reflexivity|]; split; [right; left; reflexivity | all_nonneg]. }
  split; [right; split; [split; simpl; intuition discriminate | reflexivity]|].
  split; [exists (Sc (SInt 3)); split; [apply G; [right; left; reflexivity | discriminate]|];
          constructor; [constructor | apply notneg_fin; lra]|].
  split.
  { eexists; split; [left; left; reflexivity|].
    apply (p1_list [SFloat (Fin 1); SFloat (Fin 2)]); [|all_nonneg].
    split; [repeat constructor|].
    right; exists (SFloat (Fin 1)); split; [left; reflexivity | discriminate]. }
  left; discriminate.
Qed.
Print Assumptions C64_param_refuted.

(** A probability above one is accepted by RandomDiGraph (sparse/models/random.py:106-119
    only rejects negative parameters). *)
Theorem C64_probability_refuted :
  exists args kw st, NoDup (map fst kw) /\
    random_init args kw = Ok st /\
    exists p, rs_param st = Some ([2%nat], [Fin p; Fin 0]) /\ 1 < p.
Proof.
  exists [], [("num_vertices", Sc (SInt 2)); ("param", Sc (SInt 5))],
    {| rs_vertices := 2; rs_selfloops := Sc (SBool false); rs_edges := None;
       rs_param := Some ([2%nat], [Fin 5; Fin 0]); rs_discrete := None;
       rs_weight := None |}.
  split; [no_dup|]; split; [|exists 5; split; [reflexivity | lra]].
  apply C64_random; [no_dup | intros n v [H|[H|[]]]; injection H as <- <-; exact I |].
  split; [intros n v [H|[H|[]]]; injection H as <- <-; simpl; auto|].
  exists []; split; [left; auto|].
  unfold random_holds; cbn [rs_vertices rs_selfloops rs_edges rs_param rs_weight rs_discrete].
  split.
  { eexists; split; [left; left; reflexivity|].
    split; [lia|]; left; eexists; split; [reflexivity|].
    replace (INR 2) with (IZR 2) by (simpl; lra); constructor. }
  split; [right; split; [split; simpl; intuition discriminate | reflexivity]|].
  split; [split; simpl; intuition discriminate|].
  split; [eexists; split; [left; right; left; reflexivity|];
          constructor; [constructor | apply notneg_fin; lra]|].
  split; [right; discriminate|].
  split; [split; simpl; intuition discriminate|].
  split; [split; simpl; intuition discriminate | reflexivity].
Qed.
Print Assumptions C64_probability_refuted.

(** The conditional model is accepted with groups for only some of the vertices: the length
    of [groups] is never compared with the number of vertices
    (sparse/models/conditional.py:204-213), so that required data can be missing. *)
Theorem C64_groups_refuted :
  exists args kw st, NoDup (map fst kw) /\ cond_args_wf args /\
    cond_init args kw = Ok st /\ fs_vertices (cs_base st) = 2%nat /\
    cs_groups st = Arr DInt [1%nat] [Fin 0].
Proof.
  exists [CGraph ex_graph Obj],
    [("adj", Csr 1 [[(0%nat, Fin 1)]]); ("groups", Arr DInt [1%nat] [Fin 0])],
    {| cs_base := {| fs_vertices := 2; fs_out := [Fin 1; Fin 2]; fs_in := [Fin 3; Fin 0];
                     fs_selfloops := Sc (SBool false); fs_edges := Some (Sc (SFloat (Fin 3)));
                     fs_param := None |};
       cs_groups := Arr DInt [1%nat] [Fin 0]; cs_num_groups := 1; cs_adj_cols := 1;
       cs_adj := [[(0%nat, Fin 1)]] |}.
  set (kw := [("adj", Csr 1 [[(0%nat, Fin 1)]]); ("groups", Arr DInt [1%nat] [Fin 0])]).
  assert (W1 : NoDup (map fst kw)) by no_dup.
  assert (W3 : cond_args_wf [CGraph ex_graph Obj]) by (intros x [<-|[]]; split; exact I).
  split; [exact W1|]; split; [exact W3|]; split; [|split; reflexivity].
  apply C64_conditional; [exact W1 | | exact W3|].
  { intros n v [H|[H|[]]]; injection H as <- <-; simpl; lia || exact I. }
  split; [intros n v [H|[H|[]]]; injection H as <- <-; simpl; auto 10|].
  exists (from_digraph ex_graph); split; [apply (cg_one ex_graph Obj)|].
  assert (G : forall n v, In (n, v) (from_digraph ex_graph) ->
    given (from_digraph ex_graph) kw n v).
  { intros n v H; right; split; [|exact H].
    simpl in H; repeat (destruct H as [H|H]; [injection H as <- <-; simpl; intuition discriminate|]);
      destruct H. }
  unfold cond_holds, fitness_holds;
    cbn [cs_base cs_adj cs_groups cs_num_groups cs_adj_cols
         fs_vertices fs_out fs_in fs_selfloops fs_edges fs_param].
  split; [split; [|split; [|split; [|split; [|split; [|split]]]]]|].
  - eexists; split; [apply (G _ (Sc (SInt 2))); left; reflexivity|].
    split; [lia|]; left; eexists; split; [reflexivity|].
    replace (INR 2) with (IZR 2) by (simpl; lra); constructor.
  - eexists; split; [apply G; right; right; left; reflexivity|].
    exists DFloat; split; [reflexivity|]; split; [right; left; reflexivity | all_nonneg].
  - eexists; split; [apply G; right; right; right; left; reflexivity|].
    exists DFloat; split; [reflexivity|]; split; [right; left; reflexivity | all_nonneg].
  - right; split; [split; simpl; intuition discriminate | reflexivity].
  - exists (Sc (SInt 3)); split; [apply G; right; left; reflexivity|].
    constructor; [constructor | apply notneg_fin; lra].
  - split; simpl; intuition discriminate.
  - left; discriminate.
  - split; [eexists; split; [left; left; reflexivity|]; apply ad_sparse; reflexivity|].
    split; [left; right; left; reflexivity|]; split; [|reflexivity].
    constructor; replace (INR 1 - 1) with 0 by (simpl; lra).
    + left; reflexivity.
    + apply Forall_cons; [right; exists 0; split; [reflexivity | lra] | apply Forall_nil].
Qed.
Print Assumptions C64_groups_refuted.
