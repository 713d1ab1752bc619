(** Properties of the constructors of the Spark classes (C86). *)
From Coq Require Import ZArith String.
From Verif Require Import Base Num MultiKernels Prob Ensemble Spark SparkFacts PropSpark Construct ConstructFacts PropConstruct SparkConstruct.

Open Scope R_scope.
Open Scope string_scope.
Open Scope list_scope.

(** * Vocabulary of the statements *)

(** The positional arguments are a context alone, or a context, a graph and ignored others. *)
Definition context_graph {A G : Type} (graph_arg : G -> A) (from : G -> list (string * value))
    (args : list (parg A)) (graph : list (string * value)) : Prop :=
  (args = [PContext] /\ graph = []) \/
  (exists g rest, args = PContext :: PArg (graph_arg g) :: rest /\ graph = from g).

(** The number of blocks of an object with [N] vertices: the one asked for (ten if none is) when there are ten
    vertices for each, else the tenth part of the vertices, but no less than two. *)
Definition blocks_of (N : nat) (kw : list (string * value)) (B : nat) : Prop :=
  exists b, ((~ In "p_blocks" (map fst kw) /\ b = 10%nat) \/
             (exists v, In ("p_blocks", v) kw /\ count_spec v b)) /\
    ((10 * b <= N)%nat -> B = b) /\ ((N < 10 * b)%nat -> B = Nat.max 2 (N / 10)).

(** The keywords other than [p_blocks]. *)
Definition without_blocks (kw : list (string * value)) : list (string * value) :=
  filter (fun p => negb (String.eqb (fst p) "p_blocks")) kw.

(** * Lemmas *)

Lemma block_arg_spec : forall N v B, block_arg N v = Ok B <->
  exists b, match v with None => b = 10%nat | Some x => count_spec x b end /\
    ((10 * b <= N)%nat -> B = b) /\ ((N < 10 * b)%nat -> B = Nat.max 2 (N / 10)).
Proof.
  intros N v B. unfold block_arg. rewrite bind_ok.
  assert (Hv : forall b, match v with None => Ok 10%nat | Some x => count_arg x end = Ok b <->
                         match v with None => b = 10%nat | Some x => count_spec x b end).
  { intros b. destruct v as [x|]; [apply count_arg_spec|]. split; [intros H; injection H; auto | intros ->; reflexivity]. }
  split.
  - intros [b [Hb HB]]. exists b. split; [apply Hv; exact Hb|]. assert (HE := f_equal (fun r => match r with Ok x => x | Raise _ => B end) HB).
    cbv beta iota in HE. rewrite <- HE. clear HB HE. split; intros H.
    + rewrite (proj2 (Nat.ltb_ge N (10 * b))) by exact H. reflexivity.
    + rewrite (proj2 (Nat.ltb_lt N (10 * b))) by exact H. destruct (Nat.ltb_spec (N / 10) 2); lia.
  - intros [b [Hb [H1 H2]]]. exists b. split; [apply Hv; exact Hb|]. f_equal.
    destruct (Nat.ltb_spec N (10 * b)) as [H|H]; [rewrite (H2 H) | rewrite (H1 H); reflexivity].
    destruct (Nat.ltb_spec (N / 10) 2); lia.
Qed.

Lemma getattr_kw : forall kw a n, NoDup (map fst kw) -> ~ In n (map fst a) ->
  forall o, getattr (rev kw ++ a) n = o <->
    match o with Some v => In (n, v) kw | None => ~ In n (map fst kw) end.
Proof.
  intros kw a n Hk Ha o.
  assert (Hrev : forall v, In (n, v) (rev kw) <-> In (n, v) kw) by (intros v; rewrite <- in_rev; reflexivity).
  assert (Hname : In n (map fst (rev kw)) <-> In n (map fst kw)) by (rewrite map_rev, <- in_rev; reflexivity).
  assert (Hd : NoDup (map fst (rev kw))) by (rewrite map_rev; apply NoDup_rev; exact Hk).
  assert (K : getattr (rev kw ++ a) n = o <-> match o with Some v => In (n, v) (rev kw) | None => ~ In n (map fst (rev kw)) end).
  { clear Hrev Hname Hk. induction (rev kw) as [|[m w] l IH]; simpl.
    - assert (E : getattr a n = None).
      { clear -Ha. induction a as [|[m w] a IH]; simpl; [reflexivity|].
        destruct (String.eqb_spec m n) as [->|E]; [exfalso; apply Ha; left; reflexivity|].
        apply IH. intros H; apply Ha; right; exact H. }
      rewrite E. destruct o as [v|]; split; intros H; try discriminate; try contradiction; [intros [] | reflexivity].
    - inversion Hd as [|? ? Hn Hd']; subst. specialize (IH Hd'). destruct (String.eqb_spec m n) as [->|E].
      + destruct o as [v|]; split; intros H.
        * injection H as ->. left; reflexivity.
        * destruct H as [H|H]; [injection H as ->; reflexivity|].
          exfalso; apply Hn. apply in_map_iff. exists (n, v). split; [reflexivity | exact H].
        * discriminate.
        * exfalso; apply H; left; reflexivity.
      + rewrite IH. destruct o as [v|]; split; intros H.
        * right; exact H.
        * destruct H as [H|H]; [injection H; intros; contradiction | exact H].
        * intros [K|K]; [contradiction | exact (H K)].
        * intros K; apply H; right; exact K. }
  rewrite K. destruct o as [v|]; [apply Hrev | rewrite Hname; reflexivity].
Qed.

Lemma blocks_spec : forall N kw a B, NoDup (map fst kw) -> ~ In "p_blocks" (map fst a) ->
  block_arg N (getattr (rev kw ++ a) "p_blocks") = Ok B <-> blocks_of N kw B.
Proof.
  intros N kw a B Hk Ha. rewrite block_arg_spec. unfold blocks_of.
  pose proof (getattr_kw kw a "p_blocks" Hk Ha) as K.
  destruct (getattr (rev kw ++ a) "p_blocks") as [v|] eqn:E.
  - pose proof (proj1 (K (Some v)) eq_refl) as Hin. split.
    + intros [b [Hb H]]. exists b. split; [right; exists v; split; assumption | exact H].
    + intros [b [[[Hn _]|[w [Hw Hb]]] H]].
      * exfalso; apply Hn. apply in_map_iff. exists ("p_blocks", v). split; [reflexivity | exact Hin].
      * exists b. split; [|exact H]. pose proof (proj2 (K (Some w)) Hw) as Ew. injection Ew as ->. exact Hb.
  - pose proof (proj1 (K None) eq_refl) as Hn. split.
    + intros [b [Hb H]]. exists b. split; [left; split; assumption | exact H].
    + intros [b [[[_ Hb]|[w [Hw _]]] H]]; [exists b; split; assumption|].
      exfalso; apply Hn. apply in_map_iff. exists ("p_blocks", w). split; [reflexivity | exact Hw].
Qed.

Lemma context_spec : forall A G (graph_arg : G -> A) from (f : A -> res attrs) args graph,
  (forall a v, f a = Ok v <-> exists g, a = graph_arg g /\ v = from g) ->
  spark_args f args = Ok graph <-> context_graph graph_arg from args graph.
Proof.
  intros A G graph_arg from f args graph Hf. unfold context_graph. destruct args as [|[|a] [|[|b] rest]]; simpl.
  all: try (split; [discriminate | intros [[H _]|[g [r [H _]]]]; discriminate]).
  - split; [intros H; injection H as <-; left; split; reflexivity|].
    intros [[_ ->]|[g [r [H _]]]]; [reflexivity | discriminate].
  - rewrite Hf. split.
    + intros [g [-> ->]]. right. exists g, rest. split; reflexivity.
    + intros [[H _]|[g [r [H ->]]]]; [discriminate|]. injection H as -> ->. exists g. split; reflexivity.
Qed.

(** * Accepted arguments and the object held *)

(** C86, FitnessModel: the constructor returns exactly when the first positional argument is a context, the second
    (if any) a DiGraph, every keyword is documented, the values are complete and valid, and the number of blocks is
    a positive whole number; the object holds the values and the number of blocks given by [blocks_of]. *)
Theorem C86_fitness : forall args kw st B,
  NoDup (map fst kw) -> (forall n v, In (n, v) kw -> well_formed v) ->
  (spark_fitness_init args kw = Ok (st, B) <->
   (forall n v, In (n, v) kw ->
      In n ["num_vertices"; "num_edges"; "prop_out"; "prop_in"; "p_blocks"; "param"; "selfloops"]) /\
   exists graph, context_graph AGraph from_digraph args graph /\ fitness_holds graph kw st /\
     blocks_of (fs_vertices st) kw B).
Proof.
  intros args kw st B Hk Hwf. unfold spark_fitness_init.
  assert (Hc : forall graph, spark_args (fun x => match x with AGraph g => Ok (graph_attrs g) | AValue _ => Raise ValueError end) args = Ok graph <->
            context_graph AGraph from_digraph args graph).
  { intros graph. apply context_spec. intros a v. destruct a as [g|w]; split.
    - intros H; injection H as <-. exists g. split; reflexivity.
    - intros [g' [E ->]]. injection E as ->. reflexivity.
    - discriminate.
    - intros [g' [E _]]. discriminate. }
  assert (Hfacts : forall graph, context_graph AGraph from_digraph args graph ->
            NoDup (map fst graph) /\ (forall n v, In (n, v) graph -> well_formed v) /\ ~ In "p_blocks" (map fst graph)).
  { intros graph [[_ ->]|[g [r [_ ->]]]]; [repeat split; [constructor | intros n v [] | intros []]|].
    split; [no_dup|]. split; [|simpl; intuition discriminate].
    intros n v [H|[H|[H|[H|[]]]]]; injection H as <- <-; simpl; trivial; lia. }
  split.
  - intros H. apply bind_ok in H; destruct H as [a0 [H0 H]]. apply Hc in H0.
    destruct (Hfacts _ H0) as [Hg [Hgw Hp]].
    apply bind_ok in H; destruct H as [a [Ha H]]. apply apply_kwargs_ok in Ha; destruct Ha as [-> Hn].
    apply bind_ok in H; destruct H as [s [Hs H]]. apply bind_ok in H; destruct H as [B' [HB H]].
    injection H as <- <-. split; [exact Hn|]. exists a0. split; [exact H0|]. split.
    + apply fitness_checks_spec; [exact Hg | exact Hk | apply given_wf; assumption | exact Hs].
    + apply blocks_spec in HB; [exact HB | exact Hk | exact Hp].
  - intros [Hn [graph [H0 [Hs HB]]]]. destruct (Hfacts _ H0) as [Hg [Hgw Hp]].
    apply bind_ok. exists graph. split; [apply Hc; exact H0|].
    apply bind_ok. exists (rev kw ++ graph). split; [apply apply_kwargs_ok; split; [reflexivity | exact Hn]|].
    apply bind_ok. exists st. split; [apply fitness_checks_spec; [exact Hg | exact Hk | apply given_wf; assumption | exact Hs]|].
    apply bind_ok. exists B. split; [apply blocks_spec; assumption | reflexivity].
Qed.
Print Assumptions C86_fitness.

(** C86, RandomDiGraph. *)
Theorem C86_random : forall args kw st B,
  NoDup (map fst kw) -> (forall n v, In (n, v) kw -> well_formed v) ->
  (spark_random_init args kw = Ok (st, B) <->
   (forall n v, In (n, v) kw ->
      In n ["num_vertices"; "num_edges"; "p_blocks"; "param"; "selfloops"; "total_weight"; "discrete_weights"]) /\
   exists graph, context_graph RGraph from_graph args graph /\ random_holds graph kw st /\
     blocks_of (rs_vertices st) kw B).
Proof.
  intros args kw st B Hk Hwf. unfold spark_random_init.
  assert (Hc : forall graph, spark_args (fun x => match x with RGraph g => Ok (random_attrs g) | RValue _ => Raise ValueError end) args = Ok graph <->
            context_graph RGraph from_graph args graph).
  { intros graph. apply context_spec. intros a v. destruct a as [g|w]; split.
    - intros H; injection H as <-. exists g. split; reflexivity.
    - intros [g' [E ->]]. injection E as ->. reflexivity.
    - discriminate.
    - intros [g' [E _]]. discriminate. }
  assert (Hfacts : forall graph, context_graph RGraph from_graph args graph ->
            NoDup (map fst graph) /\ (forall n v, In (n, v) graph -> well_formed v) /\ ~ In "p_blocks" (map fst graph)).
  { intros graph [[_ ->]|[g [r [_ ->]]]]; [repeat split; [constructor | intros n v [] | intros []]|].
    destruct (random_graph_facts [RGraph g] (from_graph g)) as [K1 K2].
    { right. exists g, []. split; reflexivity. }
    split; [exact K1|]. split; [exact K2|].
    unfold from_graph. destruct (rd_weight g); simpl; intuition discriminate. }
  split.
  - intros H. apply bind_ok in H; destruct H as [a0 [H0 H]]. apply Hc in H0.
    destruct (Hfacts _ H0) as [Hg [Hgw Hp]].
    apply bind_ok in H; destruct H as [a [Ha H]]. apply apply_kwargs_ok in Ha; destruct Ha as [-> Hn].
    apply bind_ok in H; destruct H as [s [Hs H]]. apply bind_ok in H; destruct H as [B' [HB H]].
    injection H as <- <-. split; [exact Hn|]. exists a0. split; [exact H0|]. split.
    + apply random_checks_spec; [exact Hg | exact Hk | apply given_wf; assumption | exact Hs].
    + apply blocks_spec in HB; [exact HB | exact Hk | exact Hp].
  - intros [Hn [graph [H0 [Hs HB]]]]. destruct (Hfacts _ H0) as [Hg [Hgw Hp]].
    apply bind_ok. exists graph. split; [apply Hc; exact H0|].
    apply bind_ok. exists (rev kw ++ graph). split; [apply apply_kwargs_ok; split; [reflexivity | exact Hn]|].
    apply bind_ok. exists st. split; [apply random_checks_spec; [exact Hg | exact Hk | apply given_wf; assumption | exact Hs]|].
    apply bind_ok. exists B. split; [apply blocks_spec; assumption | reflexivity].
Qed.
Print Assumptions C86_random.

(** C86, MultiFitnessModel. *)
Theorem C86_multi : forall args kw st B,
  NoDup (map fst kw) -> (forall n v, In (n, v) kw -> well_formed v) ->
  (spark_multi_init args kw = Ok (st, B) <->
   (forall n v, In (n, v) kw ->
      In n ["num_vertices"; "num_edges"; "num_edges_label"; "num_labels"; "prop_out"; "prop_in"; "p_blocks";
            "param"; "selfloops"; "per_label"]) /\
   exists graph, context_graph MGraph from_multi args graph /\ multi_holds graph kw st /\
     blocks_of (ms_vertices st) kw B).
Proof.
  intros args kw st B Hk Hwf. unfold spark_multi_init.
  assert (Hc : forall graph, spark_args (fun x => match x with MGraph g => Ok (multi_attrs g) | MValue _ => Raise ValueError end) args = Ok graph <->
            context_graph MGraph from_multi args graph).
  { intros graph. apply context_spec. intros a v. destruct a as [g|w]; split.
    - intros H; injection H as <-. exists g. split; reflexivity.
    - intros [g' [E ->]]. injection E as ->. reflexivity.
    - discriminate.
    - intros [g' [E _]]. discriminate. }
  assert (Hfacts : forall graph, context_graph MGraph from_multi args graph ->
            NoDup (map fst graph) /\ (forall n v, In (n, v) graph -> well_formed v) /\ ~ In "p_blocks" (map fst graph)).
  { intros graph [[_ ->]|[g [r [_ ->]]]]; [repeat split; [constructor | intros n v [] | intros []]|].
    destruct (multi_graph_facts [MGraph g] (from_multi g)) as [K1 K2].
    { right. exists g, []. split; reflexivity. }
    split; [exact K1|]. split; [exact K2|]. simpl; intuition discriminate. }
  split.
  - intros H. apply bind_ok in H; destruct H as [a0 [H0 H]]. apply Hc in H0.
    destruct (Hfacts _ H0) as [Hg [Hgw Hp]].
    apply bind_ok in H; destruct H as [a [Ha H]]. apply apply_kwargs_ok in Ha; destruct Ha as [-> Hn].
    apply bind_ok in H; destruct H as [s [Hs H]]. apply bind_ok in H; destruct H as [B' [HB H]].
    injection H as <- <-. split; [exact Hn|]. exists a0. split; [exact H0|]. split.
    + apply multi_checks_spec; [exact Hg | exact Hk | apply given_wf; assumption | exact Hs].
    + apply blocks_spec in HB; [exact HB | exact Hk | exact Hp].
  - intros [Hn [graph [H0 [Hs HB]]]]. destruct (Hfacts _ H0) as [Hg [Hgw Hp]].
    apply bind_ok. exists graph. split; [apply Hc; exact H0|].
    apply bind_ok. exists (rev kw ++ graph). split; [apply apply_kwargs_ok; split; [reflexivity | exact Hn]|].
    apply bind_ok. exists st. split; [apply multi_checks_spec; [exact Hg | exact Hk | apply given_wf; assumption | exact Hs]|].
    apply bind_ok. exists B. split; [apply blocks_spec; assumption | reflexivity].
Qed.
Print Assumptions C86_multi.

(** * Relation with the classes that run in a single process *)

Lemma apply_kwargs_blocks : forall allowed allowed' kw a,
  (forall n, mem_name n allowed' = mem_name n allowed || String.eqb n "p_blocks") ->
  apply_kwargs allowed' kw a =
  match apply_kwargs allowed (without_blocks kw) a with Ok _ => Ok (rev kw ++ a) | Raise e => Raise e end.
Proof.
  intros allowed allowed' kw a Hm. revert a. unfold without_blocks.
  assert (K : forall kw a, (apply_kwargs allowed kw a = Ok (rev kw ++ a)) \/
                           (forall a', apply_kwargs allowed kw a' = Raise ValueError)).
  { clear. intros kw; induction kw as [|[n v] kw IH]; intros a; simpl; [left; reflexivity|].
    unfold guard. destruct (mem_name n allowed); [|right; intros; reflexivity].
    destruct (IH ((n, v) :: a)) as [E|E]; [left; rewrite E, <- app_assoc; reflexivity | right; intros a'; apply E]. }
  induction kw as [|[n v] kw IH]; intros a; simpl; [reflexivity|]. rewrite Hm.
  destruct (String.eqb_spec n "p_blocks") as [->|E]; simpl.
  - rewrite orb_true_r; cbn [guard]. rewrite IH. rewrite <- app_assoc. cbn [app].
    destruct (K (filter (fun p => negb (String.eqb (fst p) "p_blocks")) kw) a) as [H|H].
    + rewrite H. destruct (K (filter (fun p => negb (String.eqb (fst p) "p_blocks")) kw) (("p_blocks", v) :: a)) as [H'|H'];
        [rewrite H'; reflexivity | rewrite (H' a) in H; discriminate].
    + rewrite !H. reflexivity.
  - rewrite orb_false_r. unfold guard. destruct (mem_name n allowed); [|reflexivity].
    rewrite IH. rewrite <- app_assoc. reflexivity.
Qed.

Lemma apply_kwargs_value : forall allowed kw a b, apply_kwargs allowed kw a = Ok b -> b = rev kw ++ a.
Proof. intros allowed kw a b H. apply apply_kwargs_ok in H. exact (proj1 H). Qed.

Lemma getattr_without : forall kw a n, n <> "p_blocks" ->
  getattr (rev kw ++ a) n = getattr (rev (without_blocks kw) ++ a) n.
Proof.
  intros kw a n Hn. revert a. induction kw as [|[m v] kw IH]; intros a; [reflexivity|].
  cbn [rev]. rewrite <- app_assoc. cbn [app]. rewrite IH. unfold without_blocks. cbn [filter fst].
  destruct (String.eqb_spec m "p_blocks") as [->|E]; cbn [negb rev].
  - clear IH. fold (without_blocks kw). induction (rev (without_blocks kw)) as [|[k w] l IHl]; cbn [app getattr].
    + destruct (String.eqb_spec "p_blocks" n) as [<-|]; [contradiction | reflexivity].
    + destruct (String.eqb k n); [reflexivity | exact IHl].
  - rewrite <- app_assoc. reflexivity.
Qed.

Lemma getattr_without_kw : forall kw n, n <> "p_blocks" -> getattr kw n = getattr (without_blocks kw) n.
Proof.
  intros kw n Hn. unfold without_blocks. induction kw as [|[m v] kw IH]; [reflexivity|]. cbn [filter fst getattr].
  destruct (String.eqb_spec m "p_blocks") as [->|E]; cbn [negb getattr].
  - destruct (String.eqb_spec "p_blocks" n) as [<-|]; [contradiction | exact IH].
  - destruct (String.eqb m n); [reflexivity | exact IH].
Qed.

Lemma block_arg_error : forall N v e, block_arg N v = Raise e -> e = ValueError.
Proof.
  intros N v e. unfold block_arg. destruct v as [v|]; [|discriminate].
  assert (K : forall x e, count_of_num x = Raise e -> e = ValueError).
  { intros x e0. unfold count_of_num, guard. destruct x as [r| | |]; try (intros H; injection H; auto).
    repeat match goal with |- context [if ?b then _ else _] => destruct b end; intros H; try discriminate; injection H; auto. }
  destruct (count_arg v) as [b|e'] eqn:E; cbn [bind]; [discriminate|]. intros H; injection H as <-.
  unfold count_arg in E. destruct v as [s|l|d sh [|x [|y t]]|c rows|]; try (injection E; auto; fail).
  - destruct (sc_num s) as [x|]; [exact (K _ _ E) | injection E; auto].
  - unfold guard in E. destruct (has_arith d); [exact (K _ _ E) | injection E; auto].
Qed.

(** What the Spark constructor gives, from what the other one gives without the number of blocks. *)
Definition with_blocks {S : Type} (vertices : S -> nat) (kw : list (string * value)) (plain : res S)
    (spark : res (S * nat)) : Prop :=
  match plain with
  | Raise e => spark = Raise e
  | Ok st => (exists B, spark = Ok (st, B) /\ blocks_of (vertices st) kw B) \/
             (spark = Raise ValueError /\ forall B, ~ blocks_of (vertices st) kw B)
  end.

Lemma with_blocks_intro : forall S (vertices : S -> nat) kw a (plain : res S) spark,
  NoDup (map fst kw) -> ~ In "p_blocks" (map fst a) ->
  spark = (do st <- plain ; do B <- block_arg (vertices st) (getattr (rev kw ++ a) "p_blocks") ; Ok (st, B)) ->
  with_blocks vertices kw plain spark.
Proof.
  intros S vertices kw a plain spark Hk Ha ->. destruct plain as [st|e]; cbn [bind with_blocks]; [|reflexivity].
  destruct (block_arg (vertices st) (getattr (rev kw ++ a) "p_blocks")) as [B|e] eqn:E; cbn [bind].
  - left. exists B. split; [reflexivity|]. apply blocks_spec in E; assumption.
  - right. rewrite (block_arg_error _ _ _ E). split; [reflexivity|]. intros B HB.
    apply (proj2 (blocks_spec (vertices st) kw a B Hk Ha)) in HB. rewrite E in HB. discriminate.
Qed.

(** C86, relation: with a context first, the constructors accept and reject the same arguments as those of the
    sparse classes given the rest, with the same exceptions, and hold the same values; the number of blocks is
    checked last, with a ValueError. *)
Theorem C86_same : forall kw, NoDup (map fst kw) ->
  (forall rest, with_blocks fs_vertices kw (fitness_init rest (without_blocks kw))
                  (spark_fitness_init (PContext :: map PArg rest) kw)) /\
  (forall rest, with_blocks rs_vertices kw (random_init rest (without_blocks kw))
                  (spark_random_init (PContext :: map PArg rest) kw)) /\
  (forall rest, with_blocks ms_vertices kw (multi_init rest (without_blocks kw))
                  (spark_multi_init (PContext :: map PArg rest) kw)).
Proof.
  intros kw Hk. split; [|split]; intros rest.
  - destruct (fitness_args rest) as [a0|e] eqn:E0.
    2: { assert (He : e = ValueError) by (destruct rest as [|[g|v] r]; try discriminate; injection E0; auto).
         unfold fitness_init. rewrite E0. cbn [bind with_blocks].
         destruct rest as [|[g|v] r]; try discriminate. rewrite He. reflexivity. }
    apply (with_blocks_intro _ _ _ a0); [exact Hk | destruct rest as [|[g|v] r]; try discriminate; injection E0 as <-; simpl; intuition discriminate|].
    unfold spark_fitness_init, fitness_init. rewrite E0.
    replace (spark_args _ _) with (Ok a0) by (destruct rest as [|[g|v] r]; try discriminate; rewrite <- E0; reflexivity).
    cbn [bind].
    rewrite (apply_kwargs_blocks fitness_allowed).
    2: { intros n. unfold mem_name, fitness_allowed. cbn [existsb]. destruct (String.eqb n "p_blocks");
         repeat match goal with |- context [String.eqb n ?s] => destruct (String.eqb n s) end; reflexivity. }
    destruct (apply_kwargs fitness_allowed (without_blocks kw) a0) as [b|e] eqn:Ea; cbn [bind]; [|reflexivity].
    apply apply_kwargs_value in Ea. subst b.
    replace (fitness_checks (rev (without_blocks kw) ++ a0)) with (fitness_checks (rev kw ++ a0)); [reflexivity|].
    unfold fitness_checks, required, hasattr. rewrite !(getattr_without kw) by discriminate. reflexivity.
  - destruct (random_args rest) as [a0|e] eqn:E0.
    2: { assert (He : e = ValueError) by (destruct rest as [|[g|v] r]; try discriminate; injection E0; auto).
         unfold random_init. rewrite E0. cbn [bind with_blocks].
         destruct rest as [|[g|v] r]; try discriminate. rewrite He. reflexivity. }
    apply (with_blocks_intro _ _ _ a0); [exact Hk | destruct rest as [|[g|v] r]; try discriminate; injection E0 as <-; [simpl; tauto | unfold random_attrs; destruct (rd_weight g); simpl; intuition discriminate]|].
    unfold spark_random_init, random_init. rewrite E0.
    replace (spark_args _ _) with (Ok a0) by (destruct rest as [|[g|v] r]; try discriminate; rewrite <- E0; reflexivity).
    cbn [bind].
    rewrite (apply_kwargs_blocks random_allowed).
    2: { intros n. unfold mem_name, random_allowed. cbn [existsb]. destruct (String.eqb n "p_blocks");
         repeat match goal with |- context [String.eqb n ?s] => destruct (String.eqb n s) end; reflexivity. }
    destruct (apply_kwargs random_allowed (without_blocks kw) a0) as [b|e] eqn:Ea; cbn [bind]; [|reflexivity].
    apply apply_kwargs_value in Ea. subst b.
    replace (random_checks (rev (without_blocks kw) ++ a0)) with (random_checks (rev kw ++ a0)); [reflexivity|].
    unfold random_checks, required, hasattr. rewrite !(getattr_without kw) by discriminate. reflexivity.
  - destruct (multi_args rest) as [a0|e] eqn:E0.
    2: { assert (He : e = ValueError) by (destruct rest as [|[g|v] r]; try discriminate; injection E0; auto).
         unfold multi_init. rewrite E0. cbn [bind with_blocks].
         destruct rest as [|[g|v] r]; try discriminate. rewrite He. reflexivity. }
    apply (with_blocks_intro _ _ _ a0); [exact Hk | destruct rest as [|[g|v] r]; try discriminate; injection E0 as <-; simpl; intuition discriminate|].
    unfold spark_multi_init, multi_init. rewrite E0.
    replace (spark_args _ _) with (Ok a0) by (destruct rest as [|[g|v] r]; try discriminate; rewrite <- E0; reflexivity).
    cbn [bind].
    rewrite (apply_kwargs_blocks multi_allowed).
    2: { intros n. unfold mem_name, multi_allowed. cbn [existsb]. destruct (String.eqb n "p_blocks");
         repeat match goal with |- context [String.eqb n ?s] => destruct (String.eqb n s) end; reflexivity. }
    destruct (apply_kwargs multi_allowed (without_blocks kw) a0) as [b|e] eqn:Ea; cbn [bind]; [|reflexivity].
    apply apply_kwargs_value in Ea. subst b. rewrite <- (getattr_without_kw kw "per_label") by discriminate.
    replace (multi_checks (rev (without_blocks kw) ++ a0) (getattr kw "per_label"))
      with (multi_checks (rev kw ++ a0) (getattr kw "per_label")); [reflexivity|].
    unfold multi_checks, required. rewrite !(getattr_without kw) by discriminate. reflexivity.
Qed.
Print Assumptions C86_same.

(** ** Concrete calls *)

(** A context, a graph of two vertices and the request of one block (which gives two). *)
Definition one_block : list (string * value) := [("p_blocks", Sc (SFloat (Fin 1)))].

Lemma whole : forall n, (1 <= n)%nat -> count_spec (Sc (SFloat (Fin (INR n)))) n.
Proof. intros n Hn. split; [exact Hn|]. left. exists (SFloat (Fin (INR n))). split; [reflexivity | constructor]. Qed.

Lemma blocks_unique : forall N kw B B', NoDup (map fst kw) -> blocks_of N kw B -> blocks_of N kw B' -> B = B'.
Proof.
  intros N kw B B' Hk H H'. assert (Ha : ~ In "p_blocks" (map fst ([] : attrs))) by (intros []).
  apply (proj2 (blocks_spec N kw [] B Hk Ha)) in H. apply (proj2 (blocks_spec N kw [] B' Hk Ha)) in H'. congruence.
Qed.

Lemma one_of_ten : forall kw N, NoDup (map fst kw) -> In ("p_blocks", Sc (SFloat (Fin 1))) kw -> (N < 10)%nat -> blocks_of N kw 2.
Proof.
  intros kw N Hk Hin HN. exists 1%nat. split; [right; exists (Sc (SFloat (Fin 1))); split; [exact Hin | exact (whole 1 (le_n 1))]|].
  split; intros H; [lia|]. rewrite (Nat.div_small N 10) by lia. reflexivity.
Qed.

Example C86_fitness_example :
  let kw := one_block ++ [("num_edges", Seq [SFloat (Fin (5/2))])] in
  NoDup (map fst kw) /\ (forall n v, In (n, v) kw -> well_formed v) /\
  spark_fitness_init [PContext; PArg (AGraph ex_graph)] kw =
    Ok ({| fs_vertices := 2; fs_out := [Fin 1; Fin 2]; fs_in := [Fin 3; Fin 0];
           fs_selfloops := Sc (SBool false); fs_edges := Some (Sc (SFloat (Fin (5/2))));
           fs_param := None |}, 2%nat).
Proof.
  intros kw. assert (Hk : NoDup (map fst kw)) by no_dup. split; [exact Hk|].
  split; [intros n v [H|[H|[]]]; injection H as <- <-; exact I|].
  pose proof (proj1 (C86_same kw Hk) [AGraph ex_graph]) as H.
  replace (without_blocks kw) with [("num_edges", Seq [SFloat (Fin (5/2))])] in H by reflexivity.
  rewrite (proj2 C64_fitness_example) in H. cbn [with_blocks fs_vertices map] in H.
  assert (H2 : blocks_of 2 kw 2) by (apply one_of_ten; [exact Hk | left; reflexivity | lia]).
  destruct H as [[B [-> HB]]|[_ H]]; [|exfalso; exact (H _ H2)].
  rewrite (blocks_unique _ _ _ _ Hk HB H2). reflexivity.
Qed.

Example C86_random_example :
  let kw := [("num_vertices", Sc (SFloat (Fin 4))); ("param", Sc (SFloat (Fin (1/2))))] in
  NoDup (map fst kw) /\ (forall n v, In (n, v) kw -> well_formed v) /\
  spark_random_init [PContext] kw =
    Ok ({| rs_vertices := 4; rs_selfloops := Sc (SBool false); rs_edges := None;
           rs_param := Some ([2%nat], [Fin (1/2); Fin 0]); rs_discrete := None; rs_weight := None |}, 2%nat).
Proof.
  intros kw. assert (Hk : NoDup (map fst kw)) by no_dup. split; [exact Hk|].
  split; [intros n v [H|[H|[]]]; injection H as <- <-; exact I|].
  pose proof (proj1 (proj2 (C86_same kw Hk)) []) as H.
  replace (without_blocks kw) with kw in H by reflexivity.
  replace (random_init [] kw) with
    (Ok {| rs_vertices := 4; rs_selfloops := Sc (SBool false); rs_edges := None;
           rs_param := Some ([2%nat], [Fin (1/2); Fin 0]); rs_discrete := None; rs_weight := None |}) in H
    by (symmetry; exact (proj2 C64_random_example)). cbn [with_blocks rs_vertices map] in H.
  assert (H2 : blocks_of 4 kw 2).
  { exists 10%nat. split; [left; split; [simpl; intuition discriminate | reflexivity]|]. split; [lia | reflexivity]. }
  destruct H as [[B [-> HB]]|[_ H]]; [|exfalso; exact (H _ H2)].
  rewrite (blocks_unique _ _ _ _ Hk HB H2). reflexivity.
Qed.

Example C86_multi_example :
  let kw := one_block ++ [("num_edges", Sc (SInt 7))] in
  NoDup (map fst kw) /\ (forall n v, In (n, v) kw -> well_formed v) /\
  spark_multi_init [PContext; PArg (MGraph ex_multi)] kw = Ok (ex_multi_state (Some (Sc (SInt 7))), 2%nat).
Proof.
  intros kw. assert (Hk : NoDup (map fst kw)) by no_dup. split; [exact Hk|].
  split; [intros n v [H|[H|[]]]; injection H as <- <-; exact I|].
  pose proof (proj2 (proj2 (C86_same kw Hk)) [MGraph ex_multi]) as H.
  replace (without_blocks kw) with [("num_edges", Sc (SInt 7))] in H by reflexivity.
  rewrite (proj2 C64_multi_example) in H. cbn [with_blocks map] in H.
  assert (H2 : blocks_of (ms_vertices (ex_multi_state (Some (Sc (SInt 7))))) kw 2)
    by (apply one_of_ten; [exact Hk | left; reflexivity | simpl; lia]).
  destruct H as [[B [-> HB]]|[_ H]]; [|exfalso; exact (H _ H2)].
  rewrite (blocks_unique _ _ _ _ Hk HB H2). reflexivity.
Qed.

(** The exceptions pass through: half a block, and an array of the wrong length before the number of blocks. *)
Example C86_same_example :
  spark_fitness_init [PContext; PArg (AGraph ex_graph)] [("p_blocks", Sc (SFloat (Fin (1/2))))] = Raise ValueError /\
  (forall v, spark_fitness_init [PContext; PArg (AGraph {| gd_vertices := 1; gd_edges := 1; gd_out := [Fin 1; Fin 1]; gd_in := [Fin 1]; gd_groups := None |})]
    [("p_blocks", v)] = Raise AssertionError).
Proof.
  split.
  - assert (Hk : NoDup (map fst [("p_blocks", Sc (SFloat (Fin (1/2))))])) by no_dup.
    pose proof (proj1 (C86_same _ Hk) [AGraph ex_graph]) as H. unfold with_blocks in H.
    cbn [map] in H. destruct (fitness_init [AGraph ex_graph] _) as [st|e] eqn:E.
    + destruct H as [[B [_ [b [[[Hn _]|[v [Hin [Hb Hv]]]] _]]]]|[H _]]; [exfalso; apply Hn; left; reflexivity | | exact H].
      destruct Hin as [Hin|[]]. injection Hin as <-. exfalso.
      destruct Hv as [[s [Hs Hn]]|[d [sh [Hs _]]]]; [|discriminate]. injection Hs as <-. inversion Hn as [|x Hx|].
      apply le_INR in Hb. simpl in Hb. lra.
    + exfalso.
      enough (K : exists st, fitness_init [AGraph ex_graph] (without_blocks [("p_blocks", Sc (SFloat (Fin (1 / 2))))]) = Ok st)
        by (destruct K as [st K]; rewrite K in E; discriminate).
      exists {| fs_vertices := 2; fs_out := [Fin 1; Fin 2]; fs_in := [Fin 3; Fin 0];
           fs_selfloops := Sc (SBool false); fs_edges := Some (Sc (SFloat (Fin 3))); fs_param := None |}.
      apply (proj2 (C64_fitness [AGraph ex_graph] [] _ ltac:(constructor) ltac:(intros ? ? []))).
      split; [intros ? ? []|]. exists (from_digraph ex_graph). split; [right; exists ex_graph, []; split; reflexivity|].
      assert (G : forall n v, In (n, v) (from_digraph ex_graph) -> given (from_digraph ex_graph) [] n v)
        by (intros n v Hn; right; split; [intros [] | exact Hn]).
      unfold fitness_holds; cbn [fs_vertices fs_out fs_in fs_selfloops fs_edges fs_param].
      split; [exists (Sc (SInt 2)); split; [apply G; left; reflexivity|]; split; [lia|]; left; exists (SInt 2); split;
        [reflexivity | replace (INR 2) with 2 by (simpl; lra); constructor]|].
      split; [eexists; split; [apply G; right; right; left; reflexivity|]; exists DFloat; split; [reflexivity|]; split;
        [right; left; reflexivity | all_nonneg]|].
      split; [eexists; split; [apply G; right; right; right; left; reflexivity|]; exists DFloat; split; [reflexivity|]; split;
        [right; left; reflexivity | all_nonneg]|].
      split; [right; split; [split; simpl; intuition discriminate | reflexivity]|].
      split; [exists (Sc (SInt 3)); split; [apply G; right; left; reflexivity | constructor; [constructor | apply notneg_fin; lra]]|].
      split; [split; simpl; intuition discriminate | left; discriminate].
  - intros v. assert (Hk : NoDup (map fst [("p_blocks", v)])) by no_dup.
    pose proof (proj1 (C86_same _ Hk) [AGraph {| gd_vertices := 1; gd_edges := 1; gd_out := [Fin 1; Fin 1]; gd_in := [Fin 1]; gd_groups := None |}]) as H.
    cbn [map] in H. replace (without_blocks [("p_blocks", v)]) with ([] : list (string * value)) in H by reflexivity.
    assert (E : fitness_init [AGraph {| gd_vertices := 1; gd_edges := 1; gd_out := [Fin 1; Fin 1]; gd_in := [Fin 1]; gd_groups := None |}] []
      = Raise AssertionError).
    { unfold fitness_init, fitness_checks, required. cbn -[count_arg].
      change (int_value 1) with (Sc (SInt 1)). rewrite (proj2 (count_arg_spec (Sc (SInt 1)) 1)); [reflexivity|].
      split; [lia|]. left. exists (SInt 1). split; [reflexivity | exact (si_int 1)]. }
    rewrite E in H. exact H.
Qed.

(** * Rejected positional arguments *)

(** C86, context: without a SparkContext as first argument every constructor raises ValueError, whatever the other
    arguments are; so does a second argument that is not a graph of the right kind. *)
Theorem C86_context : forall kw,
  (forall args, (forall rest, args <> PContext :: rest) ->
     spark_fitness_init args kw = Raise ValueError) /\
  (forall args, (forall rest, args <> PContext :: rest) ->
     spark_random_init args kw = Raise ValueError) /\
  (forall args, (forall rest, args <> PContext :: rest) ->
     spark_multi_init args kw = Raise ValueError) /\
  (forall x rest, (forall g, x <> PArg (AGraph g)) -> spark_fitness_init (PContext :: x :: rest) kw = Raise ValueError) /\
  (forall x rest, (forall g, x <> PArg (RGraph g)) -> spark_random_init (PContext :: x :: rest) kw = Raise ValueError) /\
  (forall x rest, (forall g, x <> PArg (MGraph g)) -> spark_multi_init (PContext :: x :: rest) kw = Raise ValueError).
Proof.
  intros kw.
  assert (K : forall A (f : A -> res attrs) args, (forall rest, args <> PContext :: rest) -> spark_args f args = Raise ValueError).
  { intros A f [|[|a] rest] H; [reflexivity | exfalso; exact (H rest eq_refl) | reflexivity]. }
  repeat split.
  - intros args H. unfold spark_fitness_init. rewrite (K _ _ _ H). reflexivity.
  - intros args H. unfold spark_random_init. rewrite (K _ _ _ H). reflexivity.
  - intros args H. unfold spark_multi_init. rewrite (K _ _ _ H). reflexivity.
  - intros [|[g|v]] rest H; [reflexivity | exfalso; exact (H g eq_refl) | reflexivity].
  - intros [|[g|v]] rest H; [reflexivity | exfalso; exact (H g eq_refl) | reflexivity].
  - intros [|[g|v]] rest H; [reflexivity | exfalso; exact (H g eq_refl) | reflexivity].
Qed.
Print Assumptions C86_context.

(** A graph in the place of the context, with otherwise complete arguments, and a graph after it. *)
Example C86_context_example : (forall rest, [PArg (AGraph ex_graph)] <> PContext :: rest) /\
  (forall g, PContext <> PArg (AGraph g)) /\
  spark_fitness_init [PArg (AGraph ex_graph); PContext] [] = Raise ValueError.
Proof. repeat split; try (intros; discriminate). Qed.

(** * The number of blocks *)

(** C86, blocks: every object built has at least one vertex and one block, the number being one that C62 covers; the
    pairs of vertices are therefore divided exactly among the blocks. *)
Theorem C86_partition : forall N B,
  ((exists args kw st, spark_fitness_init args kw = Ok (st, B) /\ fs_vertices st = N) \/
   (exists args kw st, spark_random_init args kw = Ok (st, B) /\ rs_vertices st = N) \/
   (exists args kw st, spark_multi_init args kw = Ok (st, B) /\ ms_vertices st = N)) ->
  (1 <= N)%nat /\ (exists req, p_blocks N req = Ok B) /\
  forall i j, (i < N)%nat -> (j < N)%nat ->
    length (filter (covers i j) (square_blocks N B)) = 1%nat /\
    length (filter (visits i j) (triangle_blocks N B)) = if Nat.leb j i then 1%nat else 0%nat.
Proof.
  intros N B H.
  assert (HB : (1 <= N)%nat /\ exists v, block_arg N v = Ok B).
  { assert (Hcount : forall a v, required a "num_vertices" = Ok v -> forall n, count_arg v = Ok n -> (1 <= n)%nat).
    { intros a v _ n Hn. apply count_arg_spec in Hn. exact (proj1 Hn). }
    destruct H as [[args [kw [st [H <-]]]]|[[args [kw [st [H <-]]]]|[args [kw [st [H <-]]]]]].
    - unfold spark_fitness_init in H. apply bind_ok in H; destruct H as [a0 [_ H]]. apply bind_ok in H; destruct H as [a [_ H]].
      apply bind_ok in H; destruct H as [s [Hs H]]. apply bind_ok in H; destruct H as [B' [HB H]]. injection H as <- <-.
      split; [|exists (getattr a "p_blocks"); exact HB]. unfold fitness_checks in Hs.
      apply bind_ok in Hs; destruct Hs as [v [Hv Hs]]. apply bind_ok in Hs; destruct Hs as [n [Hn Hs]].
      pose proof (Hcount _ _ Hv _ Hn) as K. clear Hcount HB.
      repeat (apply bind_ok in Hs; destruct Hs as [? [_ Hs]]). unfold guard in Hs.
      destruct (hasattr a "num_edges" || hasattr a "param"); [|discriminate]. injection Hs as <-. exact K.
    - unfold spark_random_init in H. apply bind_ok in H; destruct H as [a0 [_ H]]. apply bind_ok in H; destruct H as [a [_ H]].
      apply bind_ok in H; destruct H as [s [Hs H]]. apply bind_ok in H; destruct H as [B' [HB H]]. injection H as <- <-.
      split; [|exists (getattr a "p_blocks"); exact HB]. unfold random_checks in Hs.
      apply bind_ok in Hs; destruct Hs as [v [Hv Hs]]. apply bind_ok in Hs; destruct Hs as [n [Hn Hs]].
      pose proof (Hcount _ _ Hv _ Hn) as K. clear Hcount HB.
      repeat (apply bind_ok in Hs; destruct Hs as [? [_ Hs]]). unfold guard in Hs.
      destruct (hasattr a "num_edges" || hasattr a "param"); [|discriminate].
      apply bind_ok in Hs; destruct Hs as [? [_ Hs]]. injection Hs as <-. exact K.
    - unfold spark_multi_init in H. apply bind_ok in H; destruct H as [a0 [_ H]]. apply bind_ok in H; destruct H as [a [_ H]].
      apply bind_ok in H; destruct H as [s [Hs H]]. apply bind_ok in H; destruct H as [B' [HB H]]. injection H as <- <-.
      split; [|exists (getattr a "p_blocks"); exact HB]. unfold multi_checks in Hs.
      apply bind_ok in Hs; destruct Hs as [v [Hv Hs]]. apply bind_ok in Hs; destruct Hs as [n [Hn Hs]].
      pose proof (Hcount _ _ Hv _ Hn) as K. clear Hcount HB.
      repeat (apply bind_ok in Hs; destruct Hs as [? [_ Hs]]). unfold guard in Hs.
      repeat match type of Hs with (if ?b then _ else _) = _ => destruct b; [|discriminate] end.
      repeat (apply bind_ok in Hs; destruct Hs as [? [_ Hs]]).
      repeat match type of Hs with match ?x with _ => _ end = _ => destruct x; try discriminate end;
        injection Hs as <-; exact K. }
  destruct HB as [HN [v HB]]. split; [exact HN|].
  assert (Hreq : exists req, p_blocks N req = Ok B).
  { unfold block_arg in HB. destruct v as [v|].
    - apply bind_ok in HB; destruct HB as [b [Hb HB]]. apply count_arg_spec in Hb. destruct Hb as [Hb _].
      exists (Some (Z.of_nat b)). unfold p_blocks. destruct (Z.leb_spec (Z.of_nat b) 0); [lia|]. rewrite Nat2Z.id. exact HB.
    - exists None. exact HB. }
  split; [exact Hreq|]. destruct Hreq as [req Hreq]. intros i j Hi Hj.
  assert (HB1 : (1 <= B)%nat) by (exact (p_blocks_pos _ _ _ Hreq)).
  rewrite C62_square, C62_triangle by assumption.
  rewrite (proj2 (Nat.ltb_lt i N) Hi), (proj2 (Nat.ltb_lt j N) Hj). split; reflexivity.
Qed.
Print Assumptions C86_partition.

(** The object of C86_fitness_example: two vertices in two blocks. *)
Example C86_partition_example : (exists args kw st, spark_fitness_init args kw = Ok (st, 2%nat) /\ fs_vertices st = 2%nat) /\
  length (filter (covers 1 0) (square_blocks 2 2)) = 1%nat.
Proof.
  split; [|reflexivity]. destruct C86_fitness_example as [_ [_ H]]. eexists _, _, _. split; [exact H | reflexivity].
Qed.

(** C86, fewer blocks than vertices: "Ensure number of blocks is smaller than dimensions of graphs" (spark/models.py:1571)
    fails for a graph with a single vertex, which gets two blocks; and a request of one block is not kept although
    it is smaller than the number of vertices. *)
Theorem C86_smaller_refuted : exists args kw st B kw' st' B',
  spark_fitness_init args kw = Ok (st, B) /\ (fs_vertices st < B)%nat /\
  spark_fitness_init args kw' = Ok (st', B') /\ In ("p_blocks", Sc (SInt 1)) kw' /\ (1 < fs_vertices st')%nat /\ B' <> 1%nat.
Proof.
  pose (base := fun n : nat => [("num_vertices", Sc (SInt (Z.of_nat n))); ("prop_out", Arr DFloat [n] (repeat (Fin 1) n));
                       ("prop_in", Arr DFloat [n] (repeat (Fin 1) n)); ("num_edges", Sc (SInt 1))]).
  pose (held := fun n => {| fs_vertices := n; fs_out := repeat (Fin 1) n; fs_in := repeat (Fin 1) n;
                            fs_selfloops := Sc (SBool false); fs_edges := Some (Sc (SFloat (Fin 1))); fs_param := None |}).
  assert (K : forall n kw, (1 <= n)%nat -> (n < 10)%nat -> kw = base n \/ kw = ("p_blocks", Sc (SInt 1)) :: base n ->
            spark_fitness_init [PContext] kw = Ok (held n, 2%nat)).
  { intros n kw Hn Hn10 Hkw.
    assert (Hlen : length (repeat (Fin 1) n) = n) by apply repeat_length.
    assert (Hpos : Forall non_negative (repeat (Fin 1) n)).
    { apply Forall_forall. intros x Hx. apply repeat_spec in Hx. subst x. apply nonneg_fin. lra. }
    assert (Hin : forall p, In p (base n) -> In p kw) by (intros p Hp; destruct Hkw as [-> | ->]; [exact Hp | right; exact Hp]).
    assert (Hnames : forall m v, In (m, v) kw -> In (m, v) (base n) \/ (m = "p_blocks" /\ v = Sc (SInt 1))).
    { intros m v Hm. destruct Hkw as [-> | ->]; [left; exact Hm|]. destruct Hm as [Hm|Hm]; [right; injection Hm; auto | left; exact Hm]. }
    assert (Hno : forall m, ~ In m ["p_blocks"; "num_vertices"; "prop_out"; "prop_in"; "num_edges"] -> ~ In m (map fst kw)).
    { intros m Hm Hk. apply Hm. destruct Hkw as [-> | ->]; simpl in Hk |- *; tauto. }
    apply C86_fitness.
    - destruct Hkw as [-> | ->]; no_dup.
    - intros m v Hm. apply Hnames in Hm. destruct Hm as [[H|[H|[H|[H|[]]]]]|[_ ->]]; try (injection H as <- <-); simpl; trivial;
        rewrite Hlen; simpl; lia.
    - split; [intros m v Hm; apply Hnames in Hm; destruct Hm as [[H|[H|[H|[H|[]]]]]|[-> _]]; try (injection H as <- <-); simpl; tauto|].
      exists []. split; [left; split; reflexivity|]. split.
      + unfold fitness_holds. cbn [fs_vertices fs_out fs_in fs_selfloops fs_edges fs_param held].
        split; [exists (Sc (SInt (Z.of_nat n))); split; [left; apply Hin; left; reflexivity|]; split; [exact Hn|]; left;
          exists (SInt (Z.of_nat n)); split; [reflexivity | rewrite INR_IZR_INZ; constructor]|].
        split; [eexists; split; [left; apply Hin; right; left; reflexivity|]; exists DFloat; split; [reflexivity|]; split;
          [right; left; reflexivity | exact Hpos]|].
        split; [eexists; split; [left; apply Hin; right; right; left; reflexivity|]; exists DFloat; split; [reflexivity|]; split;
          [right; left; reflexivity | exact Hpos]|].
        split; [right; split; [split; [apply Hno; simpl; intuition discriminate | intros []] | reflexivity]|].
        split; [exists (Sc (SInt 1)); split; [left; apply Hin; right; right; right; left; reflexivity |
                constructor; [constructor | apply notneg_fin; lra]]|].
        split; [split; [apply Hno; simpl; intuition discriminate | intros []] | left; discriminate].
      + cbn [fs_vertices held]. destruct Hkw as [-> | ->].
        * exists 10%nat. split; [left; split; [simpl; intuition discriminate | reflexivity]|].
          split; [lia|]. intros _. rewrite Nat.div_small by lia. reflexivity.
        * exists 1%nat. split; [right; exists (Sc (SInt 1)); split; [left; reflexivity|]; split; [lia|]; left; exists (SInt 1);
            split; [reflexivity | exact (si_int 1)]|].
          split; [lia|]. intros _. rewrite Nat.div_small by lia. reflexivity. }
  exists [PContext], (base 1%nat), (held 1%nat), 2%nat, (("p_blocks", Sc (SInt 1)) :: base 3%nat), (held 3%nat), 2%nat.
  split; [apply (K 1%nat); [lia | lia | left; reflexivity]|]. split; [simpl; lia|].
  split; [apply (K 3%nat); [lia | lia | right; reflexivity]|]. split; [left; reflexivity|]. split; [simpl; lia | discriminate].
Qed.
Print Assumptions C86_smaller_refuted.
