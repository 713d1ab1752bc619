(** Property C94: averages over many samples approach the expected values that the model reports. *)
From Coq Require Import Sorted Permutation.
From Verif Require Import Base Num Spec Kernels KernelFacts MultiKernels MultiFacts Prob Ensemble EnsembleFacts EnsembleProps EnsembleState
  Models ModelFacts StateFacts StateProps PropEnsemble Ids IdFacts Graphs GraphFacts DenseGraphs DenseFacts PropDense Sampled PropSampled Layers LayerFacts LayerProps Random RandomFacts PropRandom
  Spark SparkFacts SparkMeasures SparkLib SparkState PropSparkState MultiState MultiStateFacts MultiLik Pipeline PropPipeline PropLikelihood GraphArgs FitFacts CondFacts Repeat PropGraphArgs PropSampleLik.
Import Num Spec.

Open Scope R_scope.
Open Scope list_scope.

(** * Variances under independent links *)

Lemma prodl_sub : forall l S (c : nat * nat -> R), NoDup l -> NoDup S -> incl S l -> prodl (fun e => if mem e S then c e else 1) l = prodl c S.
Proof.
  intros l S c Hl. induction S as [|x S IH]; intros HS HI; [apply prodl_1; reflexivity|]. inversion HS; subst.
  rewrite (prodl_ext _ _ (fun e => (if pair_eqb e x then c x else 1) * (if mem e S then c e else 1))).
  - rewrite prodl_mult, prodl_single, IH, prodl_cons; auto; [intros y Hy; apply HI; right; exact Hy | apply HI; left; reflexivity].
  - intros e _. unfold mem at 1. cbn [existsb]. fold (mem e S). destruct (pair_eqb_spec e x) as [-> | N]; cbn [orb]; [|destruct (mem e S); lra].
    replace (mem x S) with false by (symmetry; apply mem_false; assumption). lra.
Qed.

Lemma prodl_split : forall A (b : A -> bool) (f : A -> R) l, prodl f l = prodl f (filter b l) * prodl f (filter (fun x => negb (b x)) l).
Proof.
  intros A b f l. induction l as [|x l IH]; [cbn; lra|]. cbn [filter]. rewrite prodl_cons, IH. destruct (b x); cbn [negb]; rewrite prodl_cons; ring.
Qed.

Lemma prodl_append : forall A (f : A -> R) l l', prodl f (l ++ l') = prodl f l * prodl f l'.
Proof. intros A f l l'. induction l as [|x l IH]; cbn [app]; [cbn; lra|]. rewrite !prodl_cons, IH. ring. Qed.

Section Independent.
Variables (N : nat) (sl : bool) (q : nat -> nat -> R).
Let mean := ensemble_mean N sl (graph_weight N sl q).
Let pe (e : nat * nat) : R := q (fst e) (snd e).
Let pa (e : nat * nat) : R := if mem e (pairs N sl) then pe e else 0.

Lemma mean_prod : forall S (g : nat * nat -> bool -> R), NoDup S ->
  mean (fun G => prodl (fun e => g e (mem e G)) S) = prodl (fun e => pa e * g e true + (1 - pa e) * g e false) S.
Proof.
  intros S g HS. rewrite (prodl_split _ (fun e => mem e (pairs N sl)) _ S).
  set (S1 := filter (fun e => mem e (pairs N sl)) S). set (S2 := filter (fun e => negb (mem e (pairs N sl))) S).
  assert (I1 : incl S1 (pairs N sl)). { intros e K. apply filter_In in K. destruct K as [_ K]. apply mem_spec. exact K. }
  assert (I2 : forall e, In e S2 -> mem e (pairs N sl) = false). { intros e K. apply filter_In in K. destruct K as [_ K]. destruct (mem e (pairs N sl)); [discriminate | reflexivity]. }
  unfold mean. rewrite (mean_ext N sl q _ (fun G => prodl (fun e => g e false) S2 * prodl (fun e => g e (mem e G)) S1)).
  - rewrite mean_scal, Rmult_comm. f_equal.
    + rewrite mean_lweight. fold pe.
      rewrite (suml_ext _ _ (fun G => lweight pe (pairs N sl) G * prodl (fun e => (fun e b => if mem e S1 then g e b else 1) e (mem e G)) (pairs N sl))).
      * etransitivity; [exact (bern_product pe (pairs N sl) (fun e b => if mem e S1 then g e b else 1) (NoDup_pairs N sl))|]. cbv beta.
        rewrite (prodl_ext _ _ (fun e => if mem e S1 then pa e * g e true + (1 - pa e) * g e false else 1)).
        { apply prodl_sub; [apply NoDup_pairs | apply NoDup_filter; exact HS | exact I1]. }
        intros e K. destruct (mem e S1) eqn:E; [|ring]. unfold pa. rewrite (proj2 (mem_spec e (pairs N sl)) K). reflexivity.
      * intros G _. f_equal. symmetry. apply (prodl_sub (pairs N sl) S1 (fun e => g e (mem e G))); [apply NoDup_pairs | apply NoDup_filter; exact HS | exact I1].
    + apply prodl_ext. intros e K. unfold pa. rewrite (I2 e K). ring.
  - intros G HG. rewrite (prodl_split _ (fun e => mem e (pairs N sl)) _ S). fold S1 S2. rewrite Rmult_comm. f_equal. apply prodl_ext. intros e K.
    replace (mem e G) with false; [reflexivity|]. symmetry. apply mem_false. intros K'. pose proof (sublists_incl _ _ _ _ HG K') as K2. apply mem_spec in K2.
    rewrite (I2 e K) in K2. discriminate.
Qed.

(** Factors over disjoint links are uncorrelated. *)
Lemma mean_apart : forall S T (g h : nat * nat -> bool -> R), NoDup (S ++ T) ->
  mean (fun G => prodl (fun e => g e (mem e G)) S * prodl (fun e => h e (mem e G)) T)
  = mean (fun G => prodl (fun e => g e (mem e G)) S) * mean (fun G => prodl (fun e => h e (mem e G)) T).
Proof.
  intros S T g h ND. assert (HS : NoDup S) by (clear - ND; induction S as [|x S IH]; [constructor | inversion ND; subst; constructor; [intros K; apply H1, in_app_iff; left; exact K | auto]]).
  assert (HT : NoDup T) by (clear - ND; induction S as [|x S IH]; [exact ND | inversion ND; auto]).
  assert (D : forall e, In e S -> ~ In e T).
  { clear - ND. induction S as [|x S IH]; [intros e []|]. cbn [app] in ND. inversion ND; subst. intros e [<- | K] L; [apply H1, in_app_iff; right; exact L | exact (IH H2 e K L)]. }
  set (gh := fun e b => if mem e S then g e b else h e b).
  assert (A : forall G, prodl (fun e => g e (mem e G)) S * prodl (fun e => h e (mem e G)) T = prodl (fun e => gh e (mem e G)) (S ++ T)).
  { intros G. transitivity (prodl (fun e => gh e (mem e G)) S * prodl (fun e => gh e (mem e G)) T).
    - f_equal; apply prodl_ext; intros e K; unfold gh; [rewrite (proj2 (mem_spec e S) K); reflexivity|].
      replace (mem e S) with false; [reflexivity|]. symmetry. apply mem_false. intros L. exact (D e L K).
    - symmetry. apply prodl_append. }
  unfold mean. rewrite (mean_ext N sl q _ (fun G => prodl (fun e => gh e (mem e G)) (S ++ T))) by (intros; apply A).
  fold mean. rewrite !mean_prod by assumption.
  rewrite prodl_append. f_equal; apply prodl_ext; intros e K; unfold gh; [rewrite (proj2 (mem_spec e S) K); reflexivity|].
  replace (mem e S) with false; [reflexivity|]. symmetry. apply mem_false. intros L. exact (D e L K).
Qed.

(** The variance of a sum of terms over disjoint sets of links is the sum of the variances. *)
Lemma variance_sum : forall A (l : list A) (X : A -> list (nat * nat) -> R) (c d : R) (g : A -> nat * nat -> bool -> R) (S : A -> list (nat * nat)), NoDup l ->
  (forall k, In k l -> NoDup (S k)) -> (forall k k' e, In k l -> In k' l -> k <> k' -> In e (S k) -> ~ In e (S k')) ->
  (forall k G, In k l -> In G (all_graphs N sl) -> X k G = c + d * prodl (fun e => g k e (mem e G)) (S k)) ->
  mean (fun G => (suml (fun k => X k G) l - suml (fun k => mean (X k)) l) * (suml (fun k => X k G) l - suml (fun k => mean (X k)) l))
  = suml (fun k => mean (fun G => X k G * X k G) - mean (X k) * mean (X k)) l.
Proof.
  intros A l X c d g S ND HS HD HX.
  assert (UC : forall k k', In k l -> In k' l -> k <> k' -> mean (fun G => X k G * X k' G) = mean (X k) * mean (X k')).
  { intros k k' Hk Hk' Hne. unfold mean.
    rewrite (mean_ext N sl q (fun G => X k G * X k' G) (fun G => (c * c + c * d * prodl (fun e => g k e (mem e G)) (S k)) + (c * d * prodl (fun e => g k' e (mem e G)) (S k')
      + d * d * (prodl (fun e => g k e (mem e G)) (S k) * prodl (fun e => g k' e (mem e G)) (S k')))))
      by (intros G HG; rewrite (HX k G Hk HG), (HX k' G Hk' HG); ring).
    rewrite (mean_ext N sl q (X k) (fun G => c + d * prodl (fun e => g k e (mem e G)) (S k))) by (intros G HG; apply HX; assumption).
    rewrite (mean_ext N sl q (X k') (fun G => c + d * prodl (fun e => g k' e (mem e G)) (S k'))) by (intros G HG; apply HX; assumption).
    rewrite !mean_plus, !mean_scal, !mean_const. fold mean. rewrite mean_apart; [ring|]. apply NoDup_app; [apply HS, Hk | apply HS, Hk' |].
    intros e K. exact (HD k k' e Hk Hk' Hne K). }
  clear HS HD HX. induction l as [|k l IH]; [cbn [suml]; unfold mean; rewrite (mean_ext N sl q _ (fun _ => 0)) by (intros; ring); apply mean_const|].
  inversion ND; subst. cbn [suml]. rewrite <- IH; [|assumption | intros; apply UC; try right; assumption].
  set (mk := mean (X k)). set (ms := suml (fun k => mean (X k)) l). unfold mean.
  rewrite (mean_ext N sl q _ (fun G => ((X k G * X k G + (-2 * mk) * X k G) + mk * mk) + (((2 * suml (fun k' => X k G * X k' G) l + (-2 * ms) * X k G) + ((-2 * mk) * suml (fun k' => X k' G) l + 2 * mk * ms)) +
    (suml (fun k' => X k' G) l - ms) * (suml (fun k' => X k' G) l - ms)))).
  - rewrite !mean_plus, !mean_scal, !mean_const.
    rewrite (mean_suml N sl q A (fun k' G => X k G * X k' G) l), (mean_suml N sl q A X l). fold mean. fold mk.
    rewrite (suml_ext _ (fun e => mean (fun G => X k G * X e G)) (fun e => mk * mean (X e))).
    + rewrite suml_scal_l. fold ms. ring.
    + intros e K. apply UC; [left; reflexivity | right; exact K | intros ->; contradiction].
  - intros G _. rewrite suml_scal_l. ring.
Qed.

(** ** The measures of a graph *)

Lemma b2r_factor : forall b, b2r b = 1 + -1 * (1 - b2r b).
Proof. intros b. ring. Qed.

Lemma mean_indicator : forall (b : list (nat * nat) -> bool), mean (fun G => b2r (b G) * b2r (b G)) = mean (fun G => b2r (b G)).
Proof. intros b. apply mean_ext. intros G _. destruct (b G); cbn; ring. Qed.

Lemma edges_list : forall G, In G (all_graphs N sl) -> g_edges N G = suml (fun e => b2r (mem e G)) (pairs N sl).
Proof.
  intros G HG. transitivity (pair_sum N sl (fun i j => b2r (mem (i, j) G))).
  - unfold g_edges, pair_sum. apply sumn_ext. intros i Hi. apply sumn_ext. intros j Hj. destruct (allowed sl i j) eqn:E; [reflexivity|].
    replace (mem (i, j) G) with false; [reflexivity|]. symmetry. apply mem_false. intros K. pose proof (sublists_incl _ _ _ _ HG K) as K2. apply in_pairs in K2.
    destruct K2 as (_ & _ & K2). congruence.
  - rewrite pair_sum_list. apply suml_ext. intros [i j] _. reflexivity.
Qed.

Lemma variance_edges : mean (fun G => (g_edges N G - pair_sum N sl q) * (g_edges N G - pair_sum N sl q)) = pair_sum N sl (fun i j => q i j * (1 - q i j)).
Proof.
  assert (M : forall e, In e (pairs N sl) -> mean (fun G => b2r (mem e G)) = q (fst e) (snd e)).
  { intros [i j] K. apply in_pairs in K. destruct K as (Hi & Hj & Ha). unfold mean. rewrite mean_link, Ha by assumption. reflexivity. }
  pose proof (variance_sum _ (pairs N sl) (fun e G => b2r (mem e G)) 0 1 (fun _ _ b => b2r b) (fun e => [e]) (NoDup_pairs N sl)) as V.
  rewrite pair_sum_list, (pair_sum_list N sl (fun i j => q i j * (1 - q i j))).
  unfold mean. rewrite (mean_ext N sl q _ (fun G => (suml (fun e => b2r (mem e G)) (pairs N sl) - suml (fun e => mean (fun G => b2r (mem e G))) (pairs N sl)) *
    (suml (fun e => b2r (mem e G)) (pairs N sl) - suml (fun e => mean (fun G => b2r (mem e G))) (pairs N sl)))).
  - fold mean. rewrite V.
    + apply suml_ext. intros e K. rewrite mean_indicator, (M e K). ring.
    + intros k _. constructor; [intros [] | constructor].
    + intros k k' e _ _ Hne [<- | []] [<- | []]. apply Hne. reflexivity.
    + intros k G _ _. cbn. ring.
  - intros G HG. rewrite (edges_list G HG), (suml_ext _ (fun e => mean (fun G => b2r (mem e G))) (fun e => q (fst e) (snd e)) (pairs N sl)) by exact M. reflexivity.
Qed.

Definition end_links (nd : dir) (v j : nat) : list (nat * nat) :=
  match nd with Dout => [(v, j)] | Din => [(j, v)] | _ => if Nat.eqb v j then [(v, v)] else [(v, j); (j, v)] end.

Lemma variance_degree : forall nd v, nd <> Dother -> (v < N)%nat ->
  mean (fun G => (sumn N (g_link nd G v) - nb_degree N sl (dir_link nd q) v) * (sumn N (g_link nd G v) - nb_degree N sl (dir_link nd q) v))
  = sumn N (fun j => if allowed sl v j then dir_link nd q v j * (1 - dir_link nd q v j) else 0).
Proof.
  intros nd v Hd Hv.
  assert (M : forall j, (j < N)%nat -> mean (fun G => g_link nd G v j) = if allowed sl v j then dir_link nd q v j else 0) by (intros j Hj; apply mean_g_link; assumption).
  assert (B : forall G j, g_link nd G v j * g_link nd G v j = g_link nd G v j).
  { intros G j. destruct nd; cbn [g_link]; [destruct (mem _ G) | destruct (mem _ G) | destruct (mem _ G || mem _ G)%bool |]; cbn; ring. }
  pose proof (variance_sum _ (seq 0 N) (fun j G => g_link nd G v j) 1 (-1) (fun _ _ b => 1 - b2r b) (end_links nd v) (seq_NoDup N 0)) as V.
  rewrite <- (suml_seq N (fun j => if allowed sl v j then dir_link nd q v j * (1 - dir_link nd q v j) else 0)).
  unfold mean. rewrite (mean_ext N sl q _ (fun G => (suml (fun j => g_link nd G v j) (seq 0 N) - suml (fun j => mean (fun G => g_link nd G v j)) (seq 0 N)) *
    (suml (fun j => g_link nd G v j) (seq 0 N) - suml (fun j => mean (fun G => g_link nd G v j)) (seq 0 N)))).
  - fold mean. rewrite V.
    + apply suml_ext. intros j K. apply in_seq in K. unfold mean. rewrite (mean_ext N sl q _ (fun G => g_link nd G v j)) by (intros; apply B). fold mean.
      rewrite M by lia. destruct (allowed sl v j); ring.
    + intros j _. unfold end_links. destruct nd; [| | destruct (Nat.eqb_spec v j) | congruence]; repeat constructor; cbn; try tauto; intros [E | []]; injection E; congruence.
    + intros j k e _ _ Hne. unfold end_links. destruct nd; [| | destruct (Nat.eqb_spec v j), (Nat.eqb_spec v k) | congruence]; cbn; intros H1 H2;
        repeat match goal with H : _ \/ _ |- _ => destruct H end; try contradiction; subst; congruence.
    + intros j G _ _. unfold end_links. destruct nd; [| | destruct (Nat.eqb_spec v j) as [<- | Hne] | congruence]; cbn [g_link]; try (cbn; ring).
      * rewrite orb_diag. cbn. ring.
      * rewrite !prodl_cons. destruct (mem (v, j) G), (mem (j, v) G); cbn [orb b2r prodl fold_right]; cbn; ring.
  - intros G _. rewrite !suml_seq. unfold nb_degree. rewrite (sumn_ext N (fun j => mean (fun G => g_link nd G v j)) _ M). reflexivity.
Qed.

(** The logarithm of the probability. *)
Lemma variance_log : (forall i j, (i < N)%nat -> (j < N)%nat -> 0 <= q i j <= 1) ->
  mean (fun G => (ln (graph_weight N sl q G) - - pair_sum N sl (fun i j => entropy (q i j))) * (ln (graph_weight N sl q G) - - pair_sum N sl (fun i j => entropy (q i j))))
  = pair_sum N sl (fun i j => q i j * (1 - q i j) * ((ln (q i j) - ln (1 - q i j)) * (ln (q i j) - ln (1 - q i j)))).
Proof.
  intros Hq. set (t := fun (e : nat * nat) (b : bool) => if b then ln (q (fst e) (snd e)) else ln (1 - q (fst e) (snd e))).
  assert (M : forall e (f : bool -> R), In e (pairs N sl) -> mean (fun G => f (mem e G)) = q (fst e) (snd e) * f true + (1 - q (fst e) (snd e)) * f false).
  { intros [i j] f K. apply in_pairs in K. destruct K as (Hi & Hj & Ha). unfold mean. cbn [fst snd].
    rewrite (mean_ext N sl q _ (fun G => (f true - f false) * b2r (mem (i, j) G) + f false)) by (intros G _; destruct (mem (i, j) G); cbn; ring).
    rewrite mean_plus, mean_scal, mean_link, mean_const, Ha by assumption. ring. }
  pose proof (variance_sum _ (pairs N sl) (fun e G => t e (mem e G)) 0 1 (fun e _ b => t e b) (fun e => [e]) (NoDup_pairs N sl)) as V.
  rewrite (pair_sum_list N sl (fun i j => q i j * (1 - q i j) * _)).
  unfold mean. rewrite (mean_ae N sl q Hq _ (fun G => (suml (fun e => t e (mem e G)) (pairs N sl) - suml (fun e => mean (fun G => t e (mem e G))) (pairs N sl)) *
    (suml (fun e => t e (mem e G)) (pairs N sl) - suml (fun e => mean (fun G => t e (mem e G))) (pairs N sl)))).
  - fold mean. rewrite V.
    + apply suml_ext. intros e K. rewrite (M e (fun b => t e b * t e b) K), (M e (t e) K). unfold t. ring.
    + intros k _. constructor; [intros [] | constructor].
    + intros k k' e _ _ Hne [<- | []] [<- | []]. apply Hne. reflexivity.
    + intros k G _ _. cbn. ring.
  - intros G HG P. assert (E1 : ln (graph_weight N sl q G) = suml (fun e => t e (mem e G)) (pairs N sl)).
    { rewrite graph_weight_list in *. rewrite ln_prodl; [|intros [i j] H; apply in_pairs in H; destruct H as (Hi & Hj & _);
        pose proof (Hq i j Hi Hj); cbn [fst snd]; destruct (mem (i, j) G); lra | exact P].
      apply suml_ext. intros e _. unfold t. destruct (mem e G); reflexivity. }
    assert (E2 : suml (fun e => mean (fun G => t e (mem e G))) (pairs N sl) = - pair_sum N sl (fun i j => entropy (q i j))).
    { rewrite pair_sum_list. replace (- suml (fun e => entropy (q (fst e) (snd e))) (pairs N sl)) with (-1 * suml (fun e => entropy (q (fst e) (snd e))) (pairs N sl)) by ring.
      rewrite <- suml_scal_l. apply suml_ext. intros e K. rewrite (M e (t e) K). unfold t, entropy. ring. }
    rewrite E1, E2. reflexivity.
Qed.
End Independent.

(** * Averages over repeated calls *)

(** The average of a measure over the samples [Ls] fails to be computed, or differs from [mu] by [eps] or more. *)
Definition off {L} (eps mu : R) (f : L -> res R) (Ls : list L) : bool :=
  existsb (fun l => match f l with Ok _ => false | Raise _ => true end) Ls ||
  Rleb eps (Rabs (suml (fun l => match f l with Ok x => x | Raise _ => 0 end) Ls / INR (length Ls) - mu)).

Lemma calls_off : forall L (p : prog L) f (val : L -> R) mu V n eps, wf_prog p -> (1 <= n)%nat -> 0 < eps ->
  (forall l, outcome p l -> f l = Ok (val l)) -> expect p val = mu -> expect p (fun l => (val l - mu) * (val l - mu)) = V ->
  prob (calls n p) (off eps mu f) <= V / (INR n * (eps * eps)).
Proof.
  intros L p f val mu V n eps W Hn He HF HM HV.
  apply Rle_trans with (prob (calls n p) (fun l => Rleb eps (Rabs (suml val l / INR n - expect p val)))).
  - right. unfold prob. apply expect_on; [apply calls_wf; exact W|]. intros Ls HL. destruct (calls_outcome _ _ _ _ HL) as [Len HO].
    unfold off. rewrite Len, HM. assert (E1 : existsb (fun l => match f l with Ok _ => false | Raise _ => true end) Ls = false).
    { clear - HO HF. induction HO as [|l Ls Hl HO IH]; [reflexivity|]. cbn [existsb]. rewrite (HF l Hl). exact IH. }
    assert (E2 : suml (fun l => match f l with Ok x => x | Raise _ => 0 end) Ls = suml val Ls).
    { apply suml_ext. intros l K. rewrite Forall_forall in HO. rewrite (HF l (HO l K)). reflexivity. }
    rewrite E1, E2. reflexivity.
  - eapply Rle_trans; [apply calls_average; assumption|]. right. unfold spread. rewrite HM, HV. reflexivity.
Qed.

(** ** The expected number of links and the expected degrees, in the sparse and the dense module. *)
Theorem C94_edges : forall m q s n eps ID O (ref : option (reference ID O)), library_model m q -> a_param s = Some (m_param m) ->
  (1 <= n)%nat -> 0 < eps -> let N := m_N m in
  let V := pair_sum N (a_selfloops s) (fun i j => q i j * (1 - q i j)) in
  exists p e, o_sample m NoWeights None s = Ok p /\ fst (o_num_edges m true s) = Ok e /\
    prob (calls n p) (off eps e (fun L => num_edges N (of_sparse (sparse_sample ref false N L)))) <= V / (INR n * (eps * eps)) /\
    prob (calls n p) (off eps e (fun L => Ok (d_num_edges N false (of_dense (dense_sample ref N L))))) <= V / (INR n * (eps * eps)).
Proof.
  intros m q s n eps ID O ref Hm Hs Hn He N V. destruct (sampler m q s Hm Hs) as (p & Hp & W & HO & HE). fold N in HO, HE.
  destruct (lib_recompute m q Hm s Hs) as [E _]. fold N in E. exists p, (pair_sum N (a_selfloops s) q). split; [exact Hp|]. split; [exact E|].
  assert (S : forall L, of_sparse (sparse_sample ref false N L) = SDiGraph (coo_tocsr true N L)) by (destruct ref; reflexivity).
  assert (T : forall L, of_dense (dense_sample ref N L) = DDiGraph (assign_all L)) by (destruct ref; reflexivity).
  assert (F1 : forall G, map fst (ones G) = G) by (intros G; unfold ones; rewrite map_map; cbn; apply map_id).
  assert (M : expect p (fun L => g_edges N (map fst L)) = pair_sum N (a_selfloops s) q).
  { rewrite HE, <- mean_edges. apply mean_ext. intros G _. rewrite F1. reflexivity. }
  assert (VV : expect p (fun L => (g_edges N (map fst L) - pair_sum N (a_selfloops s) q) * (g_edges N (map fst L) - pair_sum N (a_selfloops s) q)) = V).
  { rewrite HE. unfold V. rewrite <- variance_edges. apply mean_ext. intros G _. rewrite F1. reflexivity. }
  split; apply (calls_off _ p _ (fun L => g_edges N (map fst L))); try assumption; intros L HL; destruct (HO L HL) as (G & HG & -> & _); rewrite F1, ?S, ?T.
  - exact (proj1 (sparse_measures N G)).
  - f_equal. exact (proj1 (dense_measures N G)).
Qed.
Print Assumptions C94_edges.

Theorem C94_degrees : forall m q s n eps nd v ID O (ref : option (reference ID O)), library_model m q -> a_param s = Some (m_param m) ->
  (1 <= n)%nat -> 0 < eps -> nd <> Dother -> (v < m_N m)%nat -> let N := m_N m in
  let V := sumn N (fun j => if allowed (a_selfloops s) v j then dir_link nd q v j * (1 - dir_link nd q v j) else 0) in
  exists p d, o_sample m NoWeights None s = Ok p /\ fst (o_degree m nd true s) = Ok d /\
    prob (calls n p) (off eps (d v) (fun L => do x <- sparse_degree nd N (of_sparse (sparse_sample ref false N L)) ; Ok (x v))) <= V / (INR n * (eps * eps)) /\
    prob (calls n p) (off eps (d v) (fun L => do x <- dense_degree nd N false (of_dense (dense_sample ref N L)) ; Ok (x v))) <= V / (INR n * (eps * eps)).
Proof.
  intros m q s n eps nd v ID O ref Hm Hs Hn He Hd Hv N V. destruct (sampler m q s Hm Hs) as (p & Hp & W & HO & HE). fold N in HO, HE.
  destruct (lib_recompute m q Hm s Hs) as [_ D]. fold N in D. destruct (D nd Hd) as (d & Ed & Vd). exists p, d. split; [exact Hp|]. split; [exact Ed|].
  rewrite (Vd v Hv).
  assert (S : forall L, of_sparse (sparse_sample ref false N L) = SDiGraph (coo_tocsr true N L)) by (destruct ref; reflexivity).
  assert (T : forall L, of_dense (dense_sample ref N L) = DDiGraph (assign_all L)) by (destruct ref; reflexivity).
  assert (F1 : forall G, map fst (ones G) = G) by (intros G; unfold ones; rewrite map_map; cbn; apply map_id).
  assert (M : expect p (fun L => sumn N (g_link nd (map fst L) v)) = nb_degree N (a_selfloops s) (dir_link nd q) v).
  { rewrite HE, <- (mean_degree N (a_selfloops s) q nd v Hd Hv). apply mean_ext. intros G _. rewrite F1. reflexivity. }
  assert (VV : expect p (fun L => (sumn N (g_link nd (map fst L) v) - nb_degree N (a_selfloops s) (dir_link nd q) v) *
     (sumn N (g_link nd (map fst L) v) - nb_degree N (a_selfloops s) (dir_link nd q) v)) = V).
  { rewrite HE. unfold V. rewrite <- (variance_degree N (a_selfloops s) q nd v Hd Hv). apply mean_ext. intros G _. rewrite F1. reflexivity. }
  split; apply (calls_off _ p _ (fun L => sumn N (g_link nd (map fst L) v))); try assumption; intros L HL; destruct (HO L HL) as (G & HG & -> & _); rewrite F1, ?S, ?T.
  - destruct (sparse_degree_val nd N G Hd) as (x & -> & X). cbn [bind]. rewrite (X v Hv). reflexivity.
  - destruct (dense_degree_val nd N G Hd) as (x & -> & X). cbn [bind]. rewrite (X v Hv). reflexivity.
Qed.
Print Assumptions C94_degrees.

(** ** The log-likelihood *)
Definition real (r : res num) : res R := do x <- r ; match x with Fin l => Ok l | _ => Raise OverflowError end.

Theorem C94_likelihood : forall m q s n eps ID O (ref : option (reference ID O)), library_model m q -> a_param s = Some (m_param m) ->
  (1 <= n)%nat -> 0 < eps -> let N := m_N m in
  let h := pair_sum N (a_selfloops s) (fun i j => entropy (q i j)) in
  let V := pair_sum N (a_selfloops s) (fun i j => q i j * (1 - q i j) * ((ln (q i j) - ln (1 - q i j)) * (ln (q i j) - ln (1 - q i j)))) in
  exists p, o_sample m NoWeights None s = Ok p /\
    prob (calls n p) (off eps (- h) (fun L => real (sparse_own m s ref L))) <= V / (INR n * (eps * eps)) /\
    prob (calls n p) (off eps (- h) (fun L => real (dense_own m s ref L))) <= V / (INR n * (eps * eps)).
Proof.
  intros m q s n eps ID O ref Hm Hs Hn He N h V. destruct (sampler m q s Hm Hs) as (p & Hp & W & HO & HE). fold N in HO, HE. exists p. split; [exact Hp|].
  assert (QR : forall i j, (i < N)%nat -> (j < N)%nat -> 0 <= q i j <= 1) by exact (lib_prob m q Hm).
  assert (F1 : forall G, map fst (ones G) = G) by (intros G; unfold ones; rewrite map_map; cbn; apply map_id).
  assert (M : expect p (fun L => ln (graph_weight N (a_selfloops s) q (map fst L))) = - h).
  { rewrite HE. unfold h. rewrite <- (mean_log N (a_selfloops s) q QR). apply mean_ext. intros G _. rewrite F1. reflexivity. }
  assert (VV : expect p (fun L => (ln (graph_weight N (a_selfloops s) q (map fst L)) - - h) * (ln (graph_weight N (a_selfloops s) q (map fst L)) - - h)) = V).
  { rewrite HE. unfold V, h. rewrite <- (variance_log N (a_selfloops s) q QR). apply mean_ext. intros G _. rewrite F1. reflexivity. }
  split; apply (calls_off _ p _ (fun L => ln (graph_weight N (a_selfloops s) q (map fst L)))); try assumption; intros L HL; destruct (HO L HL) as (G & HG & -> & P);
    rewrite F1; destruct (own_value m q s ID O ref G Hm Hs (graph_range _ _ _ HG)) as (l & E1 & E2 & [[_ ->] | [Z _]]); try (fold N in Z; lra).
  - rewrite E1. reflexivity.
  - rewrite E2. reflexivity.
Qed.
Print Assumptions C94_likelihood.

(** ** Any accuracy and any confidence are reached with enough samples, a number depending on the number of vertices alone. *)
Lemma quarter : forall x, 0 <= x <= 1 -> 0 <= x * (1 - x) <= 1 / 4.
Proof. intros x Hx. split; [apply Rmult_le_pos; lra|]. pose proof (Rle_0_sqr (x - 1 / 2)). unfold Rsqr in H. lra. Qed.

Lemma enough : forall V K eps delta n, 0 < eps -> 0 < delta -> 0 <= V <= K -> K / (delta * (eps * eps)) <= INR n -> (1 <= n)%nat -> V / (INR n * (eps * eps)) <= delta.
Proof.
  intros V K eps delta n He Hd HV Hn H1. assert (Pn : 0 < INR n) by (apply lt_0_INR; lia). assert (Pe : 0 < eps * eps) by (apply Rmult_lt_0_compat; assumption).
  assert (Q : K <= INR n * (delta * (eps * eps))).
  { apply Rmult_le_compat_r with (r := delta * (eps * eps)) in Hn; [|apply Rlt_le, Rmult_lt_0_compat; assumption].
    replace (K / (delta * (eps * eps)) * (delta * (eps * eps))) with K in Hn by (field; lra). exact Hn. }
  apply Rmult_le_reg_r with (INR n * (eps * eps)); [apply Rmult_lt_0_compat; assumption|].
  replace (V / (INR n * (eps * eps)) * (INR n * (eps * eps))) with V by (field; lra). lra.
Qed.

Theorem C94_enough : forall m q s n eps delta ID O (ref : option (reference ID O)), library_model m q -> a_param s = Some (m_param m) ->
  0 < eps -> 0 < delta -> (1 <= n)%nat -> let N := m_N m in
  exists p e, o_sample m NoWeights None s = Ok p /\ fst (o_num_edges m true s) = Ok e /\
    (INR N * INR N / 4 / (delta * (eps * eps)) <= INR n ->
       prob (calls n p) (off eps e (fun L => num_edges N (of_sparse (sparse_sample ref false N L)))) <= delta) /\
    (INR N / 4 / (delta * (eps * eps)) <= INR n -> forall nd v, nd <> Dother -> (v < N)%nat -> exists d, fst (o_degree m nd true s) = Ok d /\
       prob (calls n p) (off eps (d v) (fun L => do x <- sparse_degree nd N (of_sparse (sparse_sample ref false N L)) ; Ok (x v))) <= delta).
Proof.
  intros m q s n eps delta ID O ref Hm Hs He Hd Hn N. pose proof (lib_prob m q Hm) as QR. fold N in QR.
  destruct (C94_edges m q s n eps ID O ref Hm Hs Hn He) as (p & e & Hp & Ee & A & _). fold N in A. exists p, e. split; [exact Hp|]. split; [exact Ee|].
  assert (SB : forall f c, (forall k, (k < N)%nat -> 0 <= f k <= c) -> 0 <= sumn N f <= INR N * c).
  { intros f c Hf. rewrite <- suml_seq. split; [apply suml_nonneg; intros k K; apply in_seq in K; apply Hf; lia|].
    replace (INR N) with (INR (length (seq 0 N))) by (rewrite seq_length; reflexivity). apply suml_bound. intros k K. apply in_seq in K. apply Hf. lia. }
  split.
  - intros Hk. eapply Rle_trans; [exact A|]. apply (enough _ (INR N * INR N / 4)); try assumption.
    replace (INR N * INR N / 4) with (INR N * (INR N * (1 / 4))) by field. unfold pair_sum. apply SB. intros i Hi. apply SB. intros j Hj.
    destruct (allowed _ i j); [apply quarter, QR; assumption | lra].
  - intros Hk nd v Hnd Hv. destruct (C94_degrees m q s n eps nd v ID O ref Hm Hs Hn He Hnd Hv) as (p' & d & Hp' & Ed & B & _). fold N in B.
    rewrite Hp in Hp'. injection Hp' as <-. exists d. split; [exact Ed|]. eapply Rle_trans; [exact B|]. apply (enough _ (INR N / 4)); try assumption.
    replace (INR N / 4) with (INR N * (1 / 4)) by field. apply SB. intros j Hj. destruct (allowed _ v j); [|lra]. apply quarter.
    destruct nd; cbn [dir_link]; [apply QR; assumption | apply QR; assumption | | congruence]. unfold either_link.
    pose proof (QR v j Hv Hj). pose proof (QR j v Hj Hv). pose proof (QR v v Hv Hv). destruct (Nat.eqb v j); [assumption|].
    assert (0 <= (1 - q v j) * (1 - q j v)) by (apply Rmult_le_pos; lra).
    assert ((1 - q v j) * (1 - q j v) <= 1 * 1) by (apply Rmult_le_compat; lra). lra.
Qed.
Print Assumptions C94_enough.

(** ** Spark, in any number of blocks *)
Theorem C94_spark : forall m q B s n eps ID O (ref : option (reference ID O)), spark_single m q -> (1 <= m_N m)%nat -> (1 <= B)%nat -> a_param s = Some (m_param m) ->
  (1 <= n)%nat -> 0 < eps -> let N := m_N m in let b := a_selfloops s in
  exists p, so_sample m B NoWeights None s = Ok p /\
    (exists e, fst (so_query m B (QEdges true) s) = Ok (Scalar e) /\
      prob (calls n p) (off eps e (fun L => num_edges N (of_sparse (sparse_sample ref false N L))))
        <= pair_sum N b (fun i j => q i j * (1 - q i j)) / (INR n * (eps * eps))) /\
    (forall nd v, nd <> Dother -> (v < N)%nat -> exists d, fst (so_query m B (QDegree nd true) s) = Ok (Vector d) /\
      prob (calls n p) (off eps (d v) (fun L => do x <- sparse_degree nd N (of_sparse (sparse_sample ref false N L)) ; Ok (x v)))
        <= sumn N (fun j => if allowed b v j then dir_link nd q v j * (1 - dir_link nd q v j) else 0) / (INR n * (eps * eps))).
Proof.
  intros m q B s n eps ID O ref Hm HN HB Hs Hn He N b. destruct (spark_sampler m q B None s Hm HB Hs) as (p & Hp & W & HO & HE). fold N in HO, HE.
  cbn [effective] in HO, HE. fold b in HO, HE. exists p. split; [exact Hp|]. pose proof (single_spark m q Hm) as Hk.
  assert (S : forall L, of_sparse (sparse_sample ref false N L) = SDiGraph (coo_tocsr true N L)) by (destruct ref; reflexivity).
  assert (F1 : forall G, map fst (ones G) = G) by (intros G; unfold ones; rewrite map_map; cbn; apply map_id).
  assert (PM : forall a c e, Permutation a c -> mem e a = mem e c).
  { intros a c e P. apply eq_iff_eq_true. rewrite !mem_spec. split; intros K; [apply (Permutation_in _ P), K | apply (Permutation_in _ (Permutation_sym P)), K]. }
  split.
  - exists (pair_sum N b q). split.
    + unfold so_query, sp_query, sp_num_edges. rewrite Hs. rewrite orb_true_r. cbn [fst a_edges with_edges attr].
      pose proof (proj1 (s_edges_spec m q Hk B HB b)) as E. unfold s_edges in E. fold N in E |- *. fold b. cbn [bind]. rewrite E. reflexivity.
    + assert (PI : forall a c, Permutation a c -> g_edges N a = g_edges N c).
      { intros a c P. unfold g_edges. apply sumn_ext. intros i _. apply sumn_ext. intros j _. rewrite (PM a c (i, j) P). reflexivity. }
      apply (calls_off _ p _ (fun L => g_edges N (map fst L))); try assumption.
      * intros L HL. destruct (HO L HL) as (G & _ & -> & _). rewrite F1, S. exact (proj1 (sparse_measures N G)).
      * rewrite HE by (intros a c P _; rewrite !F1; apply PI, P). rewrite <- mean_edges. apply mean_ext. intros G _. rewrite F1. reflexivity.
      * rewrite HE by (intros a c P _; rewrite !F1, (PI a c P); reflexivity). rewrite <- variance_edges. apply mean_ext. intros G _. rewrite F1. reflexivity.
  - intros nd v Hd Hv.
    assert (X : exists d, fst (so_query m B (QDegree nd true) s) = Ok (Vector d) /\ d v = nb_degree N b (dir_link nd q) v).
    { pose proof (s_degree_spec m q Hk HN B HB nd b v Hd Hv) as E. unfold s_degree in E.
      unfold so_query, sp_query, sp_degree_of, sp_out_degree, sp_in_degree, sp_degree. rewrite Hs, !orb_true_r. fold b. fold N in E |- *.
      destruct nd; [| | |congruence]; destruct (spark_degrees _ _ _ _ _ _ _) as [[dd dout] di] eqn:ED; cbn in E |- *; eexists; (split; [reflexivity | exact E]). }
    destruct X as (d & Ed & Vd). exists d. split; [exact Ed|]. rewrite Vd.
    assert (PI : forall a c, Permutation a c -> sumn N (g_link nd a v) = sumn N (g_link nd c v)).
    { intros a c P. apply sumn_ext. intros j _. unfold g_link. destruct nd; rewrite ?(PM a c _ P); reflexivity. }
    apply (calls_off _ p _ (fun L => sumn N (g_link nd (map fst L) v))); try assumption.
    + intros L HL. destruct (HO L HL) as (G & _ & -> & _). rewrite F1, S. destruct (sparse_degree_val nd N G Hd) as (x & -> & Xv). cbn [bind]. rewrite (Xv v Hv). reflexivity.
    + rewrite HE by (intros a c P _; rewrite !F1; apply PI, P). rewrite <- (mean_degree N b q nd v Hd Hv). apply mean_ext. intros G _. rewrite F1. reflexivity.
    + rewrite HE by (intros a c P _; rewrite !F1, (PI a c P); reflexivity). rewrite <- (variance_degree N b q nd v Hd Hv). apply mean_ext. intros G _. rewrite F1. reflexivity.
Qed.
Print Assumptions C94_spark.

(** * Concrete cases *)

(** 3 vertices, 4 links with probability 1/2: with 10000 samples the average number of links is within 1/10 of 2 with probability at least 99/100. *)
Example C94_edges_case : library_model ex_model PropEnsemble.ex_q /\
  pair_sum 3 false (fun i j => PropEnsemble.ex_q i j * (1 - PropEnsemble.ex_q i j)) / (INR 10000 * (1 / 10 * (1 / 10))) = 1 / 100 /\
  fst (o_num_edges ex_model true (new_ens (Some (m_param ex_model)) false)) = Ok 2.
Proof.
  split; [exact ex_lib|]. split; [|exact (proj2 (proj2 C75_case))].
  replace (INR 10000) with 10000 by (rewrite INR_IZR_INZ; reflexivity). unfold pair_sum, allowed. cbn. rewrite !PropEnsemble.ex_q_val. cbn. field.
Qed.

(** The out-in degree of vertex 0 there: probability 3/4 for a link with vertex 1, 1/2 with vertex 2. *)
Example C94_degrees_case : library_model ex_model PropEnsemble.ex_q /\
  sumn 3 (fun j => if allowed false 0 j then dir_link Doutin PropEnsemble.ex_q 0 j * (1 - dir_link Doutin PropEnsemble.ex_q 0 j) else 0) = 7 / 16.
Proof. split; [exact ex_lib|]. unfold allowed, dir_link, either_link. cbn. rewrite !PropEnsemble.ex_q_val. cbn. field. Qed.

(** 22500 samples suffice for this accuracy and confidence with three vertices, whatever the parameter. *)
Example C94_enough_case : library_model ex_model PropEnsemble.ex_q /\ exists p e, o_sample ex_model NoWeights None (new_ens (Some (m_param ex_model)) false) = Ok p /\
  fst (o_num_edges ex_model true (new_ens (Some (m_param ex_model)) false)) = Ok e /\
  prob (calls 22500 p) (off (1 / 10) e (fun L => num_edges 3 (of_sparse (sparse_sample (None : option (reference nat nat)) false 3 L)))) <= 1 / 100.
Proof.
  split; [exact ex_lib|]. assert (K : INR 22500 = 22500) by (rewrite INR_IZR_INZ; reflexivity).
  assert (H1 : (1 <= 22500)%nat) by (apply INR_le; rewrite K; cbn; lra).
  destruct (C94_enough ex_model PropEnsemble.ex_q (new_ens (Some (m_param ex_model)) false) 22500 (1 / 10) (1 / 100) nat nat None ex_lib eq_refl ltac:(lra) ltac:(lra) H1)
    as (p & e & Hp & Ee & A & _). exists p, e. split; [exact Hp|]. split; [exact Ee|]. apply A. rewrite K. change (m_N ex_model) with 3%nat. cbn [INR]. lra.
Qed.

(** With all probabilities 1/2 or 0 every sample has the same log-likelihood: no variance. *)
Example C94_likelihood_case : library_model ex_model PropEnsemble.ex_q /\
  pair_sum 3 false (fun i j => let x := PropEnsemble.ex_q i j in x * (1 - x) * ((ln x - ln (1 - x)) * (ln x - ln (1 - x)))) = 0.
Proof. split; [exact ex_lib|]. unfold pair_sum, allowed. cbn. rewrite !PropEnsemble.ex_q_val. cbn. replace (1 - 1 / 2) with (1 / 2) by lra. ring. Qed.

Example C94_spark_case : spark_single PropSparkState.ex_m PropSparkState.ex_q /\ (1 <= m_N PropSparkState.ex_m)%nat /\
  fst (so_query PropSparkState.ex_m 2 (QEdges true) (new_ens (Some (m_param PropSparkState.ex_m)) false)) = Ok (Scalar 2).
Proof.
  split; [exact PropSparkState.ex_single|]. split; [cbn; lia|].
  destruct (C94_spark PropSparkState.ex_m PropSparkState.ex_q 2 (new_ens (Some (m_param PropSparkState.ex_m)) false) 1 1 nat nat None PropSparkState.ex_single
    ltac:(cbn; lia) ltac:(lia) eq_refl ltac:(lia) ltac:(lra)) as (p & _ & (e & E & _) & _).
  pose proof (proj1 (s_edges_spec PropSparkState.ex_m PropSparkState.ex_q (single_spark _ _ PropSparkState.ex_single) 2 ltac:(lia) false)) as S.
  unfold so_query, sp_query, sp_num_edges. cbn [a_param new_ens a_edges is_none orb fst lift_res with_edges attr a_selfloops].
  change (Ok (Scalar (s_edges PropSparkState.ex_m 2 false)) = Ok (Scalar 2)). rewrite S. do 2 f_equal.
  assert (Q : forall i j, PropSparkState.ex_q i j = if Nat.eqb j 2 then 0 else 1 / 2).
  { intros i j. unfold PropSparkState.ex_q, link_prob, PropSparkState.ex_y. cbn [existsb is_zero is_infinite prodl toR].
    destruct (Nat.eqb j 2); rewrite !(Reqb_false 1 0) by lra; [rewrite (Reqb_true 0 0) by reflexivity|]; cbn; [reflexivity|]. unfold logistic. field. }
  change (m_N PropSparkState.ex_m) with 3%nat. unfold pair_sum, allowed. cbn. rewrite !Q. cbn. field.
Qed.
