(** Facts about the objects of MultiState.v. *)
From Verif Require Import Base Num Spec Kernels KernelFacts MultiKernels MultiFacts Prob Ensemble EnsembleFacts
  EnsembleProps Lib Ids Graphs DenseGraphs Spark EnsembleState Models ModelFacts StateFacts StateProps SparkFacts
  SparkMeasures SparkConfusion SparkLib Layers LayerFacts LayerProps LayerLib MultiState.
From Coq Require Import FunctionalExtensionality.

(** * Histories of label queries *)

Section History.
Variables P E D : Type.
Variables (edges_fun : P -> bool -> res E) (degrees_fun : P -> bool -> res (D * D * D)).
Variables (base : query -> ens P -> res answer * ens P) (pass : bool).
Variables (p : P) (own : bool) (re : res E) (rd : res (D * D * D)).
Hypothesis He : edges_fun p own = re.
Hypothesis Hdeg : degrees_fun p own = rd.
(** The invariant of the inherited part, and what its queries answer. *)
Variables (Inv : ens P -> Prop) (now : query -> res answer) (ok : query -> Prop).
Hypothesis Inv_par : forall s, Inv s -> a_param s = Some p /\ a_selfloops s = own.
Hypothesis Hbase : forall q s, Inv s -> ok q -> exists s', base q s = (now q, s') /\ Inv s'.

Definition lab_ok (l : lab E D) : Prop :=
  (b_edges l = None \/ exists v, re = Ok v /\ b_edges l = Some v) /\
  ((b_degree l = None /\ b_out l = None /\ b_in l = None) \/
   exists d o i, rd = Ok (d, o, i) /\ b_degree l = Some d /\ b_out l = Some o /\ b_in l = Some i).

Definition rmap {A B} (f : A -> B) (r : res A) : res B := match r with Ok v => Ok (f v) | Raise e => Raise e end.
Definition lanswer_now (q : lquery) : res (lanswer E D) :=
  match q with
  | LBase q => rmap ABase (now q)
  | LEdges _ => rmap AEdges re
  | LDegree _ => rmap (fun t => ADegrees (fst (fst t))) rd
  | LOut _ => rmap (fun t => ADegrees (snd (fst t))) rd
  | LIn _ => rmap (fun t => ADegrees (snd t)) rd
  end.
Definition lquery_ok (q : lquery) : Prop := match q with LBase q => ok q | _ => True end.

Lemma no_lab_ok : lab_ok no_lab.
Proof. split; left; [reflexivity | repeat split; reflexivity]. Qed.

Lemma lbl_edges_now : forall r s, a_param (fst s) = Some p -> a_selfloops (fst s) = own ->
  r = true \/ lab_ok (snd s) ->
  exists l, lbl_num_edges edges_fun r s = (re, (fst s, l)) /\ (lab_ok (snd s) -> lab_ok l).
Proof.
  intros r [s l] Hp Hs Hr. unfold lbl_num_edges. cbn [fst snd] in *. rewrite Hp, Hs, He.
  destruct (is_none (b_edges l) || r) eqn:C.
  - destruct re as [v|e] eqn:Er.
    + eexists. split; [reflexivity|]. intros [_ H2]. split; [right; exists v; split; [exact Er|reflexivity] | exact H2].
    + exists l. split; [reflexivity|]. intros H. exact H.
  - apply orb_false_iff in C. destruct C as [C1 ->]. destruct Hr as [|Hl]; [discriminate|].
    pose proof Hl as [[N|(v & Ev & N)] _].
    + rewrite N in C1. discriminate.
    + rewrite N, Ev. exists l. split; [reflexivity | intros H; exact H].
Qed.

Lemma lbl_degree_now : forall r s, a_param (fst s) = Some p -> a_selfloops (fst s) = own ->
  r = true \/ lab_ok (snd s) ->
  exists l, lbl_degree degrees_fun r s = (rmap (fun t => fst (fst t)) rd, (fst s, l)) /\
    (lab_ok (snd s) -> lab_ok l) /\
    (forall d o i, rd = Ok (d, o, i) -> b_degree l = Some d /\ (r = true \/ is_none (b_degree (snd s)) = true \/ lab_ok (snd s) -> b_out l = Some o /\ b_in l = Some i)).
Proof.
  intros r [s l] Hp Hs Hr. unfold lbl_degree. cbn [fst snd] in *. rewrite Hp, Hs, Hdeg.
  destruct (is_none (b_degree l) || r) eqn:C.
  - destruct rd as [[[d o] i]|e] eqn:Er.
    + eexists. split; [reflexivity|]. split.
      * intros [H1 _]. split; [exact H1 | right; exists d, o, i; split; [exact Er | repeat split]].
      * intros d' o' i' Eq. injection Eq as <- <- <-. repeat split.
    + exists l. split; [reflexivity|]. split; [intros H; exact H | discriminate].
  - apply orb_false_iff in C. destruct C as [C1 ->]. destruct Hr as [|Hl]; [discriminate|].
    pose proof Hl as [_ [(N & _)|(d & o & i & Er & N1 & N2 & N3)]]; [rewrite N in C1; discriminate|].
    exists l. rewrite Er, N1. split; [reflexivity|]. split; [intros H; exact H|].
    intros d' o' i' Eq. injection Eq as <- <- <-. split; [reflexivity | intros _; split; assumption].
Qed.

Lemma lbl_out_now : forall r s, a_param (fst s) = Some p -> a_selfloops (fst s) = own ->
  (pass = true /\ r = true) \/ lab_ok (snd s) ->
  exists l, lbl_out degrees_fun pass r s = (rmap (fun t => snd (fst t)) rd, (fst s, l)) /\ (lab_ok (snd s) -> lab_ok l).
Proof.
  intros r s Hp Hs Hr. unfold lbl_out.
  assert (Hr' : pass && r = true \/ lab_ok (snd s)) by (destruct Hr as [[-> ->]|H]; auto).
  destruct (is_none (b_out (snd s)) || r) eqn:C.
  - destruct (lbl_degree_now (pass && r) s Hp Hs Hr') as (l & El & Hl & Hd). rewrite El.
    destruct rd as [[[d o] i]|e] eqn:Er; cbn [rmap].
    + exists l. cbn [snd]. destruct (Hd d o i eq_refl) as [_ Hd2].
      destruct Hd2 as [-> _]; [destruct Hr' as [->|H]; auto|]. split; [reflexivity | exact Hl].
    + exists l. split; [reflexivity | exact Hl].
  - apply orb_false_iff in C. destruct C as [C1 ->]. destruct Hr as [[_ ?]|Hl]; [discriminate|].
    exists (snd s). destruct s as [s l]; cbn [fst snd] in *. split; [|auto].
    pose proof Hl as [_ [(_ & N & _)|(d & o & i & Er & N1 & N2 & N3)]]; [rewrite N in C1; discriminate|].
    rewrite N2, Er. reflexivity.
Qed.

Lemma lbl_in_now : forall r s, a_param (fst s) = Some p -> a_selfloops (fst s) = own ->
  (pass = true /\ r = true) \/ lab_ok (snd s) ->
  exists l, lbl_in degrees_fun pass r s = (rmap (fun t => snd t) rd, (fst s, l)) /\ (lab_ok (snd s) -> lab_ok l).
Proof.
  intros r s Hp Hs Hr. unfold lbl_in.
  assert (Hr' : pass && r = true \/ lab_ok (snd s)) by (destruct Hr as [[-> ->]|H]; auto).
  destruct (is_none (b_in (snd s)) || r) eqn:C.
  - destruct (lbl_degree_now (pass && r) s Hp Hs Hr') as (l & El & Hl & Hd). rewrite El.
    destruct rd as [[[d o] i]|e] eqn:Er; cbn [rmap].
    + exists l. cbn [snd]. destruct (Hd d o i eq_refl) as [_ Hd2].
      destruct Hd2 as [_ ->]; [destruct Hr' as [->|H]; auto|]. split; [reflexivity | exact Hl].
    + exists l. split; [reflexivity | exact Hl].
  - apply orb_false_iff in C. destruct C as [C1 ->]. destruct Hr as [[_ ?]|Hl]; [discriminate|].
    exists (snd s). destruct s as [s l]; cbn [fst snd] in *. split; [|auto].
    pose proof Hl as [_ [(_ & _ & N)|(d & o & i & Er & N1 & N2 & N3)]]; [rewrite N in C1; discriminate|].
    rewrite N3, Er. reflexivity.
Qed.

Definition forced (q : lquery) : Prop :=
  match q with LBase _ => False | LEdges r | LDegree r => r = true | LOut r | LIn r => r = true /\ pass = true end.

Lemma lquery_now : forall q s, Inv (fst s) -> lquery_ok q -> forced q \/ lab_ok (snd s) ->
  exists s', run_lquery edges_fun degrees_fun base pass q s = (lanswer_now q, s') /\ Inv (fst s') /\
    (lab_ok (snd s) -> lab_ok (snd s')).
Proof.
  intros q s HI Hok Hr. destruct (Inv_par _ HI) as [Hp Hs]. destruct q as [q|r|r|r|r]; cbn [run_lquery lanswer_now forced] in *.
  - destruct (Hbase q (fst s) HI Hok) as (s' & E1 & E2). rewrite E1. exists (s', snd s). unfold lift; cbn [fst snd].
    split; [reflexivity|]. split; [exact E2 | auto].
  - destruct (lbl_edges_now r s Hp Hs Hr) as (l & El & Hl). rewrite El. exists (fst s, l). unfold lift; cbn [fst snd].
    split; [reflexivity|]. auto.
  - destruct (lbl_degree_now r s Hp Hs Hr) as (l & El & Hl & _). rewrite El. exists (fst s, l). unfold lift; cbn [fst snd].
    split; [destruct rd; reflexivity|]. auto.
  - assert (Hr2 : (pass = true /\ r = true) \/ lab_ok (snd s)) by tauto.
    destruct (lbl_out_now r s Hp Hs Hr2) as (l & El & Hl). rewrite El. exists (fst s, l). unfold lift; cbn [fst snd].
    split; [destruct rd; reflexivity|]. auto.
  - assert (Hr2 : (pass = true /\ r = true) \/ lab_ok (snd s)) by tauto.
    destruct (lbl_in_now r s Hp Hs Hr2) as (l & El & Hl). rewrite El. exists (fst s, l). unfold lift; cbn [fst snd].
    split; [destruct rd; reflexivity|]. auto.
Qed.

Lemma lhistory_now : forall qs s, Inv (fst s) -> lab_ok (snd s) -> Forall lquery_ok qs ->
  fst (run_lqueries edges_fun degrees_fun base pass qs s) = map lanswer_now qs /\
  Inv (fst (snd (run_lqueries edges_fun degrees_fun base pass qs s))).
Proof.
  induction qs as [|q t IH]; intros s HI Hl Hq; [split; [reflexivity | exact HI]|].
  apply Forall_cons_iff in Hq. destruct Hq as [Hq Ht].
  destruct (lquery_now q s HI Hq (or_intror Hl)) as (s1 & E1 & HI1 & Hl1).
  cbn [run_lqueries]. rewrite E1. specialize (IH s1 HI1 (Hl1 Hl) Ht).
  destruct (run_lqueries edges_fun degrees_fun base pass t s1) as [l s2]. cbn [fst snd map] in *.
  destruct IH as [-> IH]. split; [reflexivity | exact IH].
Qed.
End History.

(** Label queries do not touch the inherited attributes and inherited ones do not touch the labels. *)
Lemma lquery_separate : forall P E D (ef : P -> bool -> res E) (df : P -> bool -> res (D * D * D)) base pass q s,
  let s' := snd (run_lquery ef df base pass q s) in
  match q with LBase b => s' = (snd (base b (fst s)), snd s) | _ => fst s' = fst s end.
Proof.
  intros P E D ef df base pass q s. cbv zeta.
  assert (Dg : forall r, fst (snd (lbl_degree df r s)) = fst s).
  { intros r. unfold lbl_degree. destruct (a_param (fst s)); [|reflexivity]. destruct (_ || _); [|reflexivity].
    destruct (df _ _) as [[[? ?] ?]|]; reflexivity. }
  destruct q as [b|r|r|r|r]; cbn [run_lquery].
  - destruct (base b (fst s)); reflexivity.
  - unfold lift, lbl_num_edges; cbn [snd]. destruct (a_param (fst s)); [|reflexivity]. destruct (_ || _); [|reflexivity].
    destruct (ef _ _); reflexivity.
  - unfold lift; cbn [snd]. apply Dg.
  - unfold lift, lbl_out; cbn [snd]. destruct (_ || _); [|reflexivity]. specialize (Dg (pass && r)).
    destruct (lbl_degree df (pass && r) s) as [[v|e] s']; exact Dg.
  - unfold lift, lbl_in; cbn [snd]. destruct (_ || _); [|reflexivity]. specialize (Dg (pass && r)).
    destruct (lbl_degree df (pass && r) s) as [[v|e] s']; exact Dg.
Qed.

(** * The models *)

(** [library_multi u g]: [u] is a multi-label model of the sparse (or Spark) module on admissible tables,
    whose layers have link function [g]. *)
Inductive library_multi : multi -> (R -> R) -> Prop :=
| lm_fitness : forall N L xs ys z, label_table L xs -> label_table L ys -> length xs = N -> length ys = N ->
    library_multi (multi_fitness N L xs ys z) logistic
| lm_invariant : forall N L xs ys z, label_table L xs -> label_table L ys -> length xs = N -> length ys = N ->
    library_multi (multi_invariant N L xs ys z) poissonian.

Inductive library_dense_multi : multi_dense -> (R -> R) -> Prop :=
| ld_fitness : forall N L x y z, (forall i k, (i < N)%nat -> (k < L)%nat -> nonneg (x i k) /\ nonneg (y i k)) ->
    library_dense_multi (multi_fitness_dense N L x y z) logistic
| ld_invariant : forall N L x y z, (forall i k, (i < N)%nat -> (k < L)%nat -> nonneg (x i k) /\ nonneg (y i k)) ->
    library_dense_multi (multi_invariant_dense N L x y z) poissonian.

(** Link probability of the projection: at least one layer is linked. *)
Definition some_layer (g : R -> R) (L : nat) (d : nat -> num) (xs ys : list tuple) (i j : nat) : R :=
  any_layer L (fun k => layer_prob g d xs ys k i j).

Lemma multi_tables : forall u g, library_multi u g ->
  label_table (u_L u) (u_xs u) /\ label_table (u_L u) (u_ys u) /\ length (u_xs u) = u_N u /\ length (u_ys u) = u_N u.
Proof. intros u g H; destruct H; cbn; auto. Qed.

Lemma multi_kernels : forall u g, library_multi u g -> layer_kernels g (u_p_ijk u) (u_logp_ijk u) (u_log1mp_ijk u).
Proof. intros u g H; destruct H; cbn; constructor. Qed.

Lemma table_row : forall L t i, label_table L t -> (i < length t)%nat ->
  canonical L (row_vec (nth i t ([], []))) /\ all_nonneg (row_vec (nth i t ([], []))).
Proof.
  intros L t i (_ & _ & H) Hi. apply (proj1 (Forall_forall _ _) H). apply nth_In. exact Hi.
Qed.

Lemma multi_rows : forall L xs ys N, label_table L xs -> label_table L ys -> length xs = N -> length ys = N ->
  forall i, (i < N)%nat -> canonical L (vertex xs i) /\ all_nonneg (vertex xs i) /\
    canonical L (vertex ys i) /\ all_nonneg (vertex ys i).
Proof.
  intros L xs ys N Tx Ty Nx Ny i Hi.
  destruct (table_row L xs i Tx) as [A1 A2]; [lia|]. destruct (table_row L ys i Ty) as [B1 B2]; [lia|]. auto.
Qed.

Lemma multi_model : forall u g d, library_multi u g -> (forall k, (k < u_L u)%nat -> nonneg (d k)) ->
  library_model (u_model u d) (some_layer g (u_L u) d (u_xs u) (u_ys u)).
Proof.
  intros u g d H Hd; destruct H as [N L xs ys z Tx Ty Nx Ny|N L xs ys z Tx Ty Nx Ny]; cbn in *.
  - exact (lib_multi_fitness N L d (vertex xs) (vertex ys) Hd (multi_rows L xs ys N Tx Ty Nx Ny)).
  - exact (lib_multi_invariant N L d (vertex xs) (vertex ys) Hd (multi_rows L xs ys N Tx Ty Nx Ny)).
Qed.

Lemma multi_spark_model : forall u g d, library_multi u g -> (forall k, (k < u_L u)%nat -> nonneg (d k)) ->
  spark_model (u_model u d) (some_layer g (u_L u) d (u_xs u) (u_ys u)).
Proof.
  intros u g d H Hd; destruct H as [N L xs ys z Tx Ty Nx Ny|N L xs ys z Tx Ty Nx Ny]; cbn in *.
  - exact (spk_multi_fitness N L d (vertex xs) (vertex ys) Hd (multi_rows L xs ys N Tx Ty Nx Ny)).
  - exact (spk_multi_invariant N L d (vertex xs) (vertex ys) Hd (multi_rows L xs ys N Tx Ty Nx Ny)).
Qed.

Lemma dense_multi_kernels : forall v g, library_dense_multi v g ->
  layer_kernels g (v_p_ijk v) (v_logp_ijk v) (v_log1mp_ijk v) /\
  (forall i k, (i < v_N v)%nat -> (k < v_L v)%nat -> nonneg (v_x v i k) /\ nonneg (v_y v i k)).
Proof. intros v g H; destruct H; cbn; (split; [constructor | assumption]). Qed.

Definition some_layer_dense (g : R -> R) (L : nat) (d : nat -> num) (x y : nat -> nat -> num) (i j : nat) : R :=
  any_layer L (fun k => link_prob g [d k; x i k; y j k; Fin 1]).

Lemma dense_multi_model : forall v g d, library_dense_multi v g -> (forall k, (k < v_L v)%nat -> nonneg (d k)) ->
  library_model (v_model v d) (some_layer_dense g (v_L v) d (v_x v) (v_y v)).
Proof.
  intros v g d H Hd; destruct H as [N L x y z Hx|N L x y z Hx]; cbn in *.
  - exact (lib_multi_fitness_dense N L d x y Hd Hx).
  - exact (lib_multi_invariant_dense N L d x y Hd Hx).
Qed.

(** * Spark: the label measures *)

Lemma for_each_enum : forall A S (l : list A) (b : A -> S -> S) s n,
  for_each (combine (seq n (length l)) l) (fun ix st => b (snd ix) st) s = for_each l b s.
Proof.
  intros A S l b; induction l as [|x l IH]; intros s n; [reflexivity|].
  unfold for_each in *. cbn [length seq combine fold_left snd]. apply IH.
Qed.

Lemma spark_edges_layer_eq : forall p z d po pin sl, (forall x y w w', p d x y w = p d x y w') ->
  spark_edges_layer p z d po pin sl = exp_edges_layer p z d po pin sl.
Proof.
  intros p z d po pin sl Hz. unfold spark_edges_layer, exp_edges_layer, enumerate.
  rewrite <- (for_each_enum _ _ po _ _ 0). apply for_each_ext_in. intros [i [oi fo]] s _. cbn [snd].
  rewrite <- (for_each_enum _ _ pin _ _ 0). apply for_each_ext_in. intros [j [ij fi]] s' _. cbn [snd].
  destruct (adm sl oi ij); [|reflexivity]. rewrite (Hz fo fi (z i j) (z oi ij)). reflexivity.
Qed.

(** All entries of the dictionaries belong to label [k]. *)
Definition st_label (k : nat) (st : doks) : Prop :=
  let '(a, b, c) := st in
  Forall (fun e => snd (fst e) = k) a /\ Forall (fun e => snd (fst e) = k) b /\ Forall (fun e => snd (fst e) = k) c.
Definition st_some (st : doks) : Prop := fst (fst st) <> [].

Lemma for_each_keeps : forall A S (Q : S -> Prop) (l : list A) (f : A -> S -> S),
  (forall x s, In x l -> Q s -> Q (f x s)) -> forall s, Q s -> Q (for_each l f s).
Proof.
  intros A S Q l f; induction l as [|x l IH]; intros H s Hs; [exact Hs|].
  unfold for_each. cbn [fold_left]. apply IH; [intros y t Hy; apply H; right; exact Hy|].
  apply H; [left; reflexivity | exact Hs].
Qed.

Lemma for_each_reaches : forall A S (Q : S -> Prop) (l : list A) (f : A -> S -> S) x,
  (forall x s, Q s -> Q (f x s)) -> In x l -> (forall s, Q (f x s)) -> forall s, Q (for_each l f s).
Proof.
  intros A S Q l f x Hk; induction l as [|y l IH]; intros Hx Hf s; [contradiction|].
  unfold for_each. cbn [fold_left]. destruct Hx as [->|Hx]; [|apply IH; assumption].
  apply (for_each_keeps A S Q l f); [intros; apply Hk; assumption | apply Hf].
Qed.

Lemma incr_label : forall (Q : nat * nat -> Prop) k v d, Forall (fun e => Q (fst e)) d ->
  Forall (fun e => Q (fst e)) (Layers.incr k v d).
Proof.
  intros Q k v d H. unfold Layers.incr. apply Forall_forall. intros e He. apply in_map_iff in He.
  destruct He as (x & <- & Hx). pose proof (proj1 (Forall_forall _ _) H x Hx) as Hq. destruct (_ && _); exact Hq.
Qed.

Lemma bump_label : forall i k p o n st, st_label k st -> st_label k (bump (i, k) p o n st).
Proof.
  intros i k p o n [[a b] c] (H1 & H2 & H3). unfold bump. destruct (has (i, k) a).
  - repeat split; apply (incr_label (fun e => snd e = k)); assumption.
  - repeat split; (apply Forall_app; split; [assumption | apply Forall_cons; [reflexivity | apply Forall_nil]]).
Qed.

Lemma bump_some : forall i p o n st, st_some (bump i p o n st).
Proof.
  intros i p o n [[a b] c]. unfold bump, st_some. destruct (has i a) eqn:H; cbn [fst].
  - destruct a; [discriminate|]. unfold Layers.incr. cbn [map]. discriminate.
  - destruct a; discriminate.
Qed.

Section SparkLayer.
Variables (p : num -> num -> num -> num -> R) (z : nat -> nat -> num) (d : num) (k : nat) (po pin : svec) (sl : bool).

Lemma layer_body_label : forall i x j y st, st_label k st -> st_label k (degrees_layer_body p z d k po pin sl i x j y st).
Proof.
  intros i x j y st H. unfold degrees_layer_body. destruct (negb (Nat.eqb i j)).
  - match goal with |- context[if ?c then (?a, ?b) else (?e, ?f)] => destruct (if c then (a, b) else (e, f)) as [pji pp] end.
    apply bump_label, bump_label, H.
  - destruct sl; [apply bump_label|]; exact H.
Qed.

Lemma exp_degrees_layer_label : st_label k (exp_degrees_layer p z d k po pin sl).
Proof.
  unfold exp_degrees_layer.
  apply (for_each_keeps _ _ (st_label k)); [|repeat split; apply Forall_nil].
  intros o st _ H. apply (for_each_keeps _ _ (st_label k)); [|exact H].
  intros q st' _ H'. apply layer_body_label. exact H'.
Qed.

Lemma layer_body_some : forall i x j y st, (adm sl i j = true \/ st_some st) ->
  st_some (degrees_layer_body p z d k po pin sl i x j y st).
Proof.
  intros i x j y st H. unfold degrees_layer_body, adm in *. destruct (negb (Nat.eqb i j)).
  - match goal with |- context[if ?c then (?a, ?b) else (?e, ?f)] => destruct (if c then (a, b) else (e, f)) as [pji pp] end.
    apply bump_some.
  - destruct sl; [apply bump_some|]. destruct H as [H|H]; [discriminate | exact H].
Qed.

Lemma exp_degrees_layer_some : forall o q, In o po -> In q pin -> adm sl (fst o) (fst q) = true ->
  st_some (exp_degrees_layer p z d k po pin sl).
Proof.
  intros o q Ho Hq Ha. unfold exp_degrees_layer.
  assert (K : forall (o : nat * num) st, st_some st -> st_some (for_each pin (fun q st =>
      degrees_layer_body p z d k po pin sl (fst o) (snd o) (fst q) (snd q) st) st)).
  { intros o' st H. apply (for_each_keeps _ _ st_some); [|exact H]. intros q' st' _ H'. apply layer_body_some. right; exact H'. }
  apply (for_each_reaches _ _ st_some po _ o); [exact K | exact Ho|].
  intros st. apply (for_each_reaches _ _ st_some pin _ q); [|exact Hq|].
  - intros q' st' H'. apply layer_body_some. right; exact H'.
  - intros st'. apply layer_body_some. left; exact Ha.
Qed.
End SparkLayer.

Lemma dok_at_app : forall a b v k, dok_at (a ++ b) v k
  = match find (fun e => Nat.eqb v (fst (fst e)) && Nat.eqb k (snd (fst e))) a with Some e => snd e | None => dok_at b v k end.
Proof.
  intros a b v k. unfold dok_at. induction a as [|e a IH]; [reflexivity|]. cbn [app find].
  destruct (_ && _); [reflexivity | exact IH].
Qed.

Lemma find_label : forall (a : dok) l v k, Forall (fun e => snd (fst e) = l) a -> l <> k ->
  find (fun e => Nat.eqb v (fst (fst e)) && Nat.eqb k (snd (fst e))) a = None.
Proof.
  intros a l v k H Hn. induction H as [|e a He Ha IH]; [reflexivity|]. cbn [find]. rewrite He.
  destruct (Nat.eqb_spec k l); [congruence|]. rewrite andb_false_r. exact IH.
Qed.

(** The dictionaries of the labels one after the other: those of label [k] are read at label [k]. *)
Lemma labels_concat : forall (f : nat -> doks) n, (forall k, st_label k (f k)) ->
  let st := for_each (seq 0 n) (fun k st => let '(a, b, c) := st in let '(a', b', c') := f k in
              (a ++ a', b ++ b', c ++ c')) ([], [], []) in
  forall v k, (k < n)%nat ->
  dok_at (fst (fst st)) v k = dok_at (fst (fst (f k))) v k /\
  dok_at (snd (fst st)) v k = dok_at (snd (fst (f k))) v k /\
  dok_at (snd st) v k = dok_at (snd (f k)) v k.
Proof.
  intros f n Hf. cbv zeta.
  set (body := fun k (st : doks) => let '(a, b, c) := st in let '(a', b', c') := f k in (a ++ a', b ++ b', c ++ c')).
  assert (G : forall n v k,
    let st := for_each (seq 0 n) body ([], [], []) in
    let fd := fun (a : dok) => find (fun e => Nat.eqb v (fst (fst e)) && Nat.eqb k (snd (fst e))) a in
    fd (fst (fst st)) = (if Nat.ltb k n then fd (fst (fst (f k))) else None) /\
    fd (snd (fst st)) = (if Nat.ltb k n then fd (snd (fst (f k))) else None) /\
    fd (snd st) = (if Nat.ltb k n then fd (snd (f k)) else None)).
  { clear n. intros n v k. induction n as [|n IH]; [repeat split|]. cbv zeta in IH |- *.
    unfold for_each. rewrite seq_S, fold_left_app. cbn [fold_left]. fold (for_each (seq 0 n) body ([], [], [])).
    set (st := for_each (seq 0 n) body ([], [], [])) in *. rewrite Nat.add_0_l.
    assert (FA : forall a b : dok, find (fun e => Nat.eqb v (fst (fst e)) && Nat.eqb k (snd (fst e))) (a ++ b)
      = match find (fun e => Nat.eqb v (fst (fst e)) && Nat.eqb k (snd (fst e))) a with Some e => Some e
        | None => find (fun e => Nat.eqb v (fst (fst e)) && Nat.eqb k (snd (fst e))) b end).
    { intros a b. induction a as [|e a IHa]; [reflexivity|]. cbn [app find]. destruct (_ && _); [reflexivity | exact IHa]. }
    pose proof (Hf n) as Hn. unfold body. destruct st as [[a b] c]. destruct (f n) as [[a' b'] c'] eqn:En. cbn [fst snd] in *.
    destruct Hn as (N1 & N2 & N3). destruct IH as (I1 & I2 & I3). rewrite !FA, I1, I2, I3.
    destruct (Nat.ltb_spec k n) as [H|H].
    - destruct (Nat.ltb_spec k (S n)); [|lia].
      rewrite (find_label a' n v k N1), (find_label b' n v k N2), (find_label c' n v k N3) by lia.
      repeat split; match goal with |- match ?x with _ => _ end = _ => destruct x; reflexivity end.
    - destruct (Nat.ltb_spec k (S n)) as [H'|H'].
      + assert (k = n) as -> by lia. rewrite En. cbn [fst snd]. auto.
      + rewrite (find_label a' n v k N1), (find_label b' n v k N2), (find_label c' n v k N3) by lia. auto. }
  intros v k Hk. destruct (G n v k) as (G1 & G2 & G3). cbv zeta in G1, G2, G3. unfold dok_at.
  destruct (Nat.ltb_spec k n); [|lia].
  set (F := fun o : option (nat * nat * R) => match o with Some e => snd e | None => 0 end).
  exact (conj (f_equal F G1) (conj (f_equal F G2) (f_equal F G3))).
Qed.

Lemma labels_some : forall (f : nat -> doks) n k, (k < n)%nat -> st_some (f k) ->
  st_some (for_each (seq 0 n) (fun k st => let '(a, b, c) := st in let '(a', b', c') := f k in
              (a ++ a', b ++ b', c ++ c')) ([], [], [])).
Proof.
  intros f n k Hk Hs. apply (for_each_reaches _ _ st_some _ _ k).
  - intros x [[a b] c] H. unfold st_some in *. destruct (f x) as [[a' b'] c']. cbn [fst] in *.
    destruct a; [contradiction|discriminate].
  - apply in_seq. lia.
  - intros [[a b] c]. unfold st_some in *. destruct (f k) as [[a' b'] c']. cbn [fst] in *.
    destruct a, a'; try discriminate; try contradiction.
Qed.

(** * The label measures of the three modules *)

(** What the loops over stored entries count: the partner [j] of [v] once for each orientation for which
    both entries are stored. *)
Definition counted (N : nat) (xs ys : list tuple) (q : nat -> nat -> R) (l : nat -> nat -> R) (sl : bool) (k v : nat) : R :=
  let has := fun t i => existsb (Nat.eqb k) (map fst (row_vec (nth i t ([], [])))) in
  let times := fun j => b2r (has xs v && has ys j) + b2r (has xs j && has ys v) in
  sumn N (fun j => if Nat.eqb v j then (if sl then q v v else 0) else times j * l v j).

Section Counted.
Variables (g : R -> R) (p : num -> num -> num -> num -> R) (lp l1p : num -> num -> num -> num -> num).
Hypothesis K : layer_kernels g p lp l1p.
Variables (z : nat -> nat -> num) (L N : nat) (d : nat -> num) (xs ys : list tuple).
Hypothesis Tx : label_table L xs.
Hypothesis Ty : label_table L ys.
Hypothesis Nx : length xs = N.
Hypothesis Ny : length ys = N.
Hypothesis Hd : forall k, (k < L)%nat -> nonneg (d k).

Lemma stored_has : forall t, label_table L t -> forall k i,
  LayerProps.stored i (column (map zip t) k) = existsb (Nat.eqb k) (map fst (row_vec (nth i t ([], [])))).
Proof.
  intros t Tt k i. pose proof (layer_stored L t Tt i k) as S. unfold label_stored in S.
  destruct (LayerProps.stored i (column (map zip t) k)), (existsb (Nat.eqb k) (map fst (row_vec (nth i t ([], []))))) eqn:E2; try reflexivity.
  - pose proof (proj1 S eq_refl) as S1. apply (proj2 (stored_in k (row_vec (nth i t ([], []))))) in S1.
    unfold LayerProps.stored in S1. congruence.
  - apply S. apply (proj1 (stored_in k (row_vec (nth i t ([], []))))). exact E2.
Qed.

Lemma visited_counted : forall k v sl, (v < N)%nat ->
  let q := layer_prob g d xs ys k in
  visited g d xs ys k v sl (fun i j => q i j + q j i - q i j * q j i) = counted N xs ys q (either_link q) sl k v /\
  visited g d xs ys k v sl q = counted N xs ys q (out_link q) sl k v /\
  visited g d xs ys k v sl (fun i j => q j i) = counted N xs ys q (in_link q) sl k v.
Proof.
  intros k v sl Hv q.
  assert (Q0 : LayerProps.stored v (column (map zip xs) k) && LayerProps.stored v (column (map zip ys) k) = false -> q v v = 0).
  { intros H0. unfold q, layer_prob. rewrite <- (layer_lookup L xs Tx), <- (layer_lookup L ys Ty).
    apply andb_false_iff in H0. unfold link_prob.
    destruct H0 as [H0|H0]; apply stored_false in H0; rewrite H0; cbn [existsb is_zero];
      destruct (Reqb_spec 0 0) as [_|Hn]; try (contradiction Hn; reflexivity); rewrite ?orb_true_r; reflexivity. }
  assert (M : forall h l, (forall j, j <> v -> h v j = l v j) ->
    visited g d xs ys k v sl h = counted N xs ys q l sl k v).
  { intros h l Hh. rewrite (visited_count g L N d xs ys Tx Ty Nx Ny k v sl h Hv). unfold counted. apply sumn_ext. intros j Hj.
    rewrite <- !(stored_has xs Tx), <- !(stored_has ys Ty). destruct (Nat.eqb_spec v j) as [<-|Hn].
    - fold q. destruct sl; [|reflexivity]. cbn [andb].
      match goal with |- (if ?c then _ else _) = _ => destruct c eqn:E3; [reflexivity | symmetry; apply Q0; reflexivity] end.
    - unfold b2r. rewrite Hh by congruence.
      match goal with |- (if ?c then _ else _) + (if ?e then _ else _) = _ => destruct c, e end; ring. }
  repeat split; apply M; intros j Hn; cbv beta.
  - unfold either_link. destruct (Nat.eqb_spec v j); [congruence|]. ring.
  - reflexivity.
  - reflexivity.
Qed.
End Counted.

Section MultiMeasures.
Variables (u : multi) (g : R -> R).
Hypothesis Hu : library_multi u g.
Variables (d : nat -> num) (sl : bool).
Hypothesis Hd : forall k, (k < u_L u)%nat -> nonneg (d k).
Let q := layer_prob g d (u_xs u) (u_ys u).

Lemma u_edges_spec : exists e, u_edges_label u d sl = Ok e /\
  forall k, (k < u_L u)%nat -> e k = pair_sum (u_N u) sl (q k).
Proof.
  destruct (multi_tables u g Hu) as (Tx & Ty & Nx & Ny).
  exact (edges_label_spec g _ _ _ (multi_kernels u g Hu) (u_dyad u) (u_L u) (u_N u) d (u_xs u) (u_ys u) Tx Ty Nx Ny Hd sl).
Qed.

Definition degrees_right (a b c : nat -> nat -> R) : Prop :=
  forall v k, (v < u_N u)%nat -> (k < u_L u)%nat ->
    a v k = counted (u_N u) (u_xs u) (u_ys u) (q k) (either_link (q k)) sl k v /\
    b v k = counted (u_N u) (u_xs u) (u_ys u) (q k) (out_link (q k)) sl k v /\
    c v k = counted (u_N u) (u_xs u) (u_ys u) (q k) (in_link (q k)) sl k v.

Lemma u_degrees_spec : exists a b c, u_degrees_label u d sl = Ok (a, b, c) /\ degrees_right a b c.
Proof.
  destruct (multi_tables u g Hu) as (Tx & Ty & Nx & Ny).
  destruct (degrees_label_spec g _ _ _ (multi_kernels u g Hu) (u_dyad u) (u_L u) (u_N u) d (u_xs u) (u_ys u)
    Tx Ty Nx Ny Hd sl) as (a & b & c & E & H).
  exists a, b, c. split; [exact E|]. intros v k Hv Hk. destruct (H v k Hv Hk) as (A & B & C). rewrite A, B, C.
  apply (visited_counted g (u_L u) (u_N u) d (u_xs u) (u_ys u) Tx Ty Nx Ny k v sl Hv).
Qed.

Lemma w_edges_spec : exists e, w_edges_label u d sl = Ok e /\
  forall k, (k < u_L u)%nat -> e k = pair_sum (u_N u) sl (q k).
Proof.
  destruct (multi_tables u g Hu) as (Tx & Ty & Nx & Ny). pose proof (multi_kernels u g Hu) as K.
  eexists. split; [reflexivity|]. intros k Hk.
  rewrite for_each_map. cbn [fst snd].
  set (F := fun l => spark_edges_layer (u_p_ijk u) (u_dyad u) (d l) (spark_column (u_L u) (u_xs u) l)
                       (spark_column (u_L u) (u_ys u) l) sl).
  assert (Loop : forall n e, (k < n)%nat -> for_each (seq 0 n) (fun l e => upd e l (F l)) e k = F k).
  { induction n as [|n IH]; intros e Hn; [lia|]. unfold for_each. rewrite seq_S, fold_left_app. cbn [fold_left].
    rewrite Nat.add_0_l. unfold upd at 1. destruct (Nat.eqb_spec k n) as [->|]; [reflexivity | apply IH; lia]. }
  rewrite (Loop (u_L u)) by exact Hk. unfold F. rewrite spark_edges_layer_eq.
  2:{ intros x y w w'. apply (layer_kernel_dyad g _ _ _ K). }
  unfold spark_column. destruct (layer_kernel_zero g _ _ _ K (d k)) as [Z1 Z2].
  etransitivity; [apply (layer_edges num _ (u_dyad u) (u_N u) (d k) _ _
    (po_canonical (u_L u) (u_N u) (u_xs u) Tx Nx k) (pin_canonical (u_L u) (u_N u) (u_ys u) Ty Ny k) Z1 Z2)|].
  cbv zeta. rewrite (layer_q_fun g _ _ _ K (u_dyad u) (u_L u) d (u_xs u) (u_ys u) Tx Ty Hd) by exact Hk. reflexivity.
Qed.

(** Some layer has an admissible pair of stored entries. *)
Definition some_pair : Prop := exists k i j, (k < u_L u)%nat /\ label_stored (u_xs u) i k /\ label_stored (u_ys u) j k /\
  allowed sl i j = true.

Lemma w_degrees_spec : some_pair -> exists a b c, w_degrees_label u d sl = Ok (a, b, c) /\ degrees_right a b c.
Proof.
  intros (k0 & i0 & j0 & Hk0 & Hi0 & Hj0 & Ha0).
  destruct (multi_tables u g Hu) as (Tx & Ty & Nx & Ny). pose proof (multi_kernels u g Hu) as K.
  unfold w_degrees_label.
  set (f := fun k => exp_degrees_layer (u_p_ijk u) (u_dyad u) (d k) k (spark_column (u_L u) (u_xs u) k)
                       (spark_column (u_L u) (u_ys u) k) sl).
  assert (Hf : forall k, st_label k (f k)) by (intros k; apply exp_degrees_layer_label).
  pose proof (labels_concat f (u_L u) Hf) as C. cbv zeta in C.
  assert (S : st_some (for_each (seq 0 (u_L u)) (fun k st => let '(a, b, c) := st in let '(a', b', c') := f k in
              (a ++ a', b ++ b', c ++ c')) ([], [], []))).
  { apply labels_some with (k := k0); [exact Hk0|].
    assert (SI : forall t, label_table (u_L u) t -> forall i k, label_stored t i k -> exists o, In o (column (map zip t) k) /\ fst o = i).
    { intros t Tt i k Hs. apply (layer_stored (u_L u) t Tt) in Hs. apply stored_in in Hs.
      apply in_map_iff in Hs. destruct Hs as (o & <- & Ho). exists o. auto. }
    destruct (SI _ Tx _ _ Hi0) as (o & Ho & Eo). destruct (SI _ Ty _ _ Hj0) as (q0 & Hq & Eq).
    apply (exp_degrees_layer_some _ _ _ _ _ _ _ o q0 Ho Hq). rewrite Eo, Eq. exact Ha0. }
  fold f in C |- *.
  match goal with |- context[for_each (seq 0 (u_L u)) ?b ([], [], [])] => set (st := for_each (seq 0 (u_L u)) b ([], [], [])) end.
  change (st_some st) in S. change (forall v k, (k < u_L u)%nat ->
    dok_at (fst (fst st)) v k = dok_at (fst (fst (f k))) v k /\
    dok_at (snd (fst st)) v k = dok_at (snd (fst (f k))) v k /\ dok_at (snd st) v k = dok_at (snd (f k)) v k) in C.
  destruct st as [[a b] c] eqn:Est. destruct a as [|a0 a]; [contradiction S; reflexivity|].
  eexists _, _, _. split; [reflexivity|]. intros v k Hv Hk. destruct (C v k Hk) as (C1 & C2 & C3). cbn [fst snd] in C1, C2, C3.
  rewrite C1, C2, C3. destruct (f k) as [[a' b'] c'] eqn:Ef. cbn [fst snd].
  destruct (spark_degrees_spec g _ _ _ K (u_dyad u) (u_L u) (u_N u) d (u_xs u) (u_ys u) Tx Ty Nx Ny Hd sl k Hk a' b' c' Ef v Hv)
    as (A1 & A2 & A3). rewrite A1, A2, A3.
  apply (visited_counted g (u_L u) (u_N u) d (u_xs u) (u_ys u) Tx Ty Nx Ny k v sl Hv).
Qed.
End MultiMeasures.
