(** Samples of the multi-label objects. *)
From Verif Require Import Base Num Spec Kernels KernelFacts MultiKernels MultiFacts Prob Ensemble EnsembleFacts
  EnsembleProps Lib LibFacts Ids Graphs DenseGraphs Spark EnsembleState Models ModelFacts StateFacts StateProps
  Layers LayerFacts LayerProps LayerLib MultiState MultiStateFacts MultiStateProps.
From Coq Require Import FunctionalExtensionality.

(** * Layers drawn one after the other *)

Definition lprog {A} (m : nat -> prog A) (ks : list nat) (acc : list A) : prog (list A) :=
  for_prog ks (fun k acc => pbind (m k) (fun l => Ret (acc ++ [l]))) acc.

Lemma lprog_acc : forall A (m : nat -> prog A) ks acc f,
  expect (lprog m ks acc) f = expect (lprog m ks []) (fun a => f (acc ++ a)).
Proof.
  intros A m ks; induction ks as [|k ks IH]; intros acc f.
  - simpl. rewrite app_nil_r. reflexivity.
  - unfold lprog; cbn [for_prog]. rewrite !pbind_assoc, !expect_bind. apply expect_ext. intros G.
    cbn [pbind app]. fold (lprog m ks (acc ++ [G])). fold (lprog m ks [G]).
    rewrite (IH (acc ++ [G])), (IH [G]). apply expect_ext. intros a. rewrite <- app_assoc. reflexivity.
Qed.

(** The expectation of a function of one layer. *)
Lemma lprog_nth : forall A (m : nat -> prog A) x0 (h : A -> R) ks n, (n < length ks)%nat ->
  expect (lprog m ks []) (fun a => h (nth n a x0)) = expect (m (nth n ks 0%nat)) h.
Proof.
  intros A m x0 h ks; induction ks as [|k ks IH]; intros n Hn; [simpl in Hn; lia|].
  unfold lprog; cbn [for_prog]. rewrite pbind_assoc, expect_bind. destruct n as [|n]; cbn [nth].
  - apply expect_ext. intros a. cbn [pbind app]. fold (lprog m ks [a]). rewrite lprog_acc. cbn [app nth]. apply expect_const.
  - simpl in Hn. rewrite <- (IH n) by lia.
    rewrite <- (expect_const _ (m k) (expect (lprog m ks []) (fun a => h (nth n a x0)))).
    apply expect_ext. intros a. cbn [pbind app]. fold (lprog m ks [a]). rewrite lprog_acc. reflexivity.
Qed.

Lemma lprog_outcome : forall A (m : nat -> prog A) ks acc Gs, outcome (lprog m ks acc) Gs ->
  exists Hs, Gs = acc ++ Hs /\ Forall2 (fun k H => outcome (m k) H) ks Hs.
Proof.
  intros A m ks; induction ks as [|k ks IH]; intros acc Gs H.
  - simpl in H. subst. exists []. split; [rewrite app_nil_r; reflexivity | constructor].
  - unfold lprog in H; cbn [for_prog] in H. rewrite pbind_assoc in H. apply (proj1 (outcome_bind _ _ _ _ _)) in H.
    destruct H as (G & HG & H). cbn [pbind] in H. fold (lprog m ks (acc ++ [G])) in H.
    apply IH in H. destruct H as (Hs & -> & F). exists (G :: Hs). split; [rewrite <- app_assoc; reflexivity|].
    constructor; assumption.
Qed.

Lemma lprog_map : forall A B (h : A -> B) (m : nat -> prog A) (m' : nat -> prog B) ks,
  (forall k f, In k ks -> expect (m k) (fun a => f (h a)) = expect (m' k) f) ->
  forall f, expect (lprog m ks []) (fun a => f (map h a)) = expect (lprog m' ks []) f.
Proof.
  intros A B h m m' ks; induction ks as [|k ks IH]; intros H f; [reflexivity|].
  unfold lprog; cbn [for_prog]. rewrite !pbind_assoc, !expect_bind.
  rewrite <- (H k _ (or_introl eq_refl)). apply expect_ext. intros a. cbn [pbind app].
  fold (lprog m ks [a]). fold (lprog m' ks [h a]). rewrite lprog_acc, (lprog_acc _ m').
  rewrite <- (IH (fun k f Hk => H k f (or_intror Hk))). apply expect_ext. intros b. reflexivity.
Qed.

(** Layers that do not fail. *)
Lemma steps : forall A (M : nat -> prog (res A)) (m : nat -> prog A) ks,
  (forall k, In k ks -> M k = pbind (m k) (fun l => Ret (Ok l))) -> forall acc,
  for_prog ks (fun k acc => match acc with
    | Raise e => Ret (Raise e)
    | Ok adj => pbind (M k) (fun r => Ret (do l <- r ; Ok (adj ++ [l]))) end) (Ok acc)
  = pbind (lprog m ks acc) (fun a => Ret (Ok a)).
Proof.
  intros A M m ks; induction ks as [|k ks IH]; intros H acc; [reflexivity|].
  unfold lprog; cbn [for_prog]. rewrite (H k (or_introl eq_refl)), !pbind_assoc. apply pbind_ext. intros l.
  cbn [pbind bind]. rewrite (IH (fun k Hk => H k (or_intror Hk))). reflexivity.
Qed.

(** A first layer that always fails. *)
Lemma steps_fail : forall A (M : nat -> prog (res A)) k ks e acc, M k = Ret (Raise e) ->
  for_prog (k :: ks) (fun k acc => match acc with
    | Raise e => Ret (Raise e)
    | Ok adj => pbind (M k) (fun r => Ret (do l <- r ; Ok (adj ++ [l]))) end) (Ok acc) = Ret (Raise e).
Proof.
  intros A M k ks e acc H. cbn [for_prog]. rewrite H. cbn [pbind bind].
  induction ks as [|k' ks IH]; [reflexivity|]. cbn [for_prog pbind]. exact IH.
Qed.

Lemma bern_fst : forall E F (p : E -> R) (mark : E -> E * F) l acc f, (forall e, fst (mark e) = e) ->
  expect (bern p mark l acc) (fun a => f (map fst a)) = expect (bern p (fun e => e) l (map fst acc)) f.
Proof.
  intros E F p mark l; induction l as [|e l IH]; intros acc f H; [reflexivity|].
  rewrite bern_expect, (bern_expect _ _ p (fun e => e)). rewrite !IH by exact H.
  rewrite map_app. cbn [map]. rewrite H. reflexivity.
Qed.

(** * Strength arguments *)

(** The argument [arg] gives vertex [i] the strength [S i k] in layer [k]; [own] the fitnesses. *)
Inductive strength_form (N L : nat) (own : list tuple) : strength_arg -> (nat -> nat -> R) -> Prop :=
| sf_own : forall S, (forall i k, (i < N)%nat -> (k < L)%nat -> label_value own i k = Fin (S i k)) ->
    strength_form N L own StNone S
| sf_array : forall a, strength_form N L own (StArray N L a) a
| sf_sparse : forall e S, (forall k, (k < L)%nat -> NoDup (map fst (e k)) /\ Forall (fun x => fst x < N)%nat (e k)) ->
    (forall i k, (i < N)%nat -> (k < L)%nat -> S i k = entry (e k) i) -> strength_form N L own (StSparse N L e) S.

(** The argument has an entry for vertex [i] in layer [k]. *)
Definition has_strength (own : list tuple) (arg : strength_arg) (i k : nat) : Prop :=
  match arg with
  | StNone => label_stored own i k
  | StArray _ _ a => a i k <> 0
  | StSparse _ _ e => In i (map fst (e k))
  | StOther => False
  end.

Lemma entry_absent : forall (s : list (nat * R)) i, ~ In i (map fst s) -> entry s i = 0.
Proof.
  unfold entry. intros s i H. apply suml_zero. intros e He. destruct (Nat.eqb_spec (fst e) i) as [<-|_]; [|reflexivity].
  exfalso. apply H. apply in_map; exact He.
Qed.

Lemma entry_in : forall (s : list (nat * R)) e, NoDup (map fst s) -> In e s -> entry s (fst e) = snd e.
Proof.
  intros s e ND He. pose proof (strength_entry s (fst e) ND (in_map fst _ _ He)) as H.
  unfold strength_of in H. destruct (find (fun x => Nat.eqb (fst x) (fst e)) s) as [x|] eqn:F; [|discriminate].
  injection H as H. rewrite <- H. apply find_some in F. destruct F as [F1 F2]. apply Nat.eqb_eq in F2.
  clear H. induction s as [|a s IH]; [contradiction|]. inversion ND as [|? ? N1 N2]; subst.
  destruct He as [<-|He], F1 as [<-|F1]; [reflexivity| | |apply IH; assumption].
  - exfalso. apply N1. rewrite <- F2. apply in_map; exact F1.
  - exfalso. apply N1. rewrite F2. apply in_map; exact He.
Qed.

(** The strengths of the layers, as the code reads them. *)
Definition layer_strengths (N : nat) (own : list tuple) (arg : strength_arg) (S : nat -> nat -> R) (k : nat)
    (s : list (nat * R)) : Prop :=
  NoDup (map fst s) /\ Forall (fun x => fst x < N)%nat s /\ (forall i, (i < N)%nat -> entry s i = S i k) /\
  (forall i, (i < N)%nat -> has_strength own arg i k -> In i (map fst s)).

Lemma form_layers : forall N L own arg S, label_table L own -> length own = N -> strength_form N L own arg S ->
  exists f, strength_layers N L (map (fun l => tuple_of (column (map zip own) l)) (seq 0 L)) arg = Ok f /\
  forall k, (k < L)%nat -> exists s, f k = Some s /\ layer_strengths N own arg S k s.
Proof.
  intros N L own arg S T HN F. destruct F as [S HS|a|e S He HS]; unfold strength_layers.
  - eexists. split; [reflexivity|]. intros k Hk. cbv beta. rewrite nth_layers by exact Hk.
    assert (C : canonical N (column (map zip own) k)) by (rewrite <- HN; apply (layer_canonical L); exact T). pose proof (canonical_nodup _ _ C) as ND.
    assert (V : forall e, In e (column (map zip own) k) -> (fst e < N)%nat /\ snd e = Fin (S (fst e) k)).
    { intros e He. assert (Hi : (fst e < N)%nat) by (apply (canonical_lt _ _ _ C); apply in_map; exact He).
      split; [exact Hi|]. rewrite <- (HS (fst e) k Hi Hk), <- (layer_lookup L own T). symmetry. apply lookup_in; assumption. }
    unfold finite_strengths.
    assert (FB : forallb (fun e : nat * num => match snd e with Fin _ => true | _ => false end) (column (map zip own) k) = true).
    { apply forallb_forall. intros e He. destruct (V e He) as [_ ->]. reflexivity. }
    rewrite FB. eexists. split; [reflexivity|].
    assert (EM : map fst (map (fun e : nat * num => (fst e, toR (snd e))) (column (map zip own) k)) = map fst (column (map zip own) k))
      by (rewrite map_map; reflexivity).
    split; [rewrite EM; exact ND|]. split.
    { apply Forall_forall. intros x Hx. apply in_map_iff in Hx. destruct Hx as (e & <- & He). cbn [fst]. apply V; exact He. }
    split.
    + intros i Hi. destruct (in_dec Nat.eq_dec i (map fst (column (map zip own) k))) as [Hin|Hout].
      * apply in_map_iff in Hin. destruct Hin as (e & <- & He). destruct (V e He) as [_ Ve].
        etransitivity; [apply (entry_in _ (fst e, toR (snd e)))|].
        -- rewrite EM; exact ND.
        -- apply (in_map (fun e : nat * num => (fst e, toR (snd e)))). exact He.
        -- cbn [snd]. rewrite Ve. reflexivity.
      * rewrite entry_absent by (rewrite EM; exact Hout).
        pose proof (HS i k Hi Hk) as E. rewrite <- (layer_lookup L own T), lookup_notin in E by exact Hout.
        injection E as E. exact E.
    + intros i Hi Hh. rewrite EM. apply stored_in. apply (layer_stored L own T). exact Hh.
  - rewrite !Nat.eqb_refl. cbn [andb guard]. eexists. split; [reflexivity|]. intros k Hk. eexists. split; [reflexivity|].
    set (l := map (fun i => (i, a i k)) (seq 0 N)).
    assert (ML : map fst l = seq 0 N) by (unfold l; rewrite map_map; cbn [fst]; apply map_id).
    assert (NL : NoDup (map fst (filter (fun e : nat * R => negb (Reqb (snd e) 0)) l))).
    { pose proof (seq_NoDup N 0) as H. rewrite <- ML in H. clear -H. induction l as [|x l IH]; [constructor|].
      simpl in H. inversion H as [|? ? N1 N2]; subst. cbn [filter]. destruct (negb _); [|apply IH; exact N2].
      cbn [map]. constructor; [|apply IH; exact N2]. intros K. apply N1. apply in_map_iff in K.
      destruct K as (y & <- & Hy). apply filter_In in Hy. apply in_map. apply Hy. }
    split; [exact NL|]. split; [|split].
    + apply Forall_forall. intros x Hx. apply filter_In in Hx. destruct Hx as [Hx _].
      assert (In (fst x) (seq 0 N)) by (rewrite <- ML; apply in_map; exact Hx). apply in_seq in H. lia.
    + intros i Hi. destruct (Req_dec (a i k) 0) as [E|E].
      * rewrite E. apply entry_absent. intros K. apply in_map_iff in K. destruct K as (x & Ex & Hx).
        apply filter_In in Hx. destruct Hx as [Hx Hn]. unfold l in Hx. apply in_map_iff in Hx. destruct Hx as (j & <- & _).
        cbn [fst snd] in *. subst j. rewrite E, Reqb_true in Hn by reflexivity. discriminate.
      * etransitivity; [apply (entry_in _ (i, a i k)); [exact NL|]|reflexivity].
        apply filter_In. split; [unfold l; apply (in_map (fun i => (i, a i k))); apply in_seq; lia|].
        cbn [snd]. rewrite Reqb_false by exact E. reflexivity.
    + intros i Hi Hh. cbn [has_strength] in Hh. apply (in_map fst _ (i, a i k)). apply filter_In.
      split; [unfold l; apply (in_map (fun i => (i, a i k))); apply in_seq; lia|].
      cbn [snd]. rewrite Reqb_false by exact Hh. reflexivity.
  - rewrite !Nat.eqb_refl. cbn [andb guard]. eexists. split; [reflexivity|]. intros k Hk. eexists. split; [reflexivity|].
    destruct (He k Hk) as [H1 H2]. repeat split; try assumption.
    + intros i Hi. symmetry. apply HS; assumption.
    + intros i Hi Hh. exact Hh.
Qed.

(** * The samples *)

Lemma bern_outcome_fst : forall E F (p : E -> R) (mark : E -> E * F) l acc a, (forall e, fst (mark e) = e) ->
  outcome (bern p mark l acc) a -> outcome (bern p (fun e => e) l (map fst acc)) (map fst a).
Proof.
  intros E F p mark l; induction l as [|e l IH]; intros acc a H Ho.
  - simpl in Ho. subst. reflexivity.
  - unfold bern in *. cbn [for_prog pbind outcome] in *. destruct Ho as [[Hp Ho]|[Hp Ho]]; [left | right]; split; try exact Hp.
    + specialize (IH (acc ++ [mark e]) a H Ho). rewrite map_app in IH. cbn [map] in IH. rewrite H in IH. exact IH.
    + exact (IH acc a H Ho).
Qed.

Section Samples.
Variables (u : multi) (g : R -> R) (d : nat -> num) (sl : bool).
Hypothesis U : library_multi u g.
Hypothesis Hd : forall k, (k < u_L u)%nat -> nonneg (d k).
Let L := u_L u.
Let N := u_N u.
Let po (k : nat) := column (map zip (u_xs u)) k.
Let pin (k : nat) := column (map zip (u_ys u)) k.
Let bin (k : nat) := binary_sample_layer (u_p_ijk u) (u_dyad u) (d k) (po k) (pin k) sl.
Let q := layer_prob g d (u_xs u) (u_ys u).

Lemma bin_layers :
  (forall Gs, length Gs = L -> (forall G, In G Gs -> In G (all_graphs N sl)) ->
     prob (lprog bin (seq 0 L) []) (fun H => tensor_eqb H Gs) = prodn L (fun k => graph_weight N sl (q k) (nth k Gs []))) /\
  (forall k G, (k < L)%nat -> outcome (bin k) G -> In G (all_graphs N sl) /\ forall i j, In (i, j) G -> 0 < q k i j).
Proof.
  destruct (multi_tables u g U) as (Tx & Ty & Nx & Ny). pose proof (multi_kernels u g U) as K. split.
  - intros Gs HL HG. change (lprog bin (seq 0 L) []) with (layers_prog bin (seq 0 L) []).
    rewrite layers_prob by (rewrite seq_length; exact HL). rewrite <- HL at 1.
    rewrite (prodl_combine (fun k G => prob (bin k) (fun H => list_eqb H G)) Gs 0), HL.
    apply prodn_ext. intros k Hk.
    apply (layer_sample_spec g (u_p_ijk u) _ _ K (u_dyad u) L N d (u_xs u) (u_ys u) Tx Ty Nx Ny Hd); [exact Hk|].
    apply HG. apply nth_In. rewrite HL. exact Hk.
  - intros k G Hk HO.
    exact (layer_sample_outcome g (u_p_ijk u) _ _ K (u_dyad u) L N d (u_xs u) (u_ys u) Tx Ty Nx Ny Hd k sl G Hk HO).
Qed.

(** Samplers of the layers that do not fail and draw the links as the binary sampler. *)
Variable mk : nat -> prog (list (nat * nat * R)).
Hypothesis Hmk : forall k, (k < L)%nat ->
  (forall f, expect (mk k) (fun a => f (map fst a)) = expect (bin k) f) /\
  (forall a, outcome (mk k) a -> outcome (bin k) (map fst a)).

Lemma mk_layers : let m := pbind (lprog mk (seq 0 L) []) (fun a => Ret (Ok (A := list (list (nat * nat * R))) a)) in
  (forall Gs, length Gs = L -> (forall G, In G Gs -> In G (all_graphs N sl)) ->
     prob m (fun r => match r with Ok H => tensor_eqb (map (map fst) H) Gs | Raise _ => false end)
     = prodn L (fun k => graph_weight N sl (q k) (nth k Gs []))) /\
  (forall r, outcome m r -> exists H, r = Ok H /\ length H = L /\
     forall k, (k < L)%nat -> outcome (mk k) (nth k H []) /\
       In (map fst (nth k H [])) (all_graphs N sl) /\
       forall i j, In (i, j) (map fst (nth k H [])) -> 0 < q k i j) /\
  (forall k h, (k < L)%nat ->
     expect m (fun r => match r with Ok H => h (nth k H []) | Raise _ => 0 end) = expect (mk k) h).
Proof.
  destruct bin_layers as [B1 B2]. cbv zeta. split; [|split].
  - intros Gs HL HG. rewrite <- (B1 Gs HL HG). unfold prob. rewrite expect_bind. cbn [expect].
    refine (lprog_map _ _ (map fst) mk bin (seq 0 L) _ (fun a => b2r (tensor_eqb a Gs))). intros k f Hk. apply in_seq in Hk. apply Hmk. lia.
  - intros r Ho. apply (proj1 (outcome_bind _ _ _ _ _)) in Ho. destruct Ho as (H & Ho & E). cbn [outcome] in E. subst r.
    exists H. split; [reflexivity|]. apply lprog_outcome in Ho. destruct Ho as (Hs & -> & F). cbn [app].
    pose proof (Forall2_len _ _ _ _ _ F) as FL. rewrite seq_length in FL. split; [symmetry; exact FL|].
    intros k Hk.
    assert (Fk : forall ks (l : list (list (nat * nat * R))), Forall2 (fun k H => outcome (mk k) H) ks l ->
      forall k, (k < length ks)%nat -> outcome (mk (nth k ks 0%nat)) (nth k l [])).
    { clear. induction 1 as [|k0 G0 ks l H0 H1 IH]; intros k Hk; [simpl in Hk; lia|].
      destruct k as [|k]; [exact H0|]. apply IH. simpl in Hk. lia. }
    specialize (Fk _ _ F k). rewrite seq_length in Fk. specialize (Fk Hk). rewrite seq_nth in Fk by exact Hk. cbn [plus] in Fk.
    split; [exact Fk|]. apply B2; [exact Hk|]. apply Hmk; assumption.
  - intros k h Hk. rewrite expect_bind. cbn [expect].
    rewrite (lprog_nth _ mk [] h (seq 0 L) k) by (rewrite seq_length; exact Hk). rewrite seq_nth by exact Hk. reflexivity.
Qed.
End Samples.

(** Links in every layer as documented: the distribution of the links, and what comes out of every run. *)
Definition sampled_links (u : multi) (g : R -> R) (d : nat -> num) (sl : bool)
    (m : prog (res (list (list (nat * nat * R))))) : Prop :=
  let q := layer_prob g d (u_xs u) (u_ys u) in
  (forall Gs, length Gs = u_L u -> (forall G, In G Gs -> In G (all_graphs (u_N u) sl)) ->
     prob m (fun r => match r with Ok H => tensor_eqb (map (map fst) H) Gs | Raise _ => false end)
     = prodn (u_L u) (fun k => graph_weight (u_N u) sl (q k) (nth k Gs []))) /\
  (forall r, outcome m r -> exists H, r = Ok H /\ length H = u_L u /\
     forall k, (k < u_L u)%nat -> In (map fst (nth k H [])) (all_graphs (u_N u) sl) /\
       forall i j, In (i, j) (map fst (nth k H [])) -> 0 < q k i j).

Lemma binary_samples : forall u g d s so si arg So Si, library_multi u g -> (forall k, (k < u_L u)%nat -> nonneg (d k)) ->
  a_param s = Some d -> strength_form (u_N u) (u_L u) (u_xs u) so So -> strength_form (u_N u) (u_L u) (u_ys u) si Si ->
  exists m, u_sample u WNone so si arg s = Ok m /\ sampled_links u g d (a_selfloops s) m /\
  forall r, outcome m r -> exists H, r = Ok H /\ forall k e, In e (nth k H []) -> snd e = 1.
Proof.
  intros u g d s so si arg So Si U Hd Hp F1 F2. destruct (multi_tables u g U) as (Tx & Ty & Nx & Ny).
  destruct (form_layers _ _ _ _ _ Tx Nx F1) as (f1 & E1 & _). destruct (form_layers _ _ _ _ _ Ty Ny F2) as (f2 & E2 & _).
  unfold u_sample. rewrite Hp. rewrite (table_layers (u_L u) _ Tx), (table_layers (u_L u) _ Ty). cbn [bind].
  rewrite E1, E2. cbn [bind].
  set (bin := fun k => binary_sample_layer (u_p_ijk u) (u_dyad u) (d k) (column (map zip (u_xs u)) k) (column (map zip (u_ys u)) k) (a_selfloops s)).
  set (mk := fun k => pbind (bin k) (fun links => Ret (map (fun e => (e, 1)) links))).
  rewrite (steps _ _ mk).
  2:{ intros k Hk. apply in_seq in Hk. unfold sample_layer, mk, bin. cbv beta zeta. rewrite !nth_layers by lia.
      rewrite pbind_assoc. apply pbind_ext. intros l. reflexivity. }
  assert (MF : forall l : list (nat * nat), map fst (map (fun e => (e, 1)) l) = l).
  { intros l. rewrite map_map. cbn [fst]. apply map_id. }
  destruct (mk_layers u g d (a_selfloops s) U Hd mk) as (M1 & M2 & M3).
  { intros k Hk. fold (bin k). unfold mk. split.
    - intros f. rewrite expect_bind. cbn [expect]. apply expect_ext. intros a. rewrite MF. reflexivity.
    - intros a Ho. apply (proj1 (outcome_bind _ _ _ _ _)) in Ho. destruct Ho as (l & Ho & E). cbn [outcome] in E. subst a.
      rewrite MF. exact Ho. }
  eexists. split; [reflexivity|]. split; [split; [exact M1|]|].
  - intros r Ho. destruct (M2 r Ho) as (H & E & EL & HH). exists H. split; [exact E|]. split; [exact EL|].
    intros k Hk. apply HH; exact Hk.
  - intros r Ho. destruct (M2 r Ho) as (H & E & EL & HH). exists H. split; [exact E|]. intros k e He.
    destruct (Nat.lt_ge_cases k (u_L u)) as [Hk|Hk]; [|rewrite nth_overflow in He by lia; contradiction].
    destruct (HH k Hk) as [Hk' _]. unfold mk in Hk'. apply (proj1 (outcome_bind _ _ _ _ _)) in Hk'. destruct Hk' as (l & _ & E').
    cbn [outcome] in E'. rewrite E' in He. apply in_map_iff in He. destruct He as (x & <- & _). reflexivity.
Qed.

(** The sampler of one layer with weights. *)
Definition cremb_draws (p : num -> num -> num -> num -> R) (z : nat -> nat -> num) (N : nat) (d : num) (po pin : svec)
    (so si : list (nat * R)) (sl : bool) : prog (list (nat * nat * R)) :=
  let P := fun i j => p d (lookup i po) (lookup j pin) (z i j) in
  bern (fun e => P (fst e) (snd e))
    (fun e => (fst e, snd e, entry so (fst e) * entry si (snd e) / (total so * P (fst e) (snd e))))
    (filter (fun e => stored (fst e) po && stored (snd e) pin) (pairs N sl)) [].

Lemma sumn_entries : forall N own arg S k s, layer_strengths N own arg S k s -> total s = sumn N (fun i => S i k).
Proof.
  intros N own arg S k s (_ & H2 & H3 & _). rewrite <- (entry_sum N s H2). apply sumn_ext. intros i Hi. apply H3; exact Hi.
Qed.

Lemma cremb_samples : forall u g d s so si arg So Si, library_multi u g -> (forall k, (k < u_L u)%nat -> nonneg (d k)) ->
  a_param s = Some d -> strength_form (u_N u) (u_L u) (u_xs u) so So -> strength_form (u_N u) (u_L u) (u_ys u) si Si ->
  (forall i k, label_stored (u_xs u) i k -> has_strength (u_xs u) so i k) ->
  (forall i k, label_stored (u_ys u) i k -> has_strength (u_ys u) si i k) ->
  (forall k, (k < u_L u)%nat -> sumn (u_N u) (fun i => So i k) <> 0 /\
     Rabs (1 - sumn (u_N u) (fun i => Si i k) / sumn (u_N u) (fun i => So i k)) < 1 / 1000000) ->
  exists m, u_sample u WCremb so si arg s = Ok m /\ sampled_links u g d (a_selfloops s) m /\
  forall k i j, (k < u_L u)%nat -> (i < u_N u)%nat -> (j < u_N u)%nat -> allowed (a_selfloops s) i j = true ->
    (So i k * Si j k <> 0 -> layer_prob g d (u_xs u) (u_ys u) k i j <> 0) ->
    expect m (fun r => match r with Ok H => w_pair i j (nth k H []) | Raise _ => 0 end)
    = So i k * Si j k / sumn (u_N u) (fun i => So i k).
Proof.
  intros u g d s so si arg So Si U Hd Hp F1 F2 I1 I2 HT. destruct (multi_tables u g U) as (Tx & Ty & Nx & Ny).
  destruct (form_layers _ _ _ _ _ Tx Nx F1) as (f1 & E1 & L1). destruct (form_layers _ _ _ _ _ Ty Ny F2) as (f2 & E2 & L2).
  unfold u_sample. rewrite Hp. rewrite (table_layers (u_L u) _ Tx), (table_layers (u_L u) _ Ty). cbn [bind].
  rewrite E1, E2. cbn [bind].
  set (po := column (map zip (u_xs u))). set (pin := column (map zip (u_ys u))).
  set (sl := a_selfloops s).
  set (bin := fun k => binary_sample_layer (u_p_ijk u) (u_dyad u) (d k) (po k) (pin k) sl).
  set (mk := fun k => match f1 k, f2 k with
    | Some a, Some b => cremb_draws (u_p_ijk u) (u_dyad u) (u_N u) (d k) (po k) (pin k) a b sl
    | _, _ => Ret [] end).
  pose proof (multi_kernels u g U) as K.
  assert (C1 : forall k, canonical (u_N u) (po k)) by (intros; rewrite <- Nx; apply (layer_canonical (u_L u)); exact Tx).
  assert (C2 : forall k, canonical (u_N u) (pin k)) by (intros; rewrite <- Ny; apply (layer_canonical (u_L u)); exact Ty).
  assert (W : forall k, (k < u_L u)%nat -> exists a b, f1 k = Some a /\ f2 k = Some b /\
    layer_strengths (u_N u) (u_xs u) so So k a /\ layer_strengths (u_N u) (u_ys u) si Si k b /\
    cremb_sample_layer (u_p_ijk u) (u_dyad u) (d k) (po k) (pin k) a b sl = Ok (pbind (mk k) (fun l => Ret (Ok l))) /\
    forall i j, (i < u_N u)%nat -> (j < u_N u)%nat -> allowed sl i j = true ->
      (entry a i * entry b j <> 0 -> u_p_ijk u (d k) (lookup i (po k)) (lookup j (pin k)) (u_dyad u i j) <> 0) ->
      expect (mk k) (w_pair i j) = entry a i * entry b j / total a).
  { intros k Hk. destruct (L1 k Hk) as (a & Ea & Sa). destruct (L2 k Hk) as (b & Eb & Sb). exists a, b.
    split; [exact Ea|]. split; [exact Eb|]. split; [exact Sa|]. split; [exact Sb|].
    destruct (HT k Hk) as [T0 T1]. rewrite <- (sumn_entries _ _ _ _ _ _ Sa), <- (sumn_entries _ _ _ _ _ _ Sb) in T1.
    rewrite <- (sumn_entries _ _ _ _ _ _ Sa) in T0.
    assert (J1 : forall i, In i (map fst (po k)) -> In i (map fst a)).
    { intros i Hi. apply Sa; [apply (canonical_lt _ _ _ (C1 k)); exact Hi|]. apply I1.
      apply (layer_stored (u_L u) _ Tx). apply stored_in. exact Hi. }
    assert (J2 : forall i, In i (map fst (pin k)) -> In i (map fst b)).
    { intros i Hi. apply Sb; [apply (canonical_lt _ _ _ (C2 k)); exact Hi|]. apply I2.
      apply (layer_stored (u_L u) _ Ty). apply stored_in. exact Hi. }
    assert (E : cremb_sample_layer (u_p_ijk u) (u_dyad u) (d k) (po k) (pin k) a b sl = Ok (pbind (mk k) (fun l => Ret (Ok l)))).
    { unfold mk. rewrite Ea, Eb.
      exact (cremb_layer_bern _ _ _ _ _ _ a b (C1 k) (C2 k) (proj1 Sa) (proj1 Sb) J1 J2 T0 T1 sl). }
    split; [exact E|]. intros i j Hi Hj Ha Hq. destruct (layer_kernel_zero g _ _ _ K (d k)) as [Z1 Z2].
    destruct (cremb_layer_weight (u_p_ijk u) (u_dyad u) (u_N u) (d k) (po k) (pin k) a b (C1 k) (C2 k) (proj1 Sa) (proj1 Sb)
      J1 J2 T0 T1 sl Z1 Z2) as (m & Em & _ & Hm).
    rewrite E in Em. injection Em as Em. rewrite <- (Hm i j Hi Hj Ha Hq), <- Em, expect_bind. reflexivity. }
  rewrite (steps _ _ mk).
  2:{ intros k Hk. apply in_seq in Hk. unfold sample_layer, po, pin. cbv beta zeta. rewrite !nth_layers by lia.
      destruct (W k) as (a & b & Ea & Eb & _ & _ & E & _); [lia|]. rewrite Ea, Eb. unfold po, pin in E. rewrite E. reflexivity. }
  destruct (mk_layers u g d sl U Hd mk) as (M1 & M2 & M3).
  { intros k Hk. fold (po k) (pin k). fold (bin k).
    destruct (W k Hk) as (a & b & Ea & Eb & _ & _ & _ & _). unfold mk. rewrite Ea, Eb. unfold cremb_draws. cbv zeta.
    pose proof (sample_support num (u_p_ijk u) (u_dyad u) (u_N u) (d k) (po k) (pin k) (C1 k) (C2 k) sl) as SS.
    unfold bin. rewrite SS. cbv beta. split.
    - intros f. apply bern_fst. intros [i j]; reflexivity.
    - intros x Ho. apply bern_outcome_fst in Ho; [exact Ho|]. intros [i j]; reflexivity. }
  eexists. split; [reflexivity|]. split; [split; [exact M1|]|].
  - intros r Ho. destruct (M2 r Ho) as (H & E & EL & HH). exists H. split; [exact E|]. split; [exact EL|].
    intros k Hk. apply HH; exact Hk.
  - intros k i j Hk Hi Hj Ha Hq. rewrite (M3 k (w_pair i j) Hk).
    destruct (W k Hk) as (a & b & Ea & Eb & Sa & Sb & _ & HW). rewrite HW; try assumption; cycle 1.
    + destruct Sa as (_ & _ & Sa & _), Sb as (_ & _ & Sb & _). rewrite Sa, Sb by assumption. intros Hs. specialize (Hq Hs).
      unfold po, pin. rewrite (layer_lookup (u_L u) _ Tx), (layer_lookup (u_L u) _ Ty).
      destruct (layer_kernel g _ _ _ K (d k) (label_value (u_xs u) i k) (label_value (u_ys u) j k) (u_dyad u i j)) as [-> _].
      * apply Hd; exact Hk.
      * apply (table_nonneg (u_L u)); exact Tx.
      * apply (table_nonneg (u_L u)); exact Ty.
      * exact Hq.
    + rewrite (sumn_entries _ _ _ _ _ _ Sa). destruct Sa as (_ & _ & Sa & _), Sb as (_ & _ & Sb & _).
      rewrite Sa, Sb by assumption. reflexivity.
Qed.

(** Expected strengths. *)
Lemma cremb_strengths_layer : forall u g d s so si arg So Si, library_multi u g -> (forall k, (k < u_L u)%nat -> nonneg (d k)) ->
  a_param s = Some d -> a_selfloops s = true ->
  strength_form (u_N u) (u_L u) (u_xs u) so So -> strength_form (u_N u) (u_L u) (u_ys u) si Si ->
  (forall i k, label_stored (u_xs u) i k -> has_strength (u_xs u) so i k) ->
  (forall i k, label_stored (u_ys u) i k -> has_strength (u_ys u) si i k) ->
  (forall k, (k < u_L u)%nat -> sumn (u_N u) (fun i => So i k) <> 0 /\
     sumn (u_N u) (fun i => Si i k) = sumn (u_N u) (fun i => So i k)) ->
  (forall k i j, (k < u_L u)%nat -> (i < u_N u)%nat -> (j < u_N u)%nat -> So i k * Si j k <> 0 ->
     layer_prob g d (u_xs u) (u_ys u) k i j <> 0) ->
  exists m, u_sample u WCremb so si arg s = Ok m /\
  forall k, (k < u_L u)%nat ->
    (forall i, (i < u_N u)%nat -> expect m (fun r => match r with Ok H => sumn (u_N u) (fun j => w_pair i j (nth k H [])) | Raise _ => 0 end)
      = So i k) /\
    (forall j, (j < u_N u)%nat -> expect m (fun r => match r with Ok H => sumn (u_N u) (fun i => w_pair i j (nth k H [])) | Raise _ => 0 end)
      = Si j k).
Proof.
  intros u g d s so si arg So Si U Hd Hp Hs F1 F2 I1 I2 HT HP.
  assert (HT' : forall k, (k < u_L u)%nat -> sumn (u_N u) (fun i => So i k) <> 0 /\
     Rabs (1 - sumn (u_N u) (fun i => Si i k) / sumn (u_N u) (fun i => So i k)) < 1 / 1000000).
  { intros k Hk. destruct (HT k Hk) as [T0 T1]. split; [exact T0|]. rewrite T1.
    replace (1 - sumn (u_N u) (fun i => So i k) / sumn (u_N u) (fun i => So i k)) with 0 by (field; exact T0).
    rewrite Rabs_R0. lra. }
  destruct (cremb_samples u g d s so si arg So Si U Hd Hp F1 F2 I1 I2 HT') as (m & Em & _ & Hm). exists m. split; [exact Em|].
  intros k Hk. destruct (HT k Hk) as [T0 T1].
  assert (A : forall i j, allowed (a_selfloops s) i j = true) by (intros; rewrite Hs; unfold allowed; apply orb_true_r).
  assert (X : forall (h : nat -> list (nat * nat * R) -> R),
    expect m (fun r => match r with Ok H => sumn (u_N u) (fun j => h j (nth k H [])) | Raise _ => 0 end)
    = sumn (u_N u) (fun j => expect m (fun r => match r with Ok H => h j (nth k H []) | Raise _ => 0 end))).
  { intros h. rewrite <- expect_sumn. apply expect_ext. intros [H|e]; [reflexivity|]. symmetry. apply sumn_0. }
  split.
  - intros i Hi. rewrite (X (fun j => w_pair i j)).
    rewrite (sumn_ext _ _ (fun j => So i k / sumn (u_N u) (fun i => So i k) * Si j k)).
    + rewrite sumn_scal_l, T1. field; exact T0.
    + intros j Hj. rewrite Hm; auto. field; exact T0.
  - intros j Hj. rewrite (X (fun i => w_pair i j)).
    rewrite (sumn_ext _ _ (fun i => Si j k / sumn (u_N u) (fun i => So i k) * So i k)).
    + rewrite sumn_scal_l. field; exact T0.
    + intros i Hi. rewrite Hm; auto. field; exact T0.
Qed.

(** * Failures *)

Lemma steps_reject : forall A (M : nat -> prog (res A)) k ks, In k ks ->
  (forall r, outcome (M k) r -> exists e, r = Raise e) -> forall acc r,
  outcome (for_prog ks (fun k acc => match acc with
    | Raise e => Ret (Raise e)
    | Ok adj => pbind (M k) (fun r => Ret (do l <- r ; Ok (adj ++ [l]))) end) acc) r -> exists e, r = Raise e.
Proof.
  intros A M k ks Hk HM.
  assert (R : forall ks e r, outcome (for_prog ks (fun k acc => match acc with
    | Raise e => Ret (Raise e)
    | Ok adj => pbind (M k) (fun r => Ret (do l <- r ; Ok (adj ++ [l]))) end) (Raise e)) r -> exists e, r = Raise e).
  { clear. induction ks as [|k ks IH]; intros e r H; [exists e; exact H|]. cbn [for_prog pbind] in H. apply (IH e r H). }
  induction ks as [|k' ks IH]; intros acc r H; [contradiction|]. cbn [for_prog] in H.
  apply (proj1 (outcome_bind _ _ _ _ _)) in H. destruct H as (a & Ha & H).
  destruct Hk as [->|Hk].
  - destruct acc as [adj|e].
    + apply (proj1 (outcome_bind _ _ _ _ _)) in Ha. destruct Ha as (x & Hx & E). cbn [outcome] in E.
      destruct (HM x Hx) as [e ->]. cbn [bind] in E. subst a. apply (R ks e r H).
    + cbn [outcome] in Ha. subst a. apply (R ks e r H).
  - apply (IH Hk a r H).
Qed.

Lemma unbalanced_samples : forall u g d s so si arg So Si k, library_multi u g ->
  a_param s = Some d -> strength_form (u_N u) (u_L u) (u_xs u) so So -> strength_form (u_N u) (u_L u) (u_ys u) si Si ->
  (k < u_L u)%nat -> (sumn (u_N u) (fun i => So i k) = 0 \/
     1 / 1000000 <= Rabs (1 - sumn (u_N u) (fun i => Si i k) / sumn (u_N u) (fun i => So i k))) ->
  exists m, u_sample u WCremb so si arg s = Ok m /\ forall r, outcome m r -> exists e, r = Raise e.
Proof.
  intros u g d s so si arg So Si k U Hp F1 F2 Hk HT. destruct (multi_tables u g U) as (Tx & Ty & Nx & Ny).
  destruct (form_layers _ _ _ _ _ Tx Nx F1) as (f1 & E1 & L1). destruct (form_layers _ _ _ _ _ Ty Ny F2) as (f2 & E2 & L2).
  unfold u_sample. rewrite Hp. rewrite (table_layers (u_L u) _ Tx), (table_layers (u_L u) _ Ty). cbn [bind].
  rewrite E1, E2. cbn [bind]. eexists. split; [reflexivity|].
  apply (steps_reject _ _ k); [apply in_seq; lia|].
  destruct (L1 k Hk) as (a & Ea & Sa). destruct (L2 k Hk) as (b & Eb & Sb).
  rewrite <- (sumn_entries _ _ _ _ _ _ Sa), <- (sumn_entries _ _ _ _ _ _ Sb) in HT.
  intros r. unfold sample_layer. cbv zeta. rewrite Ea, Eb. unfold cremb_sample_layer. cbv zeta.
  fold (total a) (total b). destruct (Reqb_spec (total a) 0) as [E|E].
  - cbn [outcome]. intros ->. eauto.
  - destruct HT as [HT|HT]; [contradiction|]. rewrite Rltb_false by lra. cbn [guard outcome]. intros ->. eauto.
Qed.

Lemma accepted_strengths : forall N L own arg S, label_table L own -> length own = N -> strength_form N L own arg S ->
  exists f, strength_layers N L (map (fun l => tuple_of (column (map zip own) l)) (seq 0 L)) arg = Ok f.
Proof. intros N L own arg S T HN F. destruct (form_layers _ _ _ _ _ T HN F) as (f & E & _). exists f; exact E. Qed.
