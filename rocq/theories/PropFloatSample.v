(** C97: log-likelihood and samplers in double precision. *)
From Coq Require Classical_Prop.
From Verif Require Import Base Num Kernels Prob Ensemble Spec EnsembleFacts Conditional Float FloatFacts PropFloat FloatSample.

(** Without rounding the definitions are those of the exact model. *)
Lemma flow_ext : forall S T n (b1 b2 : nat -> S -> flow S T) s,
  (forall k s, (k < n)%nat -> b1 k s = b2 k s) -> for_flow n b1 s = for_flow n b2 s.
Proof.
  induction n as [|n IH]; intros b1 b2 s H; [reflexivity|]. cbn. rewrite (IH b1 b2) by (intros; apply H; lia).
  destruct (for_flow n b2 s); [apply H; lia | reflexivity].
Qed.
Lemma rsum_exact : forall N s, rsum Fin N (fun i => Fin (s i)) = Fin (sumn N s).
Proof.
  induction N as [|N IH]; intros s; [reflexivity|]. unfold rsum in *. cbn [for_range sumn]. rewrite IH. unfold radd. rewrite rnd_exact. reflexivity.
Qed.
Lemma run_bind : forall A B (m : prog A) (k : A -> prog B) us,
  run_draws (pbind m k) us = match run_draws m us with Some (a, rest) => run_draws (k a) rest | None => None end.
Proof.
  intros A B m k. induction m as [a|p c IH]; intros us; cbn; [reflexivity|]. destruct us as [|u us]; [reflexivity|]. apply IH.
Qed.
(** Two loops whose bodies agree on non-negative draws *)
Lemma prog_sim : forall X A B (Q : A -> B -> Prop) (l : list X) f g a b us a' rest, Q a b -> Forall (fun u => 0 <= u) us ->
  (forall x a b us a' rest, In x l -> Q a b -> Forall (fun u => 0 <= u) us -> run_draws (f x a) us = Some (a', rest) ->
     exists b', run_draws (g x b) us = Some (b', rest) /\ Q a' b' /\ Forall (fun u => 0 <= u) rest) ->
  run_draws (for_prog l f a) us = Some (a', rest) ->
  exists b', run_draws (for_prog l g b) us = Some (b', rest) /\ Q a' b' /\ Forall (fun u => 0 <= u) rest.
Proof.
  intros X A B Q l f g. induction l as [|x l IH]; intros a b us a' rest H0 Hu S; cbn [for_prog].
  - intros E. cbn in E. injection E as <- <-. exists b. cbn. auto.
  - rewrite !run_bind. destruct (run_draws (f x a) us) as [[a1 r1]|] eqn:E; [|discriminate].
    destruct (S x a b us a1 r1 ltac:(left; reflexivity) H0 Hu E) as (b1 & E1 & H1 & Hr). rewrite E1. intros E2.
    apply (IH a1 b1 r1 a' rest H1 Hr); [|exact E2]. intros y c d us' c' rest' Hy. apply S. right. exact Hy.
Qed.

Theorem C97_exact :
  (forall P X Y Z (logp log1mp : P -> X -> Y -> Z -> num) param po pin z row N sl,
     rlikelihood Fin (fun i j => logp param (po i) (pin j) (z i j)) (fun i j => log1mp param (po i) (pin j) (z i j)) row N sl =
     likelihood logp log1mp param po pin z row N sl) /\
  (forall P X Y Z (p_ij : P -> X -> Y -> Z -> R) param po pin z s_out s_in N sl,
     let p := fun i j => Fin (p_ij param (po i) (pin j) (z i j)) in
     match cremb_sample p_ij param po pin z s_out s_in N sl with
     | Raise e => rcremb_sample Fin p (fun i => Fin (s_out i)) (fun i => Fin (s_in i)) N sl = Raise e
     | Ok m => exists m', rcremb_sample Fin p (fun i => Fin (s_out i)) (fun i => Fin (s_in i)) N sl = Ok m' /\
         forall us l rest, Forall (fun u => 0 <= u) us -> run_draws m us = Some (l, rest) ->
         run_draws m' us = Some (Ok (map (fun e => (fst e, Fin (snd e))) l), rest)
     end).
Proof.
  split.
  - intros. unfold rlikelihood, likelihood. f_equal. apply flow_ext. intros i s _. apply flow_ext. intros j s' _.
    unfold rlik_body, lik_body. destruct (adm sl i j); [|reflexivity]. cbv zeta. unfold radd. rewrite rnd_exact. reflexivity.
  - intros P X Y Z p_ij param po pin z s_out s_in N sl p. unfold cremb_sample, rcremb_sample. cbv zeta. rewrite !rsum_exact.
    change (is0 (Fin (sumn N s_out))) with (Reqb (sumn N s_out) 0). destruct (Reqb (sumn N s_out) 0) eqn:E0; [reflexivity|].
    assert (D : rsub Fin (Fin 1) (rdiv Fin (Fin (sumn N s_in)) (Fin (sumn N s_out))) = Fin (1 - sumn N s_in / sumn N s_out)).
    { unfold rdiv, rsub. rewrite !rnd_exact. cbn [ndiv]. rewrite E0. reflexivity. }
    rewrite D. cbn [nabs nltb]. clear D.
    unfold guard. destruct (Rltb (Rabs (1 - sumn N s_in / sumn N s_out)) (1 / 1000000)); [|reflexivity].
    eexists. split; [reflexivity|]. intros us l rest Hu E.
    set (Q := fun (a : list (nat * nat * R)) b => b = Ok (map (fun e => (fst e, Fin (snd e))) a) :> res (list (nat * nat * num))).
    edestruct (prog_sim nat _ _ Q) as (b' & E' & Q' & _); [| exact Hu | | exact E | rewrite E', Q'; reflexivity]; [reflexivity|].
    intros i a b us1 a1 r1 _ Hq Hu1 E1. eapply (prog_sim nat _ _ Q); [exact Hq | exact Hu1 | | exact E1].
    intros j c d us2 c1 r2 _ Hq2 Hu2 E2. cbv beta in E2 |- *. destruct (adm sl i j).
    + unfold rcremb_body. rewrite Hq2. cbn [run_draws] in *. destruct us2 as [|u us2]; [discriminate|]. inversion_clear Hu2 as [|? ? Hu0 Hus].
      unfold p at 1. cbn [toR]. destruct (Rltb_spec u (p_ij param (po i) (pin j) (z i j))) as [L | L].
      * assert (N0 : Reqb (sumn N s_out * p_ij param (po i) (pin j) (z i j)) 0 = false).
        { apply Reqb_false. destruct (Reqb_spec (sumn N s_out) 0); [discriminate|]. apply Rmult_integral_contrapositive. split; [assumption | lra]. }
        unfold rmul, rdiv. rewrite !rnd_exact. unfold p. cbn [nmul ndiv]. unfold is0. cbn [neqb]. rewrite N0. cbn [run_draws] in *.
        injection E2 as <- <-. eexists. split; [reflexivity|]. split; [|exact Hus]. unfold Q. rewrite map_app. reflexivity.
      * cbn [run_draws] in *. injection E2 as <- <-. eexists. split; [reflexivity|]. split; [reflexivity | exact Hus].
    + cbn in E2 |- *. injection E2 as <- <-. eexists. split; [reflexivity|]. split; [exact Hq2 | exact Hu2].
Qed.
Print Assumptions C97_exact.

(** * Log-likelihoods *)

(** The two single-label models *)
Inductive kind := fitness | invariant.
Definition k_p (k : kind) := match k with fitness => rfit_p_ij b64 | invariant => rinv_p_ij b64 end.
Definition k_logp (k : kind) := match k with fitness => rfit_logp b64 | invariant => rinv_logp b64 end.
Definition k_log1mp (k : kind) := match k with fitness => rfit_log1mp b64 | invariant => rinv_log1mp b64 end.

Lemma saturated : forall t, 64 <= t -> b64 (1 - exp (- t)) = Fin 1.
Proof.
  intros t Ht.
  assert (E1 : 1 - two (-64) <= 1 - exp (- t) < 1).
  { split; [|pose proof (exp_pos (- t)); lra].
    change (-64)%Z with (- (64))%Z. rewrite two_neg, exp_Ropp. pose proof (two_pos 64). pose proof (exp_pos t).
    assert (two 64 <= exp t).
    { rewrite <- (exp_ln (two 64)) by apply two_pos. rewrite two_ln. pose proof ln2_lt. left. apply exp_increasing. lra. }
    assert (/ exp t <= / two 64) by (apply Rinv_le_contravar; assumption). lra. }
  pose proof (b64_mono (1 + - two (-64)) (1 - exp (- t)) ltac:(lra)) as L. rewrite b64_one_minus in L by lia.
  destruct (exponential_unit t ltac:(lra)) as (p & _ & E & Hp & _). rewrite E in *. cbn in L. f_equal. lra.
Qed.

(** The terms of the sum: a number from -2048 to 0, or minus infinity. *)
Lemma link_term : forall k d x y z, datum d -> datum x -> datum y -> datum z ->
  exists p, k_p k d x y z = Fin p /\ 0 <= p <= 1 /\
  (k_logp k d x y z = NInf /\ p = 0 \/ 0 < p /\ exists l, k_logp k d x y z = Fin l /\ -2048 <= l <= 0) /\
  (k_log1mp k d x y z = NInf /\ p = 1 \/ exists l, k_log1mp k d x y z = Fin l /\ l <= 0 /\ (p < 1 -> -2048 <= l)).
Proof.
  intros k d x y z Hd Hx Hy Hz.
  destruct (C96_log_probabilities d x y z Hd Hx Hy Hz) as (L1 & L2 & L3 & L4 & L5 & L6).
  destruct (C96_probabilities d x y z Hd Hx Hy Hz) as ((p & Ep & Hp & Dp) & (q & Eq & Hq & Dq) & _).
  destruct k; cbn [k_p k_logp k_log1mp].
  - exists p. split; [exact Ep|]. split; [exact Hp|]. rewrite Ep in *. split.
    + destruct (rfit_logp b64 d x y z) as [l| | |] eqn:E.
      * right. destruct L4 as (l' & E' & Hl); [discriminate|]. injection E' as <-. split; [|exists l; split; [reflexivity | lra]].
        destruct (Req_dec p 0) as [-> | NE]; [|lra]. destruct L3 as [_ L3]. specialize (L3 eq_refl). discriminate.
      * destruct L4 as (l' & E' & Hl); discriminate.
      * left. split; [reflexivity|]. destruct L3 as [L3 _]. specialize (L3 eq_refl). injection L3. auto.
      * destruct L4 as (l' & E' & Hl); discriminate.
    + destruct (rfit_log1mp b64 d x y z) as [l| | |] eqn:E.
      * right. destruct L2 as (l' & E' & Hl); [discriminate|]. injection E' as <-. exists l. split; [reflexivity|]. split; [lra | intros _; lra].
      * destruct L2 as (l' & E' & Hl); discriminate.
      * left. split; [reflexivity|]. destruct L1 as [L1 _]. specialize (L1 eq_refl). injection L1. auto.
      * destruct L2 as (l' & E' & Hl); discriminate.
  - exists q. split; [exact Eq|]. split; [exact Hq|]. split.
    + rewrite Eq in *. destruct (rinv_logp b64 d x y z) as [l| | |] eqn:E.
      * right. destruct L6 as (l' & E' & Hl); [discriminate|]. injection E' as <-. split; [|exists l; split; [reflexivity | lra]].
        destruct (Req_dec q 0) as [-> | NE]; [|lra]. destruct L5 as [_ L5]. specialize (L5 eq_refl). discriminate.
      * destruct L6 as (l' & E' & Hl); discriminate.
      * left. split; [reflexivity|]. destruct L5 as [L5 _]. specialize (L5 eq_refl). injection L5. auto.
      * destruct L6 as (l' & E' & Hl); discriminate.
    + clear L1 L2 L3 L4 L5 L6. unfold rinv_p_ij in Eq. unfold rinv_log1mp.
      destruct (is0 x || is0 y || is0 z || is0 d) eqn:Z; [right; exists 0; split; [reflexivity | lra]|].
      pose proof (product_amount d x y z Hd Hx Hy Hz Z) as P. unfold product in P. cbv zeta in *.
      destruct P as [E | (t & E & Ht & Dt)]; rewrite E in *; cbn [isinf] in *.
      * left. split; [reflexivity|]. injection Eq. auto.
      * right. exists (- t). split; [reflexivity|]. split; [lra|]. intros Lt.
        destruct (Rle_or_lt 64 t) as [G | G]; [|lra]. destruct (exponential_unit t Ht) as (w & Ew & Eb & _).
        rewrite Ew in Eq. injection Eq as ->. rewrite saturated in Eb by exact G. injection Eb as <-. lra.
Qed.

(** ** Every graph: minus infinity or a number that is not positive *)
Definition low (a : num) : Prop := a = NInf \/ exists l, a = Fin l /\ l <= 0.
Lemma add_low : forall a l, low a -> l <= 0 -> low (radd b64 a (Fin l)).
Proof.
  intros a l [-> | (v & -> & Hv)] Hl; unfold radd; cbn [nadd rnd_num]; [left; reflexivity|].
  pose proof (b64_mono (v + l) 0 ltac:(lra)) as M. rewrite b64_0 in M. unfold low.
  destruct (b64 (v + l)) as [w| | |] eqn:E; cbn in M; [right; exists w; auto | contradiction | left; reflexivity |].
  exfalso. destruct (Rle_or_lt 0 (v + l)) as [P | P].
  - destruct (b64_nonneg (v + l) P) as [C | (c & C & _)]; congruence.
  - destruct (b64_nonneg (- (v + l)) ltac:(lra)) as [C | (c & C & _)]; rewrite b64_opp, E in C; cbn in C; discriminate.
Qed.
Lemma flow_rule : forall S T n (Q : nat -> S -> Prop) (W : T -> Prop) (b : nat -> S -> flow S T) s, Q 0%nat s ->
  (forall k s, (k < n)%nat -> Q k s -> match b k s with Next s' => Q (Datatypes.S k) s' | Return t => W t end) ->
  match for_flow n b s with Next s' => Q n s' | Return t => W t end.
Proof.
  intros S T n Q W b s H. induction n as [|n IH]; intros St; [exact H|]. cbn [for_flow].
  assert (G : match for_flow n b s with Next s' => Q n s' | Return t => W t end) by (apply IH; intros k s0 Hk; apply St; lia).
  destruct (for_flow n b s); [|exact G]. apply St; [lia | exact G].
Qed.

Theorem C97_likelihood : forall k d x y z row N sl, datum d -> (forall i, datum (x i)) -> (forall i, datum (y i)) -> (forall i j, datum (z i j)) ->
  let l := rlikelihood b64 (fun i j => k_logp k d (x i) (y j) (z i j)) (fun i j => k_log1mp k d (x i) (y j) (z i j)) row N sl in
  l = NInf \/ exists v, l = Fin v /\ v <= 0.
Proof.
  intros k d x y z row N sl Hd Hx Hy Hz. cbv zeta. unfold rlikelihood, flow_val.
  assert (G : match for_flow N (fun i => for_flow N (fun j => rlik_body b64 (fun i j => k_logp k d (x i) (y j) (z i j)) (fun i j => k_log1mp k d (x i) (y j) (z i j)) sl
      (existsb (Nat.eqb j) (row i)) i j)) (Fin 0) with Next s => low s | Return t => low t end).
  { apply (flow_rule num num N (fun _ s => low s) low); [right; exists 0; split; [reflexivity | lra]|]. intros i s _ Hs.
    apply (flow_rule num num N (fun _ s => low s) low); [exact Hs|]. intros j s' _ Hs'. unfold rlik_body. destruct (adm sl i j); [|exact Hs']. cbv zeta.
    destruct (link_term k d (x i) (y j) (z i j) Hd (Hx i) (Hy j) (Hz i j)) as (p & _ & _ & A & B).
    destruct (existsb (Nat.eqb j) (row i)).
    - destruct A as [[-> _] | (_ & l & -> & Hl)]; cbn [isinf]; [left; reflexivity | apply add_low; [exact Hs' | lra]].
    - destruct B as [[-> _] | (l & -> & Hl & _)]; cbn [isinf]; [left; reflexivity | apply add_low; [exact Hs' | lra]]. }
  destruct (for_flow N _ (Fin 0)); exact G.
Qed.
Print Assumptions C97_likelihood.

Example C97_likelihood_case : datum (Fin 0) /\ datum (Fin 1) /\
  rlikelihood b64 (fun _ _ => k_logp fitness (Fin 1) (Fin 0) (Fin 1) (Fin 1)) (fun _ _ => k_log1mp fitness (Fin 1) (Fin 0) (Fin 1) (Fin 1)) (row_of []) 2 false = Fin 0.
Proof.
  split; [apply datum_fin; [lra | apply double_0]|]. split; [apply datum_fin; [lra | apply double_1]|].
  assert (E : k_log1mp fitness (Fin 1) (Fin 0) (Fin 1) (Fin 1) = Fin 0).
  { unfold k_log1mp, rfit_log1mp, is0. cbn [neqb]. rewrite (Reqb_true 0) by reflexivity. reflexivity. }
  rewrite E. unfold rlikelihood. cbn [for_flow]. unfold rlik_body. cbn [adm Nat.eqb negb orb row_of filter map existsb isinf].
  unfold radd. cbn [nadd rnd_num]. rewrite Rplus_0_r, b64_0. cbn [nadd rnd_num]. rewrite Rplus_0_r, b64_0. reflexivity.
Qed.

(** ** The samples of the model itself *)
Lemma sum_double : forall c, (Z.of_nat c <= 2 ^ 53)%Z -> double (- (2048 * INR c)).
Proof.
  intros c H. apply double_opp. rewrite INR_IZR_INZ. destruct (Z.eq_dec (Z.of_nat c) (2 ^ 53)) as [-> | NE].
  - rewrite <- two_Z by lia. replace 2048 with (two 11) by (rewrite two_Z by lia; reflexivity). rewrite <- two_add. apply double_two. lia.
  - exists (Z.of_nat c), 11%Z. split; [|split; lia]. rewrite (two_Z 11) by lia. change (2 ^ 11)%Z with 2048%Z. ring.
Qed.
Definition bounded (c : nat) (a : num) : Prop := exists v, a = Fin v /\ - (2048 * INR c) <= v <= 0.
Lemma add_bounded : forall c a l, bounded c a -> -2048 <= l <= 0 -> (Z.of_nat (S c) <= 2 ^ 53)%Z -> bounded (S c) (radd b64 a (Fin l)).
Proof.
  intros c a l (v & -> & Hv) Hl H. unfold radd. cbn [nadd rnd_num].
  destruct (b64_between (- (2048 * INR (S c))) 0 (v + l)) as (w & E & Hw & _).
  - apply sum_double, H.
  - apply double_0.
  - rewrite S_INR. lra.
  - exists w. auto.
Qed.
Lemma bounded_le : forall c c' a, (c <= c')%nat -> bounded c a -> bounded c' a.
Proof. intros c c' a H (v & -> & Hv). apply le_INR in H. exists v. split; [reflexivity | lra]. Qed.

(** A sample drawn with the computed probabilities has a finite log-likelihood that is not positive, under the model
    in doubles that drew it; no sum overflows. *)
Theorem C97_own : forall k d x y z N sl us G rest, datum d -> (forall i, datum (x i)) -> (forall i, datum (y i)) -> (forall i j, datum (z i j)) ->
  (Z.of_nat (N * N) <= 2 ^ 53)%Z -> (forall u, In u us -> 0 <= u < 1) ->
  run_draws (binary_sample (fun d x y z => toR (k_p k d x y z)) d x y z N sl) us = Some (G, rest) ->
  exists l, rlikelihood b64 (fun i j => k_logp k d (x i) (y j) (z i j)) (fun i j => k_log1mp k d (x i) (y j) (z i j)) (row_of G) N sl = Fin l /\
    - (2048 * INR (N * N)) <= l <= 0.
Proof.
  intros k d x y z N sl us G rest Hd Hx Hy Hz HN Hu E. apply run_outcome in E; [|exact Hu].
  rewrite binary_sample_bern in E. apply outcome_bern in E as (H & HS & -> & Hp & Hq). cbn [app] in *. rewrite map_id in *.
  cbn [fst snd] in Hp, Hq.
  unfold rlikelihood, flow_val.
  assert (F : match for_flow N (fun i => for_flow N (fun j => rlik_body b64 (fun i j => k_logp k d (x i) (y j) (z i j)) (fun i j => k_log1mp k d (x i) (y j) (z i j)) sl
      (existsb (Nat.eqb j) (row_of H i)) i j)) (Fin 0) with Next s => bounded (N * N) s | Return t => False end).
  { apply (flow_rule num num N (fun i s => bounded (i * N) s) (fun _ => False)); [exists 0; split; [reflexivity | cbn; lra]|]. intros i s Hi Hs.
    replace (S i * N)%nat with (i * N + N)%nat by lia.
    apply (flow_rule num num N (fun j s => bounded (i * N + j) s) (fun _ => False)); [rewrite Nat.add_0_r; exact Hs|].
    intros j s' Hj Hs'. unfold rlik_body. destruct (adm sl i j) eqn:A; [|apply (bounded_le (i * N + j)); [lia | exact Hs']]. cbv zeta.
    destruct (link_term k d (x i) (y j) (z i j) Hd (Hx i) (Hy j) (Hz i j)) as (p & Ep & Hp1 & TA & TB).
    assert (IP : In (i, j) (pairs N sl)). { unfold pairs. apply filter_In. split; [apply in_prod; apply in_seq; lia | exact A]. }
    assert (B : (Z.of_nat (S (i * N + j)) <= 2 ^ 53)%Z) by (assert (S (i * N + j) <= N * N)%nat by nia; lia).
    rewrite Nat.add_succ_r. rewrite row_of_mem. destruct (mem (i, j) H) eqn:M.
    - apply mem_spec in M. specialize (Hp _ M). cbn [fst snd] in Hp. rewrite Ep in Hp. cbn [toR] in Hp.
      destruct TA as [[_ ->] | (_ & l & -> & Hl)]; [lra|]. cbn [isinf]. apply add_bounded; assumption.
    - assert (M' : ~ In (i, j) H) by (intros C; apply mem_spec in C; congruence).
      destruct (Hq _ IP) as [C | C]; [contradiction|]. cbn [fst snd] in C. rewrite Ep in C. cbn [toR] in C.
      destruct TB as [[_ ->] | (l & -> & Hl & Hb)]; [lra|]. cbn [isinf]. apply add_bounded; [assumption | split; [apply Hb; exact C | exact Hl] | assumption]. }
  destruct (for_flow N _ (Fin 0)); [|contradiction]. destruct F as (v & -> & Hv). exists v. auto.
Qed.
Print Assumptions C97_own.

(** In the fitness model a graph has log-likelihood minus infinity exactly if the sampler in doubles cannot draw it:
    one of its links has computed probability 0, or one of its missing links probability 1. *)
Lemma flow_hit : forall S n (b : nat -> S -> flow S num) s k0, (k0 < n)%nat ->
  (forall k s t, (k < n)%nat -> b k s = Return t -> t = NInf) -> (forall s, b k0 s = Return NInf) -> for_flow n b s = Return NInf.
Proof.
  intros S n b s k0. induction n as [|n IH]; intros Hk HR H0; [lia|]. cbn [for_flow].
  destruct (Nat.eq_dec k0 n) as [-> | NE].
  - assert (G : match for_flow n b s with Next _ => True | Return t => t = NInf end).
    { apply (flow_rule S num n (fun _ _ => True) (fun t => t = NInf)); [exact I|]. intros k s0 Hk0 _. destruct (b k s0) eqn:E; [exact I|]. apply (HR k s0); [lia | exact E]. }
    destruct (for_flow n b s); [apply H0 | rewrite G; reflexivity].
  - rewrite IH; [reflexivity | lia | intros k s0 t Hk0; apply HR; lia | exact H0].
Qed.
Theorem C97_impossible : forall d x y z row N sl, datum d -> (forall i, datum (x i)) -> (forall i, datum (y i)) -> (forall i j, datum (z i j)) ->
  (Z.of_nat (N * N) <= 2 ^ 53)%Z ->
  rlikelihood b64 (fun i j => rfit_logp b64 d (x i) (y j) (z i j)) (fun i j => rfit_log1mp b64 d (x i) (y j) (z i j)) row N sl = NInf <->
  exists i j, (i < N)%nat /\ (j < N)%nat /\ (sl = true \/ i <> j) /\
    rfit_p_ij b64 d (x i) (y j) (z i j) = Fin (if existsb (Nat.eqb j) (row i) then 0 else 1).
Proof.
  intros d x y z row N sl Hd Hx Hy Hz HN.
  set (bad := fun i j => (sl = true \/ i <> j) /\ rfit_p_ij b64 d (x i) (y j) (z i j) = Fin (if existsb (Nat.eqb j) (row i) then 0 else 1)).
  set (body := fun i j => rlik_body b64 (fun i j => rfit_logp b64 d (x i) (y j) (z i j)) (fun i j => rfit_log1mp b64 d (x i) (y j) (z i j)) sl
      (existsb (Nat.eqb j) (row i)) i j).
  assert (A : forall i j, adm sl i j = true <-> (sl = true \/ i <> j)).
  { intros i j. unfold adm. destruct (Nat.eqb_spec i j), sl; cbn; split; intros; auto; try discriminate; try tauto. }
  assert (St : forall i j, bad i j /\ (forall s, body i j s = Return NInf) \/
    ~ bad i j /\ forall s c, bounded c s -> (Z.of_nat (S c) <= 2 ^ 53)%Z -> exists s', body i j s = Next s' /\ bounded (S c) s').
  { intros i j. unfold body, rlik_body, bad. destruct (adm sl i j) eqn:E.
    - cbv zeta. apply A in E.
      destruct (C96_log_probabilities d (x i) (y j) (z i j) Hd (Hx i) (Hy j) (Hz i j)) as (L1 & L2 & L3 & L4 & _).
      destruct (existsb (Nat.eqb j) (row i)).
      + destruct (rfit_logp b64 d (x i) (y j) (z i j)) as [l| | |] eqn:El.
        * right. split; [intros [_ C]; apply L3 in C; discriminate|]. intros s c Hs Hc. destruct L4 as (l' & E' & Hl); [discriminate|]. injection E' as <-.
          cbn [isinf]. eexists. split; [reflexivity|]. apply add_bounded; [exact Hs | lra | exact Hc].
        * destruct L4 as (l' & E' & _); discriminate.
        * left. split; [split; [exact E | apply L3; reflexivity] | reflexivity].
        * destruct L4 as (l' & E' & _); discriminate.
      + destruct (rfit_log1mp b64 d (x i) (y j) (z i j)) as [l| | |] eqn:El.
        * right. split; [intros [_ C]; apply L1 in C; discriminate|]. intros s c Hs Hc. destruct L2 as (l' & E' & Hl); [discriminate|]. injection E' as <-.
          cbn [isinf]. eexists. split; [reflexivity|]. apply add_bounded; [exact Hs | lra | exact Hc].
        * destruct L2 as (l' & E' & _); discriminate.
        * left. split; [split; [exact E | apply L1; reflexivity] | reflexivity].
        * destruct L2 as (l' & E' & _); discriminate.
    - right. split; [intros [C _]; apply A in C; congruence|]. intros s c Hs _. exists s. split; [reflexivity|]. apply (bounded_le c); [lia | exact Hs]. }
  assert (RN : forall i j s t, body i j s = Return t -> t = NInf).
  { intros i j s t. destruct (St i j) as [[_ E] | [_ E]]; [rewrite E; intros C; injection C; auto|].
    unfold body, rlik_body. destruct (adm sl i j); [|discriminate]. cbv zeta.
    destruct (link_term fitness d (x i) (y j) (z i j) Hd (Hx i) (Hy j) (Hz i j)) as (p & _ & _ & TA & TB). cbn [k_logp k_log1mp] in *.
    destruct (existsb (Nat.eqb j) (row i)).
    - destruct TA as [[-> _] | (_ & l & -> & _)]; cbn [isinf]; [intros C; injection C; auto | discriminate].
    - destruct TB as [[-> _] | (l & -> & _)]; cbn [isinf]; [intros C; injection C; auto | discriminate]. }
  unfold rlikelihood. change (for_flow N (fun i => for_flow N (fun j => _)) (Fin 0)) with (for_flow N (fun i => for_flow N (body i)) (Fin 0)).
  split.
  - intros E. destruct (Classical_Prop.classic (exists i j, (i < N)%nat /\ (j < N)%nat /\ bad i j)) as [C | C]; [exact C|]. exfalso.
    assert (F : match for_flow N (fun i => for_flow N (body i)) (Fin 0) with Next s => bounded (N * N) s | Return t => False end).
    { apply (flow_rule num num N (fun i s => bounded (i * N) s) (fun _ => False)); [exists 0; split; [reflexivity | cbn; lra]|]. intros i s Hi Hs.
      replace (S i * N)%nat with (i * N + N)%nat by lia.
      apply (flow_rule num num N (fun j s => bounded (i * N + j) s) (fun _ => False)); [rewrite Nat.add_0_r; exact Hs|]. intros j s' Hj Hs'.
      destruct (St i j) as [[B _] | [_ B]]; [exfalso; apply C; exists i, j; auto|].
      destruct (B s' (i * N + j)%nat Hs') as (s2 & -> & H2); [assert (S (i * N + j) <= N * N)%nat by nia; lia|]. rewrite Nat.add_succ_r. exact H2. }
    destruct (for_flow N (fun i => for_flow N (body i)) (Fin 0)); [|contradiction]. destruct F as (v & -> & _). discriminate E.
  - intros (i & j & Hi & Hj & H1 & H2). rewrite (flow_hit num N _ (Fin 0) i Hi); [reflexivity | |].
    + intros k s t _ E. 
      assert (G : match for_flow N (body k) s with Next _ => True | Return t => t = NInf end).
      { apply (flow_rule num num N (fun _ _ => True) (fun t => t = NInf)); [exact I|]. intros m s0 _ _. destruct (body k m s0) eqn:Eb; [exact I | exact (RN _ _ _ _ Eb)]. }
      rewrite E in G. exact G.
    + intros s. apply (flow_hit num N (body i) s j Hj); [intros k s0 t _; apply RN|]. intros s0.
      destruct (St i j) as [[_ E] | [C _]]; [apply E | exfalso; apply C; split; assumption].
Qed.
Print Assumptions C97_impossible.

Example C97_own_case : datum (Fin 1) /\ (Z.of_nat (2 * 2) <= 2 ^ 53)%Z /\
  run_draws (binary_sample (fun d x y z => toR (k_p fitness d x y z)) (Fin 1) (fun _ => Fin 1) (fun _ => Fin 1) (fun _ _ => Fin 1) 2 false) [1 / 4; 3 / 4] =
    Some ([(0, 1)]%nat, []).
Proof.
  split; [apply datum_fin; [lra | apply double_1]|]. split; [lia|]. unfold binary_sample. cbn [seq for_prog adm Nat.eqb negb orb pbind run_draws k_p].
  destruct C96_log_probabilities_case as (_ & -> & _). cbn [toR]. rewrite (Rltb_true (1 / 4)), (Rltb_false (3 / 4)) by lra. reflexivity.
Qed.

(** * Draws *)

(** Of the 2^53 values of [rng.random()] those below a probability p are the first h, where h / 2^53 is p rounded up
    to a multiple of 2^-53: this is the probability with which the link is drawn. *)
Theorem C97_draw : forall p, 0 <= p <= 1 -> exists h : Z, (0 <= h <= 2 ^ 53)%Z /\
  (forall k : Z, (0 <= k < 2 ^ 53)%Z -> IZR k * two (-53) < p <-> (k < h)%Z) /\ p <= IZR h * two (-53) < p + two (-53).
Proof.
  intros p Hp. set (h := (- Int_part (- (p * two 53)))%Z). exists h.
  pose proof (two_pos 53) as P. pose proof (two_pos (-53)) as P'. assert (U : two 53 * two (-53) = 1) by (rewrite <- two_add; reflexivity).
  pose proof (floor_spec (- (p * two 53))) as F.
  assert (H : p * two 53 <= IZR h < p * two 53 + 1) by (unfold h; rewrite opp_IZR; lra).
  assert (Q : forall a, a * two (-53) * two 53 = a) by (intros a; rewrite Rmult_assoc, (Rmult_comm (two (-53))), U; ring).
  assert (H0 : (0 <= h)%Z). { apply le_IZR. pose proof (Rmult_le_pos p (two 53)). lra. }
  assert (H1 : (h <= 2 ^ 53)%Z).
  { assert (IZR h < IZR (2 ^ 53 + 1)) by (rewrite plus_IZR, <- two_Z by lia; nra). apply lt_IZR in H1. lia. }
  split; [lia|]. split.
  - intros k Hk. split; intros L.
    + apply lt_IZR. apply Rmult_lt_compat_r with (r := two 53) in L; [|exact P]. rewrite Q in L. lra.
    + assert (IZR k + 1 <= IZR h) by (rewrite <- plus_IZR; apply IZR_le; lia). apply Rmult_lt_reg_r with (two 53); [exact P|]. rewrite Q. lra.
  - assert (E : p = p * two 53 * two (-53)) by (rewrite Rmult_assoc, U; ring). split.
    + rewrite E. apply Rmult_le_compat_r; lra.
    + rewrite E. replace (p * two 53 * two (-53) + two (-53)) with ((p * two 53 + 1) * two (-53)) by ring. apply Rmult_lt_compat_r; lra.
Qed.
Print Assumptions C97_draw.

Example C97_draw_case : 0 <= 1 / 2 <= 1 /\ forall k : Z, IZR k * two (-53) < 1 / 2 <-> (k < 2 ^ 52)%Z.
Proof.
  split; [lra|]. intros k. pose proof (two_pos (-53)). assert (E : 1 / 2 = IZR (2 ^ 52) * two (-53)).
  { rewrite <- two_Z, <- two_add by lia. symmetry. apply two_m1. }
  rewrite E. split; intros L; [apply lt_IZR; nra | apply IZR_lt in L; nra].
Qed.

(** The graphs that the values of [rng.random()] can draw are exactly those whose links all have a positive computed
    probability and whose missing links all have one below 1. *)
Lemma drawable : forall (p : nat * nat -> R) l acc S, In S (sublists l) -> NoDup l ->
  (forall e, In e S -> 0 < p e) -> (forall e, In e l -> In e S \/ p e <= 1 - two (-53)) ->
  exists us, Forall machine_draw us /\ run_draws (bern p (fun e => e) l acc) us = Some (acc ++ S, []).
Proof.
  intros p l; induction l as [|e l IH]; intros acc S HS ND Hp Hq.
  - destruct HS as [<- | []]. exists []. split; [constructor|]. cbn. rewrite app_nil_r. reflexivity.
  - inversion ND as [|? ? Ne ND']; subst. cbn [sublists] in HS. apply in_app_or in HS as [HS | HS].
    + apply in_map_iff in HS as (T & <- & HT). destruct (IH (acc ++ [e]) T HT ND') as (us & Hu & Hr).
      { intros f Hf. apply Hp. right. exact Hf. }
      { intros f Hf. destruct (Hq f (or_intror Hf)) as [[-> | H] | H]; [contradiction | left; exact H | right; exact H]. }
      exists (0 :: us). split; [constructor; [exists 0%Z; split; [lia | ring] | exact Hu]|].
      unfold bern in *. cbn [for_prog pbind run_draws]. rewrite Rltb_true by (apply Hp; left; reflexivity). rewrite Hr, <- app_assoc. reflexivity.
    + assert (Nin : ~ In e S) by (intros C; apply Ne; eapply sublists_incl; eassumption).
      destruct (IH acc S HS ND' Hp) as (us & Hu & Hr).
      { intros f Hf. apply Hq. right. exact Hf. }
      exists (1 - two (-53) :: us). split.
      * constructor; [|exact Hu]. exists (2 ^ 53 - 1)%Z. split; [lia|]. rewrite minus_IZR, <- two_Z by lia.
        assert (E : two 53 * two (-53) = 1) by (rewrite <- two_add; reflexivity). lra.
      * unfold bern in *. cbn [for_prog pbind run_draws]. destruct (Hq e (or_introl eq_refl)) as [C | C]; [contradiction|].
        rewrite Rltb_false by lra. exact Hr.
Qed.

Lemma draw_unit : forall u, machine_draw u -> 0 <= u < 1.
Proof.
  intros u (k & Hk & ->). pose proof (two_pos (-53)). assert (0 <= IZR k) by (apply IZR_le; lia).
  assert (IZR k < two 53) by (rewrite two_Z by lia; apply IZR_lt; lia).
  assert (E : two 53 * two (-53) = 1) by (rewrite <- two_add; reflexivity). split; nra.
Qed.

Theorem C97_support : forall k d x y z N sl G, datum d -> (forall i, datum (x i)) -> (forall i, datum (y i)) -> (forall i j, datum (z i j)) ->
  In G (all_graphs N sl) ->
  ((exists us, Forall machine_draw us /\
      run_draws (binary_sample (fun d x y z => toR (k_p k d x y z)) d x y z N sl) us = Some (G, [])) <->
   forall i j, (i < N)%nat -> (j < N)%nat -> (sl = true \/ i <> j) ->
     exists p, k_p k d (x i) (y j) (z i j) = Fin p /\ if mem (i, j) G then 0 < p else p < 1).
Proof.
  intros k d x y z N sl G Hd Hx Hy Hz HG. rewrite binary_sample_bern.
  assert (U : forall i j, exists p, k_p k d (x i) (y j) (z i j) = Fin p /\ double p).
  { intros i j. destruct (C96_probabilities d (x i) (y j) (z i j) Hd (Hx i) (Hy j) (Hz i j)) as ((p & E & _ & D) & (q & E' & _ & D') & _).
    destruct k; [exists p | exists q]; auto. }
  assert (A : forall i j, In (i, j) (pairs N sl) <-> (i < N)%nat /\ (j < N)%nat /\ (sl = true \/ i <> j)).
  { intros i j. rewrite in_pairs. unfold allowed. destruct (Nat.eqb_spec i j), sl; cbn; intuition congruence. }
  split.
  - intros (us & Hu & Hr) i j Hi Hj Hal. destruct (U i j) as (p & E & _). exists p. split; [exact E|].
    apply run_outcome in Hr; [|intros u Iu; apply draw_unit; rewrite Forall_forall in Hu; exact (Hu u Iu)].
    apply outcome_bern in Hr as (H & _ & EG & Hpos & Hall). rewrite map_id in EG. cbn [app] in EG. subst H.
    destruct (mem (i, j) G) eqn:M.
    + apply mem_spec in M. specialize (Hpos _ M). cbn [fst snd] in Hpos. rewrite E in Hpos. exact Hpos.
    + destruct (Hall (i, j)) as [C | C]; [apply A; auto | apply mem_spec in C; congruence|]. cbn [fst snd] in C. rewrite E in C. exact C.
  - intros H. destruct (drawable (fun e => toR (k_p k d (x (fst e)) (y (snd e)) (z (fst e) (snd e)))) (pairs N sl) [] G HG (NoDup_pairs N sl)) as (us & Hu & Hr).
    + intros [i j] Hin. assert (Hp : In (i, j) (pairs N sl)) by (eapply sublists_incl; [exact HG | exact Hin]). apply A in Hp as (Hi & Hj & Hal). destruct (H i j Hi Hj Hal) as (p & E & Hp).
      apply mem_spec in Hin. rewrite Hin in Hp. cbn [fst snd]. rewrite E. exact Hp.
    + intros [i j] Hin. apply A in Hin as (Hi & Hj & Hal). destruct (H i j Hi Hj Hal) as (p & E & Hp). destruct (mem (i, j) G) eqn:M; [left; apply mem_spec; exact M|].
      right. cbn [fst snd]. rewrite E. cbn [toR]. destruct (U i j) as (q & E' & D). rewrite E in E'. injection E' as <-. apply double_below_1; assumption.
    + exists us. split; [exact Hu | exact Hr].
Qed.
Print Assumptions C97_support.

Example C97_support_case : datum (Fin 1) /\ In [(0, 1)%nat] (all_graphs 2 false) /\
  forall i j, (i < 2)%nat -> (j < 2)%nat -> (false = true \/ i <> j) ->
    exists p, k_p fitness (Fin 1) (Fin 1) (Fin 1) (Fin 1) = Fin p /\ if mem (i, j) [(0, 1)%nat] then 0 < p else p < 1.
Proof.
  split; [apply datum_fin; [lra | apply double_1]|]. split; [right; left; reflexivity|]. intros i j _ _ _. cbn [k_p].
  destruct C96_log_probabilities_case as (_ & -> & _). exists (1 / 2). split; [reflexivity|]. destruct (mem (i, j) _); lra.
Qed.

(** The draws of [rng.random()] never reach a link with computed probability 0 and never miss one with probability 1;
    in between, links that are far less probable than 2^-53 are all drawn with probability 2^-53. *)
Theorem C97_rare_refuted : exists d x y z, datum d /\ datum x /\ datum y /\ datum z /\
  rfit_p_ij b64 d x y z = Fin (two (-1000)) /\ (forall u, machine_draw u -> u < two (-1000) <-> u = IZR 0 * two (-53)).
Proof.
  exists (Fin (two 0)), (Fin (two (-500))), (Fin (two (-500))), (Fin (two 0)).
  split; [apply two_datum; lia|]. split; [apply two_datum; lia|]. split; [apply two_datum; lia|]. split; [apply two_datum; lia|].
  assert (N0 : forall e, is0 (Fin (two e)) = false) by (intros e; unfold is0; cbn; apply Reqb_false; pose proof (two_pos e); lra).
  split.
  - unfold rfit_p_ij. rewrite !N0. cbn [orb]. cbv zeta. rewrite mul_two. change (0 + -500)%Z with (-500)%Z. rewrite b64_two, mul_two by lia.
    change (-500 + -500)%Z with (-1000)%Z. rewrite b64_two, mul_two by lia. change (-1000 + 0)%Z with (-1000)%Z. rewrite b64_two by lia. cbn [isinf].
    unfold radd, rdiv. cbn [nadd rnd_num]. rewrite b64_one_plus by lia. cbn [ndiv]. rewrite Reqb_false by lra. cbn [rnd_num].
    replace (two (-1000) / 1) with (two (-1000)) by field. apply b64_two. lia.
  - intros u (k & Hk & ->). pose proof (two_pos (-53)) as P. pose proof (two_pos (-1000)) as P'.
    assert (L : two (-1000) < two (-53)) by (apply two_lt; lia). split.
    + intros H. destruct (Z.eq_dec k 0) as [-> | NE]; [reflexivity|]. assert (1 <= IZR k) by (apply (IZR_le 1); lia). nra.
    + intros ->. rewrite Rmult_0_l. exact P'.
Qed.
Print Assumptions C97_rare_refuted.

(** * Weights *)

(** A link that is drawn gets an exponential weight of mean s_i s_j / (s p).  In doubles s p can be 0 although the
    total strength s and the probability p are positive, and the draw raises an error. *)
Theorem C97_scale_refuted : exists (p : nat -> nat -> num) (s : nat -> num) (m : prog (res (list (nat * nat * num)))),
  (forall i j, p i j = Fin (two (-1000))) /\ (forall i, datum (s i) /\ s i = Fin (two (-100))) /\
  rcremb_sample b64 p s s 2 false = Ok m /\ run_draws m [0; 0] = Some (Raise ZeroDivisionError, [0]) /\
  two (-100) * two (-100) / ((two (-100) + two (-100)) * two (-1000)) = two 899.
Proof.
  assert (T : two (-100) + two (-100) = two (-99)) by (change (-99)%Z with (1 + -100)%Z; rewrite two_add, two_1; ring).
  assert (S : rsum b64 2 (fun _ => Fin (two (-100))) = Fin (two (-99))).
  { unfold rsum. cbn [for_range]. unfold radd. cbn [nadd rnd_num]. rewrite Rplus_0_l, b64_two by lia. cbn [nadd rnd_num]. rewrite T. apply b64_two. lia. }
  pose proof (two_pos (-99)) as P. pose proof (two_pos (-1000)) as Pp.
  eexists (fun _ _ => Fin (two (-1000))), (fun _ => Fin (two (-100))), _.
  split; [reflexivity|]. split; [intros i; split; [apply two_datum; lia | reflexivity]|].
  assert (Small : exists c, b64 (1 / 1000000) = Fin c /\ 0 < c).
  { assert (H : two (-20) <= 1 / 1000000 <= 1).
    { split; [|lra]. change (-20)%Z with (- (20))%Z. rewrite two_neg, two_Z by lia. change (2 ^ 20)%Z with 1048576%Z.
      unfold Rdiv. rewrite Rmult_1_l. apply Rinv_le_contravar; lra. }
    destruct (b64_between (two (-20)) 1 (1 / 1000000)) as (c & E & Hc & _); [apply double_two; lia | apply double_1 | exact H |].
    exists c. split; [exact E|]. pose proof (two_pos (-20)). lra. }
  destruct Small as (c & Ec & Hc).
  assert (Z1 : is0 (Fin (two (-99))) = false) by (unfold is0; cbn; apply Reqb_false; lra).
  split; [|split].
  - unfold rcremb_sample. cbv zeta. rewrite S, Z1, Ec.
    replace (rsub b64 (Fin 1) (rdiv b64 (Fin (two (-99))) (Fin (two (-99))))) with (Fin 0).
    + cbn [nabs nltb]. rewrite Rabs_R0, Rltb_true by exact Hc. cbn [guard]. reflexivity.
    + unfold rdiv. cbn [ndiv]. rewrite Reqb_false by lra. cbn [rnd_num]. replace (two (-99) / two (-99)) with 1 by (field; lra).
      rewrite (b64_fixed _ double_1). unfold rsub, nsub. cbn [nopp nadd rnd_num]. rewrite Rplus_opp_r. symmetry. apply b64_0.
  - cbn [seq for_prog adm Nat.eqb negb orb pbind rcremb_body run_draws toR]. rewrite (Rltb_true 0) by exact Pp.
    rewrite mul_two. change (-99 + -1000)%Z with (-1099)%Z. rewrite b64_under by lia. unfold is0. cbn [neqb]. rewrite Reqb_true by reflexivity. reflexivity.
  - rewrite T. rewrite <- !two_add. change (-100 + -100)%Z with (-200)%Z. change (-99 + -1000)%Z with (-1099)%Z. unfold Rdiv.
    rewrite <- two_neg, <- two_add. reflexivity.
Qed.
Print Assumptions C97_scale_refuted.
