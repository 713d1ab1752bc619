(** Property C102: the conditional scale-invariant model in double precision. *)
From Verif Require Import Base Num Spec Kernels KernelFacts MultiKernels Prob Ensemble Solver Fit Conditional Float FloatFacts FloatSample FloatSolver FloatSolverFacts PropFloat PropFloatSample PropFloatSolver PropFloatMulti FloatCond.
From Coq Require Import Lra Lia.

(** * Without rounding *)
Lemma is0_mul : forall a b, is0 a = false -> is0 b = false -> is0 (nmul a b) = false.
Proof.
  unfold is0. intros [x| | |] [y| | |] A B; cbn in *; try reflexivity; unfold inf_times.
  - destruct (Reqb_spec x 0), (Reqb_spec y 0); try discriminate. apply Reqb_false. intro E. apply Rmult_integral in E. tauto.
  - rewrite A. destruct (Bool.eqb _ _); reflexivity.
  - rewrite A. destruct (Bool.eqb _ _); reflexivity.
  - rewrite B. destruct (Bool.eqb _ _); reflexivity.
  - rewrite B. destruct (Bool.eqb _ _); reflexivity.
Qed.
Lemma is0_expm1 : forall a, is0 a = false -> is0 (nopp (nexpm1 (nopp a))) = false.
Proof.
  unfold is0. intros [x| | |] A; cbn in *; try reflexivity; apply Reqb_false; try lra.
  intro E. destruct (Reqb_spec x 0) as [|D]; [discriminate|]. apply D.
  assert (F : exp (- x) = exp 0) by (rewrite exp_0; lra). apply exp_inv in F. lra.
Qed.
Lemma rpdiv_exact : forall a b, rpdiv Fin a b = pdiv a b.
Proof. intros. unfold rpdiv, pdiv. destruct (is0 b); [reflexivity|]. exact_ops. reflexivity. Qed.
Lemma or_false6 : forall a b c d e f, a || b || c || d || e || f = false -> a = false /\ b = false /\ c = false /\ d = false /\ e = false /\ f = false.
Proof. intros [] [] [] [] [] []; cbn; intro; try discriminate. repeat split. Qed.

Lemma cond_p_exact : forall d x y z X Y Z, rcond_p_ij Fin d x y z X Y Z = Ok (cond_p_ij d x y z X Y Z).
Proof.
  intros. unfold rcond_p_ij, cond_p_ij. destruct (is0 X || is0 Y || is0 Z || is0 x || is0 y || is0 z) eqn:E; [reflexivity|].
  apply or_false6 in E as (E1 & E2 & E3 & E4 & E5 & E6). destruct (is0 d) eqn:Ed; [exact_ops; reflexivity|].
  exact_ops. cbn zeta. destruct (isinf (nmul (nmul (nmul d x) y) z)); [reflexivity|].
  destruct (isinf (nmul (nmul (nmul d X) Y) Z)); [reflexivity|]. rewrite rpdiv_exact. unfold pdiv.
  rewrite is0_expm1; [reflexivity|]. repeat apply is0_mul; assumption.
Qed.
Lemma cond_jac_exact : forall d x y z X Y Z, rcond_p_jac Fin d x y z X Y Z = Ok (cond_p_jac d x y z X Y Z).
Proof.
  intros. unfold rcond_p_jac, cond_p_jac. destruct (is0 X || is0 Y || is0 Z || is0 x || is0 y || is0 z) eqn:E; [reflexivity|].
  apply or_false6 in E as (E1 & E2 & E3 & E4 & E5 & E6). exact_ops. cbn zeta. rewrite rpdiv_exact. unfold pdiv.
  rewrite is0_mul; [|apply Reqb_false; lra | repeat apply is0_mul; assumption]. cbn [bind]. rewrite ?rnd_exact.
  destruct (nltb _ _); [reflexivity|]. destruct (isinf _); [reflexivity|]. destruct (isinf _); reflexivity.
Qed.
Lemma aggregates_exact : forall N g x y, raggregates Fin N g x y = aggregates N g x y.
Proof.
  intros. unfold raggregates, aggregates. apply for_range_rel; [reflexivity|]. intros i a b _ ->.
  unfold radd_at, nadd_at. exact_ops. reflexivity.
Qed.
Lemma z_exact : forall s sl a b, rz_block Fin s sl a b = z_block s sl a b.
Proof.
  intros. unfold rz_block, z_block. destruct (negb sl && Nat.eqb a b); [|reflexivity]. exact_ops. rewrite rpdiv_exact.
  destruct (pdiv _ _); cbn [bind]; [exact_ops|]; reflexivity.
Qed.
(** Related results of two computations *)
Definition res_rel {A B} (Q : A -> B -> Prop) (a : res A) (b : res B) : Prop :=
  match a, b with Ok x, Ok y => Q x y | Raise e, Raise e' => e = e' | _, _ => False end.
Lemma range_res_rel : forall A B (Q : A -> B -> Prop) n f g a b, Q a b ->
  (forall i x y, (i < n)%nat -> Q x y -> res_rel Q (f i x) (g i y)) -> res_rel Q (for_range_res n f a) (for_range_res n g b).
Proof.
  intros A B Q n f g a b H. induction n as [|n IH]; intro K; cbn [for_range_res]; [exact H|].
  assert (I : res_rel Q (for_range_res n f a) (for_range_res n g b)) by (apply IH; intros; apply K; [lia | assumption]).
  destruct (for_range_res n f a) as [x|e], (for_range_res n g b) as [y|e']; cbn [res_rel] in I; cbn [bind]; try contradiction.
  - apply K; [lia | exact I].
  - exact I.
Qed.
(** The kernel has finite values. *)
Lemma cond_p_fin : forall d x y z X Y Z, d <> NaN -> cond_p_ij d (Fin x) (Fin y) (Fin z) (Fin X) (Fin Y) (Fin Z) =
  Fin (toR (cond_p_ij d (Fin x) (Fin y) (Fin z) (Fin X) (Fin Y) (Fin Z))).
Proof.
  intros d x y z X Y Z Hd. unfold cond_p_ij.
  destruct (is0 (Fin X) || is0 (Fin Y) || is0 (Fin Z) || is0 (Fin x) || is0 (Fin y) || is0 (Fin z)) eqn:E; [reflexivity|].
  apply or_false6 in E as (E1 & E2 & E3 & E4 & E5 & E6). cbn zeta. 
  assert (N0 : forall r, is0 (Fin r) = false -> Reqb r 0 = false) by (intros r Hr; exact Hr).
  destruct (is0 d) eqn:Ed.
  - cbn [ndiv]. rewrite !N0 by assumption. reflexivity.
  - destruct d as [d| | |]; [| | |congruence].
    + cbn [nmul isinf]. pose proof (is0_expm1 (Fin (d * X * Y * Z))) as K.
      assert (G : is0 (Fin (d * X * Y * Z)) = false) by (apply (is0_mul (Fin (d * X * Y)) (Fin Z)); [apply (is0_mul (Fin (d * X)) (Fin Y)); [apply (is0_mul (Fin d) (Fin X))|]|]; assumption).
      apply K in G. cbn [nopp nexpm1 nexp nsub nadd] in *. cbn [ndiv]. rewrite (N0 _ G). reflexivity.
    + assert (G : isinf (nmul (nmul (nmul PInf (Fin x)) (Fin y)) (Fin z)) = true).
      { cbn [nmul]. unfold inf_times at 1. rewrite (N0 _ E4). destruct (Bool.eqb _ _); cbn [nmul]; unfold inf_times at 1; rewrite (N0 _ E5);
          destruct (Bool.eqb _ _); cbn [nmul]; unfold inf_times; rewrite (N0 _ E6); destruct (Bool.eqb _ _); reflexivity. }
      rewrite G. reflexivity.
    + assert (G : isinf (nmul (nmul (nmul NInf (Fin x)) (Fin y)) (Fin z)) = true).
      { cbn [nmul]. unfold inf_times at 1. rewrite (N0 _ E4). destruct (Bool.eqb _ _); cbn [nmul]; unfold inf_times at 1; rewrite (N0 _ E5);
          destruct (Bool.eqb _ _); cbn [nmul]; unfold inf_times; rewrite (N0 _ E6); destruct (Bool.eqb _ _); reflexivity. }
      rewrite G. reflexivity.
Qed.

Lemma inv_p_fin : forall d x y z, d <> NaN -> inv_p_ij d (Fin x) (Fin y) (Fin z) = Fin (toR (inv_p_ij d (Fin x) (Fin y) (Fin z))).
Proof.
  intros d x y z Hd. unfold inv_p_ij. destruct (is0 (Fin x) || is0 (Fin y) || is0 (Fin z) || is0 d) eqn:E; [reflexivity|].
  apply Bool.orb_false_iff in E as [E E4]. apply Bool.orb_false_iff in E as [E E3]. apply Bool.orb_false_iff in E as [E1 E2].
  cbn zeta. destruct d as [d| | |]; [reflexivity | | | congruence].
  1, 2: assert (N0 : forall r, is0 (Fin r) = false -> Reqb r 0 = false) by (intros r Hr; exact Hr);
    match goal with |- context [isinf ?a] => assert (G : isinf a = true) end;
    [ cbn [nmul]; unfold inf_times at 1; rewrite (N0 _ E1); destruct (Bool.eqb _ _); cbn [nmul]; unfold inf_times at 1; rewrite (N0 _ E2);
      destruct (Bool.eqb _ _); cbn [nmul]; unfold inf_times; rewrite (N0 _ E3); destruct (Bool.eqb _ _); reflexivity
    | rewrite G; reflexivity ].
Qed.
Lemma rinv_exact : forall d x y z, rinv_p_ij Fin d x y z = inv_p_ij d x y z.
Proof. intros. apply C96_exact. Qed.

Section Exact.
Variables (d : num) (x y : nat -> R) (N : nat) (g : nat -> nat) (adj : nat -> list (nat * R)) (sl : bool).
Hypothesis Hd : d <> NaN.
Let po := fun i => Fin (x i).
Let pin := fun i => Fin (y i).
Let s := aggregates N g po pin.
Lemma agg_fin : forall a, exists u v w, agg_p_out s a = Fin u /\ agg_p_in s a = Fin v /\ agg_diag s a = Fin w.
Proof.
  intro a. unfold s, aggregates. revert a. apply (for_range_count agg (fun _ t => forall a, exists u v w, agg_p_out t a = Fin u /\ agg_p_in t a = Fin v /\ agg_diag t a = Fin w)).
  - intro a. exists 0, 0, 0. repeat split.
  - intros i t _ IH a. destruct (IH a) as (u & v & w & A & B & C). cbn [agg_p_out agg_p_in agg_diag]. unfold nadd_at, upd.
    destruct (Nat.eqb_spec a (g i)) as [->|]; [|exists u, v, w; auto].
    rewrite A, B, C. cbn [nadd nmul po pin]. eexists _, _, _. repeat split.
Qed.
Lemma z_fin : forall a b, match z_block s sl a b with Ok z => exists r, z = Fin r | Raise _ => True end.
Proof.
  intros a b. unfold z_block. destruct (negb sl && Nat.eqb a b); [|exists 1; reflexivity].
  destruct (agg_fin a) as (u & _ & w & A & _ & C). destruct (agg_fin b) as (_ & v & _ & _ & B & _). rewrite A, B, C. cbn [nmul].
  unfold pdiv, is0. cbn [neqb]. destruct (Reqb (u * v) 0) eqn:E; cbn [bind]; [exact I|]. cbn [ndiv]. rewrite E. cbn. eexists. reflexivity.
Qed.
Lemma p_fin : forall i j a b z, z_block s sl a b = Ok z ->
  cond_p_ij d (po i) (pin j) (Fin 1) (agg_p_out s a) (agg_p_in s b) z =
  Fin (toR (cond_p_ij d (po i) (pin j) (Fin 1) (agg_p_out s a) (agg_p_in s b) z)).
Proof.
  intros i j a b z Z. pose proof (z_fin a b) as F. rewrite Z in F. destruct F as [r ->].
  destruct (agg_fin a) as (u & _ & _ & -> & _). destruct (agg_fin b) as (_ & v & _ & _ & -> & _). apply cond_p_fin, Hd.
Qed.
Lemma edges_exact : res_rel (fun a b => a = Fin b) (rcond_exp_edges Fin d po pin N g adj sl) (cond_exp_edges d po pin N g adj sl).
Proof.
  unfold rcond_exp_edges, cond_exp_edges. rewrite aggregates_exact. fold s. apply range_res_rel; [reflexivity|]. intros i e e' _ E.
  apply range_res_rel; [exact E|]. intros j f f' _ ->. cbn zeta. destruct (linked adj (g i) (g j) && adm sl i j); [|reflexivity].
  rewrite z_exact. destruct (z_block s sl (g i) (g j)) as [z|] eqn:Z; cbn [bind]; [|reflexivity].
  rewrite cond_p_exact. cbn [bind]. rewrite (p_fin i j _ _ _ Z) at 1. exact_ops. reflexivity.
Qed.
Lemma degrees_exact' : res_rel same3 (rcond_exp_degrees Fin d po pin N g adj sl) (cond_exp_degrees d po pin N g adj sl).
Proof.
  unfold rcond_exp_degrees, cond_exp_degrees. rewrite aggregates_exact. fold s.
  apply range_res_rel; [repeat split; intro; reflexivity|]. intros i e e' _ E.
  apply range_res_rel; [exact E|]. intros j [[f1 f2] f3] [[h1 h2] h3] _ (S1 & S2 & S3). cbn zeta. cbn [fst snd] in *.
  destruct (linked adj (g i) (g j)); [|repeat split; assumption]. destruct (negb (Nat.eqb i j)).
  - rewrite !z_exact. destruct (z_block s sl (g i) (g j)) as [z|] eqn:Z; cbn [bind]; [|reflexivity].
    rewrite cond_p_exact. cbn [bind]. destruct (z_block s sl (g j) (g i)) as [z'|] eqn:Z'; cbn [bind]; [|reflexivity].
    rewrite cond_p_exact. cbn [bind res_rel]. rewrite (p_fin i j _ _ _ Z), (p_fin j i _ _ _ Z'). cbn [toR]. exact_ops. cbn [nmul nadd nsub nopp].
    repeat split; repeat apply same_add; assumption.
  - destruct sl eqn:Es; [|repeat split; assumption]. rewrite cond_p_exact. cbn [bind res_rel].
    assert (Z : z_block s sl (g i) (g j) = Ok (Fin 1)) by (rewrite Es; reflexivity).
    rewrite (p_fin i j _ _ _ Z). cbn [toR]. repeat split; repeat apply same_add; assumption.
Qed.
Lemma f_jac_exact : rcond_f_jac Fin d po pin N g adj sl = cond_f_jac d po pin N g adj sl.
Proof.
  assert (H : res_rel eq (rcond_f_jac Fin d po pin N g adj sl) (cond_f_jac d po pin N g adj sl)).
  - unfold rcond_f_jac, cond_f_jac. rewrite aggregates_exact. fold s. apply range_res_rel; [reflexivity|]. intros i e e' _ ->.
    apply range_res_rel; [reflexivity|]. intros j f f' _ ->. cbn zeta. destruct (linked adj (g i) (g j) && adm sl i j); [|reflexivity].
    rewrite z_exact. destruct (z_block s sl (g i) (g j)) as [z|]; cbn [bind]; [|reflexivity]. rewrite cond_jac_exact. cbn [bind].
    destruct (cond_p_jac _ _ _ _ _ _ _) as [p q]. exact_ops. reflexivity.
  - destruct (rcond_f_jac _ _ _ _ _ _ _ _), (cond_f_jac _ _ _ _ _ _ _); cbn in H; subst; try contradiction; reflexivity.
Qed.
Lemma agg_lik_exact : forall A l e, ragg_lik_loop Fin d po pin N g sl A l e = agg_lik_loop d po pin N g sl A l e.
Proof.
  intros A l. induction l as [|[i j] l IH]; intro e; cbn [ragg_lik_loop agg_lik_loop]; [reflexivity|].
  rewrite aggregates_exact, z_exact. fold s. destruct (z_block s sl i j) as [z|]; cbn [bind]; [|reflexivity].
  destruct (proj1 C96_exact d (agg_p_out s i) (agg_p_in s j) z) as (_ & _ & _ & _ & _ & -> & -> & _).
  destruct (isinf _); [reflexivity|]. rewrite IH. exact_ops. reflexivity.
Qed.
Lemma lik_exact : forall rows cols row, rcond_log_likelihood Fin d po pin N g adj sl rows cols row = cond_log_likelihood d po pin N g adj sl rows cols row.
Proof.
  intros. unfold rcond_log_likelihood, cond_log_likelihood, guard. destruct (_ && _); [|reflexivity]. cbn zeta.
  destruct (negb _); [reflexivity|]. unfold ragg_likelihood, agg_likelihood. rewrite agg_lik_exact.
  destruct (agg_lik_loop _ _ _ _ _ _ _ _ _) as [v|]; cbn [bind]; [|reflexivity]. exact_ops. f_equal. f_equal.
  rewrite <- (proj1 C97_exact num num num num inv_logp inv_log1mp d po pin (fun _ _ => Fin 1) row N sl).
  unfold rlikelihood. f_equal. apply flow_ext. intros i st _. apply flow_ext. intros j st' _. unfold rlik_body.
  destruct (proj1 C96_exact d (po i) (pin j) (Fin 1)) as (_ & _ & _ & _ & _ & -> & -> & _). reflexivity.
Qed.
End Exact.

(** The samplers draw the same links from the same random numbers. *)
Definition res_map {A B} (f : A -> B) (r : res A) : res B := match r with Ok a => Ok (f a) | Raise e => Raise e end.
Definition out_map {A B} (f : A -> B) (o : option (res A * list R)) : option (res B * list R) :=
  match o with Some (r, rest) => Some (res_map f r, rest) | None => None end.
Definition lift_w (e : nat * nat * R) : nat * nat * num := (fst e, Fin (snd e)).

Section ExactSample.
Variables (d : num) (x y : nat -> R) (N : nat) (g : nat -> nat) (adj : nat -> list (nat * R)) (sl : bool).
Hypothesis Hd : d <> NaN.
Let po := fun i => Fin (x i).
Let pin := fun i => Fin (y i).
Let s := aggregates N g po pin.
Lemma pair_exact : forall i j, rp_pair Fin d po pin i j = Fin (p_pair d po pin i j).
Proof. intros. unfold rp_pair, p_pair. rewrite rinv_exact. apply inv_p_fin, Hd. Qed.
Lemma block_exact : forall a b, rp_block Fin d po pin N g sl a b = res_map Fin (p_block d po pin N g sl a b).
Proof.
  intros. unfold rp_block, p_block. rewrite aggregates_exact, z_exact. fold s.
  pose proof (z_fin x y N g sl a b) as Z. fold po pin s in Z. destruct (z_block s sl a b) as [z|]; cbn [bind res_map]; [|reflexivity].
  destruct Z as [r ->]. rewrite rinv_exact. destruct (agg_fin x y N g a) as (u & _ & _ & A & _). destruct (agg_fin x y N g b) as (_ & v & _ & _ & B & _).
  fold po pin s in A, B. rewrite A, B. f_equal. apply inv_p_fin, Hd.
Qed.
Section Pairs.
Variables (F G : Type) (h : F -> G) (mark : nat * nat -> F) (rmark : nat * nat -> res G).
Lemma pairs_exact : (forall e, p_pair d po pin (fst e) (snd e) <> 0 -> rmark e = Ok (h (mark e))) ->
  forall l acc alo pnorm us, Forall (fun u => 0 <= u) us ->
  run_draws (rsample_pairs Fin d po pin sl rmark l (map h acc) alo (Fin pnorm)) us =
  out_map (map h) (run_draws (sample_block d po pin sl mark l acc alo pnorm) us).
Proof.
  intros M l. induction l as [|[i j] l IH]; intros acc alo pnorm us Hu; cbn [rsample_pairs sample_block]; [reflexivity|].
  destruct (adm sl i j); [|apply IH, Hu]. cbn zeta. rewrite !pair_exact. set (p := p_pair d po pin i j). 
  assert (Step : forall q us, (forall u, 0 <= u -> u < q -> p <> 0) -> Forall (fun u => 0 <= u) us ->
    run_draws (Draw q (fun hit : bool => if hit then match rmark (i, j) with Ok m => rsample_pairs Fin d po pin sl rmark l (map h acc ++ [m]) true (Fin pnorm) | Raise e => Ret (Raise e) end
       else match rpdiv Fin (rsub Fin (Fin 1) (Fin pnorm)) (rsub Fin (Fin 1) (Fin p)) with
            | Ok r => rsample_pairs Fin d po pin sl rmark l (map h acc) alo (rsub Fin (Fin 1) r) | Raise e => Ret (Raise e) end)) us =
    out_map (map h) (run_draws (Draw q (fun hit : bool => if hit then sample_block d po pin sl mark l (acc ++ [mark (i, j)]) true pnorm
       else if Reqb (1 - p) 0 then Ret (Raise ZeroDivisionError) else sample_block d po pin sl mark l acc alo (1 - (1 - pnorm) / (1 - p)))) us)).
  { intros q vs Q Hv. cbn [run_draws]. destruct vs as [|u vs]; [reflexivity|]. inversion Hv as [|? ? H0 Hvs]; subst.
    destruct (Rltb_spec u q) as [L|].
    - rewrite M by (cbn [fst snd]; exact (Q u H0 L)). change [h (mark (i, j))] with (map h [mark (i, j)]). rewrite <- map_app. apply IH, Hvs.
    - rewrite rpdiv_exact. exact_ops. cbn [nsub nopp nadd]. unfold pdiv, is0. cbn [neqb].
      change (1 + - p) with (1 - p). change (1 + - pnorm) with (1 - pnorm).
      destruct (Reqb (1 - p) 0) eqn:E; [reflexivity|]. cbn [ndiv]. rewrite E. cbn [nsub nopp nadd rnd_num].
      change (1 + - ((1 - pnorm) / (1 - p))) with (1 - (1 - pnorm) / (1 - p)). apply IH, Hvs. }
  destruct alo.
  - cbn [chance]. apply Step; [|exact Hu]. intros u A B C. lra.
  - rewrite rpdiv_exact. unfold pdiv, is0. cbn [neqb]. destruct (Reqb pnorm 0) eqn:E; [reflexivity|]. cbn [ndiv]. rewrite E. cbn [chance].
    apply Step; [|exact Hu]. intros u A B C. rewrite C in B. unfold Rdiv in B. lra.
Qed.
(** When the probability of the block is zero no link is marked. *)
Lemma pairs_zero : forall l us,
  run_draws (rsample_pairs Fin d po pin sl rmark l [] false (Fin 0)) us =
  out_map (map h) (run_draws (sample_block d po pin sl mark l [] false 0) us).
Proof.
  induction l as [|[i j] l IH]; intros us; cbn [rsample_pairs sample_block]; [reflexivity|].
  destruct (adm sl i j); [|apply IH]. cbn zeta. unfold rpdiv, is0. cbn [neqb]. rewrite (Reqb_true 0 0 eq_refl). reflexivity.
Qed.
End Pairs.
Lemma rest_nonneg : forall A (m : prog A) us a rest, Forall (fun u => 0 <= u) us -> run_draws m us = Some (a, rest) -> Forall (fun u => 0 <= u) rest.
Proof.
  intros A m. induction m as [a0|p k IH]; intros us a rest Hu H; cbn in H.
  - inversion H. subst. exact Hu.
  - destruct us as [|u us]; [discriminate|]. inversion Hu; subst. eapply IH; eauto.
Qed.
Lemma blocks_exact : forall F G (h : F -> G) (mark : R -> nat * nat -> F) (rmark : num -> nat * nat -> res G) finish rfinish,
  (forall q e, q <> 0 -> p_pair d po pin (fst e) (snd e) <> 0 -> rmark (Fin q) e = Ok (h (mark q e))) ->
  (forall w l, rfinish w (map h l) = res_map (map h) (finish w l)) ->
  forall blocks acc us, Forall (fun u => 0 <= u) us ->
  run_draws (rsample_blocks Fin d po pin N g sl rmark rfinish blocks (map h acc)) us =
  out_map (map h) (run_draws (sample_blocks d po pin N g sl mark finish blocks acc) us).
Proof.
  intros F G h mark rmark finish rfinish M Fi. induction blocks as [|[[a b] w] t IH]; intros acc us Hu; cbn [rsample_blocks sample_blocks]; [reflexivity|].
  rewrite block_exact. destruct (p_block d po pin N g sl a b) as [q|e]; cbn [res_map]; [|reflexivity]. rewrite !run_bind.
  assert (E : run_draws (rsample_pairs Fin d po pin sl (rmark (Fin q)) (list_prod (members N g a) (members N g b)) [] false (Fin q)) us =
     out_map (map h) (run_draws (sample_block d po pin sl (mark q) (list_prod (members N g a) (members N g b)) [] false q) us)).
  { destruct (Req_dec q 0) as [->|Q]; [apply pairs_zero|]. apply (pairs_exact F G h (mark q) (rmark (Fin q)) (fun e => M q e Q) _ [] false q us Hu). }
  rewrite E. clear E. destruct (run_draws (sample_block _ _ _ _ _ _ _ _ _) us) as [[[links|e] rest]|] eqn:D; cbn [out_map res_map]; [|reflexivity|reflexivity].
  rewrite Fi. destruct (finish w links) as [l'|]; cbn [res_map]; [|reflexivity]. rewrite <- map_app. apply IH. eapply rest_nonneg; eauto.
Qed.
Lemma map_same : forall A (l : list A), map (fun e => e) l = l. Proof. intros. apply map_id. Qed.
Lemma binary_exact : forall us, Forall (fun u => 0 <= u) us ->
  run_draws (rcond_binary_sample Fin d po pin N g adj sl) us = run_draws (cond_binary_sample d po pin N g adj sl) us.
Proof.
  intros us Hu. unfold rcond_binary_sample, cond_binary_sample.
  pose proof (blocks_exact _ _ (fun e => e) (fun _ e => e) (fun _ e => Ok e) (fun _ l => Ok l) (fun _ l => Ok l)) as B.
  cbn [map] in B. specialize (B (fun _ _ _ _ => eq_refl) ltac:(intros; cbn; rewrite map_same; reflexivity) (macro_links N g adj) [] us Hu).
  cbn [map] in B. rewrite B. destruct (run_draws (sample_blocks _ _ _ _ _ _ _ _ _ _) us) as [[[l|e] rest]|]; cbn; [rewrite map_same|..]; reflexivity.
Qed.
Lemma finish_exact : forall w l, rwagg_finish Fin w (map lift_w l) = res_map (map lift_w) (wagg_finish w l).
Proof.
  intros w l. unfold rwagg_finish, wagg_finish. cbn zeta.
  assert (E : forall t, fold_left (fun t e => radd Fin t (snd e)) (map lift_w l) (Fin t) = Fin (t + fold_right (fun e t => snd e + t) 0 l)).
  { clear. induction l as [|e l IH]; intro t; cbn [map fold_left fold_right lift_w snd]; [f_equal; lra|].
    exact_ops. cbn [nadd]. rewrite IH. f_equal. lra. }
  rewrite E, Rplus_0_l. destruct l as [|e l]; [reflexivity|]. cbn [map]. unfold is0. cbn [neqb]. set (z := fold_right _ 0 (e :: l)).
  destruct (Reqb z 0) eqn:Ez; [reflexivity|]. cbn [res_map map]. rewrite !map_map. f_equal.
  assert (V : forall c : nat * nat * R, (fst (lift_w c), rmul Fin (rdiv Fin (snd (lift_w c)) (Fin z)) (Fin w)) = lift_w (fst c, snd c / z * w)).
  { intros c. cbn [lift_w fst snd]. exact_ops. cbn [ndiv]. rewrite Ez. reflexivity. }
  rewrite V. f_equal. apply map_ext. intros c. apply V.
Qed.
Lemma wagg_exact : forall so si us, Forall (fun u => 0 <= u) us ->
  run_draws (rcond_wagg_sample Fin d po pin N g adj sl (fun i => Fin (so i)) (fun i => Fin (si i))) us =
  out_map (map lift_w) (run_draws (cond_wagg_sample d po pin N g adj sl so si) us).
Proof.
  intros so si us Hu. unfold rcond_wagg_sample, cond_wagg_sample. apply (blocks_exact _ _ lift_w _ _ _ _) with (acc := []); [|apply finish_exact|exact Hu].
  intros q e _ _. reflexivity.
Qed.
Lemma cremb_exact : forall so si,
  match cond_cremb_sample d po pin N g adj sl so si with
  | Raise e => rcond_cremb_sample Fin d po pin N g adj sl (fun i => Fin (so i)) (fun i => Fin (si i)) = Raise e
  | Ok m => exists m', rcond_cremb_sample Fin d po pin N g adj sl (fun i => Fin (so i)) (fun i => Fin (si i)) = Ok m' /\
      forall us, Forall (fun u => 0 <= u) us -> run_draws m' us = out_map (map lift_w) (run_draws m us)
  end.
Proof.
  intros so si. unfold cond_cremb_sample, rcond_cremb_sample. cbn zeta. rewrite !rsum_exact. unfold is0. cbn [neqb].
  destruct (Reqb (sumn N so) 0) eqn:E; [reflexivity|]. exact_ops. cbn [ndiv]. rewrite E. cbn [nsub nopp nadd nabs nltb].
  change (1 + - (sumn N si / sumn N so)) with (1 - sumn N si / sumn N so). unfold guard. destruct (Rltb _ _); [|reflexivity].
  eexists. split; [reflexivity|]. intros us Hu. apply (blocks_exact _ _ lift_w _ _ _ _) with (acc := []); [|intros; reflexivity|exact Hu].
  intros q e Q P. rewrite pair_exact, rpdiv_exact. unfold pdiv, is0. cbn [neqb]. rewrite (Reqb_false q 0 Q). cbn [bind ndiv]. rewrite (Reqb_false q 0 Q).
  rewrite rpdiv_exact. unfold pdiv, is0. exact_ops. cbn [nmul neqb].
  assert (S0 : sumn N so <> 0) by (intro A; rewrite A, (Reqb_true 0 0 eq_refl) in E; discriminate).
  set (p := p_pair d po pin (fst e) (snd e)) in *.
  assert (K : sumn N so * (p / q) <> 0).
  { intro A. apply Rmult_integral in A as [A|A]; [contradiction|]. unfold Rdiv in A. apply Rmult_integral in A as [A|A]; [contradiction|]. exact (Rinv_neq_0_compat q Q A). }
  rewrite (Reqb_false _ _ K). cbn [bind ndiv]. rewrite (Reqb_false _ _ K). reflexivity.
Qed.
End ExactSample.

(** Without rounding the definitions are those of the exact model. *)
Theorem C102_exact :
  (forall d x y z X Y Z, rcond_p_ij Fin d x y z X Y Z = Ok (cond_p_ij d x y z X Y Z) /\
     rcond_p_jac Fin d x y z X Y Z = Ok (cond_p_jac d x y z X Y Z)) /\
  (forall d x y N g adj sl, d <> NaN -> let po := fun i => Fin (x i) in let pin := fun i => Fin (y i) in
     match cond_exp_edges d po pin N g adj sl with
     | Ok e => rcond_exp_edges Fin d po pin N g adj sl = Ok (Fin e)
     | Raise e => rcond_exp_edges Fin d po pin N g adj sl = Raise e
     end /\
     match cond_exp_degrees d po pin N g adj sl with
     | Ok (a, b, c) => exists a' b' c', rcond_exp_degrees Fin d po pin N g adj sl = Ok (a', b', c') /\
         forall k, a' k = Fin (a k) /\ b' k = Fin (b k) /\ c' k = Fin (c k)
     | Raise e => rcond_exp_degrees Fin d po pin N g adj sl = Raise e
     end /\
     rcond_f_jac Fin d po pin N g adj sl = cond_f_jac d po pin N g adj sl /\
     (forall rows cols row, rcond_log_likelihood Fin d po pin N g adj sl rows cols row = cond_log_likelihood d po pin N g adj sl rows cols row) /\
     (forall us, Forall (fun u => 0 <= u) us ->
        run_draws (rcond_binary_sample Fin d po pin N g adj sl) us = run_draws (cond_binary_sample d po pin N g adj sl) us) /\
     (forall so si us, Forall (fun u => 0 <= u) us ->
        run_draws (rcond_wagg_sample Fin d po pin N g adj sl (fun i => Fin (so i)) (fun i => Fin (si i))) us =
        match run_draws (cond_wagg_sample d po pin N g adj sl so si) us with
        | Some (Ok l, rest) => Some (Ok (map (fun e => (fst e, Fin (snd e))) l), rest)
        | Some (Raise e, rest) => Some (Raise e, rest)
        | None => None
        end) /\
     (forall so si, match cond_cremb_sample d po pin N g adj sl so si with
        | Raise e => rcond_cremb_sample Fin d po pin N g adj sl (fun i => Fin (so i)) (fun i => Fin (si i)) = Raise e
        | Ok m => exists m', rcond_cremb_sample Fin d po pin N g adj sl (fun i => Fin (so i)) (fun i => Fin (si i)) = Ok m' /\
            forall us, Forall (fun u => 0 <= u) us -> run_draws m' us =
              match run_draws m us with
              | Some (Ok l, rest) => Some (Ok (map (fun e => (fst e, Fin (snd e))) l), rest)
              | Some (Raise e, rest) => Some (Raise e, rest)
              | None => None
              end
        end)).
Proof.
  split; [intros; split; [apply cond_p_exact | apply cond_jac_exact]|].
  intros d x y N g adj sl Hd po pin. split; [|split; [|split; [|split; [|split; [|split]]]]].
  - pose proof (edges_exact d x y N g adj sl Hd) as E. fold po pin in E.
    destruct (rcond_exp_edges Fin d po pin N g adj sl), (cond_exp_edges d po pin N g adj sl); cbn in E; subst; try contradiction; reflexivity.
  - pose proof (degrees_exact' d x y N g adj sl Hd) as E. fold po pin in E.
    destruct (rcond_exp_degrees Fin d po pin N g adj sl) as [[[a' b'] c']|], (cond_exp_degrees d po pin N g adj sl) as [[[a b] c]|]; cbn in E; subst; try contradiction; [|reflexivity].
    exists a', b', c'. split; [reflexivity|]. destruct E as (E1 & E2 & E3). cbn [fst snd] in *. intro k. auto.
  - apply f_jac_exact; assumption.
  - apply lik_exact; assumption.
  - apply binary_exact; assumption.
  - intros so si us Hu. unfold po, pin. rewrite wagg_exact by assumption. destruct (run_draws _ us) as [[[l|e] rest]|]; reflexivity.
  - intros so si. pose proof (cremb_exact d x y N g adj sl Hd so si) as E. fold po pin in E.
    destruct (cond_cremb_sample d po pin N g adj sl so si) as [m|e]; [|exact E]. destruct E as (m' & E & R). exists m'. split; [exact E|].
    intros us Hu. rewrite (R us Hu). destruct (run_draws m us) as [[[l|e] rest]|]; reflexivity.
Qed.
Print Assumptions C102_exact.

(** * Probabilities *)
Lemma ratio_unit : forall a b, 0 <= a <= b -> 0 < b -> exists p, rdiv b64 (Fin a) (Fin b) = Fin p /\ 0 <= p <= 1 /\ double p /\ (b <= 1 -> double a -> a <= p).
Proof.
  intros a b H Hb. assert (Q : 0 <= a / b <= 1).
  { split; [apply Rmult_le_pos; [lra | left; apply Rinv_0_lt_compat; lra]|]. apply (Rmult_le_reg_r b); [lra|]. unfold Rdiv. rewrite Rmult_assoc, Rinv_l by lra. lra. }
  destruct (b64_between 0 1 (a / b) double_0 double_1 Q) as (p & E & Hp & Dp). exists p.
  split; [unfold rdiv; cbn [ndiv]; rewrite Reqb_false by lra; exact E|]. split; [exact Hp|]. split; [exact Dp|]. intros B1 Da.
  assert (L : a <= a / b).
  { apply (Rmult_le_reg_r b); [lra|]. unfold Rdiv. rewrite Rmult_assoc, Rinv_l by lra. nra. }
  pose proof (b64_mono a (a / b) L) as M. rewrite (b64_fixed a Da), E in M. exact M.
Qed.
Lemma ratio_same : forall a, 0 < a -> rdiv b64 (Fin a) (Fin a) = Fin 1.
Proof. intros a H. unfold rdiv. cbn [ndiv]. rewrite Reqb_false by lra. cbn [rnd_num]. replace (a / a) with 1 by (field; lra). apply b64_fixed, double_1. Qed.
Lemma mul_unit : forall a b, unit_double a -> unit_double b -> unit_double (rmul b64 a b).
Proof.
  intros a b (p & -> & Hp & _) (q & -> & Hq & _). unfold rmul. cbn [nmul rnd_num].
  destruct (b64_between 0 1 (p * q) double_0 double_1) as (v & E & Hv & Dv); [split; nra|]. exists v. auto.
Qed.
(** The three quotients of the value for the parameter 0 *)
Lemma quotients_unit : forall x y z X Y Z, 0 < x <= X -> 0 < y <= Y -> 0 < z <= Z ->
  unit_double (rmul b64 (rmul b64 (rdiv b64 (Fin x) (Fin X)) (rdiv b64 (Fin y) (Fin Y))) (rdiv b64 (Fin z) (Fin Z))).
Proof.
  intros x y z X Y Z Hx Hy Hz.
  destruct (ratio_unit x X) as (p & -> & Hp & Dp & _); [lra | lra |]. destruct (ratio_unit y Y) as (q & -> & Hq & Dq & _); [lra | lra |].
  destruct (ratio_unit z Z) as (r & -> & Hr & Dr & _); [lra | lra |].
  apply mul_unit; [apply mul_unit|]; eexists; repeat split; try lra; assumption.
Qed.
Lemma quotients_same : forall x y z, 0 < x -> 0 < y -> 0 < z ->
  rmul b64 (rmul b64 (rdiv b64 (Fin x) (Fin x)) (rdiv b64 (Fin y) (Fin y))) (rdiv b64 (Fin z) (Fin z)) = Fin 1.
Proof. intros. rewrite !ratio_same by assumption. rewrite !rmul_11. reflexivity. Qed.
(** The probabilities [-expm1(-t)] grow with [t]. *)
Lemma exponential_mono : forall s t p q, s <= t -> b64 (1 - exp (- s)) = Fin p -> b64 (1 - exp (- t)) = Fin q -> p <= q.
Proof.
  intros s t p q H P Q. assert (L : 1 - exp (- s) <= 1 - exp (- t)).
  { assert (exp (- t) <= exp (- s)); [|lra]. destruct H as [H | ->]; [left; apply exp_increasing; lra | lra]. }
  pose proof (b64_mono _ _ L) as M. rewrite P, Q in M. exact M.
Qed.
Lemma lower_datum : forall a A, datum a -> datum A -> nleb a A = true -> is0 a = false ->
  exists w W, a = Fin w /\ A = Fin W /\ 0 < w <= W /\ double w /\ double W /\ is0 A = false.
Proof.
  intros a A Ha (W & -> & HW & DW) L Za. apply le_num_nleb in L. destruct (datum_pos a Ha Za) as (w & -> & P & Dw). cbn in L.
  exists w, W. repeat split; try assumption; try lra. apply is0_fin_pos. lra.
Qed.

(** The conditional probability in double precision, for a pair of vertices and the sums [X], [Y] of the fitnesses of
    their groups: a number between 0 and 1 that is at least the unconditional probability, and 1 if the pair is the only one
    of its groups; or an error, exactly if the product for the groups is rounded to 0. *)
Theorem C102_probabilities : forall d x y z X Y Z, datum d -> datum x -> datum y -> datum z -> datum X -> datum Y -> datum Z ->
  nleb x X = true -> nleb y Y = true -> nleb z Z = true ->
  if is0 x || is0 y || is0 z then rcond_p_ij b64 d x y z X Y Z = Ok (Fin 0)
  else if negb (is0 d) && is0 (rmul b64 (rmul b64 (rmul b64 d X) Y) Z) then rcond_p_ij b64 d x y z X Y Z = Raise ZeroDivisionError
  else exists p, rcond_p_ij b64 d x y z X Y Z = Ok (Fin p) /\ 0 <= p <= 1 /\ double p /\
    nleb (rinv_p_ij b64 d x y z) (Fin p) = true /\ (x = X -> y = Y -> z = Z -> p = 1).
Proof.
  intros d x y z X Y Z Dd Dx Dy Dz DX DY DZ Lx Ly Lz.
  destruct (is0 x || is0 y || is0 z) eqn:E0.
  { unfold rcond_p_ij. destruct (is0 X || is0 Y || is0 Z); [reflexivity|]. cbn [orb]. rewrite E0. reflexivity. }
  apply orb_false_iff in E0 as [E0 Zz]. apply orb_false_iff in E0 as [Zx Zy].
  destruct (lower_datum x X Dx DX Lx Zx) as (x' & X' & -> & -> & Px & Wx & WX & ZX).
  destruct (lower_datum y Y Dy DY Ly Zy) as (y' & Y' & -> & -> & Py & Wy & WY & ZY).
  destruct (lower_datum z Z Dz DZ Lz Zz) as (z' & Z' & -> & -> & Pz & Wz & WZ & ZZ).
  assert (U : forall p, 0 <= p <= 1 -> nleb (Fin 0) (Fin p) = true) by (intros p Hp; apply le_num_nleb; cbn; lra).
  assert (Inj : forall a b, Fin a = Fin b -> a = b) by (intros a b H; injection H; auto).
  unfold rcond_p_ij. rewrite ZX, ZY, ZZ, Zx, Zy, Zz. cbn [orb].
  destruct (is0 d) eqn:Zd; cbn [negb andb].
  - destruct (quotients_unit x' y' z' X' Y' Z' Px Py Pz) as (p & E & Hp & Dp). exists p. rewrite E. split; [reflexivity|]. split; [exact Hp|]. split; [exact Dp|].
    split; [unfold rinv_p_ij; rewrite Zd, !orb_true_r; apply U, Hp|]. intros A B C. apply Inj in A, B, C. subst. rewrite quotients_same in E by lra. apply Inj in E. auto.
  - assert (L : le_num (product d (Fin x') (Fin y') (Fin z')) (product d (Fin X') (Fin Y') (Fin Z'))).
    { apply product_le; try assumption; [|rewrite Zx, Zy, Zz, Zd; reflexivity]. destruct Dd as (w & -> & _). apply le_num_nleb. cbn. lra. }
    assert (At : amount (product d (Fin x') (Fin y') (Fin z'))) by (apply product_amount; try assumption; rewrite Zx, Zy, Zz, Zd; reflexivity).
    assert (AT : amount (product d (Fin X') (Fin Y') (Fin Z'))) by (apply product_amount; try assumption; rewrite ZX, ZY, ZZ, Zd; reflexivity).
    fold (product d (Fin X') (Fin Y') (Fin Z')). fold (product d (Fin x') (Fin y') (Fin z')). cbn zeta.
    unfold rinv_p_ij. rewrite Zx, Zy, Zz, Zd. cbn [orb]. fold (product d (Fin x') (Fin y') (Fin z')). cbn zeta.
    set (t := product d (Fin x') (Fin y') (Fin z')) in *. 
    assert (Same : Fin x' = Fin X' -> Fin y' = Fin Y' -> Fin z' = Fin Z' -> t = product d (Fin X') (Fin Y') (Fin Z')) by (intros A B C; unfold t; rewrite A, B, C; reflexivity).
    set (T := product d (Fin X') (Fin Y') (Fin Z')) in *. clearbody t T.
    destruct At as [-> | (u & -> & Hu & Du)].
    + destruct AT as [-> | (v & -> & _)]; [|contradiction L]. cbn [is0 neqb isinf]. exists 1. split; [reflexivity|]. split; [lra|]. split; [apply double_1|].
      split; [apply le_num_nleb; cbn; lra | auto].
    + cbn [isinf]. destruct (exponential_unit u Hu) as (p & Ep & Ep' & Hp & Dp). rewrite Ep.
      destruct AT as [-> | (v & -> & Hv & Dv)].
      * cbn [is0 neqb isinf]. exists p. split; [reflexivity|]. split; [exact Hp|]. split; [exact Dp|]. split; [apply le_num_nleb; cbn; lra|].
        intros A B C. specialize (Same A B C). discriminate.
      * cbn [isinf]. cbn [le_num] in L. destruct (exponential_unit v Hv) as (q & Eq & Eq' & Hq & Dq). rewrite Eq. unfold rpdiv.
        destruct (Req_dec v 0) as [->|V].
        -- change (is0 (Fin 0)) with (Reqb 0 0). rewrite (Reqb_true 0 0 eq_refl). rewrite Ropp_0, exp_0 in Eq'. replace (1 - 1) with 0 in Eq' by lra. rewrite b64_0 in Eq'.
           apply Inj in Eq'. subst q. change (is0 (Fin 0)) with (Reqb 0 0). rewrite (Reqb_true 0 0 eq_refl). reflexivity.
        -- destruct (exponential_pos v) as (q' & Q' & Pq); [destruct Hv as [Hv | Hv]; [exact Hv | congruence] | exact Dv|]. rewrite Eq' in Q'. apply Inj in Q'. subst q'.
           assert (Pv : 0 < v) by (destruct Hv as [Hv | Hv]; [exact Hv | congruence]). rewrite (is0_fin_pos v Pv), (is0_fin_pos q Pq). assert (Lpq : p <= q) by exact (exponential_mono u v p q L Ep' Eq').
           destruct (ratio_unit p q) as (r & Er & Hr & Dr & G); [lra | lra |]. exists r. rewrite Er. split; [reflexivity|]. split; [exact Hr|]. split; [exact Dr|].
           split; [apply le_num_nleb; cbn; apply G; [lra | exact Dp]|].
           intros A B C. specialize (Same A B C). apply Inj in Same. subst u. rewrite Ep' in Eq'. apply Inj in Eq'. subst q.
           rewrite (ratio_same p Pq) in Er. apply Inj in Er. auto.
Qed.
Print Assumptions C102_probabilities.

(** Two vertices of fitness 1 in a group against one of fitness 1: the conditional probability for parameter 0 is 1/2. *)
Lemma one_datum : datum (Fin 1). Proof. apply datum_fin; [lra | apply double_1]. Qed.
Lemma two_datum' : datum (Fin 2). Proof. apply datum_fin; [lra | apply (double_Z 2); lia]. Qed.
Lemma half_b64 : b64 (1 / 2) = Fin (1 / 2).
Proof. rewrite <- two_m1. apply b64_two. lia. Qed.
Example C102_probabilities_case : datum (Fin 0) /\ datum (Fin 1) /\ datum (Fin 2) /\ nleb (Fin 1) (Fin 2) = true /\ nleb (Fin 1) (Fin 1) = true /\
  rcond_p_ij b64 (Fin 0) (Fin 1) (Fin 1) (Fin 1) (Fin 2) (Fin 1) (Fin 1) = Ok (Fin (1 / 2)).
Proof.
  split; [apply datum_fin; [lra | apply double_0]|]. split; [apply one_datum|]. split; [apply two_datum'|].
  split; [apply le_num_nleb; cbn; lra|]. split; [apply le_num_nleb; cbn; lra|].
  unfold rcond_p_ij. rewrite !is0_fin_pos by lra. cbn [orb]. change (is0 (Fin 0)) with (Reqb 0 0). rewrite (Reqb_true 0 0 eq_refl).
  rewrite !(ratio_same 1) by lra. unfold rdiv, rmul. cbn [ndiv]. rewrite Reqb_false by lra. cbn [rnd_num]. rewrite half_b64. cbn [nmul rnd_num].
  rewrite Rmult_1_r, half_b64. cbn [nmul rnd_num]. rewrite Rmult_1_r, half_b64. reflexivity.
Qed.

(** * Sums over groups *)

(** A fitness: a non-negative number of the format up to 2^450 *)
Definition fitness_value (a : num) : Prop := exists w, a = Fin w /\ 0 <= w <= two 450 /\ double w.
Lemma fitness_datum : forall a, fitness_value a -> datum a.
Proof. intros a (w & -> & H & D). exists w. repeat split; [lra | exact D]. Qed.
Lemma multiple_double : forall c, (Z.of_nat c <= 2 ^ 53)%Z -> double (INR c * two 450).
Proof.
  intros c H. rewrite INR_IZR_INZ. destruct (Z.eq_dec (Z.of_nat c) (2 ^ 53)) as [->|].
  - rewrite <- two_Z by lia. rewrite <- two_add. apply double_two. lia.
  - exists (Z.of_nat c), 450%Z. split; [reflexivity|]. split; lia.
Qed.
Definition total_upto (k : nat) (g : nat -> nat) (x : nat -> num) (t : nat -> num) : Prop :=
  forall a, exists u, t a = Fin u /\ 0 <= u <= INR k * two 450 /\ double u /\ forall i, (i < k)%nat -> g i = a -> nleb (x i) (Fin u) = true.
Lemma total_step : forall k g x t, (Z.of_nat (S k) <= 2 ^ 53)%Z -> fitness_value (x k) -> total_upto k g x t ->
  total_upto (S k) g x (radd_at b64 t (g k) (x k)).
Proof.
  intros k g x t Hk (w & Ew & Hw & Dw) T a. destruct (T a) as (u & Eu & Hu & Du & Lu). unfold radd_at, upd.
  pose proof (two_pos 450) as P. assert (Gk : INR (S k) * two 450 = INR k * two 450 + two 450) by (rewrite S_INR; ring).
  destruct (Nat.eqb_spec a (g k)) as [->|Na].
  - rewrite Eu, Ew. unfold radd. cbn [nadd rnd_num].
    destruct (b64_between 0 (INR (S k) * two 450) (u + w) double_0 (multiple_double (S k) Hk)) as (v & Ev & Hv & Dv); [lra|].
    exists v. split; [exact Ev|]. split; [exact Hv|]. split; [exact Dv|]. intros i Hi Gi.
    assert (M : forall r, double r -> r <= u + w -> r <= v).
    { intros r Dr Lr. pose proof (b64_mono r (u + w) Lr) as M. rewrite (b64_fixed r Dr), Ev in M. exact M. }
    apply le_num_nleb. destruct (Nat.eq_dec i k) as [->|].
    + rewrite Ew. cbn. apply M; [exact Dw | lra].
    + specialize (Lu i ltac:(lia) Gi). apply le_num_nleb in Lu. destruct (x i) as [r| | |]; cbn in *; try exact Lu.
      pose proof (M u Du ltac:(lra)). lra.
  - exists u. split; [exact Eu|]. split; [lra|]. split; [exact Du|]. intros i Hi Gi. apply Lu; [|exact Gi].
    destruct (Nat.eq_dec i k) as [->|]; [congruence | lia].
Qed.
Lemma group_totals : forall N g x y, (Z.of_nat N <= 2 ^ 53)%Z -> (forall i, (i < N)%nat -> fitness_value (x i)) -> (forall i, (i < N)%nat -> fitness_value (y i)) ->
  let s := raggregates b64 N g x y in total_upto N g x (agg_p_out s) /\ total_upto N g y (agg_p_in s).
Proof.
  intros N g x y HN Hx Hy s. unfold s, raggregates.
  apply (for_range_count agg (fun k t => total_upto k g x (agg_p_out t) /\ total_upto k g y (agg_p_in t)) N).
  - split; intro a; exists 0; (split; [reflexivity|]); cbn [INR]; (split; [lra|]); (split; [apply double_0|]); intros; lia.
  - intros i t Hi [A B]. cbn [agg_p_out agg_p_in]. split; apply total_step; try assumption; try lia; auto.
Qed.

(** * Measures *)

(** Either self-loops are allowed, or no group is linked to itself: then the dyadic factor of the linked pairs of groups is 1. *)
Definition plain (adj : nat -> list (nat * R)) (sl : bool) : Prop := sl = true \/ forall a, linked adj a a = false.
Lemma plain_z : forall adj sl s a b, plain adj sl -> linked adj a b = true -> rz_block b64 s sl a b = Ok (Fin 1).
Proof.
  intros adj sl s a b P L. unfold rz_block. destruct sl; [reflexivity|]. cbn [negb andb]. destruct (Nat.eqb_spec a b) as [->|]; [|reflexivity].
  destruct P as [P|P]; [discriminate|]. rewrite P in L. discriminate.
Qed.
(** A value, or the error of a division by zero, which does not occur under the condition [C] *)
Definition zde {A} (C : Prop) (Q : A -> Prop) (r : res A) : Prop := match r with Ok a => Q a | Raise e => e = ZeroDivisionError /\ ~ C end.
Lemma range_res_rule : forall A C n (Q : nat -> A -> Prop) (f : nat -> A -> res A) a, Q 0%nat a ->
  (forall i a, (i < n)%nat -> Q i a -> zde C (Q (S i)) (f i a)) -> zde C (Q n) (for_range_res n f a).
Proof.
  intros A C n Q f a H. induction n as [|n IH]; intro K; cbn [for_range_res]; [exact H|].
  assert (I : zde C (Q n) (for_range_res n f a)) by (apply IH; intros; apply K; [lia | assumption]).
  destruct (for_range_res n f a) as [x|e]; cbn [zde bind] in *; [apply K; [lia | exact I] | exact I].
Qed.
(** A positive lower bound of the parameter and the fitnesses that are not 0 keeps the products from being rounded to 0. *)
Definition not_tiny (a : num) : Prop := a = Fin 0 \/ exists w, a = Fin w /\ two (-300) <= w.
Lemma product_not_tiny : forall d X Y, datum d -> datum X -> datum Y -> not_tiny d -> not_tiny X -> not_tiny Y ->
  is0 d = false -> is0 X = false -> is0 Y = false -> is0 (rmul b64 (rmul b64 (rmul b64 d X) Y) (Fin 1)) = false.
Proof.
  intros d X Y Dd DX DY [-> | (w & -> & Tw)] [-> | (v & -> & Tv)] [-> | (u & -> & Tu)] Zd ZX ZY;
    try (change (is0 (Fin 0)) with (Reqb 0 0) in *; rewrite (Reqb_true 0 0 eq_refl) in *; discriminate).
  pose proof (two_pos (-300)). pose proof (two_pos (-600)). pose proof (two_pos (-900)).
  assert (A : amount (rmul b64 (Fin w) (Fin v))) by (apply rmul_amount; [right; exact Dd | lra]).
  assert (A2 : amount (rmul b64 (rmul b64 (Fin w) (Fin v)) (Fin u))) by (apply rmul_amount; [exact A | lra]).
  rewrite rmul_1 by exact A2.
  assert (B : le_num (Fin (two (-900))) (rmul b64 (rmul b64 (Fin w) (Fin v)) (Fin u))).
  { assert (B1 : le_num (Fin (two (-600))) (rmul b64 (Fin w) (Fin v))).
    { replace (Fin (two (-600))) with (rmul b64 (Fin (two (-300))) (Fin (two (-300)))) by (rewrite mul_two; apply b64_two; lia).
      apply rmul_le; [right; apply two_datum; lia | right; exact Dd | cbn; lra | lra | lra]. }
    replace (Fin (two (-900))) with (rmul b64 (Fin (two (-600))) (Fin (two (-300)))) by (rewrite mul_two; apply b64_two; lia).
    apply rmul_le; [right; apply two_datum; lia | exact A | exact B1 | lra | lra]. }
  destruct (rmul b64 (rmul b64 (Fin w) (Fin v)) (Fin u)) as [r| | |]; cbn in B; try contradiction; [|reflexivity]. apply is0_fin_pos. lra.
Qed.

Section Measures.
Variables (d : num) (x y : nat -> num) (N : nat) (g : nat -> nat) (adj : nat -> list (nat * R)) (sl : bool).
Hypothesis Hd : datum d.
Hypothesis Hx : forall i, (i < N)%nat -> fitness_value (x i).
Hypothesis Hy : forall i, (i < N)%nat -> fitness_value (y i).
Hypothesis HN : (Z.of_nat (N * N) <= 2 ^ 53)%Z.
Hypothesis HP : plain adj sl.
Let s := raggregates b64 N g x y.
Definition sizes : Prop := not_tiny d /\ (forall i, (i < N)%nat -> not_tiny (x i)) /\ (forall i, (i < N)%nat -> not_tiny (y i)).
Lemma N_small : (Z.of_nat N <= 2 ^ 53)%Z.
Proof. nia. Qed.
Lemma above : forall a A, datum a -> datum A -> nleb a A = true -> is0 a = false -> not_tiny a -> not_tiny A /\ is0 A = false.
Proof.
  intros a A Da DA L Z T. destruct (lower_datum a A Da DA L Z) as (w & W & -> & -> & Hw & _ & _ & ZA). split; [|exact ZA].
  destruct T as [T | (v & E & Hv)]; [injection T; intro; subst; lra|]. injection E. intro. subst v. right. exists W. split; [reflexivity | lra].
Qed.
Lemma pair_unit : forall i j, (i < N)%nat -> (j < N)%nat ->
  zde sizes unit_double (rcond_p_ij b64 d (x i) (y j) (Fin 1) (agg_p_out s (g i)) (agg_p_in s (g j)) (Fin 1)).
Proof.
  intros i j Hi Hj. destruct (group_totals N g x y N_small Hx Hy) as [To Ti]. fold s in To, Ti.
  destruct (To (g i)) as (X & EX & HX & DX & LX). destruct (Ti (g j)) as (Y & EY & HY & DY & LY). rewrite EX, EY.
  specialize (LX i Hi eq_refl). specialize (LY j Hj eq_refl).
  assert (Dx : datum (x i)) by (apply fitness_datum; auto). assert (Dy : datum (y j)) by (apply fitness_datum; auto).
  assert (DX' : datum (Fin X)) by (exists X; repeat split; [lra | exact DX]). assert (DY' : datum (Fin Y)) by (exists Y; repeat split; [lra | exact DY]).
  pose proof (C102_probabilities d (x i) (y j) (Fin 1) (Fin X) (Fin Y) (Fin 1) Hd Dx Dy one_datum DX' DY' one_datum LX LY ltac:(apply le_num_nleb; cbn; lra)) as K.
  destruct (is0 (x i) || is0 (y j) || is0 (Fin 1)) eqn:E0.
  - rewrite K. exists 0. repeat split; try lra. apply double_0.
  - apply orb_false_iff in E0 as [E0 _]. apply orb_false_iff in E0 as [Zx Zy].
    destruct (negb (is0 d) && is0 _) eqn:E1.
    + rewrite K. split; [reflexivity|]. intros (Td & Tx & Ty). apply andb_true_iff in E1 as [E1 E2]. apply negb_true_iff in E1.
      destruct (above _ _ Dx DX' LX Zx (Tx i Hi)) as [TX ZX]. destruct (above _ _ Dy DY' LY Zy (Ty j Hj)) as [TY ZY].
      rewrite (product_not_tiny d (Fin X) (Fin Y) Hd DX' DY' Td TX TY E1 ZX ZY) in E2. discriminate.
    + destruct K as (p & -> & Hp & Dp & _). exists p. auto.
Qed.

(** The linked pairs *)
Definition link_pair (e : nat * nat) : bool := linked adj (g (fst e)) (g (snd e)) && adm sl (fst e) (snd e).
Definition pairs_upto (i : nat) : nat := length (filter link_pair (list_prod (seq 0 i) (seq 0 N))).
Definition row_upto (i j : nat) : nat := length (filter link_pair (map (pair i) (seq 0 j))).
Lemma row_S : forall i j, row_upto i (S j) = (row_upto i j + if link_pair (i, j) then 1 else 0)%nat.
Proof. intros. unfold row_upto. rewrite seq_S, map_app, filter_app, app_length. cbn [map filter Nat.add]. destruct (link_pair (i, j)); reflexivity. Qed.
Lemma pairs_S : forall i, pairs_upto (S i) = (pairs_upto i + row_upto i N)%nat.
Proof.
  intros. unfold pairs_upto, row_upto. rewrite seq_S. cbn [Nat.add].
  assert (E : forall (A B : Type) (l1 l2 : list A) (m : list B), list_prod (l1 ++ l2) m = list_prod l1 m ++ list_prod l2 m).
  { intros A B l1 l2 m. induction l1 as [|a l1 IH]; [reflexivity|]. cbn [list_prod app]. rewrite IH, app_assoc. reflexivity. }
  rewrite E, filter_app, app_length. cbn [list_prod]. rewrite app_nil_r. reflexivity.
Qed.
Lemma filter_short : forall A (f : A -> bool) l, (length (filter f l) <= length l)%nat.
Proof. intros A f l. induction l as [|a l IH]; cbn; [lia|]. destruct (f a); cbn; lia. Qed.
Lemma pairs_max : forall i j, (i <= N)%nat -> (j <= N)%nat -> (pairs_upto i <= i * N)%nat /\ (row_upto i j <= j)%nat.
Proof.
  intros i j Hi Hj. unfold pairs_upto, row_upto. split.
  - etransitivity; [apply filter_short|]. rewrite prod_length, !seq_length. lia.
  - etransitivity; [apply filter_short|]. rewrite map_length, seq_length. lia.
Qed.
(** A double loop over the pairs that adds a probability for every linked pair *)
Lemma pair_loop : forall A (C : Prop) (Q : nat -> A -> Prop) (f : nat -> nat -> A -> res A) a, Q 0%nat a ->
  (forall i j c a, (i < N)%nat -> (j < N)%nat -> Q c a -> linked adj (g i) (g j) = true -> (Z.of_nat (S c) <= 2 ^ 53)%Z -> zde C (Q (S c)) (f i j a)) ->
  zde C (Q (pairs_upto N)) (for_range_res N (fun i a => for_range_res N (fun j a => if linked adj (g i) (g j) && adm sl i j then f i j a else Ok a) a) a).
Proof.
  intros A C Q f a H0 St. apply (range_res_rule A C N (fun i a => Q (pairs_upto i) a)); [exact H0|]. intros i b Hi Hb.
  rewrite pairs_S. apply (range_res_rule A C N (fun j a => Q (pairs_upto i + row_upto i j)%nat a)).
  - cbn. rewrite Nat.add_0_r. exact Hb.
  - intros j c Hj Hc. rewrite row_S. unfold link_pair. cbn [fst snd]. destruct (linked adj (g i) (g j) && adm sl i j) eqn:E.
    + rewrite Nat.add_assoc, Nat.add_1_r. apply andb_true_iff in E as [E _]. apply St; try assumption.
      destruct (pairs_max i j ltac:(lia) ltac:(lia)). nia.
    + cbn [zde]. rewrite Nat.add_0_r. exact Hc.
Qed.
Lemma edges_range : zde sizes (within (pairs_upto N)) (rcond_exp_edges b64 d x y N g adj sl).
Proof.
  unfold rcond_exp_edges. fold s. apply (pair_loop num sizes within); [exists 0; cbn [INR]; split; [reflexivity | lra]|].
  intros i j c a Hi Hj Ha L Hc. rewrite (plain_z adj sl s _ _ HP L). cbn [bind].
  pose proof (pair_unit i j Hi Hj) as P. destruct (rcond_p_ij _ _ _ _ _ _ _ _) as [p|e]; cbn [zde bind] in *; [|exact P].
  apply add_within; assumption.
Qed.
End Measures.
Lemma plain_of : forall adj sl, (sl = true \/ forall a, ~ In a (map fst (adj a))) -> plain adj sl.
Proof.
  intros adj sl [H|H]; [left; exact H|]. right. intro a. unfold linked. destruct (existsb (Nat.eqb a) (map fst (adj a))) eqn:E; [|reflexivity].
  apply existsb_exists in E as (b & I & E). apply Nat.eqb_eq in E. subst b. contradiction (H a I).
Qed.
Lemma tiny_dec : forall a, datum a -> not_tiny a \/ (a <> Fin 0 /\ nltb a (Fin (two (-300))) = true).
Proof.
  intros a (w & -> & Hw & _). destruct (Req_dec w 0) as [->|N0]; [left; left; reflexivity|]. destruct (Rle_dec (two (-300)) w) as [L|L].
  - left. right. exists w. auto.
  - right. split; [congruence|]. cbn. apply Rltb_true. lra.
Qed.
Lemma below_dec : forall (P Q : nat -> Prop) n, (forall i, (i < n)%nat -> P i \/ Q i) -> (forall i, (i < n)%nat -> P i) \/ exists i, (i < n)%nat /\ Q i.
Proof.
  intros P Q n. induction n as [|n IH]; intro H; [left; intros; lia|].
  destruct IH as [A|(i & Hi & A)]; [intros; apply H; lia | | right; exists i; auto with arith].
  destruct (H n ltac:(lia)) as [B|B]; [left | right; exists n; auto with arith].
  intros i Hi. destruct (Nat.eq_dec i n) as [->|]; [exact B | apply A; lia].
Qed.
Lemma some_tiny : forall d x y N, datum d -> (forall i, (i < N)%nat -> fitness_value (x i)) -> (forall i, (i < N)%nat -> fitness_value (y i)) -> ~ sizes d x y N ->
  let tiny a := a <> Fin 0 /\ nltb a (Fin (two (-300))) = true in tiny d \/ exists i, (i < N)%nat /\ (tiny (x i) \/ tiny (y i)).
Proof.
  intros d x y N Hd Hx Hy H tiny. destruct (tiny_dec d Hd) as [Td|Td]; [|left; exact Td]. right.
  destruct (below_dec (fun i => not_tiny (x i)) (fun i => tiny (x i)) N (fun i Hi => tiny_dec (x i) (fitness_datum _ (Hx i Hi)))) as [A|(i & Hi & A)]; [|exists i; auto].
  destruct (below_dec (fun i => not_tiny (y i)) (fun i => tiny (y i)) N (fun i Hi => tiny_dec (y i) (fitness_datum _ (Hy i Hi)))) as [B|(i & Hi & B)]; [|exists i; auto].
  contradiction H. split; [exact Td|]. auto.
Qed.

(** The expected number of links in double precision, for models with self-loops or without links of a group to itself: a
    number from 0 to the number of pairs of vertices in linked groups.  It can be the error of a division by zero, but
    not if the parameter and every fitness are 0 or at least 2^-300. *)
Theorem C102_edges : forall d x y N g adj sl, datum d -> (forall i, (i < N)%nat -> fitness_value (x i)) -> (forall i, (i < N)%nat -> fitness_value (y i)) ->
  (Z.of_nat (N * N) <= 2 ^ 53)%Z -> (sl = true \/ forall a, ~ In a (map fst (adj a))) ->
  let tiny a := a <> Fin 0 /\ nltb a (Fin (two (-300))) = true in
  let pairs := filter (fun e => existsb (Nat.eqb (g (snd e))) (map fst (adj (g (fst e)))) && (sl || negb (Nat.eqb (fst e) (snd e)))) (list_prod (seq 0 N) (seq 0 N)) in
  (exists e, rcond_exp_edges b64 d x y N g adj sl = Ok (Fin e) /\ 0 <= e <= INR (length pairs)) \/
  rcond_exp_edges b64 d x y N g adj sl = Raise ZeroDivisionError /\ (tiny d \/ exists i, (i < N)%nat /\ (tiny (x i) \/ tiny (y i))).
Proof.
  intros d x y N g adj sl Hd Hx Hy HN HP tiny pairs.
  assert (P : plain adj sl) by (apply plain_of, HP).
  pose proof (edges_range d x y N g adj sl Hd Hx Hy HN P) as E.
  assert (C : pairs_upto N g adj sl N = length pairs) by (unfold pairs_upto, pairs, link_pair; f_equal; apply filter_ext; intros [i j]; cbn [fst snd]; unfold linked, adm; f_equal; apply orb_comm).
  destruct (rcond_exp_edges b64 d x y N g adj sl) as [e|e]; cbn [zde] in E.
  - left. destruct E as (v & -> & Hv). exists v. rewrite <- C. auto.
  - right. destruct E as [-> E]. split; [reflexivity|]. exact (some_tiny d x y N Hd Hx Hy E).
Qed.
Print Assumptions C102_edges.

Example C102_edges_case : let g := fun i : nat => i in let adj := fun a : nat => if Nat.eqb a 0 then [(1%nat, 1)] else [] in
  datum (Fin 0) /\ fitness_value (Fin 1) /\ (forall a, ~ In a (map fst (adj a))) /\ (Z.of_nat (2 * 2) <= 2 ^ 53)%Z /\
  rcond_exp_edges b64 (Fin 0) (fun _ => Fin 1) (fun _ => Fin 1) 2 g adj false = Ok (Fin 1).
Proof.
  split; [apply datum_fin; [lra | apply double_0]|]. split; [exists 1; split; [reflexivity|]; split; [|apply double_1]; pose proof (two_ge1 450 ltac:(lia)); lra|].
  split; [intros [|a]; cbn; [intros [H|[]]; discriminate | auto]|]. split; [lia|].
  assert (S1 : radd b64 (Fin 0) (Fin 1) = Fin 1) by (unfold radd; cbn [nadd rnd_num]; rewrite Rplus_0_l; apply b64_fixed, double_1).
  unfold rcond_exp_edges. cbn [for_range_res bind linked existsb map fst Nat.eqb orb andb adm negb]. unfold raggregates. cbn [for_range agg_p_out agg_p_in].
  unfold radd_at, upd. cbn [Nat.eqb]. rewrite !S1. unfold rz_block. cbn [negb andb Nat.eqb bind]. unfold rcond_p_ij. rewrite !is0_fin_pos by lra. cbn [orb]. change (is0 (Fin 0)) with (Reqb 0 0). rewrite (Reqb_true 0 0 eq_refl).
  rewrite quotients_same by lra. cbn [bind]. rewrite S1. reflexivity.
Qed.

(** The degrees *)
Lemma zde_bind : forall A B C (Q : A -> Prop) (P : B -> Prop) r (k : A -> res B), zde C Q r -> (forall a, Q a -> zde C P (k a)) -> zde C P (bind r k).
Proof. intros A B C Q P [a|e] k H K; cbn in *; [apply K, H | exact H]. Qed.
Section Degrees.
Variables (d : num) (x y : nat -> num) (N : nat) (g : nat -> nat) (adj : nat -> list (nat * R)) (sl : bool).
Hypothesis Hd : datum d.
Hypothesis Hx : forall i, (i < N)%nat -> fitness_value (x i).
Hypothesis Hy : forall i, (i < N)%nat -> fitness_value (y i).
Hypothesis HN : (Z.of_nat (N * N) <= 2 ^ 53)%Z.
Hypothesis HP : plain adj sl.
Let s := raggregates b64 N g x y.

Definition degs_within (c : nat -> nat) (st : (nat -> num) * (nat -> num) * (nat -> num)) : Prop :=
  forall k, (k < N)%nat -> within (c k) (fst (fst st) k) /\ within (c k) (snd (fst st) k) /\ within (c k) (snd st k).
Lemma degs_le : forall c c' st, degs_within c st -> (forall k, c k <= c' k)%nat -> degs_within c' st.
Proof. intros c c' st H L n Hn. destruct (H n Hn) as (A & B & C). repeat split; eapply within_le; eauto. Qed.
Lemma degrees_range : zde (sizes d x y N) (degs_within (fun n => if Nat.ltb n N then N else 0%nat)) (rcond_exp_degrees b64 d x y N g adj sl).
Proof.
  assert (HN1 : (Z.of_nat N <= 2 ^ 53)%Z) by nia. unfold rcond_exp_degrees. fold s.
  apply (range_res_rule _ _ _ (fun i st => degs_within (fun n => if Nat.ltb n i then i else 0%nat) st)).
  - intros n Hn. cbn. repeat split; exists 0; split; try reflexivity; cbn; lra.
  - intros i st Hi H.
    assert (Up : forall st', degs_within (fun n => if Nat.ltb n i then (i + (if Nat.ltb n (S i) then 1 else 0))%nat else if Nat.eqb n i then (S i) else 0%nat) st' ->
      degs_within (fun n => if Nat.ltb n (S i) then S i else 0%nat) st').
    { intros st' Hs. eapply degs_le; [exact Hs|]. intros n. cbv beta. destruct (Nat.ltb_spec n i), (Nat.ltb_spec n (S i)), (Nat.eqb_spec n i); lia. }
    match goal with |- zde ?C _ ?r => assert (G : zde C (degs_within (fun n => if Nat.ltb n i then (i + (if Nat.ltb n (S i) then 1 else 0))%nat else if Nat.eqb n i then (S i) else 0%nat)) r) end.
    2:{ destruct (for_range_res _ _ st); cbn [zde] in *; [apply Up, G | exact G]. }
    apply (range_res_rule _ _ _ (fun j st => degs_within (fun n => if Nat.ltb n i then (i + (if Nat.ltb n j then 1 else 0))%nat else if Nat.eqb n i then j else 0%nat) st)).
    + eapply degs_le; [exact H|]. intros n. cbv beta. destruct (Nat.ltb_spec n i), (Nat.ltb_spec n 0), (Nat.eqb_spec n i); lia.
    + intros j [[e o] h] Hj H'. cbn zeta.
      assert (Keep : degs_within (fun n => if Nat.ltb n i then (i + (if Nat.ltb n (S j) then 1 else 0))%nat else if Nat.eqb n i then S j else 0%nat) (e, o, h)).
      { eapply degs_le; [exact H'|]. intros n. cbv beta. destruct (Nat.ltb_spec n i), (Nat.ltb_spec n j), (Nat.ltb_spec n (S j)), (Nat.eqb_spec n i); lia. }
      destruct (linked adj (g i) (g j)) eqn:L; [|exact Keep].
      destruct (Nat.eqb_spec i j) as [<- | NE]; cbn [negb].
      * destruct sl eqn:Es; [|exact Keep]. eapply zde_bind; [apply (pair_unit d x y N g Hd Hx Hy HN i i Hi Hi)|]. intros p Up'.
        intros n Hn. destruct (H' n Hn) as (A & B & C). cbn [fst snd] in *. unfold radd_at, upd.
        destruct (Nat.eqb_spec n i) as [-> | NE]; [|destruct (Nat.ltb_spec n i), (Nat.ltb_spec n (S i)); try lia; auto].
        rewrite Nat.ltb_irrefl in *. repeat split; apply add_within; auto; lia.
      * rewrite (plain_z adj sl s _ _ HP L). cbn [bind].
        eapply zde_bind; [apply (pair_unit d x y N g Hd Hx Hy HN i j Hi ltac:(lia))|]. intros p Ui.
        assert (Z2 : rz_block b64 s sl (g j) (g i) = Ok (Fin 1)).
        { unfold rz_block. destruct (Nat.eqb_spec (g j) (g i)) as [E|]; [|rewrite andb_false_r; reflexivity]. rewrite E in L. pose proof (plain_z adj sl s _ _ HP L) as K.
          unfold rz_block in K. rewrite Nat.eqb_refl in K. destruct sl; [reflexivity|]. destruct HP as [F|F]; [discriminate|]. rewrite F in L. discriminate. }
        rewrite Z2. cbn [bind]. eapply zde_bind; [apply (pair_unit d x y N g Hd Hx Hy HN j i ltac:(lia) Hi)|]. intros q Uj.
        destruct (either_unit _ _ Ui Uj) as (r & Eq & Hq). rewrite Eq. cbn [zde].
        intros n Hn. destruct (H' n Hn) as (A & B & C). cbn [fst snd] in *. unfold radd_at, upd.
        destruct (Nat.eqb_spec n i) as [-> | Ni].
        -- assert (J : Nat.eqb i j = false) by (apply Nat.eqb_neq; exact NE). assert (J2 : Nat.eqb j i = false) by (apply Nat.eqb_neq; lia). rewrite J, ?J2.
           rewrite Nat.ltb_irrefl in *. repeat split; first [apply add_within'; [assumption | exact Hq | lia] | apply add_within; [assumption | assumption | lia]].
        -- destruct (Nat.eqb_spec n j) as [-> | Nj].
           ++ assert (J : Nat.ltb j i = true) by (apply Nat.ltb_lt; lia). rewrite J in *.
              assert (J2 : Nat.eqb j i = false) by (apply Nat.eqb_neq; exact Ni). rewrite ?J2.
              rewrite Nat.ltb_irrefl in *. assert (J' : Nat.ltb j (S j) = true) by (apply Nat.ltb_lt; lia). rewrite J'.
              rewrite Nat.add_0_r in *. rewrite Nat.add_1_r.
              repeat split; first [apply add_within'; [assumption | exact Hq | lia] | apply add_within; [assumption | assumption | lia]].
           ++ assert (G : (if Nat.ltb n (S j) then 1%nat else 0%nat) = (if Nat.ltb n j then 1%nat else 0%nat)) by (destruct (Nat.ltb_spec n (S j)), (Nat.ltb_spec n j); lia).
              rewrite G. auto.
Qed.
End Degrees.

(** The same for the expected degrees, each at most the number of vertices. *)
Theorem C102_degrees : forall d x y N g adj sl, datum d -> (forall i, (i < N)%nat -> fitness_value (x i)) -> (forall i, (i < N)%nat -> fitness_value (y i)) ->
  (Z.of_nat (N * N) <= 2 ^ 53)%Z -> (sl = true \/ forall a, ~ In a (map fst (adj a))) ->
  let tiny a := a <> Fin 0 /\ nltb a (Fin (two (-300))) = true in
  (exists und out inn, rcond_exp_degrees b64 d x y N g adj sl = Ok (und, out, inn) /\ forall k, (k < N)%nat ->
     exists u o i, und k = Fin u /\ out k = Fin o /\ inn k = Fin i /\ 0 <= u <= INR N /\ 0 <= o <= INR N /\ 0 <= i <= INR N) \/
  rcond_exp_degrees b64 d x y N g adj sl = Raise ZeroDivisionError /\ (tiny d \/ exists i, (i < N)%nat /\ (tiny (x i) \/ tiny (y i))).
Proof.
  intros d x y N g adj sl Hd Hx Hy HN HP tiny.
  pose proof (degrees_range d x y N g adj sl Hd Hx Hy HN (plain_of _ _ HP)) as E.
  destruct (rcond_exp_degrees b64 d x y N g adj sl) as [[[und out] inn]|e]; cbn [zde] in E.
  - left. exists und, out, inn. split; [reflexivity|]. intros k Hk. destruct (E k Hk) as ((u & Eu & Hu) & (o & Eo & Ho) & (i & Ei & Hi)).
    apply Nat.ltb_lt in Hk. rewrite Hk in *. exists u, o, i. cbn [fst snd] in *. repeat split; (assumption || lra).
  - right. destruct E as [-> E]. split; [reflexivity|]. exact (some_tiny d x y N Hd Hx Hy E).
Qed.
Print Assumptions C102_degrees.

Example C102_degrees_case : let g := fun i : nat => i in let adj := fun a : nat => if Nat.eqb a 0 then [(1%nat, 1)] else if Nat.eqb a 1 then [(0%nat, 1)] else [] in
  datum (Fin 0) /\ fitness_value (Fin 1) /\ (forall a, ~ In a (map fst (adj a))) /\ (Z.of_nat (2 * 2) <= 2 ^ 53)%Z /\
  exists und out inn, rcond_exp_degrees b64 (Fin 0) (fun _ => Fin 1) (fun _ => Fin 1) 2 g adj false = Ok (und, out, inn) /\
    (und 0%nat = Fin 1 /\ und 1%nat = Fin 1) /\ (out 0%nat = Fin 1 /\ out 1%nat = Fin 1) /\ inn 0%nat = Fin 1 /\ inn 1%nat = Fin 1.
Proof.
  split; [apply datum_fin; [lra | apply double_0]|]. split; [exists 1; split; [reflexivity|]; split; [|apply double_1]; pose proof (two_ge1 450 ltac:(lia)); lra|].
  split; [intros [|[|a]]; cbn; [intros [H|[]]; discriminate | intros [H|[]]; discriminate | auto]|]. split; [lia|].
  assert (S1 : radd b64 (Fin 0) (Fin 1) = Fin 1) by (unfold radd; cbn [nadd rnd_num]; rewrite Rplus_0_l; apply b64_fixed, double_1).
  assert (S2 : radd b64 (Fin 1) (Fin 1) = Fin 2) by (unfold radd; cbn [nadd rnd_num]; replace (1 + 1) with 2 by lra; apply b64_fixed, (double_Z 2); lia).
  assert (S3 : rsub b64 (Fin 2) (Fin 1) = Fin 1) by (unfold rsub, nsub; cbn [nopp nadd rnd_num]; replace (2 + - (1)) with 1 by lra; apply b64_fixed, double_1).
  eexists _, _, _. split.
  - unfold rcond_exp_degrees. set (s := raggregates b64 2 (fun i => i) (fun _ => Fin 1) (fun _ => Fin 1)).
    assert (A : agg_p_out s 0%nat = Fin 1 /\ agg_p_out s 1%nat = Fin 1 /\ agg_p_in s 0%nat = Fin 1 /\ agg_p_in s 1%nat = Fin 1) by (cbv [s raggregates for_range agg_p_out agg_p_in radd_at upd Nat.eqb]; rewrite S1; auto).
    destruct A as (A0 & A1 & A2 & A3). clearbody s.
    cbn [for_range_res bind linked existsb map fst Nat.eqb orb andb adm negb]. unfold rz_block. cbn [negb andb Nat.eqb bind]. rewrite A0, A1, A2, A3. unfold rcond_p_ij. rewrite !is0_fin_pos by lra. cbn [orb].
    change (is0 (Fin 0)) with (Reqb 0 0). rewrite (Reqb_true 0 0 eq_refl). rewrite !quotients_same by lra. cbn [bind]. rewrite S2, rmul_11, S3. reflexivity.
  - cbn beta. unfold radd_at, upd. cbn [Nat.eqb]. rewrite ?S1. auto.
Qed.

(** * The objective of the fit *)
Lemma threshold : exists w, b64 (/ 10 ^ 12) = Fin w /\ 0 < w < 1.
Proof.
  assert (L : two (-60) <= / 10 ^ 12 <= two (-1)).
  { rewrite two_m1. split.
    - change (-60)%Z with (- (60))%Z. rewrite two_neg, two_Z by lia. apply Rinv_le_contravar; [lra|]. replace (10 ^ 12) with (IZR (10 ^ 12)) by (cbn; lra). apply IZR_le. lia.
    - apply (Rmult_le_reg_l (10 ^ 12)); [lra|]. rewrite Rinv_r by lra. lra. }
  destruct (b64_between (two (-60)) (two (-1)) (/ 10 ^ 12)) as (w & E & Hw & _); [apply double_two; lia | apply double_two; lia | exact L|].
  exists w. split; [exact E|]. rewrite two_m1 in Hw. pose proof (two_pos (-60)). lra.
Qed.
Lemma rmul_fin : forall a b, rmul b64 (Fin a) (Fin b) = b64 (a * b). Proof. reflexivity. Qed.
Lemma fin_between : forall r B, 0 <= r <= B -> double B -> exists v, b64 r = Fin v /\ 0 <= v <= B /\ double v.
Proof. intros r B H DB. destruct (b64_between 0 B r double_0 DB H) as (v & E & Hv & Dv). exists v. auto. Qed.
Lemma jac_unit : forall d x y X Y, datum d -> datum (Fin x) -> datum (Fin y) -> datum (Fin X) -> datum (Fin Y) -> 0 < x <= X -> 0 < y <= Y -> X <= two 505 -> Y <= two 505 ->
  zde (not_tiny (Fin X) /\ not_tiny (Fin Y)) (fun t => unit_double (fst t)) (rcond_p_jac b64 d (Fin x) (Fin y) (Fin 1) (Fin X) (Fin Y) (Fin 1)).
Proof.
  intros d x y X Y (w & -> & Hw & Dw) Dx Dy DX DY Hx Hy HX HY. unfold rcond_p_jac. rewrite !is0_fin_pos by lra. cbn [orb].
  assert (B : X * Y <= two 1010) by (change 1010%Z with (505 + 505)%Z; rewrite two_add; apply Rmult_le_compat; lra).
  assert (B0 : 0 < x * y <= X * Y) by (split; [apply Rmult_lt_0_compat; lra | apply Rmult_le_compat; lra]).
  destruct (fin_between (x * y) (two 1010)) as (a & Ea & Ha & Da); [lra | apply double_two; lia|].
  destruct (fin_between (X * Y) (two 1010)) as (b & Eb & Hb & Db); [lra | apply double_two; lia|].
  assert (Lab : a <= b) by (pose proof (b64_mono (x * y) (X * Y) ltac:(lra)) as M; rewrite Ea, Eb in M; exact M).
  rewrite !(rmul_fin x y), !(rmul_fin X Y), Ea, Eb. rewrite !(rmul_1 (Fin _)) by (right; apply datum_fin; [lra | assumption]).
  cbn zeta. destruct threshold as (h & -> & Hh).
  assert (Q : unit_double (rmul b64 (rmul b64 (rdiv b64 (Fin x) (Fin X)) (rdiv b64 (Fin y) (Fin Y))) (rdiv b64 (Fin 1) (Fin 1)))) by (apply quotients_unit; lra).
  rewrite !(rmul_fin w a), !(rmul_fin w b).
  assert (First : zde (not_tiny (Fin X) /\ not_tiny (Fin Y)) (fun t => unit_double (fst t))
    (do r <- rpdiv b64 (Fin a) (rmul b64 (Fin 2) (Fin b)) ; Ok (rmul b64 (rmul b64 (rdiv b64 (Fin x) (Fin X)) (rdiv b64 (Fin y) (Fin Y))) (rdiv b64 (Fin 1) (Fin 1)), rmul b64 (rsub b64 (Fin (1 / 2)) r) (Fin a)))).
  { unfold rpdiv. destruct (is0 (rmul b64 (Fin 2) (Fin b))) eqn:Z; [|cbn [bind zde fst]; exact Q]. cbn [bind zde]. split; [reflexivity|].
    intros [TX TY]. rewrite rmul_fin in Z. pose proof (two_pos (-300)).
    destruct TX as [TX | (u & TX & HuX)]; [injection TX; intro; lra|]. destruct TY as [TY | (v & TY & HvY)]; [injection TY; intro; lra|].
    injection TX; injection TY; intros; subst u v.
    assert (L1 : two (-600) <= X * Y) by (change (-600)%Z with (-300 + -300)%Z; rewrite two_add; apply Rmult_le_compat; lra).
    assert (L2 : two (-600) <= b) by (pose proof (b64_mono _ _ L1) as M; rewrite (b64_two (-600)), Eb in M by lia; exact M).
    pose proof (two_pos (-600)) as P6.
    assert (L3 : two (-600) <= 2 * b) by lra. pose proof (b64_mono _ _ L3) as M. rewrite (b64_two (-600)) in M by lia.
    destruct (b64 (2 * b)) as [r| | |]; cbn in M; try contradiction; [|discriminate]. rewrite is0_fin_pos in Z by lra. discriminate. }
  destruct (amount_b64 (w * b) ltac:(apply Rmult_le_pos; lra)) as [Edb | (v & Edb & Hv & Dv)].
  - rewrite Edb. change (nopp (rexpm1 b64 (nopp PInf))) with (nopp (rnd_num b64 (nsub (Fin 0) (Fin 1)))). 
    assert (E1 : nopp (rnd_num b64 (nsub (Fin 0) (Fin 1))) = Fin 1).
    { cbn [nsub nopp nadd rnd_num]. rewrite Rplus_0_l, b64_opp, (b64_fixed 1 double_1). cbn [nopp]. f_equal. lra. }
    rewrite E1. cbn [nltb]. rewrite Rltb_false by lra. destruct (amount_b64 (w * a) ltac:(apply Rmult_le_pos; lra)) as [-> | (u & -> & Hu & Du)].
    + cbn [isinf zde fst]. exists 1. repeat split; try lra. apply double_1.
    + cbn [isinf]. destruct (exponential_unit u Hu) as (p & -> & _ & Hp & Dp). cbn [zde fst]. exists p. auto.
  - rewrite Edb. destruct (exponential_unit v Hv) as (q & -> & Eq & Hq & Dq). cbn [nltb]. destruct (Rltb_spec q h) as [L|L]; [exact First|].
    assert (Lm : w * a <= w * b) by (apply Rmult_le_compat_l; lra). pose proof (b64_mono _ _ Lm) as M. rewrite Edb in M.
    destruct (amount_b64 (w * a) ltac:(apply Rmult_le_pos; lra)) as [E | (u & E & Hu & Du)]; rewrite E in M; cbn [le_num] in M; [contradiction|]. rewrite E. cbn [isinf].
    destruct (exponential_unit u Hu) as (p & -> & Ep & Hp & Dp). cbn [zde fst].
    assert (Lpq : p <= q) by exact (exponential_mono u v p q M Ep Eq).
    destruct (ratio_unit p q) as (r & -> & Hr & Dr & _); [lra | lra |]. exists r. auto.
Qed.
Lemma objective_range : forall d x y N g adj sl, datum d -> (forall i, (i < N)%nat -> fitness_value (x i)) -> (forall i, (i < N)%nat -> fitness_value (y i)) ->
  (Z.of_nat (N * N) <= 2 ^ 53)%Z -> plain adj sl ->
  zde ((forall i, (i < N)%nat -> not_tiny (x i)) /\ (forall i, (i < N)%nat -> not_tiny (y i))) (fun fj => within (pairs_upto N g adj sl N) (fst fj)) (rcond_f_jac b64 d x y N g adj sl).
Proof.
  intros d x y N g adj sl Hd Hx Hy HN HP. unfold rcond_f_jac. set (s := raggregates b64 N g x y).
  apply (pair_loop N g adj sl HN (num * num) _ (fun c fj => within c (fst fj))); [exists 0; cbn [INR fst]; split; [reflexivity | lra]|].
  intros i j c a Hi Hj Ha L Hc. rewrite (plain_z adj sl s _ _ HP L). cbn [bind].
  assert (HN1 : (Z.of_nat N <= 2 ^ 53)%Z) by nia.
  destruct (group_totals N g x y HN1 Hx Hy) as [To Ti]. fold s in To, Ti.
  destruct (To (g i)) as (X & EX & HX & DX & LX). destruct (Ti (g j)) as (Y & EY & HY & DY & LY). rewrite EX, EY.
  specialize (LX i Hi eq_refl). specialize (LY j Hj eq_refl).
  assert (Dx : datum (x i)) by (apply fitness_datum; auto). assert (Dy : datum (y j)) by (apply fitness_datum; auto).
  assert (DX' : datum (Fin X)) by (exists X; repeat split; [lra | exact DX]). assert (DY' : datum (Fin Y)) by (exists Y; repeat split; [lra | exact DY]).
  assert (Top : INR N * two 450 <= two 505).
  { apply Rle_trans with (two 53 * two 450); [|rewrite <- two_add; apply two_le; lia]. apply Rmult_le_compat_r; [pose proof (two_pos 450); lra|].
    rewrite INR_IZR_INZ, two_Z by lia. apply IZR_le. lia. }
  eapply zde_bind with (Q := fun t => unit_double (fst t)).
  - destruct (is0 (x i)) eqn:Zx; [|destruct (is0 (y j)) eqn:Zy].
    + unfold rcond_p_jac. rewrite Zx, !orb_true_r. cbn. exists 0. repeat split; try lra. apply double_0.
    + unfold rcond_p_jac. rewrite Zy, !orb_true_r. cbn. exists 0. repeat split; try lra. apply double_0.
    + destruct (lower_datum _ _ Dx DX' LX Zx) as (xv & XV & E1 & E2 & PX & _). destruct (lower_datum _ _ Dy DY' LY Zy) as (yv & YV & E3 & E4 & PY & _).
      injection E2; injection E4; intros; subst XV YV. rewrite E1 in *. rewrite E3 in *.
      pose proof (jac_unit d xv yv X Y Hd Dx Dy DX' DY' PX PY ltac:(lra) ltac:(lra)) as J.
      destruct (rcond_p_jac _ _ _ _ _ _ _ _); cbn [zde] in *; [exact J|]. destruct J as [-> J]. split; [reflexivity|]. intros [Tx Ty]. apply J.
      specialize (Tx i Hi). specialize (Ty j Hj). rewrite E1 in Tx. rewrite E3 in Ty.
      split; [apply (above (Fin xv)) | apply (above (Fin yv))]; assumption.
  - intros [p q] Hp. cbn [zde fst]. apply add_within; assumption.
Qed.

(** The objective of the density fit, under the same conditions: a number from 0 to the number of linked pairs, or the error of
    a division by zero, which does not occur for fitnesses that are 0 or at least 2^-300, whatever the parameter. *)
Theorem C102_objective : forall d x y N g adj sl, datum d -> (forall i, (i < N)%nat -> fitness_value (x i)) -> (forall i, (i < N)%nat -> fitness_value (y i)) ->
  (Z.of_nat (N * N) <= 2 ^ 53)%Z -> (sl = true \/ forall a, ~ In a (map fst (adj a))) ->
  let tiny a := a <> Fin 0 /\ nltb a (Fin (two (-300))) = true in
  let pairs := filter (fun e => existsb (Nat.eqb (g (snd e))) (map fst (adj (g (fst e)))) && (sl || negb (Nat.eqb (fst e) (snd e)))) (list_prod (seq 0 N) (seq 0 N)) in
  (exists f jac, rcond_f_jac b64 d x y N g adj sl = Ok (Fin f, jac) /\ 0 <= f <= INR (length pairs)) \/
  rcond_f_jac b64 d x y N g adj sl = Raise ZeroDivisionError /\ exists i, (i < N)%nat /\ (tiny (x i) \/ tiny (y i)).
Proof.
  intros d x y N g adj sl Hd Hx Hy HN HP tiny pairs. pose proof (objective_range d x y N g adj sl Hd Hx Hy HN (plain_of _ _ HP)) as E.
  assert (C : pairs_upto N g adj sl N = length pairs) by (unfold pairs_upto, pairs, link_pair; f_equal; apply filter_ext; intros [i j]; cbn [fst snd]; unfold linked, adm; f_equal; apply orb_comm).
  destruct (rcond_f_jac b64 d x y N g adj sl) as [[f jac]|e]; cbn [zde fst] in E.
  - left. destruct E as (v & -> & Hv). exists v, jac. rewrite <- C. auto.
  - right. destruct E as [-> E]. split; [reflexivity|].
    destruct (some_tiny (Fin 0) x y N (datum_fin 0 (Rle_refl 0) double_0) Hx Hy) as [[F _]|F]; [|congruence|exact F].
    intros (_ & A & B). apply E. auto.
Qed.
Print Assumptions C102_objective.

Example C102_objective_case : let g := fun i : nat => i in let adj := fun a : nat => if Nat.eqb a 0 then [(1%nat, 1)] else [] in
  datum (Fin 0) /\ fitness_value (Fin 1) /\ (forall a, ~ In a (map fst (adj a))) /\ (Z.of_nat (2 * 2) <= 2 ^ 53)%Z /\
  rcond_f_jac b64 (Fin 0) (fun _ => Fin 1) (fun _ => Fin 1) 2 g adj false = Ok (Fin 1, Fin 0).
Proof.
  destruct C102_edges_case as (D & F & A & Z & _). split; [exact D|]. split; [exact F|]. split; [exact A|]. split; [exact Z|].
  assert (S1 : radd b64 (Fin 0) (Fin 1) = Fin 1) by (unfold radd; cbn [nadd rnd_num]; rewrite Rplus_0_l; apply b64_fixed, double_1).
  assert (S0 : radd b64 (Fin 0) (Fin 0) = Fin 0) by (unfold radd; cbn [nadd rnd_num]; rewrite Rplus_0_l; apply b64_0).
  unfold rcond_f_jac. cbn [for_range_res bind linked existsb map fst Nat.eqb orb andb adm negb]. unfold raggregates. cbn [for_range agg_p_out agg_p_in].
  unfold radd_at, upd. cbn [Nat.eqb]. rewrite !S1. unfold rz_block. cbn [negb andb Nat.eqb bind]. unfold rcond_p_jac. rewrite !is0_fin_pos by lra. cbn [orb].
  rewrite !rmul_11. unfold rmul at 1. cbn [nmul rnd_num]. rewrite Rmult_0_l, b64_0. unfold rexpm1. cbn [nopp]. rewrite nexpm1_fin, Ropp_0, exp_0. replace (1 - 1) with 0 by lra. cbn [rnd_num]. rewrite b64_0. cbn [nopp]. rewrite Ropp_0.
  destruct threshold as (w & -> & Hw). cbn [nltb]. rewrite Rltb_true by lra. unfold rmul at 1. cbn [nmul rnd_num]. replace (2 * 1) with 2 by lra. rewrite (b64_fixed 2) by (apply (double_Z 2); lia).
  unfold rpdiv. rewrite is0_fin_pos by lra. cbn [bind].
  assert (EH : rdiv b64 (Fin 1) (Fin 2) = Fin (1 / 2)) by (unfold rdiv; cbn [ndiv]; rewrite Reqb_false by lra; cbn [rnd_num]; apply half_b64). rewrite EH.
  rewrite quotients_same by lra. unfold rsub, nsub. cbn [nopp nadd rnd_num]. replace (1 / 2 + - (1 / 2)) with 0 by lra. rewrite b64_0. unfold rmul. cbn [nmul rnd_num]. rewrite Rmult_0_l, b64_0.
  cbn [bind fst snd]. rewrite S1, S0. reflexivity.
Qed.

(** * A group linked to itself, without self-loops *)

(** Two vertices in one group that is linked to itself; only the link from the first to the second is possible. *)
Definition pair_out (i : nat) : R := if Nat.eqb i 0 then 1 else 0.
Definition pair_in (t : R) (i : nat) : R := if Nat.eqb i 0 then 1 else t.
Definition one_group (_ : nat) : nat := 0%nat.
Definition to_itself (a : nat) : list (nat * R) := if Nat.eqb a 0 then [(0%nat, 1)] else [].
Lemma one_plus : forall k : Z, (0 <= k <= 2 ^ 52)%Z -> double (1 + IZR k * two (-52)).
Proof.
  intros k Hk. assert (E : 1 = two 52 * two (-52)) by (rewrite <- two_add; symmetry; apply two_0).
  destruct (Z.eq_dec k (2 ^ 52)) as [->|].
  - rewrite <- two_Z, <- two_add by lia. change (52 + -52)%Z with 0%Z. rewrite two_0. replace (1 + 1) with (IZR 2) by (cbn; lra). apply double_Z. lia.
  - exists (2 ^ 52 + k)%Z, (-52)%Z. split; [rewrite plus_IZR, <- two_Z by lia; rewrite Rmult_plus_distr_r, <- E; reflexivity | split; lia].
Qed.
Lemma pair_edges_exact : forall t, 0 < t -> rcond_exp_edges Fin (Fin 0) (fun i => Fin (pair_out i)) (fun i => Fin (pair_in t i)) 2 one_group to_itself false = Ok (Fin 1).
Proof.
  intros t Ht. unfold rcond_exp_edges. cbn [for_range_res bind linked existsb map fst Nat.eqb orb andb adm negb one_group to_itself].
  unfold raggregates. cbn [for_range agg_p_out agg_p_in agg_diag]. unfold radd_at, upd, one_group. cbn [Nat.eqb]. unfold rz_block. cbn [negb andb Nat.eqb agg_p_out agg_p_in agg_diag].
  unfold pair_out, pair_in. cbn [Nat.eqb]. rewrite rpdiv_exact. unfold pdiv, is0. exact_ops. cbn [nadd nmul neqb].
  rewrite Reqb_false by lra. cbn [bind ndiv]. rewrite Reqb_false by lra. cbn [nsub nopp nadd rnd_num]. rewrite !cond_p_exact. cbn [bind].
  set (z := 1 + - _). assert (Ez : z = t / (1 + t)) by (unfold z; field; lra). 
  assert (Pz : 0 < z) by (rewrite Ez; apply Rdiv_lt_0_compat; lra).
  unfold cond_p_ij at 1. change (is0 (Fin t)) with (Reqb t 0). change (is0 (Fin 1)) with (Reqb 1 0). change (is0 (Fin z)) with (Reqb z 0). change (is0 (Fin 0)) with (Reqb 0 0).
  change (is0 (Fin (0 + 1 + 0))) with (Reqb (0 + 1 + 0) 0). change (is0 (Fin (0 + 1 + t))) with (Reqb (0 + 1 + t) 0).
  rewrite (Reqb_true 0 0 eq_refl), !Reqb_false by lra. cbn [orb ndiv]. rewrite !Reqb_false by lra. cbn [nmul nadd].
  unfold cond_p_ij. change (is0 (Fin 0)) with (Reqb 0 0). rewrite (Reqb_true 0 0 eq_refl), !orb_true_r. cbn [orb nadd rnd_num]. f_equal. f_equal. rewrite Ez. field. lra.
Qed.

Lemma mul_eval : forall a b c, double c -> a * b = c -> rmul b64 (Fin a) (Fin b) = Fin c.
Proof. intros a b c D E. unfold rmul. cbn [nmul rnd_num]. rewrite E. apply b64_fixed, D. Qed.
Lemma add_eval : forall a b c, double c -> a + b = c -> radd b64 (Fin a) (Fin b) = Fin c.
Proof. intros a b c D E. unfold radd. cbn [nadd rnd_num]. rewrite E. apply b64_fixed, D. Qed.
Lemma sub_eval : forall a b c, double c -> a - b = c -> rsub b64 (Fin a) (Fin b) = Fin c.
Proof. intros a b c D E. unfold rsub, nsub. cbn [nopp nadd rnd_num]. change (a + - b) with (a - b). rewrite E. apply b64_fixed, D. Qed.
Lemma div_eval : forall a b c, double c -> b <> 0 -> a = c * b -> rdiv b64 (Fin a) (Fin b) = Fin c.
Proof. intros a b c D B E. unfold rdiv. cbn [ndiv]. rewrite Reqb_false by exact B. cbn [rnd_num]. replace (a / b) with c by (rewrite E; field; exact B). apply b64_fixed, D. Qed.
(** The sums for the group, given the rounded sum [Y] of the in-fitnesses *)
Lemma pair_sums : forall t Y, 0 <= t -> radd b64 (Fin 1) (Fin t) = Fin Y ->
  let s := raggregates b64 2 one_group (fun i => Fin (pair_out i)) (fun i => Fin (pair_in t i)) in
  agg_p_out s 0%nat = Fin 1 /\ agg_p_in s 0%nat = Fin Y /\ agg_diag s 0%nat = Fin 1.
Proof.
  intros t Y Ht EY s. unfold s, raggregates. cbn [for_range agg_p_out agg_p_in agg_diag]. unfold radd_at, upd, one_group, pair_out, pair_in. cbn [Nat.eqb].
  rewrite (add_eval 0 1 1 double_1) by lra. rewrite EY, rmul_11. rewrite (add_eval 0 1 1 double_1) by lra. rewrite (mul_eval 0 t 0 double_0) by lra.
  rewrite (add_eval 1 0 1 double_1) by lra. auto.
Qed.
Lemma pair_edges : forall t Y z, 0 < t -> double t -> radd b64 (Fin 1) (Fin t) = Fin Y -> 1 <= Y -> double Y -> rsub b64 (Fin 1) (rdiv b64 (Fin 1) (Fin Y)) = z ->
  rcond_exp_edges b64 (Fin 0) (fun i => Fin (pair_out i)) (fun i => Fin (pair_in t i)) 2 one_group to_itself false =
  Ok (if is0 z then Fin 0 else radd b64 (radd b64 (Fin 0) (rmul b64 (rmul b64 (Fin 1) (rdiv b64 (Fin t) (Fin Y))) (rdiv b64 (Fin 1) z))) (Fin 0)).
Proof.
  intros t Y z Ht Dt EY HY DY Ez. destruct (pair_sums t Y ltac:(lra) EY) as (S1 & S2 & S3). cbn zeta in S1, S2, S3.
  unfold rcond_exp_edges. set (s := raggregates _ _ _ _ _) in *. cbn [for_range_res bind linked existsb map fst Nat.eqb orb andb adm negb one_group to_itself].
  unfold one_group, rz_block. cbn [negb andb Nat.eqb]. rewrite S1, S2, S3. rewrite (mul_eval 1 Y Y DY) by lra. unfold rpdiv. rewrite (is0_fin_pos Y) by lra. cbn [bind].
  rewrite Ez. unfold pair_out, pair_in. cbn [Nat.eqb]. unfold rcond_p_ij. rewrite !is0_fin_pos by lra. change (is0 (Fin 0)) with (Reqb 0 0). rewrite (Reqb_true 0 0 eq_refl).
  rewrite !orb_true_r. cbn [orb]. rewrite !orb_false_r. cbn [bind]. rewrite (ratio_same 1) by lra.
  destruct (is0 z); cbn [bind]; [|reflexivity]. rewrite !(add_eval 0 0 0 double_0) by lra. reflexivity.
Qed.

(** The expected number of links is the certain number 1, whatever the second in-fitness.  In doubles the factor
    1 - diag/(X Y) that excludes the self-loops is the difference of two nearly equal numbers when one vertex has most of the
    fitness: the computed number of links is larger than the number of possible links, or 0. *)
Theorem C102_diagonal_refuted : exists t t', datum (Fin t) /\ datum (Fin t') /\ 0 < t /\ 0 < t' /\
  (forall u, 0 < u -> rcond_exp_edges Fin (Fin 0) (fun i => Fin (pair_out i)) (fun i => Fin (pair_in u i)) 2 one_group to_itself false = Ok (Fin 1)) /\
  rcond_exp_edges b64 (Fin 0) (fun i => Fin (pair_out i)) (fun i => Fin (pair_in t i)) 2 one_group to_itself false = Ok (Fin (5 / 4 - two (-52))) /\
  rcond_exp_edges b64 (Fin 0) (fun i => Fin (pair_out i)) (fun i => Fin (pair_in t' i)) 2 one_group to_itself false = Ok (Fin 0).
Proof.
  pose proof (two_pos (-54)) as P54. pose proof (two_pos (-52)) as P52. pose proof (two_pos (-53)) as P53. pose proof (two_pos (-104)) as P104.
  assert (E54 : two (-52) = 4 * two (-54)) by (change (-52)%Z with (2 + -54)%Z; rewrite two_add; f_equal; rewrite (two_Z 2) by lia; cbn; lra).
  assert (E53 : two (-52) = 2 * two (-53)) by (change (-52)%Z with (1 + -53)%Z; rewrite two_add, two_1; reflexivity).
  assert (E104 : two (-104) = two (-52) * two (-52)) by (change (-104)%Z with (-52 + -52)%Z; apply two_add).
  assert (E1 : two 52 * two (-52) = 1) by (rewrite <- two_add; apply two_0).
  assert (S52 : two (-52) <= / 1000) by (change (-52)%Z with (- (52))%Z; rewrite two_neg; apply Rinv_le_contravar; [lra|]; rewrite two_Z by lia; apply IZR_le; lia).
  exists (5 * two (-54)), (two (-54)).
  assert (D5 : double (5 * two (-54))) by (exists 5%Z, (-54)%Z; repeat split; lia).
  split; [apply datum_fin; [lra | exact D5]|]. split; [apply two_datum; lia|]. split; [lra|]. split; [lra|]. split; [exact pair_edges_exact|]. split.
  - assert (EY : radd b64 (Fin 1) (Fin (5 * two (-54))) = Fin (1 + two (-52))).
    { unfold radd. cbn [nadd rnd_num]. rewrite (b64_eval (1 + 5 * two (-54)) 0 (2 ^ 52 + 1)%Z).
      - f_equal. change (0 - 52)%Z with (-52)%Z. rewrite plus_IZR, <- two_Z by lia. rewrite Rmult_plus_distr_r, E1. lra.
      - rewrite two_0. change (0 + 1)%Z with 1%Z. rewrite two_1. lra.
      - lia.
      - change (52 - 0)%Z with 52%Z. apply near_eval. replace ((1 + 5 * two (-54)) * two 52) with (two 52 + 5 / 4 * (two 52 * two (-52))) by (rewrite E54; lra).
        rewrite E1, plus_IZR, <- two_Z by lia. apply Rabs_def1; lra. }
    assert (DY : double (1 + two (-52))) by (replace (1 + two (-52)) with (1 + IZR 1 * two (-52)) by lra; apply one_plus; lia).
    assert (ER : rdiv b64 (Fin 1) (Fin (1 + two (-52))) = Fin (1 - two (-52))).
    { unfold rdiv. cbn [ndiv]. rewrite Reqb_false by lra. cbn [rnd_num]. rewrite (b64_eval (1 / (1 + two (-52))) (-1) (2 ^ 53 - 2)%Z).
      - f_equal. change (-1 - 52)%Z with (-53)%Z. rewrite minus_IZR, <- two_Z by lia. assert (two 53 * two (-53) = 1) by (rewrite <- two_add; apply two_0). lra.
      - change (-1 + 1)%Z with 0%Z. rewrite two_0, two_m1. split; apply (Rmult_le_reg_r (1 + two (-52))) || apply (Rmult_lt_reg_r (1 + two (-52))); unfold Rdiv; rewrite ?Rmult_assoc, ?Rinv_l by lra; lra.
      - lia.
      - change (52 - -1)%Z with 53%Z. apply near_eval. rewrite minus_IZR, <- two_Z by lia. assert (T : two 53 = 2 * two 52) by (change 53%Z with (1 + 52)%Z; rewrite two_add, two_1; reflexivity).
        replace (1 / (1 + two (-52)) * two 53 - (two 53 - 2)) with (2 * two (-52) / (1 + two (-52))).
        + rewrite Rabs_pos_eq by (apply Rmult_le_pos; [lra | left; apply Rinv_0_lt_compat; lra]). apply (Rmult_lt_reg_r (1 + two (-52))); [lra|]. unfold Rdiv. rewrite Rmult_assoc, Rinv_l by lra. lra.
        + apply (Rmult_eq_reg_r (1 + two (-52))); [|lra]. unfold Rdiv. rewrite Rmult_minus_distr_r. rewrite !Rmult_assoc, Rinv_l by lra.
          replace (/ (1 + two (-52)) * (two 53 * (1 + two (-52)))) with (two 53) by (field; lra). rewrite T. nra. }
    rewrite (pair_edges (5 * two (-54)) (1 + two (-52)) (Fin (two (-52)))); [|lra | exact D5 | exact EY | lra | exact DY | rewrite ER; apply sub_eval; [apply double_two; lia | lra]].
    rewrite is0_fin_pos by lra. f_equal.
    assert (EQ : rdiv b64 (Fin (5 * two (-54))) (Fin (1 + two (-52))) = Fin (IZR (5 * 2 ^ 50 - 1) * two (-104))).
    { unfold rdiv. cbn [ndiv]. rewrite Reqb_false by lra. cbn [rnd_num]. rewrite (b64_eval _ (-52) (5 * 2 ^ 50 - 1)%Z); [reflexivity| | lia |].
      - change (-52 + 1)%Z with (1 + -52)%Z. rewrite two_add, two_1. split; apply (Rmult_le_reg_r (1 + two (-52))) || apply (Rmult_lt_reg_r (1 + two (-52))); unfold Rdiv; rewrite ?Rmult_assoc, ?Rinv_l by lra; nra.
      - change (52 - -52)%Z with (52 + 52)%Z. rewrite two_add. apply near_eval. rewrite minus_IZR, mult_IZR.
        assert (T : two 52 = 4 * IZR (2 ^ 50)) by (rewrite two_Z by lia; rewrite <- (mult_IZR 4); f_equal; lia).
        replace (5 * two (-54) / (1 + two (-52)) * (two 52 * two 52)) with (5 / 4 * (two 52 * two (-52)) * two 52 / (1 + two (-52))) by (rewrite E54; field; lra).
        rewrite E1. replace (5 / 4 * 1 * two 52 / (1 + two (-52)) - (5 * IZR (2 ^ 50) - 1)) with ((- (1 / 4) + two (-52)) / (1 + two (-52))).
        + assert (B : Rabs (- (1 / 4) + two (-52)) <= 1 / 4) by (apply Rabs_le; lra). unfold Rdiv. rewrite Rabs_mult, (Rabs_pos_eq (/ (1 + two (-52)))) by (left; apply Rinv_0_lt_compat; lra).
          apply (Rmult_lt_reg_r (1 + two (-52))); [lra|]. rewrite Rmult_assoc, Rinv_l by lra. lra.
        + apply (Rmult_eq_reg_r (1 + two (-52))); [|lra]. replace ((- (1 / 4) + two (-52)) / (1 + two (-52)) * (1 + two (-52))) with (- (1 / 4) + two (-52)) by (field; lra).
          replace ((5 / 4 * 1 * two 52 / (1 + two (-52)) - (5 * IZR (2 ^ 50) - 1)) * (1 + two (-52))) with (5 / 4 * two 52 - (5 * IZR (2 ^ 50) - 1) * (1 + two (-52))) by (field; lra).
          replace (IZR (2 ^ 50)) with (two 52 / 4) by lra. nra. }
    rewrite EQ. set (m := IZR (5 * 2 ^ 50 - 1)).
    assert (Dm : double (m * two (-104))) by (exists (5 * 2 ^ 50 - 1)%Z, (-104)%Z; repeat split; lia).
    assert (Dm2 : double (m * two (-52))) by (exists (5 * 2 ^ 50 - 1)%Z, (-52)%Z; repeat split; lia).
    rewrite (mul_eval 1 (m * two (-104)) (m * two (-104)) Dm) by lra. rewrite (div_eval 1 (two (-52)) (two 52)); [|apply double_two; lia | lra | lra].
    assert (Em : m * two (-104) * two 52 = m * two (-52)) by (rewrite E104; replace (m * (two (-52) * two (-52)) * two 52) with (m * two (-52) * (two 52 * two (-52))) by ring; rewrite E1; ring).
    rewrite (mul_eval _ _ _ Dm2 Em). rewrite (add_eval 0 _ _ Dm2) by lra. rewrite (add_eval _ 0 _ Dm2) by lra. f_equal.
    unfold m. rewrite minus_IZR, mult_IZR. assert (T : IZR (2 ^ 50) = two 52 / 4) by (rewrite two_Z by lia; replace (2 ^ 52)%Z with (4 * 2 ^ 50)%Z by lia; rewrite mult_IZR; lra). rewrite T. nra.
  - assert (EY : radd b64 (Fin 1) (Fin (two (-54))) = Fin 1) by (unfold radd; cbn [nadd rnd_num]; apply b64_one_plus; lia).
    rewrite (pair_edges (two (-54)) 1 (Fin 0)); [|lra | apply double_two; lia | exact EY | lra | apply double_1 | rewrite (ratio_same 1) by lra; apply sub_eval; [apply double_0 | lra]].
    change (is0 (Fin 0)) with (Reqb 0 0). rewrite (Reqb_true 0 0 eq_refl). reflexivity.
Qed.
Print Assumptions C102_diagonal_refuted.

(** * Small numbers *)

(** Two vertices, each in a group of its own; the group of the first is linked to the group of the second. *)
Definition own_group (i : nat) : nat := i.
Definition first_to_second (a : nat) : list (nat * R) := if Nat.eqb a 0 then [(1%nat, 5)] else [].
Lemma own_sums : forall x, double x -> 0 <= x -> let s := raggregates b64 2 own_group (fun _ => Fin x) (fun _ => Fin x) in
  agg_p_out s 0%nat = Fin x /\ agg_p_in s 1%nat = Fin x.
Proof.
  intros x D H. assert (S1 : radd b64 (Fin 0) (Fin x) = Fin x) by (apply add_eval; [exact D | lra]).
  cbv [raggregates own_group for_range agg_p_out agg_p_in radd_at upd Nat.eqb]. rewrite S1. auto.
Qed.
Lemma small_square : rmul b64 (Fin (two (-600))) (Fin (two (-600))) = Fin 0.
Proof. unfold rmul. cbn [nmul rnd_num]. rewrite <- two_add. apply b64_under. lia. Qed.
Lemma small_product : rmul b64 (rmul b64 (rmul b64 (Fin 1) (Fin (two (-600)))) (Fin (two (-600)))) (Fin 1) = Fin 0.
Proof.
  rewrite (mul_eval 1 (two (-600)) (two (-600))) by (try apply double_two; (lia || lra)). rewrite small_square. apply mul_eval; [apply double_0 | lra].
Qed.
Lemma zero_expm1 : nopp (rexpm1 b64 (nopp (Fin 0))) = Fin 0.
Proof. unfold rexpm1. cbn [nopp]. rewrite nexpm1_fin, Ropp_0, exp_0. replace (1 - 1) with 0 by lra. cbn [rnd_num]. rewrite b64_0. cbn [nopp]. rewrite Ropp_0. reflexivity. Qed.
Lemma zero_is0 : is0 (Fin 0) = true. Proof. change (is0 (Fin 0)) with (Reqb 0 0). apply Reqb_true. reflexivity. Qed.


(** Without rounding the link from the first to the second is certain. *)
Definition certain_row (i : nat) : list nat := if Nat.eqb i 0 then [1%nat] else [].
Lemma own_sums_exact : forall x, let s := raggregates Fin 2 own_group (fun _ => Fin x) (fun _ => Fin x) in
  (agg_p_out s 0%nat = Fin x /\ agg_p_out s 1%nat = Fin x) /\ agg_p_in s 0%nat = Fin x /\ agg_p_in s 1%nat = Fin x.
Proof.
  intros x. cbv [raggregates own_group for_range agg_p_out agg_p_in radd_at upd Nat.eqb radd nadd rnd_num]. rewrite Rplus_0_l. auto.
Qed.
Lemma chance_pos : forall x, 0 < x -> 0 < 1 - exp (- (1 * x * x * 1)).
Proof. intros x H. assert (0 < 1 * x * x * 1) by nra. pose proof (exp_increasing (- (1 * x * x * 1)) 0 ltac:(lra)). rewrite exp_0 in *. lra. Qed.
Lemma link_exact : forall x, 0 < x -> rinv_p_ij Fin (Fin 1) (Fin x) (Fin x) (Fin 1) = Fin (1 - exp (- (1 * x * x * 1))).
Proof.
  intros x H. unfold rinv_p_ij. rewrite !is0_fin_pos by lra. cbn [orb]. exact_ops. cbn [nmul isinf nopp]. rewrite nexpm1_fin. cbn [nopp]. f_equal. lra.
Qed.
Lemma own_edges_exact : forall x, 0 < x -> rcond_exp_edges Fin (Fin 1) (fun _ => Fin x) (fun _ => Fin x) 2 own_group first_to_second false = Ok (Fin 1).
Proof.
  intros x H. destruct (own_sums_exact x) as ((A0 & _) & _ & A1). unfold rcond_exp_edges. set (s := raggregates _ _ _ _ _) in *. clearbody s.
  cbn [for_range_res bind linked existsb map fst Nat.eqb orb andb adm negb own_group first_to_second]. unfold own_group, rz_block. cbn [negb andb Nat.eqb bind]. rewrite A0, A1.
  unfold rcond_p_ij. rewrite !is0_fin_pos by lra. cbn [orb]. exact_ops. cbn [nmul isinf nopp]. rewrite nexpm1_fin. cbn [nopp]. unfold rpdiv.
  pose proof (chance_pos x H). rewrite is0_fin_pos by lra. cbn [bind]. exact_ops. cbn [ndiv]. rewrite Reqb_false by lra. cbn [nadd rnd_num]. f_equal. f_equal. field. lra.
Qed.
Lemma own_sample_exact : forall x, 0 < x -> run_draws (rcond_binary_sample Fin (Fin 1) (fun _ => Fin x) (fun _ => Fin x) 2 own_group first_to_second false) [1 / 2] = Some (Ok [(0, 1)%nat], []).
Proof.
  intros x H. destruct (own_sums_exact x) as ((A0 & _) & _ & A1). unfold rcond_binary_sample. change (macro_links 2 own_group first_to_second) with [(0%nat, 1%nat, 5)].
  cbn [rsample_blocks]. unfold rp_block. rewrite A0, A1. unfold rz_block. cbn [negb andb Nat.eqb bind]. rewrite link_exact by exact H. pose proof (chance_pos x H).
  change (list_prod (members 2 own_group 0) (members 2 own_group 1)) with [(0, 1)%nat]. cbn [rsample_pairs]. change (adm false 0 1) with true. cbv iota.
  unfold rp_pair. rewrite link_exact by exact H. unfold rpdiv. rewrite is0_fin_pos by lra. exact_ops. cbn [ndiv]. rewrite Reqb_false by lra. cbn [pbind run_draws chance].
  replace (_ / (1 - exp (- (1 * x * x * 1)))) with 1 by (field; lra). rewrite Rltb_true by lra. reflexivity.
Qed.
Lemma own_likelihood_exact : forall x, 0 < x -> rcond_log_likelihood Fin (Fin 1) (fun _ => Fin x) (fun _ => Fin x) 2 own_group first_to_second true 2 2 certain_row = Ok (Fin 0).
Proof.
  intros x H. destruct (own_sums_exact x) as ((A0 & A1) & A2 & A3). pose proof (chance_pos x H).
  assert (L : rinv_logp Fin (Fin 1) (Fin x) (Fin x) (Fin 1) = Fin (ln (1 - exp (- (1 * x * x * 1))))).
  { unfold rinv_logp. rewrite !is0_fin_pos by lra. cbn [orb]. exact_ops. cbn [nmul isinf nopp]. rewrite nexpm1_fin. cbn [nopp nlog].
    replace (- (exp (- (1 * x * x * 1)) - 1)) with (1 - exp (- (1 * x * x * 1))) by lra. rewrite Rltb_true by lra. reflexivity. }
  assert (L' : rinv_log1mp Fin (Fin 1) (Fin x) (Fin x) (Fin 1) = Fin (- (1 * x * x * 1))) by (unfold rinv_log1mp; rewrite !is0_fin_pos by lra; reflexivity).
  unfold rcond_log_likelihood. cbn [Nat.eqb andb guard].
  change (max_group 2 own_group) with 2%nat. cbn [seq list_prod map app forallb existsb fst snd own_group first_to_second certain_row Nat.eqb andb orb fold_right].
  unfold own_group. cbn [Nat.eqb]. rewrite (Rltb_true 0 (5 + 0)), (Rltb_false 0 (0 + 0)), !(Rltb_false 0 0) by lra. cbn [Bool.eqb andb negb].
  unfold rlikelihood. cbn [for_flow certain_row Nat.eqb existsb orb]. unfold rlik_body. cbn [adm orb negb andb Nat.eqb]. rewrite L, L'. cbn.
  unfold ragg_likelihood. change (max_group 2 (fun i => i)) with 2%nat. cbn [seq list_prod map app ragg_lik_loop].
  rewrite Rplus_0_l, L, L'. cbn [isinf bind radd rsub nadd nsub nopp rnd_num]. f_equal. f_equal. lra.
Qed.

(** In doubles the product of two fitnesses of size 2^-600 is 0.  The measures then fail although the graph given the
    aggregates is certain. *)
Theorem C102_underflow_refuted : exists x, datum (Fin x) /\ 0 < x /\ let f := fun _ : nat => Fin x in
  (rcond_exp_edges Fin (Fin 1) f f 2 own_group first_to_second false = Ok (Fin 1) /\
   rcond_exp_edges b64 (Fin 1) f f 2 own_group first_to_second false = Raise ZeroDivisionError) /\
  (run_draws (rcond_binary_sample Fin (Fin 1) f f 2 own_group first_to_second false) [1 / 2] = Some (Ok [(0, 1)%nat], []) /\
   rcond_binary_sample b64 (Fin 1) f f 2 own_group first_to_second false = Ret (Raise ZeroDivisionError)) /\
  (rcond_log_likelihood Fin (Fin 1) f f 2 own_group first_to_second true 2 2 certain_row = Ok (Fin 0) /\
   rcond_log_likelihood b64 (Fin 1) f f 2 own_group first_to_second true 2 2 certain_row = Ok NaN) /\
  rcond_f_jac b64 (Fin 0) f f 2 own_group first_to_second false = Raise ZeroDivisionError.
Proof.
  pose proof (two_pos (-600)) as P. exists (two (-600)). split; [apply two_datum; lia|]. split; [exact P|]. intro f.
  pose proof (double_two (-600) ltac:(lia)) as D. destruct (own_sums _ D ltac:(lra)) as (A0 & A1). fold f in A0, A1.
  split; [|split; [|split]].
  - split; [apply own_edges_exact, P|]. unfold rcond_exp_edges. set (s := raggregates _ _ _ _ _) in *. clearbody s.
    cbn [for_range_res bind linked existsb map fst Nat.eqb orb andb adm negb own_group first_to_second]. unfold own_group, rz_block. cbn [negb andb Nat.eqb bind]. rewrite A0, A1. unfold f.
    unfold rcond_p_ij. rewrite !is0_fin_pos by lra. cbn [orb]. rewrite small_product. cbn [isinf]. rewrite zero_expm1. unfold rpdiv. rewrite zero_is0. reflexivity.
  - split; [apply own_sample_exact, P|]. unfold rcond_binary_sample. change (macro_links 2 own_group first_to_second) with [(0%nat, 1%nat, 5)].
    cbn [rsample_blocks]. unfold rp_block. rewrite A0, A1. unfold rz_block. cbn [negb andb Nat.eqb bind]. change (list_prod (members 2 own_group 0) (members 2 own_group 1)) with [(0, 1)%nat].
    cbn [rsample_pairs]. change (adm false 0 1) with true. cbv iota. unfold rp_pair, f. unfold rinv_p_ij. rewrite !is0_fin_pos by lra. cbn [orb]. rewrite small_product. cbn [isinf]. rewrite zero_expm1.
    unfold rpdiv. rewrite zero_is0. reflexivity.
  - split; [apply own_likelihood_exact, P|].
    assert (B : forall a, (a < 2)%nat -> agg_p_out (raggregates b64 2 own_group f f) a = Fin (two (-600)) /\ agg_p_in (raggregates b64 2 own_group f f) a = Fin (two (-600))).
    { intros [|[|a]] Ha; [| |lia]; unfold f; cbv [raggregates own_group for_range agg_p_out agg_p_in radd_at upd Nat.eqb]; rewrite (add_eval 0 _ _ D) by lra; auto. }
    destruct (B 0%nat ltac:(lia)) as (B0 & B1). destruct (B 1%nat ltac:(lia)) as (B2 & B3). clear B A0 A1.
    assert (L : rinv_logp b64 (Fin 1) (Fin (two (-600))) (Fin (two (-600))) (Fin 1) = NInf).
    { unfold rinv_logp. rewrite !is0_fin_pos by lra. cbn [orb]. rewrite small_product. cbn [isinf]. rewrite zero_expm1. unfold rlog. cbn [nlog]. rewrite (Rltb_false 0 0), (Reqb_true 0 0 eq_refl) by lra. reflexivity. }
    assert (L' : rinv_log1mp b64 (Fin 1) (Fin (two (-600))) (Fin (two (-600))) (Fin 1) = Fin 0).
    { unfold rinv_log1mp. rewrite !is0_fin_pos by lra. cbn [orb]. rewrite small_product. cbn [isinf nopp]. rewrite Ropp_0. reflexivity. }
    unfold rcond_log_likelihood. cbn [Nat.eqb andb guard].
    change (max_group 2 own_group) with 2%nat. cbn [seq list_prod map app forallb existsb fst snd own_group first_to_second certain_row Nat.eqb andb orb fold_right].
    rewrite (Rltb_true 0 (5 + 0)), (Rltb_false 0 (0 + 0)), !(Rltb_false 0 0) by lra. cbn [Bool.eqb andb negb].
    assert (R0 : radd b64 (Fin 0) (Fin 0) = Fin 0) by (apply add_eval; [apply double_0 | lra]).
    match goal with |- bind (ragg_likelihood _ _ _ _ _ _ _ ?A) _ = _ => assert (AG : ragg_likelihood b64 (Fin 1) f f 2 own_group true A = Ok NInf) end.
    { unfold ragg_likelihood. change (max_group 2 own_group) with 2%nat. cbn [seq list_prod map app ragg_lik_loop]. unfold rz_block. cbn [negb andb orb bind]. rewrite !B0, !B1, !B3, !L, !L'. cbn [isinf]. reflexivity. }
    rewrite AG. cbn [bind].
    match goal with |- Ok (rsub _ ?l _) = _ => assert (LK : l = NInf) end.
    { unfold rlikelihood, f. set (lp := fun i j : nat => rinv_logp _ _ _ _ _). set (lq := fun i j : nat => rinv_log1mp _ _ _ _ _).
      assert (ELp : forall i j, lp i j = NInf) by (intros; apply L). assert (ELq : forall i j, lq i j = Fin 0) by (intros; apply L'). clearbody lp lq.
      cbn [for_flow certain_row Nat.eqb existsb orb]. unfold rlik_body. cbn [adm orb negb andb Nat.eqb]. rewrite !ELp, !ELq. cbn [isinf]. reflexivity. }
    rewrite LK. reflexivity.
  - unfold rcond_f_jac. set (s := raggregates _ _ _ _ _) in *. clearbody s.
    cbn [for_range_res bind linked existsb map fst Nat.eqb orb andb adm negb own_group first_to_second]. unfold own_group, rz_block. cbn [negb andb Nat.eqb bind]. rewrite A0, A1. unfold f.
    unfold rcond_p_jac. rewrite !is0_fin_pos by lra. cbn [orb]. rewrite small_square, !(mul_eval 0 1 0 double_0), !(mul_eval 0 0 0 double_0), (mul_eval 2 0 0 double_0) by lra. rewrite zero_expm1.
    destruct threshold as (w & -> & Hw). cbn [nltb]. rewrite Rltb_true by lra. unfold rpdiv. rewrite zero_is0. reflexivity.
Qed.
Print Assumptions C102_underflow_refuted.

(** * Samples *)

Lemma NoDup_app_of : forall A (l m : list A), NoDup l -> NoDup m -> (forall e, In e l -> In e m -> False) -> NoDup (l ++ m).
Proof.
  intros A l m. induction l as [|a l IH]; intros Hl Hm H; [exact Hm|]. inversion Hl as [|? ? NI Hl']; subst. cbn [app]. constructor.
  - intro I. apply in_app_or in I as [I | I]; [exact (NI I) | exact (H a (or_introl eq_refl) I)].
  - apply IH; [exact Hl' | exact Hm | intros e I1 I2; exact (H e (or_intror I1) I2)].
Qed.
Lemma nodup_prod : forall (l m : list nat), NoDup l -> NoDup m -> NoDup (list_prod l m).
Proof.
  induction l as [|a l IH]; intros m Hl Hm; cbn [list_prod]; [constructor|]. inversion Hl as [|? ? NI Hl']; subst. apply NoDup_app_of; [|apply IH; assumption|].
  - apply FinFun.Injective_map_NoDup; [intros u v E; injection E; auto | exact Hm].
  - intros [u v] I1 I2. apply in_map_iff in I1 as (w & E & _). injection E as <- <-. apply in_prod_iff in I2 as [I2 _]. exact (NI I2).
Qed.
Section Sound.
Variables (d : num) (x y : nat -> num) (N : nat) (g : nat -> nat) (sl : bool).
Variables (F : Type) (pos : F -> nat * nat).
Definition drawable (e : nat * nat) : Prop := adm sl (fst e) (snd e) = true /\ rp_pair b64 d x y (fst e) (snd e) <> Fin 0.
Lemma quotient_zero : forall q r, rpdiv b64 (Fin 0) q = Ok r -> chance r = 0.
Proof.
  intros q r. unfold rpdiv. destruct (is0 q) eqn:Z; [discriminate|]. intro E. injection E as <-. unfold rdiv. destruct q as [w| | |]; cbn [ndiv rnd_num chance]; try reflexivity.
  - change (is0 (Fin w)) with (Reqb w 0) in Z. rewrite Z. cbn [rnd_num]. replace (0 / w) with 0 by (unfold Rdiv; ring). rewrite b64_0. reflexivity.
  - rewrite b64_0. reflexivity.
  - rewrite b64_0. reflexivity.
Qed.
Lemma zde_rpdiv : forall a b e, rpdiv b64 a b = Raise e -> e = ZeroDivisionError.
Proof. intros a b e. unfold rpdiv. destruct (is0 b); intro E; [injection E as <-; reflexivity | discriminate]. Qed.
Lemma pairs_sound : forall (mark : nat * nat -> res F), (forall e m, mark e = Ok m -> pos m = e) -> (forall e ex, mark e = Raise ex -> ex = ZeroDivisionError) ->
  forall l acc b pn us r rest, Forall (fun u => 0 <= u) us -> run_draws (rsample_pairs b64 d x y sl mark l acc b pn) us = Some (r, rest) ->
  match r with
  | Raise e => e = ZeroDivisionError
  | Ok L => exists new, L = acc ++ new /\ (forall m, In m new -> In (pos m) l /\ drawable (pos m)) /\ (NoDup l -> NoDup (map pos new))
  end.
Proof.
  intros mark HM HE. induction l as [|[i j] l IH]; intros acc b pn us r rest Hu E; cbn [rsample_pairs] in E.
  - cbn [run_draws] in E. injection E as <- <-. exists []. rewrite app_nil_r. split; [reflexivity|]. split; [intros m []|]. constructor.
  - assert (WK : match r with Raise e => e = ZeroDivisionError | Ok L => exists new, L = acc ++ new /\ (forall m, In m new -> In (pos m) l /\ drawable (pos m)) /\ (NoDup l -> NoDup (map pos new)) end ->
      match r with Raise e => e = ZeroDivisionError | Ok L => exists new, L = acc ++ new /\ (forall m, In m new -> In (pos m) ((i, j) :: l) /\ drawable (pos m)) /\ (NoDup ((i, j) :: l) -> NoDup (map pos new)) end).
    { destruct r as [L|e]; [|auto]. intros (new & -> & A & B). exists new. split; [reflexivity|]. split; [intros m Hm; split; [right|]; apply A, Hm | intro ND; inversion ND; auto]. }
    destruct (adm sl i j) eqn:AD; [|apply WK, (IH _ _ _ _ _ _ Hu E)].
    destruct (if b then Ok (rp_pair b64 d x y i j) else rpdiv b64 (rp_pair b64 d x y i j) pn) as [ps|e] eqn:EP.
    + cbn [run_draws] in E. destruct us as [|u us]; [discriminate|]. inversion Hu as [|? ? Hu0 Hu1]; subst. destruct (Rltb_spec u (chance ps)) as [Lt|Ge].
      * assert (DR : drawable (i, j)).
        { split; [exact AD|]. cbn [fst snd]. intro Z. rewrite Z in EP. destruct b; [injection EP as <-; cbn [chance] in Lt; lra|]. rewrite (quotient_zero _ _ EP) in Lt. lra. }
        destruct (mark (i, j)) as [m|ex] eqn:MK; [|cbn [run_draws] in E; injection E as <- <-; exact (HE _ _ MK)].
        specialize (IH _ _ _ _ _ _ Hu1 E). destruct r as [L|e]; [|exact IH]. destruct IH as (new & -> & A & B). exists (m :: new). rewrite <- app_assoc. split; [reflexivity|].
        split; [intros m' [<- | Hm]; [rewrite (HM _ _ MK); split; [left; reflexivity | exact DR] | split; [right|]; apply A, Hm]|].
        intro ND. inversion ND as [|? ? NI ND']; subst. cbn [map]. constructor; [|auto]. rewrite (HM _ _ MK). intro I. apply in_map_iff in I as (m' & Em & Im). apply NI. rewrite <- Em. apply A, Im.
      * destruct (rpdiv b64 (rsub b64 (Fin 1) pn) (rsub b64 (Fin 1) (rp_pair b64 d x y i j))) as [q|e] eqn:EQ.
        -- apply WK, (IH _ _ _ _ _ _ Hu1 E).
        -- cbn [run_draws] in E. injection E as <- <-. exact (zde_rpdiv _ _ _ EQ).
    + cbn [run_draws] in E. injection E as <- <-. destruct b; [discriminate | exact (zde_rpdiv _ _ _ EP)].
Qed.
Lemma in_members : forall a i, In i (members N g a) <-> (i < N)%nat /\ g i = a.
Proof. intros a i. unfold members. rewrite filter_In, in_seq, Nat.eqb_eq. split; intros [A B]; split; (exact B || lia). Qed.
Lemma members_nodup : forall a, NoDup (members N g a).
Proof. intro a. apply NoDup_filter, seq_NoDup. Qed.
Lemma zde_rz : forall s a b e, rz_block b64 s sl a b = Raise e -> e = ZeroDivisionError.
Proof. intros s a b e. unfold rz_block. destruct (negb sl && Nat.eqb a b); [|discriminate]. destruct (rpdiv b64 _ _) eqn:E; cbn [bind]; [discriminate|]. intro H. injection H as <-. exact (zde_rpdiv _ _ _ E). Qed.
Lemma run_rest : forall A (m : prog A) us a rest, Forall (fun u => 0 <= u) us -> run_draws m us = Some (a, rest) -> Forall (fun u => 0 <= u) rest.
Proof. exact rest_nonneg. Qed.
Lemma blocks_sound : forall (mark : num -> nat * nat -> res F) finish, (forall pn e m, mark pn e = Ok m -> pos m = e) -> (forall pn e ex, mark pn e = Raise ex -> ex = ZeroDivisionError) ->
  (forall w l l', finish w l = Ok l' -> map pos l' = map pos l) -> (forall w l e, finish w l = Raise e -> e = ZeroDivisionError) ->
  forall bl acc us r rest, Forall (fun u => 0 <= u) us -> run_draws (rsample_blocks b64 d x y N g sl mark finish bl acc) us = Some (r, rest) ->
  match r with
  | Raise e => e = ZeroDivisionError
  | Ok L => exists new, L = acc ++ new /\ (forall m, In m new -> (exists w, In (g (fst (pos m)), g (snd (pos m)), w) bl) /\ (fst (pos m) < N)%nat /\ (snd (pos m) < N)%nat /\ drawable (pos m)) /\
      (NoDup (map fst bl) -> NoDup (map pos new))
  end.
Proof.
  intros mark finish M1 M2 F1 F2. induction bl as [|[[a b] w] bl IH]; intros acc us r rest Hu E; cbn [rsample_blocks] in E.
  - cbn [run_draws] in E. injection E as <- <-. exists []. rewrite app_nil_r. split; [reflexivity|]. split; [intros m []|]. constructor.
  - destruct (rp_block b64 d x y N g sl a b) as [pn|e] eqn:EB.
    2: { cbn [run_draws] in E. injection E as <- <-. unfold rp_block in EB. destruct (rz_block b64 _ sl a b) as [z|e'] eqn:EZ; cbn [bind] in EB; [discriminate|]. injection EB as <-. exact (zde_rz _ _ _ _ EZ). }
    rewrite run_bind in E. destruct (run_draws (rsample_pairs _ _ _ _ _ _ _ _ _ _) us) as [[q us']|] eqn:EP; [|discriminate].
    pose proof (rest_nonneg _ _ _ _ _ Hu EP) as Hu'. pose proof (pairs_sound (mark pn) (M1 pn) (M2 pn) _ _ _ _ _ _ _ Hu EP) as K.
    destruct q as [links|e]; [|cbn [run_draws] in E; injection E as <- <-; exact K]. destruct K as (new & EL & A & B). cbn [app] in EL. subst links.
    destruct (finish w new) as [l'|e] eqn:EF; [|cbn [run_draws] in E; injection E as <- <-; exact (F2 _ _ _ EF)].
    specialize (IH _ _ _ _ Hu' E). destruct r as [L|e]; [|exact IH]. destruct IH as (new' & -> & A' & B'). exists (l' ++ new'). rewrite app_assoc. split; [reflexivity|].
    assert (AB : forall m, In m l' -> g (fst (pos m)) = a /\ g (snd (pos m)) = b /\ (fst (pos m) < N)%nat /\ (snd (pos m) < N)%nat /\ drawable (pos m)).
    { intros m Hm. assert (I : In (pos m) (map pos new)) by (rewrite <- (F1 _ _ _ EF); apply in_map, Hm). apply in_map_iff in I as (m' & Em & Im). rewrite <- Em. destruct (A m' Im) as [I2 D].
      destruct (pos m') as [i j]. apply in_prod_iff in I2 as [I3 I4]. apply in_members in I3 as [I3 I3']. apply in_members in I4 as [I4 I4']. cbn [fst snd]. auto. }
    split.
    + intros m Hm. apply in_app_or in Hm as [Hm | Hm].
      * destruct (AB m Hm) as (Ea & Eb & K). split; [exists w; left; rewrite Ea, Eb; reflexivity | exact K].
      * destruct (A' m Hm) as ((w' & I) & K). split; [exists w'; right; exact I | exact K].
    + intro ND. cbn [map fst] in ND. inversion ND as [|? ? NI ND']; subst. rewrite map_app. rewrite (F1 _ _ _ EF) in *.
      apply NoDup_app_of; [apply B, nodup_prod; apply members_nodup | auto |].
      intros e I1 I2. rewrite <- (F1 _ _ _ EF) in I1. apply in_map_iff in I1 as (m1 & <- & I1). apply in_map_iff in I2 as (m2 & Em & I2). destruct (AB m1 I1) as (Ea & Eb & _). destruct (A' m2 I2) as ((w' & I) & _).
      rewrite Em, Ea, Eb in I. apply NI. apply (in_map fst) in I. exact I.
Qed.
End Sound.

(** What can be drawn: links between vertices of linked groups, other than self-loops where these are excluded, whose
    computed probability is not 0; no link is drawn twice.  The only exception is that of a zero divisor. *)
Theorem C102_sample : forall d x y N g adj sl us rest, Forall (fun u => 0 <= u) us ->
  let possible (e : nat * nat) := (fst e < N)%nat /\ (snd e < N)%nat /\ In (g (snd e)) (map fst (adj (g (fst e)))) /\ (sl = true \/ fst e <> snd e) /\
    rinv_p_ij b64 d (x (fst e)) (y (snd e)) (Fin 1) <> Fin 0 in
  let fine L := (forall e, In e L -> possible e) /\ ((forall a, NoDup (map fst (adj a))) -> NoDup L) in
  (forall r, run_draws (rcond_binary_sample b64 d x y N g adj sl) us = Some (r, rest) ->
     match r with Ok L => fine L | Raise e => e = ZeroDivisionError end) /\
  (forall so si r, run_draws (rcond_wagg_sample b64 d x y N g adj sl so si) us = Some (r, rest) ->
     match r with Ok L => fine (map fst L) | Raise e => e = ZeroDivisionError end) /\
  (forall so si m r, rcond_cremb_sample b64 d x y N g adj sl so si = Ok m -> run_draws m us = Some (r, rest) ->
     match r with Ok L => fine (map fst L) | Raise e => e = ZeroDivisionError end).
Proof.
  intros d x y N g adj sl us rest Hu possible fine.
  assert (MN : forall M, (forall a, NoDup (map fst (adj a))) -> NoDup (map fst (flat_map (fun a => map (fun e => (a, fst e, snd e)) (adj a)) M)) \/ ~ NoDup M).
  { intros M H. induction M as [|a M IH]; cbn [flat_map map]; [left; constructor|].
    destruct IH as [IH | IH]; [|right; intro ND; inversion ND; auto]. destruct (in_dec Nat.eq_dec a M) as [I | I]; [right; intro ND; inversion ND; auto|]. left. rewrite map_app. apply NoDup_app_of; [|exact IH|].
    - rewrite map_map. cbn [fst]. rewrite <- (map_map fst (fun b => (a, b))). apply FinFun.Injective_map_NoDup; [intros u v E; injection E; auto | apply H].
    - intros e I1 I2. rewrite map_map in I1. apply in_map_iff in I1 as (u & <- & _). apply in_map_iff in I2 as ([[a' b'] w] & E & I2). cbn [fst] in E. injection E as -> ->. apply in_flat_map in I2 as (a2 & Ia & I2).
      apply in_map_iff in I2 as (v & E & _). injection E as Ea _ _. subst a2. exact (I Ia). }
  assert (ML : (forall a, NoDup (map fst (adj a))) -> NoDup (map fst (macro_links N g adj))).
  { intro H. destruct (MN (seq 0 (max_group N g)) H) as [K | K]; [exact K | exfalso; apply K, seq_NoDup]. }
  assert (IL : forall a b w, In (a, b, w) (macro_links N g adj) -> In b (map fst (adj a))).
  { intros a b w I. apply in_flat_map in I as (a' & _ & I). apply in_map_iff in I as (e & E & I). injection E as <- <- <-. apply in_map, I. }
  assert (CORE : forall F (pos : F -> nat * nat) new, (forall m, In m new -> (exists w, In (g (fst (pos m)), g (snd (pos m)), w) (macro_links N g adj)) /\ (fst (pos m) < N)%nat /\ (snd (pos m) < N)%nat /\ drawable d x y sl (pos m)) ->
      (NoDup (map fst (macro_links N g adj)) -> NoDup (map pos new)) -> fine (map pos new)).
  { intros F pos new A B. split; [|intro H; apply B, ML, H]. intros e I. apply in_map_iff in I as (m & <- & I). destruct (A m I) as ((w & Iw) & Hi & Hj & Ad & Pp). unfold possible. split; [exact Hi|]. split; [exact Hj|]. split; [exact (IL _ _ _ Iw)|].
    split; [|exact Pp]. unfold adm in Ad. destruct sl; [left; reflexivity | right; intro E; rewrite E, Nat.eqb_refl in Ad; discriminate]. }
  split; [|split].
  - intros r E. unfold rcond_binary_sample in E. apply (blocks_sound d x y N g sl (nat * nat) (fun e => e)) in E; [|intros ? ? ? H; injection H; auto | discriminate | intros ? ? ? H; injection H as <-; reflexivity | discriminate | exact Hu].
    destruct r as [L|e]; [|exact E]. destruct E as (new & -> & A & B). cbn [app]. rewrite <- (map_id new). apply (CORE _ (fun e => e)); assumption.
  - intros so si r E. unfold rcond_wagg_sample in E. apply (blocks_sound d x y N g sl (nat * nat * num) fst) in E; [| intros ? [? ?] ? H; injection H as <-; reflexivity | discriminate | | | exact Hu].
    + destruct r as [L|e]; [|exact E]. destruct E as (new & -> & A & B). cbn [app]. apply CORE; assumption.
    + intros w l l' H. unfold rwagg_finish in H. destruct l; [injection H as <-; reflexivity|]. destruct (is0 _); [discriminate|]. injection H as <-. cbn [map]. f_equal. rewrite map_map. reflexivity.
    + intros w l e H. unfold rwagg_finish in H. destruct l; [discriminate|]. destruct (is0 _); [injection H as <-; reflexivity | discriminate].
  - intros so si m r Em E. unfold rcond_cremb_sample in Em. destruct (is0 _); [discriminate|]. unfold guard in Em. destruct (nltb _ _); [|discriminate]. injection Em as <-.
    apply (blocks_sound d x y N g sl (nat * nat * num) fst) in E; [| | | intros ? ? ? H; injection H as <-; reflexivity | discriminate | exact Hu].
    + destruct r as [L|e]; [|exact E]. destruct E as (new & -> & A & B). cbn [app]. apply CORE; assumption.
    + intros pn [i j] m H. cbn [fst snd] in H. destruct (rpdiv b64 _ pn); cbn [bind] in H; [|discriminate]. destruct (rpdiv b64 _ _) in H; cbn [bind] in H; [|discriminate]. injection H as <-. reflexivity.
    + intros pn [i j] e H. cbn [fst snd] in H. destruct (rpdiv b64 _ pn) eqn:E1; cbn [bind] in H; [|injection H as <-; exact (zde_rpdiv _ _ _ E1)].
      destruct (rpdiv b64 _ _) eqn:E2 in H; cbn [bind] in H; [discriminate|]. injection H as <-. exact (zde_rpdiv _ _ _ E2).
Qed.
Print Assumptions C102_sample.
(* A case: [C102_certain_case] below, one draw and one link. *)

(** * Groups of one vertex *)
Lemma pair_positive : forall d x y, datum d -> datum x -> datum y -> not_tiny d -> not_tiny x -> not_tiny y -> is0 d = false -> is0 x = false -> is0 y = false ->
  exists p, rinv_p_ij b64 d x y (Fin 1) = Fin p /\ 0 < p.
Proof.
  intros d x y Dd Dx Dy Td Tx Ty Zd Zx Zy. pose proof (product_not_tiny d x y Dd Dx Dy Td Tx Ty Zd Zx Zy) as Z. unfold rinv_p_ij. rewrite Zx, Zy, Zd. rewrite is0_fin_pos by lra. cbn [orb].
  assert (A : amount (rmul b64 (rmul b64 (rmul b64 d x) y) (Fin 1))).
  { destruct Dx as (x' & -> & Hx' & DDx). destruct Dy as (y' & -> & Hy' & DDy).
    change (is0 (Fin x')) with (Reqb x' 0) in Zx. change (is0 (Fin y')) with (Reqb y' 0) in Zy. destruct (Reqb_spec x' 0); [discriminate|]. destruct (Reqb_spec y' 0); [discriminate|].
    repeat (apply rmul_amount; [|lra]). right. exact Dd. }
  destruct A as [E | (t & E & Ht & Dt)]; rewrite E in *; cbn [isinf]; [exists 1; split; [reflexivity | lra]|].
  change (is0 (Fin t)) with (Reqb t 0) in Z. destruct (Reqb_spec t 0) as [|NZ]; [discriminate|].
  destruct (exponential_unit t Ht) as (p & E1 & E2 & _). destruct (exponential_pos t ltac:(lra) Dt) as (q & E3 & Hq). exists p. split; [exact E1|]. congruence.
Qed.
Definition single (N : nat) (g : nat -> nat) : Prop := forall i j, (i < N)%nat -> (j < N)%nat -> g i = g j -> i = j.
Lemma single_sums : forall n g x y, single n g -> (forall i, (i < n)%nat -> datum (x i)) -> (forall i, (i < n)%nat -> datum (y i)) ->
  let s := raggregates b64 n g x y in
  (forall i, (i < n)%nat -> agg_p_out s (g i) = x i /\ agg_p_in s (g i) = y i) /\
  (forall a, (forall i, (i < n)%nat -> g i <> a) -> agg_p_out s a = Fin 0 /\ agg_p_in s a = Fin 0).
Proof.
  assert (Z : forall a, datum a -> radd b64 (Fin 0) a = a) by (intros a (w & -> & Hw & Dw); apply add_eval; [exact Dw | lra]).
  induction n as [|n IH]; intros g x y SG Hx Hy; cbv zeta; [split; [intros; lia | auto]|].
  destruct (IH g x y) as [IH1 IH2]; [intros i j Hi Hj; apply SG; lia | intros; apply Hx; lia | intros; apply Hy; lia|].
  unfold raggregates in *. cbn [for_range]. set (s := for_range n _ _) in *. cbn [agg_p_out agg_p_in]. unfold radd_at, upd. split.
  - intros i Hi. destruct (Nat.eqb_spec (g i) (g n)) as [E|NE].
    + assert (i = n) by (apply SG; [lia | lia | exact E]). subst i. destruct (IH2 (g n)) as [-> ->]; [intros k Hk Ek; specialize (SG k n ltac:(lia) ltac:(lia) Ek); lia|]. split; apply Z; [apply Hx | apply Hy]; lia.
    + apply IH1. assert (i <> n) by (intros ->; apply NE; reflexivity). lia.
  - intros a Ha. rewrite (proj2 (Nat.eqb_neq a (g n))) by (intro E; apply (Ha n ltac:(lia)); auto). apply IH2. intros i Hi. apply Ha. lia.
Qed.
Lemma single_members : forall N g a, single N g -> members N g a = [] \/ exists i, members N g a = [i] /\ (i < N)%nat /\ g i = a.
Proof.
  intros N g a SG. pose proof (members_nodup N g a) as ND. destruct (members N g a) as [|i [|j l]] eqn:E; [left; reflexivity | right; exists i | exfalso].
  - split; [reflexivity|]. apply (in_members N g a i). rewrite E. left. reflexivity.
  - assert (I : In i (members N g a)) by (rewrite E; left; reflexivity). assert (J : In j (members N g a)) by (rewrite E; right; left; reflexivity).
    apply in_members in I as [I1 I2]. apply in_members in J as [J1 J2]. inversion ND as [|? ? NI _]; subst. apply NI. left. symmetry. apply SG; [assumption | assumption | congruence].
Qed.

(** If every group has one vertex, the graph is the aggregate graph.  With fitnesses that are not too small the sampler returns
    that graph in doubles as well, whatever the draws. *)
Theorem C102_certain : forall d x y N g adj sl us rest r, datum d -> nltb d (Fin (two (-300))) = false ->
  (forall i, (i < N)%nat -> datum (x i) /\ nltb (x i) (Fin (two (-300))) = false) -> (forall i, (i < N)%nat -> datum (y i) /\ nltb (y i) (Fin (two (-300))) = false) ->
  (forall i j, (i < N)%nat -> (j < N)%nat -> g i = g j -> i = j) -> (sl = true \/ forall a, ~ In a (map fst (adj a))) ->
  Forall (fun u => 0 <= u < 1) us -> run_draws (rcond_binary_sample b64 d x y N g adj sl) us = Some (r, rest) ->
  exists L, r = Ok L /\ forall e, In e L <-> (fst e < N)%nat /\ (snd e < N)%nat /\ In (g (snd e)) (map fst (adj (g (fst e)))).
Proof.
  intros d x y N g adj sl us rest r Dd Td Hx Hy SG HP Hu E. pose proof (plain_of _ _ HP) as PL. pose proof (two_pos (-300)) as P3.
  assert (NT : forall a, datum a -> nltb a (Fin (two (-300))) = false -> not_tiny a /\ is0 a = false).
  { intros a (w & -> & Hw & Dw) T. cbn [nltb] in T. destruct (Rltb_spec w (two (-300))); [discriminate|]. split; [right; exists w; split; [reflexivity | lra] | apply is0_fin_pos; lra]. }
  destruct (single_sums N g x y SG) as [S1 S2]; [apply Hx | apply Hy|]. 
  assert (CORE : forall bl acc us r rest, (forall a b w, In (a, b, w) bl -> linked adj a b = true) -> Forall (fun u => 0 <= u < 1) us ->
     run_draws (rsample_blocks b64 d x y N g sl (fun _ e => Ok e) (fun _ l => Ok l) bl acc) us = Some (r, rest) ->
     r = Ok (acc ++ flat_map (fun t => list_prod (members N g (fst (fst t))) (members N g (snd (fst t)))) bl)).
  { clear E Hu r us rest. induction bl as [|[[a b] w] bl IH]; intros acc us r rest HL Hu E; cbn [rsample_blocks flat_map fst snd] in *.
    - cbn [run_draws] in E. injection E as <- _. rewrite app_nil_r. reflexivity.
    - unfold rp_block in E. rewrite (plain_z adj sl _ a b PL (HL a b w (or_introl eq_refl))) in E. cbn [bind] in E. rewrite run_bind in E.
      assert (HL' : forall a b w, In (a, b, w) bl -> linked adj a b = true) by (intros; eapply HL; right; eassumption).
      destruct (single_members N g a SG) as [EA | (i & EA & Hi & Ga)]; [|destruct (single_members N g b SG) as [EB | (j & EB & Hj & Gb)]].
      + rewrite EA in E. cbn [list_prod rsample_pairs run_draws] in E. rewrite app_nil_r in E. rewrite (IH _ _ _ _ HL' Hu E), EA. reflexivity.
      + rewrite EA, EB in E. cbn [list_prod rsample_pairs run_draws map app] in E. rewrite app_nil_r in E. rewrite (IH _ _ _ _ HL' Hu E), EA, EB. reflexivity.
      + rewrite EA, EB in E. cbn [list_prod rsample_pairs map app] in E.
        assert (AD : adm sl i j = true).
        { unfold adm. destruct HP as [-> | HP]; [apply orb_true_r|]. destruct (Nat.eqb_spec i j) as [->|]; [|reflexivity]. exfalso. apply (HP a). specialize (HL a b w (or_introl eq_refl)). unfold linked in HL.
          apply existsb_exists in HL as (b' & I & Eb). apply Nat.eqb_eq in Eb. subst b'. replace a with b by congruence. replace b with a in I at 1 by congruence. replace b with a by congruence. exact I. }
        rewrite AD in E. unfold rp_pair in E. rewrite <- Ga, <- Gb in E. rewrite (proj1 (S1 i Hi)), (proj2 (S1 j Hj)) in E.
        destruct (Hx i Hi) as [Dx Tx]. destruct (Hy j Hj) as [Dy Ty]. destruct (NT _ Dd Td) as [T1 Z1]. destruct (NT _ Dx Tx) as [T2 Z2]. destruct (NT _ Dy Ty) as [T3 Z3].
        destruct (pair_positive d (x i) (y j) Dd Dx Dy T1 T2 T3 Z1 Z2 Z3) as (p & Ep & Pp). rewrite Ep in E. unfold rpdiv at 1 in E. rewrite is0_fin_pos in E by exact Pp. rewrite (ratio_same p Pp) in E. cbn [chance run_draws] in E.
        destruct us as [|u us]; [discriminate|]. inversion Hu as [|? ? Hu0 Hu1]; subst. rewrite Rltb_true in E by lra. cbn [run_draws app] in E.
        rewrite (IH _ _ _ _ HL' Hu1 E), EA, EB. cbn [list_prod map app]. rewrite <- app_assoc. reflexivity. }
  unfold rcond_binary_sample in E. apply CORE in E; [|intros a b w I; apply in_flat_map in I as (a' & _ & I); apply in_map_iff in I as (e & Ee & I); injection Ee as <- <- <-; unfold linked; apply existsb_exists; exists (fst e); split; [apply in_map, I | apply Nat.eqb_refl] | exact Hu].
  eexists. split; [exact E|]. clear E. intros [i j]. cbn [app fst snd]. rewrite in_flat_map. split.
  - intros ([[a b] w] & I & K). cbn [fst snd] in K. apply in_prod_iff in K as [K1 K2]. apply in_members in K1 as [K1 <-]. apply in_members in K2 as [K2 <-]. split; [exact K1|]. split; [exact K2|].
    apply in_flat_map in I as (a' & _ & I). apply in_map_iff in I as (e & Ee & I). injection Ee as -> Eb _. rewrite <- Eb. apply in_map, I.
  - intros (Hi & Hj & I). apply in_map_iff in I as (e & Ee & I). exists (g i, g j, snd e). cbn [fst snd]. split; [|apply in_prod_iff; split; apply in_members; auto].
    apply in_flat_map. exists (g i). split; [|apply in_map_iff; exists e; rewrite Ee; auto]. apply in_seq. split; [lia|]. unfold max_group. cbn [Nat.add].
    assert (L : (g i <= list_max (map g (seq 0 N)))%nat); [|lia]. pose proof (proj1 (list_max_le (map g (seq 0 N)) _) (le_n _)) as FA. rewrite Forall_forall in FA. apply FA, in_map, in_seq. lia.
Qed.
Print Assumptions C102_certain.

Example C102_certain_case : datum (Fin 1) /\ nltb (Fin 1) (Fin (two (-300))) = false /\ (forall i j, (i < 2)%nat -> (j < 2)%nat -> own_group i = own_group j -> i = j) /\
  (forall a, ~ In a (map fst (first_to_second a))) /\ Forall (fun u => 0 <= u < 1) [1 / 2] /\
  run_draws (rcond_binary_sample b64 (Fin 1) (fun _ => Fin 1) (fun _ => Fin 1) 2 own_group first_to_second false) [1 / 2] = Some (Ok [(0, 1)%nat], []).
Proof.
  split; [apply one_datum|]. split; [cbn [nltb]; apply Rltb_false; rewrite <- two_0; apply two_le; lia|]. split; [auto|]. split; [intros [|a]; cbn; [intros [H|[]]; discriminate | auto]|].
  split; [repeat constructor; lra|]. destruct (own_sums 1 double_1 ltac:(lra)) as (A0 & A1).
  unfold rcond_binary_sample. change (macro_links 2 own_group first_to_second) with [(0%nat, 1%nat, 5)].
  cbn [rsample_blocks]. unfold rp_block. rewrite A0, A1. unfold rz_block. cbn [negb andb Nat.eqb bind]. change (list_prod (members 2 own_group 0) (members 2 own_group 1)) with [(0, 1)%nat].
  cbn [rsample_pairs]. change (adm false 0 1) with true. cbv iota. unfold rp_pair.
  assert (NT1 : not_tiny (Fin 1)) by (right; exists 1; split; [reflexivity | rewrite <- two_0; apply two_le; lia]). assert (Z1 : is0 (Fin 1) = false) by (apply is0_fin_pos; lra).
  destruct (pair_positive (Fin 1) (Fin 1) (Fin 1) one_datum one_datum one_datum NT1 NT1 NT1 Z1 Z1 Z1) as (p & -> & Pp).
  unfold rpdiv at 1. rewrite is0_fin_pos by exact Pp. rewrite (ratio_same p Pp). cbn [pbind run_draws chance]. rewrite Rltb_true by lra. reflexivity.
Qed.

(** * Weights *)

(** The values that are shared out over the links of a block, and their exact sum *)
Definition moderate_value (a : num) : Prop := exists v, a = Fin v /\ double v /\ (v = 0 \/ two (-200) <= v <= two 200).
Definition exact_sum (l : list (nat * nat * num)) : R := fold_right (fun e t => toR (snd e) + t) 0 l.
Lemma eps_bounds : 0 < two (-53) <= / 1000.
Proof. split; [apply two_pos|]. change (-53)%Z with (- (53))%Z. rewrite two_neg. apply Rinv_le_contravar; [lra|]. rewrite two_Z by lia. apply IZR_le. lia. Qed.
Lemma pow_upper : forall n, (Z.of_nat n <= 2 ^ 53)%Z -> 1 <= (1 + two (-53)) ^ n <= 3.
Proof.
  intros n Hn. destruct eps_bounds as [E1 E2]. split; [apply pow_R1_Rle; lra|].
  assert (A : forall k, (1 + two (-53)) ^ k <= exp (INR k * two (-53))).
  { induction k as [|k IH]; [cbn [pow INR]; rewrite Rmult_0_l, exp_0; lra|]. rewrite S_INR. cbn [pow]. replace ((INR k + 1) * two (-53)) with (two (-53) + INR k * two (-53)) by ring. rewrite exp_plus.
    apply Rmult_le_compat; [lra | apply pow_le; lra | left; apply exp_ineq1; lra | exact IH]. }
  apply Rle_trans with (exp (INR n * two (-53))); [apply A|]. apply Rle_trans with (exp 1); [|apply exp_le_3].
  assert (B : INR n * two (-53) <= 1).
  { apply (Rmult_le_reg_r (two 53)); [apply two_pos|]. rewrite Rmult_assoc, <- two_add. change (-53 + 53)%Z with 0%Z. rewrite two_0, INR_IZR_INZ, (two_Z 53) by lia. rewrite Rmult_1_r, Rmult_1_l. apply IZR_le, Hn. }
  destruct B as [B | ->]; [left; apply exp_increasing, B | lra].
Qed.
Lemma pow_lower : forall n, (Z.of_nat n <= 2 ^ 53)%Z -> 0 < (1 - two (-53)) ^ n <= 1.
Proof. intros n _. destruct eps_bounds. split; [apply pow_lt; lra|]. apply Rle_trans with (1 ^ n); [apply pow_incr; lra | rewrite pow1; lra]. Qed.
Lemma le_num_trans : forall a b c, le_num a b -> le_num b c -> le_num a c.
Proof. intros [a| | |] [b| | |] [c| | |]; cbn; try contradiction; auto. intros. lra. Qed.

(** The computed sum after [k] values with exact sum [T] *)
Definition sum_upto (k : nat) (T : R) (c : num) : Prop := exists v, c = Fin v /\ double v /\ 0 <= T <= INR k * two 200 /\
  (v = 0 /\ T = 0 \/ two (-200) <= v) /\ T * (1 - two (-53)) ^ k <= v <= T * (1 + two (-53)) ^ k.
Lemma sum_step : forall k T c a, (Z.of_nat (S k) <= 2 ^ 53)%Z -> sum_upto k T c -> moderate_value a -> sum_upto (S k) (T + toR a) (radd b64 c a).
Proof.
  intros k T c a Hk (v & -> & Dv & HT & Hv & L & U) (w & -> & Dw & Hw). cbn [toR]. destruct eps_bounds as [E1 E2]. pose proof (two_pos (-200)) as P1. pose proof (two_pos 200) as P2.
  destruct (pow_upper k ltac:(lia)) as [U1 U2]. destruct (pow_lower k ltac:(lia)) as [L1 L2]. unfold sum_upto. rewrite S_INR.
  assert (Hw' : 0 <= w <= two 200) by (destruct Hw as [-> | Hw]; lra). assert (V0 : 0 <= v) by (destruct Hv as [[-> _] | Hv]; lra).
  assert (HT' : 0 <= T + w <= (INR k + 1) * two 200) by (split; [lra | rewrite Rmult_plus_distr_r; lra]).
  destruct Hw as [-> | Hw].
  - exists v. split; [apply add_eval; [exact Dv | lra]|]. split; [exact Dv|]. rewrite Rplus_0_r. split; [rewrite Rmult_plus_distr_r; split; [lra|]; lra|]. split; [exact Hv|]. cbn [pow]. split.
    + apply Rle_trans with (T * (1 - two (-53)) ^ k); [|exact L]. apply Rmult_le_compat_l; [lra|]. rewrite <- (Rmult_1_l ((1 - two (-53)) ^ k)) at 2. apply Rmult_le_compat_r; lra.
    + apply Rle_trans with (T * (1 + two (-53)) ^ k); [exact U|]. apply Rmult_le_compat_l; [lra|]. rewrite <- (Rmult_1_l ((1 + two (-53)) ^ k)) at 1. apply Rmult_le_compat_r; lra.
  - assert (KB : INR k + 1 <= two 53) by (rewrite <- S_INR, INR_IZR_INZ, (two_Z 53) by lia; apply IZR_le; lia).
    assert (RB : two (-1022) <= v + w <= two 1022).
    { split; [apply Rle_trans with (two (-200)); [apply two_le; lia | lra]|].
      assert (A : v <= 3 * (two 53 * two 200)). { apply Rle_trans with (T * 3); [apply Rle_trans with (1 := U); apply Rmult_le_compat_l; lra|]. rewrite (Rmult_comm T). apply Rmult_le_compat_l; [lra|]. apply Rle_trans with (INR k * two 200); [lra|]. apply Rmult_le_compat_r; lra. }
      assert (B : two 200 <= two 53 * two 200) by (rewrite <- (Rmult_1_l (two 200)) at 1; apply Rmult_le_compat_r; [lra | apply two_ge1; lia]).
      apply Rle_trans with (4 * (two 53 * two 200)); [lra|]. rewrite <- two_add. replace 4 with (two 2) by (rewrite (two_Z 2) by lia; cbn; lra). rewrite <- two_add. apply two_le. lia. }
    destruct (b64_rel (v + w) RB) as (u & Eu & Du & Lu & Uu). exists u. split; [exact Eu|]. split; [exact Du|]. split; [exact HT'|]. split.
    + right. pose proof (b64_mono (two (-200)) (v + w) ltac:(lra)) as M. rewrite (b64_fixed (two (-200))), Eu in M by (apply double_two; lia). exact M.
    + cbn [pow]. split.
      * apply Rle_trans with (2 := Lu). rewrite <- (Rmult_assoc (T + w)), (Rmult_comm (T + w)), Rmult_assoc, (Rmult_comm (v + w)). apply Rmult_le_compat_l; [lra|]. rewrite Rmult_plus_distr_r. apply Rplus_le_compat; [exact L|].
        rewrite <- (Rmult_1_r w) at 2. apply Rmult_le_compat_l; lra.
      * apply Rle_trans with (1 := Uu). rewrite <- (Rmult_assoc (T + w)), (Rmult_comm (T + w) (1 + two (-53))), Rmult_assoc, (Rmult_comm (v + w)). apply Rmult_le_compat_l; [lra|]. rewrite Rmult_plus_distr_r. apply Rplus_le_compat; [exact U|].
        rewrite <- (Rmult_1_r w) at 1. apply Rmult_le_compat_l; lra.
Qed.
Lemma sum_all : forall l k T c, (Z.of_nat (k + length l) <= 2 ^ 53)%Z -> sum_upto k T c -> (forall e, In e l -> moderate_value (snd e)) ->
  sum_upto (k + length l) (T + exact_sum l) (fold_left (fun t e => radd b64 t (snd e)) l c).
Proof.
  induction l as [|e l IH]; intros k T c Hk H M; cbn [fold_left length exact_sum fold_right].
  - rewrite Nat.add_0_r, Rplus_0_r. exact H.
  - cbn [length] in Hk. replace (k + S (length l))%nat with (S k + length l)%nat by lia. fold (exact_sum l). rewrite <- Rplus_assoc. apply IH; [lia| |intros; apply M; right; assumption].
    apply sum_step; [lia | exact H | apply M; left; reflexivity].
Qed.
Lemma part_le : forall (l : list (nat * nat * num)) e, (forall e, In e l -> moderate_value (snd e)) -> In e l -> 0 <= toR (snd e) <= exact_sum l.
Proof.
  intros l e M I. assert (N : forall l, (forall e, In e l -> moderate_value (snd e)) -> 0 <= exact_sum l).
  { clear. pose proof (two_pos (-200)). induction l as [|a l IH]; intro M; cbn [exact_sum fold_right]; [lra|]. fold (exact_sum l). specialize (IH (fun e H => M e (or_intror H))). destruct (M a (or_introl eq_refl)) as (v & -> & _ & [-> | Hv]); cbn [toR]; lra. }
  pose proof (two_pos (-200)). induction l as [|a l IH]; [destruct I|]. cbn [exact_sum fold_right]. fold (exact_sum l).
  pose proof (N l (fun e H => M e (or_intror H))). destruct (M a (or_introl eq_refl)) as (v & Ea & _ & Hv). assert (0 <= toR (snd a)) by (rewrite Ea; cbn [toR]; destruct Hv as [-> | Hv]; lra).
  destruct I as [-> | I]; [lra|]. specialize (IH (fun e H => M e (or_intror H)) I). lra.
Qed.

(** The weight of an aggregate link is shared out over its links in the proportion of the products of the strengths.  In doubles
    the weights are between 0 and the weight of the aggregate link, and their sum is the weight of
    the aggregate link up to a relative error of about (n + 2) 2^-53 for n links. *)
Theorem C102_weights : forall w links, double w -> two (-200) <= w <= two 200 -> (Z.of_nat (length links) <= 2 ^ 53)%Z ->
  (forall e, In e links -> exists v, snd e = Fin v /\ double v /\ (v = 0 \/ two (-200) <= v <= two 200)) -> (exists e, In e links /\ snd e <> Fin 0) ->
  let n := length links in let eps := two (-53) in
  exists shares, rwagg_finish b64 w links = Ok (map (fun t => (fst (fst t), Fin (snd t))) shares) /\ map fst shares = links /\
    (forall t, In t shares -> 0 <= snd t <= w) /\
    w * (1 - eps) ^ 2 / (1 + eps) ^ n <= fold_right (fun t a => snd t + a) 0 shares <= w * (1 + eps) ^ 2 / (1 - eps) ^ n.
Proof.
  intros w links Dw Hw Hn M (e0 & I0 & N0) n eps. change (forall e, In e links -> moderate_value (snd e)) in M.
  destruct eps_bounds as [E1 E2]. fold eps in E1, E2. pose proof (two_pos (-200)) as P1. pose proof (two_pos 200) as P2.
  destruct (pow_upper n Hn) as [U1 U2]. destruct (pow_lower n Hn) as [L1 L2]. fold eps in U1, U2, L1, L2.
  assert (S0 : sum_upto 0 0 (Fin 0)).
  { exists 0. split; [reflexivity|]. split; [apply double_0|]. cbn [INR pow]. rewrite !Rmult_0_l. split; [lra|]. split; [left; auto | lra]. }
  pose proof (sum_all links 0 0 (Fin 0) ltac:(cbn [Nat.add]; exact Hn) S0 M) as K. cbn [Nat.add] in K. rewrite Rplus_0_l in K. fold n in K.
  set (snorm := fold_left _ links _) in *. destruct K as (sv & Es & Ds & HS & Hs & Ls & Us). fold eps in Ls, Us. set (T := exact_sum links) in *.
  assert (PT : two (-200) <= T).
  { destruct (M e0 I0) as (v & Ev & _ & [-> | Hv]); [contradiction|]. pose proof (part_le links e0 M I0) as PL. rewrite Ev in PL. cbn [toR] in PL. fold T in PL. lra. }
  assert (Ps : two (-200) <= sv) by (destruct Hs as [[_ Z] | Hs]; lra).
  assert (NB : INR n <= two 53) by (rewrite INR_IZR_INZ, (two_Z 53) by lia; apply IZR_le; exact Hn).
  assert (Us' : sv <= two 255).
  { apply Rle_trans with (1 := Us). apply Rle_trans with (T * 3); [apply Rmult_le_compat_l; lra|]. apply Rle_trans with (two 53 * two 200 * 4).
    - apply Rmult_le_compat; try lra. apply Rle_trans with (INR n * two 200); [lra | apply Rmult_le_compat_r; lra].
    - replace 4 with (two 2) by (rewrite (two_Z 2) by lia; cbn; lra). rewrite <- !two_add. apply two_le. lia. }
  (* every share *)
  assert (SH : forall e, In e links -> exists u, rmul b64 (rdiv b64 (snd e) snorm) (Fin w) = Fin u /\ 0 <= u <= w /\
     toR (snd e) / sv * w * (1 - eps) ^ 2 <= u <= toR (snd e) / sv * w * (1 + eps) ^ 2).
  { intros e I. pose proof (part_le links e M I) as PL. fold T in PL. destruct (M e I) as (v & Ev & Dv & Hv). rewrite Ev in *. cbn [toR] in *. rewrite Es.
    assert (VS : v <= sv).
    { assert (le_num (Fin v) (Fin sv)); [|assumption]. rewrite <- Es. unfold snorm. clear - I Ev M Hn.
      assert (G : forall (l : list (nat * nat * num)) k T c, (Z.of_nat (k + length l) <= 2 ^ 53)%Z -> sum_upto k T c -> (forall e, In e l -> moderate_value (snd e)) ->
        le_num c (fold_left (fun t e => radd b64 t (snd e)) l c) /\ (forall e, In e l -> le_num (snd e) (fold_left (fun t e => radd b64 t (snd e)) l c))).
      { clear. induction l as [|a l IH]; intros k T c Hk H M; cbn [fold_left length] in *; [split; [destruct H as (v & -> & _); cbn; lra | intros e []]|].
        pose proof (M a (or_introl eq_refl)) as Ma. assert (H' : sum_upto (S k) (T + toR (snd a)) (radd b64 c (snd a))) by (apply sum_step; [lia | exact H | exact Ma]).
        destruct (IH (S k) _ _ ltac:(lia) H' (fun e h => M e (or_intror h))) as [G1 G2].
        destruct H as (cv & -> & Dc & _ & Hc & _). destruct Ma as (av & Ea & Da & Ha). rewrite Ea in *. pose proof (two_pos (-200)) as P.
        assert (C0 : 0 <= cv) by (destruct Hc as [[-> _] | Hc]; lra). assert (A0 : 0 <= av) by (destruct Ha as [-> | Ha]; lra).
        assert (X1 : le_num (Fin cv) (radd b64 (Fin cv) (Fin av))). { rewrite <- (b64_fixed cv Dc). unfold radd. rewrite (b64_fixed cv Dc). cbn [nadd rnd_num]. rewrite <- (b64_fixed cv Dc) at 1. apply b64_mono. lra. }
        assert (X2 : le_num (Fin av) (radd b64 (Fin cv) (Fin av))). { unfold radd. cbn [nadd rnd_num]. rewrite <- (b64_fixed av Da) at 1. apply b64_mono. lra. }
        split; [exact (le_num_trans _ _ _ X1 G1)|]. intros e [<- | I]; [rewrite Ea; exact (le_num_trans _ _ _ X2 G1) | apply G2, I]. }
      assert (S0 : sum_upto 0 0 (Fin 0)). { exists 0. split; [reflexivity|]. split; [apply double_0|]. cbn [INR pow]. rewrite !Rmult_0_l. split; [lra|]. split; [left; auto | lra]. }
      rewrite <- Ev. apply (G links 0%nat 0 (Fin 0)); [cbn [Nat.add]; exact Hn | exact S0 | exact M | exact I]. }
    destruct (ratio_unit v sv ltac:(lra) ltac:(lra)) as (p & Ep & Hp & Dp & _). rewrite Ep.
    assert (UW : exists u, rmul b64 (Fin p) (Fin w) = Fin u /\ 0 <= u <= w).
    { destruct (fin_between (p * w) w) as (u & Eu & Hu & _); [split; [apply Rmult_le_pos; lra | rewrite <- (Rmult_1_l w) at 2; apply Rmult_le_compat_r; lra] | exact Dw |]. exists u. auto. }
    destruct UW as (u & Eu & Hu). exists u. split; [exact Eu|]. split; [exact Hu|].
    destruct Hv as [-> | Hv].
    - assert (p = 0). { unfold rdiv in Ep. cbn [ndiv] in Ep. rewrite Reqb_false in Ep by lra. cbn [rnd_num] in Ep. replace (0 / sv) with 0 in Ep by (unfold Rdiv; ring). rewrite b64_0 in Ep. injection Ep. auto. }
      subst p. assert (u = 0). { unfold rmul in Eu. cbn [nmul rnd_num] in Eu. rewrite Rmult_0_l, b64_0 in Eu. injection Eu. auto. } subst u.
      replace (0 / sv) with 0 by (unfold Rdiv; ring). rewrite !Rmult_0_l. lra.
    - assert (R1 : two (-455) <= v / sv <= 1).
      { split; [|apply (Rmult_le_reg_r sv); [lra|]; unfold Rdiv; rewrite Rmult_assoc, Rinv_l by lra; lra].
        apply (Rmult_le_reg_r sv); [lra|]. unfold Rdiv. rewrite Rmult_assoc, Rinv_l, Rmult_1_r by lra. apply Rle_trans with (two (-455) * two 255); [apply Rmult_le_compat_l; [left; apply two_pos | exact Us']|].
        rewrite <- two_add. change (-455 + 255)%Z with (-200)%Z. lra. }
      pose proof (two_pos (-455)) as P4. assert (T1 : 1 <= two 1022) by (apply two_ge1; lia). assert (T2 : two (-1022) <= two (-455)) by (apply two_le; lia).
      destruct (b64_rel (v / sv)) as (p' & Ep' & _ & Lp & Up); [lra|].
      assert (p' = p). { unfold rdiv in Ep. cbn [ndiv] in Ep. rewrite Reqb_false in Ep by lra. cbn [rnd_num] in Ep. rewrite Ep' in Ep. injection Ep. auto. } subst p'. fold eps in Lp, Up.
      assert (P5 : two (-456) <= p). { apply Rle_trans with (two (-455) * (1 / 2)); [rewrite <- two_m1, <- two_add; apply two_le; lia|]. apply Rle_trans with (2 := Lp). apply Rmult_le_compat; lra. }
      assert (R2 : two (-656) <= p * w <= two 200).
      { split; [change (-656)%Z with (-456 + -200)%Z; rewrite two_add; pose proof (two_pos (-456)); apply Rmult_le_compat; lra | rewrite <- (Rmult_1_l (two 200)); apply Rmult_le_compat; lra]. }
      assert (T3 : two (-1022) <= two (-656)) by (apply two_le; lia). assert (T4 : two 200 <= two 1022) by (apply two_le; lia).
      destruct (b64_rel (p * w)) as (u' & Eu' & _ & Lu & Uu); [lra|]. assert (u' = u) by (rewrite rmul_fin, Eu' in Eu; injection Eu; auto). subst u'. fold eps in Lu, Uu.
      cbn [pow]. rewrite !Rmult_1_r. split.
      + apply Rle_trans with (2 := Lu). replace (v / sv * w * ((1 - eps) * (1 - eps))) with (v / sv * (1 - eps) * w * (1 - eps)) by ring. apply Rmult_le_compat_r; [lra|]. apply Rmult_le_compat_r; [lra | exact Lp].
      + apply Rle_trans with (1 := Uu). replace (v / sv * w * ((1 + eps) * (1 + eps))) with (v / sv * (1 + eps) * w * (1 + eps)) by ring. apply Rmult_le_compat_r; [lra|]. apply Rmult_le_compat_r; [lra | exact Up]. }
  assert (CH : forall l, (forall e, In e l -> In e links) -> exists shares, map (fun e => (fst e, rmul b64 (rdiv b64 (snd e) snorm) (Fin w))) l = map (fun t => (fst (fst t), Fin (snd t))) shares /\ map fst shares = l /\
     (forall t, In t shares -> 0 <= snd t <= w) /\ exact_sum l / sv * w * (1 - eps) ^ 2 <= fold_right (fun t a => snd t + a) 0 shares <= exact_sum l / sv * w * (1 + eps) ^ 2).
  { induction l as [|e l IH]; intro HI.
    - exists []. cbn [map exact_sum fold_right]. split; [reflexivity|]. split; [reflexivity|]. split; [intros t []|]. unfold Rdiv. rewrite !Rmult_0_l. lra.
    - destruct IH as (sh & G1 & G2 & G3 & G4); [intros; apply HI; right; assumption|]. destruct (SH e (HI e (or_introl eq_refl))) as (u & Eu & Hu & Bu).
      exists ((e, u) :: sh). cbn [map fst snd exact_sum fold_right]. fold (exact_sum l). rewrite G1, G2, Eu. split; [reflexivity|]. split; [reflexivity|]. split; [intros t [<- | I]; [exact Hu | apply G3, I]|].
      unfold Rdiv in *. rewrite !Rmult_plus_distr_r. lra. }
  destruct (CH links (fun e h => h)) as (shares & G1 & G2 & G3 & G4). exists shares. split; [|split; [exact G2|]; split; [exact G3|]].
  - unfold rwagg_finish. fold snorm. destruct links as [|e l]; [destruct I0|]. rewrite Es at 1. rewrite is0_fin_pos by lra. rewrite G1. reflexivity.
  - fold T in G4. assert (PU : 0 < (1 + eps) ^ n) by lra.
    assert (Q1 : / (1 + eps) ^ n <= T / sv). { apply (Rmult_le_reg_r sv); [lra|]. unfold Rdiv. rewrite Rmult_assoc, Rinv_l, Rmult_1_r by lra. apply (Rmult_le_reg_l ((1 + eps) ^ n)); [exact PU|]. rewrite <- Rmult_assoc, Rinv_r, Rmult_1_l by lra. lra. }
    assert (Q2 : T / sv <= / (1 - eps) ^ n). { apply (Rmult_le_reg_r sv); [lra|]. unfold Rdiv. rewrite Rmult_assoc, Rinv_l, Rmult_1_r by lra. apply (Rmult_le_reg_l ((1 - eps) ^ n)); [exact L1|]. rewrite <- Rmult_assoc, Rinv_r, Rmult_1_l by lra. lra. }
    assert (A1 : 0 <= (1 - eps) ^ 2) by (apply pow_le; lra). assert (A2 : 0 <= (1 + eps) ^ 2) by (apply pow_le; lra).
    split; [apply Rle_trans with (2 := proj1 G4); replace (w * (1 - eps) ^ 2 / (1 + eps) ^ n) with (/ (1 + eps) ^ n * w * (1 - eps) ^ 2) by (field; lra)
           | apply Rle_trans with (1 := proj2 G4); replace (w * (1 + eps) ^ 2 / (1 - eps) ^ n) with (/ (1 - eps) ^ n * w * (1 + eps) ^ 2) by (field; lra)];
    (apply Rmult_le_compat_r; [assumption|]; apply Rmult_le_compat_r; [lra | assumption]).
Qed.
Print Assumptions C102_weights.

Lemma five_double : double 5. Proof. apply (double_Z 5). lia. Qed.
Lemma one_share : forall v, 0 < v -> double v -> rwagg_finish b64 5 [((0, 1)%nat, Fin v)] = Ok [((0, 1)%nat, Fin 5)].
Proof.
  intros v P D. unfold rwagg_finish. cbn [fold_left map fst snd]. rewrite (add_eval 0 v v D) by lra. rewrite is0_fin_pos by exact P. rewrite (ratio_same v P). rewrite (mul_eval 1 5 5 five_double) by lra. reflexivity.
Qed.
Example C102_weights_case : double 5 /\ two (-200) <= 5 <= two 200 /\ (Z.of_nat (length [((0, 1)%nat, Fin 1)]) <= 2 ^ 53)%Z /\
  (forall e, In e [((0, 1)%nat, Fin 1)] -> exists v, snd e = Fin v /\ double v /\ (v = 0 \/ two (-200) <= v <= two 200)) /\ Fin 1 <> Fin 0 /\
  rwagg_finish b64 5 [((0, 1)%nat, Fin 1)] = Ok [((0, 1)%nat, Fin 5)].
Proof.
  assert (A : two (-200) <= 1) by (rewrite <- two_0; apply two_le; lia).
  assert (B : 5 <= two 200) by (rewrite two_Z by lia; apply IZR_le; lia).
  split; [apply five_double|]. split; [lra|]. split; [cbn; lia|]. split; [intros e [<- | []]; exists 1; split; [reflexivity|]; split; [apply double_1 | right; lra]|].
  split; [intro E; injection E; lra|]. apply one_share; [lra | apply double_1].
Qed.

(** The sampler for the two vertices with fitnesses 1 and strengths [v] *)
Lemma own_wagg : forall v, run_draws (rcond_wagg_sample b64 (Fin 1) (fun _ => Fin 1) (fun _ => Fin 1) 2 own_group first_to_second false (fun _ => v) (fun _ => v)) [1 / 2] =
  Some (rwagg_finish b64 5 [((0, 1)%nat, rmul b64 v v)], []).
Proof.
  intro v. destruct (own_sums 1 double_1 ltac:(lra)) as (A0 & A1).
  unfold rcond_wagg_sample. change (macro_links 2 own_group first_to_second) with [(0%nat, 1%nat, 5)].
  cbn [rsample_blocks]. unfold rp_block. rewrite A0, A1. unfold rz_block. cbn [negb andb Nat.eqb bind]. change (list_prod (members 2 own_group 0) (members 2 own_group 1)) with [(0, 1)%nat].
  cbn [rsample_pairs]. change (adm false 0 1) with true. cbv iota. unfold rp_pair.
  assert (NT1 : not_tiny (Fin 1)) by (right; exists 1; split; [reflexivity | rewrite <- two_0; apply two_le; lia]). assert (Z1 : is0 (Fin 1) = false) by (apply is0_fin_pos; lra).
  destruct (pair_positive (Fin 1) (Fin 1) (Fin 1) one_datum one_datum one_datum NT1 NT1 NT1 Z1 Z1 Z1) as (p & -> & Pp).
  unfold rpdiv at 1. rewrite is0_fin_pos by exact Pp. rewrite (ratio_same p Pp). cbn [pbind run_draws chance]. rewrite Rltb_true by lra. cbn [fst snd pbind app].
  destruct (rwagg_finish b64 5 [((0, 1)%nat, rmul b64 v v)]) as [l|e] eqn:E; cbn [run_draws]; reflexivity.
Qed.
Lemma own_wagg_exact : forall v, 0 < v -> run_draws (rcond_wagg_sample Fin (Fin 1) (fun _ => Fin 1) (fun _ => Fin 1) 2 own_group first_to_second false (fun _ => Fin v) (fun _ => Fin v)) [1 / 2] =
  Some (Ok [((0, 1)%nat, Fin 5)], []).
Proof.
  intros v H. destruct (own_sums_exact 1) as ((A0 & _) & _ & A1). pose proof (chance_pos 1 ltac:(lra)) as C.
  unfold rcond_wagg_sample. change (macro_links 2 own_group first_to_second) with [(0%nat, 1%nat, 5)].
  cbn [rsample_blocks]. unfold rp_block. rewrite A0, A1. unfold rz_block. cbn [negb andb Nat.eqb bind]. rewrite link_exact by lra.
  change (list_prod (members 2 own_group 0) (members 2 own_group 1)) with [(0, 1)%nat]. cbn [rsample_pairs]. change (adm false 0 1) with true. cbv iota.
  unfold rp_pair. rewrite link_exact by lra. unfold rpdiv. rewrite is0_fin_pos by lra. exact_ops. cbn [ndiv]. rewrite Reqb_false by lra. cbn [pbind run_draws chance].
  replace (_ / (1 - exp (- (1 * 1 * 1 * 1)))) with 1 by (field; lra). rewrite Rltb_true by lra. cbn [fst snd pbind app nmul]. unfold rwagg_finish. cbn [fold_left map fst snd]. exact_ops. cbn [nadd].
  assert (PV : 0 < v * v) by nra. rewrite is0_fin_pos by lra. cbn [run_draws ndiv]. rewrite Reqb_false by lra. exact_ops. cbn [nmul rnd_num app]. replace (v * v / (0 + v * v) * 5) with 5 by (field; lra). reflexivity.
Qed.

(** Strengths whose product is rounded to 0 or to infinity: the sampler raises, or gives the weight NaN; without rounding the
    only link of the block has the weight of the aggregate link. *)
Theorem C102_wagg_refuted : exists v v', datum (Fin v) /\ datum (Fin v') /\ 0 < v /\ 0 < v' /\
  let sample rn s := run_draws (rcond_wagg_sample rn (Fin 1) (fun _ => Fin 1) (fun _ => Fin 1) 2 own_group first_to_second false (fun _ => Fin s) (fun _ => Fin s)) [1 / 2] in
  (forall s, 0 < s -> sample Fin s = Some (Ok [((0, 1)%nat, Fin 5)], [])) /\
  sample b64 v = Some (Raise ZeroDivisionError, []) /\ sample b64 v' = Some (Ok [((0, 1)%nat, NaN)], []).
Proof.
  exists (two (-600)), (two 600). split; [apply two_datum; lia|]. split; [apply two_datum; lia|]. split; [apply two_pos|]. split; [apply two_pos|]. intro sample.
  split; [exact own_wagg_exact|]. unfold sample. rewrite !own_wagg. split.
  - rewrite small_square. unfold rwagg_finish. cbn [fold_left map fst snd]. rewrite (add_eval 0 0 0 double_0) by lra. rewrite zero_is0. reflexivity.
  - replace (rmul b64 (Fin (two 600)) (Fin (two 600))) with PInf by (unfold rmul; cbn [nmul rnd_num]; rewrite <- two_add; symmetry; apply b64_over; lia). reflexivity.
Qed.
Print Assumptions C102_wagg_refuted.
