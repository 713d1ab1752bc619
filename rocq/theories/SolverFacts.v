(** Facts about the root finder. *)
From Verif Require Import Base Num KernelFacts Solver.
From Coq Require Import Sorting.Sorted.

(** ** Order on extended numbers *)

Lemma nle_trans : forall a b c, nle a b -> nle b c -> nle a c.
Proof. intros [x| | |] [y| | |] [z| | |]; simpl; intros; try contradiction; try exact I; lra. Qed.

Lemma nle_refl_l : forall a b, nle a b -> nle a a.
Proof. intros [x| | |] [y| | |]; simpl; intros; try contradiction; try exact I; lra. Qed.

Lemma nle_refl_r : forall a b, nle a b -> nle b b.
Proof. intros [x| | |] [y| | |]; simpl; intros; try contradiction; try exact I; lra. Qed.

Lemma nleb_nle : forall a b, nleb a b = true <-> nle a b.
Proof.
  intros [x| | |] [y| | |]; unfold nleb; simpl; split; intros H; try discriminate; try contradiction;
    try exact I; try reflexivity.
  - destruct (Rltb_spec x y); [lra|]. destruct (Reqb_spec x y); [lra | discriminate].
  - destruct (Rltb_spec x y); [reflexivity|]. simpl. apply Reqb_true; lra.
Qed.

Lemma nltb_not_nle : forall a b, nle a a -> nle b b -> nltb a b = false -> nle b a.
Proof.
  intros [x| | |] [y| | |]; simpl; intros; try contradiction; try discriminate; try exact I.
  destruct (Rltb_spec x y); [discriminate | lra].
Qed.

Lemma nle_nltb : forall a b, nle a b -> nltb b a = false.
Proof.
  intros [x| | |] [y| | |]; simpl; intros; try contradiction; try reflexivity.
  apply Rltb_false; assumption.
Qed.

Lemma neqb_eq : forall a b, neqb a b = true -> a = b.
Proof.
  intros [x| | |] [y| | |]; simpl; intros H; try discriminate; try reflexivity.
  destruct (Reqb_spec x y); [subst; reflexivity | discriminate].
Qed.

(** ** The report is truthful *)

Section Report.
Variables (fn : num -> num * num) (target atol rtol : num).
Let g (x : num) : num := nsub (fst (fn x)) target.
Let tol := nadd atol (nmul rtol target).

Definition trace_ok (x0 : num) (n0 : nat) (s : sstate) : Prop :=
  s_f s = g (s_x s) /\ s_norm s = nabs (s_f s) /\
  (exists pre, s_xseq s = pre ++ [s_x s]) /\
  (exists pre, s_dseq s = pre ++ [s_diff s]) /\
  (exists t, s_xseq s = x0 :: t) /\
  s_fseq s = map g (s_xseq s) /\ s_nseq s = map nabs (s_fseq s) /\
  length (s_xseq s) = S (s_n s) /\ length (s_dseq s) = S (s_n s) /\ (s_n s = n0)%nat.

Lemma step_trace : forall x0 n s s', trace_ok x0 n s -> solver_step fn target atol s = Ok s' ->
  trace_ok x0 (S n) s'.
Proof.
  intros x0 n s s' (Hf & Hn & _ & _ & [t Ht] & Hfs & Hns & Hlx & Hld & Hc) H.
  unfold solver_step in H.
  set (x := next_x atol s) in *.
  destruct (fn x) as [f0 fp] eqn:E.
  match type of H with bind ?u _ = _ => destruct u as [[[[xl xu] fl] fu]|e] end; [|discriminate].
  simpl in H; injection H as <-. unfold trace_ok; simpl.
  assert (Hg : g x = nsub f0 target) by (unfold g; rewrite E; reflexivity).
  split; [symmetry; exact Hg|]. split; [reflexivity|].
  split; [eexists; reflexivity|]. split; [eexists; reflexivity|].
  split; [rewrite Ht; eexists; reflexivity|].
  split; [rewrite map_app, Hfs; simpl; rewrite Hg; reflexivity|].
  split; [rewrite map_app, Hns; reflexivity|].
  rewrite !app_length, Hlx, Hld; simpl. repeat split; lia.
Qed.

Lemma loop_trace : forall rem x0 n s s', trace_ok x0 n s -> solver_loop fn target atol rtol rem s = Ok s' ->
  exists n', trace_ok x0 n' s' /\ (n <= n' <= n + rem)%nat /\
    ((n' < n + rem)%nat -> ngtb (s_norm s') tol && ngtb (s_diff s') rtol = false).
Proof.
  induction rem as [|k IH]; intros x0 n s s' Ht H; cbn [solver_loop] in H.
  - injection H as <-. exists n; split; [exact Ht | split; [lia | intros; lia]].
  - destruct (ngtb (s_norm s) (nadd atol (nmul rtol target)) && ngtb (s_diff s) rtol) eqn:C.
    + destruct (solver_step fn target atol s) as [s1|e] eqn:E; [|discriminate]. simpl in H.
      destruct (IH x0 (S n) s1 s') as (n' & T & Hn & Hs); [eapply step_trace; eassumption | exact H |].
      exists n'; split; [exact T | split; [lia | intros; apply Hs; lia]].
    + injection H as <-. exists n; split; [exact Ht | split; [lia | intros; exact C]].
Qed.

Lemma init_trace : forall x0 xl xu fl fu s,
  solver_init fn x0 target atol xl xu fl fu = Ok (inl s) \/
  solver_init fn x0 target atol xl xu fl fu = Ok (inr s) -> trace_ok x0 0 s /\ s_diff s = Fin 1.
Proof.
  intros x0 xl xu fl fu s H. unfold solver_init in H.
  destruct (fn x0) as [f0 fp] eqn:E.
  assert (T : forall a b c d, trace_ok x0 0 (mkS x0 (nadd f0 (nopp target)) fp (nabs (nadd f0 (nopp target)))
      (Fin 1) a b c d 0 [nadd f0 (nopp target)] [x0] [nabs (nadd f0 (nopp target))] [Fin 1])).
  { intros a b c d. unfold trace_ok; simpl. unfold g; rewrite E; simpl.
    repeat split; try reflexivity; try (exists []; reflexivity). }
  destruct (ngtb x0 xu || nltb x0 xl); [destruct H; discriminate|].
  destruct (nltb _ atol).
  - destruct H as [H|H]; [|discriminate]. injection H as <-. split; [apply T | reflexivity].
  - destruct (bracket _ _ _ _ _ _ _) as [[[[a b] c] d]|].
    + destruct H as [H|H]; [discriminate|]. injection H as <-. split; [apply T | reflexivity].
    + destruct (is0 fp); [|destruct H; discriminate].
      destruct H as [H|H]; [discriminate|]. injection H as <-. split; [apply T | reflexivity].
Qed.

Lemma finish_ok : forall x0 n max_iter s, trace_ok x0 n s ->
  finish target max_iter atol rtol s
  = Ok (mkSol (s_x s) target n max_iter (s_fseq s) (s_xseq s) (s_nseq s) (s_dseq s)
         (Nat.leb max_iter n) (nleb (s_norm s) tol) (nleb (s_diff s) rtol)).
Proof.
  intros x0 n max_iter s (Hf & Hn & [px Hx] & [pd Hd] & _ & Hfs & Hns & _ & _ & Hc).
  unfold finish, make_solution. rewrite Hns, Hfs, Hx, Hd, !map_app, !rev_app_distr. simpl.
  rewrite <- Hf, <- Hn, Hc. reflexivity.
Qed.

Lemma report_truthful : forall x0 max_iter xl xu fl fu sol,
  monotonic_newton_solver fn x0 target atol rtol max_iter xl xu fl fu = Ok sol ->
  (sol_n_iter sol <= max_iter)%nat /\
  sol_max_iter_reached sol = Nat.eqb (sol_n_iter sol) max_iter /\
  sol_converged sol = nleb (nabs (g (sol_x sol))) tol /\
  sol_no_change_stop sol = nleb (last (sol_diff_seq sol) NaN) rtol /\
  sol_f_seq sol = map g (sol_x_seq sol) /\
  sol_norm_seq sol = map nabs (sol_f_seq sol) /\
  length (sol_x_seq sol) = S (sol_n_iter sol) /\
  length (sol_diff_seq sol) = S (sol_n_iter sol) /\
  hd NaN (sol_x_seq sol) = x0 /\ last (sol_x_seq sol) NaN = sol_x sol /\
  ((sol_n_iter sol < max_iter)%nat ->
     nltb (nabs (g (sol_x sol))) atol = true \/
     ngtb (nabs (g (sol_x sol))) tol = false \/
     ngtb (last (sol_diff_seq sol) NaN) rtol = false).
Proof.
  intros x0 max_iter xl xu fl fu sol H. unfold monotonic_newton_solver in H.
  destruct (solver_init fn x0 target atol xl xu fl fu) as [[s|s]|e] eqn:EI; simpl in H; [| |discriminate].
  - destruct (init_trace x0 xl xu fl fu s (or_introl EI)) as [T D].
    rewrite (finish_ok x0 0 max_iter s T) in H. injection H as <-. simpl.
    destruct T as (Hf & Hn & [px Hx] & [pd Hd] & [t Ht] & Hfs & Hns & Hlx & Hld & Hc).
    rewrite Hc in *. rewrite <- Hf, <- Hn.
    split; [lia|]. split; [destruct max_iter; reflexivity|]. split; [reflexivity|].
    split; [rewrite Hd, last_last; reflexivity|]. split; [exact Hfs|]. split; [exact Hns|].
    split; [exact Hlx|]. split; [exact Hld|]. split; [rewrite Ht; reflexivity|].
    split; [rewrite Hx, last_last; reflexivity|].
    intros _. left. clear - EI Hn Hf. unfold solver_init in EI. destruct (fn x0) as [f0 fp] eqn:E.
    destruct (ngtb x0 xu || nltb x0 xl); [discriminate|].
    destruct (nltb (nabs (nadd f0 (nopp target))) atol) eqn:Q.
    + injection EI as <-. exact Q.
    + destruct (bracket _ _ _ _ _ _ _) as [[[[a b] c] d]|]; [discriminate|].
      destruct (is0 fp); discriminate.
  - destruct (init_trace x0 xl xu fl fu s (or_intror EI)) as [T D].
    destruct (solver_loop fn target atol rtol max_iter s) as [s'|e] eqn:EL; simpl in H; [|discriminate].
    destruct (loop_trace max_iter x0 0 s s' T EL) as (n' & T' & Hn' & Hs).
    rewrite (finish_ok x0 n' max_iter s' T') in H. injection H as <-. simpl.
    destruct T' as (Hf & Hn & [px Hx] & [pd Hd] & [t Ht] & Hfs & Hns & Hlx & Hld & Hc).
    rewrite Hc in *. rewrite <- Hf, <- Hn.
    split; [lia|]. split.
    { destruct (Nat.leb_spec max_iter n'), (Nat.eqb_spec n' max_iter); try reflexivity; lia. }
    split; [reflexivity|].
    split; [rewrite Hd, last_last; reflexivity|]. split; [exact Hfs|]. split; [exact Hns|].
    split; [exact Hlx|]. split; [exact Hld|]. split; [rewrite Ht; reflexivity|].
    split; [rewrite Hx, last_last; reflexivity|].
    intros Hlt. right. specialize (Hs ltac:(lia)).
    rewrite Hd, last_last. apply andb_false_iff in Hs. exact Hs.
Qed.
End Report.

(** ** Starting point outside the bounds *)

Lemma start_outside : forall fn x0 target atol rtol max_iter xl xu fl fu,
  ngtb x0 xu = true \/ nltb x0 xl = true ->
  monotonic_newton_solver fn x0 target atol rtol max_iter xl xu fl fu = Raise ValueError.
Proof.
  intros fn x0 target atol rtol max_iter xl xu fl fu H.
  unfold monotonic_newton_solver, solver_init. destruct (fn x0).
  replace (ngtb x0 xu || nltb x0 xl) with true; [reflexivity|].
  destruct H as [->| ->]; [reflexivity | rewrite orb_true_r; reflexivity].
Qed.

(** ** Bracket invariant for non-decreasing objectives with a root inside the bounds *)

Section Bracket.
Variables (fn : num -> num * num) (T a rho : R) (xl0 xu0 : num) (F D : num -> R).
Hypothesis Hfn : forall x, nle xl0 x -> nle x xu0 -> fn x = (Fin (F x), Fin (D x)) /\ 0 <= D x.
Hypothesis Hmono : forall x y, nle xl0 x -> nle x y -> nle y xu0 -> F x <= F y.
Hypothesis Hroot : F xl0 <= T <= F xu0.
Hypothesis Ha : 0 < a.
Hypothesis Htol : 0 <= a + rho * T.

Definition fside (x : num) (o : option num) : Prop :=
  match o with None => True | Some v => v = Fin (F x - T) end.

Definition binv (s : sstate) : Prop :=
  nle xl0 (s_xl s) /\ nle (s_xl s) (s_x s) /\ nle (s_x s) (s_xu s) /\ nle (s_xu s) xu0 /\
  s_f s = Fin (F (s_x s) - T) /\ s_fp s = Fin (D (s_x s)) /\
  F (s_xl s) <= T <= F (s_xu s) /\ fside (s_xl s) (s_fl s) /\ fside (s_xu s) (s_fu s).

Lemma secant_in : forall xl xu fl fu, xl <= xu -> fl <= 0 -> 0 <= fu -> fu - fl <> 0 ->
  xl <= xu - fu * (xu - xl) / (fu - fl) <= xu.
Proof.
  intros xl xu fl fu Hx Hl Hu Hne. assert (Hp : 0 < fu - fl) by lra.
  assert (Hq : 0 <= fu / (fu - fl) <= 1).
  { split; [apply Rmult_le_pos; [lra | apply Rlt_le, Rinv_0_lt_compat; exact Hp]|].
    apply Rmult_le_reg_r with (fu - fl); [exact Hp|]. unfold Rdiv; rewrite Rmult_assoc, Rinv_l by lra. lra. }
  replace (fu * (xu - xl) / (fu - fl)) with (fu / (fu - fl) * (xu - xl)) by (field; lra).
  assert (0 <= fu / (fu - fl) * (xu - xl)) by (apply Rmult_le_pos; lra).
  assert (fu / (fu - fl) * (xu - xl) <= 1 * (xu - xl)) by (apply Rmult_le_compat_r; lra).
  lra.
Qed.

Lemma next_in : forall s, binv s -> s_f s <> Fin 0 ->
  nle (s_xl s) (next_x (Fin a) s) /\ nle (next_x (Fin a) s) (s_xu s).
Proof.
  intros s (B1 & B2 & B3 & B4 & Bf & Bp & Br & Bl & Bu) Hf0.
  unfold next_x. rewrite Bp, Bf. 
  assert (Hdx : exists dx, (if negb (is0 (Fin (D (s_x s)))) then ndiv (nopp (Fin (F (s_x s) - T))) (Fin (D (s_x s)))
      else ndiv (nopp (Fin (F (s_x s) - T))) (Fin a)) = Fin dx).
  { rewrite is0_fin. destruct (Reqb_spec (D (s_x s)) 0) as [E|E]; simpl.
    - rewrite (Reqb_false a 0) by lra. eexists; reflexivity.
    - rewrite (Reqb_false (D (s_x s)) 0) by exact E. eexists; reflexivity. }
  destruct Hdx as [dx ->].
  assert (Hxn : nle (nadd (s_x s) (Fin dx)) (nadd (s_x s) (Fin dx))).
  { destruct (s_x s); simpl in *; try exact I; try lra; destruct (s_xl s); contradiction. }
  assert (Hlu : nle (s_xl s) (s_xu s)) by (eapply nle_trans; eassumption).
  assert (FL : F (s_xl s) <= F (s_x s)) by (apply Hmono; [assumption | assumption | eapply nle_trans; eassumption]).
  assert (FU : F (s_x s) <= F (s_xu s)) by (apply Hmono; [eapply nle_trans; eassumption | assumption | assumption]).
  destruct (ngeb (nadd (s_x s) (Fin dx)) (s_xu s) || nleb (nadd (s_x s) (Fin dx)) (s_xl s)) eqn:C.
  - destruct (s_fu s) as [fu|] eqn:Efu.
    + destruct (s_fl s) as [fl|] eqn:Efl.
      * simpl in Bl, Bu; subst fl fu.
        destruct (s_xu s) as [xu| | |] eqn:Eu; destruct (s_xl s) as [xl| | |] eqn:El; simpl in *; try contradiction;
          try (split; exact I);
          try (exfalso; apply Hf0; rewrite Bf; f_equal; lra).
        -- (* secant *)
           assert (Hne : F (Fin xu) - T + - (F (Fin xl) - T) <> 0).
           { intros E. apply Hf0. rewrite Bf. f_equal.
             lra. }
           rewrite Reqb_false by exact Hne. simpl.
           pose proof (secant_in xl xu (F (Fin xl) - T) (F (Fin xu) - T) Hlu ltac:(lra) ltac:(lra) Hne) as HS.
           replace (xu + - ((F (Fin xu) - T) * (xu + - xl) / (F (Fin xu) - T + - (F (Fin xl) - T))))
             with (xu - (F (Fin xu) - T) * (xu - xl) / (F (Fin xu) - T - (F (Fin xl) - T)))
             by (unfold Rminus; reflexivity).
           exact HS.
        -- split; [exact I|]. pose proof (Rabs_pos xu). lra.
        -- split; [|exact I]. pose proof (Rabs_pos xl). lra.
      * split; [eapply nle_refl_l; exact B2 | exact Hlu].
    + split; [exact Hlu | eapply nle_refl_l; exact B4].
  - apply orb_false_elim in C; destruct C as [C1 C2].
    split.
    + destruct (nltb (nadd (s_x s) (Fin dx)) (s_xl s)) eqn:Q.
      * unfold nleb in C2. rewrite Q in C2. discriminate.
      * apply nltb_not_nle; [exact Hxn | eapply nle_refl_l; exact B2 | exact Q].
    + destruct (nltb (s_xu s) (nadd (s_x s) (Fin dx))) eqn:Q.
      * unfold ngeb, nleb in C1. rewrite Q in C1. discriminate.
      * apply nltb_not_nle; [eapply nle_refl_l; exact B4 | exact Hxn | exact Q].
Qed.

Lemma step_bracket : forall s, binv s -> s_f s <> Fin 0 ->
  exists s', solver_step fn (Fin T) (Fin a) s = Ok s' /\ binv s' /\
    nle (s_xl s) (s_xl s') /\ nle (s_xu s') (s_xu s) /\ nle (s_xl s') (s_xu s').
Proof.
  intros s B Hf0. destruct (next_in s B Hf0) as [N1 N2].
  destruct B as (B1 & B2 & B3 & B4 & Bf & Bp & Br & Bl & Bu).
  unfold solver_step. set (x := next_x (Fin a) s) in *.
  assert (X1 : nle xl0 x) by (eapply nle_trans; eassumption).
  assert (X2 : nle x xu0) by (eapply nle_trans; eassumption).
  destruct (Hfn x X1 X2) as [-> HD].
  unfold nsub; simpl nopp; simpl nadd.
  replace (F x + - T) with (F x - T) by ring.
  assert (Lxl : nle (s_xl s) (s_xl s)) by (eapply nle_refl_l; exact B2).
  assert (Lxu : nle (s_xu s) (s_xu s)) by (eapply nle_refl_l; exact B4).
  assert (Lx : nle x x) by (eapply nle_refl_r; exact N1).
  assert (Llu : nle (s_xl s) (s_xu s)) by exact (nle_trans _ _ _ N1 N2).
  unfold bracket, ngtb, ngeb. simpl nltb.
  rewrite (proj2 (nleb_nle x (s_xu s)) N2), (proj2 (nleb_nle (s_xl s) x) N1), !andb_true_r.
  destruct (Rltb_spec 0 (F x - T)) as [P1|P1]; destruct (Rltb_spec 0 (D x)) as [P2|P2]; simpl andb; cbv iota.
  - (* f > 0, f_p > 0 *)
    simpl. eexists; split; [reflexivity|]. unfold binv, fside; simpl.
    repeat split; try assumption; lra.
  - rewrite (Rltb_false (F x - T) 0) by lra. rewrite (Rltb_false (D x) 0) by lra. simpl andb; cbv iota.
    replace (is0 (Fin (D x))) with true by (symmetry; rewrite is0_fin; apply Reqb_true; lra).
    destruct (neqb x (s_xu s)) eqn:Q1; [|destruct (neqb x (s_xl s)) eqn:Q2].
    + apply neqb_eq in Q1. simpl. eexists; split; [reflexivity|]. unfold binv, fside; simpl.
      repeat split; try assumption; try lra; rewrite <- Q1; reflexivity.
    + apply neqb_eq in Q2. simpl. eexists; split; [reflexivity|]. unfold binv, fside; simpl.
      repeat split; try assumption; try lra; rewrite <- Q2; reflexivity.
    + simpl. eexists; split; [reflexivity|]. unfold binv; simpl. repeat split; try assumption; lra.
  - destruct (Rltb_spec (F x - T) 0) as [P3|P3]; simpl andb; cbv iota.
    + simpl. eexists; split; [reflexivity|]. unfold binv, fside; simpl.
      repeat split; try assumption; lra.
    + replace (is0 (Fin (D x))) with false by (symmetry; rewrite is0_fin; apply Reqb_false; lra).
      replace (is0 (Fin (F x - T))) with true by (symmetry; rewrite is0_fin; apply Reqb_true; lra).
      simpl. eexists; split; [reflexivity|]. unfold binv; simpl. repeat split; try assumption; lra.
  - rewrite (Rltb_false (D x) 0) by lra. rewrite !andb_false_r. simpl andb; cbv iota.
    replace (is0 (Fin (D x))) with true by (symmetry; rewrite is0_fin; apply Reqb_true; lra).
    destruct (neqb x (s_xu s)) eqn:Q1; [|destruct (neqb x (s_xl s)) eqn:Q2].
    + apply neqb_eq in Q1. simpl. eexists; split; [reflexivity|]. unfold binv, fside; simpl.
      repeat split; try assumption; try lra; rewrite <- Q1; reflexivity.
    + apply neqb_eq in Q2. simpl. eexists; split; [reflexivity|]. unfold binv, fside; simpl.
      repeat split; try assumption; try lra; rewrite <- Q2; reflexivity.
    + simpl. eexists; split; [reflexivity|]. unfold binv; simpl. repeat split; try assumption; lra.
Qed.

Definition xs_in (s : sstate) : Prop := Forall (fun x => nle xl0 x /\ nle x xu0) (s_xseq s).

Lemma step_xseq : forall s s', solver_step fn (Fin T) (Fin a) s = Ok s' -> s_xseq s' = s_xseq s ++ [s_x s'] /\ s_norm s' = nabs (s_f s').
Proof.
  intros s s' H. unfold solver_step in H. destruct (fn (next_x (Fin a) s)) as [f0 fp].
  match type of H with bind ?u _ = _ => destruct u as [[[[xl xu] fl] fu]|e] end; [|discriminate].
  simpl in H; injection H as <-. split; reflexivity.
Qed.

Lemma loop_bracket : forall rem s, binv s -> s_norm s = nabs (s_f s) -> xs_in s ->
  exists s', solver_loop fn (Fin T) (Fin a) (Fin rho) rem s = Ok s' /\ binv s' /\ xs_in s'.
Proof.
  induction rem as [|k IH]; intros s B Hn Hx; cbn [solver_loop].
  - exists s; auto.
  - destruct (ngtb (s_norm s) (nadd (Fin a) (nmul (Fin rho) (Fin T))) && ngtb (s_diff s) (Fin rho)) eqn:C;
      [|exists s; auto].
    apply andb_true_iff in C; destruct C as [C _].
    assert (Hf0 : s_f s <> Fin 0).
    { intros E. rewrite Hn, E in C. simpl in C. unfold ngtb in C; simpl in C. rewrite Rabs_R0 in C.
      rewrite Rltb_false in C by lra. discriminate. }
    destruct (step_bracket s B Hf0) as (s1 & E1 & B1 & _). rewrite E1; simpl.
    destruct (step_xseq s s1 E1) as [X1 X2].
    apply IH; [exact B1 | exact X2 |].
    unfold xs_in in *. rewrite X1. apply Forall_app; split; [exact Hx|].
    constructor; [|constructor]. destruct B1 as (Q1 & Q2 & Q3 & Q4 & _).
    split; eapply nle_trans; eassumption.
Qed.

Lemma init_cases : forall x0, nle xl0 x0 -> nle x0 xu0 ->
  (exists s, solver_init fn x0 (Fin T) (Fin a) xl0 xu0 None None = Ok (inl s) /\ xs_in s) \/
     (exists s, solver_init fn x0 (Fin T) (Fin a) xl0 xu0 None None = Ok (inr s) /\ binv s /\ s_norm s = nabs (s_f s) /\ xs_in s).
Proof.
  intros x0 H1 H2.
  assert (Lx : nle x0 x0) by (eapply nle_refl_l; exact H2).
  assert (Ll : nle xl0 xl0) by (eapply nle_refl_l; exact H1).
  assert (Lu : nle xu0 xu0) by (eapply nle_refl_r; exact H2).
  destruct (Hfn x0 H1 H2) as [E HD].
  unfold solver_init. rewrite E. simpl nopp; simpl nadd. replace (F x0 + - T) with (F x0 - T) by ring.
    unfold ngtb. rewrite (nle_nltb _ _ H2), (nle_nltb _ _ H1). simpl orb; cbv iota.
    simpl nabs. simpl nltb. destruct (Rltb_spec (Rabs (F x0 - T)) a) as [Q|Q].
    - left. eexists; split; [reflexivity|]. unfold xs_in; simpl. constructor; auto.
    - right. assert (Hne : F x0 - T <> 0) by (intros K; rewrite K, Rabs_R0 in Q; lra).
      unfold bracket, ngtb, ngeb. simpl nltb.
      rewrite (proj2 (nleb_nle x0 xu0) H2), (proj2 (nleb_nle xl0 x0) H1), !andb_true_r.
      destruct (Rltb_spec 0 (F x0 - T)) as [P1|P1]; destruct (Rltb_spec 0 (D x0)) as [P2|P2]; simpl andb; cbv iota.
      + eexists; split; [reflexivity|]. unfold binv, fside, xs_in; simpl. repeat split; try assumption; try lra.
        constructor; auto.
      + rewrite (Rltb_false (F x0 - T) 0) by lra. rewrite (Rltb_false (D x0) 0) by lra. simpl andb; cbv iota.
        replace (is0 (Fin (D x0))) with true by (symmetry; rewrite is0_fin; apply Reqb_true; lra).
        eexists; split; [reflexivity|]. unfold binv, fside, xs_in; simpl. repeat split; try assumption; try lra.
        constructor; auto.
      + rewrite (Rltb_true (F x0 - T) 0) by lra. simpl andb; cbv iota.
        eexists; split; [reflexivity|]. unfold binv, fside, xs_in; simpl. repeat split; try assumption; try lra.
        constructor; auto.
      + rewrite (Rltb_false (D x0) 0) by lra. rewrite !andb_false_r.
        replace (is0 (Fin (D x0))) with true by (symmetry; rewrite is0_fin; apply Reqb_true; lra).
        eexists; split; [reflexivity|]. unfold binv, fside, xs_in; simpl. repeat split; try assumption; try lra.
        constructor; auto.
Qed.

Lemma bracket_safe : forall x0 max_iter, nle xl0 x0 -> nle x0 xu0 ->
  exists sol, monotonic_newton_solver fn x0 (Fin T) (Fin a) (Fin rho) max_iter xl0 xu0 None None = Ok sol /\
    Forall (fun x => nle xl0 x /\ nle x xu0) (sol_x_seq sol).
Proof.
  intros x0 max_iter H1 H2.
  pose proof (init_cases x0 H1 H2) as HI.
  unfold monotonic_newton_solver.
  destruct HI as [(s & Es & X)|(s & Es & B & N & X)]; rewrite Es; simpl bind.
  - destruct (init_trace fn (Fin T) (Fin a) x0 xl0 xu0 None None s (or_introl Es)) as [Tr _].
    rewrite (finish_ok fn (Fin T) (Fin a) (Fin rho) x0 0 max_iter s Tr). eexists; split; [reflexivity | exact X].
  - destruct (init_trace fn (Fin T) (Fin a) x0 xl0 xu0 None None s (or_intror Es)) as [Tr _].
    destruct (loop_bracket max_iter s B N X) as (s' & E' & B' & X'). rewrite E'; simpl bind.
    destruct (loop_trace fn (Fin T) (Fin a) (Fin rho) max_iter x0 0 s s' Tr E') as (n' & Tr' & _).
    rewrite (finish_ok fn (Fin T) (Fin a) (Fin rho) x0 n' max_iter s' Tr'). eexists; split; [reflexivity | exact X'].
Qed.
(** The states the loop goes through, from the state [s0] it is entered with. *)
Inductive visited (s0 : sstate) : sstate -> Prop :=
| visited_start : visited s0 s0
| visited_step : forall s s', visited s0 s ->
    ngtb (s_norm s) (nadd (Fin a) (nmul (Fin rho) (Fin T))) && ngtb (s_diff s) (Fin rho) = true ->
    solver_step fn (Fin T) (Fin a) s = Ok s' -> visited s0 s'.

Lemma test_nonzero : forall s, s_norm s = nabs (s_f s) ->
  ngtb (s_norm s) (nadd (Fin a) (nmul (Fin rho) (Fin T))) && ngtb (s_diff s) (Fin rho) = true ->
  s_f s <> Fin 0.
Proof.
  intros s Hn Ht E. rewrite Hn, E in Ht. cbn in Ht. rewrite Rabs_R0, Rltb_false in Ht by exact Htol. discriminate.
Qed.

Lemma init_binv : forall x0 s, nle xl0 x0 -> nle x0 xu0 ->
  solver_init fn x0 (Fin T) (Fin a) xl0 xu0 None None = Ok (inr s) -> binv s /\ s_norm s = nabs (s_f s).
Proof.
  intros x0 s H1 H2 Hi. destruct (init_cases x0 H1 H2) as [(s' & E & _)|(s' & E & B & N & _)]; rewrite Hi in E;
    [discriminate|]. injection E as <-. auto.
Qed.

Lemma visited_bracket : forall x0 s0, nle xl0 x0 -> nle x0 xu0 ->
  solver_init fn x0 (Fin T) (Fin a) xl0 xu0 None None = Ok (inr s0) ->
  forall s, visited s0 s ->
  nle xl0 (s_xl s) /\ nle (s_xl s) (s_x s) /\ nle (s_x s) (s_xu s) /\ nle (s_xu s) xu0 /\
  (ngtb (s_norm s) (nadd (Fin a) (nmul (Fin rho) (Fin T))) && ngtb (s_diff s) (Fin rho) = true ->
   exists s', solver_step fn (Fin T) (Fin a) s = Ok s' /\
     nle (s_xl s) (s_xl s') /\ nle (s_xl s') (s_xu s') /\ nle (s_xu s') (s_xu s)).
Proof.
  intros x0 s0 H1 H2 Hi.
  assert (X : forall s, visited s0 s -> binv s /\ s_norm s = nabs (s_f s)).
  { induction 1 as [|s s' Hv IH Ht Hs].
    - exact (init_binv x0 s0 H1 H2 Hi).
    - destruct IH as [B Hn]. destruct (step_bracket s B (test_nonzero s Hn Ht)) as (s2 & E & B2 & _).
      rewrite Hs in E; injection E as <-. split; [exact B2|]. apply (step_xseq s s' Hs). }
  intros s Hv. destruct (X s Hv) as [B Hn].
  destruct B as (B1 & B2 & B3 & B4 & B5). repeat split; try assumption.
  intros Ht. destruct (step_bracket s) as (s' & E & _ & Q1 & Q2 & Q3).
  - repeat split; try assumption; apply B5.
  - exact (test_nonzero s Hn Ht).
  - exists s'. auto.
Qed.

End Bracket.

(** ** Starting exactly at a root *)
Lemma exact_start : forall fn x0 T a rho max_iter xl xu fp,
  fn x0 = (Fin T, fp) -> nle xl x0 -> nle x0 xu -> 0 < a -> 0 <= a + rho * T ->
  exists sol, monotonic_newton_solver fn x0 (Fin T) (Fin a) (Fin rho) max_iter xl xu None None = Ok sol /\
    sol_x sol = x0 /\ sol_n_iter sol = O /\ sol_x_seq sol = [x0] /\ sol_converged sol = true.
Proof.
  intros fn x0 T a rho mi xl xu fp E H1 H2 Ha Ht. unfold monotonic_newton_solver, solver_init. rewrite E.
  unfold ngtb. rewrite (nle_nltb _ _ H2), (nle_nltb _ _ H1). cbn -[Rltb Rabs].
  replace (T + - T) with 0 by ring. rewrite Rabs_R0, Rltb_true by exact Ha.
  eexists; split; [reflexivity|]. cbn -[Rltb Reqb]. repeat split.
  unfold nleb, nltb, neqb. destruct (Rltb_spec 0 (a + rho * T)); [reflexivity|]. apply Reqb_true; lra.
Qed.

(** ** Running the solver on concrete data *)
Lemma run_solver : forall fn x0 target atol rtol mi xl xu fl fu s0 s1 sol,
  solver_init fn x0 target atol xl xu fl fu = Ok (inr s0) ->
  solver_loop fn target atol rtol mi s0 = Ok s1 ->
  finish target mi atol rtol s1 = Ok sol ->
  monotonic_newton_solver fn x0 target atol rtol mi xl xu fl fu = Ok sol.
Proof. intros * E1 E2 E3. unfold monotonic_newton_solver. rewrite E1. simpl bind. rewrite E2. exact E3. Qed.
Lemma loop_go : forall fn target atol rtol k s s' s1,
  ngtb (s_norm s) (nadd atol (nmul rtol target)) && ngtb (s_diff s) rtol = true ->
  solver_step fn target atol s = Ok s' -> solver_loop fn target atol rtol k s' = Ok s1 ->
  solver_loop fn target atol rtol (S k) s = Ok s1.
Proof. intros * E1 E2 E3. cbn [solver_loop]. rewrite E1, E2. exact E3. Qed.
Lemma loop_stop : forall fn target atol rtol k s,
  ngtb (s_norm s) (nadd atol (nmul rtol target)) && ngtb (s_diff s) rtol = false ->
  solver_loop fn target atol rtol k s = Ok s.
Proof. intros * E. destruct k; cbn [solver_loop]; [reflexivity|]. rewrite E. reflexivity. Qed.
