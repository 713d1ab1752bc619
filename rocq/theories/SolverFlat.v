(** The root finder on objectives that are flat at the upper bound: the bound is visited and left again. *)
From Verif Require Import Base Num Spec KernelFacts Solver SolverFacts.

Section Flat.
Variables (fn : num -> num * num) (F D : R -> R) (l u T a rho : R).
Hypothesis Hfn : forall x, l <= x <= u -> fn (Fin x) = (Fin (F x), Fin (D x)).
Hypothesis Hpos : forall x, l <= x < u -> 0 < D x.
Hypothesis Hflat : D u = 0.
Hypothesis Hl : F l < T.
Hypothesis Hu : T < F u.
Hypothesis Ha : 0 < a.

Definition alternates (xs : list num) : Prop :=
  forall i, nth_error xs i = Some (Fin u) -> nth_error xs (S i) <> Some (Fin u).

Record calm (s : sstate) : Prop := {
  c_b : exists xl xu, s_xl s = Fin xl /\ s_xu s = Fin xu /\ l <= xl /\ xl < xu /\ xu <= u /\
        (s_fl s = None /\ xl = l \/ exists b, s_fl s = Some (Fin b) /\ b < 0) /\
        (s_fu s = None /\ xu = u \/ exists b, s_fu s = Some (Fin b) /\ 0 < b);
  c_x : (s_x s = Fin u /\ s_fu s <> None /\ s_f s = Fin (F u - T) /\ s_fp s = Fin 0) \/
        exists x d, s_x s = Fin x /\ l <= x < u /\ s_f s = Fin (F x - T) /\ s_fp s = Fin d /\ 0 < d;
  c_seq : alternates (s_xseq s);
  c_last : exists xs, s_xseq s = xs ++ [s_x s];
  c_n : exists ns, s_nseq s = ns ++ [s_norm s];
  c_d : exists ds, s_dseq s = ds ++ [s_diff s]
}.

Lemma next_calm : forall s, calm s -> exists x xl xu, next_x (Fin a) s = Fin x /\ s_xl s = Fin xl /\ s_xu s = Fin xu /\
  ((xl < x < xu) \/ (x = u /\ xu = u /\ s_x s <> Fin u) \/ (x = xl /\ xl = l)).
Proof.
  intros s [(xl & xu & Exl & Exu & H1 & H2 & H3 & Cl & Cu) Cx _ _ _ _]. unfold next_x. rewrite Exl, Exu.
  assert (FB : forall g, (g = true -> exists x, (match s_fu s, s_fl s with
    | None, _ => Fin xu
    | Some _, None => Fin xl
    | Some fu, Some fl =>
        if isinf (Fin xu) then if isinf (Fin xl) then Fin 0 else nadd (Fin xl) (nmul (Fin 2) (nabs (Fin xl)))
        else if isinf (Fin xl) then nsub (Fin xu) (nmul (Fin 2) (nabs (Fin xu)))
        else nsub (Fin xu) (ndiv (nmul fu (nsub (Fin xu) (Fin xl))) (nsub fu fl))
    end) = Fin x /\ ((xl < x < xu) \/ (x = u /\ xu = u /\ s_x s <> Fin u) \/ (x = xl /\ xl = l)))).
  { intros _ _. destruct Cu as [[Eu ->]|(b & Eu & Hb)]; rewrite Eu.
    - exists u. split; [reflexivity|]. right; left. repeat split; auto.
      destruct Cx as [(E & K & _)|(x & d & E & Hx & _)]; [contradiction|]. rewrite E. intros K. injection K as K. lra.
    - destruct Cl as [[El ->]|(c & El & Hc)]; rewrite El.
      + exists l. split; [reflexivity|]. right; right. auto.
      + cbn [isinf nsub nadd nopp nmul ndiv]. rewrite (Reqb_false (b + - c) 0) by lra. cbn [nsub nadd nopp].
        eexists. split; [reflexivity|]. left.
        assert (0 < b * (xu + - xl) / (b + - c) < xu - xl); [|lra]. split.
        * apply Rdiv_lt_0_compat; [apply Rmult_lt_0_compat; lra | lra].
        * apply (Rmult_lt_reg_r (b + - c)); [lra|]. unfold Rdiv. rewrite Rmult_assoc, Rinv_l by lra. nra. }
  assert (XN : exists r, nadd (s_x s) (if negb (is0 (s_fp s)) then ndiv (nopp (s_f s)) (s_fp s) else ndiv (nopp (s_f s)) (Fin a)) = Fin r).
  { destruct Cx as [(E & _ & Ef & Ep)|(x & d & E & Hx & Ef & Ep & Hd)]; rewrite E, Ef, Ep; cbn [is0 neqb nopp].
    - rewrite (Reqb_true 0 0) by reflexivity. cbn [negb ndiv]. rewrite (Reqb_false a 0) by lra. eexists; reflexivity.
    - rewrite (Reqb_false d 0) by lra. cbn [negb ndiv]. rewrite (Reqb_false d 0) by lra. eexists; reflexivity. }
  destruct XN as (r & XN). cbv zeta. rewrite XN.
  destruct (ngeb (Fin r) (Fin xu) || nleb (Fin r) (Fin xl)) eqn:EB.
  - destruct (FB true eq_refl) as (x & E & Hx). exists x, xl, xu. auto.
  - exists r, xl, xu. repeat split; auto. left. apply orb_false_elim in EB. destruct EB as [B1 B2].
    unfold ngeb in B1. split; apply Rnot_le_lt; intros K.
    + assert (nleb (Fin r) (Fin xl) = true) by (apply nleb_nle; exact K). congruence.
    + assert (nleb (Fin xu) (Fin r) = true) by (apply nleb_nle; exact K). congruence.
Qed.

Lemma alternates_app : forall xs x y, alternates (xs ++ [x]) -> (x = Fin u -> y <> Fin u) -> alternates ((xs ++ [x]) ++ [y]).
Proof.
  intros xs x y A2 Hxy i Hi. destruct (Nat.lt_trichotomy (S i) (length (xs ++ [x]))) as [H|[H|H]].
  - rewrite nth_error_app1 by exact H. apply A2. rewrite nth_error_app1 in Hi by lia. exact Hi.
  - rewrite nth_error_app2 by lia. rewrite H, Nat.sub_diag. simpl. intros K. injection K as K.
    revert K. apply Hxy. rewrite app_length in H. simpl in H. rewrite nth_error_app1 in Hi by (rewrite app_length; simpl; lia).
    rewrite nth_error_app2 in Hi by lia. replace (i - length xs)%nat with 0%nat in Hi by lia. simpl in Hi. injection Hi as Hi. exact Hi.
  - replace (nth_error ((xs ++ [x]) ++ [y]) (S i)) with (@None num); [discriminate|]. symmetry. apply nth_error_None.
    rewrite app_length. simpl. lia.
Qed.

(** The bracket update at a point below the upper bound. *)
Lemma bracket_calm : forall x xl xu fl fu, l <= x < u -> F x <> T -> xl <= x <= xu ->
  (x = xl -> xl = l) -> l <= xl -> (x = xu -> F x < T -> False) -> xl < xu -> xu <= u ->
  (fl = None /\ xl = l \/ exists b, fl = Some (Fin b) /\ b < 0) ->
  (fu = None /\ xu = u \/ exists b, fu = Some (Fin b) /\ 0 < b) ->
  exists xl' xu' fl' fu', bracket (Fin x) (Fin (F x - T)) (Fin (D x)) (Fin xl) (Fin xu) fl fu = Some (Fin xl', Fin xu', fl', fu') /\
   l <= xl' /\ xl' < xu' /\ xu' <= u /\
   (fl' = None /\ xl' = l \/ exists b, fl' = Some (Fin b) /\ b < 0) /\
   (fu' = None /\ xu' = u \/ exists b, fu' = Some (Fin b) /\ 0 < b).
Proof.
  intros x xl xu fl fu Hx Hf Hb Hxl Hlx Hxu Hlu Huu Cl Cu. pose proof (Hpos x Hx) as Hd.
  unfold bracket, ngtb, ngeb. cbn [nltb].
  rewrite (Rltb_true 0 (D x)), (Rltb_false (D x) 0) by lra. rewrite !andb_true_r, !andb_false_r. cbn [andb].
  assert (E1 : nleb (Fin x) (Fin xu) = true) by (apply nleb_nle; apply Hb).
  assert (E2 : nleb (Fin xl) (Fin x) = true) by (apply nleb_nle; apply Hb). rewrite E1, E2.
  destruct (Rltb_spec 0 (F x - T)) as [H|H]; cbn [andb].
  - exists xl, x, fl, (Some (Fin (F x - T))). split; [reflexivity|]. split; [lra|].
    split; [|split; [lra|split; [exact Cl|right; eexists; split; [reflexivity|lra]]]].
    destruct (Req_dec x xl) as [E|E]; [|lra]. specialize (Hxl E). subst. lra.
  - rewrite (Rltb_true (F x - T) 0) by lra. cbn [andb]. exists x, xu, (Some (Fin (F x - T))), fu. split; [reflexivity|]. split; [lra|].
    split; [|split; [lra|split; [right; eexists; split; [reflexivity|lra]|exact Cu]]].
    destruct (Req_dec x xu) as [E|E]; [|lra]. exfalso. apply Hxu; lra.
Qed.

Lemma step_calm : forall s, calm s -> exists s', solver_step fn (Fin T) (Fin a) s = Ok s' /\ calm s'.
Proof.
  intros s C. destruct (next_calm s C) as (x & xl & xu & En & Exl & Exu & Hx).
  destruct C as [(xl1 & xu1 & Exl1 & Exu1 & H1 & H2 & H3 & Cl & Cu) Cx Cs (xs & Cla) Cn Cd].
  rewrite Exl in Exl1. injection Exl1 as <-. rewrite Exu in Exu1. injection Exu1 as <-.
  unfold solver_step. rewrite En.
  assert (Hr : l <= x <= u) by lra. rewrite (Hfn x Hr).
  assert (SQ : (s_x s = Fin u -> x <> u) -> alternates (s_xseq s ++ [Fin x])).
  { intros K. rewrite Cla. apply alternates_app; [rewrite <- Cla; exact Cs|]. intros E E'. injection E' as E'. exact (K E E'). }
  cbn [nsub nadd nopp]. change (F x + - T) with (F x - T). rewrite Exl, Exu.
  destruct (Req_dec x u) as [->|Hxu].
  - destruct Hx as [Hx|[(_ & -> & Hne)|Hx]]; [lra| |lra].
    assert (B : bracket (Fin u) (Fin (F u - T)) (Fin (D u)) (Fin xl) (Fin u) (s_fl s) (s_fu s) = None).
    { unfold bracket, ngtb. cbn [nltb]. rewrite Hflat, (Rltb_false 0 0) by lra. rewrite !andb_false_r. reflexivity. }
    rewrite B, Hflat. cbn [is0 neqb]. rewrite (Reqb_true 0 0), (Reqb_true u u) by reflexivity. cbn [bind].
    eexists. split; [reflexivity|]. constructor; cbn.
    + exists xl, u. repeat split; auto. right. eexists; split; [reflexivity|lra].
    + left. repeat split. discriminate.
    + apply SQ. intros K. contradiction.
    + exists (s_xseq s). reflexivity.
    + eexists. reflexivity.
    + eexists. reflexivity.
  - assert (Hlx : l <= x < u) by lra. pose proof (Hpos x Hlx) as Hd.
    assert (SQ' : alternates (s_xseq s ++ [Fin x])) by (apply SQ; auto).
    destruct (Req_dec (F x) T) as [HF|HF].
    + assert (B : bracket (Fin x) (Fin (F x - T)) (Fin (D x)) (Fin xl) (Fin xu) (s_fl s) (s_fu s) = None).
      { unfold bracket, ngtb. cbn [nltb]. rewrite HF, Rminus_diag_eq, (Rltb_false 0 0) by lra. reflexivity. }
      rewrite B. cbn [is0 neqb]. rewrite (Reqb_false (D x) 0) by lra. rewrite (Reqb_true (F x - T) 0) by lra. cbn [bind].
      eexists. split; [reflexivity|]. constructor; cbn; auto.
      * exists xl, xu. repeat split; auto.
      * right. exists x, (D x). repeat split; auto; lra.
      * exists (s_xseq s). reflexivity.
      * eexists. reflexivity.
      * eexists. reflexivity.
    + destruct (bracket_calm x xl xu (s_fl s) (s_fu s) Hlx HF) as (xl' & xu' & fl' & fu' & B & K1 & K2 & K3 & K4 & K5); auto; try lra.
      rewrite B. cbn [bind]. eexists. split; [reflexivity|]. constructor; cbn; auto.
      * exists xl', xu'. repeat split; auto.
      * right. exists x, (D x). repeat split; auto; lra.
      * exists (s_xseq s). reflexivity.
      * eexists. reflexivity.
      * eexists. reflexivity.
Qed.

Lemma loop_calm : forall n s, calm s -> exists s', solver_loop fn (Fin T) (Fin a) (Fin rho) n s = Ok s' /\ calm s'.
Proof.
  induction n as [|n IH]; intros s C; cbn [solver_loop]; [exists s; auto|].
  destruct (_ && _); [|exists s; auto].
  destruct (step_calm s C) as (s1 & E1 & C1). rewrite E1. cbn [bind]. apply IH. exact C1.
Qed.

Lemma flat_bound_left : forall x0 max_iter, l <= x0 < u -> exists sol,
  monotonic_newton_solver fn (Fin x0) (Fin T) (Fin a) (Fin rho) max_iter (Fin l) (Fin u) None None = Ok sol /\
  alternates (sol_x_seq sol).
Proof.
  intros x0 max_iter Hx. unfold monotonic_newton_solver.
  assert (A0 : alternates [Fin x0]).
  { intros [|i] Hi; simpl in Hi; [injection Hi as Hi; lra|]. destruct i; discriminate. }
  pose proof (Hpos x0 Hx) as Hd.
  assert (B0 : ngtb (Fin x0) (Fin u) || nltb (Fin x0) (Fin l) = false).
  { unfold ngtb. cbn [nltb]. rewrite !Rltb_false by lra. reflexivity. }
  unfold solver_init. rewrite (Hfn x0) by lra. cbn [nadd nopp]. rewrite B0. change (F x0 + - T) with (F x0 - T).
  destruct (nltb (nabs (Fin (F x0 - T))) (Fin a)) eqn:EN.
  - cbn [bind]. unfold finish, make_solution. cbn. eexists. split; [reflexivity|]. exact A0.
  - assert (HF : F x0 <> T).
    { intros K. rewrite K, Rminus_diag_eq in EN by reflexivity. cbn [nabs nltb] in EN. rewrite Rabs_R0, (Rltb_true 0 a) in EN by lra. discriminate. }
    destruct (bracket_calm x0 l u None None Hx HF) as (xl' & xu' & fl' & fu' & B & K1 & K2 & K3 & K4 & K5); auto; try lra.
    rewrite B. cbn [bind].
    destruct (loop_calm max_iter (mkS (Fin x0) (Fin (F x0 - T)) (Fin (D x0)) (nabs (Fin (F x0 - T))) (Fin 1) (Fin xl') (Fin xu') fl' fu' 0
        [Fin (F x0 - T)] [Fin x0] [nabs (Fin (F x0 - T))] [Fin 1])) as (s' & EL & C).
    + constructor; cbn.
      * exists xl', xu'. repeat split; auto.
      * right. exists x0, (D x0). repeat split; auto; lra.
      * exact A0.
      * exists []. reflexivity.
      * exists []. reflexivity.
      * exists []. reflexivity.
    + rewrite EL. cbn [bind]. destruct C as [_ _ Cs _ (ns & En) (ds & Ed)]. unfold finish, make_solution. rewrite En, Ed, !rev_app_distr.
      cbn. eexists. split; [reflexivity|]. exact Cs.
Qed.
End Flat.
