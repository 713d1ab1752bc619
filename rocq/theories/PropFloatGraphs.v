(** C113: strengths and total weights of weighted graphs in double precision. *)
From Verif Require Import Base Num Spec Lib Graphs GraphFacts CondDist Float FloatFacts FloatSolverFacts PropFloat FloatRankFacts FloatGraphs.
Import Num Spec.
From Coq Require Import Lra Lia Permutation.

Open Scope R_scope.
Local Notation hits := Graphs.hits.

Local Notation edge := (nat * nat * R)%type.
Definition src (t : edge) : nat := fst (fst t).
Definition dst (t : edge) : nat := snd (fst t).
Definition wt (t : edge) : R := snd t.

(** * Sums in any order *)
Inductive summed (rn : R -> num) : list edge -> num -> Prop :=
| summed_nil : summed rn [] (Fin 0)
| summed_one : forall t, summed rn [t] (Fin (wt t))
| summed_add : forall l l' a b, summed rn l a -> summed rn l' b -> summed rn (l ++ l') (radd rn a b)
| summed_perm : forall l l' a, Permutation l l' -> summed rn l a -> summed rn l' a.

Definition reorders (order : list num -> plan) : Prop := forall l, l <> [] -> Permutation (leaves (order l)) l.

Section Orders.
Variable rn : R -> num.

Lemma plan_summed : forall t ls, Forall2 (fun a l => summed rn l a) (leaves t) ls -> summed rn (concat ls) (rplan rn t).
Proof.
  induction t as [a | l IHl r IHr]; intros ls H; cbn [leaves rplan] in *.
  - inversion H as [|? x ? ? Hx Hn]; subst. inversion Hn; subst. cbn. rewrite app_nil_r. exact Hx.
  - apply Forall2_app_inv_l in H as (l1 & l2 & H1 & H2 & ->). rewrite concat_app. apply summed_add; auto.
Qed.
Lemma concat_perm : forall A (l l' : list (list A)), Permutation l l' -> Permutation (concat l) (concat l').
Proof.
  intros A l l' P. induction P; cbn; [constructor | apply Permutation_app_head; assumption | | etransitivity; eassumption].
  rewrite !app_assoc. apply Permutation_app_tail, Permutation_app_comm.
Qed.
Lemma total_summed : forall X order (f : X -> num) (g : X -> list edge) xs, reorders order -> (forall x, In x xs -> summed rn (g x) (f x)) ->
  summed rn (flat_map g xs) (rtotal rn order (map f xs)).
Proof.
  intros X order f g xs O H. destruct xs as [|x xs]; [constructor|]. unfold rtotal. cbn [map].
  assert (F : Forall2 (fun a l => summed rn l a) (map f (x :: xs)) (map g (x :: xs))).
  { revert H. generalize (x :: xs). induction l as [|y l IH]; intros H; cbn; constructor; [apply H; left; reflexivity | apply IH; intros; apply H; right; assumption]. }
  destruct (Permutation_Forall2 (Permutation_sym (O (map f (x :: xs)) ltac:(discriminate))) F) as (ls & P & F').
  apply summed_perm with (concat ls); [|apply plan_summed; exact F']. rewrite flat_map_concat_map. apply concat_perm. symmetry. exact P.
Qed.

(** * Tables split by a key *)
Lemma filter_or : forall (p q : edge -> bool) e, (forall t, In t e -> p t && q t = false) -> Permutation (filter p e ++ filter q e) (filter (fun t => p t || q t) e).
Proof.
  intros p q. induction e as [|t e IH]; intros H; [constructor|]. cbn [filter]. pose proof (H t (or_introl eq_refl)) as Ht.
  assert (I : Permutation (filter p e ++ filter q e) (filter (fun t => p t || q t) e)) by (apply IH; intros; apply H; right; assumption).
  destruct (p t), (q t); try discriminate; cbn [orb app]; [constructor; exact I | | exact I].
  etransitivity; [symmetry; apply Permutation_middle | constructor; exact I].
Qed.
Lemma filter_same : forall (p q : edge -> bool) e, (forall t, In t e -> p t = q t) -> filter p e = filter q e.
Proof.
  induction e as [|t e IH]; intros H; [reflexivity|]. cbn. rewrite (H t (or_introl eq_refl)), IH; [reflexivity | intros; apply H; right; assumption].
Qed.
Lemma split_key : forall (p : edge -> bool) (key : edge -> nat) e ks, NoDup ks ->
  Permutation (flat_map (fun k => filter (fun t => p t && Nat.eqb (key t) k) e) ks) (filter (fun t => p t && existsb (Nat.eqb (key t)) ks) e).
Proof.
  intros p key e. induction ks as [|k ks IH]; intros ND.
  - cbn. rewrite (filter_same _ (fun _ => false)); [|intros; apply andb_false_r]. clear. induction e; [constructor | assumption].
  - inversion ND as [|? ? Nk ND']; subst. cbn [flat_map]. etransitivity; [apply Permutation_app_head, IH, ND'|].
    rewrite (filter_same (fun t => p t && existsb (Nat.eqb (key t)) (k :: ks)) (fun t => p t && Nat.eqb (key t) k || p t && existsb (Nat.eqb (key t)) ks)).
    1: apply filter_or.
    + intros t _. destruct (p t); [|reflexivity]. cbn [andb]. destruct (Nat.eqb_spec (key t) k) as [E|]; [|reflexivity]. cbn [andb].
      destruct (existsb (Nat.eqb (key t)) ks) eqn:X; [|reflexivity]. exfalso. apply existsb_exists in X as (z & Hz & Ez). apply Nat.eqb_eq in Ez. subst z. congruence.
    + intros t _. cbn [existsb]. destruct (p t); reflexivity.
Qed.
Lemma split_all : forall (p : edge -> bool) (key : edge -> nat) e ks, NoDup ks -> (forall t, In t e -> p t = true -> In (key t) ks) ->
  Permutation (flat_map (fun k => filter (fun t => p t && Nat.eqb (key t) k) e) ks) (filter p e).
Proof.
  intros p key e ks ND H. etransitivity; [apply split_key, ND|]. rewrite (filter_same _ p); [apply Permutation_refl|].
  intros t Ht. destruct (p t) eqn:E; [|reflexivity]. cbn [andb]. apply existsb_exists. exists (key t). split; [apply H; assumption | apply Nat.eqb_refl].
Qed.

Variables dup axis whole : list num -> plan.
Hypothesis Hdup : reorders dup.
Hypothesis Haxis : reorders axis.
Hypothesis Hwhole : reorders whole.
Variables (N : nat) (e : list edge).
Hypothesis He : forall t, In t e -> (src t < N)%nat /\ (dst t < N)%nat.

Definition cell (i j : nat) : num := rtotal rn dup (map (fun t => Fin (snd t)) (filter (hits i j) e)).

Lemma cell_summed : forall i j, summed rn (filter (hits i j) e) (cell i j).
Proof.
  intros i j. unfold cell. eapply summed_perm; [|apply (total_summed _ dup (fun t => Fin (wt t)) (fun t => [t])); [exact Hdup | intros; apply summed_one]].
  generalize (filter (hits i j) e). induction l as [|t l IH]; [constructor | cbn; constructor; exact IH].
Qed.
Lemma hit_in : forall i j t, In t e -> hits i j t = true -> existsb (hits i j) e = true.
Proof. intros i j t Ht H. apply existsb_exists. eauto. Qed.
Lemma hits_eq : forall i j t, hits i j t = Nat.eqb (src t) i && Nat.eqb (dst t) j. Proof. reflexivity. Qed.
Lemma cols_NoDup : forall (p : nat -> bool), NoDup (filter p (seq 0 N)). Proof. intros p. apply NoDup_filter, seq_NoDup. Qed.

Lemma out_summed : forall i, summed rn (filter (fun t => Nat.eqb (src t) i) e) (rout_strength rn dup axis N e i).
Proof.
  intros i. unfold rout_strength, rsum_axis1, rcoo_row. rewrite map_map. cbn [snd].
  eapply summed_perm; [|apply (total_summed _ axis (cell i) (fun j => filter (hits i j) e)); [exact Haxis | intros; apply cell_summed]].
  apply (split_all (fun t => Nat.eqb (src t) i) dst); [apply cols_NoDup|]. intros t Ht Hp. apply filter_In. split.
  - apply in_seq. destruct (He t Ht). lia.
  - apply (hit_in _ _ t Ht). rewrite hits_eq, Hp, Nat.eqb_refl. reflexivity.
Qed.
Lemma column : forall j l, (j < N)%nat -> map snd (flat_map (fun i => filter (fun p => Nat.eqb (fst p) j) (rcoo_row rn dup N e i)) l) =
  map (fun i => cell i j) (filter (fun i => existsb (hits i j) e) l).
Proof.
  intros j l Hj. induction l as [|i l IH]; [reflexivity|]. cbn [flat_map filter]. rewrite map_app, IH.
  assert (E : filter (fun p => Nat.eqb (fst p) j) (rcoo_row rn dup N e i) = if existsb (hits i j) e then [(j, cell i j)] else []).
  { unfold rcoo_row. fold (cell i). clear IH l. assert (G : forall l, NoDup l -> filter (fun p => Nat.eqb (fst p) j) (map (fun j => (j, cell i j)) (filter (fun j => existsb (hits i j) e) l)) =
      if existsb (Nat.eqb j) l && existsb (hits i j) e then [(j, cell i j)] else []).
    { induction l as [|k l IH]; intros ND; [reflexivity|]. inversion ND as [|? ? Nk ND']; subst. cbn [filter existsb]. destruct (Nat.eqb_spec j k) as [<-|D].
      - assert (X : existsb (Nat.eqb j) l = false).
        { destruct (existsb (Nat.eqb j) l) eqn:X; [|reflexivity]. apply existsb_exists in X as (z & Hz & Ez). apply Nat.eqb_eq in Ez. subst z. contradiction. }
        rewrite X in IH. cbn [orb andb] in *. destruct (existsb (hits i j) e); cbn [map filter fst]; [rewrite Nat.eqb_refl|]; rewrite IH by assumption; reflexivity.
      - cbn [orb]. destruct (existsb (hits i k) e); cbn [map filter fst]; [rewrite (proj2 (Nat.eqb_neq k j)) by congruence|]; apply IH; assumption. }
    specialize (G (seq 0 N) (seq_NoDup N 0)). unfold cell in *. rewrite G. replace (existsb (Nat.eqb j) (seq 0 N)) with true; [reflexivity|].
    symmetry. apply existsb_exists. exists j. split; [apply in_seq; lia | apply Nat.eqb_refl]. }
  rewrite E. destruct (existsb (hits i j) e); reflexivity.
Qed.
Lemma in_summed : forall j, (j < N)%nat -> summed rn (filter (fun t => Nat.eqb (dst t) j) e) (rin_strength rn dup axis N e j).
Proof.
  intros j Hj. unfold rin_strength, rsum_axis0. rewrite (column j (seq 0 N) Hj).
  eapply summed_perm; [|apply (total_summed _ axis (fun i => cell i j) (fun i => filter (hits i j) e)); [exact Haxis | intros; apply cell_summed]].
  rewrite (flat_map_ext _ (fun i => filter (fun t => Nat.eqb (dst t) j && Nat.eqb (src t) i) e)).
  2:{ intros i. apply filter_same. intros t _. rewrite hits_eq. apply andb_comm. }
  apply (split_all (fun t => Nat.eqb (dst t) j) src); [apply cols_NoDup|]. intros t Ht Hp. apply filter_In. split.
  - apply in_seq. destruct (He t Ht). lia.
  - apply (hit_in _ _ t Ht). rewrite hits_eq, Hp, Nat.eqb_refl. reflexivity.
Qed.
Lemma filter_true : forall (l : list edge), filter (fun _ => true) l = l.
Proof. induction l; cbn; congruence. Qed.
Lemma total_out_summed : summed rn e (rdi_total_weight rn dup axis whole N e).
Proof.
  unfold rdi_total_weight, rsum_all.
  eapply summed_perm; [|apply (total_summed _ whole _ (fun i => filter (fun t => Nat.eqb (src t) i) e)); [exact Hwhole | intros i _; apply out_summed]].
  etransitivity; [apply (split_all (fun _ => true) src e) | rewrite filter_true; apply Permutation_refl]; [apply seq_NoDup|].
  intros t Ht _. apply in_seq. destruct (He t Ht). lia.
Qed.

(** Undirected graphs. *)
Lemma no_hits : forall i j, existsb (hits i j) e = false -> filter (hits i j) e = [].
Proof.
  intros i j H. rewrite (filter_same _ (fun _ => false)); [clear; induction e; [reflexivity | assumption]|].
  intros t Ht. destruct (hits i j t) eqn:E; [|reflexivity]. rewrite (hit_in _ _ t Ht E) in H. discriminate.
Qed.
Lemma get_row : forall i j, (j < N)%nat -> rget (rcoo_row rn dup N e i) j = cell i j.
Proof.
  intros i j Hj. unfold rcoo_row. assert (G : forall l, rget (map (fun j => (j, cell i j)) (filter (fun j => existsb (hits i j) e) l)) j = if existsb (Nat.eqb j) l then cell i j else Fin 0).
  { induction l as [|k l IH]; [reflexivity|]. cbn [filter existsb]. destruct (existsb (hits i k) e) eqn:X; cbn [map rget].
    - rewrite (Nat.eqb_sym j k). destruct (Nat.eqb_spec k j) as [->|]; [reflexivity | exact IH].
    - rewrite IH. destruct (Nat.eqb_spec j k) as [->|]; [|reflexivity]. cbn [orb]. unfold cell. rewrite (no_hits _ _ X). destruct (existsb _ l); reflexivity. }
  specialize (G (seq 0 N)). unfold cell in *. rewrite G. replace (existsb (Nat.eqb j) (seq 0 N)) with true; [reflexivity|].
  symmetry. apply existsb_exists. exists j. split; [apply in_seq; lia | apply Nat.eqb_refl].
Qed.
Lemma has_row : forall i j t, In t e -> hits i j t = true -> existsb (Nat.eqb j) (map fst (rcoo_row rn dup N e i)) = true.
Proof.
  intros i j t Ht H. apply existsb_exists. exists j. split; [|apply Nat.eqb_refl]. unfold rcoo_row. rewrite map_map. cbn [fst]. rewrite map_id. apply filter_In.
  split; [|apply (hit_in _ _ t Ht H)]. rewrite hits_eq in H. apply andb_prop in H as [_ H]. apply Nat.eqb_eq in H. apply in_seq. destruct (He t Ht). lia.
Qed.

Hypothesis Hloop : forall i, (i < N)%nat -> rsub rn (radd rn (cell i i) (cell i i)) (cell i i) = cell i i.

Definition touches (i : nat) (t : edge) : bool := Nat.eqb (src t) i || Nat.eqb (dst t) i.
Definition other (i : nat) (t : edge) : nat := if Nat.eqb (src t) i then dst t else src t.

Lemma entry_summed : forall i j, (i < N)%nat -> (j < N)%nat ->
  summed rn (filter (fun t => touches i t && Nat.eqb (other i t) j) e)
    (let s := radd rn (rget (rcoo_row rn dup N e i) j) (rget (rcoo_row rn dup N e j) i) in if Nat.eqb i j then rsub rn s (rget (rcoo_row rn dup N e i) i) else s).
Proof.
  intros i j Hi Hj. rewrite !get_row by assumption. cbv zeta. destruct (Nat.eqb_spec i j) as [<-|D].
  - rewrite Hloop by exact Hi. rewrite (filter_same _ (hits i i)); [apply cell_summed|]. intros t _. rewrite hits_eq. unfold touches, other.
    destruct (Nat.eqb (src t) i) eqn:E; [reflexivity|]. rewrite E. destruct (Nat.eqb (dst t) i); reflexivity.
  - apply summed_perm with (filter (hits i j) e ++ filter (hits j i) e); [|apply summed_add; apply cell_summed].
    etransitivity; [apply filter_or|].
    + intros t _. rewrite !hits_eq. destruct (Nat.eqb_spec (src t) i) as [->|]; [|reflexivity]. rewrite (proj2 (Nat.eqb_neq i j) D). apply andb_false_r.
    + rewrite (filter_same _ (fun t => touches i t && Nat.eqb (other i t) j)); [apply Permutation_refl|]. intros t _. rewrite !hits_eq. unfold touches, other.
      destruct (Nat.eqb_spec (src t) i) as [->|]; [rewrite (proj2 (Nat.eqb_neq i j) D); cbn [andb orb]; apply orb_false_r|].
      cbn [andb orb]. apply andb_comm.
Qed.
Lemma strength_summed : forall i, (i < N)%nat -> summed rn (filter (touches i) e) (rstrength rn dup axis N e i).
Proof.
  intros i Hi. unfold rstrength, rsum_axis1, rsymmetrize. rewrite map_map. cbn [snd].
  eapply summed_perm; [|apply (total_summed _ axis _ (fun j => filter (fun t => touches i t && Nat.eqb (other i t) j) e)); [exact Haxis|]].
  2:{ intros j Hj. apply filter_In in Hj as [Hj _]. apply in_seq in Hj. apply entry_summed; [exact Hi | lia]. }
  apply (split_all (touches i) (other i)); [apply cols_NoDup|]. intros t Ht Hp. apply filter_In. destruct (He t Ht) as [Hs Hd].
  unfold other, touches in *. destruct (Nat.eqb (src t) i) eqn:E.
  - split; [apply in_seq; lia|]. apply orb_true_intro. left. apply (has_row i _ t Ht). rewrite hits_eq, E, Nat.eqb_refl. reflexivity.
  - split; [apply in_seq; lia|]. apply orb_true_intro. right. apply (has_row _ i t Ht). rewrite hits_eq, Nat.eqb_refl. exact Hp.
Qed.
Lemma sym_diag : forall i, (i < N)%nat -> summed rn (filter (fun t => Nat.eqb (src t) (dst t) && Nat.eqb (src t) i) e) (rget (rsymmetrize rn N (rcoo_row rn dup N e) i) i).
Proof.
  intros i Hi. rewrite (filter_same _ (hits i i)).
  2:{ intros t _. rewrite hits_eq. destruct (Nat.eqb_spec (src t) i) as [->|]; [rewrite andb_true_r, Nat.eqb_sym; reflexivity | apply andb_false_r]. }
  set (A := rcoo_row rn dup N e). set (f := fun j => let s := radd rn (rget (A i) j) (rget (A j) i) in if Nat.eqb i j then rsub rn s (rget (A i) i) else s).
  set (p := fun j => existsb (Nat.eqb j) (map fst (A i)) || existsb (Nat.eqb i) (map fst (A j))).
  change (rsymmetrize rn N A i) with (map (fun j => (j, f j)) (filter p (seq 0 N))).
  assert (Ef : f i = cell i i).
  { unfold f, A. rewrite Nat.eqb_refl, !get_row by exact Hi. apply Hloop, Hi. }
  assert (G : forall l, rget (map (fun j => (j, f j)) (filter p l)) i = if existsb (Nat.eqb i) l && p i then cell i i else Fin 0).
  { induction l as [|k l IH]; [reflexivity|]. cbn [filter existsb]. destruct (Nat.eqb_spec i k) as [<-|D].
    - cbn [orb andb]. destruct (p i) eqn:X; cbn [map rget]; [rewrite Nat.eqb_refl; exact Ef|]. rewrite IH, andb_false_r. reflexivity.
    - cbn [orb]. destruct (p k); cbn [map rget]; [rewrite (proj2 (Nat.eqb_neq k i)) by congruence|]; exact IH. }
  rewrite G. replace (existsb (Nat.eqb i) (seq 0 N)) with true by (symmetry; apply existsb_exists; exists i; split; [apply in_seq; lia | apply Nat.eqb_refl]).
  cbn [andb]. destruct (p i) eqn:X; [apply cell_summed|]. destruct (existsb (hits i i) e) eqn:Y; [|rewrite (no_hits _ _ Y); constructor].
  exfalso. apply existsb_exists in Y as (t & Ht & Hh). unfold p, A in X. rewrite (has_row i i t Ht Hh) in X. discriminate.
Qed.
Lemma graph_total_summed : exists a, rgraph_total_weight rn dup axis whole N e = rdiv rn a (Fin 2) /\ summed rn (e ++ e) a.
Proof.
  eexists. split; [reflexivity|].
  apply summed_perm with (flat_map (fun i => filter (touches i) e) (seq 0 N) ++ flat_map (fun i => filter (fun t => Nat.eqb (src t) (dst t) && Nat.eqb (src t) i) e) (seq 0 N)).
  2:{ apply summed_add; apply total_summed; try exact Hwhole; intros i Hi; apply in_seq in Hi; [apply strength_summed | apply sym_diag]; lia. }
  assert (R : forall t, In t e -> In (src t) (seq 0 N) /\ In (dst t) (seq 0 N)) by (intros t Ht; destruct (He t Ht); split; apply in_seq; lia).
  assert (B : Permutation (flat_map (fun i => filter (fun t => Nat.eqb (src t) (dst t) && Nat.eqb (src t) i) e) (seq 0 N)) (filter (fun t => Nat.eqb (src t) (dst t)) e)).
  { apply (split_all (fun t => Nat.eqb (src t) (dst t)) src); [apply seq_NoDup|]. intros t Ht _. apply R, Ht. }
  assert (C : Permutation (flat_map (fun i => filter (fun t => Nat.eqb (src t) i) e) (seq 0 N)) e).
  { etransitivity; [apply (split_all (fun _ => true) src e) | rewrite filter_true; apply Permutation_refl]; [apply seq_NoDup|]. intros t Ht _. apply R, Ht. }
  assert (D : Permutation (flat_map (fun i => filter (fun t => negb (Nat.eqb (src t) (dst t)) && Nat.eqb (dst t) i) e) (seq 0 N)) (filter (fun t => negb (Nat.eqb (src t) (dst t))) e)).
  { apply (split_all (fun t => negb (Nat.eqb (src t) (dst t))) dst); [apply seq_NoDup|]. intros t Ht _. apply R, Ht. }
  assert (A : Permutation (flat_map (fun i => filter (touches i) e) (seq 0 N)) (e ++ filter (fun t => negb (Nat.eqb (src t) (dst t))) e)).
  { etransitivity; [|apply Permutation_app; [exact C | exact D]]. clear. induction (seq 0 N) as [|i l IH]; [constructor|]. cbn [flat_map].
    etransitivity; [apply Permutation_app_head, IH|]. rewrite !app_assoc. rewrite <- (app_assoc (filter _ e)).
    etransitivity; [|rewrite <- !app_assoc; apply Permutation_app_head; rewrite app_assoc; apply Permutation_app_tail, Permutation_app_comm].
    rewrite !app_assoc. apply Permutation_app_tail, Permutation_app_tail.
    etransitivity; [|apply Permutation_sym, filter_or].
    - rewrite (filter_same (touches i) (fun t => Nat.eqb (src t) i || negb (Nat.eqb (src t) (dst t)) && Nat.eqb (dst t) i)); [apply Permutation_refl|].
      intros t _. unfold touches. destruct (Nat.eqb_spec (src t) i) as [->|]; [reflexivity|].
      cbn [orb]. destruct (Nat.eqb_spec (dst t) i) as [->|]; [|symmetry; apply andb_false_r]. rewrite (proj2 (Nat.eqb_neq (src t) i)) by assumption. reflexivity.
    - intros t _. destruct (Nat.eqb_spec (src t) i) as [->|]; [|reflexivity]. rewrite (Nat.eqb_sym i). destruct (Nat.eqb (dst t) i); reflexivity. }
  etransitivity; [apply Permutation_app; [exact A | exact B]|]. rewrite <- app_assoc. apply Permutation_app_head.
  etransitivity; [apply filter_or|]; [intros t _; destruct (Nat.eqb (src t) (dst t)); reflexivity|].
  rewrite (filter_same _ (fun _ => true)), filter_true; [apply Permutation_refl|]. intros t _. destruct (Nat.eqb (src t) (dst t)); reflexivity.
Qed.
End Orders.

(** * The errors *)
Lemma summed_exact : forall l a, summed Fin l a -> a = Fin (suml wt l).
Proof.
  intros l a H. induction H as [|t|l l' a b H IH H' IH'|l l' a P H IH]; cbn [suml]; [reflexivity | f_equal; ring | |].
  - subst. rewrite suml_app. reflexivity.
  - subst. rewrite (suml_perm _ wt l l' P). reflexivity.
Qed.

Lemma summed_integers : forall l a, summed b64 l a -> Forall (fun t => exists n, wt t = INR n) l -> suml wt l <= two 53 -> a = Fin (suml wt l).
Proof.
  intros l a H. induction H as [|t|l l' a b H IH H' IH'|l l' a P H IH]; intros F B; cbn [suml]; [reflexivity | f_equal; ring | |].
  - apply Forall_app in F as [F F']. rewrite suml_app in *.
    assert (Z : forall l, Forall (fun t => exists n, wt t = INR n) l -> exists n, suml wt l = INR n).
    { clear. induction l as [|t l I]; intros F; [exists 0%nat; reflexivity|]. inversion F as [|? ? (n & E) F']; subst. destruct (I F') as (m & Em).
      exists (n + m)%nat. cbn [suml]. rewrite E, Em, plus_INR. reflexivity. }
    destruct (Z l F) as (n & En). destruct (Z l' F') as (m & Em). rewrite En, Em in *. pose proof (pos_INR n). pose proof (pos_INR m).
    rewrite IH, IH' by (auto; lra). unfold radd. cbn [nadd rnd_num]. apply b64_fixed. rewrite <- plus_INR in *. rewrite INR_IZR_INZ in *. apply double_Z.
    rewrite two_Z in B by lia. apply le_IZR in B. lia.
  - rewrite <- (suml_perm _ wt l l' P) in *. apply IH; [|exact B]. eapply Permutation_Forall; [symmetry; exact P | exact F].
Qed.

Lemma total_nonneg : forall l, Forall (fun t => fine (wt t)) l -> 0 <= suml wt l.
Proof. intros l F. apply suml_nonneg. intros t Ht. rewrite Forall_forall in F. exact (proj1 (F t Ht)). Qed.

Lemma summed_error : forall l a, summed b64 l a -> Forall (fun t => fine (wt t)) l -> (1 + uu) ^ length l * suml wt l <= two 1022 ->
  exists v, a = Fin v /\ fine v /\ (l = [] -> v = 0) /\ Rabs (v - suml wt l) <= ((1 + uu) ^ length l - 1) * suml wt l.
Proof.
  pose proof uu_pos as U. intros l a H. induction H as [|t|l l' a b H IH H' IH'|l l' a P H IH]; intros F B.
  - exists 0. split; [reflexivity|]. split; [split; [lra | apply double_0]|]. split; [reflexivity|]. cbn. rewrite Rminus_0_r, Rabs_R0. lra.
  - inversion F as [|? ? Ft _]; subst. exists (wt t). split; [reflexivity|]. split; [exact Ft|]. split; [discriminate|]. cbn. destruct Ft.
    replace (wt t - (wt t + 0)) with 0 by ring. rewrite Rabs_R0. nra.
  - apply Forall_app in F as [F F']. rewrite suml_app, app_length in *. pose proof (total_nonneg l F) as S1. pose proof (total_nonneg l' F') as S2.
    set (S := suml wt l) in *. set (S' := suml wt l') in *.
    assert (Q1 : (1 + uu) ^ length l <= (1 + uu) ^ (length l + length l')) by (apply Rle_pow; [lra | lia]).
    assert (Q2 : (1 + uu) ^ length l' <= (1 + uu) ^ (length l + length l')) by (apply Rle_pow; [lra | lia]).
    assert (Q0 : 1 <= (1 + uu) ^ length l) by (apply pow_R1_Rle; lra). assert (Q0' : 1 <= (1 + uu) ^ length l') by (apply pow_R1_Rle; lra).
    destruct IH as (v & -> & Fv & Zv & Ev); [exact F | nra |]. destruct IH' as (v' & -> & Fv' & Zv' & Ev'); [exact F' | nra |].
    destruct Fv as [V0 Dv]. destruct Fv' as [V0' Dv'].
    destruct (list_eq_dec (fun a b : edge => ltac:(repeat decide equality; apply Req_EM_T)) l []) as [->|NE].
    { rewrite Zv by reflexivity. unfold radd. cbn [nadd rnd_num]. rewrite Rplus_0_l, (b64_fixed v' Dv'). exists v'. split; [reflexivity|]. split; [split; assumption|].
      split; [exact Zv'|]. unfold S. cbn [suml length app Nat.add]. rewrite Rplus_0_l. exact Ev'. }
    destruct (list_eq_dec (fun a b : edge => ltac:(repeat decide equality; apply Req_EM_T)) l' []) as [->|NE'].
    { rewrite Zv' by reflexivity. unfold radd. cbn [nadd rnd_num]. rewrite Rplus_0_r, (b64_fixed v Dv). exists v. split; [reflexivity|]. split; [split; assumption|].
      split; [rewrite app_nil_r; exact Zv|]. unfold S'. cbn [suml length]. rewrite Rplus_0_r, Nat.add_0_r. exact Ev. }
    assert (L : (1 <= length l)%nat) by (destruct l; [congruence | cbn; lia]). assert (L' : (1 <= length l')%nat) by (destruct l'; [congruence | cbn; lia]).
    set (k := (length l + length l' - 1)%nat). assert (K : (length l + length l' = Datatypes.S k)%nat) by (unfold k; lia). rewrite K in *. cbn [pow] in *.
    assert (M1 : (1 + uu) ^ length l <= (1 + uu) ^ k) by (apply Rle_pow; [lra | unfold k; lia]).
    assert (M2 : (1 + uu) ^ length l' <= (1 + uu) ^ k) by (apply Rle_pow; [lra | unfold k; lia]). set (M := (1 + uu) ^ k) in *.
    apply Rabs_def2_le in Ev as E1. apply Rabs_def2_le in Ev' as E2.
    assert (W1 : v <= M * S) by nra. assert (W2 : v' <= M * S') by nra.
    assert (W : v + v' <= M * (S + S')) by lra. assert (MS : 0 <= M * (S + S')) by (apply Rmult_le_pos; lra).
    destruct (rv_add v v' Dv Dv' V0 V0') as (Eb & D & P & Er); [nra|].
    unfold radd. cbn [nadd rnd_num]. rewrite Eb. eexists. split; [reflexivity|]. split; [split; assumption|].
    split; [intros C; apply app_eq_nil in C as [C _]; congruence|].
    assert (X1 : ((1 + uu) ^ length l - 1) * S <= (M - 1) * S) by (apply Rmult_le_compat_r; lra).
    assert (X2 : ((1 + uu) ^ length l' - 1) * S' <= (M - 1) * S') by (apply Rmult_le_compat_r; lra).
    assert (X3 : uu * (v + v') <= uu * (M * (S + S'))) by (apply Rmult_le_compat_l; lra).
    apply Rabs_def2_le in Er. apply Rabs_le. replace (((1 + uu) * M - 1) * (S + S')) with (uu * (M * (S + S')) + (M - 1) * S + (M - 1) * S') by ring. lra.
  - rewrite <- (suml_perm _ wt l l' P), <- (Permutation_length P) in *. destruct IH as (v & E & Fv & Zv & Ev); [|exact B|].
    + eapply Permutation_Forall; [symmetry; exact P | exact F].
    + exists v. split; [exact E|]. split; [exact Fv|]. split; [|exact Ev]. intros ->. apply Zv. apply Permutation_nil. symmetry. exact P.
Qed.

Lemma summed_close : forall l a, summed b64 l a -> Forall (fun t => fine (wt t)) l -> (Z.of_nat (length l) <= 2 ^ 51)%Z -> suml wt l <= two 1001 ->
  exists v, a = Fin v /\ fine v /\ Rabs (v - suml wt l) <= two (-52) * INR (length l) * suml wt l.
Proof.
  intros l a H F L B. pose proof uu_pos as U. pose proof (total_nonneg l F) as S0.
  assert (LI : INR (length l) * uu <= / 4).
  { apply Rle_trans with (two 51 * uu); [apply Rmult_le_compat_r; [lra|]; rewrite INR_IZR_INZ, two_Z by lia; apply IZR_le, L|].
    unfold uu. rewrite <- two_add. change (51 + -53)%Z with (- (2))%Z. rewrite two_neg, two_Z by lia. change (2 ^ 2)%Z with 4%Z. lra. }
  pose proof (pow_uu (length l) (/ 4) LI ltac:(lra)) as P.
  destruct (summed_error l a H F) as (v & E & Fv & _ & Ev).
  { assert (two 1022 = two 21 * two 1001) by (rewrite <- two_add; reflexivity). assert (2 <= two 21) by (rewrite two_Z by lia; apply IZR_le; lia). pose proof (two_pos 1001). nra. }
  exists v. split; [exact E|]. split; [exact Fv|]. eapply Rle_trans; [exact Ev|]. apply Rmult_le_compat_r; [exact S0|].
  replace (two (-52)) with (2 * uu) by (change (-52)%Z with (1 + -53)%Z; rewrite two_add, two_1; reflexivity). lra.
Qed.

Lemma double_twice : forall v, double v -> 0 <= v <= two 1002 -> double (v + v).
Proof.
  intros v (m & x & -> & Hm & Hx) [V0 V1]. destruct (Z.eq_dec x 971) as [->|].
  - exists (2 * m)%Z, 971%Z. split; [rewrite mult_IZR; ring|]. split; [|lia]. change 1002%Z with (31 + 971)%Z in V1. rewrite two_add in V1. pose proof (two_pos 971).
    apply Rmult_le_reg_r in V1; [|assumption]. rewrite two_Z in V1 by lia. apply le_IZR in V1.
    assert (0 <= m)%Z by (apply le_IZR; apply Rmult_le_reg_r with (two 971); lra). lia.
  - exists m, (x + 1)%Z. split; [rewrite two_add, two_1; ring|]. split; [exact Hm | lia].
Qed.

(** * Without rounding *)

Lemma delta : forall n k c, (k < n)%nat -> sumn n (fun j => if Nat.eqb k j then c else 0) = c.
Proof.
  induction n as [|n IH]; intros k c H; [lia|]. cbn [sumn]. destruct (Nat.eqb_spec k n) as [->|].
  - rewrite sumn_zero; [lra|]. intros j Hj. rewrite (proj2 (Nat.eqb_neq n j)) by lia. reflexivity.
  - rewrite IH by lia. lra.
Qed.
Lemma filter_sum : forall (p : edge -> bool) l, suml wt (filter p l) = suml (fun t => if p t then wt t else 0) l.
Proof. intros p l. rewrite suml_filter. reflexivity. Qed.

Section Exact.
Variables (N : nat) (e : list edge).
Hypothesis He : in_range N e.
Let A := coo_tocsr false N e.

Lemma ends : forall t, In t e -> (src t < N)%nat /\ (dst t < N)%nat.
Proof. intros t Ht. unfold in_range in He. rewrite Forall_forall in He. destruct (He t Ht) as (H1 & H2 & _). split; assumption. Qed.
Lemma out_entries : forall i, sumn N (fun j => W A i j) = suml wt (filter (fun t => Nat.eqb (src t) i) e).
Proof.
  intros i. rewrite filter_sum. rewrite (sumn_ext N _ (fun j => suml (fun t => if hits i j t then snd t else 0) e)) by (intros j Hj; apply coo_entry, Hj).
  rewrite <- suml_sumn_swap. apply suml_ext. intros t Ht. rewrite (sumn_ext N _ (fun j => if Nat.eqb (dst t) j then (if Nat.eqb (src t) i then wt t else 0) else 0)).
  - apply delta. apply (ends t Ht).
  - intros j _. rewrite hits_eq. unfold wt. destruct (Nat.eqb (src t) i), (Nat.eqb (dst t) j); reflexivity.
Qed.
Lemma in_entries : forall j, (j < N)%nat -> sumn N (fun i => W A i j) = suml wt (filter (fun t => Nat.eqb (dst t) j) e).
Proof.
  intros j Hj. rewrite filter_sum. rewrite (sumn_ext N _ (fun i => suml (fun t => if hits i j t then snd t else 0) e)) by (intros i Hi; apply coo_entry, Hj).
  rewrite <- suml_sumn_swap. apply suml_ext. intros t Ht. rewrite (sumn_ext N _ (fun i => if Nat.eqb (src t) i then (if Nat.eqb (dst t) j then wt t else 0) else 0)).
  - apply delta. apply (ends t Ht).
  - intros i _. rewrite hits_eq. unfold wt. destruct (Nat.eqb (src t) i), (Nat.eqb (dst t) j); reflexivity.
Qed.
Lemma both_entries : forall i, (i < N)%nat -> sumn N (fun j => both_ways (fun i j => W A i j) i j) = suml wt (filter (touches i) e).
Proof.
  intros i Hi. rewrite filter_sum.
  rewrite (sumn_ext N _ (fun j => suml (fun t => (if hits i j t then wt t else 0) + (if negb (Nat.eqb i j) && hits j i t then wt t else 0)) e)).
  2:{ intros j Hj. unfold both_ways. rewrite suml_plus. destruct (Nat.eqb_spec i j) as [<-|].
      - unfold A. rewrite coo_entry by exact Hi. cbn [negb andb]. rewrite (suml_zero _ (fun _ => 0)) by reflexivity. unfold wt. lra.
      - unfold A. rewrite !coo_entry by assumption. reflexivity. }
  rewrite <- suml_sumn_swap. apply suml_ext. intros t Ht. destruct (ends t Ht) as [Hs Hd]. rewrite sumn_plus.
  rewrite (sumn_ext N (fun j => if hits i j t then _ else _) (fun j => if Nat.eqb (dst t) j then (if Nat.eqb (src t) i then wt t else 0) else 0)).
  2:{ intros j _. rewrite hits_eq. destruct (Nat.eqb (src t) i), (Nat.eqb (dst t) j); reflexivity. }
  rewrite (sumn_ext N (fun j => if negb _ && _ then _ else _) (fun j => if Nat.eqb (src t) j then (if negb (Nat.eqb (src t) i) && Nat.eqb (dst t) i then wt t else 0) else 0)).
  2:{ intros j _. rewrite hits_eq. destruct (Nat.eqb_spec (src t) j) as [<-|]; [|rewrite andb_false_r; reflexivity]. rewrite (Nat.eqb_sym i). reflexivity. }
  rewrite !delta by assumption. unfold touches. destruct (Nat.eqb (src t) i), (Nat.eqb (dst t) i); cbn; lra.
Qed.
End Exact.

Lemma half : forall rn x, rdiv rn (Fin x) (Fin 2) = rn (x / 2).
Proof. intros rn x. unfold rdiv, ndiv, Reqb. destruct (Req_EM_T 2 0) as [C|_]; [lra | reflexivity]. Qed.

(** Without rounding, and whatever the orders of the sums, the strengths and total weights are those of the model in Graphs.v. *)
Theorem C113_exact : forall dup axis whole N e, reorders dup -> reorders axis -> reorders whole -> in_range N e ->
  let A := coo_tocsr false N e in
  (exists o i t, out_strength N (SDiGraph A) = Ok o /\ in_strength N (SDiGraph A) = Ok i /\ total_weight N (SDiGraph A) = Ok t /\
     rdi_total_weight Fin dup axis whole N e = Fin t /\
     forall v, (v < N)%nat -> rout_strength Fin dup axis N e v = Fin (o v) /\ rin_strength Fin dup axis N e v = Fin (i v)) /\
  (exists q t, strength N (SGraph A) = Ok q /\ total_weight N (SGraph A) = Ok t /\ rgraph_total_weight Fin dup axis whole N e = Fin t /\
     forall v, (v < N)%nat -> rstrength Fin dup axis N e v = Fin (q v)).
Proof.
  intros dup axis whole N e Od Oa Ow R A. pose proof (ends N e R) as He.
  assert (WF : wf N A) by (apply coo_wf; eapply Forall_impl; [|exact R]; intros t (_ & _ & H); exact H).
  assert (HD : valid true N (SDiGraph A)) by (constructor; [split; [exact WF | reflexivity] | constructor]).
  assert (HG : valid true N (SGraph A)) by (constructor; [split; [exact WF | reflexivity] | constructor]).
  assert (LT : sumn N (fun i => sumn N (fun j => W A i j)) = suml wt e) by (apply coo_total; exact R).
  split.
  - exists (sum_axis1 A), (sum_axis0 N A), (sum_all N A). split; [reflexivity|]. split; [reflexivity|]. split; [reflexivity|]. split.
    + rewrite (summed_exact _ _ (total_out_summed Fin dup axis whole Od Oa Ow N e He)). f_equal. rewrite (all_view true N _ HD true true A eq_refl), <- LT. reflexivity.
    + intros v Hv. rewrite (summed_exact _ _ (out_summed Fin dup axis Od Oa N e He v)), (summed_exact _ _ (in_summed Fin dup axis Od Oa N e He v Hv)). split; f_equal.
      * rewrite (axis1_view true N _ HD true true A eq_refl v Hv), <- (out_entries N e R v). reflexivity.
      * rewrite (axis0_view true N _ HD true true A eq_refl v Hv), <- (in_entries N e R v Hv). reflexivity.
  - set (B := graph_adjacency N A false true). exists (sum_axis1 B), (halved N B). split; [reflexivity|]. split; [reflexivity|].
    assert (Hl : forall i, (i < N)%nat -> rsub Fin (radd Fin (cell Fin dup e i i) (cell Fin dup e i i)) (cell Fin dup e i i) = cell Fin dup e i i).
    { intros i _. rewrite (summed_exact _ _ (cell_summed Fin dup Od e i i)). unfold rsub, radd. cbn [nadd rnd_num nsub nopp]. f_equal. ring. }
    split.
    + destruct (graph_total_summed Fin dup axis whole Od Oa Ow N e He Hl) as (a & -> & Ha). rewrite (summed_exact _ _ Ha), suml_app.
      assert (Hh : halved N B = suml wt e).
      { unfold halved. rewrite (all_view true N _ HG false true B eq_refl), (diag_view true N _ HG false true B eq_refl).
        unfold view. cbn [andb is_directed]. pose proof (both_ways_total N (GraphFacts.link (SGraph A))) as BT.
        rewrite (sumn_ext N (fun i => both_ways (GraphFacts.link (SGraph A)) i i) (fun i => GraphFacts.link (SGraph A) i i)) by (intros i _; unfold both_ways; rewrite Nat.eqb_refl; reflexivity).
        rewrite BT. cbn [GraphFacts.link]. rewrite LT. field. }
      rewrite Hh, half. f_equal. field.
    + intros v Hv. rewrite (summed_exact _ _ (strength_summed Fin dup axis Od Oa N e He Hl v Hv)). f_equal.
      rewrite (axis1_view true N _ HG false true B eq_refl v Hv), <- (both_entries N e R v Hv). reflexivity.
Qed.
Print Assumptions C113_exact.

(** An edge list with repeated edges, a loop and weights in both directions. *)
Definition left_to_right (l : list num) : plan := match l with [] => Leaf (Fin 0) | a :: l => fold_left (fun t b => Plus t (Leaf b)) l (Leaf a) end.
Lemma left_to_right_reorders : reorders left_to_right.
Proof.
  intros [|a l] H; [congruence|]. unfold left_to_right. assert (G : forall l t, leaves (fold_left (fun t b => Plus t (Leaf b)) l t) = leaves t ++ l).
  { clear. induction l as [|b l IH]; intros t; cbn [fold_left]; [rewrite app_nil_r; reflexivity|]. rewrite IH. cbn [leaves]. rewrite <- app_assoc. reflexivity. }
  rewrite G. apply Permutation_refl.
Qed.
Definition five_edges : list edge := [(0%nat, 1%nat, 1); (0%nat, 1%nat, 2); (1%nat, 0%nat, 3); (1%nat, 1%nat, 4); (2%nat, 0%nat, 5)].

Example C113_exact_case : in_range 3 five_edges /\ reorders left_to_right /\ rstrength Fin left_to_right left_to_right 3 five_edges 1 = Fin 10 /\
  rgraph_total_weight Fin left_to_right left_to_right left_to_right 3 five_edges = Fin 15.
Proof.
  assert (R : in_range 3 five_edges) by (unfold in_range, five_edges; repeat constructor; cbn; lia || lra). split; [exact R|]. pose proof left_to_right_reorders as O. split; [exact O|].
  pose proof (ends 3 five_edges R) as He. set (lr := left_to_right) in *.
  assert (Hl : forall i, (i < 3)%nat -> rsub Fin (radd Fin (cell Fin lr five_edges i i) (cell Fin lr five_edges i i)) (cell Fin lr five_edges i i) = cell Fin lr five_edges i i).
  { intros i _. rewrite (summed_exact _ _ (cell_summed Fin lr O five_edges i i)). unfold rsub, radd. cbn [nadd rnd_num nsub nopp]. f_equal. ring. }
  split.
  - rewrite (summed_exact _ _ (strength_summed Fin lr lr O O 3 five_edges He Hl 1%nat ltac:(lia))). cbn. f_equal. lra.
  - destruct (graph_total_summed Fin lr lr lr O O O 3 five_edges He Hl) as (a & -> & Ha). rewrite (summed_exact _ _ Ha), half. cbn. f_equal. lra.
Qed.

(** * In doubles *)
Definition double_table (N : nat) (e : list edge) : Prop :=
  Forall (fun t => (src t < N)%nat /\ (dst t < N)%nat /\ 0 < wt t /\ double (wt t)) e /\ suml wt e <= two 1000 /\ (Z.of_nat (length e) <= 2 ^ 50)%Z.

Section Doubles.
Variables (dup axis whole : list num -> plan) (N : nat) (e : list edge).
Hypothesis Od : reorders dup.
Hypothesis Oa : reorders axis.
Hypothesis Ow : reorders whole.
Hypothesis HT : double_table N e.

Lemma table_ends : forall t, In t e -> (src t < N)%nat /\ (dst t < N)%nat.
Proof. destruct HT as (F & _). rewrite Forall_forall in F. intros t Ht. destruct (F t Ht) as (H1 & H2 & _). split; assumption. Qed.
Lemma table_fine : forall p, Forall (fun t => fine (wt t)) (filter p e).
Proof. destruct HT as (F & _). rewrite Forall_forall in *. intros p. apply Forall_forall. intros t Ht. apply filter_In in Ht as [Ht _]. destruct (F t Ht) as (_ & _ & H3 & H4). split; [lra | exact H4]. Qed.
Lemma all_fine : Forall (fun t => fine (wt t)) e. Proof. rewrite <- (filter_true e). apply table_fine. Qed.
Lemma part_le : forall p, suml wt (filter p e) <= suml wt e.
Proof.
  intros p. rewrite filter_sum. apply suml_le. intros t Ht. pose proof all_fine as F. rewrite Forall_forall in F. destruct (F t Ht). destruct (p t); lra.
Qed.
Lemma part_length : forall (p : edge -> bool), (length (filter p e) <= length e)%nat.
Proof. intros p. clear. induction e as [|t l IH]; cbn; [lia|]. destruct (p t); cbn; lia. Qed.
Lemma two_1000 : two 1001 = 2 * two 1000. Proof. change 1001%Z with (1 + 1000)%Z. rewrite two_add, two_1. reflexivity. Qed.

Lemma part_close : forall p a, summed b64 (filter p e) a ->
  exists v, a = Fin v /\ fine v /\ Rabs (v - suml wt (filter p e)) <= two (-52) * INR (length (filter p e)) * suml wt (filter p e).
Proof.
  intros p a H. destruct HT as (_ & B & L). pose proof (part_le p). pose proof (part_length p). pose proof (two_pos 1000). pose proof two_1000.
  apply (summed_close _ _ H); [apply table_fine | lia | lra].
Qed.
Lemma loop_exact : forall i, (i < N)%nat -> rsub b64 (radd b64 (cell b64 dup e i i) (cell b64 dup e i i)) (cell b64 dup e i i) = cell b64 dup e i i.
Proof.
  intros i _. pose proof (cell_summed b64 dup Od e i i) as C. destruct (part_close _ _ C) as (v & Ev & [V0 Dv] & E). rewrite Ev.
  assert (V : v <= two 1002).
  { pose proof (part_le (hits i i)) as P1. pose proof (part_length (hits i i)) as P2. destruct HT as (_ & B & L). apply Rabs_def2_le in E.
    pose proof (total_nonneg _ (table_fine (hits i i))) as S0. set (S := suml wt (filter (hits i i) e)) in *.
    assert (K : two (-52) * INR (length (filter (hits i i) e)) <= 1).
    { apply Rle_trans with (two (-52) * two 50); [apply Rmult_le_compat_l; [left; apply two_pos|]; rewrite INR_IZR_INZ, two_Z by lia; apply IZR_le; eapply Z.le_trans; [apply inj_le; exact P2 | exact L]|].
      rewrite <- two_add. change (-52 + 50)%Z with (- (2))%Z. rewrite two_neg, two_Z by lia. change (2 ^ 2)%Z with 4%Z. lra. }
    assert (two 1002 = 4 * two 1000) by (change 1002%Z with (2 + 1000)%Z; rewrite two_add, (two_Z 2) by lia; reflexivity). pose proof (two_pos 1000).
    assert (two (-52) * INR (length (filter (hits i i) e)) * S <= 1 * S) by (apply Rmult_le_compat_r; assumption). lra. }
  unfold radd. cbn [nadd rnd_num]. rewrite b64_fixed by (apply double_twice; [exact Dv | lra]). unfold rsub. cbn [nsub nadd nopp rnd_num].
  replace (v + v - v) with v by ring. replace (v + v + - v) with v by ring. apply b64_fixed, Dv.
Qed.

Lemma split_sum : forall key : edge -> nat, (forall t, In t e -> (key t < N)%nat) -> sumn N (fun v => suml wt (filter (fun t => Nat.eqb (key t) v) e)) = suml wt e.
Proof.
  intros key H. rewrite (sumn_ext N _ (fun v => suml (fun t => if Nat.eqb (key t) v then wt t else 0) e)) by (intros; apply filter_sum).
  rewrite <- suml_sumn_swap. apply suml_ext. intros t Ht. apply delta, H, Ht.
Qed.
Lemma split_error : forall (key : edge -> nat) (a : nat -> num), (forall t, In t e -> (key t < N)%nat) ->
  (forall v, (v < N)%nat -> summed b64 (filter (fun t => Nat.eqb (key t) v) e) (a v)) ->
  Rabs (sumn N (fun v => toR (a v)) - suml wt e) <= two (-52) * INR (length e) * suml wt e.
Proof.
  intros key a H Ha. rewrite <- (split_sum key H). set (S := fun v => suml wt (filter (fun t => Nat.eqb (key t) v) e)).
  assert (G : ap (two (-52) * INR (length e)) 0 (sumn N (fun v => toR (a v))) (sumn N S)).
  { replace 0 with (INR N * 0) by ring. apply ap_sum. intros v Hv. destruct (part_close _ _ (Ha v Hv)) as (x & -> & _ & E). unfold ap. cbn [toR].
    rewrite Rplus_0_r. eapply Rle_trans; [exact E|]. apply Rmult_le_compat_r; [apply total_nonneg, table_fine|]. apply Rmult_le_compat_l; [left; apply two_pos|].
    apply le_INR, part_length. }
  unfold ap in G. rewrite Rplus_0_r in G. exact G.
Qed.
End Doubles.

(** Directed graphs: the strengths are the sums of the weights of the edges out of and into a vertex, with a relative error of 2^-52 for each
    edge, and their sums agree with the total weight.  Each edge stands for a row of the table, so repeated edges are included. *)
Theorem C113_directed : forall dup axis whole N e, reorders dup -> reorders axis -> reorders whole -> double_table N e ->
  let W := suml wt e in let n := INR (length e) in
  (forall v, (v < N)%nat -> exists o i, rout_strength b64 dup axis N e v = Fin o /\ rin_strength b64 dup axis N e v = Fin i /\
     (let l := filter (fun t => Nat.eqb (src t) v) e in Rabs (o - suml wt l) <= two (-52) * INR (length l) * suml wt l) /\
     (let l := filter (fun t => Nat.eqb (dst t) v) e in Rabs (i - suml wt l) <= two (-52) * INR (length l) * suml wt l)) /\
  exists t, rdi_total_weight b64 dup axis whole N e = Fin t /\ Rabs (t - W) <= two (-52) * n * W /\
    Rabs (sumn N (fun v => toR (rout_strength b64 dup axis N e v)) - t) <= two (-51) * n * W /\
    Rabs (sumn N (fun v => toR (rin_strength b64 dup axis N e v)) - t) <= two (-51) * n * W.
Proof.
  intros dup axis whole N e Od Oa Ow HT W n. pose proof (table_ends N e HT) as He.
  assert (S1 : forall v, (v < N)%nat -> summed b64 (filter (fun t => Nat.eqb (src t) v) e) (rout_strength b64 dup axis N e v)) by (intros v _; apply out_summed; assumption).
  assert (S2 : forall v, (v < N)%nat -> summed b64 (filter (fun t => Nat.eqb (dst t) v) e) (rin_strength b64 dup axis N e v)) by (intros v Hv; apply in_summed; assumption).
  split.
  - intros v Hv. destruct (part_close N e HT _ _ (S1 v Hv)) as (o & Eo & _ & Ho). destruct (part_close N e HT _ _ (S2 v Hv)) as (i & Ei & _ & Hi).
    exists o, i. split; [exact Eo|]. split; [exact Ei|]. split; assumption.
  - pose proof (total_out_summed b64 dup axis whole Od Oa Ow N e He) as ST. rewrite <- (filter_true e) in ST at 1.
    destruct (part_close N e HT _ _ ST) as (t & Et & _ & Ht). rewrite filter_true in Ht. exists t. split; [exact Et|]. split; [exact Ht|].
    pose proof (split_error N e HT src _ (fun t Ht => proj1 (He t Ht)) S1) as E1. pose proof (split_error N e HT dst _ (fun t Ht => proj2 (He t Ht)) S2) as E2.
    fold W in Ht, E1, E2. fold n in Ht, E1, E2.
    replace (two (-51)) with (2 * two (-52)) by (change (-51)%Z with (1 + -52)%Z; rewrite two_add, two_1; reflexivity).
    apply Rabs_def2_le in Ht. apply Rabs_def2_le in E1. apply Rabs_def2_le in E2. split; apply Rabs_le; lra.
Qed.
Print Assumptions C113_directed.

(** Undirected graphs: the strength of a vertex is the sum of the weights of the edges that touch it, a loop once, and the total weight that
    of all edges. *)
Theorem C113_undirected : forall dup axis whole N e, reorders dup -> reorders axis -> reorders whole -> double_table N e ->
  let W := suml wt e in let n := INR (length e) in
  (forall v, (v < N)%nat -> exists q, rstrength b64 dup axis N e v = Fin q /\
     let l := filter (fun t => Nat.eqb (src t) v || Nat.eqb (dst t) v) e in Rabs (q - suml wt l) <= two (-52) * INR (length l) * suml wt l) /\
  exists t, rgraph_total_weight b64 dup axis whole N e = Fin t /\ Rabs (t - W) <= two (-51) * (n + 1) * W + two (-1074).
Proof.
  intros dup axis whole N e Od Oa Ow HT W n. pose proof (table_ends N e HT) as He. pose proof (loop_exact dup N e Od HT) as Hl. split.
  - intros v Hv. destruct (part_close N e HT _ _ (strength_summed b64 dup axis Od Oa N e He Hl v Hv)) as (q & Eq & _ & Hq). exists q. split; [exact Eq | exact Hq].
  - destruct (graph_total_summed b64 dup axis whole Od Oa Ow N e He Hl) as (a & -> & Ha). pose proof (all_fine N e HT) as F. pose proof (total_nonneg e F) as W0. fold W in W0.
    destruct HT as (_ & B & L). fold W in B. pose proof two_1000 as T1. pose proof (two_pos 1000) as P1.
    destruct (summed_close _ _ Ha) as (v & -> & [V0 Dv] & Ev).
    + apply Forall_app. split; exact F.
    + rewrite app_length. lia.
    + rewrite suml_app. fold W. lra.
    + rewrite suml_app, app_length, plus_INR in Ev. fold W in Ev. fold n in Ev.
      assert (N0 : 0 <= n) by apply pos_INR.
      assert (K : two (-52) * (n + n) <= 1).
      { apply Rle_trans with (two (-52) * (2 * two 50)); [apply Rmult_le_compat_l; [left; apply two_pos|]; assert (n <= two 50) by (unfold n; rewrite INR_IZR_INZ, two_Z by lia; apply IZR_le, L); lra|].
        replace (2 * two 50) with (two 51) by (change 51%Z with (1 + 50)%Z; rewrite two_add, two_1; reflexivity).
        rewrite <- two_add. change (-52 + 51)%Z with (- (1))%Z. rewrite two_neg, two_1. lra. }
      assert (X : two (-52) * (n + n) * (W + W) <= 1 * (W + W)) by (apply Rmult_le_compat_r; lra). apply Rabs_def2_le in Ev.
      assert (VB : v / 2 <= 2 * W) by lra. assert (two 1022 = two 22 * two 1000) by (rewrite <- two_add; reflexivity).
      assert (2 <= two 22) by (rewrite two_Z by lia; apply IZR_le; lia).
      rewrite half. destruct (rv_spec (v / 2)) as (Eb & _ & _ & Er); [split; [lra | nra]|]. exists (rv (v / 2)). split; [exact Eb|].
      pose proof uu_pos. assert (uu * (v / 2) <= uu * (2 * W)) by (apply Rmult_le_compat_l; lra). unfold eta in Er. apply Rabs_def2_le in Er.
      replace (two (-51)) with (4 * uu) by (unfold uu; change (-51)%Z with (2 + -53)%Z; rewrite two_add, (two_Z 2) by lia; reflexivity).
      replace (two (-52)) with (2 * uu) in * by (unfold uu; change (-52)%Z with (1 + -53)%Z; rewrite two_add, two_1; reflexivity).
      assert (0 <= uu * W) by (apply Rmult_le_pos; lra). assert (0 <= uu * n * W) by (apply Rmult_le_pos; [apply Rmult_le_pos|]; lra).
      apply Rabs_le. split; nra.
Qed.
Print Assumptions C113_undirected.

(** Integer weights: below 2^52 in total nothing is rounded, so C10 holds in doubles. *)
Theorem C113_integers : forall dup axis whole N e, reorders dup -> reorders axis -> reorders whole -> double_table N e ->
  Forall (fun t => exists n, wt t = INR n) e -> suml wt e <= two 52 ->
  (forall v, (v < N)%nat ->
     rout_strength b64 dup axis N e v = Fin (suml wt (filter (fun t => Nat.eqb (src t) v) e)) /\
     rin_strength b64 dup axis N e v = Fin (suml wt (filter (fun t => Nat.eqb (dst t) v) e)) /\
     rstrength b64 dup axis N e v = Fin (suml wt (filter (fun t => Nat.eqb (src t) v || Nat.eqb (dst t) v) e))) /\
  rdi_total_weight b64 dup axis whole N e = Fin (suml wt e) /\ rgraph_total_weight b64 dup axis whole N e = Fin (suml wt e).
Proof.
  intros dup axis whole N e Od Oa Ow HT FI B. pose proof (table_ends N e HT) as He. pose proof (loop_exact dup N e Od HT) as Hl.
  assert (T53 : two 53 = 2 * two 52) by (change 53%Z with (1 + 52)%Z; rewrite two_add, two_1; reflexivity). pose proof (two_pos 52).
  assert (P : forall p a, summed b64 (filter p e) a -> a = Fin (suml wt (filter p e))).
  { intros p a Ha. apply (summed_integers _ _ Ha); [|pose proof (part_le N e HT p); lra]. rewrite Forall_forall in *. intros t Ht. apply filter_In in Ht as [Ht _]. apply FI, Ht. }
  split; [|split].
  - intros v Hv. split; [|split]; apply P; [apply out_summed | apply in_summed | apply strength_summed]; assumption.
  - apply (summed_integers e); [apply total_out_summed; assumption | exact FI | lra].
  - destruct (graph_total_summed b64 dup axis whole Od Oa Ow N e He Hl) as (a & -> & Ha).
    rewrite (summed_integers _ _ Ha); [|apply Forall_app; split; exact FI | rewrite suml_app; lra]. rewrite suml_app, half. replace ((suml wt e + suml wt e) / 2) with (suml wt e) by field.
    apply b64_fixed. assert (Z : exists n, suml wt e = INR n).
    { clear - FI. induction e as [|t l I]; [exists 0%nat; reflexivity|]. inversion FI as [|? ? (n & E) F']; subst. destruct (I F') as (m & Em).
      exists (n + m)%nat. cbn [suml]. rewrite E, Em, plus_INR. reflexivity. }
    destruct Z as (n & En). rewrite En in *. rewrite INR_IZR_INZ in *. rewrite two_Z in B by lia. apply le_IZR in B. apply double_Z. lia.
Qed.
Print Assumptions C113_integers.

Lemma integer_double : forall n, (Z.of_nat n <= 2 ^ 53)%Z -> double (INR n).
Proof. intros n H. rewrite INR_IZR_INZ. apply double_Z. lia. Qed.
Example C113_integers_case : double_table 3 five_edges /\ Forall (fun t => exists n, wt t = INR n) five_edges /\ suml wt five_edges <= two 52 /\
  rout_strength b64 left_to_right left_to_right 3 five_edges 1 = Fin 7 /\ rin_strength b64 left_to_right left_to_right 3 five_edges 1 = Fin 7 /\
  rstrength b64 left_to_right left_to_right 3 five_edges 1 = Fin 10 /\ rgraph_total_weight b64 left_to_right left_to_right left_to_right 3 five_edges = Fin 15.
Proof.
  assert (S : suml wt five_edges = 15) by (cbn; lra).
  assert (F : Forall (fun t => exists n, wt t = INR n) five_edges).
  { unfold five_edges. repeat constructor; [exists 1%nat | exists 2%nat | exists 3%nat | exists 4%nat | exists 5%nat]; cbn; lra. }
  assert (T : 15 <= two 52) by (rewrite two_Z by lia; apply IZR_le; lia).
  assert (D : double_table 3 five_edges).
  { split; [|split; [rewrite S; apply Rle_trans with (two 52); [exact T | apply two_le; lia] | cbn; lia]].
    unfold five_edges. repeat constructor; cbn; try lia; try lra;
    [apply (integer_double 1) | replace 2 with (INR 2) by (cbn; lra); apply integer_double | replace 3 with (INR 3) by (cbn; lra); apply integer_double |
     replace 4 with (INR 4) by (cbn; lra); apply integer_double | replace 5 with (INR 5) by (cbn; lra); apply integer_double]; lia. }
  pose proof left_to_right_reorders as O. split; [exact D|]. split; [exact F|]. split; [rewrite S; exact T|].
  destruct (C113_integers _ _ _ 3 five_edges O O O D F) as (P & _ & Q); [rewrite S; exact T|]. destruct (P 1%nat ltac:(lia)) as (P1 & P2 & P3).
  rewrite P1, P2, P3, Q, S. cbn. repeat split; f_equal; lra.
Qed.

(** A weight of 1 and four of 2^-54: out of different vertices they are lost one by one, into the same vertex they are kept. *)
Definition small_edges (w a : R) : list edge := [(0%nat, 1%nat, w); (1%nat, 0%nat, a); (2%nat, 0%nat, a); (3%nat, 0%nat, a); (4%nat, 0%nat, a)].
Lemma small_total : forall rn w a, rdi_total_weight rn left_to_right left_to_right left_to_right 5 (small_edges w a) =
  radd rn (radd rn (radd rn (radd rn (Fin w) (Fin a)) (Fin a)) (Fin a)) (Fin a).
Proof. reflexivity. Qed.
Lemma small_in : forall rn w a, rtotal rn left_to_right (map (rin_strength rn left_to_right left_to_right 5 (small_edges w a)) (seq 0 5)) =
  radd rn (radd rn (radd rn (radd rn (radd rn (radd rn (radd rn (Fin a) (Fin a)) (Fin a)) (Fin a)) (Fin w)) (Fin 0)) (Fin 0)) (Fin 0).
Proof. reflexivity. Qed.
Lemma add_double : forall a b, double (a + b) -> radd b64 (Fin a) (Fin b) = Fin (a + b).
Proof. intros a b H. unfold radd. cbn [nadd rnd_num]. apply b64_fixed, H. Qed.
Lemma small_table : double_table 5 (small_edges 1 (two (-54))).
Proof.
  pose proof (two_pos (-54)) as P. assert (D : double (two (-54))) by (apply double_two; lia). pose proof double_1 as D1.
  assert (H : two (-54) <= 1) by (rewrite <- two_0; apply two_le; lia). split; [|split].
  - unfold small_edges. repeat constructor; cbn; try lia; try lra; assumption.
  - cbn. assert (5 <= two 1000); [|unfold wt; cbn; lra]. apply Rle_trans with (two 3); [rewrite two_Z by lia; apply IZR_le; lia | apply two_le; lia].
  - cbn. lia.
Qed.

(** C10 fails in doubles: the sum of the in-strengths is not the total weight. *)
Theorem C113_total_refuted : exists dup axis whole N e t s, reorders dup /\ reorders axis /\ reorders whole /\ double_table N e /\
  rdi_total_weight b64 dup axis whole N e = Fin t /\ rtotal b64 whole (map (rin_strength b64 dup axis N e) (seq 0 N)) = Fin s /\ t <> s.
Proof.
  pose proof left_to_right_reorders as O. exists left_to_right, left_to_right, left_to_right, 5%nat, (small_edges 1 (two (-54))), 1, (1 + two (-52)).
  split; [exact O|]. split; [exact O|]. split; [exact O|]. split; [exact small_table|]. rewrite small_total, small_in. pose proof (two_pos (-54)) as P.
  assert (E52 : two (-52) = 4 * two (-54)) by (change (-52)%Z with (2 + -54)%Z; rewrite two_add, (two_Z 2) by lia; reflexivity).
  assert (A : radd b64 (Fin 1) (Fin (two (-54))) = Fin 1) by (unfold radd; cbn [nadd rnd_num]; apply b64_one_plus; lia).
  split; [rewrite !A; reflexivity|].
  assert (M : forall m : Z, (Z.abs m < 2 ^ 53)%Z -> double (IZR m * two (-54))) by (intros m Hm; exists m, (-54)%Z; split; [reflexivity|]; split; [exact Hm | lia]).
  assert (L : double (1 + two (-52))).
  { exists (2 ^ 52 + 1)%Z, (-52)%Z. split; [|split; lia]. rewrite plus_IZR, <- two_Z by lia. rewrite Rmult_plus_distr_r, <- two_add. change (52 + -52)%Z with 0%Z. rewrite two_0. ring. }
  split.
  - rewrite add_double by (replace (two (-54) + two (-54)) with (2 * two (-54)) by ring; apply M; lia).
    rewrite add_double by (replace (two (-54) + two (-54) + two (-54)) with (3 * two (-54)) by ring; apply M; lia).
    rewrite add_double by (replace (two (-54) + two (-54) + two (-54) + two (-54)) with (4 * two (-54)) by ring; apply M; lia).
    replace (two (-54) + two (-54) + two (-54) + two (-54)) with (two (-52)) by lra. rewrite add_double by (rewrite Rplus_comm; exact L).
    replace (two (-52) + 1) with (1 + two (-52)) by ring.
    assert (Z : radd b64 (Fin (1 + two (-52))) (Fin 0) = Fin (1 + two (-52))) by (rewrite add_double by (rewrite Rplus_0_r; exact L); rewrite Rplus_0_r; reflexivity).
    rewrite !Z. reflexivity.
  - intros C. pose proof (two_pos (-52)). lra.
Qed.
Print Assumptions C113_total_refuted.

(** The hypotheses of C113_directed and C113_undirected hold for this table, where rounding is visible. *)
Example C113_case : double_table 5 (small_edges 1 (two (-54))) /\ reorders left_to_right /\
  rdi_total_weight b64 left_to_right left_to_right left_to_right 5 (small_edges 1 (two (-54))) = Fin 1 /\ suml wt (small_edges 1 (two (-54))) = 1 + two (-52).
Proof.
  split; [exact small_table|]. split; [exact left_to_right_reorders|]. rewrite small_total.
  assert (A : radd b64 (Fin 1) (Fin (two (-54))) = Fin 1) by (unfold radd; cbn [nadd rnd_num]; apply b64_one_plus; lia). rewrite !A. split; [reflexivity|].
  assert (E52 : two (-52) = 4 * two (-54)) by (change (-52)%Z with (2 + -54)%Z; rewrite two_add, (two_Z 2) by lia; reflexivity). unfold small_edges, wt. cbn. lra.
Qed.
