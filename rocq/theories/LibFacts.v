(** Facts about the lib.py model. *)
From Verif Require Import Base Num Spec Lib.

Definition fin_arr (u : nat -> num) (f : nat -> R) : Prop := forall k, u k = Fin (f k).

Lemma fin_add_at : forall u f i v, fin_arr u f ->
  fin_arr (nadd_at u i (Fin v)) (fun k => f k + if Nat.eqb k i then v else 0).
Proof.
  intros u f i v H k. unfold nadd_at, upd. destruct (Nat.eqb_spec k i) as [->|]; rewrite !H; cbn; f_equal; lra.
Qed.

Lemma fin_ext : forall u f g, fin_arr u f -> (forall k, f k = g k) -> fin_arr u g.
Proof. intros u f g H E k. rewrite H, E. reflexivity. Qed.

Lemma fin_range : forall n body (c : nat -> nat -> R) u f,
  (forall i u f, (i < n)%nat -> fin_arr u f -> fin_arr (body i u) (fun k => f k + c i k)) ->
  fin_arr u f -> fin_arr (for_range n body u) (fun k => f k + sumn n (fun i => c i k)).
Proof.
  induction n as [|n IH]; intros body c u f H Hu; simpl.
  - eapply fin_ext; [exact Hu|]. intros; lra.
  - eapply fin_ext.
    + apply H; [lia|]. apply IH; [|exact Hu]. intros i u' f' Hi. apply H. lia.
    + intros k; simpl; lra.
Qed.

Lemma fin_each : forall X (l : list X) body (c : X -> nat -> R) u f,
  (forall x u f, In x l -> fin_arr u f -> fin_arr (body x u) (fun k => f k + c x k)) ->
  fin_arr u f -> fin_arr (for_each l body u) (fun k => f k + suml (fun x => c x k) l).
Proof.
  unfold for_each. induction l as [|x l IH]; intros body c u f H Hu; simpl.
  - eapply fin_ext; [exact Hu|]. intros; lra.
  - eapply fin_ext.
    + apply IH; [intros y u' f' Hy; apply H; right; exact Hy|]. apply H; [left; reflexivity | exact Hu].
    + intros k; simpl; lra.
Qed.

(** What one propagation adds at [k] from row [i]. *)
Definition push (N : nat) (absorb : bool) (r : list (nat * R)) (x : R) (k : nat) : R :=
  match r with
  | [] => if absorb then 0 else if Nat.ltb k N then x / INR N else 0
  | _ => entry r k * x
  end.

Definition finrow (r : list (nat * R)) : list (nat * num) := map (fun e => (fst e, Fin (snd e))) r.

Lemma suml_scal_r : forall A (f : A -> R) l c, suml (fun x => f x * c) l = suml f l * c.
Proof. induction l as [|x l IH]; intros c; simpl; [lra | rewrite IH; lra]. Qed.

Lemma propagate_fin : forall M A B N meas x absorb,
  (forall i, (i < M)%nat -> A i = finrow (B i)) ->
  (forall i, (i < M)%nat -> meas i = Fin (x i)) -> (absorb = true \/ (0 < N)%nat) ->
  fin_arr (propagate_measure M A N meas absorb) (fun k => sumn M (fun i => push N absorb (B i) (x i) k)).
Proof.
  intros M A B N meas x absorb HA Hx HN. unfold propagate_measure.
  eapply fin_ext; [apply (fin_range M _ (fun i k => push N absorb (B i) (x i) k) (fun _ => Fin 0) (fun _ => 0))|].
  - intros i u f Hi Hu. rewrite HA, Hx by exact Hi. unfold finrow, push.
    destruct (B i) as [|e r] eqn:E; cbn [map].
    + destruct absorb; cbn [negb].
      * eapply fin_ext; [exact Hu | intros; lra].
      * assert (HN' : INR N <> 0) by (apply not_0_INR; destruct HN; [discriminate | lia]).
        eapply fin_ext.
        { apply (fin_range N _ (fun j k => if Nat.eqb k j then x i / INR N else 0) u f); [|exact Hu].
          intros j u' f' Hj Hu'. cbn. rewrite Reqb_false by exact HN'. apply fin_add_at. exact Hu'. }
        intros k. cbn beta. f_equal.
        rewrite (sumn_delta' N k (fun _ => x i / INR N)). reflexivity.
    + rewrite <- E. change ((fst e, Fin (snd e)) :: map (fun e0 => (fst e0, Fin (snd e0))) r) with (finrow (e :: r)).
      rewrite <- E. unfold finrow, for_each.
      assert (G : forall l u f, fin_arr u f ->
         fin_arr (for_each (map (fun e => (fst e, Fin (snd e))) l) (fun e0 update => nadd_at update (fst e0) (nmul (snd e0) (Fin (x i)))) u)
           (fun k => f k + entry l k * x i)).
      { clear. intros l u f Hu. eapply fin_ext.
        - apply (fin_each _ _ _ (fun e0 k => if Nat.eqb k (fst e0) then toR (snd e0) * x i else 0)); [|exact Hu].
          intros e0 u' f' He Hu'. apply in_map_iff in He. destruct He as [e1 [<- _]]. cbn. apply fin_add_at. exact Hu'.
        - intros k. cbn beta. f_equal. unfold entry. rewrite suml_map, <- suml_scal_r. apply suml_ext. intros e1 _. cbn.
          rewrite Nat.eqb_sym. destruct (Nat.eqb (fst e1) k); lra. }
      apply G; exact Hu.
  - intros k; reflexivity.
  - intros k; cbn beta; lra.
Qed.

Lemma total_pos : forall r, r <> [] -> Forall (fun e => 0 < snd e) r -> 0 < total r.
Proof.
  intros [|e r] Hr H; [congruence|]. unfold total; simpl. inversion H; subst.
  assert (0 <= suml snd r).
  { clear - H3. induction H3; simpl; lra. } lra.
Qed.

Definition scaled (r : list (nat * R)) : list (nat * R) := map (fun e => (fst e, snd e / total r)) r.

Lemma normalise_float : forall A i, Forall (fun e => 0 < snd e) (A i) ->
  normalise_rows store_float A i = finrow (scaled (A i)).
Proof.
  intros A i H. unfold normalise_rows, scaled, finrow. destruct (A i) as [|e r] eqn:E; [reflexivity|].
  pose proof (total_pos (e :: r) ltac:(discriminate) H) as P. rewrite map_map. apply map_ext. intros e'. unfold store_float, ndiv. cbn [fst snd].
  fold (total (e :: r)). rewrite Reqb_false by lra. reflexivity.
Qed.

Lemma entry_scaled : forall r k, entry (scaled r) k = entry r k / total r.
Proof.
  intros r k. unfold entry, scaled. rewrite suml_map. unfold Rdiv. rewrite <- suml_scal_r. apply suml_ext. intros e _. cbn.
  destruct (Nat.eqb (fst e) k); lra.
Qed.

Lemma scaled_total : forall r, total r <> 0 -> total (scaled r) = 1.
Proof.
  intros r H. unfold scaled. unfold total at 1. rewrite suml_map. cbn.
  unfold Rdiv. rewrite (suml_scal_r _ snd r). fold (total r). field. exact H.
Qed.

Lemma scaled_nil : forall r, scaled r = [] <-> r = [].
Proof. destruct r; unfold scaled; simpl; split; congruence. Qed.

(** Propagating with the normalised rows is one step of the walk. *)
Lemma propagate_walk : forall N A meas x,
  (0 < N)%nat -> (forall i, (i < N)%nat -> Forall (fun e => 0 < snd e) (A i)) ->
  (forall i, (i < N)%nat -> meas i = Fin (x i)) ->
  forall k, (k < N)%nat ->
  propagate_measure N (normalise_rows store_float A) N meas false k = Fin (walk N A x k).
Proof.
  intros N A meas x HN HA Hx k Hk.
  rewrite (propagate_fin N _ (fun i => scaled (A i)) N meas x false); auto.
  - f_equal. unfold walk. apply sumn_ext. intros i Hi. unfold push.
    destruct (A i) as [|e r] eqn:E.
    + cbn [scaled map]. apply Nat.ltb_lt in Hk. rewrite Hk. reflexivity.
    + rewrite <- E. destruct (scaled (A i)) eqn:E2; [apply (proj1 (scaled_nil _)) in E2; congruence|].
      rewrite <- E2, entry_scaled. lra.
  - intros i Hi. apply normalise_float, HA, Hi.
Qed.

Lemma entry_sum : forall N r, Forall (fun e => (fst e < N)%nat) r -> sumn N (entry r) = total r.
Proof.
  intros N r H. induction H as [|e r He H IH].
  - unfold entry, total. simpl. apply sumn_0.
  - unfold entry, total in *. simpl. rewrite sumn_plus, IH. f_equal.
    rewrite (sumn_delta' N (fst e) (fun _ => snd e)). apply Nat.ltb_lt in He. rewrite He. reflexivity.
Qed.

Lemma entry_nonneg : forall r k, Forall (fun e => 0 < snd e) r -> 0 <= entry r k.
Proof.
  intros r k H. unfold entry. induction H as [|e r He H IH]; simpl; [lra|]. destruct (Nat.eqb (fst e) k); lra.
Qed.

(** Rows of a graph with positive weights and columns below [N]. *)
Definition good_rows (N : nat) (A : nat -> list (nat * R)) : Prop :=
  forall i, (i < N)%nat -> Forall (fun e => (fst e < N)%nat /\ 0 < snd e) (A i).

Lemma good_pos : forall N A i, good_rows N A -> (i < N)%nat -> Forall (fun e => 0 < snd e) (A i).
Proof. intros N A i H Hi. eapply Forall_impl; [|apply (H i Hi)]. intros e [_ K]; exact K. Qed.

Lemma good_cols : forall N A i, good_rows N A -> (i < N)%nat -> Forall (fun e => (fst e < N)%nat) (A i).
Proof. intros N A i H Hi. eapply Forall_impl; [|apply (H i Hi)]. intros e [K _]; exact K. Qed.

(** Transition probability from [i] to [j]. *)
Definition hop (N : nat) (A : nat -> list (nat * R)) (i j : nat) : R :=
  match A i with [] => / INR N | _ => entry (A i) j / total (A i) end.

Lemma walk_hop : forall N A x j, walk N A x j = sumn N (fun i => x i * hop N A i j).
Proof. intros N A x j. unfold walk, hop. apply sumn_ext. intros i _. destruct (A i); reflexivity. Qed.

Lemma hop_nonneg : forall N A i j, good_rows N A -> (0 < N)%nat -> (i < N)%nat -> 0 <= hop N A i j.
Proof.
  intros N A i j H HN Hi. unfold hop. pose proof (good_pos N A i H Hi) as P. destruct (A i) as [|e r] eqn:E.
  - left. apply Rinv_0_lt_compat, lt_0_INR. exact HN.
  - rewrite <- E in *. apply Rmult_le_pos; [apply entry_nonneg; exact P|]. left. apply Rinv_0_lt_compat.
    apply total_pos; [congruence | exact P].
Qed.

Lemma hop_sum : forall N A i, good_rows N A -> (0 < N)%nat -> (i < N)%nat -> sumn N (hop N A i) = 1.
Proof.
  intros N A i H HN Hi. unfold hop. pose proof (good_pos N A i H Hi) as P. pose proof (good_cols N A i H Hi) as C.
  destruct (A i) as [|e r] eqn:E.
  - rewrite sumn_const. field. apply not_0_INR. lia.
  - rewrite <- E in *. unfold Rdiv. rewrite sumn_scal_r. rewrite (entry_sum N (A i) C). field.
    assert (0 < total (A i)) by (apply total_pos; [congruence | exact P]). lra.
Qed.

Lemma walk_sum : forall N A x, good_rows N A -> (0 < N)%nat -> sumn N (walk N A x) = sumn N x.
Proof.
  intros N A x H HN. rewrite (sumn_ext N _ _ (fun j _ => walk_hop N A x j)). rewrite sumn_swap.
  apply sumn_ext. intros i Hi. rewrite sumn_scal_l, hop_sum by assumption. lra.
Qed.

Lemma walk_nonneg : forall N A x, good_rows N A -> (0 < N)%nat ->
  (forall i, (i < N)%nat -> 0 <= x i) -> forall j, 0 <= walk N A x j.
Proof.
  intros N A x H HN Hx j. rewrite walk_hop. apply sumn_nonneg. intros i Hi.
  apply Rmult_le_pos; [apply Hx, Hi | apply hop_nonneg; assumption].
Qed.

Lemma walk_contract : forall N A x y, good_rows N A -> (0 < N)%nat ->
  sumn N (fun j => Rabs (walk N A x j - walk N A y j)) <= sumn N (fun i => Rabs (x i - y i)).
Proof.
  intros N A x y H HN.
  apply Rle_trans with (sumn N (fun j => sumn N (fun i => Rabs (x i - y i) * hop N A i j))).
  - apply sumn_le. intros j _. rewrite !walk_hop, <- sumn_minus. eapply Rle_trans; [apply sumn_abs|].
    apply sumn_le. intros i Hi. replace (x i * hop N A i j - y i * hop N A i j) with ((x i - y i) * hop N A i j) by ring.
    rewrite Rabs_mult, (Rabs_right (hop N A i j)); [lra|]. apply Rle_ge, hop_nonneg; assumption.
  - rewrite sumn_swap. apply Req_le. apply sumn_ext. intros i Hi. rewrite sumn_scal_l, hop_sum by assumption. lra.
Qed.

(** * The iterations *)

Lemma all_close_spec : forall N tol u v f g,
  (forall k, (k < N)%nat -> u k = Fin (f k)) -> (forall k, (k < N)%nat -> v k = Fin (g k)) ->
  reflect (close N tol f g) (all_close N tol u v).
Proof.
  intros N tol u v f g Hu Hv. unfold all_close.
  destruct (forallb _ _) eqn:E; constructor.
  - rewrite forallb_forall in E. intros k Hk. specialize (E k). rewrite Hu, Hv in E by exact Hk.
    cbn in E. assert (E' := E ltac:(apply in_seq; lia)). destruct (Rltb_spec (Rabs (f k + - g k)) tol); [exact r | discriminate].
  - intros C. assert (forallb (fun k => nltb (nabs (nsub (u k) (v k))) (Fin tol)) (seq 0 N) = true); [|congruence].
    apply forallb_forall. intros k Hk. apply in_seq in Hk. rewrite Hu, Hv by lia. cbn. apply Rltb_true. apply C. lia.
Qed.

(** A loop that follows the sequence [u] until two successive terms are close. *)
Lemma iterate_loop : forall N tol (u : nat -> nat -> R) (step : (nat -> num) -> (nat -> num)) init m
    (body : nat -> (nat -> num) -> flow (nat -> num) (res ((nat -> num) * verdict))),
  (forall n s, body n s = if all_close N tol (step s) s then Return (Ok (step s, Converged n)) else Next (step s)) ->
  (forall k, (k < N)%nat -> init k = Fin (u O k)) ->
  (forall n s, (forall k, (k < N)%nat -> s k = Fin (u n k)) -> forall k, (k < N)%nat -> step s k = Fin (u (S n) k)) ->
  (1 <= m)%nat ->
  match for_flow m body init with
  | Return (Ok (s, Converged n)) =>
      stops N tol u m (S n) /\ close N tol (u (S n)) (u n) /\ forall k, (k < N)%nat -> s k = Fin (u (S n) k)
  | Next s => stops N tol u m m /\ ~ close N tol (u m) (u (m - 1)%nat) /\ forall k, (k < N)%nat -> s k = Fin (u m k)
  | _ => False
  end.
Proof.
  intros N tol u step init m body Hb Hi Hs Hm.
  assert (G : match for_flow m body init with
  | Return (Ok (s, Converged n)) =>
      (n < m)%nat /\ (forall k, (k < n)%nat -> ~ close N tol (u (S k)) (u k)) /\
      close N tol (u (S n)) (u n) /\ forall k, (k < N)%nat -> s k = Fin (u (S n) k)
  | Next s => (forall k, (k < m)%nat -> ~ close N tol (u (S k)) (u k)) /\ forall k, (k < N)%nat -> s k = Fin (u m k)
  | _ => False
  end).
  { clear Hm. induction m as [|m IH].
    - simpl. split; [intros; lia | exact Hi].
    - cbn [for_flow]. destruct (for_flow m body init) as [s | [[s [n|n]]|]]; try contradiction.
      + destruct IH as [IH1 IH2]. rewrite Hb.
        destruct (all_close_spec N tol (step s) s (u (S m)) (u m)) as [C|C]; [apply Hs; exact IH2 | exact IH2 | |].
        * split; [lia|]. split; [intros; apply IH1; lia|]. split; [exact C | apply Hs; exact IH2].
        * split; [|apply Hs; exact IH2]. intros k Hk. destruct (Nat.eq_dec k m) as [->|]; [exact C | apply IH1; lia].
      + destruct IH as [IH1 [IH2 IH3]]. split; [lia|]. auto. }
  destruct (for_flow m body init) as [s | [[s [n|n]]|]]; try contradiction.
  - destruct G as [G1 G2]. split; [|split].
    + split; [lia|]. split; [intros k Hk; apply G1; lia | left; reflexivity].
    + replace m with (S (m - 1)) at 1 by lia. apply G1. lia.
    + exact G2.
  - destruct G as [G1 [G2 [G3 G4]]]. split; [|split; assumption].
    split; [lia|]. split; [intros k Hk; apply G2; lia|]. right. replace (S n - 1)%nat with n by lia. exact G3.
Qed.

(** Number of passes reported by the message. *)
Definition reports (N : nat) (tol : R) (u : nat -> nat -> R) (n : nat) (v : verdict) : Prop :=
  match v with
  | Converged k => n = S k /\ close N tol (u n) (u k)
  | Stopped k => n = k /\ ~ close N tol (u n) (u (n - 1)%nat)
  end.

Theorem pagerank_result : forall N A alpha m tol,
  (0 < N)%nat -> (0 < m)%nat -> (forall i, (i < N)%nat -> Forall (fun e => 0 < snd e) (A i)) ->
  exists r n v, pagerank store_float N A alpha m tol = Ok (r, v) /\
    stops N tol (rank_seq N A alpha) m n /\ reports N tol (rank_seq N A alpha) n v /\
    forall k, (k < N)%nat -> r k = Fin (rank_seq N A alpha n k).
Proof.
  intros N A alpha m tol HN Hm HA. unfold pagerank.
  assert (E0 : Nat.eqb N 0 = false) by (apply Nat.eqb_neq; lia). rewrite E0.
  assert (E1 : Nat.eqb m 0 = false) by (apply Nat.eqb_neq; lia). rewrite E1.
  assert (HI : INR N <> 0) by (apply not_0_INR; lia).
  pose (step := fun (rank : nat -> num) (k : nat) =>
     nadd (nmul (propagate_measure N (normalise_rows store_float A) N rank false k) (Fin alpha)) (Fin ((1 - alpha) / INR N))).
  pose proof (iterate_loop N tol (rank_seq N A alpha) step (fun _ => ndiv (Fin 1) (Fin (INR N))) m
    (fun n rank => if all_close N tol (step rank) rank then Return (Ok (step rank, Converged n)) else Next (step rank))) as L.
  specialize (L (fun _ _ => eq_refl)).
  assert (L' := L ltac:(intros; cbn; rewrite Reqb_false by exact HI; reflexivity)). clear L.
  assert (Hs : forall n s, (forall k, (k < N)%nat -> s k = Fin (rank_seq N A alpha n k)) ->
      forall k, (k < N)%nat -> step s k = Fin (rank_seq N A alpha (S n) k)).
  { intros n s H k Hk. unfold step. rewrite (propagate_walk N A s (rank_seq N A alpha n) HN HA H k Hk). cbn. f_equal. ring. }
  specialize (L' Hs Hm).
  change (for_flow m _ _) with (for_flow m
    (fun n rank => if all_close N tol (step rank) rank then Return (Ok (step rank, Converged n)) else Next (step rank))
    (fun _ => ndiv (Fin 1) (Fin (INR N)))).
  destruct (for_flow m _ _) as [s | [[s [n|n]]|]]; try contradiction; destruct L' as [L1 [L2 L3]].
  - exists s, m, (Stopped m). repeat split; auto; apply L1.
  - exists s, (S n), (Converged n). split; [reflexivity|]. split; [exact L1|]. split; [split; [reflexivity | exact L2] | exact L3].
Qed.

Lemma rank_prob : forall N A alpha n, good_rows N A -> (0 < N)%nat -> 0 <= alpha <= 1 ->
  (forall k, 0 <= rank_seq N A alpha n k) /\ sumn N (rank_seq N A alpha n) = 1.
Proof.
  intros N A alpha n H HN Ha. assert (HI : 0 < INR N) by (apply lt_0_INR; exact HN).
  induction n as [|n [IH1 IH2]]; cbn [rank_seq].
  - split; [intros; left; apply Rdiv_lt_0_compat; lra|]. rewrite sumn_const. field. lra.
  - split.
    + intros k. apply Rplus_le_le_0_compat.
      * apply Rmult_le_pos; [lra|]. apply walk_nonneg; auto.
      * apply Rmult_le_pos; [lra|]. left. apply Rinv_0_lt_compat. exact HI.
    + rewrite sumn_plus, sumn_scal_l, walk_sum, IH2, sumn_const by assumption. field. lra.
Qed.

(** After a convergence report the vector is nearly a fixed point. *)
Lemma rank_residual : forall N A alpha n tol, good_rows N A -> (0 < N)%nat -> 0 <= alpha ->
  close N tol (rank_seq N A alpha (S n)) (rank_seq N A alpha n) ->
  sumn N (fun j => Rabs (rank_seq N A alpha (S (S n)) j - rank_seq N A alpha (S n) j)) <= alpha * (INR N * tol).
Proof.
  intros N A alpha n tol H HN Ha C.
  rewrite (sumn_ext N _ (fun j => alpha * Rabs (walk N A (rank_seq N A alpha (S n)) j - walk N A (rank_seq N A alpha n) j))).
  - rewrite sumn_scal_l. apply Rmult_le_compat_l; [exact Ha|]. eapply Rle_trans; [apply walk_contract; assumption|].
    rewrite <- sumn_const. apply sumn_le. intros i Hi. left. apply C, Hi.
  - intros j _. cbn [rank_seq]. match goal with |- _ = alpha * Rabs ?z => replace (alpha * Rabs z) with (Rabs (alpha * z)) by (rewrite Rabs_mult, (Rabs_right alpha) by lra; reflexivity) end. f_equal. ring.
Qed.

(** * Trophic depth *)

Lemma csc_entry : forall N A c v, (v < N)%nat -> entry (csc N A c) v = entry (A v) c.
Proof.
  intros N A c v Hv. unfold csc, entry. rewrite suml_flat_map.
  rewrite (suml_ext _ _ (fun r => if Nat.eqb r v then suml (fun e => if Nat.eqb (fst e) c then snd e else 0) (A r) else 0)).
  - rewrite suml_seq, sumn_delta. apply Nat.ltb_lt in Hv. rewrite Hv. reflexivity.
  - intros r _. rewrite suml_map. cbn. destruct (Nat.eqb r v).
    + rewrite suml_filter. apply suml_ext. intros e _. destruct (Nat.eqb (fst e) c); reflexivity.
    + induction (filter _ (A r)); simpl; [reflexivity|]. rewrite IHl. lra.
Qed.

Lemma propagate_csc : forall N A meas x v, (v < N)%nat ->
  (forall i, (i < N)%nat -> meas i = Fin (x i)) ->
  propagate_measure N (fun c => map (fun e => (fst e, Fin (snd e))) (csc N A c)) N meas true v
  = Fin (sumn N (fun j => entry (A v) j * x j)).
Proof.
  intros N A meas x v Hv Hx.
  rewrite (propagate_fin N _ (csc N A) N meas x true); auto.
  f_equal. apply sumn_ext. intros j _. rewrite <- (csc_entry N A j v Hv). unfold push.
  destruct (csc N A j); [|reflexivity]. unfold entry. simpl. lra.
Qed.

Theorem trophic_result : forall N A final m tol,
  (forall v, (v < N)%nat -> Forall (fun e => (fst e < N)%nat) (A v)) -> (0 < m)%nat ->
  exists r n v, trophic_depth true N A final m tol = Ok (r, v) /\
    stops N tol (depth_seq N A final) m n /\ reports N tol (depth_seq N A final) n v /\
    forall k, (k < N)%nat -> r k = Fin (depth_seq N A final n k).
Proof.
  intros N A final m tol HA Hm. unfold trophic_depth, guard.
  assert (E1 : Nat.eqb m 0 = false) by (apply Nat.eqb_neq; lia). rewrite E1.
  pose (step := fun (depth : nat -> num) (v : nat) =>
     let new_depth := propagate_measure N (fun c => map (fun e => (fst e, Fin (snd e))) (csc N A c)) N (fun k => nadd (depth k) (Fin 1)) true in
     if negb (Reqb (suml snd (A v) + final v) 0)
     then ndiv (nadd (Fin (final v)) (new_depth v)) (Fin (suml snd (A v) + final v)) else new_depth v).
  pose proof (iterate_loop N tol (depth_seq N A final) step (fun v => Fin (final v)) m
    (fun n depth => if all_close N tol (step depth) depth then Return (Ok (step depth, Converged n)) else Next (step depth))) as L.
  specialize (L (fun _ _ => eq_refl)). assert (L' := L ltac:(intros; reflexivity)). clear L.
  assert (Hs : forall n s, (forall k, (k < N)%nat -> s k = Fin (depth_seq N A final n k)) ->
      forall k, (k < N)%nat -> step s k = Fin (depth_seq N A final (S n) k)).
  { intros n s H v Hv. unfold step.
    rewrite (propagate_csc N A _ (fun k => 1 + depth_seq N A final n k) v Hv).
    2:{ intros i Hi. rewrite H by exact Hi. cbn. f_equal. lra. }
    cbn [depth_seq]. unfold total. unfold Reqb. destruct (Req_EM_T (suml snd (A v) + final v) 0) as [E|E]; cbn [negb]; [reflexivity|].
    cbn. rewrite Reqb_false by exact E. f_equal.
    rewrite (sumn_ext N (fun j => entry (A v) j * (1 + depth_seq N A final n j)) (fun j => entry (A v) j + entry (A v) j * depth_seq N A final n j))
      by (intros; ring).
    rewrite sumn_plus.
    rewrite (entry_sum N (A v) (HA v Hv)). unfold total. field. exact E. }
  specialize (L' Hs Hm).
  change (for_flow m _ _) with (for_flow m
    (fun n depth => if all_close N tol (step depth) depth then Return (Ok (step depth, Converged n)) else Next (step depth))
    (fun v => Fin (final v))).
  destruct (for_flow m _ _) as [s | [[s [n|n]]|]]; try contradiction; destruct L' as [L1 [L2 L3]].
  - exists s, m, (Stopped m). repeat split; auto; apply L1.
  - exists s, (S n), (Converged n). split; [reflexivity|]. split; [exact L1|]. split; [split; [reflexivity | exact L2] | exact L3].
Qed.

Lemma half_int : store_int (ndiv (Fin 1) (Fin (1 + (1 + 0)))) = Fin 0.
Proof.
  unfold ndiv. rewrite Reqb_false by lra. unfold store_int. rewrite Rltb_false by lra.
  destruct (base_Int_part (1 / (1 + (1 + 0)))) as [B1 B2]. do 2 f_equal.
  assert (IZR (Int_part (1 / (1 + (1 + 0)))) < IZR 1) by lra.
  assert (IZR (-1) < IZR (Int_part (1 / (1 + (1 + 0))))) by lra.
  apply lt_IZR in H. apply lt_IZR in H0. lia.
Qed.
