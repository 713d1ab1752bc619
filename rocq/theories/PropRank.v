(** Property C104: what PageRank and the trophic depths converge to, and how fast. *)
From Coq Require Import Sorted Sorting.Permutation.
From Verif Require Import Base Num Spec Lib LibFacts RankFacts CondDist Ids IdFacts Graphs GraphFacts PropTables PropGraph Prob Ensemble Construct Pipeline PropPipeline LibGraph.
Import Num Spec.

Open Scope R_scope.

(** * C104: PageRank *)

(** The weight of the link from [i] to [j], in either direction for undirected classes. *)
Definition seen (s : shape) (i j : nat) : R := if is_directed s then GraphFacts.link s i j else both_ways (GraphFacts.link s) i j.

(** [x] is kept by the walk that follows a link, chosen with probability proportional to its weight (any vertex if there is none), with
    probability [alpha], and jumps to any vertex otherwise. *)
Definition stationary (N : nat) (w : nat -> nat -> R) (alpha : R) (x : nat -> R) : Prop := forall j, (j < N)%nat ->
  x j = alpha * sumn N (fun i => if Req_EM_T (sumn N (w i)) 0 then x i / INR N else x i * (w i j / sumn N (w i))) + (1 - alpha) / INR N.

Lemma graph_rows : forall N s gr, library_graph true N s gr -> layers s <> [] -> exists A, adjacency_matrix N s true true = Ok A /\ sp_bool A = false /\
  good_rows N (sp_row A) /\ (forall i j, (i < N)%nat -> (j < N)%nat -> entry (sp_row A i) j = seen s i j) /\
  (forall i, (i < N)%nat -> total (sp_row A i) = sumn N (seen s i)) /\ (forall i, (i < N)%nat -> sp_row A i = [] <-> sumn N (seen s i) = 0).
Proof.
  intros N s gr H L. pose proof (library_valid _ _ _ _ H) as V. destruct (adjacency_ok N s true true L) as [A EA].
  destruct (adjacency_spec true N s true true A V EA) as [WA HA].
  assert (G : good_rows N (sp_row A)).
  { intros i Hi. destruct (WA i Hi) as [_ HF]. eapply Forall_impl; [|exact HF]. cbv beta. tauto. }
  assert (E : forall i j, (i < N)%nat -> (j < N)%nat -> entry (sp_row A i) j = seen s i j).
  { intros i j Hi Hj. pose proof (HA i j Hi Hj) as K. unfold view, seen in *. destruct (is_directed s); exact K. }
  assert (T : forall i, (i < N)%nat -> total (sp_row A i) = sumn N (seen s i)).
  { intros i Hi. rewrite <- (entry_sum N) by (apply (good_cols N _ i G Hi)). apply sumn_ext. intros j Hj. apply E; assumption. }
  exists A. split; [exact EA|]. split; [|split; [exact G|]; split; [exact E|]; split; [exact T|]].
  - clear - V EA. unfold valid in V. rewrite Forall_forall in V. destruct s as [B|B|Ls|Ls]; cbn [adjacency_matrix layers] in *.
    + injection EA as <-. cbn. rewrite (proj2 (V B (or_introl eq_refl))). reflexivity.
    + injection EA as <-. cbn. rewrite (proj2 (V B (or_introl eq_refl))). reflexivity.
    + unfold multigraph_adjacency in EA. destruct (flatten N Ls) as [B|] eqn:F; [|discriminate]. cbn [bind] in EA. injection EA as <-.
      destruct (flatten_spec true N Ls B ltac:(apply Forall_forall; exact V) F) as (_ & H2 & _). cbn. rewrite H2. reflexivity.
    + unfold multidigraph_adjacency in EA. destruct (flatten N Ls) as [B|] eqn:F; [|discriminate]. cbn [bind andb negb] in EA. injection EA as <-.
      destruct (flatten_spec true N Ls B ltac:(apply Forall_forall; exact V) F) as (_ & H2 & _). exact H2.
  - intros i Hi. rewrite <- (T i Hi). split; [intros ->; reflexivity|]. intros Z. destruct (sp_row A i) as [|e r] eqn:Er; [reflexivity|]. exfalso.
    pose proof (total_pos (e :: r) ltac:(discriminate) ltac:(rewrite <- Er; apply (good_pos N _ i G Hi))). lra.
Qed.

Lemma stationary_fixed : forall N s gr A alpha, library_graph true N s gr -> (forall i j, (i < N)%nat -> (j < N)%nat -> entry (sp_row A i) j = seen s i j) ->
  (forall i, (i < N)%nat -> total (sp_row A i) = sumn N (seen s i)) -> (forall i, (i < N)%nat -> sp_row A i = [] <-> sumn N (seen s i) = 0) ->
  forall x, stationary N (seen s) alpha x <-> fixed N (damped N (sp_row A) alpha) x.
Proof.
  intros N s gr A alpha H E T Z x.
  assert (K : forall j, (j < N)%nat -> walk N (sp_row A) x j = sumn N (fun i => if Req_EM_T (sumn N (seen s i)) 0 then x i / INR N else x i * (seen s i j / sumn N (seen s i)))).
  { intros j Hj. unfold walk. apply sumn_ext. intros i Hi. specialize (E i j Hi Hj). specialize (T i Hi). specialize (Z i Hi). destruct (Req_EM_T (sumn N (seen s i)) 0) as [Q | Q].
    - rewrite (proj2 Z Q). reflexivity.
    - destruct (sp_row A i); [exfalso; apply Q, Z; reflexivity|]. rewrite E, T. reflexivity. }
  unfold stationary, fixed, damped. split; intros F j Hj; specialize (F j Hj); rewrite K in * by exact Hj; lra.
Qed.

(** For a graph with float weights the damped walk has exactly one stationary vector; it is a probability vector without zeros.  The vector
    returned after [n] iterations is within [2 alpha ^ n] of it in total, and within [N tol alpha / (1 - alpha)] if convergence is reported. *)
Theorem C104_accuracy : forall to_bool N s gr alpha m tol, library_graph true N s gr -> layers s <> [] -> (0 < N)%nat -> (0 < m)%nat -> 0 <= alpha < 1 ->
  exists x, stationary N (seen s) alpha x /\ (forall y, stationary N (seen s) alpha y -> forall k, (k < N)%nat -> y k = x k) /\
    (forall k, (k < N)%nat -> (1 - alpha) / INR N <= x k) /\ sumn N x = 1 /\
    exists r v y, graph_pagerank store_float to_bool N s true alpha m tol = Ok (r, v) /\ (forall k, (k < N)%nat -> r k = Fin (y k)) /\
      match v with
      | Converged n => (n < m)%nat /\ sumn N (fun k => Rabs (y k - x k)) <= 2 * alpha ^ S n /\ sumn N (fun k => Rabs (y k - x k)) <= alpha / (1 - alpha) * (INR N * tol)
      | Stopped n => n = m /\ sumn N (fun k => Rabs (y k - x k)) <= 2 * alpha ^ n
      end.
Proof.
  intros to_bool N s gr alpha m tol H L HN Hm Ha. destruct (graph_rows N s gr H L) as (A & EA & EB & G & E & T & Z).
  pose proof (stationary_fixed N s gr A alpha H E T Z) as SF. set (rows := sp_row A) in *.
  destruct (rank_limit N rows alpha G HN Ha) as (x & Cv & Fx & Nx).
  assert (HI : 0 < INR N) by (apply lt_0_INR; exact HN).
  assert (P0 : forall k, (k < N)%nat -> 0 <= x k).
  { intros k Hk. apply Rnot_lt_le. intros C. destruct (Cv k Hk (- x k) ltac:(lra)) as [n0 H0]. specialize (H0 n0 ltac:(lia)). unfold R_dist in H0.
    destruct (rank_prob N rows alpha n0 G HN ltac:(lra)) as [P _]. specialize (P k). apply Rabs_def2 in H0. lra. }
  assert (P1 : sumn N x = 1).
  { assert (D : forall n, Rabs (sumn N x - 1) <= alpha ^ n * 2).
    { intros n. destruct (rank_prob N rows alpha n G HN ltac:(lra)) as [_ P]. eapply Rle_trans; [|apply (Nx n)]. rewrite <- P. unfold dist.
      replace (sumn N x - sumn N (rank_seq N rows alpha n)) with (sumn N (fun k => x k - rank_seq N rows alpha n k)).
      - apply sumn_abs.
      - rewrite (sumn_ext N _ (fun k => x k + (-1) * rank_seq N rows alpha n k)) by (intros; ring). rewrite sumn_plus, sumn_scal_l. ring. }
    destruct (Req_dec (sumn N x) 1) as [Q | Q]; [exact Q|]. exfalso. assert (0 < Rabs (sumn N x - 1)) as Q' by (apply Rabs_pos_lt; lra).
    destruct (pow_small alpha 2 _ Ha ltac:(lra) Q') as [n0 H0]. specialize (H0 n0 ltac:(lia)). specialize (D n0). lra. }
  exists x. split; [apply SF, Fx|]. split; [intros y Hy k Hk; apply (rank_fixed_unique N rows alpha G HN Ha y x); [apply SF, Hy | exact Fx | exact Hk]|].
  split; [|split; [exact P1|]].
  { intros k Hk. rewrite <- (Fx k Hk). unfold damped. assert (0 <= walk N rows x k) as K; [|nra].
    rewrite (walk_ext N rows x (fun k => Rmax 0 (x k)) k) by (intros i Hi; rewrite Rmax_right by (apply P0, Hi); reflexivity).
    apply walk_nonneg; try assumption. intros i _. apply Rmax_l. }
  destruct (pagerank_result N rows alpha m tol HN Hm (fun i Hi => good_pos N rows i G Hi)) as (r & n & v & Er & St & Rp & K).
  exists r, v, (rank_seq N rows alpha n). split; [unfold graph_pagerank; rewrite EA; cbn [bind]; rewrite EB; exact Er|]. split; [exact K|].
  change (sumn N (fun k => Rabs (rank_seq N rows alpha n k - x k))) with (dist N (rank_seq N rows alpha n) x).
  pose proof (Nx n) as D. rewrite dist_sym in D. destruct v as [n'|n']; destruct Rp as [-> C].
  - split; [destruct St as [? _]; lia|]. split; [lra|].
    assert (Q : dist N (rank_seq N rows alpha (S n')) x <= alpha * dist N (rank_seq N rows alpha n') x).
    { eapply Rle_trans; [|apply (damped_contract N rows alpha (rank_seq N rows alpha n') x G HN ltac:(lra))]. right. unfold dist. apply sumn_ext. intros k Hk. rewrite (Fx k Hk). reflexivity. }
    pose proof (dist_triang N (rank_seq N rows alpha n') (rank_seq N rows alpha (S n')) x) as Tr.
    assert (Q2 : dist N (rank_seq N rows alpha n') (rank_seq N rows alpha (S n')) <= INR N * tol).
    { rewrite dist_sym. unfold dist. rewrite <- sumn_const. apply sumn_le. intros k Hk. left. apply C, Hk. }
    set (d1 := dist N (rank_seq N rows alpha (S n')) x) in *. set (d0 := dist N (rank_seq N rows alpha n') x) in *.
    apply Rmult_le_reg_l with (1 - alpha); [lra|]. replace ((1 - alpha) * (alpha / (1 - alpha) * (INR N * tol))) with (alpha * (INR N * tol)) by (field; lra). nra.
  - split; [|lra]. unfold graph_pagerank in *. destruct St as (S1 & S2 & [S3 | S3]); [exact S3 | contradiction].
Qed.
Print Assumptions C104_accuracy.

(** If [alpha ^ m < tol] the iteration converges within [m] steps, whatever the graph. *)
Theorem C104_converges : forall to_bool N s gr alpha m tol k, library_graph true N s gr -> layers s <> [] -> (0 < N)%nat -> (0 < k <= m)%nat -> 0 <= alpha < 1 ->
  alpha ^ k < tol -> exists r n, graph_pagerank store_float to_bool N s true alpha m tol = Ok (r, Converged n) /\ (n < k)%nat.
Proof.
  intros to_bool N s gr alpha m tol k H L HN Hk Ha Ht. destruct (graph_rows N s gr H L) as (A & EA & EB & G & E & T & Z). set (rows := sp_row A) in *.
  destruct (pagerank_result N rows alpha m tol HN ltac:(lia) (fun i Hi => good_pos N rows i G Hi)) as (r & n & v & Er & (S1 & S2 & S3) & Rp & K).
  assert (C : forall q, (k <= S q)%nat -> close N tol (rank_seq N rows alpha (S q)) (rank_seq N rows alpha q)).
  { intros q Hq j Hj. eapply Rle_lt_trans; [apply (rank_step N rows alpha G HN Ha q j Hj)|]. eapply Rle_lt_trans; [|exact Ht].
    replace (S q) with (k + (S q - k))%nat by lia. rewrite pow_add. pose proof (pow_le alpha k ltac:(lra)).
    assert (alpha ^ (S q - k) <= 1) by (rewrite <- (pow1 (S q - k)); apply pow_incr; lra). nra. }
  exists r. destruct v as [n'|n']; destruct Rp as [-> R2].
  - exists n'. split; [unfold graph_pagerank; rewrite EA; cbn [bind]; rewrite EB; exact Er|].
    apply Nat.nle_gt. intros Hn. apply (S2 (k - 1)%nat ltac:(lia)). replace (S (k - 1)) with k by lia. replace k with (S (k - 1)) at 1 by lia. apply C. lia.
  - exfalso. destruct S3 as [-> | S3]; [|contradiction]. apply R2. replace m with (S (m - 1)) at 1 by lia. apply C. lia.
Qed.
Print Assumptions C104_converges.

(** With the default arguments convergence is reported for every graph with float weights, after at most 86 iterations, and the ranks are
    within 6 N 10^-6 of the stationary ones in total. *)
Theorem C104_default : forall to_bool N s gr, library_graph true N s gr -> layers s <> [] -> (0 < N)%nat ->
  exists x r n y, stationary N (seen s) (85 / 100) x /\ graph_pagerank store_float to_bool N s true (85 / 100) 100 (/ 10 ^ 6) = Ok (r, Converged n) /\
    (n <= 85)%nat /\ (forall k, (k < N)%nat -> r k = Fin (y k)) /\ sumn N (fun k => Rabs (y k - x k)) <= 6 * INR N * / 10 ^ 6.
Proof.
  intros to_bool N s gr H L HN.
  destruct (C104_converges to_bool N s gr (85 / 100) 100 (/ 10 ^ 6) 86 H L HN ltac:(lia) ltac:(lra)) as (r & n & E & Hn).
  { replace (85 / 100) with (IZR 17 / IZR 20) by lra. unfold Rdiv. rewrite Rpow_mult_distr, pow_inv by lra.
    apply Rmult_lt_reg_r with (IZR 20 ^ 86); [apply pow_lt; lra|]. rewrite Rmult_assoc, Rinv_l by (apply pow_nonzero; lra). rewrite Rmult_1_r.
    apply Rmult_lt_reg_l with (10 ^ 6); [apply pow_lt; lra|]. rewrite <- Rmult_assoc, Rinv_r by (apply pow_nonzero; lra). rewrite Rmult_1_l.
    rewrite !pow_IZR. rewrite <- mult_IZR. apply IZR_lt. reflexivity. }
  destruct (C104_accuracy to_bool N s gr (85 / 100) 100 (/ 10 ^ 6) H L HN ltac:(lia) ltac:(lra)) as (x & Sx & _ & _ & _ & r' & v & y & E' & K & V).
  rewrite E in E'. injection E' as <- <-. exists x, r, n, y. split; [exact Sx|]. split; [exact E|]. split; [lia|]. split; [exact K|].
  destruct V as (_ & _ & V). eapply Rle_trans; [exact V|]. pose proof (pos_INR N). assert (0 < / 10 ^ 6) by (apply Rinv_0_lt_compat, pow_lt; lra).
  replace (85 / 100 / (1 - 85 / 100)) with (17 / 3) by lra. nra.
Qed.
Print Assumptions C104_default.

(** ** The numbering of the vertices and the scale of the weights *)

Lemma sumn_reindex : forall N (p : nat -> nat) f, (forall i, (i < N)%nat -> (p i < N)%nat) -> (forall i j, (i < N)%nat -> (j < N)%nat -> p i = p j -> i = j) ->
  sumn N f = sumn N (fun i => f (p i)).
Proof.
  intros N p f R I. rewrite <- !suml_seq, <- (suml_map _ _ p f). apply suml_perm. apply Permutation_sym. apply NoDup_Permutation_bis.
  - assert (Q : forall l, NoDup l -> (forall i, In i l -> (i < N)%nat) -> NoDup (map p l)).
    { induction l as [|a l IH]; intros ND Hl; cbn; constructor.
      - intros K. apply in_map_iff in K as (b & Eb & Hb). inversion ND; subst. apply I in Eb; [subst; contradiction | apply Hl; right; exact Hb | apply Hl; left; reflexivity].
      - inversion ND; subst. apply IH; [assumption | intros; apply Hl; right; assumption]. }
    apply Q; [apply seq_NoDup|]. intros i Hi. apply in_seq in Hi. lia.
  - rewrite map_length. lia.
  - intros k Hk. apply in_map_iff in Hk as (i & <- & Hi). apply in_seq in Hi. apply in_seq. specialize (R i ltac:(lia)). lia.
Qed.

Lemma onto : forall N (p : nat -> nat), (forall i, (i < N)%nat -> (p i < N)%nat) -> (forall i j, (i < N)%nat -> (j < N)%nat -> p i = p j -> i = j) ->
  forall k, (k < N)%nat -> exists i, (i < N)%nat /\ p i = k.
Proof.
  intros N p R I k Hk. pose proof (sumn_reindex N p (fun j => if Nat.eqb j k then 1 else 0) R I) as E. rewrite (sumn_delta N k (fun _ => 1)) in E.
  apply Nat.ltb_lt in Hk. rewrite Hk in E. destruct (existsb (fun i => Nat.eqb (p i) k) (seq 0 N)) eqn:X.
  - apply existsb_exists in X as (i & Hi & Ei). apply in_seq in Hi. apply Nat.eqb_eq in Ei. exists i. split; [lia | exact Ei].
  - exfalso. rewrite sumn_zero in E; [lra|]. intros i Hi. destruct (Nat.eqb (p i) k) eqn:Y; [|reflexivity]. exfalso.
    assert (existsb (fun i => Nat.eqb (p i) k) (seq 0 N) = true) by (apply existsb_exists; exists i; split; [apply in_seq; lia | exact Y]). congruence.
Qed.

Lemma stops_unique : forall N tol u u' m n n' v v', (forall q, close N tol (u (S q)) (u q) <-> close N tol (u' (S q)) (u' q)) ->
  stops N tol u m n -> reports N tol u n v -> stops N tol u' m n' -> reports N tol u' n' v' -> n = n' /\ v = v'.
Proof.
  intros N tol u u' m n n' v v' C (S1 & S2 & S3) Rp (T1 & T2 & T3) Rp'.
  assert (n = n').
  { destruct (lt_eq_lt_dec n n') as [[K | K] | K]; [|exact K|]; exfalso.
    - destruct S3 as [-> | S3]; [lia|]. apply (T2 (n - 1)%nat ltac:(lia)). apply C. replace (S (n - 1)) with n by lia. exact S3.
    - destruct T3 as [-> | T3]; [lia|]. apply (S2 (n' - 1)%nat ltac:(lia)). apply C. replace (S (n' - 1)) with n' by lia. exact T3. }
  subst n'. split; [reflexivity|]. specialize (C (n - 1)%nat). replace (S (n - 1)) with n in C by lia.
  destruct v as [k|k], v' as [k'|k']; cbn in Rp, Rp'; destruct Rp as [E1 K1], Rp' as [E2 K2].
  - f_equal. lia.
  - exfalso. apply K2, C. replace (n - 1)%nat with k by lia. exact K1.
  - exfalso. apply K1, C. replace (n - 1)%nat with k' by lia. exact K2.
  - f_equal. lia.
Qed.

(** Renumbering the vertices renumbers the ranks, and multiplying the weights of the links of a vertex by a positive number changes nothing;
    the number of iterations stays the same. *)
Theorem C104_relabel : forall to_bool N s gr s' gr' p c alpha m tol, library_graph true N s gr -> library_graph true N s' gr' -> layers s <> [] -> layers s' <> [] ->
  (0 < N)%nat -> (0 < m)%nat -> (forall i, (i < N)%nat -> (p i < N)%nat) -> (forall i j, (i < N)%nat -> (j < N)%nat -> p i = p j -> i = j) ->
  (forall i, (i < N)%nat -> 0 < c i) -> (forall i j, (i < N)%nat -> (j < N)%nat -> seen s' (p i) (p j) = c i * seen s i j) ->
  exists r r' v, graph_pagerank store_float to_bool N s true alpha m tol = Ok (r, v) /\ graph_pagerank store_float to_bool N s' true alpha m tol = Ok (r', v) /\
    forall k, (k < N)%nat -> r' (p k) = r k.
Proof.
  intros to_bool N s gr s' gr' p c alpha m tol H H' L L' HN Hm R I Hc W.
  destruct (graph_rows N s gr H L) as (A & EA & EB & G & E & T & Z). destruct (graph_rows N s' gr' H' L') as (A' & EA' & EB' & G' & E' & T' & Z').
  set (rows := sp_row A) in *. set (rows' := sp_row A') in *.
  assert (Tc : forall i, (i < N)%nat -> total (rows' (p i)) = c i * total (rows i)).
  { intros i Hi. rewrite T', T by (try apply R; exact Hi). rewrite (sumn_reindex N p _ R I), <- sumn_scal_l. apply sumn_ext. intros j Hj. apply W; assumption. }
  assert (Nil : forall i, (i < N)%nat -> rows' (p i) = [] <-> rows i = []).
  { intros i Hi. rewrite (Z i Hi), (Z' (p i) (R i Hi)), <- (T i Hi), <- (T' (p i) (R i Hi)), (Tc i Hi). specialize (Hc i Hi). split; intros K; [apply Rmult_integral in K as [K | K]; lra | rewrite K; ring]. }
  assert (Wk : forall x x', (forall k, (k < N)%nat -> x' (p k) = x k) -> forall j, (j < N)%nat -> walk N rows' x' (p j) = walk N rows x j).
  { intros x x' Hx j Hj. unfold walk. rewrite (sumn_reindex N p _ R I). apply sumn_ext. intros i Hi. rewrite (Hx i Hi). specialize (Nil i Hi). specialize (Tc i Hi).
    assert (Ej : entry (rows' (p i)) (p j) = c i * entry (rows i) j) by (rewrite E', E by (try apply R; assumption); apply W; assumption).
    destruct (rows i) as [|e q] eqn:Ri.
    - rewrite (proj2 Nil eq_refl). reflexivity.
    - destruct (rows' (p i)) as [|e' q'] eqn:Ri'; [discriminate (proj1 Nil eq_refl)|]. rewrite Ej, Tc. specialize (Hc i Hi).
      assert (0 < total (e :: q)) by (apply total_pos; [discriminate | rewrite <- Ri; apply (good_pos N rows i G Hi)]). field. split; lra. }
  assert (Q : forall n k, (k < N)%nat -> rank_seq N rows' alpha n (p k) = rank_seq N rows alpha n k).
  { induction n as [|n IH]; intros k Hk; [reflexivity|]. cbn [rank_seq]. rewrite (Wk _ _ IH k Hk). reflexivity. }
  destruct (pagerank_result N rows alpha m tol HN Hm (fun i Hi => good_pos N rows i G Hi)) as (r & n & v & Er & St & Rp & K).
  destruct (pagerank_result N rows' alpha m tol HN Hm (fun i Hi => good_pos N rows' i G' Hi)) as (r' & n' & v' & Er' & St' & Rp' & K').
  destruct (stops_unique N tol (rank_seq N rows alpha) (rank_seq N rows' alpha) m n n' v v') as [En Ev]; try assumption.
  { intros q. split; intros C k Hk.
    - destruct (onto N p R I k Hk) as (i & Hi & <-). rewrite !Q by exact Hi. apply C, Hi.
    - rewrite <- !Q by exact Hk. apply C, R, Hk. }
  subst n' v'. exists r, r', v. split; [unfold graph_pagerank; rewrite EA; cbn [bind]; rewrite EB; exact Er|].
  split; [unfold graph_pagerank; rewrite EA'; cbn [bind]; rewrite EB'; exact Er'|]. intros k Hk. rewrite (K' (p k) (R k Hk)), (K k Hk), Q by exact Hk. reflexivity.
Qed.
Print Assumptions C104_relabel.

(** * C104: trophic depth *)

(** If at least the fraction [1 - c] of the strength of every vertex goes to the final vertex, the equation that the depths satisfy has exactly
    one solution.  The result is within [c / (1 - c) tol] of it when convergence is reported, and it is reported when enough iterations are allowed. *)
Theorem C104_depth : forall N A final c B m tol, 0 <= c < 1 -> / (1 - c) <= B -> (0 < m)%nat ->
  (forall v, (v < N)%nat -> Forall (fun e => (fst e < N)%nat /\ 0 < snd e) (A v) /\ 0 <= final v <= B /\ 0 < total (A v) + final v /\
     total (A v) <= c * (total (A v) + final v)) ->
  let solves d := forall v, (v < N)%nat -> d v = 1 + sumn N (fun j => entry (A v) j * d j) / (total (A v) + final v) in
  exists d, solves d /\ (forall d', solves d' -> forall v, (v < N)%nat -> d' v = d v) /\ (forall v, (v < N)%nat -> 1 <= d v <= / (1 - c)) /\
    exists r w y, trophic_depth true N A final m tol = Ok (r, w) /\ (forall v, (v < N)%nat -> r v = Fin (y v)) /\
      (forall n, w = Stopped n -> n = m /\ forall v, (v < N)%nat -> Rabs (y v - d v) <= c ^ m * B) /\
      (forall n, w = Converged n -> (n < m)%nat /\ forall v, (v < N)%nat -> Rabs (y v - d v) <= c / (1 - c) * tol) /\
      (forall k, (k < m)%nat -> c ^ k * B < tol -> exists n, w = Converged n /\ (n <= k)%nat).
Proof.
  intros N A final c B m tol Hc HB Hm HA solves.
  set (F := fun d v => 1 + sumn N (fun j => entry (A v) j * d j) / (total (A v) + final v)).
  set (near := fun b (x y : nat -> R) => forall k, (k < N)%nat -> Rabs (x k - y k) <= b). set (u := depth_seq N A final).
  assert (IB : 0 < / (1 - c)) by (apply Rinv_0_lt_compat; lra).
  assert (Ent : forall v j, (v < N)%nat -> 0 <= entry (A v) j) by (intros v j Hv; apply entry_nonneg; eapply Forall_impl; [|apply (HA v Hv)]; cbv beta; tauto).
  assert (Tot : forall v, (v < N)%nat -> sumn N (entry (A v)) = total (A v)) by (intros v Hv; apply entry_sum; eapply Forall_impl; [|apply (HA v Hv)]; cbv beta; tauto).
  assert (Hu : forall n k, (k < N)%nat -> u (S n) k = F (u n) k).
  { intros n k Hk. unfold u, F. cbn [depth_seq]. destruct (HA k Hk) as (_ & _ & P & _). destruct (Req_EM_T _ 0); [lra | reflexivity]. }
  assert (Frac : forall v b, (v < N)%nat -> 0 <= b -> total (A v) * b / (total (A v) + final v) <= c * b).
  { intros v b Hv Hb. destruct (HA v Hv) as (_ & _ & P & Q). apply Rmult_le_reg_r with (total (A v) + final v); [exact P|].
    replace (total (A v) * b / (total (A v) + final v) * (total (A v) + final v)) with (total (A v) * b) by (field; lra). nra. }
  assert (Ctr : forall b x y, near b x y -> near (c * b) (F x) (F y)).
  { intros b x y Nb v Hv. assert (Hb : 0 <= b) by (eapply Rle_trans; [apply Rabs_pos | apply (Nb v Hv)]). destruct (HA v Hv) as (_ & _ & P & _).
    unfold F. replace (1 + sumn N (fun j => entry (A v) j * x j) / (total (A v) + final v) - (1 + sumn N (fun j => entry (A v) j * y j) / (total (A v) + final v)))
      with (sumn N (fun j => entry (A v) j * (x j - y j)) / (total (A v) + final v)).
    2:{ rewrite (sumn_ext N (fun j => entry (A v) j * (x j - y j)) (fun j => entry (A v) j * x j + (-1) * (entry (A v) j * y j))) by (intros; ring). rewrite sumn_plus, sumn_scal_l. field. lra. }
    unfold Rdiv. rewrite Rabs_mult, (Rabs_right (/ _)) by (left; apply Rinv_0_lt_compat, P).
    eapply Rle_trans; [|apply (Frac v b Hv Hb)]. unfold Rdiv. apply Rmult_le_compat_r; [left; apply Rinv_0_lt_compat, P|].
    eapply Rle_trans; [apply sumn_abs|]. rewrite <- (Tot v Hv), <- sumn_scal_r. apply sumn_le. intros j Hj. rewrite Rabs_mult, (Rabs_right (entry _ _)) by (apply Rle_ge, Ent, Hv).
    apply Rmult_le_compat_l; [apply Ent, Hv | apply Nb, Hj]. }
  assert (Rng : forall n v, (v < N)%nat -> 0 <= u n v <= B).
  { induction n as [|n IH]; intros v Hv; [apply (HA v Hv)|]. rewrite (Hu n v Hv). unfold F. destruct (HA v Hv) as (_ & _ & P & _).
    assert (K0 : 0 <= sumn N (fun j => entry (A v) j * u n j)) by (apply sumn_nonneg; intros j Hj; apply Rmult_le_pos; [apply Ent, Hv | apply IH, Hj]).
    assert (K1 : sumn N (fun j => entry (A v) j * u n j) <= total (A v) * B).
    { rewrite <- (Tot v Hv), <- sumn_scal_r. apply sumn_le. intros j Hj. apply Rmult_le_compat_l; [apply Ent, Hv | apply IH, Hj]. }
    pose proof (Frac v B Hv ltac:(lra)) as K2.
    assert (0 <= sumn N (fun j => entry (A v) j * u n j) / (total (A v) + final v) <= c * B).
    { split; [apply Rmult_le_pos; [exact K0 | left; apply Rinv_0_lt_compat, P]|]. eapply Rle_trans; [|exact K2]. apply Rmult_le_compat_r; [left; apply Rinv_0_lt_compat, P | exact K1]. }
    assert (1 + c * B <= B) by (assert (1 <= (1 - c) * B); [|lra]; apply Rmult_le_compat_l with (r := 1 - c) in HB; [rewrite Rinv_r in HB by lra; exact HB | lra]). lra. }
  assert (Nc : forall b x y k, near b x y -> (k < N)%nat -> Rabs (x k - y k) <= b) by (intros b x y k K Hk; apply K, Hk).
  assert (Ne : forall b x y x' y', (forall k, (k < N)%nat -> x k = x' k) -> (forall k, (k < N)%nat -> y k = y' k) -> near b x y -> near b x' y')
    by (intros b x y x' y' E1 E2 K k Hk; rewrite <- (E1 k Hk), <- (E2 k Hk); apply K, Hk).
  assert (Nl : forall b x l y n0, (forall k, (k < N)%nat -> Un_cv (fun n => x n k) (l k)) -> (forall n, (n0 <= n)%nat -> near b (x n) y) -> near b l y).
  { intros b x l y n0 Cv K k Hk. apply le_epsilon. intros eps He. destruct (Cv k Hk eps He) as [n1 H1]. specialize (H1 (Nat.max n0 n1) ltac:(lia)). unfold R_dist in H1.
    specialize (K (Nat.max n0 n1) ltac:(lia) k Hk). rewrite Rabs_minus_sym in H1.
    pose proof (Rabs_triang (l k - x (Nat.max n0 n1) k) (x (Nat.max n0 n1) k - y k)) as Tr. replace (l k - x (Nat.max n0 n1) k + (x (Nat.max n0 n1) k - y k)) with (l k - y k) in Tr by ring. lra. }
  assert (Ns : forall x y, exists b, 0 <= b /\ near b x y) by (intros x y; exists (dist N x y); split; [apply dist_nonneg | intros k Hk; apply dist_comp, Hk]).
  assert (Nb : forall p, near B (u p) (u 0%nat)) by (intros p k Hk; pose proof (Rng p k Hk); pose proof (Rng 0%nat k Hk); apply Rabs_le; lra).
  destruct (orbit_limit N near F c B u Nc Ne Nl Ctr Hc ltac:(lra) Hu Nb) as (d & Cv & Fd & Nd).
  assert (Sf : forall x, solves x <-> fixed N F x) by (intros x; unfold solves, fixed, F; split; intros K v Hv; symmetry; apply K, Hv).
  exists d. split; [apply Sf, Fd|]. split; [intros d' Sd' v Hv; apply (fixed_unique N near F c Nc Ns Ne Ctr Hc d' d); [apply Sf, Sd' | exact Fd | exact Hv]|].
  assert (D0 : forall v, (v < N)%nat -> 0 <= d v).
  { intros v Hv. apply Rnot_lt_le. intros K. destruct (Cv v Hv (- d v) ltac:(lra)) as [n0 H0]. specialize (H0 n0 ltac:(lia)). unfold R_dist in H0. pose proof (Rng n0 v Hv). apply Rabs_def2 in H0. lra. }
  split.
  { assert (Up : forall n v, (v < N)%nat -> d v <= / (1 - c) + c ^ n * B).
    { induction n as [|n IH]; intros v Hv.
      - cbn [pow]. pose proof (Nd 0%nat v Hv) as K. cbn [pow] in K. pose proof (Rng 0%nat v Hv). 
        assert (d v <= B); [|lra]. apply le_epsilon. intros eps He. destruct (Cv v Hv eps He) as [n0 H0]. specialize (H0 n0 ltac:(lia)). unfold R_dist in H0. pose proof (Rng n0 v Hv). apply Rabs_def2 in H0. lra.
      - rewrite <- (Fd v Hv). unfold F. set (b := / (1 - c) + c ^ n * B) in *.
        assert (Hb : 0 <= b) by (pose proof (D0 v Hv); pose proof (IH v Hv); lra).
        assert (K1 : sumn N (fun j => entry (A v) j * d j) <= total (A v) * b).
        { rewrite <- (Tot v Hv), <- sumn_scal_r. apply sumn_le. intros j Hj. apply Rmult_le_compat_l; [apply Ent, Hv | apply IH, Hj]. }
        destruct (HA v Hv) as (_ & _ & P & _). pose proof (Frac v b Hv Hb) as K2.
        assert (sumn N (fun j => entry (A v) j * d j) / (total (A v) + final v) <= c * b) by (eapply Rle_trans; [|exact K2]; apply Rmult_le_compat_r; [left; apply Rinv_0_lt_compat, P | exact K1]).
        assert (1 + c * b = / (1 - c) + c ^ S n * B) by (unfold b; cbn [pow]; field; lra). lra. }
    intros v Hv. split.
    - rewrite <- (Fd v Hv). unfold F. destruct (HA v Hv) as (_ & _ & P & _).
      assert (0 <= sumn N (fun j => entry (A v) j * d j) / (total (A v) + final v)); [|lra].
      apply Rmult_le_pos; [apply sumn_nonneg; intros j Hj; apply Rmult_le_pos; [apply Ent, Hv | apply D0, Hj] | left; apply Rinv_0_lt_compat, P].
    - apply le_epsilon. intros eps He. destruct (pow_small c B eps Hc ltac:(lra) He) as [n0 H0]. specialize (H0 n0 ltac:(lia)). specialize (Up n0 v Hv). lra. }
  destruct (trophic_result N A final m tol) as (r & n & w & E & (S1 & S2 & S3) & Rp & K); [intros v Hv; eapply Forall_impl; [|apply (HA v Hv)]; cbv beta; tauto | exact Hm|].
  fold u in S2, S3, Rp, K. exists r, w, (u n). split; [exact E|]. split; [exact K|]. split; [|split].
  - intros n' ->. destruct Rp as [-> NC]. destruct S3 as [-> | S3]; [|contradiction]. split; [reflexivity|]. intros v Hv. rewrite Rabs_minus_sym. apply (Nd m v Hv).
  - intros n' ->. destruct Rp as [-> C]. split; [lia|].
    assert (St : forall b, (forall v, (v < N)%nat -> Rabs (u n' v - d v) <= b) -> forall v, (v < N)%nat -> Rabs (u (S n') v - d v) <= c * b).
    { intros b Hb v Hv. rewrite (Hu n' v Hv), <- (Fd v Hv). apply (Ctr b (u n') d Hb v Hv). }
    (* the largest difference *)
    assert (Mx : forall M (f : nat -> R), (M <= N)%nat -> exists b, (forall v, (v < M)%nat -> f v <= b) /\ (M = 0%nat \/ exists v, (v < M)%nat /\ f v = b)).
    { clear. induction M as [|M IH]; intros f HM; [exists 0; split; [intros; lia | left; reflexivity]|]. destruct (IH f ltac:(lia)) as (b & Hb & Eb).
      destruct (Rle_dec (f M) b) as [Q | Q], (Nat.eq_dec M 0) as [-> | NM].
      - exists (f 0%nat). split; [intros v Hv; assert (v = 0%nat) as -> by lia; lra | right; exists 0%nat; auto].
      - destruct Eb as [-> | (v & Hv & Ev)]; [contradiction|]. exists b. split; [intros k Hk; destruct (Nat.eq_dec k M) as [-> | ]; [exact Q | apply Hb; lia] | right; exists v; split; [lia | exact Ev]].
      - exists (f 0%nat). split; [intros v Hv; assert (v = 0%nat) as -> by lia; lra | right; exists 0%nat; auto].
      - exists (f M). split; [intros k Hk; destruct (Nat.eq_dec k M) as [-> | ]; [lra | specialize (Hb k ltac:(lia)); lra] | right; exists M; auto]. }
    intros v Hv. destruct (Mx N (fun v => Rabs (u n' v - d v)) ltac:(lia)) as (b & Hb & [-> | (z & Hz & Ez)]); [lia|].
    pose proof (St b Hb) as Q. pose proof (Q z Hz) as Qz. pose proof (C z Hz) as Cz. pose proof (Rabs_triang (u n' z - u (S n') z) (u (S n') z - d z)) as Tr.
    replace (u n' z - u (S n') z + (u (S n') z - d z)) with (u n' z - d z) in Tr by ring. rewrite (Rabs_minus_sym (u n' z) (u (S n') z)) in Tr. rewrite Ez in Tr.
    assert (b <= tol / (1 - c)).
    { apply Rmult_le_reg_r with (1 - c); [lra|]. replace (tol / (1 - c) * (1 - c)) with tol by (field; lra). nra. }
    eapply Rle_trans; [apply (Q v Hv)|]. replace (c / (1 - c) * tol) with (c * (tol / (1 - c))) by (field; lra). apply Rmult_le_compat_l; [lra | assumption].
  - intros k Hk Ht.
    assert (C : forall q, (k <= q)%nat -> close N tol (u (S q)) (u q)).
    { intros q Hq v Hv. pose proof (orbit_near N near F c B u Ne Ctr Hu Nb q 1 v Hv) as Q. replace (q + 1)%nat with (S q) in Q by lia.
      eapply Rle_lt_trans; [exact Q|]. eapply Rle_lt_trans; [|exact Ht]. apply Rmult_le_compat_r; [lra|]. replace q with (k + (q - k))%nat by lia. rewrite pow_add. pose proof (pow_le c k ltac:(lra)).
      assert (c ^ (q - k) <= 1) by (rewrite <- (pow1 (q - k)); apply pow_incr; lra). nra. }
    destruct w as [n'|n']; destruct Rp as [-> R2].
    + exists n'. split; [reflexivity|]. apply Nat.nlt_ge. intros Hn. apply (S2 k ltac:(lia)). apply C. lia.
    + exfalso. destruct S3 as [-> | S3]; [|contradiction]. apply R2. replace m with (S (m - 1)) at 1 by lia. apply C. lia.
Qed.
Print Assumptions C104_depth.

(** ** Examples *)

Lemma made : forall (weighted : bool) N l, let v := map (fun i => (i, 0%nat)) (seq 0 N) in
  (forall r, In r (rows_of l) -> In (r_src r) (map fst v) /\ In (r_dst r) (map fst v) /\ (weighted = true -> 0 < Ids.r_weight r)) ->
  inner Nat.leb (enum_of Nat.leb (map fst v)) weighted (rows_of l) = l -> library_graph weighted N (SDiGraph (coo_tocsr (negb weighted) N l)) None.
Proof.
  intros weighted N l v HE HI.
  assert (HN : NoDup (map fst v)) by (unfold v; rewrite map_map; cbn [fst]; rewrite map_id; apply seq_NoDup).
  destruct (build Nat.leb Nat.leb nat_order nat_order false false weighted v (rows_of l) HN HE) as (gr & H & Hg). rewrite HI in H.
  apply (built weighted N (SDiGraph (coo_tocsr (negb weighted) N l)) None nat nat nat Nat.leb Nat.leb Nat.leb false false false v (rows_of l)
    (mkBase (length v) (enum_of Nat.leb (map fst v)) gr weighted l) nat_order nat_order nat_order).
  - apply of_digraph. unfold sparse_graph. rewrite H. cbn [bind b_n Ids.b_edges negb]. unfold v. rewrite map_length, seq_length. reflexivity.
  - cbn [b_n]. unfold v. rewrite map_length, seq_length. reflexivity.
  - unfold grouping_of. cbn [b_groups]. cbn in Hg. subst gr. reflexivity.
Qed.

(** A centre linked with two leaves in both directions. *)
Definition star : list (nat * nat * R) := [(0%nat, 1%nat, 1); (0%nat, 2%nat, 1); (1%nat, 0%nat, 1); (2%nat, 0%nat, 1)].
(** The same with the centre numbered 2 and links from it three times as heavy. *)
Definition star' : list (nat * nat * R) := [(0%nat, 2%nat, 1); (1%nat, 2%nat, 1); (2%nat, 0%nat, 3); (2%nat, 1%nat, 3)].
Definition turn (i : nat) : nat := match i with 0%nat => 2%nat | 1%nat => 0%nat | _ => 1%nat end.

Lemma star_library : library_graph true 3 (small_graph 3 star) None /\ library_graph true 3 (small_graph 3 star') None.
Proof. split; apply (made true 3); try reflexivity; intros r Hr; cbn in Hr; intuition (subst; cbn; try lia; try lra). Qed.

Example C104_accuracy_case : library_graph true 3 (small_graph 3 path) None /\ layers (small_graph 3 path) <> [] /\ (0 < 3)%nat /\ (0 < 20)%nat /\ 0 <= 1 / 2 < 1 /\
  (0 < 7 <= 20)%nat /\ (1 / 2) ^ 7 < 1 / 100.
Proof. split; [apply small_library; auto|]. split; [discriminate|]. repeat (split; [lia || lra|]). lra. Qed.

Example C104_relabel_case : library_graph true 3 (small_graph 3 star) None /\ library_graph true 3 (small_graph 3 star') None /\
  (forall i, (i < 3)%nat -> (turn i < 3)%nat) /\ (forall i j, (i < 3)%nat -> (j < 3)%nat -> turn i = turn j -> i = j) /\
  (forall i, (i < 3)%nat -> 0 < (if Nat.eqb i 0 then 3 else 1)) /\
  (forall i j, (i < 3)%nat -> (j < 3)%nat -> seen (small_graph 3 star') (turn i) (turn j) = (if Nat.eqb i 0 then 3 else 1) * seen (small_graph 3 star) i j).
Proof.
  split; [apply star_library|]. split; [apply star_library|]. split; [intros [|[|[|i]]] Hi; cbn; lia|]. split; [|split].
  - intros [|[|[|i]]] [|[|[|j]]] Hi Hj; cbn; try lia.
  - intros i _. destruct (Nat.eqb i 0); lra.
  - intros i j Hi Hj. unfold seen. cbn [is_directed small_graph]. change (SDiGraph (coo_tocsr false 3 star')) with (small_graph 3 star'). change (SDiGraph (coo_tocsr false 3 star)) with (small_graph 3 star).
    rewrite !small_link by (destruct j as [|[|[|j]]]; cbn; lia). destruct i as [|[|[|i]]]; try lia; destruct j as [|[|[|j]]]; try lia; cbn; lra.
Qed.

Example C104_depth_case : let A := fun i : nat => match i with 0%nat => [(1%nat, 1)] | _ => [(0%nat, 1)] end in
  let final := fun i : nat => match i with 0%nat => 1 | _ => 3 end in
  0 <= 1 / 2 < 1 /\ / (1 - 1 / 2) <= 3 /\ (0 < 10)%nat /\ (9 < 10)%nat /\ (1 / 2) ^ 9 * 3 < 1 / 100 /\
  (forall v, (v < 2)%nat -> Forall (fun e => (fst e < 2)%nat /\ 0 < snd e) (A v) /\ 0 <= final v <= 3 /\ 0 < total (A v) + final v /\
     total (A v) <= 1 / 2 * (total (A v) + final v)).
Proof.
  cbv zeta. repeat (split; [lia || lra|]). intros [|[|v]] Hv; try lia; (split; [repeat constructor; cbn; lia || lra|]); unfold total; cbn; lra.
Qed.

(** ** What fails *)

(** Without damping ([alpha = 1]) the ranks of a connected graph need not converge, however many iterations are made: between the centre and
    the leaves of a star they go back and forth. *)
Theorem C104_undamped_refuted : exists N s gr, library_graph true N s gr /\ layers s <> [] /\
  forall to_bool m, (0 < m)%nat -> exists r, graph_pagerank store_float to_bool N s true 1 m (1 / 10) = Ok (r, Stopped m) /\
    r 0%nat = Fin (if Nat.odd m then 2 / 3 else 1 / 3).
Proof.
  exists 3%nat, (small_graph 3 star), None. destruct star_library as [H _]. split; [exact H|]. split; [discriminate|]. intros to_bool m Hm.
  destruct (graph_rows 3 (small_graph 3 star) None H ltac:(discriminate)) as (A & EA & EB & G & E & T & Z).
  assert (W : forall i j, (i < 3)%nat -> (j < 3)%nat -> seen (small_graph 3 star) i j = suml (fun t => if Graphs.hits i j t then snd t else 0) star).
  { intros i j Hi Hj. unfold seen. cbn [is_directed small_graph]. apply small_link, Hj. }
  assert (TT : forall i, (i < 3)%nat -> total (sp_row A i) = if Nat.eqb i 0 then 2 else 1).
  { intros i Hi. rewrite (T i Hi). cbn [sumn]. rewrite !W by lia. destruct i as [|[|[|i]]]; try lia; cbn; lra. }
  assert (NN : forall i, (i < 3)%nat -> sp_row A i <> []).
  { intros i Hi K. specialize (TT i Hi). rewrite K in TT. cbn in TT. destruct (Nat.eqb i 0); unfold total in TT; cbn in TT; lra. }
  assert (Wk : forall x j, (j < 3)%nat -> walk 3 (sp_row A) x j = if Nat.eqb j 0 then x 1%nat + x 2%nat else x 0%nat / 2).
  { intros x j Hj. unfold walk. rewrite (sumn_ext 3 _ (fun i => x i * (entry (sp_row A i) j / total (sp_row A i)))).
    - cbn [sumn]. rewrite !E, !TT, !W by lia. destruct j as [|[|[|j]]]; try lia; cbn; field.
    - intros i Hi. specialize (NN i Hi). destruct (sp_row A i); [contradiction | reflexivity]. }
  assert (Q : forall n k, (k < 3)%nat -> rank_seq 3 (sp_row A) 1 n k = if Nat.odd n then (if Nat.eqb k 0 then 2 / 3 else 1 / 6) else 1 / 3).
  { induction n as [|n IH]; intros k Hk; [cbn; lra|]. cbn [rank_seq]. rewrite (Wk _ k Hk), !IH by lia. rewrite Nat.odd_succ, <- Nat.negb_odd.
    destruct (Nat.odd n); cbn [negb]; destruct k as [|k]; cbn [Nat.eqb INR]; lra. }
  assert (NC : forall n, ~ close 3 (1 / 10) (rank_seq 3 (sp_row A) 1 (S n)) (rank_seq 3 (sp_row A) 1 n)).
  { intros n C. specialize (C 0%nat ltac:(lia)). rewrite !Q in C by lia. rewrite Nat.odd_succ, <- Nat.negb_odd in C. destruct (Nat.odd n); cbn [negb Nat.eqb] in C; apply Rabs_def2 in C; lra. }
  destruct (pagerank_result 3 (sp_row A) 1 m (1 / 10) ltac:(lia) Hm (fun i Hi => good_pos 3 (sp_row A) i G Hi)) as (r & n & v & Er & (S1 & S2 & S3) & Rp & K).
  exists r. destruct v as [n'|n']; destruct Rp as [-> C]; [exfalso; apply (NC n'), C|].
  assert (n' = m) as ->. { destruct S3 as [S3 | S3]; [exact S3|]. exfalso. apply (NC (n' - 1)%nat). replace (S (n' - 1)) with n' by lia. exact S3. }
  split; [unfold graph_pagerank; rewrite EA; cbn [bind]; rewrite EB; exact Er|]. rewrite (K 0%nat ltac:(lia)), (Q m 0%nat ltac:(lia)). destruct (Nat.odd m); reflexivity.
Qed.
Print Assumptions C104_undamped_refuted.

(** On a graph built without weights the matrix is boolean whether or not weights are asked for, and so are the rows that should hold fractions:
    after one iteration from a vertex with two links the ranks do not sum to one, whatever a fraction becomes. *)
Theorem C104_unweighted_refuted : exists N s gr, library_graph false N s gr /\ layers s <> [] /\
  forall of_weights to_bool weighted tol, (forall x, to_bool x = Fin 0 \/ to_bool x = Fin 1) ->
    exists r v x, graph_pagerank of_weights to_bool N s weighted (85 / 100) 1 tol = Ok (r, v) /\ (forall k, (k < N)%nat -> r k = Fin (x k)) /\ sumn N x <> 1.
Proof.
  set (l := [(0%nat, 1%nat, 1); (0%nat, 2%nat, 1)]). exists 3%nat, (SDiGraph (coo_tocsr true 3 l)), None. split; [|split; [discriminate|]].
  { apply (made false 3 l); [|reflexivity]. intros r Hr. cbn in Hr. intuition (subst; cbn; try lia; try lra). }
  intros of_weights to_bool weighted tol Hb.
  assert (EA : exists A, adjacency_matrix 3 (SDiGraph (coo_tocsr true 3 l)) true weighted = Ok A /\ sp_bool A = true /\ sp_row A 0%nat = [(1%nat, 1); (2%nat, 1)] /\
    sp_row A 1%nat = [] /\ sp_row A 2%nat = []).
  { destruct weighted; cbn [adjacency_matrix]; eexists; (split; [reflexivity|]); cbn; repeat split; try reflexivity. all: unfold Reqb; destruct (Req_EM_T 1 0); [lra | reflexivity]. }
  destruct EA as (A & EA & EB & R0 & R1 & R2). unfold graph_pagerank. rewrite EA. cbn [bind]. rewrite EB.
  assert (Ha : exists a, (a = 0 \/ a = 1) /\ to_bool (ndiv (Fin 1) (Fin (1 + (1 + 0)))) = Fin a).
  { destruct (Hb (ndiv (Fin 1) (Fin (1 + (1 + 0))))) as [K | K]; eexists; (split; [|exact K]); auto. }
  destruct Ha as (a & Ha & Ea).
  assert (F : fin_arr (propagate_measure 3 (normalise_rows to_bool (sp_row A)) 3 (fun _ => ndiv (Fin 1) (Fin (INR 3))) false)
     (fun k => sumn 3 (fun i => push 3 false (match i with 0%nat => [(1%nat, a); (2%nat, a)] | _ => [] end) (1/3) k))).
  { apply propagate_fin; [|intros i _; cbn; rewrite Reqb_false by lra; f_equal; field | right; lia].
    intros i Hi. destruct i as [|[|[|i]]]; [| | |lia]; unfold normalise_rows; rewrite ?R0, ?R1, ?R2; [|reflexivity|reflexivity]. cbn [map fst snd suml]. rewrite Ea. reflexivity. }
  unfold pagerank. cbn [for_flow Nat.eqb].
  set (x := fun k => sumn 3 (fun i => push 3 false (match i with 0%nat => [(1%nat, a); (2%nat, a)] | _ => [] end) (1/3) k) * (85 / 100) + (1 - 85 / 100) / INR 3).
  set (rk := fun k : nat => nadd (nmul (propagate_measure 3 (normalise_rows to_bool (sp_row A)) 3 (fun _ => ndiv (Fin 1) (Fin (INR 3))) false k) (Fin (85 / 100))) (Fin ((1 - 85 / 100) / INR 3))).
  assert (Ex : forall k, (k < 3)%nat -> rk k = Fin (x k)) by (intros k Hk; unfold rk; rewrite F; reflexivity).
  assert (Sx : sumn 3 x <> 1) by (unfold x; cbn; intros K; destruct Ha as [-> | ->]; lra).
  destruct (all_close 3 tol rk (fun _ => ndiv (Fin 1) (Fin (INR 3)))); [exists rk, (Converged 0), x | exists rk, (Stopped 1), x]; (split; [reflexivity | split; assumption]).
Qed.
Print Assumptions C104_unweighted_refuted.
