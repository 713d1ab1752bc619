(** Property C50: consistency of the scale-invariant models under aggregation. *)
From Verif Require Import Base Num Spec Kernels KernelFacts MultiKernels MultiFacts Prob Ensemble EnsembleFacts
  EnsembleProps EnsembleState Models ModelFacts Aggregate.

(** Vertices are merged into blocks by [g].  The probability, under the fine model, that some link goes from block
    [a] to block [b] is the connection probability of two vertices with the summed fitnesses. *)
Theorem C50_single_label : forall N sl d x y z g a b, nonneg d -> nonneg z ->
  (forall i, (i < N)%nat -> nonneg (x i) /\ nonneg (y i)) -> a <> b \/ sl = true ->
  ensemble_mean N sl (fun G => toR (nexp (m_likelihood (ScaleInvariantModel N d x y (fun _ _ => z)) G sl)))
    (fun G => b2r (blocks_linked g a b G))
  = toR (inv_p_ij d (block_sum N g x a) (block_sum N g y b) z).
Proof. exact aggregate_single. Qed.
Print Assumptions C50_single_label.

(** Multi label: the blocks' label vectors [X], [Y] hold the per-label sums. *)
Theorem C50_multi_label : forall N L sl (d : nat -> num) xs ys g a b X Y,
  (forall k, (k < L)%nat -> nonneg (d k)) ->
  (forall i, (i < N)%nat -> canonical L (xs i) /\ all_nonneg (xs i) /\ canonical L (ys i) /\ all_nonneg (ys i)) ->
  canonical L X -> all_nonneg X -> canonical L Y -> all_nonneg Y ->
  (forall k, (k < L)%nat -> lookup k X = block_sum N g (fun i => lookup k (xs i)) a) ->
  (forall k, (k < L)%nat -> lookup k Y = block_sum N g (fun i => lookup k (ys i)) b) ->
  a <> b \/ sl = true ->
  ensemble_mean N sl (fun G => toR (nexp (m_likelihood (MultiInvariantModel N d xs ys) G sl)))
    (fun G => b2r (blocks_linked g a b G))
  = toR (minv_p_ij d X Y).
Proof. exact aggregate_multi. Qed.
Print Assumptions C50_multi_label.

(** Four vertices in two blocks, fitnesses 1,2,3,4: the blocks have fitnesses 3 and 7. *)
Example C50_case :
  block_sum 4 (fun i => Nat.div i 2) (fun i => Fin (INR (S i))) 0 = Fin 3 /\
  block_sum 4 (fun i => Nat.div i 2) (fun i => Fin (INR (S i))) 1 = Fin 7 /\
  ensemble_mean 4 false
    (fun G => toR (nexp (m_likelihood (ScaleInvariantModel 4 (Fin (1/21)) (fun i => Fin (INR (S i))) (fun i => Fin (INR (S i)))
        (fun _ _ => Fin 1)) G false)))
    (fun G => b2r (blocks_linked (fun i => Nat.div i 2) 0 1 G)) = 1 - exp (- (1)).
Proof.
  assert (E0 : block_sum 4 (fun i => Nat.div i 2) (fun i => Fin (INR (S i))) 0 = Fin 3) by (cbn; f_equal; ring).
  assert (E1 : block_sum 4 (fun i => Nat.div i 2) (fun i => Fin (INR (S i))) 1 = Fin 7) by (cbn; f_equal; ring).
  split; [exact E0|]. split; [exact E1|]. rewrite C50_single_label.
  - rewrite E0, E1. rewrite inv_p_ij_fin by lra. cbn [toR]. unfold poissonian. f_equal. f_equal. f_equal. f_equal. field.
  - simpl; lra.
  - simpl; lra.
  - intros i _. pose proof (pos_INR (S i)). cbn [nonneg]. auto.
  - left; discriminate.
Qed.

(** Multi label: vertices 0 and 1 merged, labels {0,1} and {1}. *)
Example C50_multi_case :
  lookup 1 [(0%nat, Fin 1); (1%nat, Fin 5)]
  = block_sum 3 (fun i => Nat.div i 2)
      (fun i => lookup 1 (if Nat.eqb i 0 then [(0%nat, Fin 1); (1%nat, Fin 2)] else [(1%nat, Fin 3)])) 0.
Proof. cbn. f_equal. ring. Qed.

(** Within one block the equality needs self-loops: with self-loops excluded a block of one vertex
    never links to itself, while the coarse model gives a positive probability. *)
Theorem C50_no_selfloop_refuted : exists N d x y g a,
  (forall i, (i < N)%nat -> nonneg (x i) /\ nonneg (y i)) /\ nonneg d /\
  ensemble_mean N false (fun G => toR (nexp (m_likelihood (ScaleInvariantModel N d x y (fun _ _ => Fin 1)) G false)))
    (fun G => b2r (blocks_linked g a a G))
  <> toR (inv_p_ij d (block_sum N g x a) (block_sum N g y a) (Fin 1)).
Proof.
  exists 1%nat, (Fin 1), (fun _ => Fin 1), (fun _ => Fin 1), (fun i => i), 0%nat.
  split; [intros; simpl; lra|]. split; [simpl; lra|].
  replace (block_sum 1 (fun i => i) (fun _ => Fin 1) 0) with (Fin 1) by (cbn; f_equal; ring).
  rewrite inv_p_ij_fin by lra. cbn [toR].
  assert (0 < poissonian (1 * (1 * 1 * 1)) < 1) by (apply poissonian_range_spec; lra).
  match goal with |- ?m <> _ => assert (E : m = 0) end.
  { unfold ensemble_mean, all_graphs, pairs. simpl. ring. }
  rewrite E. intros K. lra.
Qed.
Print Assumptions C50_no_selfloop_refuted.
