(** Export to networkx: models the [to_networkx] methods of
    /repo/src/graph_ensembles/sparse/graphs.py (345-363, 755-773, 1028-1065, 1325-1371) and of the dense
    /repo/src/graph_ensembles/graphs.py (327-345, 682-700, 932-968, 1216-1252).

    networkx itself is modelled by its documented behaviour: a graph is the list of its edges with their
    weight; an edge is identified by its end points (unordered when undirected) and, for multigraphs, by
    its key; adding an edge that exists replaces its weight.  Node attributes and the [label] attribute
    are not modelled. *)
From Verif Require Import Base Num Ids Ensemble Lib Graphs DenseGraphs.

Definition nx_edge := (nat * nat * nat)%type.
Definition nx_eqb (a b : nx_edge) : bool :=
  Nat.eqb (fst (fst a)) (fst (fst b)) && Nat.eqb (snd (fst a)) (snd (fst b)) && Nat.eqb (snd a) (snd b).
(** Undirected edges are written with the smaller end first. *)
(** sparse/graphs.py:345-363 (Graph.to_networkx); sparse/graphs.py:755-773
    (DiGraph.to_networkx); sparse/graphs.py:1028-1065
    (MultiGraph.to_networkx); sparse/graphs.py:1325-1362
    (MultiDiGraph.to_networkx) *)
Definition nx_id (undirected : bool) (e : nx_edge) : nx_edge :=
  if undirected then (Nat.min (fst (fst e)) (snd (fst e)), Nat.max (fst (fst e)) (snd (fst e)), snd e) else e.

Definition nx_graph := list (nx_edge * R).
Fixpoint nx_put (G : nx_graph) (e : nx_edge) (w : R) : nx_graph :=
  match G with
  | [] => [(e, w)]
  | p :: G => if nx_eqb (fst p) e then (e, w) :: G else p :: nx_put G e w
  end.
(** [add_edges_from] and [add_weighted_edges_from] *)
(** sparse/graphs.py:345-363 (Graph.to_networkx); sparse/graphs.py:755-773
    (DiGraph.to_networkx); sparse/graphs.py:1028-1065
    (MultiGraph.to_networkx); sparse/graphs.py:1325-1362
    (MultiDiGraph.to_networkx) *)
Definition nx_add (undirected : bool) (l : list (nx_edge * R)) (G : nx_graph) : nx_graph :=
  for_each l (fun p G => nx_put G (nx_id undirected (fst p)) (snd p)) G.

(** [A.tocoo()]: the stored entries row by row, with a constant key. *)
(** sparse/graphs.py:1028-1065 (MultiGraph.to_networkx);
    sparse/graphs.py:1325-1362 (MultiDiGraph.to_networkx) *)
Definition nx_entries (N k : nat) (A : spm) : list (nx_edge * R) :=
  flat_map (fun i => map (fun e => ((i, fst e, k), snd e)) (sp_row A i)) (seq 0 N).

(** Sparse: sparse/graphs.py:348, 758, 1051-1063 and 1354-1362.  [nx.Graph(A)] adds an edge per stored entry. *)
Definition to_networkx (N : nat) (s : shape) : res nx_graph :=
  match s with
  | SGraph _ => do A <- adjacency_matrix N s false true ; Ok (nx_add true (nx_entries N 0 A) [])
  | SDiGraph A => Ok (nx_add false (nx_entries N 0 A) [])
  | SMultiGraph L => Ok (for_each (combine (seq 0 (length L)) L) (fun p G => nx_add true (nx_entries N (fst p) (snd p)) G) [])
  | SMultiDiGraph L => Ok (for_each (combine (seq 0 (length L)) L) (fun p G => nx_add false (nx_entries N (fst p) (snd p)) G) [])
  end.

(** [np.nonzero] of a matrix, with a constant key. *)
(** graphs.py:932-969 (MultiGraph.to_networkx); graphs.py:1216-1253
    (MultiDiGraph.to_networkx) *)
Definition nx_nonzero (N k : nat) (D : mat) : list (nx_edge * R) :=
  flat_map (fun i => map (fun j => ((i, j, k), D i j)) (filter (fun j => negb (Reqb (D i j) 0)) (seq 0 N))) (seq 0 N).

(** Dense: graphs.py:330, 685, 955-966 and 1239-1250; [np.nonzero] of the tensor goes label by label. *)
Definition d_to_networkx (N : nat) (w : bool) (s : dshape) : nx_graph :=
  match s with
  | DGraph _ => nx_add true (nx_nonzero N 0 (d_adjacency w s false true)) []
  | DDiGraph D => nx_add false (nx_nonzero N 0 D) []
  | DMultiGraph n D => nx_add true (flat_map (fun l => nx_nonzero N l (D l)) (seq 0 n)) []
  | DMultiDiGraph n D => nx_add false (flat_map (fun l => nx_nonzero N l (D l)) (seq 0 n)) []
  end.

(** * Facts *)

Lemma nx_eqb_spec : forall a b, reflect (a = b) (nx_eqb a b).
Proof.
  intros [[a b] c] [[a' b'] c']. unfold nx_eqb. cbn.
  destruct (Nat.eqb_spec a a'), (Nat.eqb_spec b b'), (Nat.eqb_spec c c'); constructor; congruence.
Qed.

Lemma nx_put_in : forall G e w, NoDup (map fst G) ->
  NoDup (map fst (nx_put G e w)) /\
  forall f x, In (f, x) (nx_put G e w) <-> (f = e /\ x = w) \/ (f <> e /\ In (f, x) G).
Proof.
  induction G as [|[g y] G IH]; intros e w H.
  - split; [constructor; [intros []|constructor]|]. intros f x. cbn. split; [intros [E|[]]; injection E as <- <-; auto|].
    intros [[-> ->]|[_ []]]. auto.
  - cbn in H. inversion H as [|a b Hn Hd]; subst. cbn [nx_put fst]. destruct (nx_eqb_spec g e) as [->|D].
    + split; [exact H|]. intros f x. cbn. split.
      * intros [E|I]; [injection E as <- <-; auto|]. right. split; [|auto]. intros ->. apply Hn. apply in_map_iff. exists (e, x). auto.
      * intros [[-> ->]|[D [E|I]]]; [auto| |auto]. injection E as <- <-. contradiction.
    + destruct (IH e w Hd) as [N1 M]. split.
      * cbn. constructor; [|exact N1]. intros I. apply in_map_iff in I as [[f x] [Ef I]]. cbn in Ef. subst f.
        apply M in I as [[-> _]|[_ I]]; [apply D; reflexivity|]. apply Hn. apply in_map_iff. exists (g, x). auto.
      * intros f x. cbn. rewrite M. split.
        -- intros [E|[?|[? ?]]]; [injection E as <- <-; right; split; [congruence|auto]|auto|auto].
        -- intros [?|[? [E|?]]]; [auto|auto|auto].
Qed.

(** When entries of the same edge carry the same weight, the result has one edge for each. *)
Lemma nx_add_in : forall u l G, NoDup (map fst G) ->
  (forall a b, In a l -> In b l -> nx_id u (fst a) = nx_id u (fst b) -> snd a = snd b) ->
  (forall a p, In a l -> In p G -> nx_id u (fst a) = fst p -> snd a = snd p) ->
  NoDup (map fst (nx_add u l G)) /\
  forall f x, In (f, x) (nx_add u l G) <-> In (f, x) G \/ exists a, In a l /\ nx_id u (fst a) = f /\ snd a = x.
Proof.
  intros u. induction l as [|a l IH]; intros G H C1 C2.
  - split; [exact H|]. intros f x. cbn. split; [auto|]. intros [?|[b [[] _]]]. assumption.
  - change (nx_add u (a :: l) G) with (nx_add u l (nx_put G (nx_id u (fst a)) (snd a))).
    destruct (nx_put_in G (nx_id u (fst a)) (snd a) H) as [Hd M].
    destruct (IH (nx_put G (nx_id u (fst a)) (snd a)) Hd) as [N1 M1].
    + intros b c Hb Hc. apply C1; right; assumption.
    + intros b [f x] Hb Hp E. apply M in Hp as [[-> ->]|[_ Hp]].
      * exact (C1 b a (or_intror Hb) (or_introl eq_refl) E).
      * apply (C2 b (f, x)); [right; exact Hb|exact Hp|exact E].
    + split; [exact N1|]. intros f x. rewrite M1, M. split.
      * intros [[[-> ->]|[_ I]]|[b [Hb [E1 E2]]]].
        -- right. exists a. cbn. auto.
        -- auto.
        -- right. exists b. cbn. auto.
      * intros [I|[b [[<-|Hb] [E1 E2]]]].
        -- destruct (nx_eqb_spec f (nx_id u (fst a))) as [->|D]; [|auto].
           left. left. split; [reflexivity|]. symmetry. apply (C2 a (nx_id u (fst a), x)); [left; reflexivity|exact I|reflexivity].
        -- subst. auto.
        -- right. exists b. auto.
Qed.

Lemma nx_add_app : forall u l l' G, nx_add u (l ++ l') G = nx_add u l' (nx_add u l G).
Proof. intros. unfold nx_add, for_each. rewrite fold_left_app. reflexivity. Qed.

(** All layers at once. *)
Lemma nx_layers : forall u N L a G, for_each (combine (seq a (length L)) L) (fun p G => nx_add u (nx_entries N (fst p) (snd p)) G) G =
  nx_add u (flat_map (fun p => nx_entries N (fst p) (snd p)) (combine (seq a (length L)) L)) G.
Proof.
  intros u N. induction L as [|A L IH]; intros a G; [reflexivity|]. cbn [length seq combine flat_map for_each fold_left]. rewrite nx_add_app.
  change (for_each (combine (seq (S a) (length L)) L) (fun p G => nx_add u (nx_entries N (fst p) (snd p)) G) (nx_add u (nx_entries N a A) G) =
     nx_add u (flat_map (fun p => nx_entries N (fst p) (snd p)) (combine (seq (S a) (length L)) L)) (nx_add u (nx_entries N a A) G)).
  apply IH.
Qed.

Lemma in_combine_seq : forall (L : list spm) a k A d, In (k, A) (combine (seq a (length L)) L) <-> (a <= k < a + length L)%nat /\ nth (k - a) L d = A.
Proof.
  induction L as [|B L IH]; intros a k A d; cbn [length seq combine]; [cbn; split; [intros []|lia]|].
  cbn [In]. rewrite (IH (S a) k A d). split.
  - intros [E|[H E]]; [injection E as <- <-; split; [lia|]; rewrite Nat.sub_diag; reflexivity|].
    split; [lia|]. replace (k - a)%nat with (S (k - S a)) by lia. exact E.
  - intros [H E]. destruct (Nat.eq_dec k a) as [->|D]; [left; rewrite Nat.sub_diag in E; cbn in E; congruence|].
    right. split; [lia|]. replace (k - a)%nat with (S (k - S a)) in E by lia. exact E.
Qed.
