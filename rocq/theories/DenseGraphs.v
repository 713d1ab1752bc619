(** Dense graphs: models /repo/src/graph_ensembles/graphs.py (adjacency matrices and measures of Graph,
    DiGraph, MultiGraph and MultiDiGraph).  The tables are read by the same code as for sparse graphs
    (graphs.py:95-165, see Ids.v).

    Simplifications, also in DESIGN.md: an array is a function of its indices, booleans are 0 and 1,
    other values exact reals; arrays returned without a copy are not distinguished from copies. *)
From Verif Require Import Base Num Ids Ensemble Lib Graphs.

Definition mat := nat -> nat -> R.

(** [adj[i, j] = v] *)
(** graphs.py:70-209 (Graph.__init__) *)
Definition mset (adj : mat) (i j : nat) (v : R) : mat :=
  fun i' j' => if Nat.eqb i i' && Nat.eqb j j' then v else adj i' j'.

(** [adj[src_array, dst_array] = val_array] on zeros, graphs.py:175-190: one assignment after the other. *)
Definition assign_all (l : list (nat * nat * R)) : mat :=
  for_each l (fun t adj => mset adj (fst (fst t)) (snd (fst t)) (snd t)) (fun _ _ => 0).

(** [adj[lbl_array, src_array, dst_array] = val_array] on zeros, graphs.py:847-855. *)
Definition assign_layers (l : list (nat * (nat * nat * R))) : nat -> mat :=
  for_each l (fun p adj => fun k =>
    if Nat.eqb (fst p) k then mset (adj k) (fst (fst (snd p))) (snd (fst (snd p))) (snd (snd p)) else adj k)
    (fun _ _ _ => 0).

(** [adj.ravel()[:: adj.shape[1] + 1] = d] on a C-contiguous matrix, where ravel is a view. *)
(** graphs.py:211-225 (Graph.adjacency_matrix) *)
Definition set_diag (adj : mat) (d : nat -> R) : mat := fun i j => if Nat.eqb i j then d i else adj i j.

(** [a + b] for two boolean or two numeric arrays. *)
(** graphs.py:211-225 (Graph.adjacency_matrix) *)
Definition d_add (bool_dtype : bool) (a b : R) : R :=
  if bool_dtype then (if Reqb (a + b) 0 then 0 else 1) else a + b.
(** [adj != 0] and [a | b] *)
(** graphs.py:211-225 (Graph.adjacency_matrix); graphs.py:495-514
    (DiGraph.adjacency_matrix); graphs.py:857-874
    (MultiGraph.adjacency_matrix); graphs.py:1122-1141
    (MultiDiGraph.adjacency_matrix) *)
Definition d_nonzero (adj : mat) : mat := fun i j => if Reqb (adj i j) 0 then 0 else 1.
Definition d_either (adj : mat) : mat := fun i j => d_add true (d_nonzero adj i j) (d_nonzero adj j i).

(** graphs.py:214-219 and 503-508: the diagonal is restored from [self.adj]. *)
Definition d_symmetrize (bool_dtype : bool) (adj : mat) : mat :=
  set_diag (fun i j => d_add bool_dtype (adj i j) (adj j i)) (fun i => adj i i).

(** graphs.py:864-868 and 1132-1135: [adj] is rebound before its diagonal is read. *)
Definition d_symmetrize_flat (adj : mat) : mat :=
  let adj := fun i j => adj i j + adj j i in set_diag adj (fun i => adj i i).

(** The objects: [self.adj] is a matrix or a tensor with [labels] layers. *)
(** graphs.py:211-225 (Graph.adjacency_matrix); graphs.py:495-514
    (DiGraph.adjacency_matrix); graphs.py:857-874
    (MultiGraph.adjacency_matrix); graphs.py:1122-1141
    (MultiDiGraph.adjacency_matrix) *)
Inductive dshape :=
| DGraph (adj : mat) | DDiGraph (adj : mat)
| DMultiGraph (labels : nat) (adj : nat -> mat) | DMultiDiGraph (labels : nat) (adj : nat -> mat).

(** [self.adj.sum(axis=0)]; a sum of booleans counts. *)
(** graphs.py:857-874 (MultiGraph.adjacency_matrix); graphs.py:1122-1141
    (MultiDiGraph.adjacency_matrix) *)
Definition d_flatten (labels : nat) (adj : nat -> mat) : mat :=
  fun i j => for_range labels (fun l acc => acc + adj l i j) 0.

(** adjacency_matrix: graphs.py Graph 211-225, DiGraph 495-514, MultiGraph 857-874, MultiDiGraph 1122-1141.
    [weighted_graph] tells the dtype of [self.adj] (bool when unweighted). *)
(** graphs.py:211-225 (Graph.adjacency_matrix); graphs.py:495-514
    (DiGraph.adjacency_matrix); graphs.py:857-874
    (MultiGraph.adjacency_matrix); graphs.py:1122-1141
    (MultiDiGraph.adjacency_matrix) *)
Definition d_adjacency (weighted_graph : bool) (s : dshape) (directed weighted : bool) : mat :=
  match s with
  | DGraph adj => if weighted then d_symmetrize (negb weighted_graph) adj else d_either adj
  | DDiGraph adj =>
      if directed && weighted then adj
      else if directed && negb weighted then d_nonzero adj
      else if negb directed && weighted then d_symmetrize (negb weighted_graph) adj
      else d_either adj
  | DMultiGraph labels adj =>
      let adj := d_flatten labels adj in
      if weighted then d_symmetrize_flat adj else d_either adj
  | DMultiDiGraph labels adj =>
      let adj := d_flatten labels adj in
      if directed && negb weighted then d_nonzero adj
      else if negb directed && weighted then d_symmetrize_flat adj
      else if negb directed && negb weighted then d_either adj
      else adj
  end.

Definition d_directed (s : dshape) : bool :=
  match s with DGraph _ | DMultiGraph _ _ => false | DDiGraph _ | DMultiDiGraph _ _ => true end.

(** adjacency_tensor: MultiGraph 876-894, MultiDiGraph 1143-1166; one matrix per label.  The flat
    positions [i * (N + 1) - N * (i // N)] run over the diagonals of the layers. *)
(** graphs.py:876-894 (MultiGraph.adjacency_tensor); graphs.py:1143-1166
    (MultiDiGraph.adjacency_tensor) *)
Definition d_tensor (weighted_graph directed_class : bool) (adj : nat -> mat) (directed weighted : bool) (l : nat) : mat :=
  if directed && directed_class then (if weighted then adj l else d_nonzero (adj l))
  else if weighted then d_symmetrize (negb weighted_graph) (adj l) else d_either (adj l).

(** [adj.sum(axis=1)], [adj.sum(axis=0)], [adj.sum()], [np.diag(adj).sum()] *)
(** graphs.py:227-233 (Graph.num_edges); graphs.py:243-249 (Graph.degree);
    graphs.py:259-265 (Graph.strength); graphs.py:532-539
    (DiGraph.out_degree); graphs.py:541-548 (DiGraph.in_degree) *)
Definition d_sum1 (N : nat) (A : mat) (i : nat) : R := for_range N (fun j acc => acc + A i j) 0.
Definition d_sum0 (N : nat) (A : mat) (j : nat) : R := for_range N (fun i acc => acc + A i j) 0.
Definition d_sum (N : nat) (A : mat) : R := for_range N (fun i acc => acc + d_sum1 N A i) 0.
Definition d_halved (N : nat) (A : mat) : R := (d_sum N A + for_range N (fun i acc => acc + A i i) 0) / 2.

(** num_edges and total_weight: graphs.py Graph 227-241, DiGraph 516-530. *)
(** graphs.py:227-233 (Graph.num_edges); graphs.py:516-522 (DiGraph.num_edges)
    *)
Definition d_num_edges (N : nat) (w : bool) (s : dshape) : R :=
  if d_directed s then d_sum N (d_adjacency w s true false) else d_halved N (d_adjacency w s false false).
(** graphs.py:235-241 (Graph.total_weight); graphs.py:524-530
    (DiGraph.total_weight) *)
Definition d_total_weight (N : nat) (w : bool) (s : dshape) : R :=
  if d_directed s then d_sum N (d_adjacency w s true true) else d_halved N (d_adjacency w s false true).

(** degree 243-249, strength 259-265, out/in_degree 532-548, out/in_strength 568-582. *)
(** graphs.py:243-249 (Graph.degree) *)
Definition d_degree (N : nat) (w : bool) (s : dshape) : nat -> R := d_sum0 N (d_adjacency w s false false).
(** graphs.py:259-265 (Graph.strength) *)
Definition d_strength (N : nat) (w : bool) (s : dshape) : nat -> R := d_sum1 N (d_adjacency w s false true).
(** graphs.py:532-539 (DiGraph.out_degree) *)
Definition d_out_degree (N : nat) (w : bool) (s : dshape) : res (nat -> R) :=
  guard (d_directed s) AttributeError (Ok (d_sum1 N (d_adjacency w s true false))).
(** graphs.py:541-548 (DiGraph.in_degree) *)
Definition d_in_degree (N : nat) (w : bool) (s : dshape) : res (nat -> R) :=
  guard (d_directed s) AttributeError (Ok (d_sum0 N (d_adjacency w s true false))).
(** graphs.py:568-574 (DiGraph.out_strength) *)
Definition d_out_strength (N : nat) (w : bool) (s : dshape) : res (nat -> R) :=
  guard (d_directed s) AttributeError (Ok (d_sum1 N (d_adjacency w s true true))).
(** graphs.py:576-582 (DiGraph.in_strength) *)
Definition d_in_strength (N : nat) (w : bool) (s : dshape) : res (nat -> R) :=
  guard (d_directed s) AttributeError (Ok (d_sum0 N (d_adjacency w s true true))).

(** Labels: num_edges_label, total_weight_label, degree_by_label, strength_by_label (896-930) and the
    MultiDiGraph versions (1168-1216), for label [l]. *)
(** graphs.py:896-904 (MultiGraph.num_edges_label); graphs.py:1168-1174
    (MultiDiGraph.num_edges_label) *)
Definition d_num_edges_label (N : nat) (w : bool) (s : dshape) (l : nat) : res R :=
  match s with
  | DMultiGraph _ adj => Ok (d_halved N (d_tensor w false adj false false l))
  | DMultiDiGraph _ adj => Ok (d_sum N (d_tensor w true adj true false l))
  | _ => Raise AttributeError
  end.
(** graphs.py:906-914 (MultiGraph.total_weight_label); graphs.py:1176-1182
    (MultiDiGraph.total_weight_label) *)
Definition d_total_weight_label (N : nat) (w : bool) (s : dshape) (l : nat) : res R :=
  match s with
  | DMultiGraph _ adj => Ok (d_halved N (d_tensor w false adj false true l))
  | DMultiDiGraph _ adj => Ok (d_sum N (d_tensor w true adj true true l))
  | _ => Raise AttributeError
  end.
(** graphs.py:924-930 (MultiGraph.strength_by_label) *)
Definition d_strength_by_label (N : nat) (w : bool) (s : dshape) (l : nat) : res (nat -> R) :=
  match s with
  | DMultiGraph _ adj => Ok (d_sum1 N (d_tensor w false adj false true l))
  | DMultiDiGraph _ adj => Ok (d_sum1 N (d_tensor w true adj false true l))
  | _ => Raise AttributeError
  end.

(** degree_by_label 916-922 (inherited by MultiDiGraph) and MultiDiGraph's out/in_degree_by_label,
    out/in_strength_by_label 1184-1214. *)
(** graphs.py:916-922 (MultiGraph.degree_by_label) *)
Definition d_degree_by_label (N : nat) (w : bool) (s : dshape) (l : nat) : res (nat -> R) :=
  match s with
  | DMultiGraph _ adj => Ok (d_sum1 N (d_tensor w false adj false false l))
  | DMultiDiGraph _ adj => Ok (d_sum1 N (d_tensor w true adj false false l))
  | _ => Raise AttributeError
  end.
(** graphs.py:1184-1191 (MultiDiGraph.out_degree_by_label) *)
Definition d_out_degree_by_label (N : nat) (w : bool) (s : dshape) (l : nat) : res (nat -> R) :=
  match s with DMultiDiGraph _ adj => Ok (d_sum1 N (d_tensor w true adj true false l)) | _ => Raise AttributeError end.
(** graphs.py:1193-1200 (MultiDiGraph.in_degree_by_label) *)
Definition d_in_degree_by_label (N : nat) (w : bool) (s : dshape) (l : nat) : res (nat -> R) :=
  match s with DMultiDiGraph _ adj => Ok (d_sum0 N (d_tensor w true adj true false l)) | _ => Raise AttributeError end.
(** graphs.py:1202-1207 (MultiDiGraph.out_strength_by_label) *)
Definition d_out_strength_by_label (N : nat) (s : dshape) (l : nat) : res (nat -> R) :=
  match s with DMultiDiGraph _ adj => Ok (d_sum1 N (adj l)) | _ => Raise AttributeError end.
(** graphs.py:1209-1214 (MultiDiGraph.in_strength_by_label) *)
Definition d_in_strength_by_label (N : nat) (s : dshape) (l : nat) : res (nat -> R) :=
  match s with DMultiDiGraph _ adj => Ok (d_sum0 N (adj l)) | _ => Raise AttributeError end.

(** sum_by_group, graphs.py:368-382: one column per group, converted to int64 on assignment. *)
Definition d_sum_by_group (N : nat) (A : mat) (g_arr : nat -> nat) (i k : nat) : R :=
  to_int64 (for_each (filter (fun j => Nat.eqb (g_arr j) k) (seq 0 N)) (fun j acc => acc + A i j) 0).
Definition d_by_group (N : nat) (gr : grouping) (A : mat) : res (nat -> nat -> R) :=
  match gr with
  | None => Raise AttributeError
  | Some (_, groups) => Ok (d_sum_by_group N A groups)
  end.

(** degree_by_group 251-257, strength_by_group 267-273, DiGraph's 550-566 and 584-598. *)
(** graphs.py:251-257 (Graph.degree_by_group) *)
Definition d_degree_by_group (N : nat) (w : bool) (s : dshape) (gr : grouping) : res (nat -> nat -> R) :=
  d_by_group N gr (d_adjacency w s false false).
(** graphs.py:267-273 (Graph.strength_by_group) *)
Definition d_strength_by_group (N : nat) (w : bool) (s : dshape) (gr : grouping) : res (nat -> nat -> R) :=
  d_by_group N gr (d_adjacency w s false true).
(** graphs.py:550-557 (DiGraph.out_degree_by_group) *)
Definition d_out_degree_by_group (N : nat) (w : bool) (s : dshape) (gr : grouping) : res (nat -> nat -> R) :=
  guard (d_directed s) AttributeError (d_by_group N gr (d_adjacency w s true false)).
(** graphs.py:559-566 (DiGraph.in_degree_by_group) *)
Definition d_in_degree_by_group (N : nat) (w : bool) (s : dshape) (gr : grouping) : res (nat -> nat -> R) :=
  guard (d_directed s) AttributeError (d_by_group N gr (fun i j => d_adjacency w s true false j i)).
(** graphs.py:584-590 (DiGraph.out_strength_by_group) *)
Definition d_out_strength_by_group (N : nat) (w : bool) (s : dshape) (gr : grouping) : res (nat -> nat -> R) :=
  guard (d_directed s) AttributeError (d_by_group N gr (d_adjacency w s true true)).
(** graphs.py:592-598 (DiGraph.in_strength_by_group) *)
Definition d_in_strength_by_group (N : nat) (w : bool) (s : dshape) (gr : grouping) : res (nat -> nat -> R) :=
  guard (d_directed s) AttributeError (d_by_group N gr (fun i j => d_adjacency w s true true j i)).

(** av_nn_prop, graphs.py:384-394.  [transposed]: the argument is a transposed view, for which [ravel]
    makes a copy (unless there is a single row) and the assignment is lost. *)
Definition d_av_nn_prop (N : nat) (A : mat) (transposed : bool) (prop : nat -> R) (selfloops : bool) (i : nat) : R :=
  let A := if selfloops then A
           else if transposed && negb (Nat.eqb N 1) then A
           else set_diag A (fun _ => 0) in
  for_range N (fun j acc => acc + A i j * prop j) 0.

(** average_nn_property: Graph 275-307, DiGraph 600-643. *)
(** graphs.py:275-307 (Graph.average_nn_property); graphs.py:600-643
    (DiGraph.average_nn_property) *)
Definition d_average_nn_property (N : nat) (w : bool) (s : dshape) (len : nat) (prop : nat -> R) (ndir : dir)
    (selfloops : option bool) : res (nat -> R) :=
  guard (Nat.eqb len N) ValueError
  (match selfloops with
   | None => Raise AttributeError
   | Some sl =>
       let undirected := divide_by_degree N (d_av_nn_prop N (d_adjacency w s false false) false prop sl) (d_degree N w s) in
       if d_directed s then
         match ndir with
         | Dout => divide_by_degree N (d_av_nn_prop N (d_adjacency w s true false) false prop sl)
                     (d_sum1 N (d_adjacency w s true false))
         | Din => divide_by_degree N (d_av_nn_prop N (fun i j => d_adjacency w s true false j i) true prop sl)
                     (d_sum0 N (d_adjacency w s true false))
         | Doutin => undirected
         | Dother => Raise ValueError
         end
       else undirected
   end).

Section Construct.
Context {ID G Lb : Type} (leb_id : ID -> ID -> bool) (leb_g : G -> G -> bool) (leb_l : Lb -> Lb -> bool).

(** Graph.__init__ and DiGraph.__init__, graphs.py:95-190. *)
Definition dense_graph (grouped src_list dst_list weighted : bool) (v : list (ID * G)) (e : list (erow ID Lb))
    : res (base ID G * mat) :=
  do b <- read_tables leb_id leb_g grouped src_list dst_list weighted v e ; Ok (b, assign_all (b_edges b)).

(** MultiGraph.__init__, graphs.py:817-855. *)
Definition dense_multigraph (grouped src_list dst_list weighted : bool) (v : list (ID * G)) (e : list (erow ID Lb))
    : res (base ID G * dict Lb * (nat -> mat)) :=
  do b <- read_tables leb_id leb_g grouped src_list dst_list weighted v e ;
  do lab <- read_labels leb_l e ;
  let (label_dict, lbl_array) := lab in
  Ok (b, label_dict, assign_layers (combine lbl_array (b_edges b))).
End Construct.
