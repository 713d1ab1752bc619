(** Sparse graphs: models /repo/src/graph_ensembles/sparse/graphs.py (adjacency matrices and measures
    of Graph, DiGraph, MultiGraph and MultiDiGraph).

    Simplifications, also in DESIGN.md: a sparse matrix is its dtype kind (boolean or numeric) and, for
    every row, the list of its stored (column, value) entries; numeric values are exact reals, booleans
    are 0 and 1; [tocoo]/[tocsr]/[tocsc] are changes of view; the sum of two sparse matrices stores
    exactly the non-zero results by increasing column; a sum of booleans counts. *)
From Verif Require Import Base Num Ids Ensemble Lib.

(** * scipy sparse arrays *)

(** sparse/graphs.py:70-211 (Graph.__init__) *)
Record spm := mkSpm { sp_bool : bool; sp_row : nat -> list (nat * R) }.

(** [A[i, j]] *)
(** sparse/graphs.py:213-227 (Graph.adjacency_matrix) *)
Fixpoint stored (r : list (nat * R)) (j : nat) : R :=
  match r with
  | [] => 0
  | (k, v) :: t => if Nat.eqb k j then v else stored t j
  end.
Definition sp_get (A : spm) (i j : nat) : R := stored (sp_row A i) j.

(** [sp.coo_array((val, (row, col)), shape=(_, cols)).tocsr()]: duplicates are summed; for booleans
    (values all true) the sum is the disjunction. *)
(** sparse/graphs.py:70-211 (Graph.__init__); sparse/graphs.py:862-942
    (MultiGraph.__init__) *)
Definition hits (i j : nat) (t : nat * nat * R) : bool := Nat.eqb (fst (fst t)) i && Nat.eqb (snd (fst t)) j.
Definition coo_tocsr (bool_dtype : bool) (cols : nat) (l : list (nat * nat * R)) : spm :=
  mkSpm bool_dtype (fun i =>
    map (fun j => (j, if bool_dtype then 1 else for_each (filter (hits i j) l) (fun t acc => acc + snd t) 0))
      (filter (fun j => existsb (hits i j) l) (seq 0 cols))).

(** [A != 0] *)
(** sparse/graphs.py:213-227 (Graph.adjacency_matrix);
    sparse/graphs.py:532-552 (DiGraph.adjacency_matrix) *)
Definition sp_nonzero (A : spm) : spm :=
  mkSpm true (fun i => map (fun e => (fst e, 1)) (filter (fun e => negb (Reqb (snd e) 0)) (sp_row A i))).

(** [A.T] and [A.tocsc()], read by rows of the result, for a square matrix of size [N]. *)
(** sparse/graphs.py:213-227 (Graph.adjacency_matrix);
    sparse/graphs.py:532-552 (DiGraph.adjacency_matrix) *)
Definition sp_T (N : nat) (A : spm) : spm := mkSpm (sp_bool A) (csc N (sp_row A)).

(** A matrix storing the non-zero values of [f]. *)
(** sparse/graphs.py:213-227 (Graph.adjacency_matrix) *)
Definition csr_of (b : bool) (N : nat) (f : nat -> nat -> R) : spm :=
  mkSpm b (fun i => filter (fun e => negb (Reqb (snd e) 0)) (map (fun j => (j, f i j)) (seq 0 N))).

(** [A + B]; the sum of two booleans is their disjunction. *)
(** sparse/graphs.py:213-227 (Graph.adjacency_matrix);
    sparse/graphs.py:532-552 (DiGraph.adjacency_matrix) *)
Definition sp_add (N : nat) (A B : spm) : spm :=
  let b := sp_bool A && sp_bool B in
  csr_of b N (fun i j => let s := sp_get A i j + sp_get B i j in
                         if b then (if Reqb s 0 then 0 else 1) else s).

(** [A - sp.spdiags(d, 0, m=A.shape)], where the boolean difference 1 - 1 is 0. *)
(** sparse/graphs.py:213-227 (Graph.adjacency_matrix) *)
Definition sp_sub_diag (N : nat) (A : spm) (d : nat -> R) : spm :=
  csr_of (sp_bool A) N (fun i j => if Nat.eqb i j then sp_get A i j - d i else sp_get A i j).

(** [A.diagonal()], [A.sum(axis=1)], [A.sum(axis=0)], [A.sum()], [A.nnz], for [N] rows. *)
(** sparse/graphs.py:229-235 (Graph.num_edges); sparse/graphs.py:237-243
    (Graph.total_weight); sparse/graphs.py:245-251 (Graph.degree);
    sparse/graphs.py:268-274 (Graph.strength) *)
Definition sp_diagonal (A : spm) (i : nat) : R := sp_get A i i.
Definition row_total (r : list (nat * R)) : R := for_each r (fun e acc => acc + snd e) 0.
Definition sum_axis1 (A : spm) (i : nat) : R := row_total (sp_row A i).
Definition sum_axis0 (N : nat) (A : spm) (j : nat) : R :=
  for_range N (fun i acc => for_each (sp_row A i) (fun e acc => if Nat.eqb (fst e) j then acc + snd e else acc) acc) 0.
Definition sum_all (N : nat) (A : spm) : R := for_range N (fun i acc => acc + sum_axis1 A i) 0.
Definition vec_sum (N : nat) (x : nat -> R) : R := for_range N (fun i acc => acc + x i) 0.
Definition sp_nnz (N : nat) (A : spm) : nat := for_range N (fun i k => (k + length (sp_row A i))%nat) 0%nat.

(** * Adjacency matrices *)

(** sparse/graphs.py:218-222, 542-546, 954, 970, 1228, 1251: both orientations, diagonal counted once. *)
Definition symmetrize (N : nat) (A : spm) : spm :=
  sp_sub_diag N (sp_add N A (sp_T N A)) (sp_diagonal A).
(** sparse/graphs.py:224-225, 549-550, 957-958, 975-976, 1231-1232, 1256-1257. *)
Definition either_way (N : nat) (A : spm) : spm :=
  let A := sp_nonzero A in sp_add N A (sp_T N A).

(** Graph.adjacency_matrix, sparse/graphs.py:213-227; the argument [directed] is ignored. *)
Definition graph_adjacency (N : nat) (A : spm) (directed weighted : bool) : spm :=
  if weighted then symmetrize N A else either_way N A.

(** DiGraph.adjacency_matrix, sparse/graphs.py:532-552. *)
Definition digraph_adjacency (N : nat) (A : spm) (directed weighted : bool) : spm :=
  if directed && weighted then A
  else if directed && negb weighted then sp_nonzero A
  else if negb directed && weighted then symmetrize N A
  else either_way N A.

(** The projection of the label matrices, sparse/graphs.py:946-949 and 1218-1221. *)
Definition flatten (N : nat) (L : list spm) : res spm :=
  match L with
  | [] => Raise IndexError
  | A :: t => Ok (for_each t (fun B acc => sp_add N acc B) A)
  end.

(** MultiGraph.adjacency_matrix, sparse/graphs.py:944-960. *)
Definition multigraph_adjacency (N : nat) (L : list spm) (directed weighted : bool) : res spm :=
  do A <- flatten N L ; Ok (if weighted then symmetrize N A else either_way N A).

(** MultiDiGraph.adjacency_matrix, sparse/graphs.py:1216-1234. *)
Definition multidigraph_adjacency (N : nat) (L : list spm) (directed weighted : bool) : res spm :=
  do A <- flatten N L ;
  Ok (if directed && negb weighted then sp_nonzero A
      else if negb directed && weighted then symmetrize N A
      else if negb directed && negb weighted then either_way N A
      else A).

(** MultiGraph.adjacency_tensor, sparse/graphs.py:962-978. *)
Definition multigraph_tensor (N : nat) (L : list spm) (directed weighted : bool) : list spm :=
  map (fun A => if weighted then symmetrize N A else either_way N A) L.

(** MultiDiGraph.adjacency_tensor, sparse/graphs.py:1236-1259. *)
Definition multidigraph_tensor (N : nat) (L : list spm) (directed weighted : bool) : list spm :=
  map (fun A => if directed && weighted then A
                else if directed && negb weighted then sp_nonzero A
                else if negb directed && weighted then symmetrize N A
                else either_way N A) L.

(** * Measures that only depend on the adjacency matrix *)

(** The class of an object decides which [adjacency_matrix] is called and whether the methods of
    DiGraph override those of Graph. *)
(** sparse/graphs.py:213-227 (Graph.adjacency_matrix);
    sparse/graphs.py:532-552 (DiGraph.adjacency_matrix);
    sparse/graphs.py:944-960 (MultiGraph.adjacency_matrix);
    sparse/graphs.py:1216-1234 (MultiDiGraph.adjacency_matrix) *)
Inductive shape := SGraph (A : spm) | SDiGraph (A : spm) | SMultiGraph (L : list spm) | SMultiDiGraph (L : list spm).

Definition adjacency_matrix (N : nat) (s : shape) (directed weighted : bool) : res spm :=
  match s with
  | SGraph A => Ok (graph_adjacency N A directed weighted)
  | SDiGraph A => Ok (digraph_adjacency N A directed weighted)
  | SMultiGraph L => multigraph_adjacency N L directed weighted
  | SMultiDiGraph L => multidigraph_adjacency N L directed weighted
  end.

Definition is_directed (s : shape) : bool :=
  match s with SGraph _ | SMultiGraph _ => false | SDiGraph _ | SMultiDiGraph _ => true end.

(** Graph.num_edges and Graph.total_weight, sparse/graphs.py:229-243; DiGraph's versions, sparse/graphs.py:554-568. *)
Definition halved (N : nat) (A : spm) : R := (sum_all N A + vec_sum N (sp_diagonal A)) / 2.
Definition num_edges (N : nat) (s : shape) : res R :=
  if is_directed s then do A <- adjacency_matrix N s true false ; Ok (sum_all N A)
  else do A <- adjacency_matrix N s false false ; Ok (halved N A).
Definition total_weight (N : nat) (s : shape) : res R :=
  if is_directed s then do A <- adjacency_matrix N s true true ; Ok (sum_all N A)
  else do A <- adjacency_matrix N s false true ; Ok (halved N A).

(** Graph.degree, sparse/graphs.py:245-251; Graph.strength, sparse/graphs.py:268-274. *)
Definition degree (N : nat) (s : shape) : res (nat -> R) :=
  do A <- adjacency_matrix N s false false ; Ok (sum_axis0 N A).
Definition strength (N : nat) (s : shape) : res (nat -> R) :=
  do A <- adjacency_matrix N s false true ; Ok (sum_axis1 A).

(** DiGraph.out_degree and in_degree, sparse/graphs.py:570-586; the methods do not exist on undirected graphs. *)
Definition out_degree (N : nat) (s : shape) : res (nat -> R) :=
  guard (is_directed s) AttributeError (do A <- adjacency_matrix N s true false ; Ok (sum_axis1 A)).
Definition in_degree (N : nat) (s : shape) : res (nat -> R) :=
  guard (is_directed s) AttributeError (do A <- adjacency_matrix N s true false ; Ok (sum_axis0 N A)).
(** DiGraph.out_strength and in_strength, sparse/graphs.py:628-642. *)
Definition out_strength (N : nat) (s : shape) : res (nat -> R) :=
  guard (is_directed s) AttributeError (do A <- adjacency_matrix N s true true ; Ok (sum_axis1 A)).
Definition in_strength (N : nat) (s : shape) : res (nat -> R) :=
  guard (is_directed s) AttributeError (do A <- adjacency_matrix N s true true ; Ok (sum_axis0 N A)).

(** * Measures by group *)

(** The conversions [dtype(v)] of [sum_by_group]: numpy int64 truncates, float64 keeps the value. *)
(** sparse/graphs.py:388-414 (Graph.sum_by_group) *)
Definition to_int64 (x : R) : R := if Rltb x 0 then - IZR (Int_part (- x)) else IZR (Int_part x).
Definition to_float64 (x : R) : R := x.

(** [gcnt[g] = gcnt[g] + v] if present, [gcnt[g] = v] otherwise (sparse/graphs.py:407-410). *)
Fixpoint tally (d : list (nat * R)) (g : nat) (v : R) : list (nat * R) :=
  match d with
  | [] => [(g, v)]
  | (h, w) :: t => if Nat.eqb h g then (h, w + v) :: t else (h, w) :: tally t g v
  end.

(** Graph.sum_by_group, sparse/graphs.py:386-414: the triples (vertex, group, sum). *)
Definition sum_by_group (N : nat) (row : nat -> list (nat * R)) (g_arr : nat -> nat) (dtype : R -> R)
    : list (nat * nat * R) :=
  for_range N (fun i acc =>
    let gcnt := for_each (row i) (fun e d => tally d (g_arr (fst e)) (dtype (snd e))) [] in
    acc ++ map (fun p => (i, fst p, snd p)) gcnt) [].

(** The attributes [groups] and [num_groups] exist when [v_group] was given. *)
(** sparse/graphs.py:70-211 (Graph.__init__) *)
Definition grouping := option (nat * (nat -> nat)).

(** The shared body of the by-group methods: sparse/graphs.py:253-266 and 276-289 (Graph), 588-606, 608-626,
    644-668 (DiGraph). *)
Definition by_group (N : nat) (gr : grouping) (A : spm) (dtype : R -> R) : res spm :=
  match gr with
  | None => Raise AttributeError
  | Some (num_groups, groups) =>
      Ok (coo_tocsr false num_groups (sum_by_group N (sp_row A) groups dtype))
  end.

Definition degree_by_group (N : nat) (s : shape) (gr : grouping) : res spm :=
  do A <- adjacency_matrix N s false false ; by_group N gr A to_int64.
Definition strength_by_group (N : nat) (s : shape) (gr : grouping) : res spm :=
  do A <- adjacency_matrix N s false true ; by_group N gr A to_float64.
Definition out_degree_by_group (N : nat) (s : shape) (gr : grouping) : res spm :=
  guard (is_directed s) AttributeError (do A <- adjacency_matrix N s true false ; by_group N gr A to_int64).
Definition in_degree_by_group (N : nat) (s : shape) (gr : grouping) : res spm :=
  guard (is_directed s) AttributeError (do A <- adjacency_matrix N s true false ; by_group N gr (sp_T N A) to_int64).
Definition out_strength_by_group (N : nat) (s : shape) (gr : grouping) : res spm :=
  guard (is_directed s) AttributeError (do A <- adjacency_matrix N s true true ; by_group N gr A to_float64).
Definition in_strength_by_group (N : nat) (s : shape) (gr : grouping) : res spm :=
  guard (is_directed s) AttributeError (do A <- adjacency_matrix N s true true ; by_group N gr (sp_T N A) to_float64).

(** * Measures by label *)

(** MultiGraph.num_edges_label and total_weight_label, sparse/graphs.py:980-1002; MultiDiGraph's, 1261-1275. *)
Definition num_edges_label (N : nat) (s : shape) : res (list R) :=
  match s with
  | SMultiGraph L => Ok (map (fun A => (INR (sp_nnz N A) + vec_sum N (sp_diagonal A)) / 2) (multigraph_tensor N L false false))
  | SMultiDiGraph L => Ok (map (fun A => INR (sp_nnz N A)) (multidigraph_tensor N L true false))
  | _ => Raise AttributeError
  end.
Definition total_weight_label (N : nat) (s : shape) : res (list R) :=
  match s with
  | SMultiGraph L => Ok (map (halved N) (multigraph_tensor N L false true))
  | SMultiDiGraph L => Ok (map (sum_all N) (multidigraph_tensor N L true true))
  | _ => Raise AttributeError
  end.

(** MultiGraph.degree_by_label and strength_by_label, sparse/graphs.py:1004-1026 (inherited by MultiDiGraph, whose
    [adjacency_tensor] they call with directed=False); one vector per label. *)
Definition degree_by_label (N : nat) (s : shape) : res (list (nat -> R)) :=
  match s with
  | SMultiGraph L => Ok (map sum_axis1 (multigraph_tensor N L false false))
  | SMultiDiGraph L => Ok (map sum_axis1 (multidigraph_tensor N L false false))
  | _ => Raise AttributeError
  end.
Definition strength_by_label (N : nat) (s : shape) : res (list (nat -> R)) :=
  match s with
  | SMultiGraph L => Ok (map sum_axis1 (multigraph_tensor N L false true))
  | SMultiDiGraph L => Ok (map sum_axis1 (multidigraph_tensor N L false true))
  | _ => Raise AttributeError
  end.

(** MultiDiGraph.out/in_degree_by_label and out/in_strength_by_label, sparse/graphs.py:1277-1323. *)
Definition out_degree_by_label (N : nat) (s : shape) : res (list (nat -> R)) :=
  match s with SMultiDiGraph L => Ok (map sum_axis1 (multidigraph_tensor N L true false)) | _ => Raise AttributeError end.
Definition in_degree_by_label (N : nat) (s : shape) : res (list (nat -> R)) :=
  match s with SMultiDiGraph L => Ok (map (sum_axis0 N) (multidigraph_tensor N L true false)) | _ => Raise AttributeError end.
Definition out_strength_by_label (N : nat) (s : shape) : res (list (nat -> R)) :=
  match s with SMultiDiGraph L => Ok (map sum_axis1 (multidigraph_tensor N L true true)) | _ => Raise AttributeError end.
Definition in_strength_by_label (N : nat) (s : shape) : res (list (nat -> R)) :=
  match s with SMultiDiGraph L => Ok (map (sum_axis0 N) (multidigraph_tensor N L true true)) | _ => Raise AttributeError end.

(** * Nearest neighbours *)

(** Graph.av_nn_prop, sparse/graphs.py:416-431. *)
Definition av_nn_prop (N : nat) (row : nat -> list (nat * R)) (prop : nat -> R) (selfloops : bool) : nat -> R :=
  for_range N (fun i res =>
    for_each (row i) (fun e res =>
      if negb (Nat.eqb i (fst e)) || selfloops then add_at res i (prop (fst e)) else res) res) (fun _ => 0).

(** sparse/graphs.py:317-325 and 708-716: check, then divide by the degree where it is not zero. *)
Definition divide_by_degree (N : nat) (av_nn deg : nat -> R) : res (nat -> R) :=
  guard (forallb (fun i => negb (Reqb (deg i) 0) || Reqb (av_nn i) 0) (seq 0 N)) AssertionError
    (Ok (fun i => if Reqb (deg i) 0 then av_nn i else av_nn i / deg i)).

(** Graph.average_nn_property, sparse/graphs.py:291-325, and DiGraph.average_nn_property, sparse/graphs.py:670-716, on an
    object without cached degrees.  [len] is [prop.shape[0]]; undirected classes take no [ndir]
    argument, the neighbourhood is the undirected one.  Graphs have no attribute [selfloops], so
    [selfloops=None] fails (305, 687). *)
Definition average_nn_property (N : nat) (s : shape) (len : nat) (prop : nat -> R) (ndir : dir)
    (selfloops : option bool) : res (nat -> R) :=
  guard (Nat.eqb len N) ValueError
  (match selfloops with
   | None => Raise AttributeError
   | Some sl =>
       let undirected :=
         do deg <- degree N s ;
         do A <- adjacency_matrix N s false false ;
         divide_by_degree N (av_nn_prop N (sp_row A) prop sl) deg in
       if is_directed s then
         match ndir with
         | Dout => do deg <- out_degree N s ; do A <- adjacency_matrix N s true false ;
                   divide_by_degree N (av_nn_prop N (sp_row A) prop sl) deg
         | Din => do deg <- in_degree N s ; do A <- adjacency_matrix N s true false ;
                  divide_by_degree N (av_nn_prop N (sp_row (sp_T N A)) prop sl) deg
         | Doutin => undirected
         | Dother => Raise ValueError
         end
       else undirected
   end).

(** * Construction *)

Section Construct.
Context {ID G Lb : Type} (leb_id : ID -> ID -> bool) (leb_g : G -> G -> bool) (leb_l : Lb -> Lb -> bool).

(** Graph.__init__ and DiGraph.__init__, sparse/graphs.py:174-192: the attributes and the matrix [self.adj]. *)
Definition sparse_graph (grouped src_list dst_list weighted : bool) (v : list (ID * G)) (e : list (erow ID Lb))
    : res (base ID G * spm) :=
  do b <- read_tables leb_id leb_g grouped src_list dst_list weighted v e ;
  Ok (b, coo_tocsr (negb weighted) (b_n b) (b_edges b)).

(** MultiGraph.__init__, sparse/graphs.py:889-942: one matrix per label. *)
Definition sparse_multigraph (grouped src_list dst_list weighted : bool) (v : list (ID * G)) (e : list (erow ID Lb))
    : res (base ID G * dict Lb * list spm) :=
  do b <- read_tables leb_id leb_g grouped src_list dst_list weighted v e ;
  do lab <- read_labels leb_l e ;
  let (label_dict, lbl_array) := lab in
  Ok (b, label_dict, map (fun lbl =>
        coo_tocsr (negb weighted) (b_n b)
          (map snd (filter (fun p => Nat.eqb (fst p) lbl) (combine lbl_array (b_edges b)))))
      (seq 0 (length label_dict))).

(** The groups of the object as used by the measures. *)
(** sparse/graphs.py:70-211 (Graph.__init__) *)
Definition grouping_of (b : base ID G) : grouping :=
  match b_groups b with
  | None => None
  | Some (gd, ga) => Some (length gd, fun i => nth i ga 0%nat)
  end.
End Construct.
