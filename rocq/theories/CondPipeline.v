(** From two observed graphs to a fitted conditional model: what ConditionalInvariantModel reads from a micro graph with groups and
    from the macro graph of the groups, and the fit of the object it builds.  Model only. *)
From Coq Require Import ZArith String.
From Verif Require Import Base Num Kernels MultiKernels Solver Fit Ids Graphs Construct Pipeline Conditional.

Open Scope R_scope.
Open Scope list_scope.

(** sparse/models/conditional.py:66-72: what ConditionalInvariantModel reads from the first DiGraph.  The attribute [groups] of a graph
    built with [v_group] is an array of unsigned integers, one per vertex (sparse/graphs.py:146-150). *)
Definition read_micro (N : nat) (s : shape) (gr : grouping) : res digraph_data :=
  do g <- read_digraph N s ;
  Ok {| gd_vertices := gd_vertices g; gd_edges := gd_edges g; gd_out := gd_out g; gd_in := gd_in g;
        gd_groups := match gr with
                     | None => None
                     | Some (_, groups) => Some (Arr DInt [N] (map (fun i => Fin (INR (groups i))) (seq 0 N)))
                     end |}.

(** sparse/models/conditional.py:77-79: the directed and weighted adjacency matrix of the second DiGraph, a sparse array of shape
    (M, M). *)
Definition read_macro (M : nat) (t : shape) : res value :=
  do A <- adjacency_matrix M t true true ;
  Ok (Csr M (map (fun a => map (fun e => (fst e, Fin (snd e))) (sp_row A a)) (seq 0 M))).

(** sparse/models/conditional.py:48-213 (ConditionalInvariantModel.__init__) called with two graphs and keywords: only the classes
    DiGraph and MultiDiGraph pass the two [isinstance] (65, 77).
    Simplification: what is read from the second graph besides its adjacency matrix is not used, so the micro graph stands for it. *)
Definition conditional_of (N : nat) (s : shape) (gr : grouping) (M : nat) (t : shape) (kw : list (string * value)) : res cond_state :=
  if is_directed s then
    do g <- read_micro N s gr ;
    if is_directed t then do adj <- read_macro M t ; cond_init [CGraph g Obj; CGraph g adj] kw
    else cond_init [CGraph g Obj; CValue Obj] kw
  else cond_init [CValue Obj] kw.

(** The arrays an object holds, as the methods index them (sparse/models/conditional.py:505-520); no index is out of range. *)
Definition co_out (st : cond_state) (i : nat) : num := nth i (fs_out (cs_base st)) (Fin 0).
Definition co_in (st : cond_state) (i : nat) : num := nth i (fs_in (cs_base st)) (Fin 0).
(** sparse/models/conditional.py:505-520 (ConditionalInvariantModel.density_fit_fun): [self.groups], described for an integer array *)
Definition co_groups (st : cond_state) : option (nat -> nat) :=
  match cs_groups st with
  | Arr DInt [_] data => Some (fun i => Z.to_nat (Int_part (toR (nth i data (Fin 0)))))
  | _ => None
  end.
(** sparse/models/conditional.py:505-520: [self.adj.indptr] and [self.adj.indices], read by rows *)
Definition co_adj (st : cond_state) (a : nat) : list (nat * R) := map (fun e => (fst e, toR (snd e))) (nth a (cs_adj st) []).

(** sparse/models/conditional.py:432-503 (ConditionalInvariantModel.fit) on an object.
    Simplification: only described ([Some]) for an object whose number of edges is a number, whose self-loop option is a boolean and
    whose groups are an integer array; the constructor also lets through other values. *)
Definition cond_fit_object (st : cond_state) (x0 : option user_array) (method : fit_method) (atol rtol : num) (maxiter : nat)
    : option (res fitted) :=
  match fs_selfloops (cs_base st), fs_edges (cs_base st), co_groups st with
  | Sc (SBool sl), Some (Sc (SFloat t)), Some g =>
      Some (cond_fit (co_out st) (co_in st) (fs_vertices (cs_base st)) g (co_adj st) sl (Some t) x0 method atol rtol maxiter)
  | _, _, _ => None
  end.
