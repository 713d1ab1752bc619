(** The constructors of the Spark classes, spark/models.py.  Their text is the one of the sparse classes modelled in
    Construct.v with these differences: the first positional argument must be a SparkContext and the graph is the
    second; the keyword [p_blocks] is accepted, checked after everything else, and limited by the number of
    vertices; MultiFitnessModel keeps its compressed matrices instead of converting them to tuples.
    Simplifications as in Construct.v.  The RDDs are the block lists of Spark.v. *)
From Coq Require Import ZArith String.
From Verif Require Import Base Num MultiKernels Construct.

Open Scope string_scope.
Open Scope list_scope.

(** A positional argument: a SparkContext, or something that is none.
    spark/models.py:1436-1439 *)
Inductive parg (A : Type) : Type :=
| PContext
| PArg (a : A).
Arguments PContext {A}.
Arguments PArg {A} a.

(** spark/models.py:1435-1457 (FitnessModel), 867-889 (RandomDiGraph), 3161-3186 (MultiFitnessModel).  [graph]
    handles a second argument that is no context. *)
Definition spark_args {A : Type} (graph : A -> res attrs) (args : list (parg A)) : res attrs :=
  match args with
  | [] => Raise ValueError
  | PArg _ :: _ => Raise ValueError
  | PContext :: [] => Ok []
  | PContext :: PContext :: _ => Raise ValueError
  | PContext :: PArg a :: _ => graph a
  end.

(** spark/models.py:1558-1577, 984-1003, 3362-3381: the attribute [p_blocks] of an object with [N] vertices. *)
Definition block_arg (N : nat) (v : option value) : res nat :=
  do b <- match v with None => Ok 10%nat | Some v => count_arg v end ;
  Ok (if Nat.ltb N (10 * b) then (if Nat.ltb (N / 10) 2 then 2%nat else (N / 10)%nat) else b).

(** spark/models.py:1427-1621 (FitnessModel.__init__); the object and its number of blocks. *)
Definition spark_fitness_init (args : list (parg arg)) (kw : list (string * value)) : res (fitness_state * nat) :=
  do a0 <- spark_args (fun x => match x with AGraph g => Ok (graph_attrs g) | AValue _ => Raise ValueError end) args ;
  do a <- apply_kwargs ["num_vertices"; "num_edges"; "prop_out"; "prop_in"; "p_blocks"; "param"; "selfloops"] kw a0 ;
  do st <- fitness_checks a ;
  do B <- block_arg (fs_vertices st) (getattr a "p_blocks") ;
  Ok (st, B).

(** spark/models.py:862-1045 (RandomDiGraph.__init__) *)
Definition spark_random_init (args : list (parg rarg)) (kw : list (string * value)) : res (random_state * nat) :=
  do a0 <- spark_args (fun x => match x with RGraph g => Ok (random_attrs g) | RValue _ => Raise ValueError end) args ;
  do a <- apply_kwargs ["num_vertices"; "num_edges"; "p_blocks"; "param"; "selfloops"; "total_weight"; "discrete_weights"]
            kw a0 ;
  do st <- random_checks a ;
  do B <- block_arg (rs_vertices st) (getattr a "p_blocks") ;
  Ok (st, B).

(** spark/models.py:3150-3432 (MultiFitnessModel.__init__) *)
Definition spark_multi_init (args : list (parg marg)) (kw : list (string * value)) : res (multi_state * nat) :=
  do a0 <- spark_args (fun x => match x with MGraph g => Ok (multi_attrs g) | MValue _ => Raise ValueError end) args ;
  do a <- apply_kwargs ["num_vertices"; "num_edges"; "num_edges_label"; "num_labels"; "prop_out"; "prop_in"; "p_blocks";
                        "param"; "selfloops"; "per_label"] kw a0 ;
  do st <- multi_checks a (getattr kw "per_label") ;
  do B <- block_arg (ms_vertices st) (getattr a "p_blocks") ;
  Ok (st, B).
