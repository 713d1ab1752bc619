(** From an observed graph to a fitted model of it: what the constructors read from a graph, and the fit of the object
    they build. *)
From Coq Require Import ZArith String.
From Verif Require Import Base Num Kernels Solver Fit Ids Graphs Construct.

Open Scope R_scope.
Open Scope list_scope.

(** sparse/models/fitness.py:56-59: what FitnessModel reads from a DiGraph.  The number of edges is an integer
    ([adj.sum()] of a boolean matrix), the strengths are arrays with one entry per vertex.
    Simplification: the methods are called on a graph that has cached nothing. *)
Definition read_digraph (N : nat) (s : shape) : res digraph_data :=
  do m <- num_edges N s ;
  do o <- out_strength N s ;
  do i <- in_strength N s ;
  Ok {| gd_vertices := N; gd_edges := Z.to_nat (Int_part m); gd_out := map (fun v => Fin (o v)) (seq 0 N);
        gd_in := map (fun v => Fin (i v)) (seq 0 N); gd_groups := None |}.

(** sparse/models/fitness.py:43-163 (FitnessModel.__init__) called with a graph and keywords: only the classes DiGraph and
    MultiDiGraph pass [isinstance(args[0], graphs.DiGraph)]. *)
Definition fitness_of (N : nat) (s : shape) (kw : list (string * value)) : res fitness_state :=
  if is_directed s then do g <- read_digraph N s ; fitness_init [AGraph g] kw
  else fitness_init [AValue Obj] kw.

(** sparse/models/fitness.py:238-251 (FitnessModel.density_fit_fun), with the constant dyadic property of
    sparse/models/ensembles.py:66-70 (GraphEnsemble.prop_dyad). *)
Definition density_fit_fun (p_jac_ij : num -> num -> num -> num -> num * num) (st : fitness_state) (selfloops : bool)
    (delta : num) : num * num :=
  exp_edges_f_jac p_jac_ij delta (fun i => nth i (fs_out st) NaN) (fun i => nth i (fs_in st) NaN) (fun _ _ => Fin 1)
    (fs_vertices st) selfloops.

(** sparse/models/fitness.py:165-236 (FitnessModel.fit) on an object.
    Simplification: only described ([Some]) for an object whose number of edges is absent or a number and whose
    self-loop option is a boolean; the constructors also let through one-element arrays and any self-loop option. *)
Definition fit_object (p_jac_ij : num -> num -> num -> num -> num * num) (st : fitness_state) (x0 : option user_array)
    (method : fit_method) (atol rtol : num) (maxiter : nat) : option (res fitted) :=
  match fs_selfloops st, fs_edges st with
  | Sc (SBool sl), None => Some (fitness_fit (density_fit_fun p_jac_ij st sl) None x0 method atol rtol maxiter)
  | Sc (SBool sl), Some (Sc (SFloat t)) =>
      Some (fitness_fit (density_fit_fun p_jac_ij st sl) (Some t) x0 method atol rtol maxiter)
  | _, _ => None
  end.
