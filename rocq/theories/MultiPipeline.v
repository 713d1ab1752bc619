(** From an observed directed multi graph to a fitted multi-label model of it: what the constructors read from the
    graph, and the fit of the object they build.  Model only. *)
From Coq Require Import ZArith String.
From Verif Require Import Base Num Kernels MultiKernels Ensemble Solver Fit Layers LayerFit FitStart FitState Ids Graphs Construct.
From Verif Require MultiState.

Open Scope R_scope.
Open Scope list_scope.

(** sparse/graphs.py:1301-1323: out_strength_by_label and in_strength_by_label hold one vector per label in a
    [lil_array], whose transpose in csr format has one row per vertex.  Neither format stores the zeros that are
    assigned to it. *)
Definition label_rows (N : nat) (S : list (nat -> R)) : list svec :=
  map (fun v => dense_row (length S) (fun k => Fin (nth k S (fun _ => 0) v))) (seq 0 N).

(** sparse/models/fitness.py:384-391: what MultiFitnessModel reads from a MultiDiGraph.
    Simplification: the methods are called on a graph that has cached nothing. *)
Definition read_multidigraph (N : nat) (s : shape) : res multi_data :=
  do m <- num_edges N s ;
  do e <- num_edges_label N s ;
  do o <- out_strength_by_label N s ;
  do i <- in_strength_by_label N s ;
  Ok {| md_vertices := N; md_labels := length e; md_edges := Z.to_nat (Int_part m); md_edges_label := map Fin e;
        md_out := label_rows N o; md_in := label_rows N i |}.

(** sparse/models/fitness.py:370-576 (MultiFitnessModel.__init__) called with a graph and keywords: only the class
    MultiDiGraph passes [isinstance(args[0], graphs.MultiDiGraph)]. *)
Definition multi_of (N : nat) (s : shape) (kw : list (string * value)) : res multi_state :=
  match s with
  | SMultiDiGraph _ => do g <- read_multidigraph N s ; multi_init [MGraph g] kw
  | _ => multi_init [MValue Obj] kw
  end.

(** sparse/models/fitness.py:708-716 (MultiFitnessModel.density_fit_fun) *)
Definition multi_density_fit_fun (p_jac_ij : num -> svec -> svec -> num * num) (st : multi_state) (selfloops : bool)
    (delta : num) : num * num :=
  exp_edges_f_jac (fun d x y (_ : unit) => p_jac_ij d x y) delta (fun i => nth i (ms_out st) []) (fun i => nth i (ms_in st) [])
    (fun _ _ => tt) (ms_vertices st) selfloops.

(** The number of edges held as a number.  [None]: the attribute is not a number. *)
(** sparse/models/fitness.py:677-684 *)
Definition edges_held (v : option value) : option (option num) :=
  match v with
  | None => Some None
  | Some (Sc s) => match sc_num s with Some x => Some (Some x) | None => None end
  | Some _ => None
  end.
(** The numbers of edges by label.  [None]: not an array with one axis. *)
(** sparse/models/fitness.py:626-631, 655 *)
Definition edges_label_held (v : option nd) : option (option (nat -> num)) :=
  match v with
  | None => Some None
  | Some ([_], data) => Some (Some (fun k => nth k data NaN))
  | Some _ => None
  end.

(** sparse/models/fitness.py:578-706 (MultiFitnessModel.fit) on an object: what it returns, and the attributes [param] and
    [solver_output] it leaves.  The object has no [solver_output] before.
    Simplification: only described ([Some]) for objects whose self-loop option and [per_label] are booleans, whose number
    of edges is absent or a number, and whose numbers of edges by label are absent or an array with one axis. *)
Definition fit_multi_object (p_jac_ij : num -> svec -> svec -> num * num) (p_jac_ijk : num -> num -> num -> num * num)
    (st : multi_state) (x0 : start) (method : fit_method) (atol rtol : num) (maxiter : nat) : option (res unit * fit_state) :=
  match ms_selfloops st, ms_per_label st, edges_held (ms_edges st), edges_label_held (ms_edges_label st) with
  | Sc (SBool sl), Sc (SBool per_label), Some ne, Some nel =>
      Some (fit_call fill_each (ms_labels st) per_label (multi_density_fit_fun p_jac_ij st sl)
        (sparse_layer p_jac_ijk (ms_labels st) (map (@split nat num) (ms_out st)) (map (@split nat num) (ms_in st)) sl)
        ne nel x0 method atol rtol maxiter (mkFit (match ms_param st with Some (_, data) => Some data | None => None end) None))
  | _, _, _, _ => None
  end.

(** The object as its methods use it: the two tables of fitnesses as tuples of labels and values, and the constant dyadic
    property of sparse/models/ensembles.py:66-70.
    sparse/models/fitness.py:331-856 (MultiFitnessModel); sparse/models/invariant.py:107-350 (MultiInvariantModel) *)
Definition multi_object (inv : bool) (st : multi_state) : MultiState.multi :=
  (if inv then MultiState.multi_invariant else MultiState.multi_fitness) (ms_vertices st) (ms_labels st)
    (map (@split nat num) (ms_out st)) (map (@split nat num) (ms_in st)) (fun _ _ => Fin 1).
