(** From an observed graph to the Erdos-Renyi model of it, and the likelihood of a graph object. *)
From Coq Require Import ZArith String.
From Verif Require Import Base Num Prob Ensemble EnsembleState Ids Graphs Construct Random.

Open Scope R_scope.
Open Scope string_scope.
Open Scope list_scope.

(** sparse/models/random.py:44-48: what RandomDiGraph reads from a Graph [g]; every graph class is a subclass of Graph.
    [weighted] is [g.weighted].  The number of edges is a whole number ([num_edges] of a boolean matrix).
    Simplification: the methods are called on a graph that has cached nothing. *)
Definition read_graph (weighted : bool) (N : nat) (s : shape) : res random_data :=
  do m <- num_edges N s ;
  do t <- (if weighted then do t <- total_weight N s ; Ok (Some (Fin t)) else Ok None) ;
  Ok {| rd_vertices := N; rd_edges := Z.to_nat (Int_part m); rd_weight := t |}.

(** sparse/models/random.py:37-145 (RandomDiGraph.__init__) called with a graph and keywords. *)
Definition random_of (weighted : bool) (N : nat) (s : shape) (kw : list (string * value)) : res random_state :=
  do g <- read_graph weighted N s ; random_init [RGraph g] kw.

(** The attributes of the object as the methods use them.
    Simplification: only described ([Some]) for an object whose number of edges and total weight are absent or finite
    numbers, whose parameter is absent, and whose options are booleans.  Numbers read from the graph are numpy
    scalars, numbers given as keywords are Python numbers. *)
(** sparse/models/random.py:37-145 (RandomDiGraph.__init__) *)
Definition number_attr (kw : list (string * value)) (name : string) (o : option value) : option (option (R * bool)) :=
  match o with
  | None => Some None
  | Some (Sc (SFloat (Fin r))) => Some (Some (r, negb (mem_name name (map fst kw))))
  | Some _ => None
  end.
(** sparse/models/random.py:124-126: an option, set or left unset. *)
Definition flag_attr (o : option value) : option (option bool) :=
  match o with
  | None => Some None
  | Some (Sc (SBool b)) => Some (Some b)
  | Some _ => None
  end.
(** sparse/models/random.py:37-145 (RandomDiGraph.__init__) *)
Definition random_object (kw : list (string * value)) (st : random_state) : option rnd :=
  match flag_attr (Some (rs_selfloops st)), number_attr kw "num_edges" (rs_edges st), number_attr kw "total_weight" (rs_weight st),
        flag_attr (rs_discrete st), rs_param st with
  | Some (Some sl), Some e, Some w, Some d, None => Some (mkRnd (rs_vertices st) sl e w d None)
  | _, _, _, _, _ => None
  end.

(** sparse/models/random.py:290-292; sparse/models/ensembles.py:293-295: the matrix log_likelihood takes from a graph. *)
Definition graph_matrix (N : nat) (s : shape) : res graph_arg :=
  do A <- adjacency_matrix N s true false ; Ok (Matrix N N (fun i => map fst (sp_row A i))).
