(** The measures of a graph with their caches: models the [hasattr]/[recompute] logic of
    /repo/src/graph_ensembles/sparse/graphs.py (lines 229-343, 554-753, 980-1026, 1261-1323) and of the
    dense /repo/src/graph_ensembles/graphs.py (227-325, 516-680, 896-930, 1168-1214). *)
From Coq Require Import String Ascii.
From Verif Require Import Base Num Ids Ensemble Lib Graphs DenseGraphs.

(** What a measure returns: a number, a vector, a sparse or dense matrix, or one of these per label. *)
(** sparse/graphs.py:229-235 (Graph.num_edges); sparse/graphs.py:237-243
    (Graph.total_weight); sparse/graphs.py:245-251 (Graph.degree);
    sparse/graphs.py:268-274 (Graph.strength) *)
Inductive gval :=
| VNum (x : R) | VVec (x : nat -> R) | VSp (A : spm) | VMat (A : nat -> nat -> R)
| VNums (l : list R) | VVecs (l : list (nat -> R)).

(** The cached methods without other arguments than [recompute]. *)
(** sparse/graphs.py:229-235 (Graph.num_edges); sparse/graphs.py:237-243
    (Graph.total_weight); sparse/graphs.py:245-251 (Graph.degree);
    sparse/graphs.py:268-274 (Graph.strength) *)
Inductive meas :=
| MEdges | MWeight | MDegree | MDegreeGroup | MStrength | MStrengthGroup
| MOutDegree | MInDegree | MOutDegreeGroup | MInDegreeGroup
| MOutStrength | MInStrength | MOutStrengthGroup | MInStrengthGroup
| MEdgesLabel | MWeightLabel | MDegreeLabel | MStrengthLabel
| MOutDegreeLabel | MInDegreeLabel | MOutStrengthLabel | MInStrengthLabel.

(** The attribute in which the value is kept. *)
(** sparse/graphs.py:229-235 (Graph.num_edges); sparse/graphs.py:237-243
    (Graph.total_weight); sparse/graphs.py:245-251 (Graph.degree);
    sparse/graphs.py:268-274 (Graph.strength) *)
Definition attr (m : meas) : string :=
  match m with
  | MEdges => "_num_edges" | MWeight => "_total_weight" | MDegree => "_degree"
  | MDegreeGroup => "_degree_by_group" | MStrength => "_strength" | MStrengthGroup => "_strength_by_group"
  | MOutDegree => "_out_degree" | MInDegree => "_in_degree"
  | MOutDegreeGroup => "_out_degree_by_group" | MInDegreeGroup => "_in_degree_by_group"
  | MOutStrength => "_out_strength" | MInStrength => "_in_strength"
  | MOutStrengthGroup => "_out_strength_by_group" | MInStrengthGroup => "_in_strength_by_group"
  | MEdgesLabel => "_num_edges_label" | MWeightLabel => "_total_weight_label"
  | MDegreeLabel => "_degree_by_label" | MStrengthLabel => "_strength_by_label"
  | MOutDegreeLabel => "_out_degree_by_label" | MInDegreeLabel => "_in_degree_by_label"
  | MOutStrengthLabel => "_out_strength_by_label" | MInStrengthLabel => "_in_strength_by_label"
  end%string.

(** [s.replace("-", "_")] *)
(** sparse/graphs.py:327-343 (Graph.average_nn_degree);
    sparse/graphs.py:718-753 (DiGraph.average_nn_degree) *)
Fixpoint dashes (s : string) : string :=
  match s with
  | EmptyString => EmptyString
  | String a t => String (if Ascii.eqb a "-" then "_" else a)%char (dashes t)
  end.

(** The attribute of average_nn_degree: sparse/graphs.py:330 for undirected graphs, 732 for directed ones. *)
Definition nn_name (directed : bool) (ndir ddir : string) : string :=
  if directed then ("av_" ++ dashes ndir ++ "_nn_d_" ++ dashes ddir)%string else "av_nn_degree"%string.

(** The comparisons with "out", "in" and "out-in". *)
(** sparse/graphs.py:670-716 (DiGraph.average_nn_property) *)
Definition dir_of (s : string) : dir :=
  if String.eqb s "out" then Dout else if String.eqb s "in" then Din else if String.eqb s "out-in" then Doutin else Dother.

(** The attributes set so far. *)
(** sparse/graphs.py:229-235 (Graph.num_edges); sparse/graphs.py:237-243
    (Graph.total_weight); sparse/graphs.py:245-251 (Graph.degree);
    sparse/graphs.py:268-274 (Graph.strength) *)
Definition cache := string -> option gval.
Definition no_cache : cache := fun _ => None.
Definition set_attr (c : cache) (k : string) (v : gval) : cache := fun k' => if String.eqb k k' then Some v else c k'.

Section Object.
(** A graph: number of vertices, class, the body of each method (the attributes it assigns, in order,
    with their values), and the nearest neighbour average given the degrees to divide by. *)
Variables (N : nat) (directed : bool) (body : meas -> res (list (meas * gval)))
          (nn_body : dir -> (nat -> R) -> bool -> (nat -> R) -> res (nat -> R)).

(** [if not hasattr(self, name) or recompute: ...; return self.name]. *)
(** sparse/graphs.py:229-235 (Graph.num_edges); sparse/graphs.py:237-243
    (Graph.total_weight); sparse/graphs.py:245-251 (Graph.degree);
    sparse/graphs.py:268-274 (Graph.strength) *)
Definition get (m : meas) (recompute : bool) (c : cache) : res gval * cache :=
  match c (attr m), recompute with
  | Some v, false => (Ok v, c)
  | _, _ =>
      match body m with
      | Raise e => (Raise e, c)
      | Ok l =>
          let c := for_each l (fun p c => set_attr c (attr (fst p)) (snd p)) c in
          (match c (attr m) with Some v => Ok v | None => Raise AttributeError end, c)
      end
  end.

Definition as_vec (v : gval) : res (nat -> R) := match v with VVec x => Ok x | _ => Raise TypeError end.

(** The degree a direction refers to; undirected classes always use [degree]. *)
(** sparse/graphs.py:291-325 (Graph.average_nn_property);
    sparse/graphs.py:670-716 (DiGraph.average_nn_property) *)
Definition degree_of (d : dir) : option meas :=
  if directed then match d with Dout => Some MOutDegree | Din => Some MInDegree | Doutin => Some MDegree | Dother => None end
  else Some MDegree.

(** average_nn_property, sparse/graphs.py:291-325 and 670-716, on an object with caches. *)
Definition nn_property (len : nat) (prop : nat -> R) (ndir : string) (selfloops : option bool) (deg_recompute : bool)
    (c : cache) : res (nat -> R) * cache :=
  if Nat.eqb len N then
    match selfloops with
    | None => (Raise AttributeError, c)
    | Some sl =>
        match degree_of (dir_of ndir) with
        | None => (Raise ValueError, c)
        | Some m =>
            let (v, c) := get m deg_recompute c in
            (do v <- v ; do deg <- as_vec v ; nn_body (dir_of ndir) prop sl deg, c)
        end
    end
  else (Raise ValueError, c).

(** average_nn_degree, sparse/graphs.py:327-343 and 718-753. *)
Definition nn_degree (ndir ddir : string) (selfloops : option bool) (recompute deg_recompute : bool) (c : cache)
    : res gval * cache :=
  let name := nn_name directed ndir ddir in
  match c name, recompute || deg_recompute with
  | Some v, false => (Ok v, c)
  | _, _ =>
      match selfloops with
      | None => (Raise AttributeError, c)
      | Some sl =>
          match degree_of (dir_of ddir) with
          | None => (Raise ValueError, c)
          | Some m =>
              let (v, c) := get m deg_recompute c in
              match (do v <- v ; as_vec v) with
              | Raise e => (Raise e, c)
              | Ok deg =>
                  let (r, c) := nn_property N deg ndir (Some sl) false c in
                  match r with
                  | Raise e => (Raise e, c)
                  | Ok f => let c := set_attr c name (VVec f) in
                            (match c name with Some v => Ok v | None => Raise AttributeError end, c)
                  end
              end
          end
      end
  end.

Inductive query :=
| QMeasure (m : meas) (recompute : bool)
| QProperty (len : nat) (prop : nat -> R) (ndir : string) (selfloops : option bool) (deg_recompute : bool)
| QNnDegree (ndir ddir : string) (selfloops : option bool) (recompute deg_recompute : bool).

Definition ask (q : query) (c : cache) : res gval * cache :=
  match q with
  | QMeasure m r => get m r c
  | QProperty len prop ndir sl dr => let (r, c) := nn_property len prop ndir sl dr c in (do f <- r ; Ok (VVec f), c)
  | QNnDegree ndir ddir sl r dr => nn_degree ndir ddir sl r dr c
  end.

(** The caches after a sequence of queries on a new object. *)
(** sparse/graphs.py:229-235 (Graph.num_edges); sparse/graphs.py:237-243
    (Graph.total_weight); sparse/graphs.py:245-251 (Graph.degree);
    sparse/graphs.py:268-274 (Graph.strength) *)
Definition after (qs : list query) : cache := for_each qs (fun q c => snd (ask q c)) no_cache.
End Object.

(** * Sparse graphs *)

(** sparse/graphs.py:229-235 (Graph.num_edges); sparse/graphs.py:237-243
    (Graph.total_weight); sparse/graphs.py:245-251 (Graph.degree);
    sparse/graphs.py:268-274 (Graph.strength) *)
Definition ok_num (r : res R) : res gval := do x <- r ; Ok (VNum x).
Definition ok_vec (r : res (nat -> R)) : res gval := do x <- r ; Ok (VVec x).
Definition ok_sp (r : res spm) : res gval := do x <- r ; Ok (VSp x).
Definition ok_nums (r : res (list R)) : res gval := do x <- r ; Ok (VNums x).
Definition ok_vecs (r : res (list (nat -> R))) : res gval := do x <- r ; Ok (VVecs x).
Definition ok_mat (r : res (nat -> nat -> R)) : res gval := do x <- r ; Ok (VMat x).

(** sparse/graphs.py:16-431 (Graph); sparse/graphs.py:434-773 (DiGraph);
    sparse/graphs.py:776-1065 (MultiGraph); sparse/graphs.py:1068-1362
    (MultiDiGraph) *)
Definition sparse_compute (N : nat) (s : shape) (gr : grouping) (m : meas) : res gval :=
  match m with
  | MEdges => ok_num (num_edges N s) | MWeight => ok_num (total_weight N s)
  | MDegree => ok_vec (degree N s) | MDegreeGroup => ok_sp (degree_by_group N s gr)
  | MStrength => ok_vec (strength N s) | MStrengthGroup => ok_sp (strength_by_group N s gr)
  | MOutDegree => ok_vec (out_degree N s) | MInDegree => ok_vec (in_degree N s)
  | MOutDegreeGroup => ok_sp (out_degree_by_group N s gr) | MInDegreeGroup => ok_sp (in_degree_by_group N s gr)
  | MOutStrength => ok_vec (out_strength N s) | MInStrength => ok_vec (in_strength N s)
  | MOutStrengthGroup => ok_sp (out_strength_by_group N s gr) | MInStrengthGroup => ok_sp (in_strength_by_group N s gr)
  | MEdgesLabel => ok_nums (num_edges_label N s) | MWeightLabel => ok_nums (total_weight_label N s)
  | MDegreeLabel => ok_vecs (degree_by_label N s) | MStrengthLabel => ok_vecs (strength_by_label N s)
  | MOutDegreeLabel => ok_vecs (out_degree_by_label N s) | MInDegreeLabel => ok_vecs (in_degree_by_label N s)
  | MOutStrengthLabel => ok_vecs (out_strength_by_label N s) | MInStrengthLabel => ok_vecs (in_strength_by_label N s)
  end.

(** The bodies.  sparse/graphs.py:574-575, 583-584, 595-604, 615-624: the out and in versions are assigned together. *)
Definition sparse_out_in (N : nat) (s : shape) : res (list (meas * gval)) :=
  guard (is_directed s) AttributeError
  (do A <- adjacency_matrix N s true false ;
   Ok [(MOutDegree, VVec (sum_axis1 A)); (MInDegree, VVec (sum_axis0 N A))]).
Definition sparse_out_in_group (N : nat) (s : shape) (gr : grouping) : res (list (meas * gval)) :=
  guard (is_directed s) AttributeError
  (do A <- adjacency_matrix N s true false ;
   do o <- by_group N gr A to_int64 ;
   do i <- by_group N gr (sp_T N A) to_int64 ;
   Ok [(MOutDegreeGroup, VSp o); (MInDegreeGroup, VSp i)]).
Definition sparse_body (N : nat) (s : shape) (gr : grouping) (m : meas) : res (list (meas * gval)) :=
  match m with
  | MOutDegree | MInDegree => sparse_out_in N s
  | MOutDegreeGroup | MInDegreeGroup => sparse_out_in_group N s gr
  | m => do v <- sparse_compute N s gr m ; Ok [(m, v)]
  end.

(** sparse/graphs.py:313-325 and 690-716. *)
Definition sparse_nn_body (N : nat) (s : shape) (ndir : dir) (prop : nat -> R) (sl : bool) (deg : nat -> R) : res (nat -> R) :=
  let undirected := do A <- adjacency_matrix N s false false ; divide_by_degree N (av_nn_prop N (sp_row A) prop sl) deg in
  if is_directed s then
    match ndir with
    | Dout => do A <- adjacency_matrix N s true false ; divide_by_degree N (av_nn_prop N (sp_row A) prop sl) deg
    | Din => do A <- adjacency_matrix N s true false ; divide_by_degree N (av_nn_prop N (sp_row (sp_T N A)) prop sl) deg
    | Doutin => undirected
    | Dother => Raise ValueError
    end
  else undirected.

Definition sparse_ask (N : nat) (s : shape) (gr : grouping) : query -> cache -> res gval * cache :=
  ask N (is_directed s) (sparse_body N s gr) (sparse_nn_body N s).
Definition sparse_after (N : nat) (s : shape) (gr : grouping) : list query -> cache :=
  after N (is_directed s) (sparse_body N s gr) (sparse_nn_body N s).

(** * Dense graphs *)

(** Per label values, for each of the labels of the object. *)
(** graphs.py:896-904 (MultiGraph.num_edges_label); graphs.py:1168-1174
    (MultiDiGraph.num_edges_label) *)
Definition per_label {A : Type} (s : dshape) (f : nat -> res A) : res (list A) :=
  match s with
  | DMultiGraph n _ | DMultiDiGraph n _ =>
      fold_right (fun l acc => do x <- f l ; do t <- acc ; Ok (x :: t)) (Ok []) (seq 0 n)
  | _ => Raise AttributeError
  end.

(** graphs.py:16-394 (Graph); graphs.py:397-700 (DiGraph); graphs.py:703-969
    (MultiGraph); graphs.py:972-1253 (MultiDiGraph) *)
Definition dense_compute (N : nat) (w : bool) (s : dshape) (gr : grouping) (m : meas) : res gval :=
  match m with
  | MEdges => ok_num (Ok (d_num_edges N w s)) | MWeight => ok_num (Ok (d_total_weight N w s))
  | MDegree => ok_vec (Ok (d_degree N w s)) | MDegreeGroup => ok_mat (d_degree_by_group N w s gr)
  | MStrength => ok_vec (Ok (d_strength N w s)) | MStrengthGroup => ok_mat (d_strength_by_group N w s gr)
  | MOutDegree => ok_vec (d_out_degree N w s) | MInDegree => ok_vec (d_in_degree N w s)
  | MOutDegreeGroup => ok_mat (d_out_degree_by_group N w s gr) | MInDegreeGroup => ok_mat (d_in_degree_by_group N w s gr)
  | MOutStrength => ok_vec (d_out_strength N w s) | MInStrength => ok_vec (d_in_strength N w s)
  | MOutStrengthGroup => ok_mat (d_out_strength_by_group N w s gr) | MInStrengthGroup => ok_mat (d_in_strength_by_group N w s gr)
  | MEdgesLabel => ok_nums (per_label s (d_num_edges_label N w s)) | MWeightLabel => ok_nums (per_label s (d_total_weight_label N w s))
  | MDegreeLabel => ok_vecs (per_label s (d_degree_by_label N w s)) | MStrengthLabel => ok_vecs (per_label s (d_strength_by_label N w s))
  | MOutDegreeLabel => ok_vecs (guard (d_directed s) AttributeError (per_label s (d_out_degree_by_label N w s)))
  | MInDegreeLabel => ok_vecs (guard (d_directed s) AttributeError (per_label s (d_in_degree_by_label N w s)))
  | MOutStrengthLabel => ok_vecs (guard (d_directed s) AttributeError (per_label s (d_out_strength_by_label N s)))
  | MInStrengthLabel => ok_vecs (guard (d_directed s) AttributeError (per_label s (d_in_strength_by_label N s)))
  end.

(** The bodies.  graphs.py:536-537, 545-546, 554-555, 563-564, 1188-1189, 1197-1198. *)
Definition dense_out_in (N : nat) (w : bool) (s : dshape) : res (list (meas * gval)) :=
  guard (d_directed s) AttributeError
  (let A := d_adjacency w s true false in
   Ok [(MOutDegree, VVec (d_sum1 N A)); (MInDegree, VVec (d_sum0 N A))]).
Definition dense_out_in_group (N : nat) (w : bool) (s : dshape) (gr : grouping) : res (list (meas * gval)) :=
  guard (d_directed s) AttributeError
  (let A := d_adjacency w s true false in
   do o <- d_by_group N gr A ;
   do i <- d_by_group N gr (fun i j => A j i) ;
   Ok [(MOutDegreeGroup, VMat o); (MInDegreeGroup, VMat i)]).
Definition dense_out_in_label (N : nat) (w : bool) (s : dshape) : res (list (meas * gval)) :=
  match s with
  | DMultiDiGraph n adj =>
      let A := d_tensor w true adj true false in
      Ok [(MOutDegreeLabel, VVecs (map (fun l => d_sum1 N (A l)) (seq 0 n)));
          (MInDegreeLabel, VVecs (map (fun l => d_sum0 N (A l)) (seq 0 n)))]
  | _ => Raise AttributeError
  end.
Definition dense_body (N : nat) (w : bool) (s : dshape) (gr : grouping) (m : meas) : res (list (meas * gval)) :=
  match m with
  | MOutDegree | MInDegree => dense_out_in N w s
  | MOutDegreeGroup | MInDegreeGroup => dense_out_in_group N w s gr
  | MOutDegreeLabel | MInDegreeLabel => dense_out_in_label N w s
  | m => do v <- dense_compute N w s gr m ; Ok [(m, v)]
  end.

(** graphs.py:294-307 and 620-643. *)
Definition dense_nn_body (N : nat) (w : bool) (s : dshape) (ndir : dir) (prop : nat -> R) (sl : bool) (deg : nat -> R) : res (nat -> R) :=
  let undirected := divide_by_degree N (d_av_nn_prop N (d_adjacency w s false false) false prop sl) deg in
  if d_directed s then
    match ndir with
    | Dout => divide_by_degree N (d_av_nn_prop N (d_adjacency w s true false) false prop sl) deg
    | Din => divide_by_degree N (d_av_nn_prop N (fun i j => d_adjacency w s true false j i) true prop sl) deg
    | Doutin => undirected
    | Dother => Raise ValueError
    end
  else undirected.

Definition dense_ask (N : nat) (w : bool) (s : dshape) (gr : grouping) : query -> cache -> res gval * cache :=
  ask N (d_directed s) (dense_body N w s gr) (dense_nn_body N w s).
Definition dense_after (N : nat) (w : bool) (s : dshape) (gr : grouping) : list query -> cache :=
  after N (d_directed s) (dense_body N w s gr) (dense_nn_body N w s).
