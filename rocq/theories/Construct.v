(** The constructors of the models: which arguments are accepted, which exception
    is raised otherwise, and what the object then holds.

    Python values are described only as far as the constructors inspect them.
    Simplifications: the elements of lists are scalars; object arrays and objects of
    other types hold no numbers and have neither a length nor arithmetic; sparse
    matrices are numeric; the warning about ignored positional arguments is not
    modelled; arrays are values, so sharing with the caller's arrays is not visible. *)
From Coq Require Import ZArith String.
From Verif Require Import Base Num MultiKernels.

Open Scope R_scope.
Open Scope string_scope.
Open Scope list_scope.

(** * Python values *)

(** sparse/models/fitness.py:43-163 (FitnessModel.__init__) *)
Inductive scalar : Type :=
| SInt (z : Z)          (* Python int or numpy integer *)
| SFloat (x : num)      (* Python float or numpy floating *)
| SBool (b : bool)
| SText (s : string)
| SNone.

(** sparse/models/fitness.py:43-163 (FitnessModel.__init__) *)
Inductive dtype : Type := DInt | DFloat | DBool | DText | DObject.

(** sparse/models/fitness.py:43-163 (FitnessModel.__init__) *)
Inductive value : Type :=
| Sc (s : scalar)
| Seq (l : list scalar)                                     (* a list *)
| Arr (d : dtype) (shape : list nat) (data : list num)      (* an ndarray, row by row *)
| Csr (cols : nat) (rows : list svec)                       (* a sparse matrix *)
| Obj.                                                      (* anything else *)

(** The numeric value of a scalar, if it takes part in arithmetic. *)
(** sparse/models/fitness.py:43-163 (FitnessModel.__init__) *)
Definition sc_num (s : scalar) : option num :=
  match s with
  | SInt z => Some (Fin (IZR z))
  | SFloat x => Some x
  | SBool b => Some (Fin (b2r b))
  | SText _ | SNone => None
  end.

(** [np.issubdtype(dtype, np.number)] *)
(** sparse/models/fitness.py:43-163 (FitnessModel.__init__) *)
Definition is_numeric (d : dtype) : bool :=
  match d with DInt | DFloat => true | _ => false end.

(** Whether arithmetic and comparisons are defined on the elements. *)
(** sparse/models/fitness.py:43-163 (FitnessModel.__init__) *)
Definition has_arith (d : dtype) : bool :=
  match d with DInt | DFloat | DBool => true | _ => false end.

Definition prod_shape (sh : list nat) : nat := fold_right Nat.mul 1%nat sh.

(** [len(v)]; [None] stands for the TypeError of objects without a length. *)
(** sparse/models/fitness.py:43-163 (FitnessModel.__init__) *)
Definition py_len (v : value) : option nat :=
  match v with
  | Sc (SText s) => Some (String.length s)
  | Seq l => Some (length l)
  | Arr _ (n :: _) _ => Some n
  | _ => None
  end.

(** [v[0]] of an object of length one. *)
(** sparse/models/fitness.py:43-163 (FitnessModel.__init__) *)
Definition py_item0 (v : value) : value :=
  match v with
  | Seq (s :: _) => Sc s
  | Arr d [_] (x :: _) => Sc (if has_arith d then SFloat x else SNone)
  | Arr d (_ :: sh) data => Arr d sh data
  | _ => v
  end.

(** [v * 1.0]; [None] stands for TypeError. *)
(** sparse/models/fitness.py:43-163 (FitnessModel.__init__) *)
Definition py_times_one (v : value) : option value :=
  match v with
  | Sc s => match sc_num s with Some x => Some (Sc (SFloat x)) | None => None end
  | Arr d [] (x :: _) => if has_arith d then Some (Sc (SFloat x)) else None
  | Arr d sh data => if has_arith d then Some (Arr DFloat sh data) else None
  | Csr c rows => Some (Csr c rows)
  | Seq _ | Obj => None
  end.

Definition neg (x : num) : bool := nltb x (Fin 0).

(** The truth value of [v < 0] in an [if], for the results of [py_times_one]: an
    array of several elements and a sparse matrix other than 1 x 1 have none
    (ValueError); an empty array is false. *)
(** sparse/models/fitness.py:43-163 (FitnessModel.__init__) *)
Definition py_negative (v : value) : res bool :=
  match v with
  | Sc s => match sc_num s with Some x => Ok (neg x) | None => Raise TypeError end
  | Arr _ _ [] => Ok false
  | Arr _ _ [x] => Ok (neg x)
  | Csr 1 [row] => Ok (existsb (fun p => neg (snd p)) row)
  | Seq _ | Obj => Raise TypeError
  | Arr _ _ _ | Csr _ _ => Raise ValueError
  end.

(** [int(x)] of a finite float: the fractional part is dropped. *)
(** sparse/models/fitness.py:43-163 (FitnessModel.__init__) *)
Definition py_int (r : R) : Z :=
  if Rltb r 0 then (- Int_part (- r))%Z else Int_part r.

(** [assert n / int(n) == 1; n = int(n)] with every exception turned into a
    ValueError, then [if n <= 0: raise ValueError]
    (sparse/models/fitness.py:86-93). *)
Definition count_of_num (x : num) : res nat :=
  match x with
  | Fin r =>
      let z := py_int r in
      if (z =? 0)%Z then Raise ValueError
      else guard (Reqb (r / IZR z) 1) ValueError
             (guard (negb (z <=? 0)%Z) ValueError (Ok (Z.to_nat z)))
  | _ => Raise ValueError
  end.

(** The value checked as a number of vertices (sparse/models/fitness.py:86-93,
    sparse/models/random.py:75-82, sparse/models/conditional.py:114-121) or of labels
    (sparse/models/fitness.py:432-439).  [int] accepts an array of one element. *)
Definition count_arg (v : value) : res nat :=
  match v with
  | Sc s => match sc_num s with Some x => count_of_num x | None => Raise ValueError end
  | Arr d _ [x] => guard (has_arith d) ValueError (count_of_num x)
  | _ => Raise ValueError
  end.

(** The value checked as a single non-negative number: number of edges
    (sparse/models/fitness.py:130-145, 526-541; sparse/models/random.py:89-104;
    sparse/models/conditional.py:158-173), total weight (random.py:130-145). *)
Definition number_arg (v : value) : res value :=
  do w <- match py_len v with
          | Some n => if (n =? 1)%nat then Ok (py_item0 v) else Raise ValueError
          | None => Ok v
          end;
  match py_times_one w with
  | None => Raise ValueError
  | Some u => do b <- py_negative u; if b then Raise ValueError else Ok u
  end.

(** The type numpy gives to [np.array(l)] for a list of scalars. *)
(** sparse/models/fitness.py:43-163 (FitnessModel.__init__) *)
Definition dtype_of (l : list scalar) : dtype :=
  if existsb (fun s => match s with SNone => true | _ => false end) l then DObject
  else if existsb (fun s => match s with SText _ => true | _ => false end) l then DText
  else if existsb (fun s => match s with SFloat _ => true | _ => false end) l then DFloat
  else if existsb (fun s => match s with SInt _ => true | _ => false end) l then DInt
  else match l with [] => DFloat | _ => DBool end.

Definition nums_of (l : list scalar) : list num :=
  map (fun s => match sc_num s with Some x => x | None => NaN end) l.

(** An ndarray as held by the model: shape and elements, row by row. *)
(** sparse/models/fitness.py:43-163 (FitnessModel.__init__) *)
Definition nd : Type := (list nat * list num)%type.

(** The two checks on a parameter array (sparse/models/fitness.py:156-160). *)
Definition param_checks (d : dtype) (a : nd) : res nd :=
  guard (is_numeric d) ValueError
    (guard (negb (existsb neg (snd a))) ValueError (Ok a)).

(** FitnessModel and ConditionalInvariantModel: [param]
    (sparse/models/fitness.py:148-160, sparse/models/conditional.py:176-188).
    Anything that is not an ndarray [v] is replaced by [np.array([v])]. *)
Definition param_arg1 (v : value) : res nd :=
  match v with
  | Arr d (n :: sh) data =>
      guard (n =? 1)%nat ValueError (param_checks d (n :: sh, data))
  | Arr d [] _ => Raise TypeError
  | Sc s => param_checks (dtype_of [s]) ([1%nat], nums_of [s])
  | Seq l => param_checks (dtype_of l) ([1%nat; length l], nums_of l)
  | Csr _ _ | Obj => Raise ValueError
  end.

(** RandomDiGraph: [param], where [v] that is not an ndarray is replaced by
    [np.array([v, 0])] (sparse/models/random.py:107-119).  For a list this is ragged:
    ValueError, or an object array that is then rejected with ValueError. *)
Definition param_arg2 (v : value) : res nd :=
  match v with
  | Arr d (n :: sh) data =>
      guard (n =? 2)%nat ValueError (param_checks d (n :: sh, data))
  | Arr d [] _ => Raise TypeError
  | Sc s => param_checks (dtype_of [s; SInt 0]) ([2%nat], nums_of [s; SInt 0])
  | Seq _ | Csr _ _ | Obj => Raise ValueError
  end.

(** * Attributes and keyword arguments *)

(** The attributes of the object under construction; the latest assignment is first. *)
(** sparse/models/fitness.py:43-163 (FitnessModel.__init__) *)
Definition attrs : Type := list (string * value).

Fixpoint getattr (a : attrs) (name : string) : option value :=
  match a with
  | [] => None
  | (n, v) :: r => if String.eqb n name then Some v else getattr r name
  end.

Definition hasattr (a : attrs) (name : string) : bool :=
  match getattr a name with Some _ => true | None => false end.

Definition mem_name (name : string) (l : list string) : bool :=
  existsb (String.eqb name) l.

(** [for name in kwargs: ...] (sparse/models/fitness.py:76-80, 410-414;
    sparse/models/random.py:65-69; sparse/models/conditional.py:104-108) *)
Fixpoint apply_kwargs (allowed : list string) (kw : list (string * value)) (a : attrs)
  : res attrs :=
  match kw with
  | [] => Ok a
  | (name, v) :: r =>
      guard (mem_name name allowed) ValueError (apply_kwargs allowed r ((name, v) :: a))
  end.

(** A check applied to an attribute only if it has been set. *)
(** sparse/models/fitness.py:43-163 (FitnessModel.__init__) *)
Definition opt_arg {A} (f : value -> res A) (o : option value) : res (option A) :=
  match o with
  | None => Ok None
  | Some v => do x <- f v; Ok (Some x)
  end.

(** A required attribute ([if not hasattr(self, name): raise ValueError]). *)
(** sparse/models/fitness.py:43-163 (FitnessModel.__init__) *)
Definition required (a : attrs) (name : string) : res value :=
  match getattr a name with Some v => Ok v | None => Raise ValueError end.

Definition with_default (o : option value) (d : value) : value :=
  match o with Some v => v | None => d end.

(** * FitnessModel *)

(** What the constructor reads from a DiGraph: [g.num_vertices], [g.num_edges()],
    [g.out_strength()], [g.in_strength()], and [g.groups] if it has that attribute. *)
(** sparse/models/fitness.py:43-163 (FitnessModel.__init__) *)
Record digraph_data := {
  gd_vertices : nat;
  gd_edges : nat;
  gd_out : list num;
  gd_in : list num;
  gd_groups : option value
}.

(** A positional argument. *)
(** sparse/models/fitness.py:43-163 (FitnessModel.__init__) *)
Inductive arg : Type :=
| AGraph (g : digraph_data)
| AValue (v : value).

Definition float_array (l : list num) : value := Arr DFloat [length l] l.
Definition int_value (n : nat) : value := Sc (SInt (Z.of_nat n)).

(** sparse/models/fitness.py:56-59 *)
Definition graph_attrs (g : digraph_data) : attrs :=
  [("num_vertices", int_value (gd_vertices g)); ("num_edges", int_value (gd_edges g));
   ("prop_out", float_array (gd_out g)); ("prop_in", float_array (gd_in g))].

(** sparse/models/fitness.py:53-65 *)
Definition fitness_args (args : list arg) : res attrs :=
  match args with
  | [] => Ok []
  | AGraph g :: _ => Ok (graph_attrs g)
  | AValue _ :: _ => Raise ValueError
  end.

(** sparse/models/fitness.py:112-113, 118-119: [isinstance(x, np.ndarray)] and
    [x.shape == (num_vertices,)] *)
Definition prop_format (N : nat) (v : value) : res (dtype * list num) :=
  match v with
  | Arr d [n] data => guard (n =? N)%nat AssertionError (Ok (d, data))
  | _ => Raise AssertionError
  end.

(** sparse/models/fitness.py:123, 126: [np.all(x >= 0)], a TypeError for elements
    that have no order. *)
Definition prop_values (p : dtype * list num) : res (list num) :=
  guard (has_arith (fst p)) TypeError
    (guard (forallb (fun x => nleb (Fin 0) x) (snd p)) AssertionError (Ok (snd p))).

(** The object built by FitnessModel. *)
(** sparse/models/fitness.py:43-163 (FitnessModel.__init__) *)
Record fitness_state := {
  fs_vertices : nat;
  fs_out : list num;
  fs_in : list num;
  fs_selfloops : value;
  fs_edges : option value;
  fs_param : option nd
}.

(** sparse/models/fitness.py:68-75 *)
Definition fitness_allowed : list string :=
  ["num_vertices"; "num_edges"; "prop_out"; "prop_in"; "param"; "selfloops"].

(** sparse/models/fitness.py:83-163, on the attributes set so far.  A [prop_out] that
    has not been set is the [empty_index] of the base class, tested at 95-103. *)
Definition fitness_checks (a : attrs) : res fitness_state :=
  do vn <- required a "num_vertices";
  do N <- count_arg vn;
  do vo <- required a "prop_out";
  do vi <- required a "prop_in";
  let selfloops := with_default (getattr a "selfloops") (Sc (SBool false)) in
  do po <- prop_format N vo;
  do pi <- prop_format N vi;
  do out <- prop_values po;
  do inn <- prop_values pi;
  do edges <- opt_arg number_arg (getattr a "num_edges");
  do param <- opt_arg param_arg1 (getattr a "param");
  guard (hasattr a "num_edges" || hasattr a "param") ValueError
    (Ok {| fs_vertices := N; fs_out := out; fs_in := inn; fs_selfloops := selfloops;
           fs_edges := edges; fs_param := param |}).

(** FitnessModel.__init__ (sparse/models/fitness.py:43-163; models.py:1064-1184 is the
    same text). *)
Definition fitness_init (args : list arg) (kw : list (string * value)) : res fitness_state :=
  do a0 <- fitness_args args;
  do a <- apply_kwargs fitness_allowed kw a0;
  fitness_checks a.

(** * RandomDiGraph *)

(** What the constructor reads from a Graph; the total weight only if [g.weighted]. *)
(** sparse/models/random.py:37-145 (RandomDiGraph.__init__) *)
Record random_data := {
  rd_vertices : nat;
  rd_edges : nat;
  rd_weight : option num
}.

Inductive rarg : Type :=
| RGraph (g : random_data)
| RValue (v : value).

(** sparse/models/random.py:44-48 *)
Definition random_attrs (g : random_data) : attrs :=
  (match rd_weight g with Some w => [("total_weight", Sc (SFloat w))] | None => [] end)
  ++ [("num_vertices", int_value (rd_vertices g)); ("num_edges", int_value (rd_edges g))].

(** sparse/models/random.py:41-54 *)
Definition random_args (args : list rarg) : res attrs :=
  match args with
  | [] => Ok []
  | RGraph g :: _ => Ok (random_attrs g)
  | RValue _ :: _ => Raise ValueError
  end.

Record random_state := {
  rs_vertices : nat;
  rs_selfloops : value;
  rs_edges : option value;
  rs_param : option nd;
  rs_discrete : option value;
  rs_weight : option value
}.

(** sparse/models/random.py:57-64 *)
Definition random_allowed : list string :=
  ["num_vertices"; "num_edges"; "param"; "selfloops"; "total_weight"; "discrete_weights"].

(** sparse/models/random.py:71-145 *)
Definition random_checks (a : attrs) : res random_state :=
  do vn <- required a "num_vertices";
  do N <- count_arg vn;
  let selfloops := with_default (getattr a "selfloops") (Sc (SBool false)) in
  do edges <- opt_arg number_arg (getattr a "num_edges");
  do param <- opt_arg param_arg2 (getattr a "param");
  guard (hasattr a "num_edges" || hasattr a "param") ValueError
    (let discrete :=
       match getattr a "discrete_weights" with
       | Some v => Some v
       | None => if hasattr a "total_weight" then Some (Sc (SBool false)) else None
       end in
     do weight <- opt_arg number_arg (getattr a "total_weight");
     Ok {| rs_vertices := N; rs_selfloops := selfloops; rs_edges := edges;
           rs_param := param; rs_discrete := discrete; rs_weight := weight |}).

(** RandomDiGraph.__init__ (sparse/models/random.py:37-145; models.py:577-685 is the
    same text). *)
Definition random_init (args : list rarg) (kw : list (string * value)) : res random_state :=
  do a0 <- random_args args;
  do a <- apply_kwargs random_allowed kw a0;
  random_checks a.

(** * ConditionalInvariantModel *)

(** The second positional argument: a DiGraph, whose adjacency matrix is taken, or a
    matrix (sparse/models/conditional.py:76-87). *)
Inductive carg : Type :=
| CGraph (g : digraph_data) (adj : value)
| CValue (v : value).

(** sparse/models/conditional.py:64-71 *)
Definition cond_graph_attrs (g : digraph_data) : attrs :=
  (match gd_groups g with Some v => [("groups", v)] | None => [] end) ++ graph_attrs g.

(** sparse/models/conditional.py:64-91 *)
Definition cond_args (args : list carg) : res attrs :=
  match args with
  | [] => Ok []
  | CValue _ :: _ => Raise ValueError
  | CGraph g _ :: r =>
      match r with
      | [] => Ok (cond_graph_attrs g)
      | CGraph _ adj :: _ => Ok (("adj", adj) :: cond_graph_attrs g)
      | CValue (Arr d sh data) :: _ => Ok (("adj", Arr d sh data) :: cond_graph_attrs g)
      | CValue (Csr c rows) :: _ => Ok (("adj", Csr c rows) :: cond_graph_attrs g)
      | CValue _ :: _ => Raise ValueError
      end
  end.

(** [sp.csr_array] of a dense row: the labelled non-zero entries (nan is kept). *)
(** sparse/models/fitness.py:370-576 (MultiFitnessModel.__init__) *)
Definition dense_row (c : nat) (f : nat -> num) : svec :=
  flat_map (fun j => if is0 (f j) then [] else [(j, f j)]) (seq 0 c).

(** [sp.csr_array] of an [r] x [c] array given row by row. *)
(** sparse/models/fitness.py:370-576 (MultiFitnessModel.__init__) *)
Definition dense_rows (r c : nat) (data : list num) : list svec :=
  map (fun i => dense_row c (fun j => nth (i * c + j) data NaN)) (seq 0 r).

(** [if not sp.issparse(self.adj): self.adj = sp.csr_array(self.adj)]
    (sparse/models/conditional.py:201-202): the number of columns and the rows.  Up to
    one dimension gives a single row. *)
Definition adj_arg (v : value) : res (nat * list svec) :=
  match v with
  | Csr c rows => Ok (c, rows)
  | Arr d [r; c] data => guard (has_arith d) TypeError (Ok (c, dense_rows r c data))
  | Arr d [c] data => guard (has_arith d) TypeError (Ok (c, dense_rows 1 c data))
  | Arr d [] data => guard (has_arith d) TypeError (Ok (1%nat, dense_rows 1 1 data))
  | Arr _ _ _ => Raise TypeError
  | Seq l => guard (has_arith (dtype_of l)) TypeError
               (Ok (length l, dense_rows 1 (length l) (nums_of l)))
  | Sc s => guard (has_arith (dtype_of [s])) TypeError
               (Ok (1%nat, dense_rows 1 1 (nums_of [s])))
  | Obj => Raise TypeError
  end.

(** [isinstance(groups[0], (int, np.integer))] (conditional.py:208-210) *)
Definition first_is_int (v : value) : res bool :=
  match v with
  | Seq [] => Raise IndexError
  | Seq (s :: _) => Ok (match s with SInt _ | SBool _ => true | _ => false end)
  | Arr _ [] _ | Arr _ (O :: _) _ => Raise IndexError
  | Arr d [_] _ => Ok (match d with DInt => true | _ => false end)
  | Arr _ _ _ => Ok false
  | Sc (SText "") => Raise IndexError
  | Sc (SText _) => Ok false
  | Sc _ | Obj => Raise TypeError
  | Csr _ [] => Raise IndexError
  | Csr _ _ => Ok false
  end.

(** numpy's maximum of two numbers: nan if either is. *)
(** sparse/models/conditional.py:48-213 (ConditionalInvariantModel.__init__)
    *)
Definition nmax2 (a b : num) : num :=
  match a, b with
  | NaN, _ | _, NaN => NaN
  | _, _ => if nltb a b then b else a
  end.

(** [np.max(groups)]; it is only reached on a non-empty list or array of dimension 1.
    ([np.max] of a list with text or None elements is a TypeError.) *)
(** sparse/models/conditional.py:48-213 (ConditionalInvariantModel.__init__)
    *)
Definition group_max (v : value) : res num :=
  match v with
  | Seq l => guard (has_arith (dtype_of l)) TypeError
               (match nums_of l with
                | [] => Raise ValueError
                | x :: t => Ok (fold_left nmax2 t x)
                end)
  | Arr d _ data => guard (has_arith d) TypeError
               (match data with
                | [] => Raise ValueError
                | x :: t => Ok (fold_left nmax2 t x)
                end)
  | _ => Raise TypeError
  end.

Record cond_state := {
  cs_base : fitness_state;
  cs_groups : value;
  cs_num_groups : nat;
  cs_adj_cols : nat;
  cs_adj : list svec
}.

(** sparse/models/conditional.py:94-103 *)
Definition cond_allowed : list string :=
  ["num_vertices"; "num_edges"; "prop_out"; "prop_in"; "groups"; "adj"; "param";
   "selfloops"].

(** sparse/models/conditional.py:193-213, after the checks shared with FitnessModel
    (111-191, the same text as fitness.py:83-163). *)
Definition cond_checks (a : attrs) : res cond_state :=
  do b <- fitness_checks a;
  do vadj <- required a "adj";
  do groups <- required a "groups";
  do m <- adj_arg vadj;
  let num_groups := length (snd m) in
  guard (fst m =? num_groups)%nat AssertionError
    (do i <- first_is_int groups;
     guard i AssertionError
       (do g <- group_max groups;
        guard (neqb (nadd g (Fin 1)) (Fin (INR num_groups))) AssertionError
          (Ok {| cs_base := b; cs_groups := groups; cs_num_groups := num_groups;
                 cs_adj_cols := fst m; cs_adj := snd m |}))).

(** ConditionalInvariantModel.__init__ (sparse/models/conditional.py:48-213) *)
Definition cond_init (args : list carg) (kw : list (string * value)) : res cond_state :=
  do a0 <- cond_args args;
  do a <- apply_kwargs cond_allowed kw a0;
  cond_checks a.

(** * MultiFitnessModel *)

(** What the constructor reads from a MultiDiGraph (sparse/models/fitness.py:383-390):
    the per-label strengths are sparse matrices of [md_labels] columns. *)
Record multi_data := {
  md_vertices : nat;
  md_labels : nat;
  md_edges : nat;
  md_edges_label : list num;
  md_out : list svec;
  md_in : list svec
}.

Inductive marg : Type :=
| MGraph (g : multi_data)
| MValue (v : value).

(** sparse/models/fitness.py:384-390 *)
Definition multi_attrs (g : multi_data) : attrs :=
  [("num_vertices", int_value (md_vertices g)); ("num_labels", int_value (md_labels g));
   ("num_edges", int_value (md_edges g));
   ("num_edges_label", Arr DInt [length (md_edges_label g)] (md_edges_label g));
   ("prop_out", Csr (md_labels g) (md_out g)); ("prop_in", Csr (md_labels g) (md_in g));
   ("per_label", Sc (SBool true))].

(** sparse/models/fitness.py:381-396 *)
Definition multi_args (args : list marg) : res attrs :=
  match args with
  | [] => Ok []
  | MGraph g :: _ => Ok (multi_attrs g)
  | MValue _ :: _ => Raise ValueError
  end.

(** sparse/models/fitness.py:399-409 *)
Definition multi_allowed : list string :=
  ["num_vertices"; "num_edges"; "num_edges_label"; "num_labels"; "prop_out"; "prop_in";
   "param"; "selfloops"; "per_label"].

(** sparse/models/fitness.py:459-460, 466-467: an ndarray or a sparse matrix of shape
    (num_vertices, num_labels). *)
Definition matrix_format (N L : nat) (v : value) : res value :=
  match v with
  | Arr d [r; c] data => guard ((r =? N) && (c =? L))%nat AssertionError (Ok v)
  | Csr c rows => guard ((length rows =? N) && (c =? L))%nat AssertionError (Ok v)
  | _ => Raise AssertionError
  end.

(** [sp.csr_array(x)] (sparse/models/fitness.py:470-471) *)
Definition to_csr (v : value) : res (list svec) :=
  match v with
  | Arr d [r; c] data => guard (has_arith d) TypeError (Ok (dense_rows r c data))
  | Csr _ rows => Ok rows
  | _ => Raise TypeError
  end.

(** [np.any(x.data < 0)] (sparse/models/fitness.py:474, 477) *)
Definition rows_negative (rows : list svec) : bool :=
  existsb (existsb (fun p => neg (snd p))) rows.

(** The array test on [num_edges] (sparse/models/fitness.py:490-506): the new values of
    [num_edges] and [num_edges_label]. *)
Definition edges_array (L : nat) (edges labels : option value)
  : res (option value * option value) :=
  match edges with
  | Some (Arr d sh data) =>
      match sh with
      | [] => Raise TypeError
      | n :: _ =>
          if (n =? L)%nat
          then match labels with
               | None => Ok (edges, edges)
               | Some _ => Raise ValueError
               end
          else if (n =? 1)%nat then Ok (Some (py_item0 (Arr d sh data)), labels)
          else Raise ValueError
      end
  | _ => Ok (edges, labels)
  end.

(** The tests on [num_edges_label] (sparse/models/fitness.py:512-522): anything of the
    right length that is not an ndarray has no [dtype] (AttributeError). *)
Definition label_counts (L : nat) (v : value) : res nd :=
  match py_len v with
  | None => Raise TypeError
  | Some n =>
      guard (n =? L)%nat ValueError
        (match v with
         | Arr d sh data =>
             guard (is_numeric d) ValueError
               (guard (negb (existsb neg data)) ValueError (Ok (sh, data)))
         | _ => Raise AttributeError
         end)
  end.

(** [np.array([p for p in self.param])], or [np.array([self.param])] if that fails
    (sparse/models/fitness.py:547-551). *)
Definition param_array (v : value) : dtype * list nat * list num :=
  match v with
  | Arr d sh data => (d, sh, data)
  | Seq l => (dtype_of l, [length l], nums_of l)
  | Sc (SText s) => (match s with EmptyString => DFloat | _ => DText end, [String.length s], [])
  | Sc s => (dtype_of [s], [1%nat], nums_of [s])
  | Csr _ rows => (DObject, [length rows], [])
  | Obj => (DObject, [1%nat], [])
  end.

(** sparse/models/fitness.py:545-566: whether a parameter per label was given, and the
    parameters. *)
Definition multi_param (L : nat) (v : value) : res (bool * nd) :=
  let '(d, sh, data) := param_array v in
  match sh with
  | [] => Raise TypeError
  | n :: r =>
      if (n =? 1)%nat
      then do a <- param_checks d (L :: r, concat (repeat data L)); Ok (false, a)
      else guard (n =? L)%nat ValueError
             (do a <- param_checks d (n :: r, data); Ok (true, a))
  end.

Record multi_state := {
  ms_vertices : nat;
  ms_labels : nat;
  ms_out : list svec;
  ms_in : list svec;
  ms_selfloops : value;
  ms_edges : option value;
  ms_edges_label : option nd;
  ms_param : option nd;
  ms_per_label : value
}.

(** sparse/models/fitness.py:510-541: [num_edges_label] is checked if set, else
    [num_edges]. *)
Definition edges_checks (L : nat) (edges labels : option value)
  : res (option value * option nd) :=
  match labels with
  | Some v => do n <- label_counts L v; Ok (edges, Some n)
  | None =>
      match edges with
      | Some v => do u <- number_arg v; Ok (Some u, None)
      | None => Ok (None, None)
      end
  end.

(** sparse/models/fitness.py:416-576, on the attributes set so far; [kw_label] is the
    [per_label] keyword, if given.  The assignments to [per_label] at 511, 525, 546, 553
    and 576 are collected at the end. *)
Definition multi_checks (a : attrs) (kw_label : option value) : res multi_state :=
  do vn <- required a "num_vertices";
  do N <- count_arg vn;
  do vl <- required a "num_labels";
  do L <- count_arg vl;
  do vo <- required a "prop_out";
  do vi <- required a "prop_in";
  let selfloops := with_default (getattr a "selfloops") (Sc (SBool false)) in
  do mo <- matrix_format N L vo;
  do mi <- matrix_format N L vi;
  do out <- to_csr mo;
  do inn <- to_csr mi;
  guard (negb (rows_negative out)) ValueError
   (guard (negb (rows_negative inn)) ValueError
     (do e <- edges_array L (getattr a "num_edges") (getattr a "num_edges_label");
      do c <- edges_checks L (fst e) (snd e);
      do p <- opt_arg (multi_param L) (getattr a "param");
      match fst c, snd c, p with
      | None, None, None => Raise ValueError
      | edges, labels, _ =>
          let by_label :=
            match p with
            | Some (b, _) => b
            | None => match labels with Some _ => true | None => false end
            end in
          Ok {| ms_vertices := N; ms_labels := L; ms_out := out; ms_in := inn;
                ms_selfloops := selfloops; ms_edges := edges; ms_edges_label := labels;
                ms_param := match p with Some (_, x) => Some x | None => None end;
                ms_per_label := with_default kw_label (Sc (SBool by_label)) |}
      end)).

(** MultiFitnessModel.__init__ (sparse/models/fitness.py:370-576) *)
Definition multi_init (args : list marg) (kw : list (string * value)) : res multi_state :=
  do a0 <- multi_args args;
  do a <- apply_kwargs multi_allowed kw a0;
  multi_checks a (getattr kw "per_label").
