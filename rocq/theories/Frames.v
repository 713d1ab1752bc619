(** The data frames given to the constructors of graphs: which columns are read, and the helper columns that are
    written into the caller's frames.  sparse/graphs.py:95-192 and 889-942; graphs.py:95-185 and 818-852 read and write the
    same columns.

    Simplifications: column names are strings, without repetition in a frame; [weight] is one column; the row index
    plays no role (columns are lists in row order); a frame has fewer than 2^64 rows. *)
From Verif Require Import Base Num Ids.
From Coq Require Import String List.
Open Scope string_scope.

(** How columns are designated by the caller: a string or a list of strings. *)
(** sparse/graphs.py:70-211 (Graph.__init__) *)
Inductive column := One (c : string) | Many (cs : list string).

(** sparse/graphs.py:98-108, 893-895: lists of one element are replaced by the element. *)
Definition extract (c : column) : column := match c with Many [x] => One x | _ => c end.

Record args := mkArgs {
  a_id : column; a_src : column; a_dst : column; a_weight : option string; a_group : option column; a_label : option column
}.

Section Frames.
(** Cells are values of a type [K] with numpy's order; [pos] embeds the internal indices, [none] is a missing
    value, [tuple] makes a compound value of several cells and [number] reads a weight. *)
Context {K : Type} (leb : K -> K -> bool) (pos : nat -> K) (none : K) (tuple : list K -> K) (number : K -> R).

(** sparse/graphs.py:70-211 (Graph.__init__) *)
Record frame := mkFrame { f_rows : nat; f_cols : list (string * list K) }.

(** [f[c]] *)
(** sparse/graphs.py:70-211 (Graph.__init__) *)
Fixpoint get_col (cols : list (string * list K)) (c : string) : res (list K) :=
  match cols with
  | [] => Raise KeyError
  | (n, l) :: t => if String.eqb n c then Ok l else get_col t c
  end.
(** [f[c] = l]: an existing column is replaced, otherwise a column is appended. *)
(** sparse/graphs.py:70-211 (Graph.__init__) *)
Fixpoint assign (cols : list (string * list K)) (c : string) (l : list K) : list (string * list K) :=
  match cols with
  | [] => [(c, l)]
  | (n, l') :: t => if String.eqb n c then (n, l) :: t else (n, l') :: assign t c l
  end.
Definition set_col (f : frame) (c : string) (l : list K) : frame := mkFrame (f_rows f) (assign (f_cols f) c l).

Fixpoint get_cols (cols : list (string * list K)) (cs : list string) : res (list (list K)) :=
  match cs with
  | [] => Ok []
  | c :: t => do l <- get_col cols c ; do r <- get_cols cols t ; Ok (l :: r)
  end.

(** [f[c]] or [list(zip( *[f[x] for x in cs]))] (sparse/graphs.py:118-121, 137-140, 154-159, 898-901).  The zip of no
    columns is empty and cannot be assigned to a frame with rows. *)
Definition read_col (f : frame) (c : column) : res (list K) :=
  match c with
  | One n => get_col (f_cols f) n
  | Many cs =>
      do ls <- get_cols (f_cols f) cs ;
      match cs with
      | [] => guard (Nat.eqb (f_rows f) 0) ValueError (Ok [])
      | _ => Ok (map (fun r => tuple (map (fun l => nth r l none) ls)) (seq 0 (f_rows f)))
      end
  end.

(** [v.set_index(keys).sort_index()]: the order of the rows, and the frame in this order. *)
(** sparse/graphs.py:70-211 (Graph.__init__) *)
Definition row_order (keys : list nat) : list nat :=
  map (fun kr => fst (snd kr)) (sort_index (combine keys (map (fun r => (r, tt)) (seq 0 (length keys))))).
Definition reorder (f : frame) (order : list nat) : frame :=
  mkFrame (f_rows f) (map (fun nl => (fst nl, map (fun r => nth r (snd nl) none) order)) (f_cols f)).

(** A column after [.map(lambda x: d.get(x))] *)
(** sparse/graphs.py:70-211 (Graph.__init__) *)
Definition map_get (d : dict K) (col : list K) : list (option nat) := map (dict_get leb d) col.
Definition cells (col : list (option nat)) : list K := map (fun o => match o with Some i => pos i | None => none end) col.

(** The constructed object: the attributes of Ids.v; for the multi-label classes also label_dict, lbl_array and the
    weights stored in the layers. *)
(** sparse/graphs.py:70-211 (Graph.__init__); sparse/graphs.py:862-942
    (MultiGraph.__init__) *)
Record built := mkBuilt { b_base : base K K; b_labels : option (dict K * list nat * list R) }.

(** What a constructor call leaves: its result and the two frames of the caller. *)
(** sparse/graphs.py:70-211 (Graph.__init__); sparse/graphs.py:862-942
    (MultiGraph.__init__) *)
Definition outcome : Type := (res built * frame * frame)%type.
Definition after {A} (r : res A) (v e : frame) (k : A -> outcome) : outcome :=
  match r with Ok a => k a | Raise x => (Raise x, v, e) end.

Definition is_list (c : column) : bool := match c with One _ => false | Many _ => true end.

(** sparse/graphs.py:115-133: the helper column [_node] is written into the caller's frame; [v] is then a new frame.
    Every exception but ValueError becomes a plain Exception. *)
Definition read_vertices (v : frame) (v_id : column) : res (dict K * list nat) * frame :=
  let rename {A} (r : res A) := match r with Raise ValueError => Raise ValueError | Raise _ => Raise GenericException | _ => r end in
  match read_col v v_id with
  | Raise x => (rename (Raise x), v)
  | Ok ids =>
      let v := set_col v "_node" ids in
      (rename (do id_dict <- generate_id_dict leb ids true ;
               Ok (id_dict, row_order (map mapped (map_get id_dict ids)))), v)
  end.

(** sparse/graphs.py:135-150, on the new frame *)
Definition read_groups (v : frame) (v_group : option column) : res (option (dict K * list nat)) :=
  match v_group with
  | None => Ok None
  | Some c =>
      do col <- read_col v c ;
      do group_dict <- generate_id_dict leb col false ;
      let num_bytes := get_num_bytes (length group_dict) in
      Ok (Some (group_dict, map (fun o => astype_u num_bytes (mapped o)) (map_get group_dict col)))
  end.

(** Graph.__init__, sparse/graphs.py:98-192 *)
Definition graph_init (a : args) (v e : frame) (k : base K K -> frame -> frame -> outcome) : outcome :=
  let num_vertices := f_rows v in
  let id_bytes := get_num_bytes num_vertices in
  let (rv, v) := read_vertices v (extract (a_id a)) in
  after rv v e (fun '(id_dict, order) =>
  after (read_groups (reorder v order) (option_map extract (a_group a))) v e (fun groups =>
  let src := extract (a_src a) in
  let dst := extract (a_dst a) in
  if negb (Bool.eqb (is_list src) (is_list dst)) then (Raise ValueError, v, e) else
  after (read_col e src) v e (fun c =>
  let e := set_col e "_src" c in
  after (read_col e dst) v e (fun c =>
  let e := set_col e "_dst" c in
  after (get_col (f_cols e) "_src") v e (fun c =>
  let src := map_get id_dict c in
  let e := set_col e "_src" (cells src) in
  after (get_col (f_cols e) "_dst") v e (fun c =>
  let dst := map_get id_dict c in
  let e := set_col e "_dst" (cells dst) in
  after (any_isnan src) v e (fun nan_src =>
  after (if nan_src then Ok true else any_isnan dst) v e (fun nan_any =>
  if nan_any then (Raise AssertionError, v, e) else
  let src_array := map (fun o => astype_u id_bytes (mapped o)) src in
  let dst_array := map (fun o => astype_u id_bytes (mapped o)) dst in
  match a_weight a with
  | Some w =>
      after (get_col (f_cols e) w) v e (fun c =>
      let val_array := map number c in
      if negb (forallb (fun x => Rltb 0 x) val_array) then (Raise AssertionError, v, e) else
      k (mkBase num_vertices id_dict groups true (combine (combine src_array dst_array) val_array)) v e)
  | None => k (mkBase num_vertices id_dict groups false (combine (combine src_array dst_array) (map (fun _ => 1) src_array))) v e
  end)))))))).

(** The label part of MultiGraph.__init__, sparse/graphs.py:893-942.  The columns [_src] and [_dst] are not written in
    between, so the arrays of endpoints are those of [b]; the weights are read again. *)
Definition label_init (a : args) (c : column) (b : base K K) (v e : frame) : outcome :=
  after (read_col e (extract c)) v e (fun col =>
  let e := set_col e "_label" col in
  after (generate_id_dict leb col false) v e (fun label_dict =>
  let num_bytes := get_num_bytes (length label_dict) in
  let lbl := map_get label_dict col in
  let e := set_col e "_label" (cells lbl) in
  let lbl_array := map (fun o => astype_u num_bytes (mapped o)) lbl in
  match a_weight a with
  | Some w => after (get_col (f_cols e) w) v e (fun c => (Ok (mkBuilt b (Some (label_dict, lbl_array, map number c))), v, e))
  | None => (Ok (mkBuilt b (Some (label_dict, lbl_array, map (fun _ => 1) lbl_array))), v, e)
  end)).

(** A constructor call *)
(** sparse/graphs.py:70-211 (Graph.__init__); sparse/graphs.py:503-530
    (DiGraph.__init__); sparse/graphs.py:862-942 (MultiGraph.__init__);
    sparse/graphs.py:1178-1214 (MultiDiGraph.__init__) *)
Definition construct (a : args) (v e : frame) : outcome :=
  graph_init a v e (fun b v e =>
  match a_label a with
  | None => (Ok (mkBuilt b None), v, e)
  | Some c => label_init a c b v e
  end).

(** Several calls on the same frames. *)
(** sparse/graphs.py:70-211 (Graph.__init__); sparse/graphs.py:862-942
    (MultiGraph.__init__) *)
Fixpoint construct_all (l : list args) (v e : frame) : list (res built) * frame * frame :=
  match l with
  | [] => ([], v, e)
  | a :: t => match construct a v e with
              | (r, v, e) => match construct_all t v e with (rs, v, e) => (r :: rs, v, e) end
              end
  end.
End Frames.
Arguments frame : clear implicits.
Arguments built : clear implicits.
Arguments outcome : clear implicits.
