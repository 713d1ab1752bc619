(** Tables to internal indices: models the constructor shared by all graph classes,
    /repo/src/graph_ensembles/sparse/graphs.py 70-211 (the code of
    /repo/src/graph_ensembles/graphs.py 95-173 is identical up to the adjacency matrix) and the label
    part of MultiGraph.__init__ (sparse/graphs.py 893-912).

    Simplifications, also in DESIGN.md: a table is the list of its rows; identifiers, group names and
    labels are values of types with a total order [leb] (numpy's sort order), on which Python equality
    is equality; compound identifiers (a list of columns, zipped to tuples) are values of such a type
    too; the columns that are passed exist; tables have fewer than 2^64 rows, so that the unsigned
    dtype asked for exists; the caller's tables, which the constructor extends with helper columns,
    are modelled in Frames.v. *)
From Verif Require Import Base Num.
From Coq Require Import ZArith.

Section Order.
Context {K : Type} (leb : K -> K -> bool).

(** Python [==] on keys. *)
(** sparse/graphs.py:371-384 (Graph.generate_id_dict) *)
Definition same (x y : K) : bool := leb x y && leb y x.

(** [np.unique(col)]: the distinct values in increasing order. *)
(** sparse/graphs.py:371-384 (Graph.generate_id_dict) *)
Fixpoint insert_unique (x : K) (l : list K) : list K :=
  match l with
  | [] => [x]
  | y :: t => if leb x y then (if leb y x then l else x :: l) else y :: insert_unique x t
  end.
Definition np_unique (col : list K) : list K := fold_right insert_unique [] col.

(** The counts returned by [np.unique(col, return_counts=True)]. *)
(** sparse/graphs.py:371-384 (Graph.generate_id_dict) *)
Definition count_of (col : list K) (x : K) : nat := length (filter (same x) col).

(** A dictionary from keys to positions is the list of its items in insertion order. *)
(** sparse/graphs.py:371-384 (Graph.generate_id_dict) *)
Definition dict := list (K * nat).
Fixpoint dict_get (d : dict) (x : K) : option nat :=
  match d with
  | [] => None
  | (y, i) :: t => if same x y then Some i else dict_get t x
  end.

(** sparse/graphs.py 370-384, [generate_id_dict]; the keys are distinct, so every assignment of the
    loop (381-382) appends an item. *)
Definition generate_id_dict (col : list K) (check_unique : bool) : res dict :=
  let ids := np_unique col in
  guard (negb check_unique || forallb (fun x => Nat.eqb (count_of col x) 1) ids) AssertionError
    (Ok (combine ids (seq 0 (length ids)))).
End Order.
Arguments dict : clear implicits.

(** [np.ceil] and [int] (truncation; only applied to non-negative numbers here). *)
(** sparse/graphs.py:366-368 (Graph.get_num_bytes) *)
Definition np_ceil (x : R) : Z := (- Int_part (- x))%Z.
Definition np_log2 (x : R) : R := ln x / ln 2.

(** sparse/graphs.py 365-368, [get_num_bytes].  For [num_items = 0] the inner logarithm is 0, the outer
    one minus infinity, and [2 ** -inf] is 0. *)
Definition get_num_bytes (num_items : nat) : nat :=
  let t := np_log2 (INR num_items + 1) / 8 in
  let two_to := if Reqb t 0 then 0 else powerRZ 2 (np_ceil (np_log2 t)) in
  Z.to_nat (Int_part (Rmax two_to 1)).

(** [.astype("u" + str(num_bytes))] on a non-negative integer: reduction modulo 256^num_bytes. *)
(** sparse/graphs.py:70-211 (Graph.__init__) *)
Definition astype_u (num_bytes : nat) (x : nat) : nat := (x mod 256 ^ num_bytes)%nat.

Section Tables.
Context {ID G Lb : Type} (leb_id : ID -> ID -> bool) (leb_g : G -> G -> bool) (leb_l : Lb -> Lb -> bool).

(** A row of the vertex table is the pair of its identifier and its group; a row of the edge table: *)
(** sparse/graphs.py:70-211 (Graph.__init__) *)
Record erow := mkRow { r_src : ID; r_dst : ID; r_weight : R; r_label : Lb }.

(** [v.set_index(keys).sort_index()]: insertion sort on the keys. *)
(** sparse/graphs.py:70-211 (Graph.__init__) *)
Fixpoint insert_row (k : nat) (r : ID * G) (l : list (nat * (ID * G))) : list (nat * (ID * G)) :=
  match l with
  | [] => [(k, r)]
  | (k', r') :: t => if Nat.leb k k' then (k, r) :: l else (k', r') :: insert_row k r t
  end.
Definition sort_index (l : list (nat * (ID * G))) : list (nat * (ID * G)) :=
  fold_right (fun kr acc => insert_row (fst kr) (snd kr) acc) [] l.

(** Values looked up in a dictionary that has all the keys. *)
(** sparse/graphs.py:70-211 (Graph.__init__) *)
Definition mapped (o : option nat) : nat := match o with Some i => i | None => 0%nat end.

(** [np.any(np.isnan(col))] for a column produced by [.map(lambda x: id_dict.get(x))] (164-168).  When
    some values are found pandas turns the column into numbers, with nan for the missing ones; when
    none is found the column keeps the [None] objects and [np.isnan] raises TypeError. *)
(** sparse/graphs.py:70-211 (Graph.__init__) *)
Definition found (o : option nat) : bool := match o with Some _ => true | None => false end.
Definition any_isnan (col : list (option nat)) : res bool :=
  match col with
  | [] => Ok false
  | _ => if existsb found col then Ok (existsb (fun o => negb (found o)) col) else Raise TypeError
  end.

(** The attributes set by Graph.__init__ before the adjacency matrix: num_vertices, id_dict,
    group_dict with groups (when v_group is given) and weighted; [b_edges] is the content of src_array,
    dst_array and val_array. *)
(** sparse/graphs.py:70-211 (Graph.__init__) *)
Record base := mkBase {
  b_n : nat;
  b_ids : dict ID;
  b_groups : option (dict G * list nat);
  b_weighted : bool;
  b_edges : list (nat * nat * R)
}.

(** sparse/graphs.py 70-193, Graph.__init__ up to the arguments of [sp.coo_array].  [weighted] and
    [grouped] tell whether [weight] and [v_group] are given; [src_list] and [dst_list] whether [src]
    and [dst] are lists of several columns.  The exception handler 129-133 turns the AssertionError of
    [generate_id_dict] into a plain Exception. *)
Definition read_tables (grouped src_list dst_list weighted : bool) (v : list (ID * G)) (e : list erow) : res base :=
  let num_vertices := length v in
  let id_bytes := get_num_bytes num_vertices in
  do id_dict <- (match generate_id_dict leb_id (map fst v) true with
                 | Raise _ => Raise GenericException
                 | Ok d => Ok d
                 end) ;
  let v := map snd (sort_index (map (fun r => (mapped (dict_get leb_id id_dict (fst r)), r)) v)) in
  do groups <- (if grouped then
      do group_dict <- generate_id_dict leb_g (map snd v) false ;
      let num_bytes := get_num_bytes (length group_dict) in
      Ok (Some (group_dict, map (fun r => astype_u num_bytes (mapped (dict_get leb_g group_dict (snd r)))) v))
    else Ok None) ;
  guard (Bool.eqb src_list dst_list) ValueError
  (let src := map (fun r => dict_get leb_id id_dict (r_src r)) e in
   let dst := map (fun r => dict_get leb_id id_dict (r_dst r)) e in
   do nan_src <- any_isnan src ;
   do nan_any <- (if nan_src then Ok true else any_isnan dst) ;
   guard (negb nan_any) AssertionError
   (let src_array := map (fun o => astype_u id_bytes (mapped o)) src in
    let dst_array := map (fun o => astype_u id_bytes (mapped o)) dst in
    let val_array := if weighted then map r_weight e else map (fun _ => 1) e in
    guard (negb weighted || forallb (fun w => Rltb 0 w) val_array) AssertionError
    (Ok (mkBase num_vertices id_dict groups weighted (combine (combine src_array dst_array) val_array))))).

(** sparse/graphs.py 893-912, the label part of MultiGraph.__init__: label_dict and lbl_array. *)
Definition read_labels (e : list erow) : res (dict Lb * list nat) :=
  do label_dict <- generate_id_dict leb_l (map r_label e) false ;
  let num_bytes := get_num_bytes (length label_dict) in
  Ok (label_dict, map (fun r => astype_u num_bytes (mapped (dict_get leb_l label_dict (r_label r)))) e).
End Tables.
Arguments erow : clear implicits.
Arguments base : clear implicits.
