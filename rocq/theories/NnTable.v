(** Neighbour averages of a property table: [prop] is a two-dimensional array with a row per vertex and [K]
    columns, which the documentation of the methods allows ("The array must have the first dimension
    corresponding to the vertex index"); and of a boolean property.  Model only.  A table is a function of
    the row and the column. *)
From Verif Require Import Base Num Ensemble EnsembleState Graphs DenseGraphs Random Spark SparkState.

Definition table : Type := nat -> nat -> R.

(** [a[i] += r] for a row [r]: sparse/models/ensembles.py:463-471, sparse/graphs.py:429,
    spark/models.py:665-685. *)
Definition add_row (t : table) (i : nat) (r : nat -> R) : table := upd t i (fun k => t i k + r k).

(** [p * prop[j]] *)
Definition scale (p : R) (r : nat -> R) : nat -> R := fun k => p * r k.

(** [np.zeros(prop.shape)] *)
Definition zero_table : table := fun _ _ => 0.

(** The vertices selected by [ind = deg != 0], in order. *)
Definition selected (N : nat) (deg : nat -> R) : list nat := filter (fun i => negb (Reqb (deg i) 0)) (seq 0 N).

(** sparse/models/ensembles.py:209-215; models.py:215-221; spark/models.py:244-250; sparse/graphs.py:317-323,
    708-714; graphs.py:299-305, 635-641.  The assertion on the rows with degree zero, then
    [av_nn[ind] = av_nn[ind] / deg[ind]].  The operands have shapes (m, K) and (m,), m the number of selected
    vertices: numpy matches the second one with the columns.  The result has shape (m, K) if K = m or m = 1.
    Otherwise the shapes do not match, or (K = 1) the result has shape (m, m) and cannot be assigned:
    ValueError in both cases. *)
Definition divide_table (N K : nat) (av_nn : table) (deg : nat -> R) : res table :=
  guard (forallb (fun i => negb (Reqb (deg i) 0) || forallb (fun k => Reqb (av_nn i k) 0) (seq 0 K)) (seq 0 N))
    AssertionError
    (let sel := selected N deg in
     if Nat.eqb (length sel) 1 then Ok (fun i k => if Reqb (deg i) 0 then av_nn i k else av_nn i k / deg (nth 0 sel 0%nat))
     else if Nat.eqb (length sel) K then Ok (fun i k => if Reqb (deg i) 0 then av_nn i k else av_nn i k / deg (nth k sel 0%nat))
     else Raise ValueError).

Section Ensembles.
Variables P X Z : Type.
Variables (p_ij : P -> X -> X -> Z -> R).
Variables (prop_out prop_in : nat -> X) (prop_dyad : nat -> nat -> Z) (N : nat).

(** sparse/models/ensembles.py:459-473, on rows (see [nn_body]). *)
Definition nn_body_rows (param : P) (prop : table) (ndir : dir) (i j : nat) (av_nn : table) : table :=
  let pij := p_ij param (prop_out i) (prop_in j) (prop_dyad i j) in
  let pji := p_ij param (prop_out j) (prop_in i) (prop_dyad j i) in
  match ndir with
  | Dout => add_row (add_row av_nn i (scale pij (prop j))) j (scale pji (prop i))
  | Din => add_row (add_row av_nn i (scale pji (prop j))) j (scale pij (prop i))
  | Doutin => let p := 1 - (1 - pij) * (1 - pji) in
              add_row (add_row av_nn i (scale p (prop j))) j (scale p (prop i))
  | Dother => av_nn
  end.

(** sparse/models/ensembles.py:448-487; models.py:451-490 (exp_av_nn_prop), for a table. *)
Definition exp_av_nn_rows (param : P) (prop : table) (ndir : dir) (selfloops : bool) : res table :=
  let loop1 := for_range N (fun i a => for_range i (fun j a => nn_body_rows param prop ndir i j a) a) zero_table in
  if bad_dir ndir && Nat.leb 2 N then Raise ValueError
  else if selfloops then
    if Nat.eqb N 1 then Raise UnboundLocalError
    else Ok (for_range N (fun i a =>
               add_row a i (scale (p_ij param (prop_out i) (prop_in i) (prop_dyad i (N - 2)%nat)) (prop i))) loop1)
  else Ok loop1.

(** sparse/models/ensembles.py:161-227; models.py:167-233 (DiGraphEnsemble.expected_av_nn_property), for a
    table of shape [(len, K)].  The option is restored in the last lines only, which an exception skips. *)
Definition expected_av_nn_table (len K : nat) (prop : table) (ndir : dir) (selfloops : option bool)
    (deg_recompute : bool) (s : ens P) : res table * ens P :=
  match a_param s with
  | None => (Raise GenericException, s)
  | Some param =>
      if negb (Nat.eqb len N) then (Raise ValueError, s)
      else
        let tmp_self := a_selfloops s in
        let (deg_recompute, s) := set_selfloops selfloops deg_recompute s in
        match degree_of p_ij prop_out prop_in prop_dyad N ndir deg_recompute s with
        | (Raise e, s) => (Raise e, s)
        | (Ok deg, s) =>
            match (do av_nn <- exp_av_nn_rows param prop ndir (a_selfloops s) ; divide_table N K av_nn deg) with
            | Raise e => (Raise e, s)
            | Ok a => (Ok a, restore tmp_self s)
            end
        end
  end.

(** spark/models.py:631-687 (exp_av_nn_prop), for a table (see [b_av_nn]). *)
Definition b_av_nn_rows (param : P) (b : block) (x_i x_j y_j y_i : nat -> X) (prop : table) (ndir : dir)
    (selfloops : bool) : table :=
  let (ind_out, ind_in) := b in
  let fold := span_eqb ind_out ind_in in
  for_range (len ind_out) (fun i av_nn =>
    let ind_i := (fst ind_out + i)%nat in
    for_range (in_range i ind_in fold) (fun j av_nn =>
      let ind_j := (fst ind_in + j)%nat in
      if negb (Nat.eqb ind_i ind_j) then
        let pij := p_ij param (x_i i) (y_j j) (prop_dyad i j) in
        let pji := p_ij param (x_j j) (y_i i) (prop_dyad j i) in
        match ndir with
        | Dout => add_row (add_row av_nn ind_i (scale pij (prop ind_j))) ind_j (scale pji (prop ind_i))
        | Din => add_row (add_row av_nn ind_i (scale pji (prop ind_j))) ind_j (scale pij (prop ind_i))
        | Doutin => let p := pij + pji - pij * pji in
                    add_row (add_row av_nn ind_i (scale p (prop ind_j))) ind_j (scale p (prop ind_i))
        | Dother => av_nn
        end
      else if selfloops then
        add_row av_nn ind_i (scale (p_ij param (x_i i) (y_j j) (prop_dyad i j)) (prop ind_i))
      else av_nn) av_nn) zero_table.

(** spark/models.py:237-242: the fold over the blocks, with [np.zeros(prop.shape)]. *)
Definition spark_av_nn_rows (B : nat) (param : P) (prop : table) (ndir : dir) (sl : bool) : table :=
  rdd_fold zero_table (fun a b v k => a v k + b v k)
    (map (fun b => b_av_nn_rows param b (slice prop_out (fst b)) (slice prop_out (snd b))
                     (slice prop_in (snd b)) (slice prop_in (fst b)) prop ndir sl)
         (triangle_blocks N B)).

(** spark/models.py:196-262 (DiGraphEnsemble.expected_av_nn_property), for a table of shape [(len, K)]. *)
Definition sp_av_nn_table (B len K : nat) (prop : table) (ndir : dir) (selfloops : option bool)
    (deg_recompute : bool) (s : ens P) : res table * ens P :=
  match a_param s with
  | None => (Raise GenericException, s)
  | Some param =>
      if negb (Nat.eqb len N) then (Raise ValueError, s)
      else
        let tmp_self := a_selfloops s in
        let sl := match selfloops with None => a_selfloops s | Some b => b end in
        let (deg_recompute, s) := set_selfloops selfloops deg_recompute s in
        match sp_degree_of p_ij prop_out prop_in prop_dyad N B ndir deg_recompute s with
        | (Raise e, s) => (Raise e, s)
        | (Ok deg, s) =>
            match divide_table N K (spark_av_nn_rows B param prop ndir sl) deg with
            | Raise e => (Raise e, s)
            | Ok a => (Ok a, restore tmp_self s)
            end
        end
  end.
End Ensembles.
Arguments nn_body_rows {P X Z}.
Arguments exp_av_nn_rows {P X Z}.
Arguments expected_av_nn_table {P X Z}.
Arguments b_av_nn_rows {P X Z}.
Arguments spark_av_nn_rows {P X Z}.
Arguments sp_av_nn_table {P X Z}.

(** Graph.av_nn_prop, sparse/graphs.py:416-431, for a table. *)
Definition av_nn_rows (N : nat) (row : nat -> list (nat * R)) (prop : table) (selfloops : bool) : table :=
  for_range N (fun i res =>
    for_each (row i) (fun e res =>
      if negb (Nat.eqb i (fst e)) || selfloops then add_row res i (prop (fst e)) else res) res) zero_table.

(** Graph.average_nn_property, sparse/graphs.py:291-325, and DiGraph.average_nn_property, sparse/graphs.py:670-716,
    for a table of shape [(len, K)]. *)
Definition average_nn_table (N : nat) (s : shape) (len K : nat) (prop : table) (ndir : dir)
    (selfloops : option bool) : res table :=
  guard (Nat.eqb len N) ValueError
  (match selfloops with
   | None => Raise AttributeError
   | Some sl =>
       let undirected :=
         do deg <- degree N s ;
         do A <- adjacency_matrix N s false false ;
         divide_table N K (av_nn_rows N (sp_row A) prop sl) deg in
       if is_directed s then
         match ndir with
         | Dout => do deg <- out_degree N s ; do A <- adjacency_matrix N s true false ;
                   divide_table N K (av_nn_rows N (sp_row A) prop sl) deg
         | Din => do deg <- in_degree N s ; do A <- adjacency_matrix N s true false ;
                  divide_table N K (av_nn_rows N (sp_row (sp_T N A)) prop sl) deg
         | Doutin => undirected
         | Dother => Raise ValueError
         end
       else undirected
   end).

(** av_nn_prop, graphs.py:384-394, for a table: the matrix product [adj.dot(prop)]. *)
Definition d_av_nn_rows (N : nat) (A : mat) (transposed : bool) (prop : table) (selfloops : bool) : table :=
  let A := if selfloops then A
           else if transposed && negb (Nat.eqb N 1) then A
           else set_diag A (fun _ => 0) in
  fun i k => for_range N (fun j acc => acc + A i j * prop j k) 0.

(** graphs.py:275-307 (Graph.average_nn_property); graphs.py:600-643 (DiGraph.average_nn_property), for a table. *)
Definition d_average_nn_table (N : nat) (w : bool) (s : dshape) (len K : nat) (prop : table) (ndir : dir)
    (selfloops : option bool) : res table :=
  guard (Nat.eqb len N) ValueError
  (match selfloops with
   | None => Raise AttributeError
   | Some sl =>
       let undirected := divide_table N K (d_av_nn_rows N (d_adjacency w s false false) false prop sl) (d_degree N w s) in
       if d_directed s then
         match ndir with
         | Dout => divide_table N K (d_av_nn_rows N (d_adjacency w s true false) false prop sl)
                     (d_sum1 N (d_adjacency w s true false))
         | Din => divide_table N K (d_av_nn_rows N (fun i j => d_adjacency w s true false j i) true prop sl)
                     (d_sum0 N (d_adjacency w s true false))
         | Doutin => undirected
         | Dother => Raise ValueError
         end
       else undirected
   end).

(** * A boolean property *)

(** av_nn_prop, graphs.py:384-394, for a property of dtype bool.  [adj] is the unweighted adjacency matrix, whose
    entries are booleans ([self.adj != 0], graphs.py:222, 501, 511, 871, 1128, 1138): the product of two boolean
    arrays is the disjunction of the conjunctions, a boolean array, and [astype] makes it 0 or 1. *)
Definition d_av_nn_bool (N : nat) (A : mat) (transposed : bool) (prop : nat -> bool) (selfloops : bool) (i : nat) : R :=
  let A := if selfloops then A
           else if transposed && negb (Nat.eqb N 1) then A
           else set_diag A (fun _ => 0) in
  if for_range N (fun j acc => acc || (negb (Reqb (A i j) 0) && prop j)) false then 1 else 0.

(** graphs.py:275-307 (Graph.average_nn_property); graphs.py:600-643 (DiGraph.average_nn_property), for a property of
    dtype bool. *)
Definition d_average_nn_bool (N : nat) (w : bool) (s : dshape) (len : nat) (prop : nat -> bool) (ndir : dir)
    (selfloops : option bool) : res (nat -> R) :=
  guard (Nat.eqb len N) ValueError
  (match selfloops with
   | None => Raise AttributeError
   | Some sl =>
       let undirected := divide_by_degree N (d_av_nn_bool N (d_adjacency w s false false) false prop sl) (d_degree N w s) in
       if d_directed s then
         match ndir with
         | Dout => divide_by_degree N (d_av_nn_bool N (d_adjacency w s true false) false prop sl)
                     (d_sum1 N (d_adjacency w s true false))
         | Din => divide_by_degree N (d_av_nn_bool N (fun i j => d_adjacency w s true false j i) true prop sl)
                     (d_sum0 N (d_adjacency w s true false))
         | Doutin => undirected
         | Dother => Raise ValueError
         end
       else undirected
   end).

(** sparse/graphs.py:416-431 (av_nn_prop): the sums are accumulated in an array of float64, so [True] counts as 1. *)
Definition indicator (prop : nat -> bool) : nat -> R := fun i => if prop i then 1 else 0.

(** * RandomDiGraph *)

(** [np.sum] of all the entries of a table of shape (n, K). *)
Definition np_sum_all (n K : nat) (a : nat -> nat -> num) : num :=
  for_range n (fun i acc => for_range K (fun k acc => nadd acc (a i k)) acc) (Fin 0).

(** sparse/models/random.py:217-278 (expected_av_nn_property), for a table; the result has
    shape (N,), no columns.  [av_nn] has shape (N,) and is filled
    with the sum of all the entries of the table.  Without self-loops [av_nn += -param * prop] adds an array of
    shape (N, K) in place to one of shape (N,): ValueError (the sum has two dimensions), and the option stays changed. *)
Definition rnd_av_nn_table (len K : nat) (prop : table) (ndir : dir) (selfloops : option bool)
    (s : rnd) : res (nat -> num) * rnd :=
  match r_param s with
  | None => (Raise GenericException, s)
  | Some (p, _) =>
      if negb (Nat.eqb len (r_N s)) then (Raise ValueError, s)
      else
        let tmp_self := r_selfloops s in
        let s := match selfloops with
                 | None => s
                 | Some b => if Bool.eqb b (r_selfloops s) then s else with_rself s b
                 end in
        let N := r_N s in
        match (match ndir with
               | Dout => rnd_out_degree s
               | Din => rnd_in_degree s
               | Doutin => rnd_degree s
               | Dother => Raise ValueError
               end) with
        | Raise e => (Raise e, s)
        | Ok deg =>
            let c := match ndir with Doutin => either p | _ => p end in
            let tot := np_sum_all N K (fun i k => nmul c (Fin (prop i k))) in
            if negb (r_selfloops s) then (Raise ValueError, s)
            else if forallb (fun i => negb (is0 (deg i)) || is0 tot) (seq 0 N)
            then (Ok (fun i => if is0 (deg i) then tot else ndiv tot (deg i)),
                  if Bool.eqb tmp_self (r_selfloops s) then s else with_rself s tmp_self)
            else (Raise AssertionError, s)
        end
  end.
