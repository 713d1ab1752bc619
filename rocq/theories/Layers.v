(** The layers of the multi-label models: model only, no proofs.
    Conversions between the vertex-by-label and the by-layer form of the fitnesses, and the
    computations done layer by layer.
    Python lists of arrays are lists; integer and float dtypes are not modelled (no overflow). *)
From Verif Require Import Base Num Kernels MultiKernels Prob Ensemble.

(** * Compressed sparse arrays and lists of tuples *)

(** The arrays (data, indices, indptr) of a compressed sparse (row or column) array. *)
(** sparse/models/fitness.py:826-833 (MultiFitnessModel.csx_to_tuple_list);
    sparse/models/fitness.py:837-856 (MultiFitnessModel.tuple_list_to_csx) *)
Record csx := mkCsx { c_data : list num; c_indices : list nat; c_indptr : list nat }.

(** A row (or column): the pair of arrays (indices, values). *)
(** sparse/models/fitness.py:826-833 (MultiFitnessModel.csx_to_tuple_list);
    sparse/models/fitness.py:837-856 (MultiFitnessModel.tuple_list_to_csx) *)
Definition tuple : Type := (list nat * list num)%type.

(** [l[m:n]] *)
(** sparse/models/fitness.py:826-833 (MultiFitnessModel.csx_to_tuple_list) *)
Definition slice {A} (l : list A) (m n : nat) : list A := firstn (n - m) (skipn m l).
(** [l[m:m + len(x)] = x] *)
(** sparse/models/fitness.py:837-856 (MultiFitnessModel.tuple_list_to_csx) *)
Definition set_slice {A} (l : list A) (m : nat) (x : list A) : list A :=
  firstn m l ++ x ++ skipn (m + length x) l.
(** [l[i] = v] *)
(** sparse/models/fitness.py:837-856 (MultiFitnessModel.tuple_list_to_csx) *)
Definition set_nth {A} (l : list A) (i : nat) (v : A) : list A := set_slice l i [v].

(** sparse/models/fitness.py:824-833 (csx_to_tuple_list) *)
Definition csx_to_tuple_list (c : csx) : list tuple :=
  for_each (seq 0 (length (c_indptr c) - 1)) (fun i res =>
    let m := nth i (c_indptr c) 0%nat in
    let n := nth (i + 1) (c_indptr c) 0%nat in
    res ++ [(slice (c_indices c) m n, slice (c_data c) m n)]) [].

(** sparse/models/fitness.py:835-856 (tuple_list_to_csx).  [data[0]] of an empty list is an
    IndexError.  The arrays of each tuple are assumed to have the same length. *)
Definition tuple_list_to_csx (data : list tuple) : res csx :=
  let nnz := for_each data (fun t nnz => (nnz + length (fst t))%nat) 0%nat in
  match data with
  | [] => Raise IndexError
  | _ :: _ =>
      let '(indptr, indices, vals, _) :=
        for_each (combine (seq 0 (length data)) data) (fun it st =>
          let '(indptr, indices, vals, n) := st in
          let '(i, (x, y)) := it in
          let m := n in
          let n := (n + length x)%nat in
          (set_nth indptr (i + 1) n, set_slice indices m x, set_slice vals m y, n))
          (repeat 0%nat (length data + 1), repeat 0%nat nnz, repeat (Fin 0) nnz, 0%nat) in
      Ok (mkCsx vals indices indptr)
  end.

(** scipy's [csr_array.tocsc()] for an array with [num_cols] columns: column [l] holds the entries of
    column [l] in row order. *)
(** sparse/models/fitness.py:578-706 (MultiFitnessModel.fit) *)
Fixpoint prefix_sums (n : nat) (ls : list nat) : list nat :=
  match ls with [] => [n] | x :: t => n :: prefix_sums (n + x) t end.
Definition csr_rows (c : csx) : list svec :=
  map (fun k => combine (slice (c_indices c) (nth k (c_indptr c) 0%nat) (nth (k + 1) (c_indptr c) 0%nat))
                        (slice (c_data c) (nth k (c_indptr c) 0%nat) (nth (k + 1) (c_indptr c) 0%nat)))
      (seq 0 (length (c_indptr c) - 1)).
Definition column (rows : list svec) (l : nat) : svec :=
  flat_map (fun ir => map (fun e => (fst ir, snd e)) (filter (fun e => Nat.eqb (fst e) l) (snd ir)))
    (combine (seq 0 (length rows)) rows).
Definition tocsc (num_cols : nat) (c : csx) : csx :=
  let cols := map (column (csr_rows c)) (seq 0 num_cols) in
  mkCsx (concat (map (map snd) cols)) (concat (map (map fst) cols)) (prefix_sums 0 (map (@length _) cols)).

(** Tuples as lists of pairs: [zip(t[0], t[1])]. *)
(** sparse/models/ensembles.py:973-983 (MultiDiGraphEnsemble.exp_edges_layer)
    *)
Definition zip (t : tuple) : svec := combine (fst t) (snd t).

(** sparse/models/ensembles.py:608-621, 643-656, 767-780, 862-873; fitness.py:637-650: the conversion
    of the vertex properties to one tuple per label. *)
Definition by_layer (num_labels : nat) (prop : list tuple) : res (list tuple) :=
  do c <- tuple_list_to_csx prop ;
  Ok (csx_to_tuple_list (tocsc num_labels c)).

(** * Computations on one layer.  [prop_out] and [prop_in] are the zipped tuples of the layer. *)

(** [p[1][p[0] == i][0]] if [i] is in [p[0]], else 0.0 (ensembles.py:997-1001, 1004-1008) *)
Definition value_at (p : svec) (i : nat) : num :=
  match find (fun e => Nat.eqb (fst e) i) p with Some e => snd e | None => Fin 0 end.

(** Loops over lists whose body may return. *)
(** sparse/models/ensembles.py:973-983 (MultiDiGraphEnsemble.exp_edges_layer)
    *)
Fixpoint each_flow {X S T : Type} (l : list X) (body : X -> S -> flow S T) (s : S) : flow S T :=
  match l with
  | [] => Next s
  | x :: t => match body x s with Next s' => each_flow t body s' | Return r => Return r end
  end.

Section Layer.
Variable Z : Type.
Variables (p_ijk : num -> num -> num -> Z -> R) (logp_ijk log1mp_ijk : num -> num -> num -> Z -> num).
Variable prop_dyad : nat -> nat -> Z.

(** sparse/models/ensembles.py:971-983 (exp_edges_layer) *)
Definition exp_edges_layer (param : num) (prop_out prop_in : svec) (selfloops : bool) : R :=
  for_each prop_out (fun o exp_e =>
    for_each prop_in (fun q exp_e =>
      let '(i, p_out_i) := o in let '(j, p_in_j) := q in
      if adm selfloops i j then exp_e + p_ijk param p_out_i p_in_j (prop_dyad i j) else exp_e) exp_e) 0.

(** sparse/models/ensembles.py:953-969 (exp_edges_label) *)
Definition exp_edges_label (param : nat -> num) (prop_out prop_in : list tuple) (selfloops : bool) : nat -> R :=
  for_range (length prop_out) (fun i exp_edges =>
    upd exp_edges i (exp_edges_layer (param i) (zip (nth i prop_out ([], [])))
                       (zip (nth i prop_in ([], []))) selfloops)) (fun _ => 0).

(** The dictionaries of exp_degrees_label, keyed by (vertex, label). *)
(** sparse/models/ensembles.py:987-1046
    (MultiDiGraphEnsemble.exp_degrees_label) *)
Definition dok : Type := list ((nat * nat) * R).
Definition has (k : nat * nat) (d : dok) : bool :=
  existsb (fun e => Nat.eqb (fst k) (fst (fst e)) && Nat.eqb (snd k) (snd (fst e))) d.
Definition incr (k : nat * nat) (v : R) (d : dok) : dok :=
  map (fun e => if Nat.eqb (fst k) (fst (fst e)) && Nat.eqb (snd k) (snd (fst e)) then (fst e, snd e + v) else e) d.
Definition doks : Type := (dok * dok * dok)%type.
(** ensembles.py:1014-1021, 1024-1031, 1036-1043: [if key in exp_d: ... += ... else: ... = ...] *)
Definition bump (k : nat * nat) (p out_p in_p : R) (st : doks) : doks :=
  let '(d, o, n) := st in
  if has k d then (incr k p d, incr k out_p o, incr k in_p n)
  else (d ++ [(k, p)], o ++ [(k, out_p)], n ++ [(k, in_p)]).

(** sparse/models/ensembles.py:1010-1043: body of the inner loop of exp_degrees_label *)
Definition degrees_label_body (param : num) (lbl : nat) (p_out p_in : svec) (selfloops : bool)
    (i : nat) (p_out_i p_in_i : num) (j : nat) (p_in_j : num) (st : doks) : doks :=
  let p_out_j := value_at p_out j in
  if negb (Nat.eqb i j) then
    let pij := p_ijk param p_out_i p_in_j (prop_dyad i j) in
    let pji := p_ijk param p_out_j p_in_i (prop_dyad j i) in
    let p := pij + pji - pij * pji in
    bump (j, lbl) p pji pij (bump (i, lbl) p pij pji st)
  else if selfloops then
    let pii := p_ijk param p_out_i p_in_j (prop_dyad i j) in
    bump (i, lbl) pii pii pii st
  else st.

(** sparse/models/ensembles.py:985-1046 (exp_degrees_label) *)
Definition exp_degrees_label (param : nat -> num) (prop_out prop_in : list tuple) (selfloops : bool) : doks :=
  for_each (combine (seq 0 (length prop_out)) (combine prop_out prop_in)) (fun lt st =>
    let lbl := fst lt in
    let p_out := zip (fst (snd lt)) in
    let p_in := zip (snd (snd lt)) in
    for_each p_out (fun o st =>
      let '(i, p_out_i) := o in
      let p_in_i := value_at p_in i in
      for_each p_in (fun q st =>
        let '(j, p_in_j) := q in
        degrees_label_body (param lbl) lbl p_out p_in selfloops i p_out_i p_in_i j p_in_j st) st) st)
    ([], [], []).

(** The value of a dictionary once converted to a sparse array (ensembles.py:669-681). *)
Definition dok_at (d : dok) (i l : nat) : R :=
  match find (fun e => Nat.eqb i (fst (fst e)) && Nat.eqb l (snd (fst e))) d with
  | Some e => snd e
  | None => 0
  end.

(** spark/models.py:2735-2800 (exp_degrees_layer): body of the inner loop; the dyad of the reverse pair
    is evaluated as [pdyad(ind_i, ind_j)]. *)
Definition degrees_layer_body (param : num) (lbl : nat) (p_out p_in : svec) (selfloops : bool)
    (i : nat) (f_out_i : num) (j : nat) (f_in_j : num) (st : doks) : doks :=
  if negb (Nat.eqb i j) then
    let pij := p_ijk param f_out_i f_in_j (prop_dyad i j) in
    let '(pji, p) :=
      if existsb (fun e => Nat.eqb (fst e) i) p_in && existsb (fun e => Nat.eqb (fst e) j) p_out then
        let pji := p_ijk param (value_at p_out j) (value_at p_in i) (prop_dyad i j) in
        (pji, pij + pji - pij * pji)
      else (0, pij) in
    bump (j, lbl) p pji pij (bump (i, lbl) p pij pji st)
  else if selfloops then
    let pii := p_ijk param f_out_i f_in_j (prop_dyad i j) in
    bump (i, lbl) pii pii pii st
  else st.
Definition exp_degrees_layer (param : num) (lbl : nat) (p_out p_in : svec) (selfloops : bool) : doks :=
  for_each p_out (fun o st =>
    for_each p_in (fun q st =>
      degrees_layer_body param lbl p_out p_in selfloops (fst o) (snd o) (fst q) (snd q) st) st)
    ([], [], []).

(** sparse/models/ensembles.py:1065-1081: the first pass of _likelihood_layer, [true] when it returns
    minus infinity; [row i] are the indices of row [i] of the CSR adjacency matrix. *)
Definition no_fitness (p : svec) (i : nat) : bool :=
  let ind := filter (fun e => Nat.eqb (fst e) i) p in
  negb (negb (Nat.eqb (length ind) 0)) || existsb (fun e => is0 (snd e)) ind.
Definition impossible_link (prop_out prop_in : svec) (row : nat -> list nat) (N : nat) : bool :=
  existsb (fun i =>
    negb (Nat.eqb (length (row i)) 0) &&
    (no_fitness prop_out i || existsb (no_fitness prop_in) (row i))) (seq 0 N).

(** sparse/models/ensembles.py:1048-1100, spark/models.py:2922-2976 (_likelihood_layer) *)
Definition likelihood_layer (param : num) (prop_out prop_in : svec) (row : nat -> list nat) (N : nat)
    (selfloops : bool) : num :=
  if impossible_link prop_out prop_in row N then NInf
  else
    flow_val (each_flow prop_out (fun o =>
      each_flow prop_in (fun q like =>
        let '(i, out_i) := o in let '(j, in_j) := q in
        if adm selfloops i j then
          let tmp :=
            if existsb (Nat.eqb j) (row i)
            then logp_ijk param out_i in_j (prop_dyad i j)
            else log1mp_ijk param out_i in_j (prop_dyad i j) in
          if isinf tmp then Return tmp else Next (nadd like tmp)
        else Next like)) (Fin 0)).

(** sparse/models/ensembles.py:1102-1117, spark/models.py:3030-3053 (_binary_sample_layer) *)
Definition binary_sample_layer (param : num) (prop_out prop_in : svec) (selfloops : bool)
    : prog (list (nat * nat)) :=
  for_prog prop_out (fun o acc =>
    for_prog prop_in (fun q acc =>
      let '(i, p_out_i) := o in let '(j, p_in_j) := q in
      if adm selfloops i j then
        Draw (p_ijk param p_out_i p_in_j (prop_dyad i j)) (fun b => Ret (if b then acc ++ [(i, j)] else acc))
      else Ret acc) acc) [].

(** sparse/models/ensembles.py:1119-1153, spark/models.py:3055-3108 (_cremb_sample_layer).  [s_out], [s_in] are real sparse
    vectors.  The first division has Python semantics (see Ensemble.cremb_sample).  When only one of
    the strengths is stored the code indexes an empty array: IndexError (numba, which does not check
    bounds, reads past the end of the array).  An exception raised while sampling is the result of
    the draws. *)
Definition strength_of (s : list (nat * R)) (i : nat) : option R :=
  match find (fun e => Nat.eqb (fst e) i) s with Some e => Some (snd e) | None => None end.
Definition cremb_link (p s_tot : R) (s_out s_in : list (nat * R)) (i j : nat) : res R :=
  match strength_of s_out i, strength_of s_in j with
  | Some a, Some b => Ok (a * b / (s_tot * p))
  | None, None => Ok 0
  | _, _ => Raise IndexError
  end.
Definition cremb_sample_layer (param : num) (prop_out prop_in : svec) (s_out s_in : list (nat * R))
    (selfloops : bool) : res (prog (res (list (nat * nat * R)))) :=
  let s_tot := suml snd s_out in
  if Reqb s_tot 0 then Raise ZeroDivisionError
  else
    guard (Rltb (Rabs (1 - suml snd s_in / s_tot)) (1 / 1000000)) AssertionError
      (Ok (for_prog prop_out (fun o acc =>
        for_prog prop_in (fun q acc =>
          let '(i, p_out_i) := o in let '(j, p_in_j) := q in
          if adm selfloops i j then
            match acc with
            | Raise e => Ret (Raise e)
            | Ok links =>
                let p := p_ijk param p_out_i p_in_j (prop_dyad i j) in
                Draw p (fun b => Ret (if b then do w <- cremb_link p s_tot s_out s_in i j ;
                                                Ok (links ++ [(i, j, w)])
                                      else Ok links))
            end
          else Ret acc) acc) (Ok []))).

(** * Methods.  [prop_out], [prop_in]: the properties by vertex; [param = None]: not fitted. *)

(** sparse/models/ensembles.py:601-632 (expected_num_edges_label, without the cache) *)
Definition expected_num_edges_label (num_labels : nat) (prop_out prop_in : list tuple)
    (param : option (nat -> num)) (selfloops : bool) : res (nat -> R) :=
  match param with
  | None => Raise GenericException
  | Some d =>
      do po <- by_layer num_labels prop_out ;
      do pin <- by_layer num_labels prop_in ;
      Ok (exp_edges_label d po pin selfloops)
  end.

(** sparse/models/ensembles.py:636-697 (expected_degree_by_label, expected_out/in_degree_by_label,
    without the cache): the three vertex-by-label arrays *)
Definition expected_degrees_by_label (num_labels : nat) (prop_out prop_in : list tuple)
    (param : option (nat -> num)) (selfloops : bool)
    : res ((nat -> nat -> R) * (nat -> nat -> R) * (nat -> nat -> R)) :=
  match param with
  | None => Raise GenericException
  | Some d =>
      do po <- by_layer num_labels prop_out ;
      do pin <- by_layer num_labels prop_in ;
      let '(a, b, c) := exp_degrees_label d po pin selfloops in
      Ok (dok_at a, dok_at b, dok_at c)
  end.

(** A layer of the adjacency tensor: shape and CSR rows. *)
(** sparse/models/ensembles.py:699-811 (MultiDiGraphEnsemble.log_likelihood)
    *)
Record layer := mkLayer { l_rows : nat; l_cols : nat; l_row : nat -> list nat }.

(** sparse/models/ensembles.py:699-811 (log_likelihood) for an adjacency tensor.  The message of the
    shape error evaluates [adj.shape] on a list: AttributeError. *)
Definition log_likelihood_tensor (N num_labels : nat) (prop_out prop_in : list tuple)
    (param : option (nat -> num)) (self_selfloops : bool) (g : list layer) (selfloops : option bool) : res num :=
  match param with
  | None => Raise GenericException
  | Some d =>
      let selfloops := match selfloops with None => self_selfloops | Some b => b end in
      guard (Nat.eqb (length g) num_labels) ValueError
        (guard (forallb (fun x => Nat.eqb (l_rows x) N && Nat.eqb (l_cols x) N) g) AttributeError
          (do po <- by_layer num_labels prop_out ;
           do pin <- by_layer num_labels prop_in ;
           Ok (flow_val (each_flow (combine (seq 0 num_labels) g) (fun ix like =>
             let i := fst ix in
             let tmp := likelihood_layer (d i) (zip (nth i po ([], []))) (zip (nth i pin ([], [])))
                          (l_row (snd ix)) N selfloops in
             if isinf tmp then Return tmp else Next (nadd like tmp)) (Fin 0)))))
  end.

(** sparse/models/ensembles.py:813-951 (sample) without weights: the links of each layer.  The argument
    [selfloops] is not used. *)
Definition sample_layers (num_labels : nat) (prop_out prop_in : list tuple)
    (param : option (nat -> num)) (self_selfloops : bool) (selfloops : option bool)
    : res (prog (list (list (nat * nat)))) :=
  match param with
  | None => Raise GenericException
  | Some d =>
      do po <- by_layer num_labels prop_out ;
      do pin <- by_layer num_labels prop_in ;
      Ok (for_prog (seq 0 num_labels) (fun i adj =>
        pbind (binary_sample_layer (d i) (zip (nth i po ([], []))) (zip (nth i pin ([], []))) self_selfloops)
          (fun links => Ret (adj ++ [links]))) [])
  end.

(** * The dense module: [prop_out], [prop_in] are vertex-by-label arrays *)

(** models.py:1731-1748 (exp_edges_label): the number of labels is taken from [len(prop_out)], the
    number of vertices; an index beyond the last label is an IndexError (numba does not check it). *)
Definition exp_edges_label_dense (N L : nat) (param : nat -> num) (prop_out prop_in : nat -> nat -> num)
    (selfloops : bool) : res (list R) :=
  guard (Nat.leb N L) IndexError
    (Ok (map (fun k =>
       for_range N (fun i e => for_range N (fun j e =>
         if adm selfloops i j then e + p_ijk (param k) (prop_out i k) (prop_in j k) (prop_dyad i j) else e) e) 0)
       (seq 0 N))).

(** models.py:1750-1786 (exp_degrees_label): the entries of the arrays for label [lbl] are only changed
    by the iteration [lbl] of the outer loop, which is the loop of exp_degrees. *)
Definition exp_degrees_label_dense (N : nat) (param : nat -> num) (prop_out prop_in : nat -> nat -> num)
    (selfloops : bool) (lbl : nat) : degs :=
  exp_degrees p_ijk (param lbl) (fun i => prop_out i lbl) (fun i => prop_in i lbl) prop_dyad N selfloops.

(** models.py:1788-1810 (_likelihood_tensor), [K = adj.shape[0]] *)
Definition likelihood_tensor_dense (N K : nat) (param : nat -> num) (prop_out prop_in : nat -> nat -> num)
    (adj : nat -> nat -> nat -> bool) (selfloops : bool) : num :=
  flow_val (for_flow K (fun k => for_flow N (fun i => for_flow N (fun j =>
    lik_body logp_ijk log1mp_ijk (param k) (fun i => prop_out i k) (fun j => prop_in j k) prop_dyad
      selfloops (adj k i j) i j))) (Fin 0)).

(** models.py:1812-1830 (_binary_sample_tensor): triples (label, row, column) *)
Definition binary_sample_tensor (N L : nat) (param : nat -> num) (prop_out prop_in : nat -> nat -> num)
    (selfloops : bool) : prog (list (nat * (nat * nat))) :=
  for_prog (seq 0 L) (fun k acc =>
    for_prog (seq 0 N) (fun i acc =>
      for_prog (seq 0 N) (fun j acc =>
        if adm selfloops i j then
          Draw (p_ijk (param k) (prop_out i k) (prop_in j k) (prop_dyad i j))
               (fun b => Ret (if b then acc ++ [(k, (i, j))] else acc))
        else Ret acc) acc) acc) [].
End Layer.

Arguments exp_edges_layer {Z}. Arguments exp_edges_label {Z}. Arguments degrees_label_body {Z}.
Arguments exp_degrees_label {Z}. Arguments degrees_layer_body {Z}. Arguments exp_degrees_layer {Z}.
Arguments likelihood_layer {Z}. Arguments binary_sample_layer {Z}. Arguments cremb_sample_layer {Z}.
Arguments expected_num_edges_label {Z}. Arguments expected_degrees_by_label {Z}.
Arguments log_likelihood_tensor {Z}. Arguments sample_layers {Z}. Arguments exp_edges_label_dense {Z}.
Arguments exp_degrees_label_dense {Z}. Arguments likelihood_tensor_dense {Z}. Arguments binary_sample_tensor {Z}.
