(** RandomDiGraph in double precision.  Model only.

    As in Float.v every operation is followed by a rounding [rn].  The number of vertices is a Python integer: products
    of integers are exact and are converted to floating point when they meet a float.  [p ** 2] is one multiplication. *)
From Verif Require Import Base Num Prob Ensemble EnsembleState Random Float.

Section Rounded.
Variable rn : R -> num.

(** sparse/models/random.py:150,152,156,158: a division of numbers *)
Definition rscalar_div (numpy : bool) (a b : num) : res num :=
  if numpy then Ok (rdiv rn a b) else if is0 b then Raise ZeroDivisionError else Ok (rdiv rn a b).

(** sparse/models/random.py:147-162 (RandomDiGraph.fit) *)
Definition rrnd_fit (s : rnd) : res rnd :=
  match r_edges s with
  | None => Raise AttributeError
  | Some (E, ne) =>
      do p <- rscalar_div ne (Fin E) (rn (pairs_of (r_N s) (r_selfloops s))) ;
      match r_weight s with
      | None => Ok (with_rparam s p (Fin 0))
      | Some (W, nw) =>
          match r_discrete s with
          | None => Raise AttributeError
          | Some true => do r <- rscalar_div (ne || nw) (Fin E) (Fin W) ; Ok (with_rparam s p (rsub rn (Fin 1) r))
          | Some false => do r <- rscalar_div (ne || nw) (Fin E) (Fin W) ; Ok (with_rparam s p r)
          end
      end
  end.

(** sparse/models/random.py:164-175 (RandomDiGraph.expected_num_edges) *)
Definition rrnd_num_edges (s : rnd) : res num :=
  match r_param s with
  | None => Raise GenericException
  | Some (p, _) =>
      Ok (if r_selfloops s then rmul rn p (rn (INR (r_N s) * INR (r_N s)))
          else rmul rn (rmul rn p (rn (INR (r_N s)))) (rn (INR (r_N s) - 1)))
  end.

(** sparse/models/random.py:195 ([2 * p - p ** 2]) *)
Definition reither (p : num) : num := rsub rn (rmul rn (Fin 2) p) (rmul rn p p).
(** sparse/models/random.py:189-199 (RandomDiGraph.expected_degree) *)
Definition rrnd_degree (s : rnd) : res (nat -> num) :=
  match r_param s with
  | None => Raise GenericException
  | Some (p, _) =>
      let d := rmul rn (reither p) (rn (INR (r_N s) - 1)) in
      Ok (fun _ => if r_selfloops s then radd rn d p else d)
  end.
(** sparse/models/random.py:201-211 (RandomDiGraph.expected_out_degree) *)
Definition rrnd_out_degree (s : rnd) : res (nat -> num) :=
  match r_param s with
  | None => Raise GenericException
  | Some (p, _) =>
      Ok (fun _ => if r_selfloops s then rmul rn p (rn (INR (r_N s))) else rmul rn p (rn (INR (r_N s) - 1)))
  end.

(** sparse/models/random.py:280-327 (RandomDiGraph.log_likelihood) *)
Definition rrnd_log_likelihood (g : graph_arg) (selfloops : option bool) (s : rnd) : res num :=
  match r_param s with
  | None => Raise GenericException
  | Some (p, _) =>
      let selfloops := match selfloops with None => r_selfloops s | Some b => b end in
      match g with
      | NotAGraph => Raise ValueError
      | Matrix r c row =>
          guard (Nat.eqb r (r_N s) && Nat.eqb c (r_N s)) ValueError
          (let k := nnz (r_N s) row in
           if neqb p (Fin 0) && Nat.ltb 0 k then Ok NInf
           else if neqb p (Fin 1) && negb (Nat.eqb k 0) then Ok NInf
           else
             do l1 <- py_log p ;
             let like := rmul rn (rn (INR k)) (rnd_num rn l1) in
             do l2 <- py_log1p (nopp p) ;
             let like := radd rn like (rmul rn (rn (pairs_of (r_N s) selfloops - INR k)) (rnd_num rn l2)) in
             if negb selfloops && Nat.ltb 0 (diag_count (r_N s) row) then Ok NInf else Ok like)
      end
  end.
End Rounded.
