(** Model of RandomDiGraph (sparse/models/random.py and models.py:552-1034): model only.
    Scalars are exact; a division by zero raises ZeroDivisionError between Python numbers and follows
    IEEE rules as soon as one operand is a numpy scalar (as the edge count of a graph is). *)
From Verif Require Import Base Num Prob Ensemble EnsembleState.

(** The attributes of an object; [None] when the attribute does not exist.  The numpy flags tell whether
    the number came from a graph (numpy scalar) or from a keyword (Python number). *)
(** sparse/models/random.py:37-145 (RandomDiGraph.__init__);
    sparse/models/random.py:147-162 (RandomDiGraph.fit) *)
Record rnd := mkRnd {
  r_N : nat;
  r_selfloops : bool;
  r_edges : option (R * bool);
  r_weight : option (R * bool);
  r_discrete : option bool;
  r_param : option (num * num)
}.

(** sparse/models/random.py:147-162 (RandomDiGraph.fit) *)
Definition with_rparam (s : rnd) (p q : num) : rnd :=
  mkRnd (r_N s) (r_selfloops s) (r_edges s) (r_weight s) (r_discrete s) (Some (p, q)).
(** sparse/models/random.py:217-278 (RandomDiGraph.expected_av_nn_property) *)
Definition with_rself (s : rnd) (b : bool) : rnd :=
  mkRnd (r_N s) b (r_edges s) (r_weight s) (r_discrete s) (r_param s).

(** [a / b] *)
(** sparse/models/random.py:147-162 (RandomDiGraph.fit) *)
Definition scalar_div (numpy : bool) (a b : R) : res num :=
  if numpy then Ok (ndiv (Fin a) (Fin b))
  else if Reqb b 0 then Raise ZeroDivisionError else Ok (Fin (a / b)).

(** Number of pairs: [N**2] or [N * (N - 1)]. *)
(** sparse/models/random.py:147-162 (RandomDiGraph.fit) *)
Definition pairs_of (N : nat) (selfloops : bool) : R :=
  if selfloops then INR N * INR N else INR N * (INR N - 1).

(** random.py:147-162, spark/models.py:1047-1062 (fit) *)
Definition rnd_fit (s : rnd) : res rnd :=
  match r_edges s with
  | None => Raise AttributeError
  | Some (E, ne) =>
      do p <- scalar_div ne E (pairs_of (r_N s) (r_selfloops s)) ;
      match r_weight s with
      | None => Ok (with_rparam s p (Fin 0))
      | Some (W, nw) =>
          match r_discrete s with
          | None => Raise AttributeError
          | Some true => do r <- scalar_div (ne || nw) E W ; Ok (with_rparam s p (nsub (Fin 1) r))
          | Some false => do r <- scalar_div (ne || nw) E W ; Ok (with_rparam s p r)
          end
      end
  end.

(** random.py:164-175, spark/models.py:1064-1075 *)
Definition rnd_num_edges (s : rnd) : res num :=
  match r_param s with
  | None => Raise GenericException
  | Some (p, _) =>
      Ok (if r_selfloops s then nmul p (Fin (INR (r_N s) * INR (r_N s)))
          else nmul (nmul p (Fin (INR (r_N s)))) (Fin (INR (r_N s) - 1)))
  end.

(** random.py:177-187, spark/models.py:1077-1087: the attribute [q] is never set. *)
Definition rnd_total_weight (s : rnd) : res num :=
  match r_param s with
  | None => Raise GenericException
  | Some _ =>
      match r_discrete s with
      | None => Raise AttributeError
      | Some true => Raise AttributeError   (* self.num_edges / (1 - self.q) *)
      | Some false => Raise AttributeError  (* self.num_edges / self.q *)
      end
  end.

(** [2 * p - p ** 2] *)
(** sparse/models/random.py:189-199 (RandomDiGraph.expected_degree) *)
Definition either (p : num) : num := nsub (nmul (Fin 2) p) (nmul p p).

(** random.py:189-199, spark/models.py:1089-1099 *)
Definition rnd_degree (s : rnd) : res (nat -> num) :=
  match r_param s with
  | None => Raise GenericException
  | Some (p, _) =>
      let d := nmul (either p) (Fin (INR (r_N s) - 1)) in
      Ok (fun _ => if r_selfloops s then nadd d p else d)
  end.

(** random.py:201-211, spark/models.py:1101-1111 *)
Definition rnd_out_degree (s : rnd) : res (nat -> num) :=
  match r_param s with
  | None => Raise GenericException
  | Some (p, _) =>
      Ok (fun _ => if r_selfloops s then nmul p (Fin (INR (r_N s))) else nmul p (Fin (INR (r_N s) - 1)))
  end.

(** random.py:213-215; spark/models.py:1113-1118 repeats the test of the parameter *)
Definition rnd_in_degree (s : rnd) : res (nat -> num) := rnd_out_degree s.

(** [np.sum(a)] *)
(** sparse/models/random.py:217-278 (RandomDiGraph.expected_av_nn_property) *)
Definition np_sum (n : nat) (a : nat -> num) : num := for_range n (fun i acc => nadd acc (a i)) (Fin 0).

(** random.py:217-278 (expected_av_nn_property): result and the object afterwards. *)
Definition rnd_av_nn_num (len : nat) (prop : nat -> num) (ndir : dir) (selfloops : option bool)
    (s : rnd) : res (nat -> num) * rnd :=
  match r_param s with
  | None => (Raise GenericException, s)
  | Some (p, _) =>
      if negb (Nat.eqb len (r_N s)) then (Raise ValueError, s)
      else
        let tmp_self := r_selfloops s in
        let s := match selfloops with
                 | None => s
                 | Some b => if Bool.eqb b (r_selfloops s) then s else with_rself s b
                 end in
        let N := r_N s in
        match (match ndir with
               | Dout => rnd_out_degree s
               | Din => rnd_in_degree s
               | Doutin => rnd_degree s
               | Dother => Raise ValueError
               end) with
        | Raise e => (Raise e, s)
        | Ok deg =>
            let c := match ndir with Doutin => either p | _ => p end in
            let tot := np_sum N (fun i => nmul c (prop i)) in
            let av_nn := fun i => if negb (r_selfloops s) then nadd tot (nmul (nopp c) (prop i)) else tot in
            if forallb (fun i => negb (is0 (deg i)) || is0 (av_nn i)) (seq 0 N)
            then (Ok (fun i => if is0 (deg i) then av_nn i else ndiv (av_nn i) (deg i)),
                  if Bool.eqb tmp_self (r_selfloops s) then s else with_rself s tmp_self)
            else (Raise AssertionError, s)
        end
  end.

(** The same for a property of finite numbers. *)
(** sparse/models/random.py:217-278 (RandomDiGraph.expected_av_nn_property) *)
Definition rnd_av_nn_property (len : nat) (prop : nat -> R) (ndir : dir) (selfloops : option bool)
    (s : rnd) : res (nat -> num) * rnd := rnd_av_nn_num len (fun i => Fin (prop i)) ndir selfloops s.

(** [k * x] for an integer count [k]: 0 * inf is nan, but [log] below is finite when it returns. *)
(** sparse/models/random.py:280-327 (RandomDiGraph.log_likelihood) *)
Definition times (k : R) (x : num) : num := nmul (Fin k) x.

(** [adj.nnz] and [adj.diagonal().sum()] of a matrix with [n] rows, from its row view; stored values are
    positive. *)
(** sparse/models/random.py:280-327 (RandomDiGraph.log_likelihood) *)
Definition nnz (n : nat) (row : nat -> list nat) : nat := for_range n (fun i k => (k + length (row i))%nat) 0%nat.
Definition diag_count (n : nat) (row : nat -> list nat) : nat :=
  for_range n (fun i k => (k + length (filter (Nat.eqb i) (row i)))%nat) 0%nat.

(** random.py:280-327 (log_likelihood).  [math.log] and [math.log1p] raise ValueError outside their
    domain. *)
Definition rnd_log_likelihood (g : graph_arg) (selfloops : option bool) (s : rnd) : res num :=
  match r_param s with
  | None => Raise GenericException
  | Some (p, _) =>
      let selfloops := match selfloops with None => r_selfloops s | Some b => b end in
      match g with
      | NotAGraph => Raise ValueError
      | Matrix r c row =>
          guard (Nat.eqb r (r_N s) && Nat.eqb c (r_N s)) ValueError
          (let k := nnz (r_N s) row in
           if neqb p (Fin 0) && Nat.ltb 0 k then Ok NInf
           else if neqb p (Fin 1) && negb (Nat.eqb k 0) then Ok NInf
           else
             do l1 <- py_log p ;
             let like := times (INR k) l1 in
             if selfloops then
               do l2 <- py_log1p (nopp p) ;
               Ok (nadd like (times (pairs_of (r_N s) true - INR k) l2))
             else
               do l2 <- py_log1p (nopp p) ;
               let like := nadd like (times (pairs_of (r_N s) false - INR k) l2) in
               if Nat.ltb 0 (diag_count (r_N s) row) then Ok NInf else Ok like)
      end
  end.

(** random.py:403-417, spark/models.py:1306-1320 (_binary_sample) *)
Definition rnd_binary_sample (p : R) (N : nat) (selfloops : bool) : prog (list (nat * nat)) :=
  for_prog (seq 0 N) (fun i acc =>
    for_prog (seq 0 N) (fun j acc =>
      if adm selfloops i j then Draw p (fun b => Ret (if b then acc ++ [(i, j)] else acc)) else Ret acc) acc) [].

(** random.py:419-453, spark/models.py:1322-1356 (_weighted_sample, _discrete_weighted_sample): two lists are returned; [zero_div]
    tells that [1 / param[1]] divides by zero. *)
Definition rnd_weighted_sample (p : R) (N : nat) (selfloops zero_div : bool) : prog (res (list (nat * nat))) :=
  for_prog (seq 0 N) (fun i acc =>
    for_prog (seq 0 N) (fun j acc =>
      match acc with
      | Raise e => Ret (Raise e)
      | Ok l =>
          if adm selfloops i j
          then Draw p (fun b => Ret (if b then (if zero_div then Raise ZeroDivisionError else Ok (l ++ [(i, j)])) else Ok l))
          else Ret (Ok l)
      end) acc) (Ok []).

(** The [weights] argument of sample. *)
(** sparse/models/random.py:329-401 (RandomDiGraph.sample) *)
Inductive rnd_weights :=
| RNone
| RRandom
| RCremb (strengths : option ((nat -> R) * (nat -> R)))
| ROther.

(** random.py:329-401 (sample) with 455-475 (_cremb_sample, which has no return statement);
    spark/models.py:1232-1304 with 1358-1375.  The result of
    a run is the list of links of the graph or an exception.  Keyword [selfloops] is not used. *)
Definition rnd_sample (w : rnd_weights) (s : rnd) : prog (res (list (nat * nat))) :=
  match r_param s with
  | None => Ret (Raise GenericException)
  | Some (p, q) =>
      match w with
      | RNone => pbind (rnd_binary_sample (toR p) (r_N s) (r_selfloops s)) (fun G => Ret (Ok G))
      | RRandom =>
          match r_discrete s with
          | None => Ret (Raise AttributeError)
          | Some d =>
              (* rows, cols, vals = <pair>: not enough values to unpack *)
              pbind (rnd_weighted_sample (toR p) (r_N s) (r_selfloops s) (negb d && is0 q))
                (fun r => Ret (do _ <- r ; Raise ValueError))
          end
      | RCremb None => Ret (Raise AttributeError)  (* self.prop_out *)
      | RCremb (Some (s_out, s_in)) =>
          let s_tot := sumn (r_N s) s_out in
          if Reqb s_tot 0 then Ret (Raise ZeroDivisionError)
          else if negb (Rltb (Rabs (1 - sumn (r_N s) s_in / s_tot)) (1 / 1000000))
          then Ret (Raise AssertionError)
          else (* rows, cols, vals = None *)
            pbind (rnd_binary_sample (toR p) (r_N s) (r_selfloops s)) (fun _ => Ret (Raise TypeError))
      | ROther => Ret (Raise ValueError)
      end
  end.
