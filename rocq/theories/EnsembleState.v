(** DiGraphEnsemble objects: parameters, self-loop option and cached measures.  Model only.
    A method maps the object to its result (a value or an exception) and the object afterwards:
    attributes assigned before an exception is raised stay assigned. *)
From Verif Require Import Base Num Prob Ensemble.

Section State.
Variables P X Z : Type.
(** The parts of an object that no modelled method changes: kernels and vertex properties. *)
Variables (p_ij : P -> X -> X -> Z -> R) (logp log1mp : P -> X -> X -> Z -> num).
Variables (prop_out prop_in : nat -> X) (prop_dyad : nat -> nat -> Z) (N : nat).

(** The mutable attributes; [None] when the attribute does not exist.  [a_nn ndir ddir] is the
    attribute named "exp_av_<ndir>_nn_d_<ddir>". *)
(** sparse/models/ensembles.py:109-124 (DiGraphEnsemble.expected_num_edges);
    sparse/models/ensembles.py:126-145 (DiGraphEnsemble.expected_degree);
    sparse/models/ensembles.py:161-227
    (DiGraphEnsemble.expected_av_nn_property);
    sparse/models/ensembles.py:229-281 (DiGraphEnsemble.expected_av_nn_degree)
    *)
Record ens := mkEns {
  a_param : option P;
  a_selfloops : bool;
  a_edges : option R;
  a_degree : option (nat -> R);
  a_out : option (nat -> R);
  a_in : option (nat -> R);
  a_nn : dir -> dir -> option (nat -> R)
}.

Definition with_edges (s : ens) (v : R) : ens :=
  mkEns (a_param s) (a_selfloops s) (Some v) (a_degree s) (a_out s) (a_in s) (a_nn s).
Definition with_degrees (s : ens) (d o i : option (nat -> R)) : ens :=
  mkEns (a_param s) (a_selfloops s) (a_edges s) d o i (a_nn s).
Definition with_selfloops (s : ens) (b : bool) : ens :=
  mkEns (a_param s) b (a_edges s) (a_degree s) (a_out s) (a_in s) (a_nn s).
Definition with_nn (s : ens) (nd dd : dir) (v : nat -> R) : ens :=
  mkEns (a_param s) (a_selfloops s) (a_edges s) (a_degree s) (a_out s) (a_in s)
    (fun a b => match a, b, nd, dd with
                | Dout, Dout, Dout, Dout | Dout, Din, Dout, Din | Dout, Doutin, Dout, Doutin
                | Din, Dout, Din, Dout | Din, Din, Din, Din | Din, Doutin, Din, Doutin
                | Doutin, Dout, Doutin, Dout | Doutin, Din, Doutin, Din | Doutin, Doutin, Doutin, Doutin => Some v
                | _, _, _, _ => a_nn s a b
                end).
(** What [fit] (or assigning [param]) does to the object: nothing but setting [param];
    sparse/models/fitness.py:232, 634, 671, 696, models.py:1253. *)
Definition set_param (s : ens) (p : P) : ens :=
  mkEns (Some p) (a_selfloops s) (a_edges s) (a_degree s) (a_out s) (a_in s) (a_nn s).
(** A model just constructed. *)
(** sparse/models/ensembles.py:105-107 (DiGraphEnsemble.__init__) *)
Definition new_ens (param : option P) (selfloops : bool) : ens :=
  mkEns param selfloops None None None None (fun _ _ => None).

(** sparse/models/ensembles.py:109-124 (DiGraphEnsemble.expected_num_edges) *)
Definition is_none {A} (o : option A) : bool := match o with None => true | Some _ => false end.

(** [return self._x] after the attribute was set; AttributeError if it was not. *)
(** sparse/models/ensembles.py:109-124 (DiGraphEnsemble.expected_num_edges) *)
Definition attr {A} (o : option A) : res A := match o with Some v => Ok v | None => Raise AttributeError end.

(** sparse/models/ensembles.py:109-124; models.py:115-130 *)
Definition expected_num_edges (recompute : bool) (s : ens) : res R * ens :=
  match a_param s with
  | None => (Raise GenericException, s)
  | Some param =>
      let s' := if is_none (a_edges s) || recompute
                then with_edges s (exp_edges p_ij param prop_out prop_in prop_dyad N (a_selfloops s))
                else s in
      (attr (a_edges s'), s')
  end.

(** sparse/models/ensembles.py:126-145; models.py:132-151 *)
Definition expected_degree (recompute : bool) (s : ens) : res (nat -> R) * ens :=
  match a_param s with
  | None => (Raise GenericException, s)
  | Some param =>
      let s' := if is_none (a_degree s) || recompute
                then let '(d, o, i) := exp_degrees p_ij param prop_out prop_in prop_dyad N (a_selfloops s) in
                     with_degrees s (Some d) (Some o) (Some i)
                else s in
      (attr (a_degree s'), s')
  end.

(** sparse/models/ensembles.py:147-152; models.py:153-158 *)
Definition expected_out_degree (recompute : bool) (s : ens) : res (nat -> R) * ens :=
  if is_none (a_out s) || recompute then
    match expected_degree recompute s with
    | (Raise e, s') => (Raise e, s')
    | (Ok _, s') => (attr (a_out s'), s')
    end
  else (attr (a_out s), s).

(** sparse/models/ensembles.py:154-159; models.py:160-165 *)
Definition expected_in_degree (recompute : bool) (s : ens) : res (nat -> R) * ens :=
  if is_none (a_in s) || recompute then
    match expected_degree recompute s with
    | (Raise e, s') => (Raise e, s')
    | (Ok _, s') => (attr (a_in s'), s')
    end
  else (attr (a_in s), s).

(** The three-way choice of sparse/models/ensembles.py:187-195 and 256-263 (ValueError on another string). *)
Definition degree_of (d : dir) (recompute : bool) (s : ens) : res (nat -> R) * ens :=
  match d with
  | Dout => expected_out_degree recompute s
  | Din => expected_in_degree recompute s
  | Doutin => expected_degree recompute s
  | Dother => (Raise ValueError, s)
  end.

(** sparse/models/ensembles.py:218-225 and 271-279: restore the self-loop option and drop the degree caches. *)
Definition restore (tmp_self : bool) (s : ens) : ens :=
  if Bool.eqb tmp_self (a_selfloops s) then s
  else with_degrees (with_selfloops s tmp_self) None None None.

(** sparse/models/ensembles.py:179-185 and 247-253: the effective recompute flag and the object with the requested option. *)
Definition set_selfloops (selfloops : option bool) (deg_recompute : bool) (s : ens) : bool * ens :=
  match selfloops with
  | None => (deg_recompute, s)
  | Some b => if Bool.eqb b (a_selfloops s) then (deg_recompute, s) else (true, with_selfloops s b)
  end.

(** sparse/models/ensembles.py:161-227; models.py:167-233.  [len] is [prop.shape[0]]. *)
Definition expected_av_nn_property (len : nat) (prop : nat -> R) (ndir : dir) (selfloops : option bool)
    (deg_recompute : bool) (s : ens) : res (nat -> R) * ens :=
  match a_param s with
  | None => (Raise GenericException, s)
  | Some param =>
      if negb (Nat.eqb len N) then (Raise ValueError, s)
      else
        let tmp_self := a_selfloops s in
        let (deg_recompute, s) := set_selfloops selfloops deg_recompute s in
        match degree_of ndir deg_recompute s with
        | (Raise e, s) => (Raise e, s)
        | (Ok deg, s) =>
            match exp_av_nn_prop p_ij param prop_out prop_in prop_dyad prop ndir N (a_selfloops s) with
            | Raise e => (Raise e, s)
            | Ok av_nn =>
                if forallb (fun i => negb (Reqb (deg i) 0) || Reqb (av_nn i) 0) (seq 0 N)
                then (Ok (fun i => if Reqb (deg i) 0 then av_nn i else av_nn i / deg i), restore tmp_self s)
                else (Raise AssertionError, s)
            end
        end
  end.

(** sparse/models/ensembles.py:229-281; models.py:235-287 *)
Definition expected_av_nn_degree (ddir ndir : dir) (selfloops : option bool) (deg_recompute recompute : bool)
    (s : ens) : res (nat -> R) * ens :=
  match a_param s with
  | None => (Raise GenericException, s)
  | Some param =>
      if is_none (a_nn s ndir ddir) || recompute || deg_recompute then
        let tmp_self := a_selfloops s in
        let sl := match selfloops with None => a_selfloops s | Some b => b end in
        let (deg_recompute, s) := set_selfloops selfloops deg_recompute s in
        match degree_of ddir deg_recompute s with
        | (Raise e, s) => (Raise e, s)
        | (Ok deg, s) =>
            match expected_av_nn_property N deg ndir (Some sl) false s with
            | (Raise e, s) => (Raise e, s)
            | (Ok res, s) =>
                let s := restore tmp_self (with_nn s ndir ddir res) in
                (attr (a_nn s ndir ddir), s)
            end
        end
      else (attr (a_nn s ndir ddir), s)
  end.

(** The graph argument of log_likelihood: an adjacency matrix with its shape and its CSR rows, or
    something that is neither a graph nor a matrix. *)
(** sparse/models/ensembles.py:283-326 (DiGraphEnsemble.log_likelihood) *)
Inductive graph_arg := Matrix (rows cols : nat) (row : nat -> list nat) | NotAGraph.

(** sparse/models/ensembles.py:283-326 (log_likelihood).  The local variable [selfloops] is computed
    and then not used: [_likelihood] gets [self.selfloops]. *)
Definition log_likelihood (g : graph_arg) (selfloops : option bool) (s : ens) : res num :=
  match a_param s with
  | None => Raise GenericException
  | Some param =>
      match g with
      | NotAGraph => Raise ValueError
      | Matrix r c row =>
          guard (Nat.eqb r N && Nat.eqb c N) ValueError
            (Ok (likelihood logp log1mp param prop_out prop_in prop_dyad row N (a_selfloops s)))
      end
  end.

(** The [weights] argument of sample. *)
(** sparse/models/ensembles.py:328-403 (DiGraphEnsemble.sample) *)
Inductive weights_arg := NoWeights | CrembWeights (s_out s_in : nat -> R) | OtherWeights.

(** sparse/models/ensembles.py:328-403 (sample): the links of the sampled graph, with weight 1 (True)
    or the scale of the exponential weight.  The argument [selfloops] is not used. *)
Definition sample (w : weights_arg) (selfloops : option bool) (s : ens) : res (prog (list (nat * nat * R))) :=
  match a_param s with
  | None => Raise GenericException
  | Some param =>
      match w with
      | NoWeights =>
          Ok (pbind (binary_sample p_ij param prop_out prop_in prop_dyad N (a_selfloops s))
                (fun G => Ret (map (fun e => (e, 1)) G)))
      | CrembWeights s_out s_in =>
          cremb_sample p_ij param prop_out prop_in prop_dyad s_out s_in N (a_selfloops s)
      | OtherWeights => Raise ValueError
      end
  end.

(** The queries of a model, for histories. *)
(** sparse/models/ensembles.py:109-124 (DiGraphEnsemble.expected_num_edges);
    sparse/models/ensembles.py:126-145 (DiGraphEnsemble.expected_degree);
    sparse/models/ensembles.py:161-227
    (DiGraphEnsemble.expected_av_nn_property);
    sparse/models/ensembles.py:229-281 (DiGraphEnsemble.expected_av_nn_degree)
    *)
Inductive query :=
| QEdges (recompute : bool)
| QDegree (d : dir) (recompute : bool)
| QProperty (len : nat) (prop : nat -> R) (ndir : dir) (selfloops : option bool) (deg_recompute : bool)
| QNNDegree (ddir ndir : dir) (selfloops : option bool) (deg_recompute recompute : bool).

(** The value returned by a query: a number or a vector. *)
(** sparse/models/ensembles.py:109-124 (DiGraphEnsemble.expected_num_edges);
    sparse/models/ensembles.py:126-145 (DiGraphEnsemble.expected_degree);
    sparse/models/ensembles.py:161-227
    (DiGraphEnsemble.expected_av_nn_property);
    sparse/models/ensembles.py:229-281 (DiGraphEnsemble.expected_av_nn_degree)
    *)
Inductive answer := Scalar (v : R) | Vector (v : nat -> R).

Definition lift_res {A} (f : A -> answer) (r : res A * ens) : res answer * ens :=
  (match fst r with Ok v => Ok (f v) | Raise e => Raise e end, snd r).

Definition run_query (q : query) (s : ens) : res answer * ens :=
  match q with
  | QEdges r => lift_res Scalar (expected_num_edges r s)
  | QDegree d r => lift_res Vector (degree_of d r s)
  | QProperty len prop nd sl r => lift_res Vector (expected_av_nn_property len prop nd sl r s)
  | QNNDegree dd nd sl dr r => lift_res Vector (expected_av_nn_degree dd nd sl dr r s)
  end.

(** A history of queries: all answers and the final object. *)
(** sparse/models/ensembles.py:109-124 (DiGraphEnsemble.expected_num_edges);
    sparse/models/ensembles.py:126-145 (DiGraphEnsemble.expected_degree);
    sparse/models/ensembles.py:161-227
    (DiGraphEnsemble.expected_av_nn_property);
    sparse/models/ensembles.py:229-281 (DiGraphEnsemble.expected_av_nn_degree)
    *)
Fixpoint run_queries (qs : list query) (s : ens) : list (res answer) * ens :=
  match qs with
  | [] => ([], s)
  | q :: t => let (a, s1) := run_query q s in let (l, s2) := run_queries t s1 in (a :: l, s2)
  end.
End State.

Arguments mkEns {P}.
Arguments a_param {P}. Arguments a_selfloops {P}. Arguments a_edges {P}. Arguments a_degree {P}.
Arguments a_out {P}. Arguments a_in {P}. Arguments a_nn {P}.
Arguments set_param {P}. Arguments new_ens {P}.
Arguments with_edges {P}. Arguments with_degrees {P}. Arguments with_selfloops {P}. Arguments with_nn {P}.
Arguments restore {P}. Arguments set_selfloops {P}. Arguments lift_res {P A}.
Arguments expected_num_edges {P X Z}. Arguments expected_degree {P X Z}. Arguments expected_out_degree {P X Z}.
Arguments expected_in_degree {P X Z}. Arguments degree_of {P X Z}. Arguments expected_av_nn_property {P X Z}.
Arguments expected_av_nn_degree {P X Z}. Arguments log_likelihood {P X Z}. Arguments sample {P X Z}.
Arguments run_query {P X Z}. Arguments run_queries {P X Z}.
