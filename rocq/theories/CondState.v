(** ConditionalInvariantModel objects: parameter, self-loop option and cached measures.  Model only.
    Conventions as in EnsembleState.v: a method maps the object to its result and the object afterwards. *)
From Verif Require Import Base Num Kernels Prob Ensemble EnsembleState Conditional.

Section CondState.
(** What no modelled method changes: fitnesses, groups and the rows of the aggregate graph. *)
Variables (prop_out prop_in : nat -> num) (N : nat) (groups : nat -> nat) (adj : nat -> list (nat * R)).

(** conditional.py:215-232; an exception of the loop leaves the object as it was. *)
Definition c_num_edges (recompute : bool) (s : ens num) : res R * ens num :=
  match a_param s with
  | None => (Raise GenericException, s)
  | Some param =>
      if is_none (a_edges s) || recompute then
        match cond_exp_edges param prop_out prop_in N groups adj (a_selfloops s) with
        | Raise e => (Raise e, s)
        | Ok v => let s := with_edges s v in (attr (a_edges s), s)
        end
      else (attr (a_edges s), s)
  end.

(** conditional.py:234-254 *)
Definition c_degree (recompute : bool) (s : ens num) : res (nat -> R) * ens num :=
  match a_param s with
  | None => (Raise GenericException, s)
  | Some param =>
      if is_none (a_degree s) || recompute then
        match cond_exp_degrees param prop_out prop_in N groups adj (a_selfloops s) with
        | Raise e => (Raise e, s)
        | Ok (d, o, i) => let s := with_degrees s (Some d) (Some o) (Some i) in (attr (a_degree s), s)
        end
      else (attr (a_degree s), s)
  end.

(** conditional.py:256-261 *)
Definition c_out_degree (recompute : bool) (s : ens num) : res (nat -> R) * ens num :=
  if is_none (a_out s) || recompute then
    match c_degree recompute s with
    | (Raise e, s') => (Raise e, s')
    | (Ok _, s') => (attr (a_out s'), s')
    end
  else (attr (a_out s), s).

(** conditional.py:263-268 *)
Definition c_in_degree (recompute : bool) (s : ens num) : res (nat -> R) * ens num :=
  if is_none (a_in s) || recompute then
    match c_degree recompute s with
    | (Raise e, s') => (Raise e, s')
    | (Ok _, s') => (attr (a_in s'), s')
    end
  else (attr (a_in s), s).

(** The choice by direction in the inherited methods, sparse/models/ensembles.py:187-195, 256-263. *)
Definition c_degree_of (d : dir) (recompute : bool) (s : ens num) : res (nat -> R) * ens num :=
  match d with
  | Dout => c_out_degree recompute s
  | Din => c_in_degree recompute s
  | Doutin => c_degree recompute s
  | Dother => (Raise ValueError, s)
  end.

(** The kernel [self.p_ij] of the inherited methods: that of ScaleInvariantModel
    (sparse/models/invariant.py:66-77), not [cond_p_ij]; prop_dyad is 1 (conditional.py:1023-1027). *)
Definition inherited_p_ij (param x y z : num) : R := toR (inv_p_ij param x y z).

(** sparse/models/ensembles.py:161-227 (inherited).  [len] is [prop.shape[0]]. *)
Definition c_av_nn_property (len : nat) (prop : nat -> R) (ndir : dir) (selfloops : option bool)
    (deg_recompute : bool) (s : ens num) : res (nat -> R) * ens num :=
  match a_param s with
  | None => (Raise GenericException, s)
  | Some param =>
      if negb (Nat.eqb len N) then (Raise ValueError, s)
      else
        let tmp_self := a_selfloops s in
        let (deg_recompute, s) := set_selfloops selfloops deg_recompute s in
        match c_degree_of ndir deg_recompute s with
        | (Raise e, s) => (Raise e, s)
        | (Ok deg, s) =>
            match exp_av_nn_prop inherited_p_ij param prop_out prop_in (fun _ _ => Fin 1) prop ndir N (a_selfloops s) with
            | Raise e => (Raise e, s)
            | Ok av_nn =>
                if forallb (fun i => negb (Reqb (deg i) 0) || Reqb (av_nn i) 0) (seq 0 N)
                then (Ok (fun i => if Reqb (deg i) 0 then av_nn i else av_nn i / deg i), restore tmp_self s)
                else (Raise AssertionError, s)
            end
        end
  end.

(** sparse/models/ensembles.py:229-281 (inherited) *)
Definition c_av_nn_degree (ddir ndir : dir) (selfloops : option bool) (deg_recompute recompute : bool)
    (s : ens num) : res (nat -> R) * ens num :=
  match a_param s with
  | None => (Raise GenericException, s)
  | Some param =>
      if is_none (a_nn s ndir ddir) || recompute || deg_recompute then
        let tmp_self := a_selfloops s in
        let sl := match selfloops with None => a_selfloops s | Some b => b end in
        let (deg_recompute, s) := set_selfloops selfloops deg_recompute s in
        match c_degree_of ddir deg_recompute s with
        | (Raise e, s) => (Raise e, s)
        | (Ok deg, s) =>
            match c_av_nn_property N deg ndir (Some sl) false s with
            | (Raise e, s) => (Raise e, s)
            | (Ok res, s) =>
                let s := restore tmp_self (with_nn s ndir ddir res) in
                (attr (a_nn s ndir ddir), s)
            end
        end
      else (attr (a_nn s ndir ddir), s)
  end.

Definition c_query (q : query) (s : ens num) : res answer * ens num :=
  match q with
  | QEdges r => lift_res Scalar (c_num_edges r s)
  | QDegree d r => lift_res Vector (c_degree_of d r s)
  | QProperty len prop nd sl r => lift_res Vector (c_av_nn_property len prop nd sl r s)
  | QNNDegree dd nd sl dr r => lift_res Vector (c_av_nn_degree dd nd sl dr r s)
  end.

(** A history of queries: all answers and the final object. *)
(** sparse/models/conditional.py:215-232
    (ConditionalInvariantModel.expected_num_edges);
    sparse/models/conditional.py:234-254
    (ConditionalInvariantModel.expected_degree) *)
Fixpoint c_queries (qs : list query) (s : ens num) : list (res answer) * ens num :=
  match qs with
  | [] => ([], s)
  | q :: t => let (a, s1) := c_query q s in let (l, s2) := c_queries t s1 in (a :: l, s2)
  end.
End CondState.
