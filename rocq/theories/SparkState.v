(** Objects of the spark module: parameters, self-loop option, cached measures, and the methods that
    answer a caller.  Model only.  The methods of spark/models.py are those of EnsembleState.v with the
    distributed computations (Spark.v) in place of the single-process ones. *)
From Verif Require Import Base Num Prob Ensemble EnsembleState Spark.

Section State.
Variables P X Z : Type.
Variables (p_ij : P -> X -> X -> Z -> R) (logp log1mp : P -> X -> X -> Z -> num).
Variables (prop_out prop_in : nat -> X) (prop_dyad : nat -> nat -> Z) (N B : nat).

(** spark/models.py:132-149 (DiGraphEnsemble.expected_num_edges) *)
Definition sp_num_edges (recompute : bool) (s : ens P) : res R * ens P :=
  match a_param s with
  | None => (Raise GenericException, s)
  | Some param =>
      let s' := if is_none (a_edges s) || recompute
                then with_edges s (spark_edges param prop_out prop_in prop_dyad N B p_ij (a_selfloops s))
                else s in
      (attr (a_edges s'), s')
  end.

(** spark/models.py:151-180 (DiGraphEnsemble.expected_degree) *)
Definition sp_degree (recompute : bool) (s : ens P) : res (nat -> R) * ens P :=
  match a_param s with
  | None => (Raise GenericException, s)
  | Some param =>
      let s' := if is_none (a_degree s) || recompute
                then let '(d, o, i) := spark_degrees param prop_out prop_in prop_dyad N B p_ij (a_selfloops s) in
                     with_degrees s (Some d) (Some o) (Some i)
                else s in
      (attr (a_degree s'), s')
  end.

(** spark/models.py:182-187 (DiGraphEnsemble.expected_out_degree) *)
Definition sp_out_degree (recompute : bool) (s : ens P) : res (nat -> R) * ens P :=
  if is_none (a_out s) || recompute then
    match sp_degree recompute s with
    | (Raise e, s') => (Raise e, s')
    | (Ok _, s') => (attr (a_out s'), s')
    end
  else (attr (a_out s), s).

(** spark/models.py:189-194 (DiGraphEnsemble.expected_in_degree) *)
Definition sp_in_degree (recompute : bool) (s : ens P) : res (nat -> R) * ens P :=
  if is_none (a_in s) || recompute then
    match sp_degree recompute s with
    | (Raise e, s') => (Raise e, s')
    | (Ok _, s') => (attr (a_in s'), s')
    end
  else (attr (a_in s), s).

(** The three-way choice of spark/models.py:223-230 and 290-298. *)
Definition sp_degree_of (d : dir) (recompute : bool) (s : ens P) : res (nat -> R) * ens P :=
  match d with
  | Dout => sp_out_degree recompute s
  | Din => sp_in_degree recompute s
  | Doutin => sp_degree recompute s
  | Dother => (Raise ValueError, s)
  end.

(** spark/models.py:196-262 (DiGraphEnsemble.expected_av_nn_property).  The option handed to the blocks is
    the argument [selfloops], which at that point equals [self.selfloops]. *)
Definition sp_av_nn_property (len : nat) (prop : nat -> R) (ndir : dir) (selfloops : option bool)
    (deg_recompute : bool) (s : ens P) : res (nat -> R) * ens P :=
  match a_param s with
  | None => (Raise GenericException, s)
  | Some param =>
      if negb (Nat.eqb len N) then (Raise ValueError, s)
      else
        let tmp_self := a_selfloops s in
        let sl := match selfloops with None => a_selfloops s | Some b => b end in
        let (deg_recompute, s) := set_selfloops selfloops deg_recompute s in
        match sp_degree_of ndir deg_recompute s with
        | (Raise e, s) => (Raise e, s)
        | (Ok deg, s) =>
            let av_nn := spark_av_nn param prop_out prop_in prop_dyad N B p_ij prop ndir sl in
            if forallb (fun i => negb (Reqb (deg i) 0) || Reqb (av_nn i) 0) (seq 0 N)
            then (Ok (fun i => if Reqb (deg i) 0 then av_nn i else av_nn i / deg i), restore tmp_self s)
            else (Raise AssertionError, s)
        end
  end.

(** spark/models.py:264-316 (DiGraphEnsemble.expected_av_nn_degree); [recompute] defaults to None, which is
    false in the test of line 281. *)
Definition sp_av_nn_degree (ddir ndir : dir) (selfloops : option bool) (deg_recompute recompute : bool)
    (s : ens P) : res (nat -> R) * ens P :=
  match a_param s with
  | None => (Raise GenericException, s)
  | Some param =>
      if is_none (a_nn s ndir ddir) || recompute || deg_recompute then
        let tmp_self := a_selfloops s in
        let sl := match selfloops with None => a_selfloops s | Some b => b end in
        let (deg_recompute, s) := set_selfloops selfloops deg_recompute s in
        match sp_degree_of ddir deg_recompute s with
        | (Raise e, s) => (Raise e, s)
        | (Ok deg, s) =>
            match sp_av_nn_property N deg ndir (Some sl) false s with
            | (Raise e, s) => (Raise e, s)
            | (Ok res, s) =>
                let s := restore tmp_self (with_nn s ndir ddir res) in
                (attr (a_nn s ndir ddir), s)
            end
        end
      else (attr (a_nn s ndir ddir), s)
  end.

(** spark/models.py:132-316: one call. *)
Definition sp_query (q : query) (s : ens P) : res answer * ens P :=
  match q with
  | QEdges r => lift_res Scalar (sp_num_edges r s)
  | QDegree d r => lift_res Vector (sp_degree_of d r s)
  | QProperty len prop nd sl r => lift_res Vector (sp_av_nn_property len prop nd sl r s)
  | QNNDegree dd nd sl dr r => lift_res Vector (sp_av_nn_degree dd nd sl dr r s)
  end.

(** spark/models.py:318-371 (DiGraphEnsemble.log_likelihood).  Unlike the single-process classes
    (EnsembleState.log_likelihood), the argument [selfloops] reaches the computation. *)
Definition sp_log_likelihood (g : Spark.graph_arg) (selfloops : option bool) (s : ens P) : res num :=
  match a_param s with
  | None => Raise GenericException
  | Some param =>
      let sl := match selfloops with None => a_selfloops s | Some b => b end in
      do row <- arg_rows N g ;
      Ok (spark_likelihood param prop_out prop_in prop_dyad N B logp log1mp row sl)
  end.

(** spark/models.py:448-534 (DiGraphEnsemble.sample), the links of the sampled graph; the argument
    [selfloops] reaches the computation. *)
Definition sp_sample (w : weights_arg) (selfloops : option bool) (s : ens P) : res (prog (list (nat * nat * R))) :=
  match a_param s with
  | None => Raise GenericException
  | Some param =>
      let sl := match selfloops with None => a_selfloops s | Some b => b end in
      match w with
      | NoWeights =>
          Ok (pbind (spark_sample param prop_out prop_in prop_dyad N B p_ij sl)
                (fun G => Ret (map (fun e => (e, 1)) G)))
      | CrembWeights s_out s_in => spark_cremb param prop_out prop_in prop_dyad N B p_ij s_out s_in sl
      | OtherWeights => Raise ValueError
      end
  end.
End State.

Arguments sp_num_edges {P X Z}. Arguments sp_degree {P X Z}. Arguments sp_out_degree {P X Z}.
Arguments sp_in_degree {P X Z}. Arguments sp_degree_of {P X Z}. Arguments sp_av_nn_property {P X Z}.
Arguments sp_av_nn_degree {P X Z}. Arguments sp_query {P X Z}. Arguments sp_log_likelihood {P X Z}.
Arguments sp_sample {P X Z}.

(** What a caller does with an object: ask for a measure, assign (or fit) the parameter, assign the
    self-loop option. *)
(** spark/models.py:132-316; spark/models.py:1623-1694 (FitnessModel.fit) *)
Inductive event (P : Type) := Ask (q : query) | Refit (p : P) | SetLoops (b : bool).
Arguments Ask {P}. Arguments Refit {P}. Arguments SetLoops {P}.

(** The answers of an object to a sequence of events, given how it answers one query. *)
(** spark/models.py:132-316 *)
Fixpoint run_events {P} (ask : query -> ens P -> res answer * ens P) (l : list (event P)) (s : ens P)
    : list (res answer) * ens P :=
  match l with
  | [] => ([], s)
  | Ask q :: t => let (a, s1) := ask q s in let (r, s2) := run_events ask t s1 in (a :: r, s2)
  | Refit p :: t => run_events ask t (set_param s p)
  | SetLoops b :: t => run_events ask t (with_selfloops s b)
  end.
