(** ConditionalInvariantModel objects: the graph argument of [log_likelihood] and the graph object returned by [sample].  Model only. *)
From Verif Require Import Base Num Kernels Prob Ensemble EnsembleState Ids Graphs Sampled Conditional MultiState GraphArgs.

Open Scope R_scope.
Open Scope list_scope.

Section CondObject.
(** What no method changes: fitnesses (finite), groups and the rows of the aggregate graph. *)
Variables (x y : nat -> R) (N : nat) (groups : nat -> nat) (adj : nat -> list (nat * R)).

(** conditional.py:298-301: entry of [Gmat.dot(adj).dot(Gmat.T)] for the matrix with stored entries [e] *)
Definition agg_weight (e : nat -> list (nat * R)) (a b : nat) : R :=
  sumn N (fun i => if Nat.eqb (groups i) a then suml (fun t => if Nat.eqb (groups (fst t)) b then snd t else 0) (e i) else 0).

(** conditional.py:270-331 (ConditionalInvariantModel.log_likelihood), any argument.  [read_matrix] is GraphArgs.v's model of the same
    lines in the other classes (conditional.py:277-285).  The positions of all stored entries count as links (conditional.py:306-316);
    the two aggregate graphs are compared, and the likelihood of the aggregate taken, by their positive entries (301-303, 319-329). *)
Definition c_log_likelihood (g : tensor_arg) (s : ens num) : res num :=
  match a_param s with
  | None => Raise GenericException
  | Some param => do t <- read_matrix g ;
      let '(r, c, e) := t in
      guard (Nat.eqb r N && Nat.eqb c N) ValueError
      (let M := max_group N groups in
       let agg_adj := fun a b => Rltb 0 (agg_weight e a b) in
       let obs := fun a b => Rltb 0 (suml (fun t => if Nat.eqb (fst t) b then snd t else 0) (adj a)) in
       if negb (forallb (fun c => Bool.eqb (agg_adj (fst c) (snd c)) (obs (fst c) (snd c))) (list_prod (seq 0 M) (seq 0 M)))
       then Ok NInf
       else
         let like := likelihood inv_logp inv_log1mp param (fun i => Fin (x i)) (fun i => Fin (y i)) (fun _ _ => Fin 1)
                       (fun i => map fst (e i)) N (a_selfloops s) in
         do agg_like <- agg_likelihood param (fun i => Fin (x i)) (fun i => Fin (y i)) N groups (a_selfloops s) agg_adj ;
         Ok (nsub like agg_like))
  end.

(** conditional.py:333-430 (ConditionalInvariantModel.sample): strengths default to the fitnesses (388-391, 405-408); the value of the
    argument [selfloops] (349-350) is not used; the matrix holds boolean ones or the drawn weights (386, 426-428). *)
Definition c_sample {ID O} (ref : option (reference ID O)) (weights : option weighting) (out_strength in_strength : option (nat -> R))
    (selfloops : option bool) (s : ens num) : res (prog (res (sampled spm ID O))) :=
  match a_param s with
  | None => Raise GenericException
  | Some param =>
      let s_out := match out_strength with None => x | Some v => v end in
      let s_in := match in_strength with None => y | Some v => v end in
      do m <- cond_sample param (fun i => Fin (x i)) (fun i => Fin (y i)) N groups adj (a_selfloops s) weights s_out s_in ;
      Ok (pbind m (fun r => Ret (match r with
                                 | Raise e => Raise e
                                 | Ok L => Ok (sparse_sample ref (match weights with None => false | Some _ => true end) N L)
                                 end)))
  end.
End CondObject.
