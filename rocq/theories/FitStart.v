(** MultiFitnessModel.fit with one parameter per label, for the number types of the start [x0].
    [self.param = x0.copy()] has the dtype of [x0] and the fitted values are assigned to its entries. *)
From Verif Require Import Base Num Kernels MultiKernels Solver Fit Layers LayerFit.

(** The argument [x0] after the conversion of sparse/models/fitness.py:606-613, models.py:2132-2139: nothing,
    an array or an iterable of numbers with its dtype (integer or floating point), or one scalar for all labels.
    [np.array] of Python integers is an integer array. *)
Inductive start :=
| NoStart
| Values (integer : bool) (a : user_array)
| Single (integer : bool) (v : num).

Definition start_array (num_labels : nat) (x0 : start) : bool * user_array :=
  match x0 with
  | NoStart => (false, Numeric (repeat (Fin 0) num_labels))
  | Values i a => (i, a)
  | Single i v => (i, Numeric (repeat v num_labels))
  end.

(** [param[i] = v] for an array of the given type: numpy truncates towards zero, and raises for the values no
    integer can hold. *)
(** sparse/models/fitness.py:578-706 (MultiFitnessModel.fit) *)
Definition trunc (r : R) : R := if Rltb r 0 then - IZR (Int_part (- r)) else IZR (Int_part r).
Definition store (integer : bool) (v : num) : res num :=
  if integer then
    match v with
    | Fin r => Ok (Fin (trunc r))
    | PInf | NInf => Raise OverflowError
    | NaN => Raise ValueError
    end
  else Ok v.

(** The loop over labels, sparse/models/fitness.py:652-675; models.py:2163-2187 *)
Fixpoint fit_store (integer : bool) (layer : nat -> num -> num * num) (num_e x0 : nat -> num) (atol rtol : num)
    (maxiter : nat) (labels : list nat) : res (list (num * solution)) :=
  match labels with
  | [] => Ok []
  | i :: t =>
      do sol <- monotonic_newton_solver (layer i) (x0 i) (num_e i) atol rtol maxiter (Fin 0) PInf None None ;
      do p <- store integer (sol_x sol) ;
      do rest <- fit_store integer layer num_e x0 atol rtol maxiter t ;
      Ok ((p, sol) :: rest)
  end.

(** sparse/models/fitness.py:578-706 with per_label and any start; as [fit_per_label] of LayerFit.v otherwise. *)
Definition fit_per_label_start (p_jac_ijk : num -> num -> num -> num * num) (num_labels : nat)
    (prop_out prop_in : list tuple) (selfloops : bool) (num_edges_label : option (nat -> num))
    (x0 : start) (method : fit_method) (atol rtol : num) (maxiter : nat) : res (list num * list solution) :=
  do po <- by_layer num_labels prop_out ;
  do pin <- by_layer num_labels prop_in ;
  let (integer, a) := start_array num_labels x0 in
  guard (Nat.eqb (arr_len a) num_labels) ValueError
  match a with
  | NonNumeric _ => Raise ValueError
  | Numeric l =>
      guard (negb (any_neg l)) ValueError
      match method with
      | Density =>
          match num_edges_label with
          | None => Raise ValueError
          | Some num_e =>
              do r <- fit_store integer
                (fun i delta => exp_edges_f_jac_layer p_jac_ijk delta (zip (nth i po ([], []))) (zip (nth i pin ([], []))) selfloops)
                num_e (fun i => nth i l NaN) atol rtol maxiter (seq 0 num_labels) ;
              Ok (map fst r, map snd r)
          end
      | Mle => Raise ValueError
      | OtherMethod => Raise ValueError
      end
  end.
