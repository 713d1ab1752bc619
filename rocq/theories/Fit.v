(** Density fitting: model only, no proofs. *)
From Verif Require Import Base Num Kernels MultiKernels Ensemble Solver.

(** [f += p_tmp; jac += jac_tmp] *)
(** sparse/models/fitness.py:255-268 (FitnessModel.exp_edges_f_jac) *)
Definition acc_pair (s t : num * num) : num * num := (nadd (fst s) (fst t), nadd (snd s) (snd t)).

(** sparse/models/fitness.py:253-268 (FitnessModel.exp_edges_f_jac), 728-743
    (MultiFitnessModel.exp_edges_f_jac); models.py:1269-1284, 2239-2254 (the dense versions have no
    dyadic term, a constant here). *)
Definition exp_edges_f_jac {X Y Z} (p_jac_ij : num -> X -> Y -> Z -> num * num) (param : num)
    (prop_out : nat -> X) (prop_in : nat -> Y) (pdyad : nat -> nat -> Z) (N : nat) (selfloops : bool)
    : num * num :=
  for_range N (fun i s =>
    for_range N (fun j s =>
      if adm selfloops i j
      then acc_pair s (p_jac_ij param (prop_out i) (prop_in j) (pdyad i j))
      else s) s) (Fin 0, Fin 0).

(** sparse/models/fitness.py:745-760 (exp_edges_f_jac_layer); spark/models.py:3638-3654.
    [prop_out] and [prop_in] are the lists of (vertex, value) of the layer. *)
Definition exp_edges_f_jac_layer (p_jac_ijk : num -> num -> num -> num * num) (param : num)
    (prop_out prop_in : svec) (selfloops : bool) : num * num :=
  for_each prop_out (fun o s =>
    for_each prop_in (fun i s =>
      if adm selfloops (fst o) (fst i)
      then acc_pair s (p_jac_ijk param (snd o) (snd i))
      else s) s) (Fin 0, Fin 0).

(** models.py:2256-2271 (dense exp_edges_f_jac_layer) *)
Definition exp_edges_f_jac_layer_dense (p_jac_ijk : num -> num -> num -> num * num) (param : num)
    (prop_out prop_in : nat -> num) (N : nat) (selfloops : bool) : num * num :=
  exp_edges_f_jac (fun d x y (_ : unit) => p_jac_ijk d x y) param prop_out prop_in (fun _ _ => tt) N selfloops.

(** The [method] argument. *)
(** sparse/models/fitness.py:165-236 (FitnessModel.fit) *)
Inductive fit_method := Density | Mle | OtherMethod.

(** An array given by the user: numeric with these values, or with a non-numeric dtype. *)
(** sparse/models/fitness.py:165-236 (FitnessModel.fit) *)
Inductive user_array := Numeric (l : list num) | NonNumeric (len : nat).

Definition arr_len (a : user_array) : nat :=
  match a with Numeric l => length l | NonNumeric n => n end.

(** [np.any(x0 < 0)] *)
(** sparse/models/fitness.py:165-236 (FitnessModel.fit) *)
Definition any_neg (l : list num) : bool := existsb (fun x => nltb x (Fin 0)) l.

(** What a fit leaves in the object: [param], [solver_output], and whether the warning
    "Fit did not converge" was issued. *)
(** sparse/models/fitness.py:165-236 (FitnessModel.fit) *)
Record fitted := mkFitted { fitted_param : num; fitted_sol : solution; fitted_warned : bool }.

(** sparse/models/fitness.py:165-236 (FitnessModel.fit; ScaleInvariantModel inherits it);
    models.py:1186-1257 (dense).  [x0 = None] is the default.  [fun] is density_fit_fun. *)
Definition fitness_fit (density_fit_fun : num -> num * num) (num_edges : option num)
    (x0 : option user_array) (method : fit_method) (atol rtol : num) (maxiter : nat) : res fitted :=
  let x0 := match x0 with None => Numeric [Fin 0] | Some a => a end in
  guard (Nat.eqb (arr_len x0) 1) ValueError
  match x0 with
  | NonNumeric _ => Raise ValueError
  | Numeric l =>
      guard (negb (any_neg l)) ValueError
      match method with
      | Density =>
          match num_edges with
          | None => Raise ValueError
          | Some target =>
              do sol <- monotonic_newton_solver density_fit_fun (nth 0 l NaN) target atol rtol maxiter
                          (Fin 0) PInf None None ;
              Ok (mkFitted (sol_x sol) sol (negb (sol_converged sol)))
          end
      | Mle => Raise ValueError
      | OtherMethod => Raise ValueError
      end
  end.

(** The loop over labels of MultiFitnessModel.fit with per_label, sparse/models/fitness.py:652-675;
    models.py:2159-2187.  [layer i] is the objective of label [i], [num_e i] its target. *)
Fixpoint fit_layers (layer : nat -> num -> num * num) (num_e x0 : nat -> num) (atol rtol : num)
    (maxiter : nat) (labels : list nat) : res (list solution) :=
  match labels with
  | [] => Ok []
  | i :: t =>
      do sol <- monotonic_newton_solver (layer i) (x0 i) (num_e i) atol rtol maxiter (Fin 0) PInf None None ;
      do rest <- fit_layers layer num_e x0 atol rtol maxiter t ;
      Ok (sol :: rest)
  end.

(** sparse/models/fitness.py:578-706 (MultiFitnessModel.fit; MultiInvariantModel inherits it);
    models.py:2104-2217.  Returns the parameter vector and the list of solver outputs.
    Simplification: [self.param = x0.copy()] has the dtype of [x0]; the model is for floating point
    [x0] (an integer array given by the user would truncate the fitted values, see DESIGN.md). *)
Definition multi_fit (num_labels : nat) (per_label : bool) (density_fit_fun : num -> num * num)
    (layer : nat -> num -> num * num) (num_edges : option num) (num_edges_label : option (nat -> num))
    (x0 : option user_array) (method : fit_method) (atol rtol : num) (maxiter : nat)
    : res (list num * list solution) :=
  let x0 := match x0 with None => Numeric (repeat (Fin 0) num_labels) | Some a => a end in
  guard (Nat.eqb (arr_len x0) num_labels) ValueError
  match x0 with
  | NonNumeric _ => Raise ValueError
  | Numeric l =>
      guard (negb (any_neg l)) ValueError
      match method with
      | Density =>
          if per_label then
            match num_edges_label with
            | None => Raise ValueError
            | Some num_e =>
                do sols <- fit_layers layer num_e (fun i => nth i l NaN) atol rtol maxiter (seq 0 num_labels) ;
                Ok (map sol_x sols, sols)
            end
          else
            match num_edges with
            | None => Raise ValueError
            | Some target =>
                do sol <- monotonic_newton_solver density_fit_fun (nth 0 l NaN) target atol rtol maxiter
                            (Fin 0) PInf None None ;
                Ok (repeat (sol_x sol) num_labels, [sol])
            end
      | Mle => Raise ValueError
      | OtherMethod => Raise ValueError
      end
  end.
