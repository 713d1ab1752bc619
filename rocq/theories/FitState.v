(** What MultiFitnessModel.fit does to the object (sparse, dense and Spark): the attributes [param] and
    [solver_output] before and after the call, whether or not it raises.  Model only. *)
From Verif Require Import Base Num Kernels MultiKernels Solver Fit Layers LayerFit FitStart MultiState SparkMulti.

(** [solver_output]: one solution, or a list with an entry per label that is None until the label is fitted. *)
(** sparse/models/fitness.py:578-706 (MultiFitnessModel.fit) *)
Inductive output := OneFit (s : solution) | LabelFits (l : list (option solution)).
(** [None] when the attribute does not exist. *)
(** sparse/models/fitness.py:578-706 (MultiFitnessModel.fit) *)
Record fit_state := mkFit { fs_param : option (list num); fs_output : option output }.

(** [l[i] = v] *)
(** sparse/models/fitness.py:671-672; models.py:2182-2183; spark/models.py:3527-3528 *)
Definition set_nth {A} (l : list A) (i : nat) (v : A) : list A := firstn i l ++ match skipn i l with [] => [] | _ :: t => v :: t end.

(** The arrays being filled: [param] (an integer array if [integer]) and [solver_output]. *)
(** sparse/models/fitness.py:578-706 (MultiFitnessModel.fit) *)
Definition filling : Type := (list num * list (option solution))%type.

(** One solver call per label: [layer i] is the objective of label [i], [num_e i] its target. *)
(** sparse/models/fitness.py:655-668; models.py:2166-2179; spark/models.py:3503-3519 *)
Definition solve_label (layer : nat -> num -> num * num) (num_e x0 : nat -> num) (atol rtol : num) (maxiter : nat)
    (i : nat) : res solution :=
  monotonic_newton_solver (layer i) (x0 i) (num_e i) atol rtol maxiter (Fin 0) PInf None None.

(** The loop of the sparse and dense classes: solve one label, store the result, go on. *)
(** sparse/models/fitness.py:652-676; models.py:2163-2187 *)
Fixpoint fill_each (integer : bool) (solve : nat -> res solution) (labels : list nat) (s : filling) : res unit * filling :=
  match labels with
  | [] => (Ok tt, s)
  | i :: t =>
      match solve i with
      | Raise e => (Raise e, s)
      | Ok sol =>
          match store integer (sol_x sol) with
          | Raise e => (Raise e, s)
          | Ok p => fill_each integer solve t (set_nth (fst s) i p, set_nth (snd s) i (Some sol))
          end
      end
  end.

(** [collect()]: all labels are solved by the workers.  An exception in a worker reaches the caller as a
    Py4JJavaError, here GenericException. *)
(** spark/models.py:3498-3524 *)
Fixpoint collect (solve : nat -> res solution) (labels : list nat) : res (list (nat * solution)) :=
  match labels with
  | [] => Ok []
  | i :: t =>
      match solve i with
      | Raise _ => Raise GenericException
      | Ok sol => do rest <- collect solve t ; Ok ((i, sol) :: rest)
      end
  end.
(** spark/models.py:3525-3531: the results are stored one after the other *)
Fixpoint store_all (integer : bool) (l : list (nat * solution)) (s : filling) : res unit * filling :=
  match l with
  | [] => (Ok tt, s)
  | (i, sol) :: t =>
      match store integer (sol_x sol) with
      | Raise e => (Raise e, s)
      | Ok p => store_all integer t (set_nth (fst s) i p, set_nth (snd s) i (Some sol))
      end
  end.
(** spark/models.py:3498-3531 *)
Definition fill_spark (integer : bool) (solve : nat -> res solution) (labels : list nat) (s : filling) : res unit * filling :=
  match collect solve labels with
  | Raise e => (Raise e, s)
  | Ok l => store_all integer l s
  end.

(** The method.  [fill] is [fill_each] (sparse/models/fitness.py:578-706; models.py:2104-2217) or [fill_spark]
    (spark/models.py:3434-3562).  [layer] and [fn] are the objectives of the labels and of the projection.  In the
    sparse class the columns of the labels are computed after [param] has been set; the other classes have them
    already ([Ok]).  At least one label is assumed (with none [x0[0:1]] is an empty array). *)
Definition fit_call (fill : bool -> (nat -> res solution) -> list nat -> filling -> res unit * filling)
    (num_labels : nat) (per_label : bool) (fn : num -> num * num) (layer : res (nat -> num -> num * num))
    (num_edges : option num) (num_edges_label : option (nat -> num))
    (x0 : start) (method : fit_method) (atol rtol : num) (maxiter : nat) (s : fit_state) : res unit * fit_state :=
  let (integer, a) := start_array num_labels x0 in
  if negb (Nat.eqb (arr_len a) num_labels) then (Raise ValueError, s) else
  match a with
  | NonNumeric _ => (Raise ValueError, s)
  | Numeric l =>
      if any_neg l then (Raise ValueError, s) else
      match method with
      | Density =>
          if per_label then
            match num_edges_label with
            | None => (Raise ValueError, s)
            | Some num_e =>
                let empty := (l, repeat None num_labels) in
                let (r, f) :=
                  match layer with
                  | Raise e => (Raise e, empty)
                  | Ok fl => fill integer (solve_label fl num_e (fun i => nth i l NaN) atol rtol maxiter) (seq 0 num_labels) empty
                  end in
                (r, mkFit (Some (fst f)) (Some (LabelFits (snd f))))
            end
          else
            match num_edges with
            | None => (Raise ValueError, s)
            | Some target =>
                match monotonic_newton_solver fn (nth 0 l NaN) target atol rtol maxiter (Fin 0) PInf None None with
                | Raise e => (Raise e, s)
                | Ok sol => (Ok tt, mkFit (Some (repeat (sol_x sol) num_labels)) (Some (OneFit sol)))
                end
            end
      | Mle => (Raise ValueError, s)
      | OtherMethod => (Raise ValueError, s)
      end
  end.

(** The objective of label [i] in the sparse class, whose columns come from tuple_list_to_csx and back. *)
(** sparse/models/fitness.py:636-654, 718-726 *)
Definition sparse_layer (p_jac_ijk : num -> num -> num -> num * num) (num_labels : nat) (prop_out prop_in : list tuple)
    (selfloops : bool) : res (nat -> num -> num * num) :=
  do po <- by_layer num_labels prop_out ;
  do pin <- by_layer num_labels prop_in ;
  Ok (fun i delta => exp_edges_f_jac_layer p_jac_ijk delta (zip (nth i po ([], []))) (zip (nth i pin ([], []))) selfloops).
(** The objective of label [i] in the Spark class, whose columns are slices of a csc matrix. *)
(** spark/models.py:3428-3432, 3627-3635 *)
Definition spark_layer (p_jac_ijk : num -> num -> num -> num * num) (num_labels : nat) (prop_out prop_in : list tuple)
    (selfloops : bool) : res (nat -> num -> num * num) :=
  Ok (fun i delta => exp_edges_f_jac_layer p_jac_ijk delta (spark_column num_labels prop_out i)
                       (spark_column num_labels prop_in i) selfloops).
