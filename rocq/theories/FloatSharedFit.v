(** The density fit of one parameter for all labels in double precision.  Model only.

    As in Fit.v, with the root finder of FloatSolver.v and every operation followed by a rounding [rn]. *)
From Verif Require Import Base Num MultiKernels Ensemble Solver Fit Layers Float FloatSolver.

Section Rounded.
Variable rn : R -> num.

(** sparse/models/fitness.py:708-716 (MultiFitnessModel.density_fit_fun) with 730-743 (exp_edges_f_jac); the rows of a table are pairs of
    labels and values. *)
Definition rdensity_fit_fun (p_jac_ij : num -> svec -> svec -> num * num) (num_vertices : nat) (prop_out prop_in : list tuple)
    (selfloops : bool) (delta : num) : num * num :=
  rexp_edges_f_jac rn (fun i j => p_jac_ij delta (zip (nth i prop_out ([], []))) (zip (nth j prop_in ([], [])))) num_vertices selfloops.

(** sparse/models/fitness.py:578-622, 677-700 (MultiFitnessModel.fit with method "density" and not per_label), for an array [x0] of
    doubles: the parameters and the output of the solver. *)
Definition rfit_shared (p_jac_ij : num -> svec -> svec -> num * num) (num_vertices num_labels : nat) (prop_out prop_in : list tuple) (selfloops : bool)
    (num_edges : option num) (x0 : option (list num)) (atol rtol : num) (maxiter : nat) : res (list num * list solution) :=
  let l := match x0 with None => repeat (Fin 0) num_labels | Some l => l end in
  guard (Nat.eqb (length l) num_labels) ValueError
  (guard (negb (any_neg l)) ValueError
   match num_edges with
   | None => Raise ValueError
   | Some target =>
       do sol <- rsolver rn (rdensity_fit_fun p_jac_ij num_vertices prop_out prop_in selfloops) (nth 0 l NaN) target atol rtol maxiter
                   (Fin 0) PInf None None ;
       Ok (repeat (sol_x sol) num_labels, [sol])
   end).
End Rounded.
