(** The density fit of one parameter per label in double precision.  Model only.

    As in Fit.v and LayerFit.v, with the root finder of FloatSolver.v and every operation followed by a rounding [rn]. *)
From Verif Require Import Base Num MultiKernels Ensemble Solver Fit Layers Float FloatSolver.

Section Rounded.
Variable rn : R -> num.

(** sparse/models/fitness.py:745-760 (exp_edges_f_jac_layer) *)
Definition rexp_edges_f_jac_layer (p_jac_ijk : num -> num -> num -> num * num) (param : num) (prop_out prop_in : svec) (selfloops : bool) : num * num :=
  for_each prop_out (fun o s =>
    for_each prop_in (fun i s =>
      if adm selfloops (fst o) (fst i) then racc_pair rn s (p_jac_ijk param (snd o) (snd i)) else s) s) (Fin 0, Fin 0).

(** sparse/models/fitness.py:652-675 (the loop over the labels) *)
Fixpoint rfit_layers (layer : nat -> num -> num * num) (num_e x0 : nat -> num) (atol rtol : num) (maxiter : nat) (labels : list nat)
    : res (list solution) :=
  match labels with
  | [] => Ok []
  | i :: t =>
      do sol <- rsolver rn (layer i) (x0 i) (num_e i) atol rtol maxiter (Fin 0) PInf None None ;
      do rest <- rfit_layers layer num_e x0 atol rtol maxiter t ;
      Ok (sol :: rest)
  end.

(** sparse/models/fitness.py:578-675 (MultiFitnessModel.fit with method "density" and per_label), for an array [x0] of doubles, one per
    label: the parameters and the outputs of the solver.  Simplification: as in [fit_per_label] the conversions of the properties come
    before the checks. *)
Definition rfit_per_label (p_jac_ijk : num -> num -> num -> num * num) (num_labels : nat) (prop_out prop_in : list tuple) (selfloops : bool)
    (num_edges_label : option (nat -> num)) (x0 : option (list num)) (atol rtol : num) (maxiter : nat) : res (list num * list solution) :=
  do po <- by_layer num_labels prop_out ;
  do pin <- by_layer num_labels prop_in ;
  let l := match x0 with None => repeat (Fin 0) num_labels | Some l => l end in
  guard (Nat.eqb (length l) num_labels) ValueError
  (guard (negb (any_neg l)) ValueError
   match num_edges_label with
   | None => Raise ValueError
   | Some num_e =>
       do sols <- rfit_layers (fun i delta => rexp_edges_f_jac_layer p_jac_ijk delta (zip (nth i po ([], []))) (zip (nth i pin ([], []))) selfloops)
                    num_e (fun i => nth i l NaN) atol rtol maxiter (seq 0 num_labels) ;
       Ok (map sol_x sols, sols)
   end).
End Rounded.
