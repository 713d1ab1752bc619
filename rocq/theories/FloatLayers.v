(** The layers of the multi-label models in double precision: expected links and log-likelihood.  Model only.

    As in Layers.v, with every operation followed by a rounding [rn].  The kernels are those of FloatMulti.v; the dyadic term
    they ignore is left out.  The binary sampler of a layer compares two doubles and needs no rounding: it is the one of
    Layers.v with the rounded probabilities. *)
From Verif Require Import Base Num MultiKernels Ensemble Layers Float.

Section Rounded.
Variable rn : R -> num.

(** sparse/models/ensembles.py:971-983 (exp_edges_layer) *)
Definition rexp_edges_layer (p_ijk : num -> num -> num -> num) (param : num) (prop_out prop_in : svec) (selfloops : bool) : num :=
  for_each prop_out (fun o exp_e =>
    for_each prop_in (fun q exp_e =>
      let '(i, p_out_i) := o in let '(j, p_in_j) := q in
      if adm selfloops i j then radd rn exp_e (p_ijk param p_out_i p_in_j) else exp_e) exp_e) (Fin 0).

(** sparse/models/ensembles.py:1048-1100 (_likelihood_layer) *)
Definition rlikelihood_layer (logp_ijk log1mp_ijk : num -> num -> num -> num) (param : num) (prop_out prop_in : svec)
    (row : nat -> list nat) (N : nat) (selfloops : bool) : num :=
  if impossible_link prop_out prop_in row N then NInf
  else
    flow_val (each_flow prop_out (fun o =>
      each_flow prop_in (fun q like =>
        let '(i, out_i) := o in let '(j, in_j) := q in
        if adm selfloops i j then
          let tmp := if existsb (Nat.eqb j) (row i) then logp_ijk param out_i in_j else log1mp_ijk param out_i in_j in
          if isinf tmp then Return tmp else Next (radd rn like tmp)
        else Next like)) (Fin 0)).

(** sparse/models/ensembles.py:782-797 (the loop over the labels of log_likelihood); [po k], [pin k] are the properties of
    layer [k], [row k i] the indices of row [i] of its matrix *)
Definition rlikelihood_tensor (logp_ijk log1mp_ijk : num -> num -> num -> num) (param : nat -> num) (po pin : nat -> svec)
    (row : nat -> nat -> list nat) (N L : nat) (selfloops : bool) : num :=
  flow_val (for_flow L (fun k like =>
    let tmp := rlikelihood_layer logp_ijk log1mp_ijk (param k) (po k) (pin k) (row k) N selfloops in
    if isinf tmp then Return tmp else Next (radd rn like tmp)) (Fin 0)).

(** sparse/models/ensembles.py:764-797: the same with the properties [prop_out], [prop_in] given by vertex, which are first
    turned into one tuple per label *)
Definition rlog_likelihood_tensor (logp_ijk log1mp_ijk : num -> num -> num -> num) (N num_labels : nat) (prop_out prop_in : list tuple)
    (param : nat -> num) (selfloops : bool) (row : nat -> nat -> list nat) : res num :=
  do po <- by_layer num_labels prop_out ;
  do pin <- by_layer num_labels prop_in ;
  Ok (rlikelihood_tensor logp_ijk log1mp_ijk param (fun k => zip (nth k po ([], []))) (fun k => zip (nth k pin ([], []))) row N num_labels selfloops).
End Rounded.
