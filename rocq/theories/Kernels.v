(** Connection probabilities of the single-layer models: model only, no proofs.
    Every kernel is written branch by branch over [num]. *)
From Verif Require Import Base Num.

(** * FitnessModel, sparse module *)

(** src/graph_ensembles/sparse/models/fitness.py:289-300 (FitnessModel.p_ij).
    [d] stands for [d[0]]. *)
Definition fit_p_ij (d x y z : num) : num :=
  if is0 x || is0 y || is0 z || is0 d then Fin 0
  else let tmp := nmul (nmul (nmul d x) y) z in
       if isinf tmp then Fin 1 else ndiv tmp (nadd (Fin 1) tmp).

(** src/graph_ensembles/sparse/models/fitness.py:302-313 (FitnessModel.logp). *)
Definition fit_logp (d x y z : num) : num :=
  if is0 x || is0 y || is0 z || is0 d then NInf
  else let tmp := nmul (nmul (nmul d x) y) z in
       if isinf tmp then Fin 0 else nlog (ndiv tmp (nadd (Fin 1) tmp)).

(** src/graph_ensembles/sparse/models/fitness.py:315-328 (FitnessModel.log1mp). *)
Definition fit_log1mp (d x y z : num) : num :=
  if is0 x || is0 y || is0 z || is0 d then Fin 0
  else let tmp := nmul (nmul (nmul d x) y) z in
       if isinf tmp then NInf else nlog1p (ndiv (nopp tmp) (nadd (Fin 1) tmp)).

(** src/graph_ensembles/sparse/models/fitness.py:270-287 (FitnessModel.p_jac_ij). *)
Definition fit_p_jac (d x y z : num) : num * num :=
  if is0 x || is0 y || is0 z then (Fin 0, Fin 0)
  else if is0 d then (Fin 0, nmul (nmul x y) z)
  else let tmp := nmul (nmul x y) z in
       let tmp1 := nmul d tmp in
       if isinf tmp1 then (Fin 1, Fin 0)
       else let q := nadd (Fin 1) tmp1 in (ndiv tmp1 q, ndiv tmp (nmul q q)).

(** * ScaleInvariantModel, sparse module *)

(** src/graph_ensembles/sparse/models/invariant.py:66-77 (ScaleInvariantModel.p_ij). *)
Definition inv_p_ij (d x y z : num) : num :=
  if is0 x || is0 y || is0 z || is0 d then Fin 0
  else let tmp := nmul (nmul (nmul d x) y) z in
       if isinf tmp then Fin 1 else nopp (nexpm1 (nopp tmp)).

(** src/graph_ensembles/sparse/models/invariant.py:79-90 (ScaleInvariantModel.logp). *)
Definition inv_logp (d x y z : num) : num :=
  if is0 x || is0 y || is0 z || is0 d then NInf
  else let tmp := nmul (nmul (nmul d x) y) z in
       if isinf tmp then Fin 0 else nlog (nopp (nexpm1 (nopp tmp))).

(** src/graph_ensembles/sparse/models/invariant.py:92-105 (ScaleInvariantModel.log1mp). *)
Definition inv_log1mp (d x y z : num) : num :=
  if is0 x || is0 y || is0 z || is0 d then Fin 0
  else let tmp := nmul (nmul (nmul d x) y) z in
       if isinf tmp then NInf else nopp tmp.

(** src/graph_ensembles/sparse/models/invariant.py:47-64 (ScaleInvariantModel.p_jac_ij). *)
Definition inv_p_jac (d x y z : num) : num * num :=
  if is0 x || is0 y || is0 z then (Fin 0, Fin 0)
  else if is0 d then (Fin 0, nmul (nmul x y) z)
  else let tmp := nmul (nmul x y) z in
       let tmp1 := nmul d tmp in
       if isinf tmp1 then (Fin 1, Fin 0)
       else (nopp (nexpm1 (nopp tmp1)), nmul tmp (nexp (nopp tmp1))).

(** * The same kernels in the dense and spark modules (no dyadic factor) *)

(** src/graph_ensembles/models.py:1305-1316 and
    src/graph_ensembles/spark/models.py:1748-1759 (FitnessModel.p_ij; [z_ij] unused). *)
Definition fit_p_ij_dense (d x y z : num) : num :=
  if is0 x || is0 y || is0 d then Fin 0
  else let tmp := nmul (nmul d x) y in
       if isinf tmp then Fin 1 else ndiv tmp (nadd (Fin 1) tmp).

(** src/graph_ensembles/models.py:1318-1329, src/graph_ensembles/spark/models.py:1761-1772. *)
Definition fit_logp_dense (d x y z : num) : num :=
  if is0 x || is0 y || is0 d then NInf
  else let tmp := nmul (nmul d x) y in
       if isinf tmp then Fin 0 else nlog (ndiv tmp (nadd (Fin 1) tmp)).

(** src/graph_ensembles/models.py:1331-1344, src/graph_ensembles/spark/models.py:1774-1787. *)
Definition fit_log1mp_dense (d x y z : num) : num :=
  if is0 x || is0 y || is0 d then Fin 0
  else let tmp := nmul (nmul d x) y in
       if isinf tmp then NInf else nlog1p (ndiv (nopp tmp) (nadd (Fin 1) tmp)).

(** src/graph_ensembles/models.py:1286-1303, src/graph_ensembles/spark/models.py:1729-1746
    (FitnessModel.p_jac_ij); also the layer kernel MultiFitnessModel.p_jac_ijk,
    sparse/models/fitness.py:805-822, models.py:2303-2320, spark/models.py:3695-3712. *)
Definition fit_p_jac_dense (d x y : num) : num * num :=
  if is0 x || is0 y then (Fin 0, Fin 0)
  else if is0 d then (Fin 0, nmul x y)
  else let tmp := nmul x y in
       let tmp1 := nmul d tmp in
       if isinf tmp1 then (Fin 1, Fin 0)
       else let q := nadd (Fin 1) tmp1 in (ndiv tmp1 q, ndiv tmp (nmul q q)).

(** src/graph_ensembles/models.py:1393-1404, src/graph_ensembles/spark/models.py:1848-1859
    (ScaleInvariantModel.p_ij); also MultiInvariantModel.p_ijk,
    sparse/models/invariant.py:311-324, models.py:2585-2598, spark/models.py:4040-4053. *)
Definition inv_p_ij_dense (d x y z : num) : num :=
  if is0 x || is0 y || is0 d then Fin 0
  else let tmp := nmul (nmul d x) y in
       if isinf tmp then Fin 1 else nopp (nexpm1 (nopp tmp)).

(** src/graph_ensembles/models.py:1406-1417, src/graph_ensembles/spark/models.py:1861-1872;
    also MultiInvariantModel.logp_ijk, sparse/models/invariant.py:326-339, models.py:2600-2613,
    spark/models.py:4055-4068. *)
Definition inv_logp_dense (d x y z : num) : num :=
  if is0 x || is0 y || is0 d then NInf
  else let tmp := nmul (nmul d x) y in
       if isinf tmp then Fin 0 else nlog (nopp (nexpm1 (nopp tmp))).

(** src/graph_ensembles/models.py:1419-1428 (ScaleInvariantModel.log1mp, no isinf branch);
    also MultiInvariantModel.log1mp_ijk, sparse/models/invariant.py:341-350, models.py:2615-2624,
    spark/models.py:4070-4079.  Unary minus binds tighter than the products. *)
Definition inv_log1mp_dense (d x y z : num) : num :=
  if is0 x || is0 y || is0 d then Fin 0
  else nmul (nmul (nopp d) x) y.

(** src/graph_ensembles/spark/models.py:1874-1887 (ScaleInvariantModel.log1mp). *)
Definition inv_log1mp_spark (d x y z : num) : num :=
  if is0 x || is0 y || is0 d then Fin 0
  else let tmp := nmul (nmul d x) y in
       if isinf tmp then NInf else nopp tmp.

(** src/graph_ensembles/models.py:1374-1391, src/graph_ensembles/spark/models.py:1829-1846
    (ScaleInvariantModel.p_jac_ij); also MultiInvariantModel.p_jac_ijk,
    sparse/models/invariant.py:190-207, models.py:2500-2517, spark/models.py:3931-3948. *)
Definition inv_p_jac_dense (d x y : num) : num * num :=
  if is0 x || is0 y then (Fin 0, Fin 0)
  else if is0 d then (Fin 0, nmul x y)
  else let tmp := nmul x y in
       let tmp1 := nmul d tmp in
       if isinf tmp1 then (Fin 1, Fin 0)
       else (nopp (nexpm1 (nopp tmp1)), nmul tmp (nexp (nopp tmp1))).

(** ** Layer kernels of the multi-label models *)

(** MultiFitnessModel.p_ijk: sparse/models/fitness.py:963-976, models.py:2385-2398,
    spark/models.py:3807-3820.  Textually the dense FitnessModel kernel. *)
Definition mfit_p_ijk (d x y z : num) : num :=
  if is0 x || is0 y || is0 d then Fin 0
  else let tmp := nmul (nmul d x) y in
       if isinf tmp then Fin 1 else ndiv tmp (nadd (Fin 1) tmp).

(** MultiFitnessModel.logp_ijk: sparse/models/fitness.py:978-991, models.py:2400-2413,
    spark/models.py:3822-3835. *)
Definition mfit_logp_ijk (d x y z : num) : num :=
  if is0 x || is0 y || is0 d then NInf
  else let tmp := nmul (nmul d x) y in
       if isinf tmp then Fin 0 else nlog (ndiv tmp (nadd (Fin 1) tmp)).

(** MultiFitnessModel.log1mp_ijk: sparse/models/fitness.py:993-1006, models.py:2415-2428,
    spark/models.py:3837-3850. *)
Definition mfit_log1mp_ijk (d x y z : num) : num :=
  if is0 x || is0 y || is0 d then Fin 0
  else let tmp := nmul (nmul d x) y in
       if isinf tmp then NInf else nlog1p (ndiv (nopp tmp) (nadd (Fin 1) tmp)).

(** MultiInvariantModel.p_ijk: sparse/models/invariant.py:311-324, models.py:2585-2598,
    spark/models.py:4040-4053. *)
Definition minv_p_ijk (d x y z : num) : num :=
  if is0 x || is0 y || is0 d then Fin 0
  else let tmp := nmul (nmul d x) y in
       if isinf tmp then Fin 1 else nopp (nexpm1 (nopp tmp)).

(** MultiInvariantModel.logp_ijk: sparse/models/invariant.py:326-339, models.py:2600-2613,
    spark/models.py:4055-4068. *)
Definition minv_logp_ijk (d x y z : num) : num :=
  if is0 x || is0 y || is0 d then NInf
  else let tmp := nmul (nmul d x) y in
       if isinf tmp then Fin 0 else nlog (nopp (nexpm1 (nopp tmp))).

(** MultiInvariantModel.log1mp_ijk: sparse/models/invariant.py:341-350, models.py:2615-2624,
    spark/models.py:4070-4079. *)
Definition minv_log1mp_ijk (d x y z : num) : num :=
  if is0 x || is0 y || is0 d then Fin 0
  else nmul (nmul (nopp d) x) y.
