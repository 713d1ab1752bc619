(** The kernels of the multi-label models in double precision.  Model only.

    The definitions of MultiKernels.v and of the layer kernels of Kernels.v with every operation rounded, see Float.v:
    with [rn := Fin] they are those definitions (C100_exact), with [rn := b64] the operations of IEEE binary64. *)
From Verif Require Import Base Num Kernels MultiKernels Float.

Section Rounded.
Variable rn : R -> num.

(** * MultiFitnessModel *)

(** Loop body of p_ij/logp/log1mp, sparse/models/fitness.py:877-883, 910-916, 946-952.
    [r] is the value returned early. *)
Definition rmfit_step (r : num) (d : nat -> num) (k : nat) (x y val : num) : flow num num :=
  if negb (is0 (d k)) && negb (is0 x) && negb (is0 y) then
    let tmp := rmul rn (rmul rn (d k) x) y in
    if isinf tmp then Return r else Next (rdiv rn val (radd rn (Fin 1) tmp))
  else Next val.

(** sparse/models/fitness.py:860-891 *)
Definition rmfit_p_ij (d : nat -> num) (xs ys : svec) : num :=
  match walk (rmfit_step (Fin 1) d) xs ys (Fin 1) with
  | Return r => r
  | Next val => rsub rn (Fin 1) val
  end.

(** sparse/models/fitness.py:893-925 *)
Definition rmfit_logp (d : nat -> num) (xs ys : svec) : num :=
  match walk (rmfit_step (Fin 0) d) xs ys (Fin 1) with
  | Return r => r
  | Next val => if neqb val (Fin 1) then NInf else rlog1p rn (nopp val)
  end.

(** sparse/models/fitness.py:927-961 *)
Definition rmfit_log1mp (d : nat -> num) (xs ys : svec) : num :=
  match walk (rmfit_step NInf d) xs ys (Fin 1) with
  | Return r => r
  | Next val => if neqb val (Fin 1) then Fin 0 else rlog rn val
  end.

(** Loop body of p_jac_ij, sparse/models/fitness.py:781-795.  [d] stands for [d[0]]. *)
Definition rmfit_jac_step (d : num) (k : nat) (x y : num) (s : num * num) : flow (num * num) (num * num) :=
  let (val, jac) := s in
  if negb (is0 x) && negb (is0 y) then
    if is0 d then Next (val, radd rn jac (rmul rn x y))
    else
      let tmp := rmul rn x y in
      let tmp1 := rmul rn d tmp in
      if isinf tmp1 then Return (Fin 1, Fin 0)
      else Next (rdiv rn val (radd rn (Fin 1) tmp1), radd rn jac (rdiv rn tmp (radd rn (Fin 1) tmp1)))
  else Next s.

(** sparse/models/fitness.py:762-803 *)
Definition rmfit_p_jac (d : num) (xs ys : svec) : num * num :=
  match walk (rmfit_jac_step d) xs ys (Fin 1, Fin 0) with
  | Return r => r
  | Next (val, jac) => (rsub rn (Fin 1) val, rmul rn val jac)
  end.

(** * MultiInvariantModel *)

(** Loop body of p_ij/logp/log1mp, sparse/models/invariant.py:229-234, 260-265, 296-301. *)
Definition rminv_step (r : num) (d : nat -> num) (k : nat) (x y val : num) : flow num num :=
  if negb (is0 (d k)) && negb (is0 x) && negb (is0 y) then
    let tmp := rmul rn (rmul rn (d k) x) y in
    if isinf tmp then Return r else Next (radd rn val tmp)
  else Next val.

(** sparse/models/invariant.py:209-242 *)
Definition rminv_p_ij (d : nat -> num) (xs ys : svec) : num :=
  match walk (rminv_step (Fin 1) d) xs ys (Fin 0) with
  | Return r => r
  | Next val => nopp (rexpm1 rn (nopp val))
  end.

(** sparse/models/invariant.py:244-276 *)
Definition rminv_logp (d : nat -> num) (xs ys : svec) : num :=
  match walk (rminv_step (Fin 0) d) xs ys (Fin 0) with
  | Return r => r
  | Next val => if is0 val then NInf else rlog rn (nopp (rexpm1 rn (nopp val)))
  end.

(** sparse/models/invariant.py:278-309 *)
Definition rminv_log1mp (d : nat -> num) (xs ys : svec) : num :=
  match walk (rminv_step NInf d) xs ys (Fin 0) with
  | Return r => r
  | Next val => nopp val
  end.

(** Loop body of p_jac_ij, sparse/models/invariant.py:171-176. *)
Definition rminv_jac_step (k : nat) (x y val : num) : flow num (num * num) :=
  if negb (is0 x) && negb (is0 y) then
    let tmp := rmul rn x y in
    if isinf tmp then Return (Fin 1, Fin 0) else Next (radd rn val tmp)
  else Next val.

(** sparse/models/invariant.py:147-188.  [d] stands for [d[0]]. *)
Definition rminv_p_jac (d : num) (xs ys : svec) : num * num :=
  if isinf d then (Fin 1, Fin 0)
  else
    match walk rminv_jac_step xs ys (Fin 0) with
    | Return r => r
    | Next val =>
        let val1 := rmul rn d val in
        if is0 val1 then (Fin 0, val)
        else (nopp (rexpm1 rn (nopp val1)), rmul rn val (rexp rn (nopp val1)))
    end.

(** * Layers *)

(** sparse/models/fitness.py:963-976 (p_ijk) *)
Definition rmfit_p_ijk (d x y : num) : num :=
  if is0 x || is0 y || is0 d then Fin 0
  else let tmp := rmul rn (rmul rn d x) y in
       if isinf tmp then Fin 1 else rdiv rn tmp (radd rn (Fin 1) tmp).
(** sparse/models/fitness.py:978-991 (logp_ijk) *)
Definition rmfit_logp_ijk (d x y : num) : num :=
  if is0 x || is0 y || is0 d then NInf
  else let tmp := rmul rn (rmul rn d x) y in
       if isinf tmp then Fin 0 else rlog rn (rdiv rn tmp (radd rn (Fin 1) tmp)).
(** sparse/models/fitness.py:993-1006 (log1mp_ijk) *)
Definition rmfit_log1mp_ijk (d x y : num) : num :=
  if is0 x || is0 y || is0 d then Fin 0
  else let tmp := rmul rn (rmul rn d x) y in
       if isinf tmp then NInf else rlog1p rn (rdiv rn (nopp tmp) (radd rn (Fin 1) tmp)).
(** sparse/models/fitness.py:805-822 (p_jac_ijk) *)
Definition rmfit_p_jac_ijk (d x y : num) : num * num :=
  if is0 x || is0 y then (Fin 0, Fin 0)
  else if is0 d then (Fin 0, rmul rn x y)
  else let tmp := rmul rn x y in
       let tmp1 := rmul rn d tmp in
       if isinf tmp1 then (Fin 1, Fin 0)
       else let q := radd rn (Fin 1) tmp1 in (rdiv rn tmp1 q, rdiv rn tmp (rmul rn q q)).
(** sparse/models/invariant.py:311-324 (p_ijk) *)
Definition rminv_p_ijk (d x y : num) : num :=
  if is0 x || is0 y || is0 d then Fin 0
  else let tmp := rmul rn (rmul rn d x) y in
       if isinf tmp then Fin 1 else nopp (rexpm1 rn (nopp tmp)).
(** sparse/models/invariant.py:326-339 (logp_ijk) *)
Definition rminv_logp_ijk (d x y : num) : num :=
  if is0 x || is0 y || is0 d then NInf
  else let tmp := rmul rn (rmul rn d x) y in
       if isinf tmp then Fin 0 else rlog rn (nopp (rexpm1 rn (nopp tmp))).
(** sparse/models/invariant.py:341-350 (log1mp_ijk): [-d * x_i * y_j] *)
Definition rminv_log1mp_ijk (d x y : num) : num :=
  if is0 x || is0 y || is0 d then Fin 0
  else rmul rn (rmul rn (nopp d) x) y.
(** sparse/models/invariant.py:190-207 (p_jac_ijk) *)
Definition rminv_p_jac_ijk (d x y : num) : num * num :=
  if is0 x || is0 y then (Fin 0, Fin 0)
  else if is0 d then (Fin 0, rmul rn x y)
  else let tmp := rmul rn x y in
       let tmp1 := rmul rn d tmp in
       if isinf tmp1 then (Fin 1, Fin 0)
       else (nopp (rexpm1 rn (nopp tmp1)), rmul rn tmp (rexp rn (nopp tmp1))).
End Rounded.
