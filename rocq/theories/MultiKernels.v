(** Connection probabilities of the multi-label models: model only, no proofs.
    A sparse label vector (the pair of arrays (labels, values) of one row of a CSR matrix)
    is the list of its (label, value) pairs in storage order; the loop index of the code is
    represented by the remaining suffix of that list.  A dense label vector is a function of
    the label. *)
From Verif Require Import Base Num Kernels.

(** sparse/models/fitness.py:826-833 (MultiFitnessModel.csx_to_tuple_list) *)
Definition svec := list (nat * num).

(** The two-pointer loop
      while i < len(x_lbl) and j < len(y_lbl):
          if x_lbl[i] == y_lbl[j]: step; i += 1; j += 1
          elif x_lbl[i] < y_lbl[j]: i += 1
          else: j += 1
    common to sparse/models/fitness.py:779-801, 875-889, 908-920, 944-956;
    sparse/models/invariant.py:169-182, 227-240, 258-271, 294-307;
    spark/models.py:3671-3691, 3728-3741, 3755-3768, 3787-3800 (fitness) and the same loops of
    spark MultiInvariantModel 3894-4036.
    [step] is the body of the first branch; it may return early. *)
Fixpoint walk {S T : Type} (step : nat -> num -> num -> S -> flow S T) (xs : svec)
  : svec -> S -> flow S T :=
  fix walk_y (ys : svec) (s : S) : flow S T :=
    match xs, ys with
    | (lx, vx) :: xs', (ly, vy) :: ys' =>
        if Nat.eqb lx ly then
          match step lx vx vy s with
          | Next s' => walk step xs' ys' s'
          | Return t => Return t
          end
        else if Nat.ltb lx ly then walk step xs' ys s
        else walk_y ys' s
    | _, _ => Next s
    end.

(** * MultiFitnessModel *)

(** Loop body of p_ij/logp/log1mp, sparse/models/fitness.py:877-883, 910-916, 946-952.
    [r] is the value returned early. *)
Definition mfit_step (r : num) (d : nat -> num) (k : nat) (x y val : num) : flow num num :=
  if negb (is0 (d k)) && negb (is0 x) && negb (is0 y) then
    let tmp := nmul (nmul (d k) x) y in
    if isinf tmp then Return r else Next (ndiv val (nadd (Fin 1) tmp))
  else Next val.

(** sparse/models/fitness.py:860-891, spark/models.py:3714-3743 *)
Definition mfit_p_ij (d : nat -> num) (xs ys : svec) : num :=
  match walk (mfit_step (Fin 1) d) xs ys (Fin 1) with
  | Return r => r
  | Next val => nsub (Fin 1) val
  end.

(** sparse/models/fitness.py:893-925, spark/models.py:3745-3773 *)
Definition mfit_logp (d : nat -> num) (xs ys : svec) : num :=
  match walk (mfit_step (Fin 0) d) xs ys (Fin 1) with
  | Return r => r
  | Next val => if neqb val (Fin 1) then NInf else nlog1p (nopp val)
  end.

(** sparse/models/fitness.py:927-961, spark/models.py:3775-3805 *)
Definition mfit_log1mp (d : nat -> num) (xs ys : svec) : num :=
  match walk (mfit_step NInf d) xs ys (Fin 1) with
  | Return r => r
  | Next val => if neqb val (Fin 1) then Fin 0 else nlog val
  end.

(** Loop body of p_jac_ij, sparse/models/fitness.py:781-795.  [d] stands for [d[0]]. *)
Definition mfit_jac_step (d : num) (k : nat) (x y : num) (s : num * num)
  : flow (num * num) (num * num) :=
  let (val, jac) := s in
  if negb (is0 x) && negb (is0 y) then
    if is0 d then Next (val, nadd jac (nmul x y))
    else
      let tmp := nmul x y in
      let tmp1 := nmul d tmp in
      if isinf tmp1 then Return (Fin 1, Fin 0)
      else Next (ndiv val (nadd (Fin 1) tmp1), nadd jac (ndiv tmp (nadd (Fin 1) tmp1)))
  else Next s.

(** sparse/models/fitness.py:762-803, spark/models.py:3656-3693 *)
Definition mfit_p_jac (d : num) (xs ys : svec) : num * num :=
  match walk (mfit_jac_step d) xs ys (Fin 1, Fin 0) with
  | Return r => r
  | Next (val, jac) => (nsub (Fin 1) val, nmul val jac)
  end.

(** * MultiInvariantModel *)

(** Loop body of p_ij/logp/log1mp, sparse/models/invariant.py:229-234, 260-265, 296-301. *)
Definition minv_step (r : num) (d : nat -> num) (k : nat) (x y val : num) : flow num num :=
  if negb (is0 (d k)) && negb (is0 x) && negb (is0 y) then
    let tmp := nmul (nmul (d k) x) y in
    if isinf tmp then Return r else Next (nadd val tmp)
  else Next val.

(** sparse/models/invariant.py:209-242, spark/models.py:3950-3979 *)
Definition minv_p_ij (d : nat -> num) (xs ys : svec) : num :=
  match walk (minv_step (Fin 1) d) xs ys (Fin 0) with
  | Return r => r
  | Next val => nopp (nexpm1 (nopp val))
  end.

(** sparse/models/invariant.py:244-276, spark/models.py:3981-4009 *)
Definition minv_logp (d : nat -> num) (xs ys : svec) : num :=
  match walk (minv_step (Fin 0) d) xs ys (Fin 0) with
  | Return r => r
  | Next val => if is0 val then NInf else nlog (nopp (nexpm1 (nopp val)))
  end.

(** sparse/models/invariant.py:278-309, spark/models.py:4011-4038 *)
Definition minv_log1mp (d : nat -> num) (xs ys : svec) : num :=
  match walk (minv_step NInf d) xs ys (Fin 0) with
  | Return r => r
  | Next val => nopp val
  end.

(** Loop body of p_jac_ij, sparse/models/invariant.py:171-176. *)
Definition minv_jac_step (k : nat) (x y val : num) : flow num (num * num) :=
  if negb (is0 x) && negb (is0 y) then
    let tmp := nmul x y in
    if isinf tmp then Return (Fin 1, Fin 0) else Next (nadd val tmp)
  else Next val.

(** sparse/models/invariant.py:147-188, spark/models.py:3892-3929.  [d] stands for [d[0]]. *)
Definition minv_p_jac (d : num) (xs ys : svec) : num * num :=
  if isinf d then (Fin 1, Fin 0)
  else
    match walk minv_jac_step xs ys (Fin 0) with
    | Return r => r
    | Next val =>
        let val1 := nmul d val in
        if is0 val1 then (Fin 0, val)
        else (nopp (nexpm1 (nopp val1)), nmul val (nexp (nopp val1)))
    end.

(** * Dense module: the same loops over dense label vectors of length [L]
    ([for i, (x_i, y_i) in enumerate(zip(prop_out, prop_in))]) *)

(** models.py:2322-2342 *)
Definition mfit_p_ij_dense (L : nat) (d : nat -> num) (x y : nat -> num) : num :=
  match for_flow L (fun k => mfit_step (Fin 1) d k (x k) (y k)) (Fin 1) with
  | Return r => r
  | Next val => nsub (Fin 1) val
  end.

(** models.py:2344-2363 *)
Definition mfit_logp_dense (L : nat) (d : nat -> num) (x y : nat -> num) : num :=
  match for_flow L (fun k => mfit_step (Fin 0) d k (x k) (y k)) (Fin 1) with
  | Return r => r
  | Next val => if neqb val (Fin 1) then NInf else nlog1p (nopp val)
  end.

(** models.py:2365-2383 (no val == 1 branch) *)
Definition mfit_log1mp_dense (L : nat) (d : nat -> num) (x y : nat -> num) : num :=
  match for_flow L (fun k => mfit_step NInf d k (x k) (y k)) (Fin 1) with
  | Return r => r
  | Next val => nlog val
  end.

(** models.py:2273-2301 *)
Definition mfit_p_jac_dense (L : nat) (d : num) (x y : nat -> num) : num * num :=
  match for_flow L (fun k => mfit_jac_step d k (x k) (y k)) (Fin 1, Fin 0) with
  | Return r => r
  | Next (val, jac) => (nsub (Fin 1) val, nmul val jac)
  end.

(** models.py:2519-2542 (with a val == 0 branch) *)
Definition minv_p_ij_dense (L : nat) (d : nat -> num) (x y : nat -> num) : num :=
  match for_flow L (fun k => minv_step (Fin 1) d k (x k) (y k)) (Fin 0) with
  | Return r => r
  | Next val => if is0 val then Fin 0 else nopp (nexpm1 (nopp val))
  end.

(** models.py:2544-2563 *)
Definition minv_logp_dense (L : nat) (d : nat -> num) (x y : nat -> num) : num :=
  match for_flow L (fun k => minv_step (Fin 0) d k (x k) (y k)) (Fin 0) with
  | Return r => r
  | Next val => if is0 val then NInf else nlog (nopp (nexpm1 (nopp val)))
  end.

(** models.py:2565-2583 *)
Definition minv_log1mp_dense (L : nat) (d : nat -> num) (x y : nat -> num) : num :=
  match for_flow L (fun k => minv_step NInf d k (x k) (y k)) (Fin 0) with
  | Return r => r
  | Next val => nopp val
  end.

(** models.py:2470-2498 *)
Definition minv_p_jac_dense (L : nat) (d : num) (x y : nat -> num) : num * num :=
  if isinf d then (Fin 1, Fin 0)
  else
    match for_flow L (fun k => minv_jac_step k (x k) (y k)) (Fin 0) with
    | Return r => r
    | Next val =>
        let val1 := nmul d val in
        if is0 val1 then (Fin 0, val)
        else (nopp (nexpm1 (nopp val1)), nmul val (nexp (nopp val1)))
    end.
