(** The kernels of the single-label models and the loops over them in double precision.  Model only.

    Every arithmetic operation is the exact one on [num] followed by a rounding [rn : R -> num].  With [rn := Fin]
    (no rounding) the definitions are those of Kernels.v and Ensemble.v, see C96_exact; with [rn := b64] they are the
    operations of IEEE 754 binary64, round to nearest, ties to even.  The functions of the C library (exp, expm1,
    log, log1p) are taken to be correctly rounded.  Zero is unsigned. *)
From Verif Require Import Base Num Kernels Ensemble Conditional.

(** * binary64 *)

(** Powers of two; the values of np.float64 are their multiples (sparse/models/ensembles.py:421-423) *)
Definition two (e : Z) : R := powerRZ 2 e.

(** The nearest integer, the even one of two equally near.  The format is the one of [np.float64], the type of
    the arrays and scalars in compiled code, for example sparse/models/ensembles.py:405-487. *)
Definition nearest_even (s : R) : Z :=
  let n := Int_part s in
  if Rltb (s - IZR n) (1 / 2) then n
  else if Rltb (1 / 2) (s - IZR n) then (n + 1)%Z
  else if Z.even n then n else (n + 1)%Z.

(** Exponent of the last place of the numbers near [r > 0]: 53 significant binary digits, none below 2^-1074. *)
(** sparse/models/ensembles.py:405-487 (np.float64) *)
Definition last_place (r : R) : Z := Z.max (Int_part (ln r / ln 2) - 52) (-1074).
(** sparse/models/ensembles.py:405-487 (np.float64) *)
Definition round_pos (r : R) : R := IZR (nearest_even (r / two (last_place r))) * two (last_place r).

(** sparse/models/ensembles.py:405-487 (np.float64).  Results from 2^1024 on are infinite. *)
Definition b64 (r : R) : num :=
  if Reqb r 0 then Fin 0
  else
    let v := round_pos (Rabs r) in
    if Rltb r 0 then (if Rleb (two 1024) v then NInf else Fin (- v))
    else (if Rleb (two 1024) v then PInf else Fin v).

(** * Rounded operations *)
Section Rounded.
Variable rn : R -> num.

(** sparse/models/ensembles.py:405-487 (np.float64) *)
Definition rnd_num (a : num) : num := match a with Fin r => rn r | _ => a end.
(** sparse/models/ensembles.py:413 (the sum [exp_e += ...]) *)
Definition radd (a b : num) : num := rnd_num (nadd a b).
(** sparse/models/ensembles.py:433 ([pij + pji - pij * pji]) *)
Definition rsub (a b : num) : num := rnd_num (nsub a b).
(** sparse/models/fitness.py:296 ([d[0] * x_i * y_j * z_ij]) *)
Definition rmul (a b : num) : num := rnd_num (nmul a b).
(** sparse/models/fitness.py:300 ([tmp / (1 + tmp)]) *)
Definition rdiv (a b : num) : num := rnd_num (ndiv a b).
(** sparse/models/invariant.py:64 *)
Definition rexp (a : num) : num := rnd_num (nexp a).
(** sparse/models/invariant.py:77 ([-expm1(-tmp)]) *)
Definition rexpm1 (a : num) : num := rnd_num (nexpm1 a).
(** sparse/models/fitness.py:313 *)
Definition rlog (a : num) : num := rnd_num (nlog a).
(** sparse/models/fitness.py:328 *)
Definition rlog1p (a : num) : num := rnd_num (nlog1p a).

(** ** FitnessModel *)

(** sparse/models/fitness.py:289-300 (p_ij) *)
Definition rfit_p_ij (d x y z : num) : num :=
  if is0 x || is0 y || is0 z || is0 d then Fin 0
  else let tmp := rmul (rmul (rmul d x) y) z in
       if isinf tmp then Fin 1 else rdiv tmp (radd (Fin 1) tmp).
(** sparse/models/fitness.py:302-313 (logp) *)
Definition rfit_logp (d x y z : num) : num :=
  if is0 x || is0 y || is0 z || is0 d then NInf
  else let tmp := rmul (rmul (rmul d x) y) z in
       if isinf tmp then Fin 0 else rlog (rdiv tmp (radd (Fin 1) tmp)).
(** sparse/models/fitness.py:315-328 (log1mp) *)
Definition rfit_log1mp (d x y z : num) : num :=
  if is0 x || is0 y || is0 z || is0 d then Fin 0
  else let tmp := rmul (rmul (rmul d x) y) z in
       if isinf tmp then NInf else rlog1p (rdiv (nopp tmp) (radd (Fin 1) tmp)).
(** sparse/models/fitness.py:270-287 (p_jac_ij).  [(1 + tmp1)**2] is one multiplication. *)
Definition rfit_p_jac (d x y z : num) : num * num :=
  if is0 x || is0 y || is0 z then (Fin 0, Fin 0)
  else if is0 d then (Fin 0, rmul (rmul x y) z)
  else let tmp := rmul (rmul x y) z in
       let tmp1 := rmul d tmp in
       if isinf tmp1 then (Fin 1, Fin 0)
       else let q := radd (Fin 1) tmp1 in (rdiv tmp1 q, rdiv tmp (rmul q q)).

(** ** ScaleInvariantModel *)

(** sparse/models/invariant.py:66-77 (p_ij) *)
Definition rinv_p_ij (d x y z : num) : num :=
  if is0 x || is0 y || is0 z || is0 d then Fin 0
  else let tmp := rmul (rmul (rmul d x) y) z in
       if isinf tmp then Fin 1 else nopp (rexpm1 (nopp tmp)).
(** sparse/models/invariant.py:79-90 (logp) *)
Definition rinv_logp (d x y z : num) : num :=
  if is0 x || is0 y || is0 z || is0 d then NInf
  else let tmp := rmul (rmul (rmul d x) y) z in
       if isinf tmp then Fin 0 else rlog (nopp (rexpm1 (nopp tmp))).
(** sparse/models/invariant.py:92-105 (log1mp) *)
Definition rinv_log1mp (d x y z : num) : num :=
  if is0 x || is0 y || is0 z || is0 d then Fin 0
  else let tmp := rmul (rmul (rmul d x) y) z in
       if isinf tmp then NInf else nopp tmp.
(** sparse/models/invariant.py:47-64 (p_jac_ij) *)
Definition rinv_p_jac (d x y z : num) : num * num :=
  if is0 x || is0 y || is0 z then (Fin 0, Fin 0)
  else if is0 d then (Fin 0, rmul (rmul x y) z)
  else let tmp := rmul (rmul x y) z in
       let tmp1 := rmul d tmp in
       if isinf tmp1 then (Fin 1, Fin 0)
       else (nopp (rexpm1 (nopp tmp1)), rmul tmp (rexp (nopp tmp1))).

(** ** Loops *)

(** [a[i] += v] *)
(** sparse/models/ensembles.py:434-445 *)
Definition radd_at (a : nat -> num) (i : nat) (v : num) : nat -> num := upd a i (radd (a i) v).

(** The loops receive the probabilities [p i j = p_ij(param, prop_out[i], prop_in[j], prop_dyad(i, j))]. *)
Section Loops.
Variables (p : nat -> nat -> num) (N : nat) (selfloops : bool).

(** sparse/models/ensembles.py:407-415 (exp_edges) *)
Definition rexp_edges : num :=
  for_range N (fun i e => for_range N (fun j e => if adm selfloops i j then radd e (p i j) else e) e) (Fin 0).

(** sparse/models/ensembles.py:419-447 (exp_degrees): undirected, out- and in-degrees *)
Definition rexp_degrees : (nat -> num) * (nat -> num) * (nat -> num) :=
  for_range N (fun i st => for_range (S i) (fun j st =>
    let '(exp_d, exp_d_out, exp_d_in) := st in
    if negb (Nat.eqb i j) then
      let pij := p i j in
      let pji := p j i in
      let q := rsub (radd pij pji) (rmul pij pji) in
      (radd_at (radd_at exp_d i q) j q, radd_at (radd_at exp_d_out i pij) j pji, radd_at (radd_at exp_d_in j pij) i pji)
    else if selfloops then
      let pii := p i j in (radd_at exp_d i pii, radd_at exp_d_out i pii, radd_at exp_d_in j pii)
    else st) st) (fun _ => Fin 0, fun _ => Fin 0, fun _ => Fin 0).

(** sparse/models/ensembles.py:451-487 (exp_av_nn_prop) with ndir="out-in" and without self-loops *)
Definition rexp_av_nn (prop : nat -> num) : nat -> num :=
  for_range N (fun i st => for_range i (fun j st =>
    let pij := p i j in
    let pji := p j i in
    let q := rsub (Fin 1) (rmul (rsub (Fin 1) pij) (rsub (Fin 1) pji)) in
    radd_at (radd_at st i (rmul q (prop j))) j (rmul q (prop i))) st) (fun _ => Fin 0).
(** sparse/models/ensembles.py:209-215 (expected_av_nn_property): the sums divided by the expected degrees where
    these are not zero *)
Definition rav_nn (prop : nat -> num) : res (nat -> num) :=
  let deg := fst (fst rexp_degrees) in
  let av_nn := rexp_av_nn prop in
  guard (forallb (fun i => negb (is0 (deg i)) || is0 (av_nn i)) (seq 0 N)) AssertionError
    (Ok (fun i => if is0 (deg i) then av_nn i else rdiv (av_nn i) (deg i))).
End Loops.

(** ** The sampler of the conditional model *)

(** [rng.random()] in its successive calls; a comparison [u < v] with NaN is false. *)
(** conditional.py:709-727: the loop over the pairs of a block, given the probabilities of the pairs.  The answer is
    the list of the positions of the drawn links.  Divisions by zero raise, as in Conditional.v. *)
Fixpoint rsample_block (ps : list num) (k : nat) (atleastone : bool) (pnorm : num) (u : list R) : res (list nat) :=
  match ps with
  | [] => Ok []
  | p :: t =>
      do p_sample <- (if atleastone then Ok p else if is0 pnorm then Raise ZeroDivisionError else Ok (rdiv p pnorm)) ;
      if nltb (Fin (hd 0 u)) p_sample then
        do l <- rsample_block t (S k) true pnorm (tl u) ; Ok (k :: l)
      else
        let q := rsub (Fin 1) p in
        if is0 q then Raise ZeroDivisionError
        else rsample_block t (S k) atleastone (rsub (Fin 1) (rdiv (rsub (Fin 1) pnorm) q)) (tl u)
  end.
(** conditional.py:674-729 for a block of a group [xs] (out-fitnesses) with another group [ys] (in-fitnesses): the
    probability of the block is that of the sums of the fitnesses *)
Definition rblock (d : num) (xs ys : list num) (u : list R) : res (list nat) :=
  let total l := fold_left radd l (Fin 0) in
  rsample_block (map (fun e => rinv_p_ij d (fst e) (snd e) (Fin 1)) (list_prod xs ys)) 0 false
    (rinv_p_ij d (total xs) (total ys) (Fin 1)) u.
End Rounded.
