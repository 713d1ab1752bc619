(** The log-likelihood and the samplers of the single-label models in double precision.  Model only.

    As in Float.v every operation is followed by a rounding [rn].  The tables [p], [logp] and [log1mp] are the values
    of the kernels for the pairs of vertices.  [rng.random() < p] compares two doubles and needs no rounding: the
    binary sampler is the one of Ensemble.v with the rounded probabilities. *)
From Verif Require Import Base Num Kernels Prob Ensemble Float.

Section Rounded.
Variable rn : R -> num.

(** sparse/models/ensembles.py:497-510 (body of the loops of _likelihood) *)
Definition rlik_body (logp log1mp : nat -> nat -> num) (selfloops linked : bool) (i j : nat) (like : num) : flow num num :=
  if adm selfloops i j then
    let tmp := if linked then logp i j else log1mp i j in
    if isinf tmp then Return tmp else Next (radd rn like tmp)
  else Next like.
(** sparse/models/ensembles.py:488-512 (_likelihood); [row i] as in Ensemble.v *)
Definition rlikelihood (logp log1mp : nat -> nat -> num) (row : nat -> list nat) (N : nat) (selfloops : bool) : num :=
  flow_val (for_flow N (fun i => for_flow N (fun j =>
    rlik_body logp log1mp selfloops (existsb (Nat.eqb j) (row i)) i j)) (Fin 0)).

(** sparse/models/ensembles.py:535,537 ([np.sum], which compiled code evaluates from left to right) *)
Definition rsum (N : nat) (s : nat -> num) : num := for_range N (fun i t => radd rn t (s i)) (Fin 0).

(** sparse/models/ensembles.py:541-549 (body of the loops of _cremb_sample).  A link carries the scale passed to
    [rng.exponential]; a zero denominator raises, as everywhere in compiled code. *)
Definition rcremb_body (p : nat -> nat -> num) (s_out s_in : nat -> num) (s_tot : num) (i j : nat)
    (acc : res (list (nat * nat * num))) : prog (res (list (nat * nat * num))) :=
  match acc with
  | Raise e => Ret (Raise e)
  | Ok vals =>
      Draw (toR (p i j)) (fun hit =>
        if hit then
          let q := rmul rn s_tot (p i j) in
          if is0 q then Ret (Raise ZeroDivisionError)
          else Ret (Ok (vals ++ [(i, j, rdiv rn (rmul rn (s_out i) (s_in j)) q)]))
        else Ret (Ok vals))
  end.
(** sparse/models/ensembles.py:530-551 (_cremb_sample) *)
Definition rcremb_sample (p : nat -> nat -> num) (s_out s_in : nat -> num) (N : nat) (selfloops : bool)
    : res (prog (res (list (nat * nat * num)))) :=
  let s_tot := rsum N s_out in
  if is0 s_tot then Raise ZeroDivisionError
  else
    guard (nltb (nabs (rsub rn (Fin 1) (rdiv rn (rsum N s_in) s_tot))) (rn (1 / 1000000))) AssertionError
      (Ok (for_prog (seq 0 N) (fun i acc => for_prog (seq 0 N) (fun j acc =>
         if adm selfloops i j then rcremb_body p s_out s_in s_tot i j acc else Ret acc) acc) (Ok []))).
End Rounded.

(** [rng.random()]: one of the 2^53 multiples of 2^-53 in [0,1) *)
(** sparse/models/ensembles.py:524 *)
Definition machine_draw (u : R) : Prop := exists k : Z, (0 <= k < 2 ^ 53)%Z /\ u = IZR k * two (-53).
