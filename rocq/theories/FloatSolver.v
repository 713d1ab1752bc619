(** The root finder and the objective of the density fit in double precision.  Model only.

    As in Float.v every operation is followed by a rounding [rn]; [rn := Fin] gives Solver.v and Fit.v (C98_exact),
    [rn := b64] binary64.  Comparisons, negation and absolute value are exact.  [f += -target] (solver.py:117) is the
    subtraction. *)
From Verif Require Import Base Num Kernels Ensemble Conditional Solver Fit Float.

Section Rounded.
Variable rn : R -> num.

(** sparse/models/fitness.py:253-268 (FitnessModel.exp_edges_f_jac): the two sums *)
Definition racc_pair (s t : num * num) : num * num := (radd rn (fst s) (fst t), radd rn (snd s) (snd t)).
(** sparse/models/fitness.py:253-268 (FitnessModel.exp_edges_f_jac).  [q i j] is
    [p_jac_ij(param, prop_out[i], prop_in[j], prop_dyad(i, j))]. *)
Definition rexp_edges_f_jac (q : nat -> nat -> num * num) (N : nat) (selfloops : bool) : num * num :=
  for_range N (fun i s => for_range N (fun j s => if adm selfloops i j then racc_pair s (q i j) else s) s) (Fin 0, Fin 0).

(** [atol + rtol * target], solver.py:45 and 177 *)
Definition rtolerance (atol rtol target : num) : num := radd rn atol (rmul rn rtol target).

(** solver.py:10-67 (Solution.__init__ with method "newton", see [make_solution]) *)
Definition rmake_solution (x target : num) (n_iter max_iter : nat)
    (f_seq x_seq norm_seq diff_seq : list num) (atol rtol : num) : res solution :=
  match rev norm_seq, rev diff_seq with
  | norm_last :: _, diff_last :: _ =>
      Ok (mkSol x target n_iter max_iter f_seq x_seq norm_seq diff_seq
            (Nat.leb max_iter n_iter)
            (nleb norm_last (rtolerance atol rtol target))
            (nleb diff_last rtol))
  | _, _ => Raise IndexError
  end.

(** The point tried next, solver.py:181-204. *)
Definition rnext_x (atol : num) (s : sstate) : num :=
  let x := s_x s in
  let dx := if negb (is0 (s_fp s)) then rdiv rn (nopp (s_f s)) (s_fp s) else rdiv rn (nopp (s_f s)) atol in
  let xn := radd rn x dx in
  if ngeb xn (s_xu s) || nleb xn (s_xl s) then
    match s_fu s, s_fl s with
    | None, _ => s_xu s
    | Some _, None => s_xl s
    | Some fu, Some fl =>
        if isinf (s_xu s) then
          if isinf (s_xl s) then Fin 0
          else radd rn (s_xl s) (rmul rn (Fin 2) (nabs (s_xl s)))
        else if isinf (s_xl s) then rsub rn (s_xu s) (rmul rn (Fin 2) (nabs (s_xu s)))
        else rsub rn (s_xu s) (rdiv rn (rmul rn fu (rsub rn (s_xu s) (s_xl s))) (rsub rn fu fl))
    end
  else xn.

(** One pass of the while loop, solver.py:178-246 (without printing). *)
Definition rsolver_step (fn : num -> num * num) (target atol : num) (s : sstate) : res sstate :=
  let x_old := s_x s in
  let x := rnext_x atol s in
  let (f0, fp) := fn x in
  let f := rsub rn f0 target in
  let upd :=
    match bracket x f fp (s_xl s) (s_xu s) (s_fl s) (s_fu s) with
    | Some b => Ok b
    | None =>
        if is0 fp then
          if neqb x (s_xu s) then Ok (s_xl s, s_xu s, s_fl s, Some f)
          else if neqb x (s_xl s) then Ok (s_xl s, s_xu s, Some f, s_fu s)
          else Ok (s_xl s, s_xu s, s_fl s, s_fu s)
        else if is0 f then Ok (s_xl s, s_xu s, s_fl s, s_fu s)
        else Raise AssertionError
    end in
  do (xl, xu, fl, fu) <- upd ;
  let norm := nabs f in
  let diff := if negb (is0 x_old) && negb (isinf x_old)
              then nabs (rdiv rn (rsub rn x x_old) x_old) else Fin 1 in
  Ok (mkS x f fp norm diff xl xu fl fu (S (s_n s))
        (s_fseq s ++ [f]) (s_xseq s ++ [x]) (s_nseq s ++ [norm]) (s_dseq s ++ [diff])).

(** The while loop, solver.py:177-255.  [rem] is [max_iter - n_iter]. *)
Fixpoint rsolver_loop (fn : num -> num * num) (target atol rtol : num) (rem : nat) (s : sstate)
    : res sstate :=
  match rem with
  | O => Ok s
  | S k =>
      if ngtb (s_norm s) (rtolerance atol rtol target) && ngtb (s_diff s) rtol then
        do s' <- rsolver_step fn target atol s ;
        rsolver_loop fn target atol rtol k s'
      else Ok s
  end.

(** The state before the loop, solver.py:114-171; [inl] is the early return of solver.py:137-153. *)
Definition rsolver_init (fn : num -> num * num) (x0 target atol : num) (xl xu : num)
    (fl fu : option num) : res (sstate + sstate) :=
  let (f0, fp) := fn x0 in
  let f := rsub rn f0 target in
  let norm := nabs f in
  let diff := Fin 1 in
  if ngtb x0 xu || nltb x0 xl then Raise ValueError
  else
    let st xl xu fl fu := mkS x0 f fp norm diff xl xu fl fu 0 [f] [x0] [norm] [diff] in
    if nltb norm atol then Ok (inl (st xl xu fl fu))
    else
      match bracket x0 f fp xl xu fl fu with
      | Some (xl, xu, fl, fu) => Ok (inr (st xl xu fl fu))
      | None => if is0 fp then Ok (inr (st xl xu fl fu)) else Raise AssertionError
      end.

(** solver.py:265-281 *)
Definition rfinish (target : num) (max_iter : nat) (atol rtol : num) (s : sstate) : res solution :=
  rmake_solution (s_x s) target (s_n s) max_iter (s_fseq s) (s_xseq s) (s_nseq s) (s_dseq s) atol rtol.

(** solver.py:70-281 (monotonic_newton_solver with full_return=True) *)
Definition rsolver (fn : num -> num * num) (x0 target atol rtol : num)
    (max_iter : nat) (xl xu : num) (fl fu : option num) : res solution :=
  do i <- rsolver_init fn x0 target atol xl xu fl fu ;
  match i with
  | inl s => rfinish target max_iter atol rtol s
  | inr s =>
      do s' <- rsolver_loop fn target atol rtol max_iter s ;
      rfinish target max_iter atol rtol s'
  end.
End Rounded.
