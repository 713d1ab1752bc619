(** The root finder: model only, no proofs.  solver.py. *)
From Verif Require Import Base Num.

(** Solution object for method "newton", solver.py:4-67.  Only the attributes that are set. *)
Record solution := mkSol {
  sol_x : num;
  sol_target : num;
  sol_n_iter : nat;
  sol_max_iter : nat;
  sol_f_seq : list num;
  sol_x_seq : list num;
  sol_norm_seq : list num;
  sol_diff_seq : list num;
  sol_max_iter_reached : bool;
  sol_converged : bool;
  sol_no_change_stop : bool
}.

(** solver.py:10-67 (Solution.__init__ with method "newton" and all keyword arguments given, which is
    the only way monotonic_newton_solver calls it).  [seq[-1]] on an empty list is IndexError. *)
Definition make_solution (x target : num) (n_iter max_iter : nat)
    (f_seq x_seq norm_seq diff_seq : list num) (atol rtol : num) : res solution :=
  match rev norm_seq, rev diff_seq with
  | norm_last :: _, diff_last :: _ =>
      Ok (mkSol x target n_iter max_iter f_seq x_seq norm_seq diff_seq
            (Nat.leb max_iter n_iter)
            (nleb norm_last (nadd atol (nmul rtol target)))
            (nleb diff_last rtol))
  | _, _ => Raise IndexError
  end.

(** Local variables of the main loop. *)
(** solver.py:70-281 (monotonic_newton_solver) *)
Record sstate := mkS {
  s_x : num; s_f : num; s_fp : num; s_norm : num; s_diff : num;
  s_xl : num; s_xu : num; s_fl : option num; s_fu : option num;
  s_n : nat;
  s_fseq : list num; s_xseq : list num; s_nseq : list num; s_dseq : list num
}.

(** The four bracket updates common to solver.py:155-166 and 209-220:
    [Some (x_l, x_u, f_l, f_u)] when one of the four conditions holds, [None] to continue with the
    following [elif]. *)
Definition bracket (x f fp xl xu : num) (fl fu : option num)
    : option (num * num * option num * option num) :=
  if ngtb f (Fin 0) && ngtb fp (Fin 0) && nleb x xu then Some (xl, x, fl, Some f)
  else if nltb f (Fin 0) && ngtb fp (Fin 0) && ngeb x xl then Some (x, xu, Some f, fu)
  else if ngtb f (Fin 0) && nltb fp (Fin 0) && ngeb x xl then Some (x, xu, Some f, fu)
  else if nltb f (Fin 0) && nltb fp (Fin 0) && nleb x xu then Some (xl, x, fl, Some f)
  else None.

(** The point tried next, solver.py:181-204.  Divisions follow numpy (x/0 is inf or nan). *)
Definition next_x (atol : num) (s : sstate) : num :=
  let x := s_x s in
  let dx := if negb (is0 (s_fp s)) then ndiv (nopp (s_f s)) (s_fp s) else ndiv (nopp (s_f s)) atol in
  let xn := nadd x dx in
  if ngeb xn (s_xu s) || nleb xn (s_xl s) then
    match s_fu s, s_fl s with
    | None, _ => s_xu s
    | Some _, None => s_xl s
    | Some fu, Some fl =>
        if isinf (s_xu s) then
          if isinf (s_xl s) then Fin 0
          else nadd (s_xl s) (nmul (Fin 2) (nabs (s_xl s)))
        else if isinf (s_xl s) then nsub (s_xu s) (nmul (Fin 2) (nabs (s_xu s)))
        else nsub (s_xu s) (ndiv (nmul fu (nsub (s_xu s) (s_xl s))) (nsub fu fl))
    end
  else xn.

(** One pass of the while loop, solver.py:178-246 (without printing). *)
Definition solver_step (fn : num -> num * num) (target atol : num) (s : sstate) : res sstate :=
  let x_old := s_x s in
  let x := next_x atol s in
  let (f0, fp) := fn x in
  let f := nsub f0 target in
  let upd :=
    match bracket x f fp (s_xl s) (s_xu s) (s_fl s) (s_fu s) with
    | Some b => Ok b
    | None =>
        if is0 fp then
          if neqb x (s_xu s) then Ok (s_xl s, s_xu s, s_fl s, Some f)
          else if neqb x (s_xl s) then Ok (s_xl s, s_xu s, Some f, s_fu s)
          else Ok (s_xl s, s_xu s, s_fl s, s_fu s)
        else if is0 f then Ok (s_xl s, s_xu s, s_fl s, s_fu s)
        else Raise AssertionError
    end in
  do (xl, xu, fl, fu) <- upd ;
  let norm := nabs f in
  let diff := if negb (is0 x_old) && negb (isinf x_old)
              then nabs (ndiv (nsub x x_old) x_old) else Fin 1 in
  Ok (mkS x f fp norm diff xl xu fl fu (S (s_n s))
        (s_fseq s ++ [f]) (s_xseq s ++ [x]) (s_nseq s ++ [norm]) (s_dseq s ++ [diff])).

(** The while loop, solver.py:177-255.  [rem] is [max_iter - n_iter], so the test
    [n_iter < max_iter] is [rem <> 0]. *)
Fixpoint solver_loop (fn : num -> num * num) (target atol rtol : num) (rem : nat) (s : sstate)
    : res sstate :=
  match rem with
  | O => Ok s
  | S k =>
      if ngtb (s_norm s) (nadd atol (nmul rtol target)) && ngtb (s_diff s) rtol then
        do s' <- solver_step fn target atol s ;
        solver_loop fn target atol rtol k s'
      else Ok s
  end.

(** The state before the loop, solver.py:114-171: evaluation, bracket test and initial bracket.
    [inl] is the early return of solver.py:137-153. *)
Definition solver_init (fn : num -> num * num) (x0 target atol : num) (xl xu : num)
    (fl fu : option num) : res (sstate + sstate) :=
  let (f0, fp) := fn x0 in
  let f := nadd f0 (nopp target) in
  let norm := nabs f in
  let diff := Fin 1 in
  if ngtb x0 xu || nltb x0 xl then Raise ValueError
  else
    let st xl xu fl fu := mkS x0 f fp norm diff xl xu fl fu 0 [f] [x0] [norm] [diff] in
    if nltb norm atol then Ok (inl (st xl xu fl fu))
    else
      match bracket x0 f fp xl xu fl fu with
      | Some (xl, xu, fl, fu) => Ok (inr (st xl xu fl fu))
      | None => if is0 fp then Ok (inr (st xl xu fl fu)) else Raise AssertionError
      end.

Definition finish (target : num) (max_iter : nat) (atol rtol : num) (s : sstate) : res solution :=
  make_solution (s_x s) target (s_n s) max_iter (s_fseq s) (s_xseq s) (s_nseq s) (s_dseq s) atol rtol.

(** solver.py:70-281 (monotonic_newton_solver with full_return=True; with full_return=False the
    code returns the [sol_x] of the same computation). *)
Definition monotonic_newton_solver (fn : num -> num * num) (x0 target atol rtol : num)
    (max_iter : nat) (xl xu : num) (fl fu : option num) : res solution :=
  do i <- solver_init fn x0 target atol xl xu fl fu ;
  match i with
  | inl s => finish target max_iter atol rtol s
  | inr s =>
      do s' <- solver_loop fn target atol rtol max_iter s ;
      finish target max_iter atol rtol s'
  end.
