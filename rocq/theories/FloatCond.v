(** The conditional scale-invariant model in double precision.  Model only.

    As in Float.v every operation is followed by a rounding [rn]; [rn := Fin] gives Conditional.v (C102_exact),
    [rn := b64] binary64.  In compiled code a zero divisor raises ZeroDivisionError; after rounding a divisor can be
    zero where it is not zero in Conditional.v, so the kernels answer with an exception or a value. *)
From Verif Require Import Base Num Kernels MultiKernels Prob Ensemble Solver Fit Conditional Float FloatSample.

Section Rounded.
Variable rn : R -> num.

(** conditional.py:556 (division in compiled code) *)
Definition rpdiv (a b : num) : res num := if is0 b then Raise ZeroDivisionError else Ok (rdiv rn a b).

(** conditional.py:526-535 and the same lines of the other functions, see [aggregates] *)
Definition raggregates (N : nat) (groups : nat -> nat) (prop_out prop_in : nat -> num) : agg :=
  for_range N (fun i s =>
    mkAgg (radd_at rn (agg_p_out s) (groups i) (prop_out i))
          (radd_at rn (agg_p_in s) (groups i) (prop_in i))
          (radd_at rn (agg_diag s) (groups i) (rmul rn (prop_out i) (prop_in i))))
    (mkAgg (fun _ => Fin 0) (fun _ => Fin 0) (fun _ => Fin 0)).

(** conditional.py:547-567 and similar, see [z_block] *)
Definition rz_block (s : agg) (selfloops : bool) (a b : nat) : res num :=
  if negb selfloops && Nat.eqb a b then
    do r <- rpdiv (agg_diag s a) (rmul rn (agg_p_out s a) (agg_p_in s b)) ;
    Ok (rsub rn (Fin 1) r)
  else Ok (Fin 1).

(** conditional.py:997-1021 (cond_p_ij) *)
Definition rcond_p_ij (d x_i y_j z_ij x_I y_J z_IJ : num) : res num :=
  if is0 x_I || is0 y_J || is0 z_IJ || is0 x_i || is0 y_j || is0 z_ij then Ok (Fin 0)
  else if is0 d then Ok (rmul rn (rmul rn (rdiv rn x_i x_I) (rdiv rn y_j y_J)) (rdiv rn z_ij z_IJ))
  else
    let tmp := rmul rn (rmul rn (rmul rn d x_i) y_j) z_ij in
    let tmp1 := rmul rn (rmul rn (rmul rn d x_I) y_J) z_IJ in
    if isinf tmp then Ok (Fin 1)
    else if isinf tmp1 then Ok (nopp (rexpm1 rn (nopp tmp)))
    else rpdiv (nopp (rexpm1 rn (nopp tmp))) (nopp (rexpm1 rn (nopp tmp1))).

(** conditional.py:959-995 (p_jac_ij).  The quotient [a / (2 * b)] can have a zero divisor; [expdbm1] is not zero where
    it divides. *)
Definition rcond_p_jac (d x_i y_j z_ij x_I y_J z_IJ : num) : res (num * num) :=
  if is0 x_I || is0 y_J || is0 z_IJ || is0 x_i || is0 y_j || is0 z_ij then Ok (Fin 0, Fin 0)
  else
    let a := rmul rn (rmul rn x_i y_j) z_ij in
    let b := rmul rn (rmul rn x_I y_J) z_IJ in
    let da := rmul rn d a in
    let db := rmul rn d b in
    let expdbm1 := nopp (rexpm1 rn (nopp db)) in
    if nltb expdbm1 (rn (/ 10 ^ 12)) then
      do r <- rpdiv a (rmul rn (Fin 2) b) ;
      Ok (rmul rn (rmul rn (rdiv rn x_i x_I) (rdiv rn y_j y_J)) (rdiv rn z_ij z_IJ),
          rmul rn (rsub rn (Fin (1 / 2)) r) a)
    else if isinf da then Ok (Fin 1, Fin 0)
    else if isinf db then Ok (nopp (rexpm1 rn (nopp da)), rmul rn a (rexp rn (nopp da)))
    else Ok (rdiv rn (nopp (rexpm1 rn (nopp da))) expdbm1,
             rsub rn (rdiv rn (rmul rn a (rexp rn (nopp da))) expdbm1)
                  (rdiv rn (rmul rn (rmul rn b (rexp rn (nopp db))) (nopp (rexpm1 rn (nopp da)))) (rmul rn expdbm1 expdbm1))).

Section Measures.
Variables (param : num) (prop_out prop_in : nat -> num) (N : nat) (groups : nat -> nat)
  (adj : nat -> list (nat * R)) (selfloops : bool).
Let s := raggregates N groups prop_out prop_in.

(** conditional.py:522-570 (exp_edges with cond_p_ij) *)
Definition rcond_exp_edges : res num :=
  for_range_res N (fun i e =>
    for_range_res N (fun j e =>
      let a := groups i in let b := groups j in
      if linked adj a b && adm selfloops i j then
        do z <- rz_block s selfloops a b ;
        do p <- rcond_p_ij param (prop_out i) (prop_in j) (Fin 1) (agg_p_out s a) (agg_p_in s b) z ;
        Ok (radd rn e p)
      else Ok e) e) (Fin 0).

(** conditional.py:572-665 (exp_degrees with cond_p_ij) *)
Definition rcond_exp_degrees : res ((nat -> num) * (nat -> num) * (nat -> num)) :=
  for_range_res N (fun i st =>
    for_range_res (S i) (fun j st =>
      let '(exp_d, exp_d_out, exp_d_in) := st in
      let a := groups i in let b := groups j in
      if linked adj a b then
        if negb (Nat.eqb i j) then
          do z1 <- rz_block s selfloops a b ;
          do pij <- rcond_p_ij param (prop_out i) (prop_in j) (Fin 1) (agg_p_out s a) (agg_p_in s b) z1 ;
          do z2 <- rz_block s selfloops b a ;
          do pji <- rcond_p_ij param (prop_out j) (prop_in i) (Fin 1) (agg_p_out s b) (agg_p_in s a) z2 ;
          let p := rsub rn (radd rn pij pji) (rmul rn pij pji) in
          Ok (radd_at rn (radd_at rn exp_d i p) j p,
              radd_at rn (radd_at rn exp_d_out i pij) j pji,
              radd_at rn (radd_at rn exp_d_in j pij) i pji)
        else if selfloops then
          do pii <- rcond_p_ij param (prop_out i) (prop_in j) (Fin 1)
                      (agg_p_out s (groups i)) (agg_p_in s (groups j)) (Fin 1) ;
          Ok (radd_at rn exp_d i pii, radd_at rn exp_d_out i pii, radd_at rn exp_d_in j pii)
        else Ok st
      else Ok st) st) (fun _ => Fin 0, fun _ => Fin 0, fun _ => Fin 0).

(** conditional.py:909-957 (exp_edges_f_jac), 505-520 (density_fit_fun) *)
Definition rcond_f_jac : res (num * num) :=
  for_range_res N (fun i fj =>
    for_range_res N (fun j fj =>
      let a := groups i in let b := groups j in
      if linked adj a b && adm selfloops i j then
        do z <- rz_block s selfloops a b ;
        do t <- rcond_p_jac param (prop_out i) (prop_in j) (Fin 1) (agg_p_out s a) (agg_p_in s b) z ;
        Ok (radd rn (fst fj) (fst t), radd rn (snd fj) (snd t))
      else Ok fj) fj) (Fin 0, Fin 0).

(** conditional.py:1029-1087 (_agg_likelihood), see [agg_lik_loop] *)
Fixpoint ragg_lik_loop (agg_adj : nat -> nat -> bool) (l : list (nat * nat)) (like : num) : res num :=
  match l with
  | [] => Ok like
  | (i, j) :: t =>
      do z <- rz_block s selfloops i j ;
      let tmp := if agg_adj i j then rinv_logp rn param (agg_p_out s i) (agg_p_in s j) z
                 else rinv_log1mp rn param (agg_p_out s i) (agg_p_in s j) z in
      if isinf tmp then Ok tmp else ragg_lik_loop agg_adj t (radd rn like tmp)
  end.
(** conditional.py:1029-1087 (_agg_likelihood) *)
Definition ragg_likelihood (agg_adj : nat -> nat -> bool) : res num :=
  let M := max_group N groups in
  ragg_lik_loop agg_adj (list_prod (seq 0 M) (seq 0 M)) (Fin 0).

(** conditional.py:270-331 (log_likelihood) for a binary graph given by its CSR rows, see [cond_log_likelihood].  The
    entries of the aggregates of a binary graph are counts, and sums of positive doubles are positive: the comparison
    of the aggregate graphs needs no rounding. *)
Definition rcond_log_likelihood (rows cols : nat) (row : nat -> list nat) : res num :=
  guard (Nat.eqb rows N && Nat.eqb cols N) ValueError
  (let M := max_group N groups in
   let agg_adj := fun a b => existsb (fun i => Nat.eqb (groups i) a && existsb (fun j => Nat.eqb (groups j) b) (row i)) (seq 0 N) in
   let obs := fun a b => Rltb 0 (fold_right (fun e t => (if Nat.eqb (fst e) b then snd e else 0) + t) 0 (adj a)) in
   if negb (forallb (fun e => Bool.eqb (agg_adj (fst e) (snd e)) (obs (fst e) (snd e))) (list_prod (seq 0 M) (seq 0 M)))
   then Ok NInf
   else
     let like := rlikelihood rn (fun i j => rinv_logp rn param (prop_out i) (prop_in j) (Fin 1))
                   (fun i j => rinv_log1mp rn param (prop_out i) (prop_in j) (Fin 1)) row N selfloops in
     do agg_like <- ragg_likelihood agg_adj ;
     Ok (rsub rn like agg_like)).

(** ** Samplers *)

(** [rng.random() < v]: the probability with which it holds; 1 for plus infinity, 0 for NaN *)
(** conditional.py:722 *)
Definition chance (v : num) : R := match v with Fin r => r | PInf => 1 | _ => 0 end.

(** conditional.py:715 ([p_ij(param, p_out_i, prop_in[j], 1)]) *)
Definition rp_pair (i j : nat) : num := rinv_p_ij rn param (prop_out i) (prop_in j) (Fin 1).

(** The loops over the pairs of a block (conditional.py:711-727, 793-815, 882-900), see [sample_block] *)
Fixpoint rsample_pairs {F} (mark : nat * nat -> res F) (l : list (nat * nat)) (acc : list F) (atleastone : bool) (pnorm : num)
    : prog (res (list F)) :=
  match l with
  | [] => Ret (Ok acc)
  | (i, j) :: t =>
      if adm selfloops i j then
        let p := rp_pair i j in
        match (if atleastone then Ok p else rpdiv p pnorm) with
        | Raise e => Ret (Raise e)
        | Ok p_sample =>
            Draw (chance p_sample) (fun hit =>
              if hit then
                match mark (i, j) with
                | Raise e => Ret (Raise e)
                | Ok m => rsample_pairs mark t (acc ++ [m]) true pnorm
                end
              else
                match rpdiv (rsub rn (Fin 1) pnorm) (rsub rn (Fin 1) p) with
                | Raise e => Ret (Raise e)
                | Ok r => rsample_pairs mark t acc atleastone (rsub rn (Fin 1) r)
                end)
        end
      else rsample_pairs mark t acc atleastone pnorm
  end.

(** conditional.py:702-709 and 783-790, see [p_block] *)
Definition rp_block (a b : nat) : res num :=
  do z <- rz_block s selfloops a b ;
  Ok (rinv_p_ij rn param (agg_p_out s a) (agg_p_in s b) z).

(** The loop over the macro links (conditional.py:687-727, 768-815, 852-905), see [sample_blocks] *)
Fixpoint rsample_blocks {F} (mark : num -> nat * nat -> res F) (finish : R -> list F -> res (list F))
    (blocks : list (nat * nat * R)) (acc : list F) : prog (res (list F)) :=
  match blocks with
  | [] => Ret (Ok acc)
  | (a, b, w) :: t =>
      match rp_block a b with
      | Raise e => Ret (Raise e)
      | Ok pnorm =>
          pbind (rsample_pairs (mark pnorm) (list_prod (members N groups a) (members N groups b)) [] false pnorm)
            (fun r => match r with
                      | Raise e => Ret (Raise e)
                      | Ok links =>
                          match finish w links with
                          | Raise e => Ret (Raise e)
                          | Ok links' => rsample_blocks mark finish t (acc ++ links')
                          end
                      end)
      end
  end.

(** conditional.py:667-729 (_binary_sample) *)
Definition rcond_binary_sample : prog (res (list (nat * nat))) :=
  rsample_blocks (fun _ e => Ok e) (fun _ l => Ok l) (macro_links N groups adj) [].

(** conditional.py:731-817 (_cremb_sample); each link carries the scale of [rng.exponential] *)
Definition rcond_cremb_sample (s_out s_in : nat -> num) : res (prog (res (list (nat * nat * num)))) :=
  let s_tot := rsum rn N s_out in
  if is0 s_tot then Raise ZeroDivisionError
  else
    guard (nltb (nabs (rsub rn (Fin 1) (rdiv rn (rsum rn N s_in) s_tot))) (rn (1 / 1000000))) AssertionError
      (Ok (rsample_blocks
             (fun p_ab e =>
                do q <- rpdiv (rp_pair (fst e) (snd e)) p_ab ;
                do v <- rpdiv (rmul rn (s_out (fst e)) (s_in (snd e))) (rmul rn s_tot q) ;
                Ok (fst e, snd e, v))
             (fun _ l => Ok l) (macro_links N groups adj) [])).

(** conditional.py:819-907 (_wagg_sample); [snorm] is summed in the order of the draws *)
Definition rwagg_finish (w : R) (links : list (nat * nat * num)) : res (list (nat * nat * num)) :=
  let snorm := fold_left (fun t e => radd rn t (snd e)) links (Fin 0) in
  match links with
  | [] => Ok []
  | _ => if is0 snorm then Raise ZeroDivisionError
         else Ok (map (fun e => (fst e, rmul rn (rdiv rn (snd e) snorm) (Fin w))) links)
  end.
(** conditional.py:819-907 (_wagg_sample) *)
Definition rcond_wagg_sample (s_out s_in : nat -> num) : prog (res (list (nat * nat * num))) :=
  rsample_blocks (fun _ e => Ok (fst e, snd e, rmul rn (s_out (fst e)) (s_in (snd e)))) rwagg_finish (macro_links N groups adj) [].
End Measures.
End Rounded.
