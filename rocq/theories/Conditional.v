(** Model of src/graph_ensembles/sparse/models/conditional.py (ConditionalInvariantModel).

    Conventions: vertices are 0..N-1, [groups i] is the group of vertex [i].  [adj a] is row [a] of the
    CSR form of the observed aggregate graph: the list of (column, value) entries, the arrays
    adj.indices and adj.data between adj.indptr[a] and adj.indptr[a+1].  The parameter is the single
    entry d[0].  The compiled (numba) code divides with Python semantics: a zero divisor raises
    ZeroDivisionError. *)
From Verif Require Import Base Num Kernels MultiKernels Prob Ensemble Solver Fit.

Definition pdiv (a b : num) : res num := if is0 b then Raise ZeroDivisionError else Ok (ndiv a b).

(** [np.max(groups) + 1] (conditional.py:526, 576, 674, 752, 839, 917, 1042) *)
Definition max_group (N : nat) (groups : nat -> nat) : nat := S (list_max (map groups (seq 0 N))).

Definition nadd_at (a : nat -> num) (i : nat) (v : num) : nat -> num := upd a i (nadd (a i) v).

Record agg := mkAgg { agg_p_out : nat -> num; agg_p_in : nat -> num; agg_diag : nat -> num }.

(** conditional.py:526-535 and the same lines of the other functions.  The array agg_diag exists in
    the code only without self-loops; it is read only then. *)
Definition aggregates (N : nat) (groups : nat -> nat) (prop_out prop_in : nat -> num) : agg :=
  for_range N (fun i s =>
    mkAgg (nadd_at (agg_p_out s) (groups i) (prop_out i))
          (nadd_at (agg_p_in s) (groups i) (prop_in i))
          (nadd_at (agg_diag s) (groups i) (nmul (prop_out i) (prop_in i))))
    (mkAgg (fun _ => Fin 0) (fun _ => Fin 0) (fun _ => Fin 0)).

(** The dyadic factor of a pair of groups: [1 - agg_diag[a] / (agg_p_out[a] * agg_p_in[b])] for a group
    with itself when self-loops are excluded, else 1 (conditional.py:547-567 and similar). *)
Definition z_block (s : agg) (selfloops : bool) (a b : nat) : res num :=
  if negb selfloops && Nat.eqb a b then
    do r <- pdiv (agg_diag s a) (nmul (agg_p_out s a) (agg_p_in s b)) ;
    Ok (nsub (Fin 1) r)
  else Ok (Fin 1).

(** conditional.py:997-1021 (cond_p_ij).  The divisors are not zero in the branches that divide. *)
Definition cond_p_ij (d x_i y_j z_ij x_I y_J z_IJ : num) : num :=
  if is0 x_I || is0 y_J || is0 z_IJ || is0 x_i || is0 y_j || is0 z_ij then Fin 0
  else if is0 d then nmul (nmul (ndiv x_i x_I) (ndiv y_j y_J)) (ndiv z_ij z_IJ)
  else
    let tmp := nmul (nmul (nmul d x_i) y_j) z_ij in
    let tmp1 := nmul (nmul (nmul d x_I) y_J) z_IJ in
    if isinf tmp then Fin 1
    else if isinf tmp1 then nopp (nexpm1 (nopp tmp))
    else ndiv (nopp (nexpm1 (nopp tmp))) (nopp (nexpm1 (nopp tmp1))).

(** conditional.py:959-995 (p_jac_ij) *)
Definition cond_p_jac (d x_i y_j z_ij x_I y_J z_IJ : num) : num * num :=
  if is0 x_I || is0 y_J || is0 z_IJ || is0 x_i || is0 y_j || is0 z_ij then (Fin 0, Fin 0)
  else
    let a := nmul (nmul x_i y_j) z_ij in
    let b := nmul (nmul x_I y_J) z_IJ in
    let da := nmul d a in
    let db := nmul d b in
    let expdbm1 := nopp (nexpm1 (nopp db)) in
    if nltb expdbm1 (Fin (/ 10 ^ 12)) then
      (nmul (nmul (ndiv x_i x_I) (ndiv y_j y_J)) (ndiv z_ij z_IJ),
       nmul (nsub (Fin (1 / 2)) (ndiv a (nmul (Fin 2) b))) a)
    else if isinf da then (Fin 1, Fin 0)
    else if isinf db then (nopp (nexpm1 (nopp da)), nmul a (nexp (nopp da)))
    else (ndiv (nopp (nexpm1 (nopp da))) expdbm1,
          nsub (ndiv (nmul a (nexp (nopp da))) expdbm1)
               (ndiv (nmul (nmul b (nexp (nopp db))) (nopp (nexpm1 (nopp da)))) (nmul expdbm1 expdbm1))).

(** [b in gr_list] with [gr_list = adj_j[adj_i[a]:adj_i[a+1]]] *)
(** sparse/models/conditional.py:524-570 (ConditionalInvariantModel.exp_edges)
    *)
Definition linked (adj : nat -> list (nat * R)) (a b : nat) : bool := existsb (Nat.eqb b) (map fst (adj a)).

(** A loop whose body can raise. *)
(** sparse/models/conditional.py:524-570 (ConditionalInvariantModel.exp_edges)
    *)
Fixpoint for_range_res {S : Type} (n : nat) (body : nat -> S -> res S) (s : S) : res S :=
  match n with
  | O => Ok s
  | Datatypes.S k => do s' <- for_range_res k body s ; body k s'
  end.

Section Measures.
Variables (param : num) (prop_out prop_in : nat -> num) (N : nat) (groups : nat -> nat)
  (adj : nat -> list (nat * R)) (selfloops : bool).
Let s := aggregates N groups prop_out prop_in.

(** conditional.py:522-570 (exp_edges with cond_p_ij) *)
Definition cond_exp_edges : res R :=
  for_range_res N (fun i e =>
    for_range_res N (fun j e =>
      let a := groups i in let b := groups j in
      if linked adj a b && adm selfloops i j then
        do z <- z_block s selfloops a b ;
        Ok (e + toR (cond_p_ij param (prop_out i) (prop_in j) (Fin 1) (agg_p_out s a) (agg_p_in s b) z))
      else Ok e) e) 0.

(** conditional.py:572-665 (exp_degrees with cond_p_ij) *)
Definition cond_exp_degrees : res degs :=
  for_range_res N (fun i st =>
    for_range_res (S i) (fun j st =>
      let '(exp_d, exp_d_out, exp_d_in) := st in
      let a := groups i in let b := groups j in
      if linked adj a b then
        if negb (Nat.eqb i j) then
          do z1 <- z_block s selfloops a b ;
          do z2 <- z_block s selfloops b a ;
          let pij := toR (cond_p_ij param (prop_out i) (prop_in j) (Fin 1) (agg_p_out s a) (agg_p_in s b) z1) in
          let pji := toR (cond_p_ij param (prop_out j) (prop_in i) (Fin 1) (agg_p_out s b) (agg_p_in s a) z2) in
          let p := pij + pji - pij * pji in
          Ok (add_at (add_at exp_d i p) j p,
              add_at (add_at exp_d_out i pij) j pji,
              add_at (add_at exp_d_in j pij) i pji)
        else if selfloops then
          let pii := toR (cond_p_ij param (prop_out i) (prop_in j) (Fin 1)
                       (agg_p_out s (groups i)) (agg_p_in s (groups j)) (Fin 1)) in
          Ok (add_at exp_d i pii, add_at exp_d_out i pii, add_at exp_d_in j pii)
        else Ok st
      else Ok st) st) (fun _ => 0, fun _ => 0, fun _ => 0).

(** conditional.py:909-957 (exp_edges_f_jac), 505-520 (density_fit_fun) *)
Definition cond_f_jac : res (num * num) :=
  for_range_res N (fun i fj =>
    for_range_res N (fun j fj =>
      let a := groups i in let b := groups j in
      if linked adj a b && adm selfloops i j then
        do z <- z_block s selfloops a b ;
        let '(p_tmp, jac_tmp) := cond_p_jac param (prop_out i) (prop_in j) (Fin 1) (agg_p_out s a) (agg_p_in s b) z in
        Ok (nadd (fst fj) p_tmp, nadd (snd fj) jac_tmp)
      else Ok fj) fj) (Fin 0, Fin 0).

(** conditional.py:1029-1087 (_agg_likelihood).  [agg_adj a b] tells whether [b] is in the row [a] of
    agg_adj.  The two nested loops are one loop over the pairs of groups in the same order. *)
Fixpoint agg_lik_loop (agg_adj : nat -> nat -> bool) (l : list (nat * nat)) (like : num) : res num :=
  match l with
  | [] => Ok like
  | (i, j) :: t =>
      do z <- z_block s selfloops i j ;
      let tmp := if agg_adj i j then inv_logp param (agg_p_out s i) (agg_p_in s j) z
                 else inv_log1mp param (agg_p_out s i) (agg_p_in s j) z in
      if isinf tmp then Ok tmp else agg_lik_loop agg_adj t (nadd like tmp)
  end.
Definition agg_likelihood (agg_adj : nat -> nat -> bool) : res num :=
  let M := max_group N groups in
  agg_lik_loop agg_adj (list_prod (seq 0 M) (seq 0 M)) (Fin 0).

(** conditional.py:270-331 (log_likelihood) for a graph given by its shape and CSR rows.  The aggregate
    adjacency [Gmat.dot(adj).dot(Gmat.T) > 0] links two groups when some link joins their vertices;
    [self.adj > 0] keeps the entries with positive value.
    Simplification: the graph is binary, so no aggregate sum cancels. *)
Definition cond_log_likelihood (rows cols : nat) (row : nat -> list nat) : res num :=
  guard (Nat.eqb rows N && Nat.eqb cols N) ValueError
  (let M := max_group N groups in
   let agg_adj := fun a b => existsb (fun i => Nat.eqb (groups i) a && existsb (fun j => Nat.eqb (groups j) b) (row i)) (seq 0 N) in
   let obs := fun a b => Rltb 0 (fold_right (fun e t => (if Nat.eqb (fst e) b then snd e else 0) + t) 0 (adj a)) in
   if negb (forallb (fun e => Bool.eqb (agg_adj (fst e) (snd e)) (obs (fst e) (snd e))) (list_prod (seq 0 M) (seq 0 M)))
   then Ok NInf
   else
     let like := likelihood inv_logp inv_log1mp param prop_out prop_in (fun _ _ => Fin 1) row N selfloops in
     do agg_like <- agg_likelihood agg_adj ;
     Ok (nsub like agg_like)).

(** ** Samplers *)

(** Probability of a link of the unconditional model, [p_ij(param, prop_out[i], prop_in[j], 1)] *)
(** sparse/models/conditional.py:669-729
    (ConditionalInvariantModel._binary_sample) *)
Definition p_pair (i j : nat) : R := toR (inv_p_ij param (prop_out i) (prop_in j) (Fin 1)).

(** The loops over the pairs of a block (conditional.py:709-727, 788-813, 879-896) as one loop over the
    pairs in the same order.  [mark] is what is recorded for a link: nothing (binary sampler), the
    scale of the exponential draw (cremb) or the product of the strengths (wagg). *)
Fixpoint sample_block {F} (mark : nat * nat -> F) (l : list (nat * nat)) (acc : list F) (atleastone : bool) (pnorm : R)
    : prog (res (list F)) :=
  match l with
  | [] => Ret (Ok acc)
  | (i, j) :: t =>
      if adm selfloops i j then
        let p := p_pair i j in
        let draw p_sample :=
          Draw p_sample (fun hit =>
            if hit then sample_block mark t (acc ++ [mark (i, j)]) true pnorm
            else if Reqb (1 - p) 0 then Ret (Raise ZeroDivisionError)
            else sample_block mark t acc atleastone (1 - (1 - pnorm) / (1 - p))) in
        if atleastone then draw p
        else if Reqb pnorm 0 then Ret (Raise ZeroDivisionError) else draw (p / pnorm)
      else sample_block mark t acc atleastone pnorm
  end.

(** [np.where(groups == a)[0]] *)
(** sparse/models/conditional.py:669-729
    (ConditionalInvariantModel._binary_sample) *)
Definition members (a : nat) : list nat := filter (fun i => Nat.eqb (groups i) a) (seq 0 N).

(** conditional.py:700-707 and 778-786: probability of at least one link in the block *)
Definition p_block (a b : nat) : res R :=
  do z <- z_block s selfloops a b ;
  Ok (toR (inv_p_ij param (agg_p_out s a) (agg_p_in s b) z)).

(** The macro links in the order of the loops over a and b, with their weights. *)
(** sparse/models/conditional.py:669-729
    (ConditionalInvariantModel._binary_sample) *)
Definition macro_links : list (nat * nat * R) :=
  flat_map (fun a => map (fun e => (a, fst e, snd e)) (adj a)) (seq 0 (max_group N groups)).

(** The loop over the macro links.  The links of a block are collected and appended to the lists of the
    earlier blocks after [finish] (the identity, or the normalisation of wagg). *)
(** sparse/models/conditional.py:669-729
    (ConditionalInvariantModel._binary_sample);
    sparse/models/conditional.py:733-817
    (ConditionalInvariantModel._cremb_sample);
    sparse/models/conditional.py:821-907
    (ConditionalInvariantModel._wagg_sample) *)
Fixpoint sample_blocks {F} (mark : R -> nat * nat -> F) (finish : R -> list F -> res (list F))
    (blocks : list (nat * nat * R)) (acc : list F) : prog (res (list F)) :=
  match blocks with
  | [] => Ret (Ok acc)
  | (a, b, w) :: t =>
      match p_block a b with
      | Raise e => Ret (Raise e)
      | Ok pnorm =>
          pbind (sample_block (mark pnorm) (list_prod (members a) (members b)) [] false pnorm)
            (fun r => match r with
                      | Raise e => Ret (Raise e)
                      | Ok links =>
                          match finish w links with
                          | Raise e => Ret (Raise e)
                          | Ok links' => sample_blocks mark finish t (acc ++ links')
                          end
                      end)
      end
  end.

(** conditional.py:667-729 (_binary_sample) *)
Definition cond_binary_sample : prog (res (list (nat * nat))) :=
  sample_blocks (fun _ e => e) (fun _ l => Ok l) macro_links [].

(** conditional.py:731-817 (_cremb_sample); each link carries the scale of [rng.exponential] *)
Definition cond_cremb_sample (s_out s_in : nat -> R) : res (prog (res (list (nat * nat * R)))) :=
  let s_tot := sumn N s_out in
  if Reqb s_tot 0 then Raise ZeroDivisionError
  else
    guard (Rltb (Rabs (1 - sumn N s_in / s_tot)) (1 / 1000000)) AssertionError
      (Ok (sample_blocks
             (fun p_ab e => (fst e, snd e, s_out (fst e) * s_in (snd e) / (s_tot * (p_pair (fst e) (snd e) / p_ab))))
             (fun _ l => Ok l) macro_links [])).

(** conditional.py:819-907 (_wagg_sample); [snorm] is the sum of the products of strengths *)
Definition wagg_finish (w : R) (links : list (nat * nat * R)) : res (list (nat * nat * R)) :=
  let snorm := fold_right (fun e t => snd e + t) 0 links in
  match links with
  | [] => Ok []
  | _ => if Reqb snorm 0 then Raise ZeroDivisionError
         else Ok (map (fun e => (fst e, snd e / snorm * w)) links)
  end.
Definition cond_wagg_sample (s_out s_in : nat -> R) : prog (res (list (nat * nat * R))) :=
  sample_blocks (fun _ e => (fst e, snd e, s_out (fst e) * s_in (snd e))) wagg_finish macro_links [].

(** conditional.py:333-430 (sample), the sampled links; [None] stands for weights=None, the argument
    [selfloops] of sample has no effect (the functions receive self.selfloops). *)
Inductive weighting := Cremb | Wagg | OtherWeights.
Definition cond_sample (weights : option weighting) (s_out s_in : nat -> R) : res (prog (res (list (nat * nat * R)))) :=
  match weights with
  | None => Ok (pbind cond_binary_sample (fun r =>
              Ret (match r with Ok l => Ok (map (fun e => (e, 1)) l) | Raise x => Raise x end)))
  | Some Cremb => cond_cremb_sample s_out s_in
  | Some Wagg => Ok (cond_wagg_sample s_out s_in)
  | Some OtherWeights => Raise ValueError
  end.
End Measures.

(** conditional.py:432-503 (fit) with density_fit_fun; an exception of the objective (a group without
    fitness) propagates, so the solver runs only when the objective is defined.
    Simplification: the objective raises for every parameter or for none, so it is evaluated once. *)
Definition cond_fit (prop_out prop_in : nat -> num) (N : nat) (groups : nat -> nat)
    (adj : nat -> list (nat * R)) (selfloops : bool) (num_edges : option num) (x0 : option user_array)
    (method : fit_method) (atol rtol : num) (maxiter : nat) : res fitted :=
  let fn := fun delta => match cond_f_jac delta prop_out prop_in N groups adj selfloops with
                         | Ok r => r | Raise _ => (NaN, NaN) end in
  do _ <- cond_f_jac (Fin 0) prop_out prop_in N groups adj selfloops ;
  fitness_fit fn num_edges x0 method atol rtol maxiter.
