(** Ensemble computations of DiGraphEnsemble: model only, no proofs.
    The static methods take the kernel and the vertex properties exactly as in the code.
    [N] is the number of vertices, i.e. the length of [prop_out] and [prop_in] (the constructors
    enforce equal lengths). *)
From Verif Require Import Base Num Prob.

(** Direction strings accepted by the code; [Dother] stands for any other string. *)
(** sparse/models/ensembles.py:161-227
    (DiGraphEnsemble.expected_av_nn_property) *)
Inductive dir := Dout | Din | Doutin | Dother.

(** [(i != j) | selfloops] *)
(** sparse/models/ensembles.py:407-415 (DiGraphEnsemble.exp_edges) *)
Definition adm (selfloops : bool) (i j : nat) : bool := negb (Nat.eqb i j) || selfloops.

Section Ensemble.
Variables P X Y Z : Type.

(** sparse/models/ensembles.py:405-415; models.py:408-418 (exp_edges) *)
Definition exp_edges (p_ij : P -> X -> Y -> Z -> R) (param : P) (prop_out : nat -> X)
    (prop_in : nat -> Y) (prop_dyad : nat -> nat -> Z) (N : nat) (selfloops : bool) : R :=
  for_range N (fun i exp_e =>
    for_range N (fun j exp_e =>
      if adm selfloops i j
      then exp_e + p_ij param (prop_out i) (prop_in j) (prop_dyad i j)
      else exp_e) exp_e) 0.

(** The three arrays (exp_d, exp_d_out, exp_d_in). *)
(** sparse/models/ensembles.py:419-446 (DiGraphEnsemble.exp_degrees) *)
Definition degs : Type := ((nat -> R) * (nat -> R) * (nat -> R))%type.

(** Body of the inner loop of exp_degrees, sparse/models/ensembles.py:430-444. *)
Definition exp_degrees_body (p_ij : P -> X -> X -> Z -> R) (param : P) (prop_out prop_in : nat -> X)
    (prop_dyad : nat -> nat -> Z) (selfloops : bool) (i j : nat) (st : degs) : degs :=
  let '(exp_d, exp_d_out, exp_d_in) := st in
  if negb (Nat.eqb i j) then
    let pij := p_ij param (prop_out i) (prop_in j) (prop_dyad i j) in
    let pji := p_ij param (prop_out j) (prop_in i) (prop_dyad j i) in
    let p := pij + pji - pij * pji in
    let exp_d := add_at exp_d i p in
    let exp_d := add_at exp_d j p in
    let exp_d_out := add_at exp_d_out i pij in
    let exp_d_out := add_at exp_d_out j pji in
    let exp_d_in := add_at exp_d_in j pij in
    let exp_d_in := add_at exp_d_in i pji in
    (exp_d, exp_d_out, exp_d_in)
  else if selfloops then
    let pii := p_ij param (prop_out i) (prop_in j) (prop_dyad i j) in
    (add_at exp_d i pii, add_at exp_d_out i pii, add_at exp_d_in j pii)
  else st.

(** sparse/models/ensembles.py:417-446; models.py:420-449 (exp_degrees) *)
Definition exp_degrees (p_ij : P -> X -> X -> Z -> R) (param : P) (prop_out prop_in : nat -> X)
    (prop_dyad : nat -> nat -> Z) (N : nat) (selfloops : bool) : degs :=
  for_range N (fun i st =>
    for_range (S i) (fun j st =>
      exp_degrees_body p_ij param prop_out prop_in prop_dyad selfloops i j st) st)
    ((fun _ => 0), (fun _ => 0), (fun _ => 0)).

(** Body of the inner loop of exp_av_nn_prop, sparse/models/ensembles.py:459-479 (the [else: raise]
    branch is the test [bad] below). *)
Definition nn_body (p_ij : P -> X -> X -> Z -> R) (param : P) (prop_out prop_in : nat -> X)
    (prop_dyad : nat -> nat -> Z) (prop : nat -> R) (ndir : dir) (i j : nat) (av_nn : nat -> R)
    : nat -> R :=
  let pij := p_ij param (prop_out i) (prop_in j) (prop_dyad i j) in
  let pji := p_ij param (prop_out j) (prop_in i) (prop_dyad j i) in
  match ndir with
  | Dout =>
      let av_nn := add_at av_nn i (pij * prop j) in add_at av_nn j (pji * prop i)
  | Din =>
      let av_nn := add_at av_nn i (pji * prop j) in add_at av_nn j (pij * prop i)
  | Doutin =>
      let p := 1 - (1 - pij) * (1 - pji) in
      let av_nn := add_at av_nn i (p * prop j) in add_at av_nn j (p * prop i)
  | Dother => av_nn
  end.

Definition bad_dir (ndir : dir) : bool := match ndir with Dother => true | _ => false end.

(** sparse/models/ensembles.py:448-487; models.py:451-490 (exp_av_nn_prop), for a one-dimensional
    property.  The self-loop pass evaluates [prop_dyad(i, j)] with the value [j] left over from the
    first loop (N-2 when N >= 2, unbound when N = 1: UnboundLocalError in Python, an uninitialised
    value under numba). *)
Definition exp_av_nn_prop (p_ij : P -> X -> X -> Z -> R) (param : P) (prop_out prop_in : nat -> X)
    (prop_dyad : nat -> nat -> Z) (prop : nat -> R) (ndir : dir) (N : nat) (selfloops : bool)
    : res (nat -> R) :=
  let loop1 :=
    for_range N (fun i a =>
      for_range i (fun j a => nn_body p_ij param prop_out prop_in prop_dyad prop ndir i j a) a)
      (fun _ => 0) in
  (* the first iteration of the inner loop raises on an unknown direction *)
  if bad_dir ndir && Nat.leb 2 N then Raise ValueError
  else if selfloops then
    if Nat.eqb N 1 then Raise UnboundLocalError
    else
      Ok (for_range N (fun i a =>
            add_at a i (p_ij param (prop_out i) (prop_in i) (prop_dyad i (N - 2)%nat) * prop i)) loop1)
  else Ok loop1.

(** Body of the double loop of _likelihood, sparse/models/ensembles.py:497-510 and models.py:496-508;
    [linked] is the result of the test that the pair is a link. *)
Definition lik_body (logp log1mp : P -> X -> Y -> Z -> num) (param : P) (prop_out : nat -> X)
    (prop_in : nat -> Y) (prop_dyad : nat -> nat -> Z) (selfloops linked : bool) (i j : nat)
    (like : num) : flow num num :=
  if adm selfloops i j then
    let tmp :=
      if linked
      then logp param (prop_out i) (prop_in j) (prop_dyad i j)
      else log1mp param (prop_out i) (prop_in j) (prop_dyad i j) in
    if isinf tmp then Return tmp else Next (nadd like tmp)
  else Next like.

Definition flow_val (f : flow num num) : num := match f with Next like => like | Return tmp => tmp end.

(** sparse/models/ensembles.py:489-512 (_likelihood).  [row i] is the list of column indices stored
    in row [i] of the CSR matrix ([adj_j[adj_i[i]:adj_i[i+1]]]); the test is [j not in ...]. *)
Definition likelihood (logp log1mp : P -> X -> Y -> Z -> num) (param : P) (prop_out : nat -> X)
    (prop_in : nat -> Y) (prop_dyad : nat -> nat -> Z) (row : nat -> list nat) (N : nat)
    (selfloops : bool) : num :=
  flow_val (for_flow N (fun i => for_flow N (fun j =>
    lik_body logp log1mp param prop_out prop_in prop_dyad selfloops
      (existsb (Nat.eqb j) (row i)) i j)) (Fin 0)).

(** models.py:492-510 (_likelihood of the dense module): the test is [adj[i, j] != 0]. *)
Definition likelihood_dense (logp log1mp : P -> X -> Y -> Z -> num) (param : P) (prop_out : nat -> X)
    (prop_in : nat -> Y) (prop_dyad : nat -> nat -> Z) (adj : nat -> nat -> bool) (N : nat)
    (selfloops : bool) : num :=
  flow_val (for_flow N (fun i => for_flow N (fun j =>
    lik_body logp log1mp param prop_out prop_in prop_dyad selfloops (adj i j) i j)) (Fin 0)).

(** sparse/models/ensembles.py:514-528; models.py:512-526 (_binary_sample).  The parallel lists
    (rows, cols) are one list of pairs. *)
Definition binary_sample (p_ij : P -> X -> Y -> Z -> R) (param : P) (prop_out : nat -> X)
    (prop_in : nat -> Y) (prop_dyad : nat -> nat -> Z) (N : nat) (selfloops : bool)
    : prog (list (nat * nat)) :=
  for_prog (seq 0 N) (fun i acc =>
    for_prog (seq 0 N) (fun j acc =>
      if adm selfloops i j then
        Draw (p_ij param (prop_out i) (prop_in j) (prop_dyad i j))
             (fun b => Ret (if b then acc ++ [(i, j)] else acc))
      else Ret acc) acc) [].

(** sparse/models/ensembles.py:530-551; models.py:528-549 (_cremb_sample).  Each link carries the scale
    passed to [rng.exponential]; the weight itself is an exponential draw with that mean.  numba
    divides with Python semantics, so a zero total raises ZeroDivisionError. *)
Definition cremb_sample (p_ij : P -> X -> Y -> Z -> R) (param : P) (prop_out : nat -> X)
    (prop_in : nat -> Y) (prop_dyad : nat -> nat -> Z) (s_out s_in : nat -> R) (N : nat)
    (selfloops : bool) : res (prog (list (nat * nat * R))) :=
  let s_tot := sumn N s_out in
  if Reqb s_tot 0 then Raise ZeroDivisionError
  else
    guard (Rltb (Rabs (1 - sumn N s_in / s_tot)) (1 / 1000000)) AssertionError
      (Ok (for_prog (seq 0 N) (fun i acc =>
        for_prog (seq 0 N) (fun j acc =>
          if adm selfloops i j then
            let p := p_ij param (prop_out i) (prop_in j) (prop_dyad i j) in
            Draw p (fun b => Ret (if b then acc ++ [(i, j, s_out i * s_in j / (s_tot * p))] else acc))
          else Ret acc) acc) [])).
End Ensemble.

Arguments exp_edges {P X Y Z}.
Arguments exp_degrees_body {P X Z}.
Arguments exp_degrees {P X Z}.
Arguments nn_body {P X Z}.
Arguments exp_av_nn_prop {P X Z}.
Arguments lik_body {P X Y Z}.
Arguments likelihood {P X Y Z}.
Arguments likelihood_dense {P X Y Z}.
Arguments binary_sample {P X Y Z}.
Arguments cremb_sample {P X Y Z}.
