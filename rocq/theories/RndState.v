(** RandomDiGraph objects: the inherited expected_av_nn_degree with its cache, histories of calls, and the class of
    the spark module.  Model only. *)
From Verif Require Import Base Num Prob Ensemble EnsembleState Random.

(** The attributes of an object: those of Random.v and the cached nearest-neighbour degrees.  [o_nn ndir ddir] is the
    attribute named "exp_av_<ndir>_nn_d_<ddir>"; the strings are "out", "in" and "out-in". *)
(** sparse/models/random.py:37-145 (RandomDiGraph.__init__); sparse/models/ensembles.py:229-281
    (DiGraphEnsemble.expected_av_nn_degree) *)
Record robj := mkObj { o_rnd : rnd; o_nn : dir -> dir -> option (nat -> num) }.
Definition with_rnd (o : robj) (s : rnd) : robj := mkObj s (o_nn o).
(** sparse/models/ensembles.py:229-281 (DiGraphEnsemble.expected_av_nn_degree): [setattr(self, name, res)] *)
Definition store_nn (o : robj) (nd dd : dir) (v : nat -> num) : robj :=
  mkObj (o_rnd o)
    (fun a b => match a, b, nd, dd with
                | Dout, Dout, Dout, Dout | Dout, Din, Dout, Din | Dout, Doutin, Dout, Doutin
                | Din, Dout, Din, Dout | Din, Din, Din, Din | Din, Doutin, Din, Doutin
                | Doutin, Dout, Doutin, Dout | Doutin, Din, Doutin, Din | Doutin, Doutin, Doutin, Doutin => Some v
                | _, _, _, _ => o_nn o a b
                end).
(** An object with the attributes [s] and no cached values. *)
(** sparse/models/random.py:37-145 (RandomDiGraph.__init__) *)
Definition new_obj (s : rnd) : robj := mkObj s (fun _ _ => None).

(** The three-way choice of sparse/models/ensembles.py:256-263. *)
Definition rnd_degree_of (d : dir) (s : rnd) : res (nat -> num) :=
  match d with
  | Dout => rnd_out_degree s
  | Din => rnd_in_degree s
  | Doutin => rnd_degree s
  | Dother => Raise ValueError
  end.

Section Inherited.
(** The method [expected_av_nn_property] of the class of the object. *)
Variable av_nn : nat -> (nat -> num) -> dir -> option bool -> rnd -> res (nat -> num) * rnd.

(** sparse/models/ensembles.py:229-281, models.py:235-287 and spark/models.py:264-316
    (DiGraphEnsemble.expected_av_nn_degree), on an object that never has the attributes [_exp_degree],
    [_exp_out_degree] and [_exp_in_degree]. *)
Definition obj_av_nn_degree (ddir ndir : dir) (selfloops : option bool) (deg_recompute recompute : bool)
    (o : robj) : res (nat -> num) * robj :=
  match r_param (o_rnd o) with
  | None => (Raise GenericException, o)
  | Some _ =>
      if is_none (o_nn o ndir ddir) || recompute || deg_recompute then
        let tmp_self := r_selfloops (o_rnd o) in
        let sl := match selfloops with None => tmp_self | Some b => b end in
        let s := match selfloops with
                 | None => o_rnd o
                 | Some b => if Bool.eqb b tmp_self then o_rnd o else with_rself (o_rnd o) b
                 end in
        match rnd_degree_of ddir s with
        | Raise e => (Raise e, with_rnd o s)
        | Ok deg =>
            match av_nn (r_N s) deg ndir (Some sl) s with
            | (Raise e, s) => (Raise e, with_rnd o s)
            | (Ok res, s) =>
                let s := if Bool.eqb tmp_self (r_selfloops s) then s else with_rself s tmp_self in
                let o := store_nn (with_rnd o s) ndir ddir res in
                (attr (o_nn o ndir ddir), o)
            end
        end
      else (attr (o_nn o ndir ddir), o)
  end.

(** What a caller does with an object: ask for a measure, fit, assign the parameter or the self-loop option. *)
(** sparse/models/random.py:147-278 *)
Inductive revent :=
| REdges
| RDegree (d : dir)
| RProperty (len : nat) (prop : nat -> R) (ndir : dir) (selfloops : option bool)
| RNNDegree (ddir ndir : dir) (selfloops : option bool) (deg_recompute recompute : bool)
| RFit
| RSetParam (p q : num)
| RSetLoops (b : bool).

(** The answer: nothing (an assignment), a number or a vector. *)
(** sparse/models/random.py:147-278 *)
Inductive ranswer := RNothing | RScalar (v : num) | RVector (v : nat -> num).
Definition ranswer_of {A} (f : A -> ranswer) (r : res A) : res ranswer := do v <- r ; Ok (f v).

(** One call or assignment. *)
(** sparse/models/random.py:147-162 (fit); 164-175 (expected_num_edges); 189-215 (expected degrees); 217-278
    (expected_av_nn_property); sparse/models/ensembles.py:229-281 (DiGraphEnsemble.expected_av_nn_degree) *)
Definition obj_step (e : revent) (o : robj) : res ranswer * robj :=
  match e with
  | REdges => (ranswer_of RScalar (rnd_num_edges (o_rnd o)), o)
  | RDegree d => (ranswer_of RVector (rnd_degree_of d (o_rnd o)), o)
  | RProperty len prop nd sl =>
      let (r, s) := av_nn len (fun i => Fin (prop i)) nd sl (o_rnd o) in (ranswer_of RVector r, with_rnd o s)
  | RNNDegree dd nd sl dr r =>
      let (r, o') := obj_av_nn_degree dd nd sl dr r o in (ranswer_of RVector r, o')
  | RFit => match rnd_fit (o_rnd o) with
            | Ok s => (Ok RNothing, with_rnd o s)
            | Raise e => (Raise e, o)
            end
  | RSetParam p q => (Ok RNothing, with_rnd o (with_rparam (o_rnd o) p q))
  | RSetLoops b => (Ok RNothing, with_rnd o (with_rself (o_rnd o) b))
  end.

(** A sequence of calls: the answers and the final object. *)
(** sparse/models/random.py:147-278 *)
Fixpoint obj_run (l : list revent) (o : robj) : list (res ranswer) * robj :=
  match l with
  | [] => ([], o)
  | e :: t => let (a, o1) := obj_step e o in let (r, o2) := obj_run t o1 in (a :: r, o2)
  end.
End Inherited.

(** spark/models.py:1120-1181 (RandomDiGraph.expected_av_nn_property) for a property with one dimension: the vertex
    itself is subtracted, and the in-place operations keep the shape of [prop]. *)
Definition sp_rnd_av_nn (len : nat) (prop : nat -> num) (ndir : dir) (selfloops : option bool)
    (s : rnd) : res (nat -> num) * rnd :=
  match r_param s with
  | None => (Raise GenericException, s)
  | Some (p, _) =>
      if negb (Nat.eqb len (r_N s)) then (Raise ValueError, s)
      else
        let tmp_self := r_selfloops s in
        let s := match selfloops with
                 | None => s
                 | Some b => if Bool.eqb b (r_selfloops s) then s else with_rself s b
                 end in
        match rnd_degree_of ndir s with
        | Raise e => (Raise e, s)
        | Ok deg =>
            let c := match ndir with Doutin => either p | _ => p end in
            let tot := np_sum len (fun i => nmul c (prop i)) in
            let av_nn := fun i => if negb (r_selfloops s) then nsub tot (nmul c (prop i)) else tot in
            if forallb (fun i => negb (is0 (deg i)) || is0 (av_nn i)) (seq 0 len)
            then (Ok (fun i => if is0 (deg i) then av_nn i else ndiv (av_nn i) (deg i)),
                  if Bool.eqb tmp_self (r_selfloops s) then s else with_rself s tmp_self)
            else (Raise AssertionError, s)
        end
  end.
