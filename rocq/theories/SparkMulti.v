(** The multi-label classes of the spark module at the level of vertex pairs: fitnesses in compressed
    sparse rows, the block functions that read them, the distributed measures and the objects holding
    them.  Model only.
    [prop_dyad] of these classes returns None (spark/models.py:89-93; it is not among the keyword
    arguments, spark/models.py:3189-3200) and the kernels do not use it: the argument is left out. *)
From Coq Require Import ZArith.
From Verif Require Import Base Num Kernels MultiKernels Prob Ensemble EnsembleState Models Layers MultiState Spark.

(** * Rows of compressed sparse matrices *)

(** [m[lo:hi]] of a scipy csr_matrix: the stored entries of the rows, and their pointers counted from the
    first of them. *)
(** spark/models.py:3397-3401 of MultiFitnessModel.__init__; spark/models.py:537-566 (DiGraphEnsemble.fit_map) *)
Definition take_rows (c : csx) (s : span) : csx :=
  let m := nth (fst s) (c_indptr c) 0%nat in
  let n := nth (snd s) (c_indptr c) 0%nat in
  mkCsx (Layers.slice (c_data c) m n) (Layers.slice (c_indices c) m n)
    (map (fun k => (nth k (c_indptr c) 0 - m)%nat) (seq (fst s) (S (len s)))).

(** [lbl[indptr[i]:indptr[i + 1]]] and [prop[indptr[i]:indptr[i + 1]]] *)
(** spark/models.py:2648-2649, 2653-2654 (MultiDiGraphEnsemble.exp_edges) *)
Definition lbls (c : csx) (i : nat) : list nat :=
  Layers.slice (c_indices c) (nth i (c_indptr c) 0%nat) (nth (i + 1) (c_indptr c) 0%nat).
Definition vals (c : csx) (i : nat) : list num :=
  Layers.slice (c_data c) (nth i (c_indptr c) 0%nat) (nth (i + 1) (c_indptr c) 0%nat).

Section Blocks.
Variables P V : Type.
(** Kernels take the labels and the values of the two rows. *)
Definition kern (T : Type) : Type := P -> list nat -> list num -> list nat -> list num -> T.

(** spark/models.py:2626-2657 (MultiDiGraphEnsemble.exp_edges) *)
Definition mb_edges (p_ij : kern R) (param : P) (b : block) (x y : csx) (slflp : bool) : R :=
  let (ind_out, ind_in) := b in
  for_range (len ind_out) (fun i f =>
    let f_out_i := (fst ind_out + i)%nat in
    let f_out_l := lbls x i in
    let f_out_v := vals x i in
    for_range (len ind_in) (fun j f =>
      let f_in_j := (fst ind_in + j)%nat in
      if adm slflp f_out_i f_in_j then
        let f_in_l := lbls y j in
        let f_in_v := vals y j in
        f + p_ij param f_out_l f_out_v f_in_l f_in_v
      else f) f) 0.

(** spark/models.py:3591-3624 (MultiFitnessModel.exp_edges_f_jac) *)
Definition mb_f_jac (p_jac_ij : kern (num * num)) (param : P) (b : block) (x y : csx) (slflp : bool) : num * num :=
  let (ind_out, ind_in) := b in
  for_range (len ind_out) (fun i st =>
    let f_out_i := (fst ind_out + i)%nat in
    let f_out_l := lbls x i in
    let f_out_v := vals x i in
    for_range (len ind_in) (fun j (st : num * num) =>
      let f_in_j := (fst ind_in + j)%nat in
      if adm slflp f_out_i f_in_j then
        let f_in_l := lbls y j in
        let f_in_v := vals y j in
        let (p_tmp, jac_tmp) := p_jac_ij param f_out_l f_out_v f_in_l f_in_v in
        (nadd (fst st) p_tmp, nadd (snd st) jac_tmp)
      else st) st) (Fin 0, Fin 0).

(** spark/models.py:2675-2731 (MultiDiGraphEnsemble.exp_degrees).  [x0], [x1] are the two matrices of
    [x[1]], [y0], [y1] those of [x[2]] (spark/models.py:2019-2035). *)
Definition mb_degrees (p_ij : kern R) (param : P) (b : block) (x0 x1 y0 y1 : csx) (selfloops : bool) : degs :=
  let (ind_out, ind_in) := b in
  let fold := span_eqb ind_out ind_in in
  for_range (len ind_out) (fun i st =>
    let ind_i := (fst ind_out + i)%nat in
    let l_out_i := lbls x0 i in let f_out_i := vals x0 i in
    let l_in_i := lbls y1 i in let f_in_i := vals y1 i in
    for_range (in_range i ind_in fold) (fun j (st : degs) =>
      let ind_j := (fst ind_in + j)%nat in
      let l_out_j := lbls x1 j in let f_out_j := vals x1 j in
      let l_in_j := lbls y0 j in let f_in_j := vals y0 j in
      let '(exp_d, exp_d_out, exp_d_in) := st in
      if negb (Nat.eqb ind_i ind_j) then
        let pij := p_ij param l_out_i f_out_i l_in_j f_in_j in
        let pji := p_ij param l_out_j f_out_j l_in_i f_in_i in
        let p := pij + pji - pij * pji in
        (add_at (add_at exp_d ind_i p) ind_j p,
         add_at (add_at exp_d_out ind_i pij) ind_j pji,
         add_at (add_at exp_d_in ind_j pij) ind_i pji)
      else if selfloops then
        let pii := p_ij param l_out_i f_out_i l_in_j f_in_j in
        (add_at exp_d ind_i pii, add_at exp_d_out ind_i pii, add_at exp_d_in ind_j pii)
      else st) st) ((fun _ => 0), (fun _ => 0), (fun _ => 0)).

(** spark/models.py:2802-2873 (MultiDiGraphEnsemble.exp_av_nn_prop) for a one-dimensional property; an unknown
    direction has been rejected before (spark/models.py:2154-2162). *)
Definition mb_av_nn (p_ij : kern R) (param : P) (b : block) (x0 x1 y0 y1 : csx) (prop : nat -> R) (ndir : dir)
    (slflp : bool) : nat -> R :=
  let (ind_out, ind_in) := b in
  let fold := span_eqb ind_out ind_in in
  for_range (len ind_out) (fun i av_nn =>
    let ind_i := (fst ind_out + i)%nat in
    let l_out_i := lbls x0 i in let f_out_i := vals x0 i in
    let l_in_i := lbls y1 i in let f_in_i := vals y1 i in
    for_range (in_range i ind_in fold) (fun j av_nn =>
      let ind_j := (fst ind_in + j)%nat in
      let l_out_j := lbls x1 j in let f_out_j := vals x1 j in
      let l_in_j := lbls y0 j in let f_in_j := vals y0 j in
      if negb (Nat.eqb ind_i ind_j) then
        let pij := p_ij param l_out_i f_out_i l_in_j f_in_j in
        let pji := p_ij param l_out_j f_out_j l_in_i f_in_i in
        match ndir with
        | Dout => add_at (add_at av_nn ind_i (pij * prop ind_j)) ind_j (pji * prop ind_i)
        | Din => add_at (add_at av_nn ind_i (pji * prop ind_j)) ind_j (pij * prop ind_i)
        | Doutin => let p := pij + pji - pij * pji in
                    add_at (add_at av_nn ind_i (p * prop ind_j)) ind_j (p * prop ind_i)
        | Dother => av_nn
        end
      else if slflp then
        let pii := p_ij param l_out_i f_out_i l_in_j f_in_j in
        add_at av_nn ind_i (pii * prop ind_i)
      else av_nn) av_nn) (fun _ => 0).

(** spark/models.py:2875-2920 (MultiDiGraphEnsemble._likelihood); [row i] is [adj_j[adj_i[i]:adj_i[i+1]]]. *)
Definition mb_likelihood (logp log1mp : kern num) (param : P) (b : block) (x y : csx) (row : nat -> list nat)
    (slflp : bool) : num :=
  let (ind_out, ind_in) := b in
  flow_val (for_flow (len ind_out) (fun i =>
    let f_out_i := (fst ind_out + i)%nat in
    let f_out_l := lbls x i in
    let f_out_v := vals x i in
    let j_list := row f_out_i in
    for_flow (len ind_in) (fun j like =>
      let f_in_j := (fst ind_in + j)%nat in
      if adm slflp f_out_i f_in_j then
        let f_in_l := lbls y j in
        let f_in_v := vals y j in
        let tmp := if existsb (Nat.eqb f_in_j) j_list
                   then logp param f_out_l f_out_v f_in_l f_in_v
                   else log1mp param f_out_l f_out_v f_in_l f_in_v in
        if isinf tmp then Return tmp else Next (nadd like tmp)
      else Next like)) (Fin 0)).

(** spark/models.py:2978-3028 (MultiDiGraphEnsemble._confusion_matrix) *)
Definition mb_confusion (thresholds : list num) (pij : kern R) (param : P) (b : block) (x y : csx)
    (row : nat -> list nat) (selfloops : bool) : counts :=
  let (ind_out, ind_in) := b in
  for_range (len ind_out) (fun i st =>
    let f_out_i := (fst ind_out + i)%nat in
    let f_out_l := lbls x i in
    let f_out_v := vals x i in
    let j_list := row f_out_i in
    for_range (len ind_in) (fun j st =>
      let f_in_j := (fst ind_in + j)%nat in
      if adm selfloops f_out_i f_in_j then
        let f_in_l := lbls y j in
        let f_in_v := vals y j in
        let p := pij param f_out_l f_out_v f_in_l f_in_v in
        if existsb (Nat.eqb f_in_j) j_list then
          for_range (length thresholds) (fun k (st : counts) =>
            let '(tp, fp, tn, fn) := st in
            if ngeb (Fin p) (nth k thresholds NaN) then (Spark.incr tp k, fp, tn, fn)
            else (tp, fp, tn, Spark.incr fn k)) st
        else
          for_range (length thresholds) (fun k (st : counts) =>
            let '(tp, fp, tn, fn) := st in
            if ngeb (Fin p) (nth k thresholds NaN) then (tp, Spark.incr fp k, tn, fn)
            else (tp, fp, Spark.incr tn k, fn)) st
      else st) st) no_counts.

(** * Distributed measures.  [cx], [cy]: the out and in fitnesses. *)
Variables (param : P) (cx cy : csx) (N B : nat).

(** spark/models.py:1937-1967 (MultiDiGraphEnsemble.expected_num_edges), the computation *)
Definition mspark_edges (p_ij : kern R) (sl : bool) : R :=
  rdd_fold 0 Rplus
    (map (fun b => mb_edges p_ij param b (take_rows cx (fst b)) (take_rows cy (snd b)) sl) (square_blocks N B)).

(** spark/models.py:3564-3589 (MultiFitnessModel.density_fit_fun) *)
Definition mspark_f_jac (p_jac_ij : kern (num * num)) (delta : P) (sl : bool) : num * num :=
  rdd_fold (Fin 0, Fin 0) (fun a b => (nadd (fst a) (fst b), nadd (snd a) (snd b)))
    (map (fun b => mb_f_jac p_jac_ij delta b (take_rows cx (fst b)) (take_rows cy (snd b)) sl) (square_blocks N B)).

(** spark/models.py:2006-2049 (MultiDiGraphEnsemble.expected_degree), the computation; fit_map 537-566 *)
Definition mspark_degrees (p_ij : kern R) (sl : bool) : degs :=
  rdd_fold ((fun _ => 0), (fun _ => 0), (fun _ => 0)) add_degs
    (map (fun b => mb_degrees p_ij param b (take_rows cx (fst b)) (take_rows cx (snd b))
                     (take_rows cy (snd b)) (take_rows cy (fst b)) sl) (triangle_blocks N B)).

(** spark/models.py:2164-2188 of MultiDiGraphEnsemble.expected_av_nn_property, the computation *)
Definition mspark_av_nn (p_ij : kern R) (prop : nat -> R) (ndir : dir) (sl : bool) : nat -> R :=
  rdd_fold (fun _ => 0) (fun a b v => a v + b v)
    (map (fun b => mb_av_nn p_ij param b (take_rows cx (fst b)) (take_rows cx (snd b))
                     (take_rows cy (snd b)) (take_rows cy (fst b)) prop ndir sl) (triangle_blocks N B)).

(** spark/models.py:2354-2380 of MultiDiGraphEnsemble.log_likelihood: a graph given by one matrix *)
Definition mspark_likelihood (logp log1mp : kern num) (row : nat -> list nat) (sl : bool) : num :=
  rdd_fold (Fin 0) nadd
    (map (fun b => mb_likelihood logp log1mp param b (take_rows cx (fst b)) (take_rows cy (snd b)) row sl)
         (square_blocks N B)).

(** spark/models.py:2436-2469 of MultiDiGraphEnsemble.confusion_matrix *)
Definition mspark_confusion (thresholds : list num) (p_ij : kern R) (row : nat -> list nat) (sl : bool) : counts :=
  rdd_fold no_counts add_counts
    (map (fun b => mb_confusion thresholds p_ij param b (take_rows cx (fst b)) (take_rows cy (snd b)) row sl)
         (square_blocks N B)).
End Blocks.

Arguments mb_edges {P}. Arguments mb_f_jac {P}. Arguments mb_degrees {P}. Arguments mb_av_nn {P}.
Arguments mb_likelihood {P}. Arguments mb_confusion {P}.
Arguments mspark_edges {P}. Arguments mspark_f_jac {P}. Arguments mspark_degrees {P}. Arguments mspark_av_nn {P}.
Arguments mspark_likelihood {P}. Arguments mspark_confusion {P}.

(** A kernel of MultiKernels.v (which reads a row as a list of label and value) at the two arrays of each row. *)
(** spark/models.py:3714-3743 (MultiFitnessModel.p_ij) *)
Definition on_arrays {P T} (k : P -> svec -> svec -> T) : kern P T :=
  fun d xl xv yl yv => k d (combine xl xv) (combine yl yv).

(** * Objects *)

(** A MultiFitnessModel or MultiInvariantModel of the spark module: the kernels are those of [u], the
    fitnesses the matrices [cx] and [cy] (spark/models.py:3261-3263), with [B] blocks. *)
Section State.
Variables (u : multi) (cx cy : csx) (B : nat).
Let P := nat -> num.
Let p_ij : kern P R := on_arrays (fun d x y => u_p_ij u d x y tt).
Let edges (d : P) (sl : bool) : R := mspark_edges d cx cy (u_N u) B p_ij sl.
Let degrees (d : P) (sl : bool) : degs := mspark_degrees d cx cy (u_N u) B p_ij sl.

(** spark/models.py:2006-2049 (MultiDiGraphEnsemble.expected_degree) *)
Definition sm_degree (recompute : bool) (s : ens P) : res (nat -> R) * ens P :=
  match a_param s with
  | None => (Raise GenericException, s)
  | Some param =>
      let s' := if is_none (a_degree s) || recompute
                then let '(d, o, i) := degrees param (a_selfloops s) in with_degrees s (Some d) (Some o) (Some i)
                else s in
      (attr (a_degree s'), s')
  end.

(** spark/models.py:2051-2056 (MultiDiGraphEnsemble.expected_out_degree) *)
Definition sm_out_degree (recompute : bool) (s : ens P) : res (nat -> R) * ens P :=
  if is_none (a_out s) || recompute then
    match sm_degree recompute s with
    | (Raise e, s') => (Raise e, s')
    | (Ok _, s') => (attr (a_out s'), s')
    end
  else (attr (a_out s), s).

(** spark/models.py:2058-2063 (MultiDiGraphEnsemble.expected_in_degree) *)
Definition sm_in_degree (recompute : bool) (s : ens P) : res (nat -> R) * ens P :=
  if is_none (a_in s) || recompute then
    match sm_degree recompute s with
    | (Raise e, s') => (Raise e, s')
    | (Ok _, s') => (attr (a_in s'), s')
    end
  else (attr (a_in s), s).

(** The three-way choice of spark/models.py:2154-2162 and 2236-2244. *)
Definition sm_degree_of (d : dir) (recompute : bool) (s : ens P) : res (nat -> R) * ens P :=
  match d with
  | Dout => sm_out_degree recompute s
  | Din => sm_in_degree recompute s
  | Doutin => sm_degree recompute s
  | Dother => (Raise ValueError, s)
  end.

(** spark/models.py:2128-2208 (MultiDiGraphEnsemble.expected_av_nn_property) *)
Definition sm_av_nn_property (len : nat) (prop : nat -> R) (ndir : dir) (selfloops : option bool)
    (deg_recompute : bool) (s : ens P) : res (nat -> R) * ens P :=
  match a_param s with
  | None => (Raise GenericException, s)
  | Some param =>
      if negb (Nat.eqb len (u_N u)) then (Raise ValueError, s)
      else
        let tmp_self := a_selfloops s in
        let sl := match selfloops with None => a_selfloops s | Some b => b end in
        let (deg_recompute, s) := set_selfloops selfloops deg_recompute s in
        match sm_degree_of ndir deg_recompute s with
        | (Raise e, s) => (Raise e, s)
        | (Ok deg, s) =>
            let av_nn := mspark_av_nn param cx cy (u_N u) B p_ij prop ndir sl in
            if forallb (fun i => negb (Reqb (deg i) 0) || Reqb (av_nn i) 0) (seq 0 (u_N u))
            then (Ok (fun i => if Reqb (deg i) 0 then av_nn i else av_nn i / deg i), restore tmp_self s)
            else (Raise AssertionError, s)
        end
  end.

(** spark/models.py:2210-2262 (MultiDiGraphEnsemble.expected_av_nn_degree) *)
Definition sm_av_nn_degree (ddir ndir : dir) (selfloops : option bool) (deg_recompute recompute : bool)
    (s : ens P) : res (nat -> R) * ens P :=
  match a_param s with
  | None => (Raise GenericException, s)
  | Some param =>
      if is_none (a_nn s ndir ddir) || recompute || deg_recompute then
        let tmp_self := a_selfloops s in
        let sl := match selfloops with None => a_selfloops s | Some b => b end in
        let (deg_recompute, s) := set_selfloops selfloops deg_recompute s in
        match sm_degree_of ddir deg_recompute s with
        | (Raise e, s) => (Raise e, s)
        | (Ok deg, s) =>
            match sm_av_nn_property (u_N u) deg ndir (Some sl) false s with
            | (Raise e, s) => (Raise e, s)
            | (Ok res, s) =>
                let s := restore tmp_self (with_nn s ndir ddir res) in
                (attr (a_nn s ndir ddir), s)
            end
        end
      else (attr (a_nn s ndir ddir), s)
  end.

Let lobj := obj P (nat -> R) (nat -> nat -> R).

(** spark/models.py:1937-2262: one call.  expected_num_edges tests the attribute of the label edges
    ([spark_num_edges], MultiState.v); the label methods read the columns of the same matrices
    (w_edges_label, w_degrees_label of MultiState.v). *)
Definition sm_query (q : lquery) (s : lobj) : res (lanswer (nat -> R) (nat -> nat -> R)) * lobj :=
  let vector r : res (lanswer (nat -> R) (nat -> nat -> R)) * lobj :=
    lift (fun v => ABase (Vector v)) (fst r, (snd r, snd s)) in
  match q with
  | LBase (QEdges r) => lift (fun v => ABase (Scalar v)) (spark_num_edges edges r s)
  | LBase (QDegree d r) => vector (sm_degree_of d r (fst s))
  | LBase (QProperty len prop nd sl r) => vector (sm_av_nn_property len prop nd sl r (fst s))
  | LBase (QNNDegree dd nd sl dr r) => vector (sm_av_nn_degree dd nd sl dr r (fst s))
  | LEdges r => lift AEdges (lbl_num_edges (w_edges_label u) r s)
  | LDegree r => lift ADegrees (lbl_degree (w_degrees_label u) r s)
  | LOut r => lift ADegrees (lbl_out (w_degrees_label u) false r s)
  | LIn r => lift ADegrees (lbl_in (w_degrees_label u) false r s)
  end.

(** A sequence of calls. *)
(** spark/models.py:1937-2262 *)
Fixpoint sm_asks (qs : list lquery) (s : lobj) : list (res (lanswer (nat -> R) (nat -> nat -> R))) * lobj :=
  match qs with
  | [] => ([], s)
  | q :: t => let (a, s1) := sm_query q s in let (l, s2) := sm_asks t s1 in (a :: l, s2)
  end.

(** spark/models.py:2264-2382 (MultiDiGraphEnsemble.log_likelihood), given one matrix. *)
Definition sm_log_likelihood (g : Spark.graph_arg) (selfloops : option bool) (s : ens P) : res num :=
  match a_param s with
  | None => Raise GenericException
  | Some param =>
      do row <- arg_rows (u_N u) g ;
      Ok (mspark_likelihood param cx cy (u_N u) B (on_arrays (fun d x y => u_logp u d x y tt))
            (on_arrays (fun d x y => u_log1mp u d x y tt)) row (effective_loops selfloops s))
  end.
End State.

(** * confusion_matrix, spark/models.py:2384-2469 *)

(** [m.max()] of a sparse matrix of non-negative finite entries (entries that are not stored are zero). *)
(** spark/models.py:2396, 2405 (MultiDiGraphEnsemble.confusion_matrix) *)
Definition stored_max (c : csx) : R := fold_left Rmax (map toR (c_data c)) 0.
(** [m[m != 0].min()]: the minimum of an empty array is a ValueError. *)
(** spark/models.py:2397-2401, 2406-2410 (MultiDiGraphEnsemble.confusion_matrix) *)
Definition nonzero_min (c : csx) : res R :=
  match filter (fun v => negb (Reqb v 0)) (map toR (c_data c)) with
  | [] => Raise ValueError
  | v :: t => Ok (fold_left Rmin t v)
  end.

(** spark/models.py:2395-2414: the thresholds, for finite parameters and fitnesses ([math.log] of zero raises
    ValueError; [np.logspace] rejects a negative count).  [d0] is [param[0]]. *)
Definition mthresholds (d0 : R) (cx cy : csx) (th : thresholds_arg) : res (list num) :=
  let auto (n : nat) :=
    let p_max := - (exp (- d0 * stored_max cx * stored_max cy) - 1) in
    do mx <- nonzero_min cx ;
    do my <- nonzero_min cy ;
    let p_min := - (exp (- d0 * mx * my) - 1) in
    guard (Rltb 0 p_min && Rltb 0 p_max) ValueError (Ok (map Fin (logspace (ln p_min) (ln p_max) n))) in
  match th with
  | ThNone => auto 20%nat
  | ThInt n => if (n <? 0)%Z
               then do _ <- auto 0%nat ; Raise ValueError
               else auto (Z.to_nat n)
  | ThArray l => Ok l
  | ThOther => Raise ValueError
  end.

(** spark/models.py:2384-2469 (MultiDiGraphEnsemble.confusion_matrix) *)
Definition sm_confusion_matrix (u : multi) (cx cy : csx) (B : nat) (g : Spark.graph_arg) (th : thresholds_arg)
    (selfloops : option bool) (s : ens (nat -> num)) : res (counts * nat) :=
  match a_param s with
  | None => Raise GenericException
  | Some param =>
      do l <- mthresholds (toR (param 0%nat)) cx cy th ;
      do row <- arg_rows (u_N u) g ;
      Ok (mspark_confusion param cx cy (u_N u) B l (on_arrays (fun d x y => u_p_ij u d x y tt)) row
            (effective_loops selfloops s), length l)
  end.
