(** Property C79: the data frames given to the constructors. *)
From Verif Require Import Base Num Ids IdFacts Frames.
From Coq Require Import String List Permutation.
Open Scope string_scope.

(** The helper columns. *)
Definition reserved : list string := ["_node"; "_group"; "_src"; "_dst"; "_label"].
Definition names (c : column) : list string := match c with One n => [n] | Many cs => cs end.
Definition edge_columns (a : args) : list string :=
  names (a_src a) ++ names (a_dst a) ++ (match a_weight a with Some w => [w] | None => [] end) ++
  (match a_label a with Some c => names c | None => [] end).
Definition vertex_columns (a : args) : list string :=
  names (a_id a) ++ (match a_group a with Some c => names c | None => [] end).
(** None of the columns passed to the constructor is a helper column. *)
Definition plain (a : args) : Prop := forall n, In n (vertex_columns a ++ edge_columns a) -> ~ In n reserved.

Section Facts.
Context {K : Type} (leb : K -> K -> bool) (pos : nat -> K) (none : K) (tuple : list K -> K) (number : K -> R).
Notation frame := (frame K).
Notation construct := (construct leb pos none tuple number).
Notation construct_all := (construct_all leb pos none tuple number).

(** ** Reading and writing columns *)
Lemma get_assign : forall cols (c n : string) (l : list K),
  get_col (assign cols c l) n = if String.eqb c n then Ok l else get_col cols n.
Proof.
  intros cols c n l; induction cols as [|[m l'] t IH]; cbn [assign get_col]; [reflexivity|].
  destruct (String.eqb_spec m c) as [->|Hm]; cbn [get_col]; [destruct (String.eqb_spec c n); reflexivity|].
  destruct (String.eqb_spec m n) as [->|Hn]; [|exact IH].
  destruct (String.eqb_spec c n) as [->|]; [contradiction | reflexivity].
Qed.
Lemma get_set : forall (f : frame) (c n : string) l,
  get_col (f_cols (set_col f c l)) n = if String.eqb c n then Ok l else get_col (f_cols f) n.
Proof. intros. apply get_assign. Qed.

(** Two frames that differ at most in the columns [out]. *)
Definition differ_in (out : list string) (f g : frame) : Prop :=
  f_rows f = f_rows g /\ forall n, ~ In n out -> get_col (f_cols f) n = get_col (f_cols g) n.

Lemma differ_refl : forall out f, differ_in out f f.
Proof. split; reflexivity. Qed.
Lemma differ_sym : forall out f g, differ_in out f g -> differ_in out g f.
Proof. intros out f g [A B]. split; [congruence|]. intros n Hn. symmetry. apply B. exact Hn. Qed.
Lemma differ_trans : forall out f g h, differ_in out f g -> differ_in out g h -> differ_in out f h.
Proof. intros out f g h [A B] [C D]. split; [congruence|]. intros n Hn. rewrite B by exact Hn. apply D. exact Hn. Qed.
Lemma differ_set : forall out (f : frame) c l, In c out -> differ_in out f (set_col f c l).
Proof.
  intros out f c l Hc. split; [reflexivity|]. intros n Hn. rewrite get_set.
  destruct (String.eqb_spec c n) as [->|]; [contradiction | reflexivity].
Qed.
Lemma differ_weaken : forall o o' f g, incl o o' -> differ_in o f g -> differ_in o' f g.
Proof. intros o o' f g H [A B]. split; [exact A|]. intros n Hn. apply B. intros Ho. apply Hn, H, Ho. Qed.

Lemma get_cols_ext : forall (f g : list (string * list K)) cs, (forall n, In n cs -> get_col f n = get_col g n) -> get_cols f cs = get_cols g cs.
Proof.
  intros f g cs; induction cs as [|c t IH]; intros H; cbn [get_cols]; [reflexivity|].
  rewrite (H c (or_introl eq_refl)), IH; [reflexivity | intros n Hn; apply H; right; exact Hn].
Qed.
Lemma read_col_ext : forall (f g : frame) c, f_rows f = f_rows g -> (forall n, In n (names c) -> get_col (f_cols f) n = get_col (f_cols g) n) ->
  read_col none tuple f c = read_col none tuple g c.
Proof.
  intros f g [n|cs] Hr H; cbn [read_col]; [apply H; left; reflexivity|].
  rewrite (get_cols_ext _ (f_cols g)) by exact H. rewrite Hr. reflexivity.
Qed.
Lemma names_extract : forall c, names (extract c) = names c.
Proof. intros [n|[|x [|y t]]]; reflexivity. Qed.
Lemma read_differ : forall out (f g : frame) c, differ_in out f g -> (forall n, In n (names c) -> ~ In n out) ->
  read_col none tuple f (extract c) = read_col none tuple g (extract c).
Proof.
  intros out f g c [A B] H. apply read_col_ext; [exact A|]. intros n Hn. rewrite names_extract in Hn. apply B, H, Hn.
Qed.

Lemma get_reorder : forall (f : frame) order n, get_col (f_cols (reorder none f order)) n
  = (do l <- get_col (f_cols f) n ; Ok (map (fun r => nth r l none) order)).
Proof.
  intros [rows cols] order n. cbn [reorder f_cols]. induction cols as [|[m l] t IH]; cbn [map get_col fst snd]; [reflexivity|].
  destruct (String.eqb m n); [reflexivity | exact IH].
Qed.
Lemma differ_reorder : forall out f g order, differ_in out f g -> differ_in out (reorder none f order) (reorder none g order).
Proof. intros out f g order [A B]. split; [exact A|]. intros n Hn. rewrite !get_reorder, (B n Hn). reflexivity. Qed.

(** ** The frames after a call *)
Lemma after_frames : forall (P : frame -> frame -> Prop) A (r : res A) v e k, P v e ->
  (forall a, P (snd (fst (k a))) (snd (k a))) -> P (snd (fst (after r v e k))) (snd (after r v e k)).
Proof. intros P A [a|x] v e k H1 H2; cbn [after fst snd]; [apply H2 | exact H1]. Qed.

Definition written (v e v' e' : frame) : Prop :=
  differ_in ["_node"] v v' /\ differ_in ["_src"; "_dst"; "_label"] e e'.

Lemma graph_init_frames : forall a v e k,
  (forall b v' e', written v e v' e' -> written v e (snd (fst (k b v' e'))) (snd (k b v' e'))) ->
  written v e (snd (fst (graph_init leb pos none tuple number a v e k))) (snd (graph_init leb pos none tuple number a v e k)).
Proof.
  intros a v e k Hk. unfold graph_init. destruct (read_vertices leb none tuple v (extract (a_id a))) as [rv v'] eqn:Ev.
  assert (Hv : differ_in ["_node"] v v').
  { unfold read_vertices in Ev. destruct (read_col none tuple v (extract (a_id a))); injection Ev as <- <-;
      [apply differ_set; left; reflexivity | apply differ_refl]. }
  assert (He : forall c l e', differ_in ["_src"; "_dst"; "_label"] e e' -> In c ["_src"; "_dst"; "_label"] ->
     differ_in ["_src"; "_dst"; "_label"] e (set_col e' c l)).
  { intros c l e' H Hc. eapply differ_trans; [exact H | apply differ_set; exact Hc]. }
  assert (H0 : differ_in ["_src"; "_dst"; "_label"] e e) by apply differ_refl.
  apply (after_frames (written v e)); [split; assumption|]. intros [id_dict order].
  apply (after_frames (written v e)); [split; assumption|]. intros groups.
  destruct (negb (Bool.eqb _ _)); [split; assumption|].
  apply (after_frames (written v e)); [split; assumption|]. intros c1.
  pose proof (He "_src" c1 e H0 ltac:(simpl; tauto)) as H1.
  apply (after_frames (written v e)); [split; assumption|]. intros c2.
  pose proof (He "_dst" c2 _ H1 ltac:(simpl; tauto)) as H2.
  apply (after_frames (written v e)); [split; assumption|]. intros c3.
  pose proof (He "_src" (cells pos none (map_get leb id_dict c3)) _ H2 ltac:(simpl; tauto)) as H3.
  apply (after_frames (written v e)); [split; assumption|]. intros c4.
  pose proof (He "_dst" (cells pos none (map_get leb id_dict c4)) _ H3 ltac:(simpl; tauto)) as H4.
  apply (after_frames (written v e)); [split; assumption|]. intros nan_src.
  apply (after_frames (written v e)); [split; assumption|]. intros [|]; [split; assumption|].
  destruct (a_weight a); [|apply Hk; split; assumption].
  apply (after_frames (written v e)); [split; assumption|]. intros c5.
  destruct (negb _); [split; assumption | apply Hk; split; assumption].
Qed.

Lemma construct_frames : forall a v e, written v e (snd (fst (construct a v e))) (snd (construct a v e)).
Proof.
  intros a v e. apply graph_init_frames. intros b v' e' [Hv He]. destruct (a_label a) as [c|]; [|split; assumption].
  unfold label_init.
  assert (Hs : forall l e', differ_in ["_src"; "_dst"; "_label"] e e' ->
     differ_in ["_src"; "_dst"; "_label"] e (set_col e' "_label" l)).
  { intros l e1 H. eapply differ_trans; [exact H | apply differ_set; simpl; tauto]. }
  apply (after_frames (written v e)); [split; assumption|]. intros c1. pose proof (Hs c1 _ He) as H1.
  apply (after_frames (written v e)); [split; assumption|]. intros d.
  pose proof (Hs (cells pos none (map_get leb d c1)) _ H1) as H2.
  destruct (a_weight a); [|split; assumption].
  apply (after_frames (written v e)); [split; assumption|]. intros c2. split; assumption.
Qed.

(** ** Results do not depend on the helper columns *)
Lemma after_result : forall A (r r' : res A) v e v1 e1 k k', r = r' -> (forall a, fst (fst (k a)) = fst (fst (k' a))) ->
  fst (fst (after (K := K) r v e k)) = fst (fst (after r' v1 e1 k')).
Proof. intros A r r' v e v1 e1 k k' <- H. destruct r; [apply H | reflexivity]. Qed.

Notation apart := (differ_in reserved).

Lemma set_apart : forall f g c l l', apart f g -> In c reserved -> apart (set_col f c l) (set_col g c l').
Proof.
  intros f g c l l' H Hc. eapply differ_trans; [apply differ_sym, differ_set; exact Hc|].
  eapply differ_trans; [exact H | apply differ_set; exact Hc].
Qed.

Lemma graph_init_result : forall a v e v1 e1 k, plain a -> apart v v1 -> apart e e1 ->
  (forall b v e v1 e1, apart v v1 -> apart e e1 -> fst (fst (k b v e)) = fst (fst (k b v1 e1))) ->
  fst (fst (graph_init leb pos none tuple number a v e k)) = fst (fst (graph_init leb pos none tuple number a v1 e1 k)).
Proof.
  intros a v e v1 e1 k Ha Hv He Hk. unfold graph_init.
  assert (P1 : forall n, In n (names (a_id a)) -> ~ In n reserved) by (intros n Hn; apply Ha; unfold vertex_columns; rewrite !in_app_iff; tauto).
  assert (P2 : forall c n, a_group a = Some c -> In n (names c) -> ~ In n reserved).
  { intros c n E Hn. apply Ha. unfold vertex_columns. rewrite E, !in_app_iff. tauto. }
  assert (P3 : forall n, In n (names (a_src a)) -> ~ In n reserved) by (intros n Hn; apply Ha; unfold edge_columns; rewrite !in_app_iff; tauto).
  assert (P4 : forall n, In n (names (a_dst a)) -> ~ In n reserved) by (intros n Hn; apply Ha; unfold edge_columns; rewrite !in_app_iff; tauto).
  assert (P5 : forall w, a_weight a = Some w -> ~ In w reserved).
  { intros w E. apply Ha. unfold edge_columns. rewrite E, !in_app_iff. simpl. tauto. }
  unfold read_vertices. rewrite (read_differ reserved v v1 (a_id a) Hv P1).
  replace (f_rows v1) with (f_rows v) by (destruct Hv; assumption).
  destruct (read_col none tuple v1 (extract (a_id a))) as [ids|x]; [|destruct x; reflexivity].
  assert (Hv' : apart (set_col v "_node" ids) (set_col v1 "_node" ids)) by (apply set_apart; [exact Hv | simpl; tauto]).
  apply after_result; [reflexivity|]. intros [id_dict order].
  apply after_result.
  { unfold read_groups. destruct (a_group a) as [c|] eqn:Eg; cbn [option_map]; [|reflexivity].
    rewrite (read_differ reserved _ (reorder none (set_col v1 "_node" ids) order) c); [reflexivity | apply differ_reorder, Hv' |].
    intros n Hn. apply (P2 c n eq_refl Hn). }
  intros groups. destruct (negb (Bool.eqb _ _)); [reflexivity|].
  apply after_result; [apply (read_differ reserved); [exact He | exact P3]|]. intros c1.
  assert (H1 : apart (set_col e "_src" c1) (set_col e1 "_src" c1)) by (apply set_apart; [exact He | simpl; tauto]).
  apply after_result; [apply (read_differ reserved); [exact H1 | exact P4]|]. intros c2.
  assert (H2 := set_apart _ _ "_dst" c2 c2 H1 ltac:(simpl; tauto)).
  apply after_result; [rewrite !get_set; reflexivity|]. intros c3.
  assert (H3 := set_apart _ _ "_src" (cells pos none (map_get leb id_dict c3)) (cells pos none (map_get leb id_dict c3)) H2 ltac:(simpl; tauto)).
  apply after_result; [rewrite !get_set; reflexivity|]. intros c4.
  assert (H4 := set_apart _ _ "_dst" (cells pos none (map_get leb id_dict c4)) (cells pos none (map_get leb id_dict c4)) H3 ltac:(simpl; tauto)).
  apply after_result; [reflexivity|]. intros nan_src. apply after_result; [reflexivity|]. intros [|]; [reflexivity|].
  destruct (a_weight a) as [w|] eqn:Ew; [|apply Hk; assumption].
  apply after_result; [destruct H4 as [_ H4]; apply H4, (P5 w eq_refl)|]. intros c5.
  destruct (negb _); [reflexivity | apply Hk; assumption].
Qed.

Lemma construct_result : forall a v e v1 e1, plain a -> apart v v1 -> apart e e1 ->
  fst (fst (construct a v e)) = fst (fst (construct a v1 e1)).
Proof.
  intros a v e v1 e1 Ha Hv He. apply graph_init_result; try assumption. clear v e v1 e1 Hv He. intros b v e v1 e1 Hv He.
  destruct (a_label a) as [c|] eqn:El; [|reflexivity]. unfold label_init.
  assert (P1 : forall n, In n (names c) -> ~ In n reserved) by (intros n Hn; apply Ha; unfold edge_columns; rewrite El, !in_app_iff; tauto).
  assert (P5 : forall w, a_weight a = Some w -> ~ In w reserved).
  { intros w E. apply Ha. unfold edge_columns. rewrite E, !in_app_iff. simpl. tauto. }
  apply after_result; [apply (read_differ reserved); assumption|]. intros c1.
  assert (H1 := set_apart _ _ "_label" c1 c1 He ltac:(simpl; tauto)).
  apply after_result; [reflexivity|]. intros d.
  assert (H2 := set_apart _ _ "_label" (cells pos none (map_get leb d c1)) (cells pos none (map_get leb d c1)) H1 ltac:(simpl; tauto)).
  destruct (a_weight a) as [w|] eqn:Ew; [|reflexivity].
  apply after_result; [destruct H2 as [_ H2]; apply H2, (P5 w eq_refl) | reflexivity].
Qed.

(** ** The tables that are read *)
(** The entry of a column in a row, and the value that several columns have together in a row. *)
Definition value (f : frame) (n : string) (r : nat) : K :=
  match find (fun nl => String.eqb (fst nl) n) (f_cols f) with Some nl => nth r (snd nl) none | None => none end.
Definition cell (f : frame) (c : column) (r : nat) : K :=
  match c with
  | One n => value f n r
  | Many [n] => value f n r
  | Many ns => tuple (map (fun n => value f n r) ns)
  end.
(** Every column has an entry per row; the columns asked for exist. *)
Definition table (f : frame) : Prop := Forall (fun nl => List.length (snd nl) = f_rows f) (f_cols f).
Definition has (f : frame) (ns : list string) : Prop := forall n, In n ns -> In n (map fst (f_cols f)).
Definition several (c : column) : bool := match c with One _ => false | Many [_] => false | Many _ => true end.

Definition vertex_rows (a : args) (v : frame) : list (K * K) :=
  map (fun r => (cell v (a_id a) r, match a_group a with Some c => cell v c r | None => none end)) (seq 0 (f_rows v)).
Definition edge_rows (a : args) (e : frame) : list (erow K K) :=
  map (fun r => mkRow (cell e (a_src a) r) (cell e (a_dst a) r)
                  (match a_weight a with Some w => number (value e w r) | None => 1 end)
                  (match a_label a with Some c => cell e c r | None => none end)) (seq 0 (f_rows e)).
Definition some {A} (o : option A) : bool := match o with Some _ => true | None => false end.

(** The object described by the rows of the two tables, in the terms of Ids.v. *)
Definition described (a : args) (v e : frame) : res (built K) :=
  do b <- read_tables leb leb (some (a_group a)) (several (a_src a)) (several (a_dst a)) (some (a_weight a)) (vertex_rows a v) (edge_rows a e) ;
  match a_label a with
  | None => Ok (mkBuilt b None)
  | Some _ =>
      do (d, l) <- read_labels leb (edge_rows a e) ;
      Ok (mkBuilt b (Some (d, l, map r_weight (edge_rows a e))))
  end.

Lemma get_col_find : forall (cols : list (string * list K)) n, get_col cols n
  = match find (fun nl => String.eqb (fst nl) n) cols with Some nl => Ok (snd nl) | None => Raise KeyError end.
Proof.
  intros cols n; induction cols as [|[m l] t IH]; cbn [get_col find fst snd]; [reflexivity|]. destruct (String.eqb m n); [reflexivity | exact IH].
Qed.
Lemma list_of_nth : forall (l : list K), map (fun r => nth r l none) (seq 0 (List.length l)) = l.
Proof.
  induction l as [|x t IH]; [reflexivity|]. cbn [List.length seq map nth]. f_equal. rewrite <- seq_shift, map_map. exact IH.
Qed.
Lemma get_col_value : forall f n, table f -> In n (map fst (f_cols f)) -> get_col (f_cols f) n = Ok (map (value f n) (seq 0 (f_rows f))).
Proof.
  intros f n Ht Hn. rewrite get_col_find. unfold value.
  destruct (find (fun nl => String.eqb (fst nl) n) (f_cols f)) as [[m l]|] eqn:E.
  - apply find_some in E as [E _]. unfold table in Ht. rewrite Forall_forall in Ht. specialize (Ht _ E). cbn [snd] in *.
    rewrite <- Ht, list_of_nth. reflexivity.
  - exfalso. apply in_map_iff in Hn as ([m l] & Em & Hin). cbn in Em. subst m.
    apply (find_none _ _ E) in Hin. cbn in Hin. rewrite String.eqb_refl in Hin. discriminate.
Qed.
Lemma get_cols_value : forall f ns, table f -> has f ns -> get_cols (f_cols f) ns = Ok (map (fun n => map (value f n) (seq 0 (f_rows f))) ns).
Proof.
  intros f ns Ht; induction ns as [|n t IH]; intros H; cbn [get_cols map]; [reflexivity|].
  rewrite (get_col_value f n Ht (H n (or_introl eq_refl))), IH; [reflexivity | intros m Hm; apply H; right; exact Hm].
Qed.
Lemma nth_rows : forall (h : nat -> K) rows r, (r < rows)%nat -> nth r (map h (seq 0 rows)) none = h r.
Proof.
  intros h rows r Hr. rewrite (nth_indep _ none (h 0%nat)) by (rewrite map_length, seq_length; exact Hr).
  rewrite (map_nth h), seq_nth by exact Hr. reflexivity.
Qed.
Lemma read_col_cell : forall f c, table f -> names c <> [] -> has f (names c) ->
  read_col none tuple f (extract c) = Ok (map (cell f c) (seq 0 (f_rows f))).
Proof.
  intros f [n|[|n [|m t]]] Ht Hc H; cbn [names] in *; [| contradiction | |];
    [cbn [extract read_col cell]; apply get_col_value; [exact Ht | apply H; left; reflexivity] ..|].
  cbn [extract read_col]. rewrite get_cols_value by assumption. cbn [bind]. f_equal. apply map_ext_in. intros r Hr. apply in_seq in Hr.
  cbn [cell]. f_equal. rewrite map_map. apply map_ext. intros x. apply nth_rows. lia.
Qed.
Lemma is_list_several : forall c, names c <> [] -> is_list (extract c) = several c.
Proof. intros [n|[|n [|m t]]] H; try reflexivity. Qed.

(** Sorting rows and then reading a column is reading the column in the sorted order. *)
Lemma insert_row_map : forall A B C D (h : A * B -> C * D) k r l,
  map (fun kr => (fst kr, h (snd kr))) (insert_row k r l) = insert_row k (h r) (map (fun kr => (fst kr, h (snd kr))) l).
Proof.
  intros A B C D h k r l; induction l as [|[k' r'] t IH]; cbn [insert_row map fst snd]; [reflexivity|].
  destruct (Nat.leb k k'); [reflexivity|]. cbn [map fst snd]. f_equal. exact IH.
Qed.
Lemma sort_index_map : forall A B C D (h : A * B -> C * D) l,
  map (fun kr => (fst kr, h (snd kr))) (sort_index l) = sort_index (map (fun kr => (fst kr, h (snd kr))) l).
Proof.
  intros A B C D h l; induction l as [|[k r] t IH]; [reflexivity|].
  change (sort_index ((k, r) :: t)) with (insert_row k r (sort_index t)). cbn [map fst snd].
  rewrite insert_row_map, IH. reflexivity.
Qed.
Lemma combine_map : forall A B C (f : A -> B) (g : A -> C) l, combine (map f l) (map g l) = map (fun x => (f x, g x)) l.
Proof. intros A B C f g l; induction l as [|x t IH]; [reflexivity|]. cbn. f_equal. exact IH. Qed.

Lemma sorted_rows : forall (key : nat -> nat) (id grp : nat -> K) rows,
  let l := map (fun r => (key r, (id r, grp r))) (seq 0 rows) in
  map snd (map snd (sort_index l)) = map grp (row_order (map key (seq 0 rows))).
Proof.
  intros key id grp rows l. unfold row_order. rewrite map_length, seq_length, combine_map.
  set (l0 := map (fun r => (key r, (r, tt))) (seq 0 rows)).
  set (h := fun ru : nat * unit => (id (fst ru), grp (fst ru))).
  assert (E : l = map (fun kr => (fst kr, h (snd kr))) l0) by (unfold l, l0; rewrite map_map; reflexivity).
  rewrite E, <- (sort_index_map _ _ _ _ h l0), !map_map. reflexivity.
Qed.
Lemma row_order_length : forall keys, List.length (row_order keys) = List.length keys.
Proof.
  intros keys. unfold row_order. rewrite map_length, <- (Permutation_length (sort_index_perm _)), combine_length, map_length, seq_length. lia.
Qed.

Lemma value_get : forall f n r, value f n r = match get_col (f_cols f) n with Ok l => nth r l none | Raise _ => none end.
Proof. intros f n r. unfold value. rewrite get_col_find. destruct (find _ _); reflexivity. Qed.
Lemma value_reorder : forall f order n r, (r < List.length order)%nat -> value (reorder none f order) n r = value f n (nth r order 0%nat).
Proof.
  intros f order n r Hr. rewrite !value_get, get_reorder. destruct (get_col (f_cols f) n) as [l|]; cbn [bind]; [|reflexivity].
  rewrite (nth_indep _ none (nth 0 l none)) by (rewrite map_length; exact Hr).
  rewrite (map_nth (fun r => nth r l none)). reflexivity.
Qed.
Lemma cell_reorder : forall f order c r, (r < List.length order)%nat -> cell (reorder none f order) c r = cell f c (nth r order 0%nat).
Proof.
  intros f order [n|[|n [|m t]]] r Hr; cbn [cell]; try (apply value_reorder; exact Hr); f_equal; apply map_ext; intros x;
    apply value_reorder; exact Hr.
Qed.
Lemma cell_differ : forall out f g c r, differ_in out f g -> (forall n, In n (names c) -> ~ In n out) -> cell f c r = cell g c r.
Proof.
  intros out f g c r [_ H] Hc.
  assert (V : forall n, In n (names c) -> value f n r = value g n r) by (intros n Hn; rewrite !value_get, (H n (Hc n Hn)); reflexivity).
  destruct c as [n|[|n [|m t]]]; cbn [cell names] in *; try (apply V; left; reflexivity); f_equal. apply map_ext_in. exact V.
Qed.
Lemma map_of_nth : forall A (h : nat -> A) order, map (fun r => h (nth r order 0%nat)) (seq 0 (List.length order)) = map h order.
Proof.
  intros A h order; induction order as [|x t IH]; [reflexivity|]. cbn [List.length seq map nth]. f_equal.
  rewrite <- seq_shift, map_map. exact IH.
Qed.
Lemma table_set : forall f c l, table f -> List.length l = f_rows f -> table (set_col f c l).
Proof.
  intros [rows cols] c l Ht Hl. unfold table, set_col in *. cbn [f_rows f_cols] in *.
  induction cols as [|[n l'] t IH]; cbn [assign]; [constructor; [exact Hl | constructor]|].
  inversion Ht as [|? ? H1 H2]; subst. destruct (String.eqb n c); constructor; auto.
Qed.
Lemma has_set : forall f c l ns, has f ns -> has (set_col f c l) ns.
Proof.
  intros [rows cols] c l ns H n Hn. specialize (H n Hn). unfold set_col. cbn [f_cols] in *.
  clear - H. induction cols as [|[m l'] t IH]; cbn [assign map fst In] in *; [contradiction|].
  destruct (String.eqb m c); cbn [map fst In] in *; tauto.
Qed.
Lemma table_reorder : forall f order, List.length order = f_rows f -> table (reorder none f order).
Proof.
  intros f order Hl. unfold table, reorder. cbn [f_cols f_rows]. apply Forall_forall. intros nl Hnl.
  apply in_map_iff in Hnl as (x & <- & _). cbn [snd]. rewrite map_length. exact Hl.
Qed.
Lemma has_reorder : forall f order ns, has f ns -> has (reorder none f order) ns.
Proof.
  intros f order ns H n Hn. unfold reorder. cbn [f_cols]. rewrite map_map. cbn [fst]. exact (H n Hn).
Qed.

Definition asked (a : args) : Prop :=
  names (a_id a) <> [] /\ names (a_src a) <> [] /\ names (a_dst a) <> [] /\
  (forall c, a_group a = Some c -> names c <> []) /\ (forall c, a_label a = Some c -> names c <> []).

Lemma reserved_in : forall c, In c reserved -> forall e l, differ_in reserved e (set_col e c l).
Proof. intros c Hc e l. apply differ_set. exact Hc. Qed.

Lemma construct_described : forall a v e, plain a -> asked a -> table v -> table e ->
  has v (vertex_columns a) -> has e (edge_columns a) ->
  fst (fst (construct a v e)) = described a v e.
Proof.
  intros a v e Ha (N1 & N2 & N3 & N4 & N5) Tv Te Cv Ce.
  assert (P1 : forall n, In n (names (a_id a)) -> ~ In n reserved) by (intros n Hn; apply Ha; unfold vertex_columns; rewrite !in_app_iff; tauto).
  assert (P2 : forall c n, a_group a = Some c -> In n (names c) -> ~ In n reserved).
  { intros c n E Hn. apply Ha. unfold vertex_columns. rewrite E, !in_app_iff. tauto. }
  assert (P3 : forall n, In n (names (a_src a)) -> ~ In n reserved) by (intros n Hn; apply Ha; unfold edge_columns; rewrite !in_app_iff; tauto).
  assert (P4 : forall n, In n (names (a_dst a)) -> ~ In n reserved) by (intros n Hn; apply Ha; unfold edge_columns; rewrite !in_app_iff; tauto).
  assert (P5 : forall w, a_weight a = Some w -> ~ In w reserved).
  { intros w E. apply Ha. unfold edge_columns. rewrite E, !in_app_iff. simpl. tauto. }
  assert (P6 : forall c n, a_label a = Some c -> In n (names c) -> ~ In n reserved).
  { intros c n E Hn. apply Ha. unfold edge_columns. rewrite E, !in_app_iff. tauto. }
  assert (H1 : has v (names (a_id a))) by (intros n Hn; apply Cv; unfold vertex_columns; rewrite in_app_iff; tauto).
  assert (H2 : forall c, a_group a = Some c -> has v (names c)) by (intros c E n Hn; apply Cv; unfold vertex_columns; rewrite E, in_app_iff; tauto).
  assert (H3 : has e (names (a_src a))) by (intros n Hn; apply Ce; unfold edge_columns; rewrite !in_app_iff; tauto).
  assert (H4 : has e (names (a_dst a))) by (intros n Hn; apply Ce; unfold edge_columns; rewrite !in_app_iff; tauto).
  assert (H5 : forall w, a_weight a = Some w -> In w (map fst (f_cols e))).
  { intros w E. apply Ce. unfold edge_columns. rewrite E, !in_app_iff. simpl. tauto. }
  assert (H6 : forall c, a_label a = Some c -> has e (names c)).
  { intros c E n Hn. apply Ce. unfold edge_columns. rewrite E, !in_app_iff. tauto. }
  unfold Frames.construct, graph_init, described, read_vertices. rewrite (read_col_cell v (a_id a) Tv N1 H1).
  unfold read_tables.
  replace (map fst (vertex_rows a v)) with (map (cell v (a_id a)) (seq 0 (f_rows v)))
    by (unfold vertex_rows; rewrite map_map; reflexivity).
  replace (List.length (vertex_rows a v)) with (f_rows v) by (unfold vertex_rows; rewrite map_length, seq_length; reflexivity).
  set (ids := map (cell v (a_id a)) (seq 0 (f_rows v))).
  destruct (generate_id_dict leb ids true) as [id_dict|x] eqn:Ed; cbn [bind after].
  2:{ unfold generate_id_dict, guard in Ed. destruct (negb true || _); [discriminate|]. injection Ed as <-. reflexivity. }
  set (v1 := set_col v "_node" ids). set (order := row_order (map mapped (map_get leb id_dict ids))).
  assert (Lo : List.length order = f_rows v).
  { unfold order, map_get, ids. rewrite row_order_length, !map_length, seq_length. reflexivity. }
  set (rows := map snd (sort_index (map (fun r => (mapped (dict_get leb id_dict (fst r)), r)) (vertex_rows a v)))).
  assert (Rows : map snd rows = map (fun r => match a_group a with Some c => cell v c r | None => none end) order).
  { unfold rows, order, ids, map_get, vertex_rows. rewrite !map_map. cbn [fst snd].
    exact (eq_trans (eq_sym (map_map _ _ _)) (sorted_rows (fun r => mapped (dict_get leb id_dict (cell v (a_id a) r))) (cell v (a_id a)) _ (f_rows v))). }
  assert (Eg : read_groups leb none tuple (reorder none v1 order) (option_map extract (a_group a))
    = (if some (a_group a) then
      do group_dict <- generate_id_dict leb (map snd rows) false ;
      let num_bytes := get_num_bytes (List.length group_dict) in
      Ok (Some (group_dict, map (fun r => astype_u num_bytes (mapped (dict_get leb group_dict (snd r)))) rows))
    else Ok None)).
  { unfold read_groups. destruct (a_group a) as [c|] eqn:Ec; cbn [option_map some]; [|reflexivity].
    rewrite (read_col_cell (reorder none v1 order) c).
    - assert (Em : map (cell (reorder none v1 order) c) (seq 0 (f_rows (reorder none v1 order))) = map snd rows).
      { rewrite Rows. change (f_rows (reorder none v1 order)) with (f_rows v). rewrite <- Lo.
        etransitivity; [|exact (map_of_nth _ (fun r => cell v c r) order)]. apply map_ext_in. intros r Hr. apply in_seq in Hr. rewrite cell_reorder by lia.
        symmetry. apply (cell_differ reserved); [apply reserved_in; simpl; tauto | intros n; apply (P2 c n eq_refl)]. }
      rewrite Em. cbn [bind]. destruct (generate_id_dict leb (map snd rows) false) as [gd|]; cbn [bind]; [|reflexivity].
      unfold map_get. rewrite !map_map. reflexivity.
    - apply table_reorder. exact Lo.
    - apply N4. reflexivity.
    - apply has_reorder, has_set, H2. reflexivity. }
  rewrite Eg. clear Eg Rows.
  destruct (if some (a_group a) then _ else _) as [groups|x]; cbn [bind after]; [|reflexivity].
  rewrite !is_list_several by assumption.
  unfold guard at 1. destruct (Bool.eqb (several (a_src a)) (several (a_dst a))); cbn [negb bind]; [|reflexivity].
  rewrite (read_col_cell e (a_src a) Te N2 H3). cbn [after].
  set (c1 := map (cell e (a_src a)) (seq 0 (f_rows e))). set (e1 := set_col e "_src" c1).
  assert (D1 : differ_in reserved e1 e) by (apply differ_sym, reserved_in; simpl; tauto).
  rewrite (read_differ reserved e1 e (a_dst a) D1 P4), (read_col_cell e (a_dst a) Te N3 H4). cbn [after].
  set (c2 := map (cell e (a_dst a)) (seq 0 (f_rows e))). rewrite !get_set. cbn [String.eqb Ascii.eqb Bool.eqb after].
  unfold e1 at 1. rewrite get_set. cbn [String.eqb Ascii.eqb Bool.eqb after]. rewrite !get_set. cbn [String.eqb Ascii.eqb Bool.eqb after].
  set (e4 := set_col (set_col (set_col e1 "_dst" c2) "_src" _) "_dst" _).
  assert (D4 : differ_in reserved e4 e).
  { eapply differ_trans; [|exact D1]. apply differ_sym. unfold e4.
    do 3 (eapply differ_trans; [|apply reserved_in; simpl; tauto]). apply differ_refl. }
  replace (map (fun r => dict_get leb id_dict (r_src r)) (edge_rows a e)) with (map_get leb id_dict c1)
    by (unfold edge_rows, map_get, c1; rewrite !map_map; reflexivity).
  replace (map (fun r => dict_get leb id_dict (r_dst r)) (edge_rows a e)) with (map_get leb id_dict c2)
    by (unfold edge_rows, map_get, c2; rewrite !map_map; reflexivity).
  destruct (any_isnan (map_get leb id_dict c1)) as [ns|x]; cbn [bind after]; [|reflexivity].
  destruct (if ns then Ok true else any_isnan (map_get leb id_dict c2)) as [na|x]; cbn [bind after]; [|reflexivity].
  unfold guard at 1. destruct na; cbn [negb]; [reflexivity|].
  assert (W : forall w, a_weight a = Some w -> forall e', differ_in reserved e' e ->
     get_col (f_cols e') w = Ok (map (value e w) (seq 0 (f_rows e)))).
  { intros w Ew e' [_ De]. rewrite (De w (P5 w Ew)). apply get_col_value; [exact Te | exact (H5 w Ew)]. }
  (* the label part *)
  assert (Lab : forall b e', differ_in reserved e' e -> fst (fst (match a_label a with
      | None => (Ok (mkBuilt b None), v1, e')
      | Some c => label_init leb pos none tuple number a c b v1 e' end))
    = match a_label a with
      | None => Ok (mkBuilt b None)
      | Some _ => do (d, l) <- read_labels leb (edge_rows a e) ; Ok (mkBuilt b (Some (d, l, map r_weight (edge_rows a e)))) end).
  { intros b e' De. destruct (a_label a) as [c|] eqn:Ec; [|reflexivity]. unfold label_init, read_labels.
    rewrite (read_differ reserved e' e c De) by (intros n; apply (P6 c n eq_refl)).
    rewrite (read_col_cell e c Te (N5 c eq_refl) (H6 c eq_refl)). cbn [after].
    replace (map r_label (edge_rows a e)) with (map (cell e c) (seq 0 (f_rows e)))
      by (unfold edge_rows; rewrite Ec, map_map; reflexivity).
    destruct (generate_id_dict leb (map (cell e c) (seq 0 (f_rows e))) false) as [d|]; cbn [bind after]; [|reflexivity].
    assert (Er : map (fun r => astype_u (get_num_bytes (List.length d)) (mapped (dict_get leb d (r_label r)))) (edge_rows a e)
      = map (fun o => astype_u (get_num_bytes (List.length d)) (mapped o)) (map_get leb d (map (cell e c) (seq 0 (f_rows e))))).
    { unfold edge_rows, map_get. rewrite Ec, !map_map. reflexivity. }
    rewrite Er. destruct (a_weight a) as [w|] eqn:Ew.
    - rewrite (W w eq_refl).
      + cbn [after fst]. do 4 f_equal. unfold edge_rows. rewrite Ew, !map_map. reflexivity.
      + eapply differ_trans; [|exact De]. apply differ_sym. eapply differ_trans; [apply (reserved_in "_label"); simpl; tauto|].
        apply reserved_in. simpl. tauto.
    - cbn [fst]. do 4 f_equal. unfold edge_rows, map_get. rewrite Ew, !map_map. reflexivity. }
  destruct (a_weight a) as [w|] eqn:Ew; cbn [some negb orb].
  - rewrite (W w eq_refl e4 D4). cbn [after].
    replace (map r_weight (edge_rows a e)) with (map number (map (value e w) (seq 0 (f_rows e)))) in *
      by (unfold edge_rows; rewrite Ew, !map_map; reflexivity).
    unfold guard. destruct (forallb _ _); cbn [negb bind]; [|reflexivity]. apply Lab. exact D4.
  - unfold guard. cbn [bind]. rewrite (Lab _ e4 D4). 
    assert (E1 : map (fun _ => 1) (map (fun o => astype_u (get_num_bytes (f_rows v)) (mapped o)) (map_get leb id_dict c1)) = map (fun _ => 1) (edge_rows a e)).
    { unfold edge_rows, map_get, c1. rewrite !map_map. reflexivity. }
    rewrite E1. reflexivity.
Qed.
End Facts.

(** * C79: the constructors read the columns they are given and leave the tables of the caller as they were *)

(** Without the helper names, the object is the one described by the rows of the tables (the subject of C01-C05,
    C14, C15), whether the call succeeds or raises. *)
Theorem C79_reads : forall K (leb : K -> K -> bool) pos none tuple number a v e, plain a -> asked a -> table v -> table e ->
  has v (vertex_columns a) -> has e (edge_columns a) ->
  fst (fst (construct leb pos none tuple number a v e)) = described leb none tuple number a v e.
Proof. intros K leb pos none tuple number a v e. apply construct_described. Qed.
Print Assumptions C79_reads.

(** Full statement: the frames are unchanged.  This is refuted below; what is true is that only the helper columns
    change, for every call, also one that raises. *)
Theorem C79_columns_partial : forall K (leb : K -> K -> bool) pos none tuple number a v e r v' e',
  construct leb pos none tuple number a v e = (r, v', e') ->
  f_rows v' = f_rows v /\ f_rows e' = f_rows e /\
  (forall n, n <> "_node" -> get_col (f_cols v') n = get_col (f_cols v) n) /\
  (forall n, ~ In n ["_src"; "_dst"; "_label"] -> get_col (f_cols e') n = get_col (f_cols e) n).
Proof.
  intros K leb pos none tuple number a v e r v' e' E. pose proof (construct_frames leb pos none tuple number a v e) as [[A B] [C D]].
  rewrite E in *. cbn [fst snd] in *. repeat split; try congruence.
  - intros n Hn. symmetry. apply B. intros [H | []]. apply Hn. congruence.
  - intros n Hn. symmetry. apply D. exact Hn.
Qed.
Print Assumptions C79_columns_partial.

(** Calls that do not name helper columns give the same objects in whatever order they are made on the same frames. *)
Theorem C79_again : forall K (leb : K -> K -> bool) pos none tuple number l v e rs v' e', (forall a, In a l -> plain a) ->
  construct_all leb pos none tuple number l v e = (rs, v', e') ->
  rs = map (fun a => fst (fst (construct leb pos none tuple number a v e))) l.
Proof.
  intros K leb pos none tuple number l v e rs v' e' Hl E.
  assert (G : forall l v1 e1 rs v' e', (forall a, In a l -> plain a) -> differ_in reserved v1 v -> differ_in reserved e1 e ->
    construct_all leb pos none tuple number l v1 e1 = (rs, v', e') ->
    rs = map (fun a => fst (fst (construct leb pos none tuple number a v e))) l).
  { clear. intros l; induction l as [|a t IH]; intros v1 e1 rs v' e' Hl Dv De E; cbn [construct_all map] in *; [congruence|].
    pose proof (construct_result leb pos none tuple number a v1 e1 v e (Hl a (or_introl eq_refl)) Dv De) as R1.
    pose proof (construct_frames leb pos none tuple number a v1 e1) as [F1 F2].
    destruct (construct leb pos none tuple number a v1 e1) as [[r v2] e2]. cbn [fst snd] in *.
    destruct (construct_all leb pos none tuple number t v2 e2) as [[rs' v3] e3] eqn:Et. injection E as <- <- <-.
    f_equal; [exact R1|]. apply (IH v2 e2 rs' v3 e3); [intros b Hb; apply Hl; right; exact Hb | | | exact Et].
    - eapply differ_trans; [|exact Dv]. apply differ_sym. eapply differ_weaken; [|exact F1]. intros x [<-|[]]; simpl; tauto.
    - eapply differ_trans; [|exact De]. apply differ_sym. eapply differ_weaken; [|exact F2]. intros x Hx. simpl in *. tauto. }
  exact (G l v e rs v' e' Hl (differ_refl _ _) (differ_refl _ _) E).
Qed.
Print Assumptions C79_again.

(** A table of two vertices with groups and a table of two links with weights and labels. *)
Definition ex_v : frame nat := mkFrame 2 [("id", [5; 3]%nat); ("g", [1; 1]%nat)].
Definition ex_e : frame nat := mkFrame 2 [("from", [5; 3]%nat); ("to", [3; 3]%nat); ("w", [2; 4]%nat); ("k", [9; 8]%nat)].
Definition ex_a : args := mkArgs (Many ["id"]) (One "from") (One "to") (Some "w") (Some (One "g")) (Some (Many ["k"; "w"])).
Notation ex_construct := (construct Nat.leb (fun i => i) 0%nat (fun l => fold_right (fun x s => (x + 10 * s)%nat) 0%nat l) INR).

Example C79_reads_case : plain ex_a /\ asked ex_a /\ table ex_v /\ table ex_e /\
  has ex_v (vertex_columns ex_a) /\ has ex_e (edge_columns ex_a) /\
  exists b v' e', ex_construct ex_a ex_v ex_e = (Ok b, v', e') /\
    b_edges (b_base b) = [(1%nat, 0%nat, 2); (0%nat, 0%nat, 4)] /\ b_groups (b_base b) = Some ([(1, 0)], [0; 0])%nat /\
    b_labels b = Some ([(29, 0); (48, 1)]%nat, [0; 1]%nat, [2; 4]).
Proof.
  assert (P : forall n, In n (vertex_columns ex_a ++ edge_columns ex_a) -> ~ In n reserved).
  { intros n Hn H. simpl in Hn, H. repeat (destruct Hn as [<-|Hn]; [repeat (destruct H as [H|H]; [discriminate H|]); exact H|]). exact Hn. }
  split; [exact P|]. split.
  { unfold asked, ex_a; cbn. repeat split; try discriminate; intros c H; injection H as <-; discriminate. }
  split; [repeat constructor|]. split; [repeat constructor|].
  split; [intros n H; simpl in *; tauto|]. split; [intros n H; simpl in *; tauto|].
  assert (W1 : INR 2 = 2) by (simpl; lra). assert (W2 : INR 4 = 4) by (simpl; lra).
  do 3 eexists. split.
  - unfold construct, graph_init. lazy -[get_num_bytes astype_u INR Rltb IZR].
    rewrite W1, W2. rewrite !Rltb_true by lra. lazy -[get_num_bytes astype_u INR Rltb IZR]. reflexivity.
  - cbn [b_edges b_base b_groups b_labels]. rewrite !astype_id by lia. rewrite ?W1, ?W2. split; [|split]; reflexivity.
Qed.

Example C79_again_case : forall a, In a [ex_a; ex_a] -> plain a.
Proof. destruct C79_reads_case as [H _]. intros a [<- | [<- | []]]; exact H. Qed.

(** The constructor adds columns to the frames of the caller, and overwrites a column [_node]. *)
Theorem C79_frames_refuted : exists a v e b v' e', plain a /\ ex_construct a v e = (Ok b, v', e') /\
  map fst (f_cols v) = ["id"; "_node"] /\ get_col (f_cols v) "_node" = Ok [7; 8]%nat /\ get_col (f_cols v') "_node" = Ok [5; 3]%nat /\
  map fst (f_cols e) = ["from"; "to"] /\ map fst (f_cols e') = ["from"; "to"; "_src"; "_dst"].
Proof.
  exists (mkArgs (One "id") (One "from") (One "to") None None None),
    (mkFrame 2 [("id", [5; 3]%nat); ("_node", [7; 8]%nat)]), (mkFrame 1 [("from", [5]%nat); ("to", [3]%nat)]).
  do 3 eexists. split.
  { intros n Hn H. simpl in Hn, H. repeat (destruct Hn as [<-|Hn]; [repeat (destruct H as [H|H]; [discriminate H|]); exact H|]). exact Hn. }
  split; [unfold construct, graph_init; cbn -[get_num_bytes astype_u]; reflexivity|]. repeat split.
Qed.
Print Assumptions C79_frames_refuted.

(** Columns with the helper names are not read: with sources in [_dst] and destinations in [_src] every link of
    the graph is a self-loop. *)
Theorem C79_helper_names_refuted : exists a v e b v' e', asked a /\ table v /\ table e /\
  has v (vertex_columns a) /\ has e (edge_columns a) /\ ex_construct a v e = (Ok b, v', e') /\
  a_src a = One "_dst" /\ a_dst a = One "_src" /\ value 0%nat e "_dst" 0 = 3%nat /\ value 0%nat e "_src" 0 = 5%nat /\
  dict_get Nat.leb (b_ids (b_base b)) 3%nat = Some 0%nat /\ dict_get Nat.leb (b_ids (b_base b)) 5%nat = Some 1%nat /\
  b_edges (b_base b) = [(0%nat, 0%nat, 1)].
Proof.
  exists (mkArgs (One "id") (One "_dst") (One "_src") None None None),
    (mkFrame 2 [("id", [5; 3]%nat)]), (mkFrame 1 [("_src", [5]%nat); ("_dst", [3]%nat)]).
  do 3 eexists. split; [unfold asked; cbn; repeat split; discriminate|].
  split; [repeat constructor|]. split; [repeat constructor|].
  split; [intros n H; simpl in *; tauto|]. split; [intros n H; simpl in *; tauto|].
  split; [unfold construct, graph_init; cbn -[get_num_bytes astype_u]; reflexivity|].
  do 6 (split; [reflexivity|]). cbn [b_edges b_base]. rewrite !astype_id by lia. reflexivity.
Qed.
Print Assumptions C79_helper_names_refuted.

(** A weight column called [_label] passes the check of positivity and is then replaced by the numbers of the
    labels: the layers store the weight 0. *)
Theorem C79_weight_refuted : exists a v e b v' e' d l, asked a /\ table v /\ table e /\
  has v (vertex_columns a) /\ has e (edge_columns a) /\ ex_construct a v e = (Ok b, v', e') /\
  a_weight a = Some "_label" /\ value 0%nat e "_label" 0 = 7%nat /\
  b_edges (b_base b) = [(1%nat, 0%nat, 7)] /\ b_labels b = Some (d, l, [0]).
Proof.
  exists (mkArgs (One "id") (One "from") (One "to") (Some "_label") None (Some (One "k"))),
    (mkFrame 2 [("id", [5; 3]%nat)]), (mkFrame 1 [("from", [5]%nat); ("to", [3]%nat); ("k", [9]%nat); ("_label", [7]%nat)]).
  assert (W : INR 7 = 7) by (simpl; lra).
  do 5 eexists. split; [unfold asked; cbn; repeat split; try discriminate; intros c H; injection H as <-; discriminate|].
  split; [repeat constructor|]. split; [repeat constructor|].
  split; [intros n H; simpl in *; tauto|]. split; [intros n H; simpl in *; tauto|].
  split.
  { unfold construct, graph_init. cbn -[get_num_bytes astype_u INR]. rewrite W, Rltb_true by lra. cbn -[get_num_bytes astype_u INR]. reflexivity. }
  split; [reflexivity|]. split; [reflexivity|]. split.
  - cbn [b_edges b_base]. rewrite !astype_id by lia. reflexivity.
  - cbn [b_labels]. reflexivity.
Qed.
Print Assumptions C79_weight_refuted.
