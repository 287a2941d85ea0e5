(** C06, C07, C08: TransmissionTable. *)
From Coq Require Import PrimFloat String List Reals Lra Sorted.
From Verif Require Import Base.Num Base.Res Base.SMap Model.TransmissionTable Spec.TransmissionSpec Proofs.TransmissionProofs.
Import ListNotations.
Local Open Scope R_scope.
Local Existing Instance RNum.

(** C06. Failure atomicity, for any arithmetic. *)
Theorem C06_map_overload_failure_is_atomic :
  forall (N : Num) (t t' : @ttable N) table n c e,
  setTransmissionTable_map t table n c = (t', Throw e) -> t' = t.
Proof. exact (fun N => @tt_map_throw_unchanged N). Qed.
Print Assumptions C06_map_overload_failure_is_atomic.

Theorem C06_vector_overload_failure_is_atomic :
  forall (N : Num) (t t' : @ttable N) en tr n c e,
  setTransmissionTable_vec t en tr n c = (t', Throw e) -> t' = t.
Proof. exact (fun N => @tt_vec_throw_unchanged N). Qed.
Print Assumptions C06_vector_overload_failure_is_atomic.

Theorem C06_map_overload_accepts_exactly :
  forall (t : @ttable RNum) (table : list (R * R)) n c, is_table table ->
  (snd (setTransmissionTable_map t table n c) = Ok tt <->
     ~ renames t n c /\ Forall (fun r => 0 <= fst r /\ 0 <= snd r) table) /\
  (snd (setTransmissionTable_map t table n c) = Ok tt ->
     getTransmissionTable (fst (setTransmissionTable_map t table n c)) = table) /\
  (snd (setTransmissionTable_map t table n c) <> Ok tt ->
     setTransmissionTable_map t table n c = (t, Throw InvalidArgument)).
Proof. exact set_map_iff. Qed.
Print Assumptions C06_map_overload_accepts_exactly.

Theorem C06_vector_overload_accepts_exactly :
  forall (t : @ttable RNum) (E V : list R) n c,
  (snd (setTransmissionTable_vec t E V n c) = Ok tt <->
     ~ renames t n c /\ length E = length V /\ Forall (fun e => 0 <= e) E /\
     StronglySorted Rle E /\ Forall (fun v => 0 <= v) V) /\
  (snd (setTransmissionTable_vec t E V n c) <> Ok tt ->
     setTransmissionTable_vec t E V n c = (t, Throw InvalidArgument)).
Proof. exact set_vec_iff. Qed.
Print Assumptions C06_vector_overload_accepts_exactly.

(** Names and comments: set once, kept afterwards. *)
Theorem C06_name_and_comment :
  forall (t t' : @ttable RNum) (E V : list R) (T : list (R * R)) n c,
  (setTransmissionTable_vec t E V n c = (t', Ok tt) \/ setTransmissionTable_map t T n c = (t', Ok tt)) ->
  tt_name t' = (if string_dec n EmptyString then tt_name t else n) /\
  tt_comment t' = (if string_dec c EmptyString then tt_comment t else c).
Proof. exact set_names. Qed.
Print Assumptions C06_name_and_comment.

(** Every reachable table is a map with non-negative energies and transmissions. *)
Theorem C06_reachable_tables_are_valid :
  forall n c (history : list tt_op), Forall tt_op_ok history ->
  let T := getTransmissionTable (tt_run (tt_new n c) history) in
  is_table T /\ Forall (fun r => 0 <= fst r /\ 0 <= snd r) T.
Proof. exact (fun n c l H => tt_valid_run l (tt_new n c) H (tt_valid_new n c)). Qed.
Print Assumptions C06_reachable_tables_are_valid.

Example C06_history_example : Forall tt_op_ok
  [TSetMap [(1, 1/2); (2, 1/3)] "a"%string ""%string; TSetVectors [3; 1] [1; 1] ""%string ""%string; TSetVectors [1; 1; 2] [0; 1; 1] ""%string "c"%string].
Proof.
  constructor; [|constructor; [exact I|constructor; [exact I|constructor]]].
  unfold tt_op_ok, is_table; cbn [map fst]. constructor; [constructor; [constructor|constructor]|constructor; [lra|constructor]].
Qed.

(** C07 *)
Theorem C07_empty_table_transmits_everything :
  forall (t : @ttable RNum) E, tt_table t = [] -> getTransmission t E = 1.
Proof. exact get_empty. Qed.
Print Assumptions C07_empty_table_transmits_everything.

Theorem C07_constant_below_the_first_energy :
  forall (t : @ttable RNum) (x y : R) (rest : list (R * R)) (E : R),
  is_table (tt_table t) -> tt_table t = (x, y) :: rest -> E <= x -> getTransmission t E = y.
Proof. exact get_first. Qed.
Print Assumptions C07_constant_below_the_first_energy.

Theorem C07_constant_above_the_last_energy :
  forall (t : @ttable RNum) (pre : list (R * R)) (x y E : R),
  is_table (tt_table t) -> tt_table t = (pre ++ [(x, y)])%list -> x <= E -> getTransmission t E = y.
Proof. exact get_last. Qed.
Print Assumptions C07_constant_above_the_last_energy.

Theorem C07_straight_line_on_every_segment :
  forall (t : @ttable RNum) (pre : list (R * R)) (x1 y1 x2 y2 : R) (post : list (R * R)) (E : R),
  is_table (tt_table t) -> tt_table t = (pre ++ (x1, y1) :: (x2, y2) :: post)%list -> x1 <= E <= x2 ->
  getTransmission t E = y1 + (E - x1) / (x2 - x1) * (y2 - y1).
Proof. exact get_segment. Qed.
Print Assumptions C07_straight_line_on_every_segment.

Theorem C07_tabulated_values_are_reproduced :
  forall (t : @ttable RNum) (x y : R), is_table (tt_table t) -> In (x, y) (tt_table t) -> getTransmission t x = y.
Proof. exact get_at_knot. Qed.
Print Assumptions C07_tabulated_values_are_reproduced.

Theorem C07_bounded_by_the_table :
  forall (t : @ttable RNum) (E lo hi : R), is_table (tt_table t) -> tt_table t <> [] ->
  Forall (fun r => lo <= snd r <= hi) (tt_table t) -> lo <= getTransmission t E <= hi.
Proof. exact get_bounded. Qed.
Print Assumptions C07_bounded_by_the_table.

Theorem C07_vector_overload_is_elementwise :
  forall (N : Num) (t : @ttable N) (l : list num) i e,
  length (getTransmission_vec t l) = length l /\
  (nth_error l i = Some e -> nth_error (getTransmission_vec t l) i = Some (getTransmission t e)).
Proof. exact (fun N t l i e => conj (List.map_length _ _) (fun H => map_nth_error (getTransmission t) i l H)). Qed.
Print Assumptions C07_vector_overload_is_elementwise.

Example C07_hypotheses : let T := [(1, 1/2); (2, 1/3); (4, 1)] in is_table T /\ T <> [] /\
  T = ([(1, 1/2)] ++ (2, 1/3) :: (4, 1) :: [])%list /\ 2 <= 3 <= 4.
Proof.
  cbv zeta. split; [|split; [discriminate|split; [reflexivity|lra]]].
  unfold is_table; cbn [map fst].
  constructor; [constructor; [constructor; [constructor|constructor]|constructor; [lra|constructor]]|].
  constructor; [lra|constructor; [lra|constructor]].
Qed.

(** C08. Strictly increasing energies: the table is exactly what was given. *)
Theorem C08_strictly_increasing_energies_are_stored_verbatim :
  forall (t : @ttable RNum) (E V : list R) n c,
  ~ renames t n c -> length E = length V -> Forall (fun e => 0 <= e) E ->
  StronglySorted Rlt E -> Forall (fun v => 0 <= v) V ->
  exists t', setTransmissionTable_vec t E V n c = (t', Ok tt) /\ getTransmissionTable t' = combine E V.
Proof. exact set_vec_strict. Qed.
Print Assumptions C08_strictly_increasing_energies_are_stored_verbatim.

(** Repeated energies: with the second of two equal energies moved 1e-6 up, every value is
    stored as soon as the resulting keys are strictly increasing (each energy at most
    twice, next energy more than 1e-6 away). *)
Theorem C08_repeated_energies_are_stored_1e6_apart_partial :
  forall (t : @ttable RNum) (E V : list R) n c,
  ~ renames t n c -> length E = length V -> Forall (fun e => 0 <= e) E -> StronglySorted Rle E ->
  Forall (fun v => 0 <= v) V -> StronglySorted Rlt (shifted None E) ->
  exists t', setTransmissionTable_vec t E V n c = (t', Ok tt) /\ getTransmissionTable t' = combine (shifted None E) V.
Proof. exact set_vec_faithful. Qed.
Print Assumptions C08_repeated_energies_are_stored_1e6_apart_partial.

Example C08_hypotheses : StronglySorted Rlt (shifted None [1; 1; 2]) /\ StronglySorted Rle [1; 1; 2].
Proof.
  cbn [shifted]. destruct (Req_EM_T 1 1); [|lra]. destruct (Req_EM_T 2 1); [lra|].
  split; (constructor; [constructor; [constructor; [constructor|constructor]|constructor; [lra|constructor]]|]);
  (constructor; [lra|constructor; [lra|constructor]]).
Qed.

(** Full claim refuted in binary64: (1, 0.25), (1, 0.5), (1, 0.75) is accepted and the value 0.5 is
    nowhere in the table. *)
Theorem C08_every_value_is_stored_refuted :
  exists E V t', @setTransmissionTable_vec FNum tt_init E V "" "" = (t', Ok tt) /\
    map snd (getTransmissionTable t') = [0.25%float; 0.75%float] /\
    In 0.5%float V /\ length E = 3%nat /\ length V = 3%nat.
Proof.
  exists [1%float; 1%float; 1%float], [0.25%float; 0.5%float; 0.75%float],
    (fst (@setTransmissionTable_vec FNum tt_init [1%float; 1%float; 1%float] [0.25%float; 0.5%float; 0.75%float] "" "")).
  split; [vmrefl|]. split; [vmrefl|]. split; [right; left; reflexivity|split; reflexivity].
Qed.
Print Assumptions C08_every_value_is_stored_refuted.
