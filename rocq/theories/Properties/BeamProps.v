(** C01, C02: Beam. *)
From Coq Require Import List ZArith Reals Lra Sorted Permutation.
From Verif Require Import Base.Num Base.Res Base.RSum Model.Beam Spec.BeamSpec Proofs.BeamProofs Proofs.BeamProofs2.
Import ListNotations.
Local Existing Instance RNum.

(** C01. One weight, flag and divergency per energy: the stored beam is an ascending
    permutation of the rows with normalised weights; for any std::sort obeying its contract. *)
Theorem C01_setBeam_sorted_normalised_complete :
  forall sortf, std_sort_contract ray_ltb sortf ->
  forall (b : beam) (E W : list R) (F : list Z) (D : list R),
  E <> [] -> length W = length E -> length F = length E -> length D = length E ->
  exists b' rows,
    setBeam sortf b E W F D = Ok b' /\
    getBeamAsDoubleVectors b' = columns rows /\
    StronglySorted Rle (map row_energy rows) /\
    Permutation rows (table E (if Rlt_dec 0 (Rsum W) then map (fun w => w / Rsum W)%R W else W) F D) /\
    (0 < Rsum W -> Rsum (map row_weight rows) = 1)%R.
Proof. exact setBeam_R. Qed.
Print Assumptions C01_setBeam_sorted_normalised_complete.

Theorem C01_empty_energy_empties_the_beam :
  forall sortf (b : beam) (W : list R) F D,
  exists b', setBeam sortf b [] W F D = Ok b' /\ getBeamAsDoubleVectors b' = [[]; []; []; []].
Proof. exact setBeam_empty_R. Qed.
Print Assumptions C01_empty_energy_empties_the_beam.

(** The order of rows and their integrity, for any arithmetic (in particular IEEE doubles),
    as soon as the energies are comparable (no NaN). *)
Theorem C01_any_arithmetic :
  forall (N : Num) sortf, std_sort_contract (@ray_ltb N) sortf ->
  forall (b : beam) E W F D,
  E <> [] -> length W = length E -> length F = length E -> length D = length E ->
  Forall (fun e => neqb e e = true) E ->
  (forall l, Forall (fun r => In (r_energy r) E) l -> strict_weak_order (@ray_ltb N) l) ->
  exists b', setBeam sortf b E W F D = Ok b' /\
    StronglySorted (fun x y => nltb (r_energy y) (r_energy x) = false) (getBeam b') /\
    Permutation (map (fun r => (r_energy r, r_char r, r_div r)) (getBeam b'))
                (combine (combine E F) D) /\
    Permutation (map r_weight (getBeam b'))
                (if nltb n0 (nsum W) then map (fun w => ndiv w (nsum W)) W else W).
Proof. exact (fun N sortf Hc b E W F D => @setBeam_any N sortf b E W F D Hc). Qed.
Print Assumptions C01_any_arithmetic.

Theorem C01_single_energy :
  forall sortf, std_sort_contract ray_ltb sortf ->
  forall (b : beam) (e d : R), exists b',
  setSingleEnergyBeam sortf b e d = Ok b' /\ getBeamAsDoubleVectors b' = [[e]; [1%R]; [1%R]; [d]].
Proof. exact setSingle_R. Qed.
Print Assumptions C01_single_energy.

(** Non-vacuity: insertion sort obeys the contract, and an unsorted three-ray beam
    meets the hypotheses with a positive total. *)
Example C01_sort_exists : std_sort_contract (@ray_ltb RNum) (isort ray_ltb).
Proof. exact (isort_contract ray_ltb). Qed.
Example C01_hypotheses : let E := [3; 1; 2]%R in let W := [1; 2; 1]%R in
  E <> [] /\ length W = length E /\ (0 < Rsum W)%R.
Proof. cbn. repeat split; [discriminate|lra]. Qed.

(** C02. Broadcasting of optional arguments, for any arithmetic. *)
Theorem C02_optional_vectors_broadcast :
  forall (N : Num) sortf (b : @beam N) E W F D, E <> [] ->
  usable (length E) W -> usable (length E) F -> usable (length E) D ->
  setBeam sortf b E W F D =
  setBeam sortf b E (column (length E) n1 W) (column (length E) 1%Z F) (column (length E) n0 D).
Proof. exact (fun N => @setBeam_broadcast N). Qed.
Print Assumptions C02_optional_vectors_broadcast.

(** The only undefined vector call is a too short optional vector; nothing throws. *)
Theorem C02_undefined_exactly_when_short :
  forall sortf (b : @beam RNum) E W F D,
  (setBeam sortf b E W F D = UB <->
     E <> [] /\ ~ (usable (length E) W /\ usable (length E) F /\ usable (length E) D)) /\
  (setBeam sortf b E W F D <> UB -> exists b', setBeam sortf b E W F D = Ok b').
Proof. exact setBeam_UB_iff. Qed.
Print Assumptions C02_undefined_exactly_when_short.

(** Pointer overload = vector overload; NULL = empty vector. *)
Theorem C02_pointer_overload_agrees :
  forall (N : Num) sortf (b : @beam N) E W F D,
  (forall w, W = Some w -> length w = length E) ->
  (forall f, F = Some f -> length f = length E) ->
  (forall d, D = Some d -> length d = length E) ->
  E <> [] ->
  setBeam_ptr sortf b (Z.of_nat (length E)) (Some E) W F D =
  match setBeam sortf b E (match W with Some w => w | None => [] end)
                 (match F with Some f => f | None => [] end) (match D with Some d => d | None => [] end) with
  | Ok b' => (b', Ok tt)
  | Throw e => (b, Throw e)
  | UB => (b, UB)
  | Diverge => (b, Diverge)
  end.
Proof. exact (fun N => @setBeam_ptr_vec N). Qed.
Print Assumptions C02_pointer_overload_agrees.

(** A NULL energy array, or a NULL array of double flags, is undefined for every n > 0. *)
Theorem C02_null_dereference :
  forall (N : Num) sortf toint (b : @beam N) n W F D E C, (0 < n)%Z ->
  snd (setBeam_ptr sortf b n None W F D) = UB /\
  snd (setBeam_ptr_double sortf toint b n E W None C) = UB.
Proof. exact (fun N => @null_UB N). Qed.
Print Assumptions C02_null_dereference.

Example C02_usable_examples : usable 3 (@nil R) /\ usable 3 [5%R] /\ usable 3 [1; 2; 3]%R /\ ~ usable 3 [1; 2]%R.
Proof. unfold usable; cbn; repeat split; Lia.lia. Qed.
