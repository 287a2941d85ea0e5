(** C59: lines excited by lines that were themselves excited by the radiation of the sample, in XRF::getMultilayerFluorescence. *)
From Coq Require Import Ascii String List ZArith Reals Bool Arith Lia Lra Permutation.
From Verif Require Import Base.Num Base.Res Base.RSum Base.SMap Base.Str Base.ListLemmas Model.Beam Model.Material Model.TransmissionTable
  Model.Math Model.Shell Model.Element Model.Formula Model.Elements Model.Layer Model.XRF Model.Multilayer Model.XRFLibrary Spec.ShellSpec Spec.ElementSpec
  Spec.MaterialSpec Spec.LayerSpec Spec.BeamSpec Spec.ElementsSpec Spec.FormulaSpec Spec.MultilayerSpec Spec.SecondarySpec Spec.TertiarySpec Spec.LibrarySpec Proofs.BeamProofs Proofs.MathProofs Proofs.LayerProofs Proofs.ElementProofs
  Proofs.MultilayerProofs Proofs.MultilayerProofs17 Proofs.MultilayerProofs26 Proofs.MultilayerProofs27 Proofs.TertiaryExample Proofs.MultilayerExample Proofs.LibraryProofs Proofs.LibraryProofs2 Proofs.LibraryProofs3 Proofs.LibraryProofs4
  Properties.MultilayerProps Properties.LibraryProps.
Import ListNotations.
Local Open Scope string_scope.
Local Open Scope R_scope.
Local Existing Instance RNum.
Local Ltac toR := change (@num RNum) with R in *.

(** ** C59 Tertiary excitation *)
Section Tertiary.
Variables (sortf : list R -> list R) (debug lf : bool) (xl : @xlib RNum) (c : @config RNum).
Local Notation calculate := (@getMultilayerFluorescence RNum sortf debug lf xl c).
Variables (elements families : list string) (layers : list Z) (secondary useGeo useMass : Z) (limit : R) (over : @beam RNum).

(** Each photon name listed in the entry of a line counts once more, times what the answer itself says that
    its own line is enhanced; lines enhanced by less than 1 % neither count nor gain. *)
Theorem C59_tertiary EL r : well_formed xl -> pointwise xl -> line_energies xl EL -> escape_names xl (c_detector c) ->
  (forall e, In e elements -> one_word e) -> (forall n, (n < length elements)%nat -> 0 <= threshold xl elements families n) -> (1 < secondary)%Z ->
  calculate elements families layers secondary useGeo useMass limit over = Ok r ->
  exists enh, enhancements r enh /\ forall key i L t, line_entry r key i L = Some t -> ~ escape_line L ->
    NoDup (map fst t) /\
    field t "tertiary" = if Rltb (enhancement t) (101 / 100) then 0
                         else Rsum (map (fun nv => if has_space (fst nv) then snd nv * (enh (fst nv) - 1) else 0) t).
Proof.
  intros WF PW LE ESC WORDS POS SEC H.
  destruct (@tertiary_answer sortf lf debug xl c WF PW EL LE ESC elements families layers secondary useGeo useMass limit over r WORDS POS SEC H) as (enh & EN & TE).
  exists enh. split; [exact EN|]. intros key i L t HT NE. destruct (TE key i L t HT NE) as [ST TT]. split; [exact (smsorted_NoDup ST)|exact TT].
Qed.

(** The escape peaks of a line take their share of it. *)
Theorem C59_escape r key i L t esc e u : well_formed xl -> escape_names xl (c_detector c) -> (1 < secondary)%Z ->
  calculate elements families layers secondary useGeo useMass limit over = Ok r ->
  one_word L -> ~ escape_line L -> line_entry r key i L = Some t -> escape_peaks xl (c_detector c) (field t "energy") = Ok esc -> In e esc ->
  line_entry r key i (L ++ " " ++ fst e) = Some u -> field u "tertiary" = peak_rate e * field t "tertiary".
Proof. intros WF ESC SEC H. exact (@tertiary_escape sortf lf debug xl c WF ESC elements families layers secondary useGeo useMass limit over r key i L t esc e u SEC H). Qed.

(** Between nothing and the largest enhancement times the secondary part. *)
Theorem C59_bounds EL r K : well_formed xl -> pointwise xl -> line_energies xl EL -> escape_names xl (c_detector c) ->
  (forall e, In e elements -> one_word e) -> (forall n, (n < length elements)%nat -> 0 <= threshold xl elements families n) -> (1 < secondary)%Z ->
  calculate elements families layers secondary useGeo useMass limit over = Ok r ->
  1 <= K -> (forall key i L u, line_entry r key i L = Some u -> ~ escape_line L -> enhancement u <= K) ->
  forall key i L t, one_word L -> ~ escape_line L -> line_entry r key i L = Some t ->
  (forall name, has_space name = true -> 0 <= field t name) -> 0 <= field t "tertiary" <= (K - 1) * field t "secondary".
Proof.
  intros WF PW LE ESC WORDS POS SEC H K1 KM key i L t OW NE HT NN.
  destruct (@tertiary_answer sortf lf debug xl c WF PW EL LE ESC elements families layers secondary useGeo useMass limit over r WORDS POS SEC H) as (enh & EN & TE).
  destruct (TE key i L t HT NE) as [ST TT]. rewrite TT.
  assert (B : forall name, 0 <= enh name - 1 <= K - 1).
  { intros name. destruct (EN name) as [(k & j & l & u & (C1 & C2 & _ & _ & C) & -> & _)|[_ ->]]; [|lra]. specialize (KM k j l u C1 C2). lra. }
  assert (SE : field t "secondary" = contributions t).
  { apply (C38_secondary sortf debug lf xl c elements families layers secondary useGeo useMass limit over r key i L t WF); try assumption.
    intros _. split; [exact ESC|]. apply isEscape_false in NE. exact NE. }
  assert (NV : forall nv, In nv t -> has_space (fst nv) = true -> 0 <= snd nv).
  { intros [f v] I HS. apply (smfind_In f v ST) in I. specialize (NN f HS). unfold field in NN. toR. rewrite I in NN. exact NN. }
  rewrite SE. assert (CN : 0 <= contributions t).
  { unfold contributions. apply Rsum_map_nonneg. intros nv I. apply filter_In in I. apply NV; apply I. }
  destruct (Rltb (enhancement t) (101 / 100)).
  { split; [lra|]. apply Rmult_le_pos; [lra|exact CN]. }
  split.
  - apply Rsum_map_nonneg. intros nv I. destruct (has_space (fst nv)) eqn:HS; [|lra]. apply Rmult_le_pos; [exact (NV nv I HS)|apply B].
  - unfold contributions. clear -NV B. toR. induction t as [|nv t IH]; cbn [map filter Rsum]; [cbn; lra|].
    assert (IH' : Rsum (map (fun nv => if has_space (fst nv) then snd nv * (enh (fst nv) - 1) else 0) t) <= (K - 1) * Rsum (map snd (filter (fun kv => has_space (fst kv)) t))) by (apply IH; intros; apply NV; [right|]; assumption). toR.
    destruct (has_space (fst nv)) eqn:HS; cbn [map]; [|cbn; lra]. pose proof (NV nv (or_introl eq_refl) HS) as V. specialize (B (fst nv)).
    assert (snd nv * (enh (fst nv) - 1) <= snd nv * (K - 1)) by (apply Rmult_le_compat_l; lra). cbn. lra.
Qed.
End Tertiary.
Print Assumptions C59_tertiary.
Print Assumptions C59_escape.
Print Assumptions C59_bounds.

(** The same with the class Elements, after an arbitrary history of calls, as the library. *)
Theorem C59_library (tostr : R -> string) (depth fuel : nat) (lf : bool) (ops : list (@es_op RNum)) (sortf : list (string * R) -> list (string * R))
  (sortr : list R -> list R) (debug lfd : bool) (c : @config RNum) elements families layers secondary useGeo useMass limit over r :
  let es := es_run tostr depth fuel lf elements_empty ops in let xl := @xlib_of RNum tostr depth fuel sortf es in
  plain_library es -> 0 <= d_thrI (c_detector c) -> (forall e, In e elements -> one_word e) -> (1 < secondary)%Z ->
  @getMultilayerFluorescence RNum sortr debug lfd xl c elements families layers secondary useGeo useMass limit over = Ok r ->
  exists enh, enhancements r enh /\ forall key i L t, line_entry r key i L = Some t -> ~ escape_line L ->
    NoDup (map fst t) /\
    field t "tertiary" = if Rltb (enhancement t) (101 / 100) then 0
                         else Rsum (map (fun nv => if has_space (fst nv) then snd nv * (enh (fst nv) - 1) else 0) t).
Proof.
  intros es xl PL TI WORDS SEC H.
  exact (C59_tertiary sortr debug lfd xl c elements families layers secondary useGeo useMass limit over (line_energy_in es) r
    (library_well_formed _ _ _ _ PL) (library_pointwise _ _ _ _ _) (library_line_energies _ _ _ _ PL) (library_escape_names _ _ _ _ PL _ TI) WORDS
    (fun n _ => thresholds_nonneg tostr depth fuel lf ops sortf elements families n PL) SEC H).
Qed.
Print Assumptions C59_library.

(** A thick iron sample with lines above its own edge: all three parts are positive. *)
Theorem C59_example sortf lf debug :
  well_formed hot /\ pointwise hot /\ line_energies hot hot_energy /\ escape_names hot (c_detector hot_config) /\
  exists r t, @getMultilayerFluorescence RNum sortf debug lf hot hot_config ["Fe"] ["K"] [0%Z] 2 1 0 0 beam_init = Ok r /\
    line_entry r "Fe K" 0 "KL3" = Some t /\ 0 < field t "primary" /\ 0 < field t "secondary" /\ 0 < field t "tertiary".
Proof.
  split; [exact hot_well_formed|]. split; [exact hot_pointwise|]. split; [exact hot_line_energies|]. split; [exact hot_escape_names|].
  exact (hot_answer sortf lf debug).
Qed.
Print Assumptions C59_example.
