(** C56: the configuration is what was set last; energy thresholds.
    C57: layers seen through the configuration. *)
From Coq Require Import String List ZArith Reals Bool Lia Lra.
From Verif Require Import Base.Num Base.Res Base.RSum Base.SMap Base.Str Base.ListLemmas Model.Beam Model.Material Model.TransmissionTable Model.Shell Model.Element
  Model.Elements Model.Layer Model.XRF Model.XRFLibrary
  Spec.BeamSpec Spec.XRFSpec Spec.ShellSpec Spec.LayerSpec Proofs.BeamProofs Properties.BeamProps.
Import ListNotations.
Local Open Scope string_scope.

(** ** C56 The configuration is what was set last *)
(** After every history of calls, in any arithmetic: each member is the argument of the last call
    that sets it (the angles and the detector have defaults), a negative scattering angle
    standing for the sum of the two angles; no other call changes it, and a refused sample neither. *)
Theorem C56_last_call_wins (N : Num) (ops : list (@xrf_op N)) :
  let c := xrf_run ops in
  c_beam c = last_set sets_beam beam_init ops /\
  (c_alphaIn c, c_alphaOut c, c_scattering c) = last_set sets_geometry (nlit 45 0, nlit 45 0, nadd (nlit 45 0) (nlit 45 0)) ops /\
  c_filters c = last_set sets_filters [] ops /\ c_userFilters c = last_set sets_user_filters [] ops /\
  (c_sample c, c_reference c) = last_set sets_sample ([], None) ops /\
  c_attenuators c = last_set sets_attenuators [] ops /\ c_userAttenuators c = last_set sets_user_attenuators [] ops /\
  c_detector c = last_set sets_detector (detector_new "" n0 n0 n1) ops /\
  c_materials c = [].
Proof.
  cbv zeta. unfold xrf_run.
  assert (G : forall l c, let c' := fold_left (fun c o => fst (xrf_call c o)) l c in
    c_beam c' = last_set sets_beam (c_beam c) l /\
    (c_alphaIn c', c_alphaOut c', c_scattering c') = last_set sets_geometry (c_alphaIn c, c_alphaOut c, c_scattering c) l /\
    c_filters c' = last_set sets_filters (c_filters c) l /\ c_userFilters c' = last_set sets_user_filters (c_userFilters c) l /\
    (c_sample c', c_reference c') = last_set sets_sample (c_sample c, c_reference c) l /\
    c_attenuators c' = last_set sets_attenuators (c_attenuators c) l /\ c_userAttenuators c' = last_set sets_user_attenuators (c_userAttenuators c) l /\
    c_detector c' = last_set sets_detector (c_detector c) l /\ c_materials c' = c_materials c).
  { induction l as [|o l IH]; intros c; cbn [fold_left last_set]; [repeat split; reflexivity|].
    specialize (IH (fst (xrf_call c o))). cbv zeta in *.
    destruct o; cbn [xrf_call fst sets_beam sets_geometry sets_filters sets_user_filters sets_sample sets_attenuators sets_user_attenuators sets_detector] in *; try exact IH.
    - unfold setGeometry in *. destruct (nltb scattering n0); exact IH.
    - unfold xrf_setBeam_vectors, xrf_setBeam_result in *.
      change (setBeam sortf beam_init energy weight char div) with (setBeam sortf (c_beam c) energy weight char div).
      destruct (setBeam sortf (c_beam c) energy weight char div); exact IH.
    - unfold xrf_setSingleEnergyBeam, xrf_setBeam_result in *.
      change (setSingleEnergyBeam sortf beam_init energy div) with (setSingleEnergyBeam sortf (c_beam c) energy div).
      destruct (setSingleEnergyBeam sortf (c_beam c) energy div); exact IH.
    - unfold setSample in *. destruct (Z.leb_spec (Z.of_nat (length l0)) reference) as [L|L]; destruct (Z.ltb_spec reference (Z.of_nat (length l0))) as [L'|L']; try lia; exact IH. }
  exact (G ops config_new).
Qed.
(** The answer of a call: only a sample can be refused; nothing else fails, except that a beam
    given by vectors can be undefined (C02). *)
Theorem C56_answers (N : Num) (c : @config N) (o : xrf_op) :
  match o with
  | XSample l r => snd (xrf_call c o) = (if (r <? Z.of_nat (length l))%Z then Ok tt else Throw InvalidArgument)
  | XBeamVectors sortf e w f d => snd (xrf_call c o) = rmap (fun _ => tt) (setBeam sortf beam_init e w f d)
  | XSingleEnergy sortf e d => snd (xrf_call c o) = rmap (fun _ => tt) (setSingleEnergyBeam sortf beam_init e d)
  | _ => snd (xrf_call c o) = Ok tt
  end.
Proof.
  destruct o; cbn [xrf_call snd]; try reflexivity.
  - unfold xrf_setBeam_vectors, xrf_setBeam_result. change (setBeam sortf beam_init energy weight char div) with (setBeam sortf (c_beam c) energy weight char div).
    destruct (setBeam _ _ _ _ _ _); reflexivity.
  - unfold xrf_setSingleEnergyBeam, xrf_setBeam_result. change (setSingleEnergyBeam sortf beam_init energy div) with (setSingleEnergyBeam sortf (c_beam c) energy div).
    destruct (setSingleEnergyBeam _ _ _ _); reflexivity.
  - unfold setSample. destruct (Z.leb_spec (Z.of_nat (length l)) reference); destruct (Z.ltb_spec reference (Z.of_nat (length l))); try lia; reflexivity.
Qed.

Local Existing Instance RNum.
Local Open Scope R_scope.
Ltac toR := change (@num RNum) with R in *.
(** The threshold of a family: of "K" and of a subshell (any name of two characters) its own
    binding energy, 0 without one; of "L" and "M" the binding energy of the outermost subshell
    that has one; of any other name 0. It fails exactly as getBindingEnergies does. *)
Theorem C56_threshold (xl : @xlib RNum) (name family : string) :
  match x_binding xl name with
  | Ok b => exists t, getEnergyThreshold xl name family = Ok t /\
      (family = "K" \/ String.length family = 2%nat -> t = value_or_0 family b) /\
      (family = "L" \/ family = "M" -> (forall q, 0 <= value_or_0 q b) -> first_edge (fun s => value_or_0 s b) (subshells family) t) /\
      (family <> "K" -> family <> "L" -> family <> "M" -> String.length family <> 2%nat -> t = 0)
  | r => getEnergyThreshold xl name family = rmap (fun _ => 0) r
  end.
Proof.
  unfold getEnergyThreshold. destruct (x_binding xl name) as [b| | |]; try reflexivity. cbn [rbind].
  eexists. split; [reflexivity|]. change (@val0 RNum b) with (fun k => value_or_0 k b). cbn beta.
  split; [|split].
  - intros [->|L]; [reflexivity|]. rewrite L. rewrite orb_true_r. reflexivity.
  - intros [->| ->] POS; cbn [String.eqb Ascii.eqb Bool.eqb orb String.length Nat.eqb]; rnorm; unfold first_edge; cbn [subshells String.eqb Ascii.eqb Bool.eqb].
    + destruct (Rltb_spec 0 (value_or_0 "L3" b)); [left; exists [], "L3", ["L2"; "L1"]; repeat split; [intros q []|lra]|].
      destruct (Rltb_spec 0 (value_or_0 "L2" b)); [left; exists ["L3"], "L2", ["L1"]; repeat split; [intros q [<-|[]]; lra|lra]|].
      destruct (Rlt_dec 0 (value_or_0 "L1" b)); [left; exists ["L3"; "L2"], "L1", []; repeat split; [intros q [<-|[<-|[]]]; lra|lra]|].
      right. split; [intros q [<-|[<-|[<-|[]]]]; lra|pose proof (POS "L1"); lra].
    + destruct (Rltb_spec 0 (value_or_0 "M5" b)); [left; exists [], "M5", ["M4"; "M3"; "M2"; "M1"]; repeat split; [intros q []|lra]|].
      destruct (Rltb_spec 0 (value_or_0 "M4" b)); [left; exists ["M5"], "M4", ["M3"; "M2"; "M1"]; repeat split; [intros q [<-|[]]; lra|lra]|].
      destruct (Rltb_spec 0 (value_or_0 "M3" b)); [left; exists ["M5"; "M4"], "M3", ["M2"; "M1"]; repeat split; [intros q [<-|[<-|[]]]; lra|lra]|].
      destruct (Rltb_spec 0 (value_or_0 "M2" b)); [left; exists ["M5"; "M4"; "M3"], "M2", ["M1"]; repeat split; [intros q [<-|[<-|[<-|[]]]]; lra|lra]|].
      destruct (Rlt_dec 0 (value_or_0 "M1" b)); [left; exists ["M5"; "M4"; "M3"; "M2"], "M1", []; repeat split; [intros q [<-|[<-|[<-|[<-|[]]]]]; lra|lra]|].
      right. split; [intros q [<-|[<-|[<-|[<-|[<-|[]]]]]]; lra|pose proof (POS "M1"); lra].
  - intros NK NL NM N2. apply String.eqb_neq in NK, NL, NM. apply Nat.eqb_neq in N2. rewrite NK, NL, NM, N2. reflexivity.
Qed.
(** With edges ordered as in atoms (inner subshells bound more strongly), the threshold is the
    lowest edge of the family: no photon below it excites any of the subshells, and a photon above
    it excites one. *)
Theorem C56_threshold_is_lowest_edge (binding : string -> R) (shells : list string) (t : R) :
  first_edge binding shells t -> t > 0 ->
  (forall before q s after, shells = (before ++ q :: after)%list -> In s after -> 0 < binding q -> 0 < binding s -> binding q <= binding s) ->
  (exists s, In s shells /\ binding s = t) /\ forall s, In s shells -> 0 < binding s -> t <= binding s.
Proof.
  intros [(before & s & after & -> & LOW & POS & ->)|[_ Z]] T ORD; [|lra].
  split; [exists s; split; [apply in_elt|reflexivity]|]. intros q I P.
  apply in_app_or in I. destruct I as [I|[<-|I]]; [specialize (LOW q I); lra|lra|]. exact (ORD before s q after eq_refl I POS P).
Qed.

(** hypotheses met: a history with a refused sample and a negative scattering angle *)
Example C56_history : list (@xrf_op RNum) :=
  [XGeometry 30 60 (-1); XSampleLayer (layer_new "Fe" 8 1 1); XSample [] 0; XSingleEnergy (isort (@ray_ltb RNum)) 10 0; XFilters [layer_new "Al" 2 1 1]].
Example C56_case :
  let c := xrf_run C56_history in
  (c_alphaIn c, c_alphaOut c, c_scattering c) = (30, 60, 90) /\ c_sample c = [layer_new "Fe" 8 1 1] /\ c_filters c = [layer_new "Al" 2 1 1] /\
  getBeamAsDoubleVectors (c_beam c) = [[10]; [1]; [1]; [0]].
Proof.
  destruct (C56_last_call_wins _ C56_history) as (B & G & F & _ & S & _). cbv zeta. split.
  { rewrite G. cbn [C56_history last_set sets_geometry]. change (@nltb RNum) with Rltb. change (@n0 RNum) with 0. change (@nadd RNum) with Rplus.
    destruct (Rltb_spec (-1) 0); [|lra]. repeat f_equal. lra. }
  split; [exact (f_equal fst S)|]. split; [exact F|]. rewrite B. cbn [C56_history last_set sets_beam].
  destruct (C01_single_energy _ (isort_contract (@ray_ltb RNum)) beam_init 10 0) as (b & HB & V). toR. rewrite HB. exact V.
Qed.
Example C56_edges : exists t, first_edge (fun s => value_or_0 s [("K", 7); ("L1", 3 / 4); ("L2", 1 / 2)]) (subshells "L") t /\ t = 1 / 2.
Proof.
  exists (1 / 2). split; [|reflexivity]. left. exists ["L3"], "L2", ["L1"]. split; [reflexivity|]. split; [intros q [<-|[]]; cbn; lra|]. cbn. split; lra.
Qed.

Print Assumptions C56_last_call_wins.
Print Assumptions C56_answers.
Print Assumptions C56_threshold.
Print Assumptions C56_threshold_is_lowest_edge.
