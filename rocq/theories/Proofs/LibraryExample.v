(** A small library built through the class Elements, and a configuration, that meet the hypotheses of C53. *)
From Coq Require Import Ascii String List ZArith Reals Bool Arith Lia Lra Permutation.
From Verif Require Import Base.Num Base.Res Base.RSum Base.SMap Base.Str Base.ListLemmas Model.Beam Model.Material Model.TransmissionTable
  Model.Math Model.Shell Model.Element Model.Formula Model.Elements Model.Layer Model.XRF Model.Multilayer Model.XRFLibrary Spec.ShellSpec Spec.ElementSpec
  Spec.MaterialSpec Spec.BeamSpec Spec.ElementsSpec Spec.MultilayerSpec Spec.LibrarySpec Proofs.LayerProofs Proofs.ElementProofs Proofs.ElementProofs7 Proofs.LibraryProofs2 Proofs.LibraryProofs3 Properties.ElementProps.
Import ListNotations.
Local Open Scope string_scope.
Local Open Scope R_scope.
Local Existing Instance RNum.
Local Ltac toR := change (@num RNum) with R in *.

(** ** Iron with one edge at 7.1 keV and the lines KL3 and KM3; all the coefficients are constant *)
Definition fe_grid : list R := [8; 100].
Definition fe_ones : list R := [1; 1].
Definition fe0 : @element RNum := match element_new "Fe" 26 with Ok e => e | _ => element_default end.
Definition fe_ops : list (@el_op RNum) :=
  [ESetMass 56; ESetBinding [("K", 71 / 10)]; ESetMu fe_grid fe_ones fe_ones fe_ones [];
   ESetPartial "K" fe_grid fe_ones; ESetPartial "L1" fe_grid fe_ones; ESetPartial "L2" fe_grid fe_ones; ESetPartial "L3" fe_grid fe_ones;
   ESetPartial "M1" fe_grid fe_ones; ESetPartial "M2" fe_grid fe_ones; ESetPartial "M3" fe_grid fe_ones; ESetPartial "M4" fe_grid fe_ones;
   ESetPartial "M5" fe_grid fe_ones; ESetPartial "all other" fe_grid fe_ones;
   ESetRadVec "K" ["KL3"; "KM3"] [8 / 10; 2 / 10]; ESetConst "K" [("omega", 1 / 3)]].
Definition fe : @element RNum := el_run false fe0 fe_ops.

Definition fe_shell : @shell RNum :=
  fst (sh_step (fst (sh_step (match shell_new "K" with Ok s => s | _ => mkShell "" 0 0 [] [] [] [] [] [] end) (SRadVec ["KL3"; "KM3"] [8 / 10; 2 / 10]))) (SConst [("omega", 1 / 3)])).
Definition fe_binding : list (string * R) := [("K", 71 / 10); ("L1", 0); ("L2", 0); ("L3", 0); ("M1", 0); ("M2", 0); ("M3", 0); ("M4", 0); ("M5", 0)].
Definition fe_explicit : @element RNum :=
  @mkElement RNum "Fe" "Fe" 26 (Some 56) 1 (-1)%Z (-1)%Z fe_binding [("K", fe_shell)]
    [("coherent", fe_ones); ("compton", fe_ones); ("energy", fe_grid); ("pair", [0; 0]); ("photoelectric", fe_ones); ("total", zip_total fe_ones fe_ones [0; 0] fe_ones)] fe_grid
    (map (fun k => (k, fe_grid)) ["K"; "L1"; "L2"; "L3"; "M1"; "M2"; "M3"; "M4"; "M5"; "all other"])
    (map (fun k => (k, fe_ones)) ["K"; "L1"; "L2"; "L3"; "M1"; "M2"; "M3"; "M4"; "M5"; "all other"]) false [] false [] [].

Lemma fe_mu_step (e : @element RNum) : setMassAttenuationCoefficients e fe_grid fe_ones fe_ones fe_ones [] =
  (with_mu (clearCache e) [("coherent", fe_ones); ("compton", fe_ones); ("energy", fe_grid); ("pair", [0; 0]); ("photoelectric", fe_ones); ("total", zip_total fe_ones fe_ones [0; 0] fe_ones)] fe_grid, Ok tt).
Proof.
  unfold setMassAttenuationCoefficients, fe_grid, fe_ones. cbn [length Nat.eqb negb Nat.ltb Nat.leb andb not_ascending]. rnorm.
  destruct (Rltb_spec 100 8); [lra|]. reflexivity.
Qed.
Lemma fe_partial (e : @element RNum) shell b : mmem sltb shell (el_ppE e) = true -> shell <> "all other" ->
  val0 (mtouch (el_binding e) shell) shell = b -> b <= 8 ->
  setPartialPhotoelectric e shell fe_grid fe_ones =
  (with_binding (with_pp (clearCache e) (mset sltb shell fe_grid (el_ppE e)) (mset sltb shell fe_ones (el_ppV e))) (mtouch (el_binding e) shell), Ok tt).
Proof.
  intros M NE HB LE. unfold setPartialPhotoelectric. toR. rewrite M. unfold fe_grid, fe_ones. cbn [length Nat.eqb negb Nat.ltb Nat.leb andb not_ascending]. rnorm.
  destruct (Rltb_spec 8 0); [lra|]. destruct (Rltb_spec 100 8); [lra|]. cbn [orb].
  destruct (String.eqb_spec shell "all other") as [Q|_]; [congruence|].
  cbn [combine el_binding clearCache with_cache]. cbn zeta. match goal with |- context [edgeFix ?x _ _ _] => change x with (val0 (mtouch (el_binding e) shell) shell); rewrite HB end. cbn [edgeFix]. rnorm. destruct (Rltb_spec 100 b); [lra|].
  destruct (Reqb_spec 100 8); [lra|]. reflexivity.
Qed.
Lemma fe_partial_other (e : @element RNum) : mmem sltb "all other" (el_ppE e) = true ->
  setPartialPhotoelectric e "all other" fe_grid fe_ones =
  (with_pp (clearCache e) (mset sltb "all other" fe_grid (el_ppE e)) (mset sltb "all other" fe_ones (el_ppV e)), Ok tt).
Proof.
  intros M. unfold setPartialPhotoelectric. toR. rewrite M. unfold fe_grid, fe_ones. cbn [length Nat.eqb negb Nat.ltb Nat.leb andb not_ascending]. rnorm.
  destruct (Rltb_spec 8 0); [lra|]. destruct (Rltb_spec 100 8); [lra|]. reflexivity.
Qed.
Lemma fe_guard (e : @element RNum) s : mfind sltb "K" (el_binding e) = Some (71 / 10) -> mfind sltb "K" (el_shells e) = Some s -> shellGuard e "K" = Ok s.
Proof. intros H1 H2. unfold shellGuard. rewrite H1, H2. rnorm. destruct (Rleb_spec (71 / 10) 0); [lra|reflexivity]. Qed.

Lemma fe_cons (e e' : @element RNum) o r l x : el_call false e o = (e', r) -> el_run false e' l = x -> el_run false e (o :: l) = x.
Proof. intros H. cbn [el_run fold_left]. rewrite H. auto. Qed.
(** after [n] shells *)
Definition fe_names : list string := ["K"; "L1"; "L2"; "L3"; "M1"; "M2"; "M3"; "M4"; "M5"; "all other"].
Definition fe_tables : list (string * list R) :=
  [("coherent", fe_ones); ("compton", fe_ones); ("energy", fe_grid); ("pair", [0; 0]); ("photoelectric", fe_ones); ("total", zip_total fe_ones fe_ones [0; 0] fe_ones)].
Definition fe_partials (n : nat) (v : list R) : list (string * list R) := (map (fun k => (k, v)) (firstn n fe_names) ++ map (fun k => (k, [])) (skipn n fe_names))%list.
Definition fe_new_shell : @shell RNum := match shell_new "K" with Ok s => s | _ => mkShell "" 0 0 [] [] [] [] [] [] end.
Definition fe_state (n : nat) : @element RNum :=
  @mkElement RNum "Fe" "Fe" 26 (Some 56) 1 (-1)%Z (-1)%Z (firstn (Nat.max 1 (Nat.min 9 n)) fe_binding) [("K", fe_new_shell)] fe_tables fe_grid (fe_partials n fe_grid) (fe_partials n fe_ones) false [] false [] [].
Lemma fe_step n shell b : mmem sltb shell (el_ppE (fe_state n)) = true -> shell <> "all other" ->
  val0 (mtouch (el_binding (fe_state n)) shell) shell = b -> b <= 8 ->
  with_binding (with_pp (clearCache (fe_state n)) (mset sltb shell fe_grid (el_ppE (fe_state n))) (mset sltb shell fe_ones (el_ppV (fe_state n)))) (mtouch (el_binding (fe_state n)) shell) = fe_state (S n) ->
  el_call false (fe_state n) (ESetPartial shell fe_grid fe_ones) = (fe_state (S n), Ok tt).
Proof. intros M NE HB LE Q. rewrite <- Q. exact (fe_partial _ _ _ M NE HB LE). Qed.
Lemma fe_part0 : el_call false (fe_state 0) (ESetPartial "K" fe_grid fe_ones) = (fe_state 1, Ok tt).
Proof. apply (fe_step 0 "K" (71 / 10)); [reflexivity|discriminate|reflexivity|lra|reflexivity]. Qed.
Lemma fe_part1 : el_call false (fe_state 1) (ESetPartial "L1" fe_grid fe_ones) = (fe_state 2, Ok tt).
Proof. apply (fe_step 1 "L1" 0); [reflexivity|discriminate|reflexivity|lra|reflexivity]. Qed.
Lemma fe_part2 : el_call false (fe_state 2) (ESetPartial "L2" fe_grid fe_ones) = (fe_state 3, Ok tt).
Proof. apply (fe_step 2 "L2" 0); [reflexivity|discriminate|reflexivity|lra|reflexivity]. Qed.
Lemma fe_part3 : el_call false (fe_state 3) (ESetPartial "L3" fe_grid fe_ones) = (fe_state 4, Ok tt).
Proof. apply (fe_step 3 "L3" 0); [reflexivity|discriminate|reflexivity|lra|reflexivity]. Qed.
Lemma fe_part4 : el_call false (fe_state 4) (ESetPartial "M1" fe_grid fe_ones) = (fe_state 5, Ok tt).
Proof. apply (fe_step 4 "M1" 0); [reflexivity|discriminate|reflexivity|lra|reflexivity]. Qed.
Lemma fe_part5 : el_call false (fe_state 5) (ESetPartial "M2" fe_grid fe_ones) = (fe_state 6, Ok tt).
Proof. apply (fe_step 5 "M2" 0); [reflexivity|discriminate|reflexivity|lra|reflexivity]. Qed.
Lemma fe_part6 : el_call false (fe_state 6) (ESetPartial "M3" fe_grid fe_ones) = (fe_state 7, Ok tt).
Proof. apply (fe_step 6 "M3" 0); [reflexivity|discriminate|reflexivity|lra|reflexivity]. Qed.
Lemma fe_part7 : el_call false (fe_state 7) (ESetPartial "M4" fe_grid fe_ones) = (fe_state 8, Ok tt).
Proof. apply (fe_step 7 "M4" 0); [reflexivity|discriminate|reflexivity|lra|reflexivity]. Qed.
Lemma fe_part8 : el_call false (fe_state 8) (ESetPartial "M5" fe_grid fe_ones) = (fe_state 9, Ok tt).
Proof. apply (fe_step 8 "M5" 0); [reflexivity|discriminate|reflexivity|lra|reflexivity]. Qed.
Lemma fe_part9 : el_call false (fe_state 9) (ESetPartial "all other" fe_grid fe_ones) = (fe_state 10, Ok tt).
Proof. refine (eq_trans (fe_partial_other (fe_state 9) _) _); reflexivity. Qed.
Lemma fe_start : el_call false (fst (el_call false (with_info fe0 "Fe" "Fe" 26 (Some 56) 1 (-1)%Z (-1)%Z) (ESetBinding [("K", 71 / 10)]))) (ESetMu fe_grid fe_ones fe_ones fe_ones []) = (fe_state 0, Ok tt).
Proof. refine (eq_trans (fe_mu_step _) _). reflexivity. Qed.
Lemma fe_mass : el_call false fe0 (ESetMass 56) = (with_info fe0 "Fe" "Fe" 26 (Some 56) 1 (-1)%Z (-1)%Z, Ok tt).
Proof. cbn [el_call]. unfold setAtomicMass. rnorm. destruct (Rltb_spec 56 0); [lra|reflexivity]. Qed.
Lemma fe_rad : el_call false (fe_state 10) (ESetRadVec "K" ["KL3"; "KM3"] [8 / 10; 2 / 10]) =
  (with_shells (fe_state 10) [("K", fst (sh_step fe_new_shell (SRadVec ["KL3"; "KM3"] [8 / 10; 2 / 10])))], Ok tt).
Proof. cbn [el_call]. unfold setRadiativeTransitions_vec. rewrite (fe_guard (fe_state 10) fe_new_shell) by reflexivity. reflexivity. Qed.
Lemma fe_const : el_call false (with_shells (fe_state 10) [("K", fst (sh_step fe_new_shell (SRadVec ["KL3"; "KM3"] [8 / 10; 2 / 10])))]) (ESetConst "K" [("omega", 1 / 3)]) = (fe_explicit, Ok tt).
Proof. reflexivity. Qed.
Lemma fe_eq : fe = fe_explicit.
Proof.
  unfold fe, fe_ops. eapply fe_cons; [exact fe_mass|]. eapply fe_cons; [apply surjective_pairing|]. eapply fe_cons; [exact fe_start|].
  eapply fe_cons; [exact fe_part0|]. eapply fe_cons; [exact fe_part1|]. eapply fe_cons; [exact fe_part2|]. eapply fe_cons; [exact fe_part3|].
  eapply fe_cons; [exact fe_part4|]. eapply fe_cons; [exact fe_part5|]. eapply fe_cons; [exact fe_part6|]. eapply fe_cons; [exact fe_part7|].
  eapply fe_cons; [exact fe_part8|]. eapply fe_cons; [exact fe_part9|]. eapply fe_cons; [exact fe_rad|]. eapply fe_cons; [exact fe_const|]. reflexivity.
Qed.

(** ** Its coefficients *)
Lemma fe_bracket (E : R) : bracket fe_grid E = Ok (0%Z, 1%Z, 8, 100).
Proof.
  unfold bracket, getInterpolationIndices, fe_grid. cbn [lower_bound]. rnorm.
  destruct (Rltb_spec 8 E); [|cbn; change (Pos.to_nat 1) with 1%nat; cbn; change (next_equal [8; 100] 1 100) with false; rewrite andb_false_r; reflexivity].
  destruct (Rltb_spec 100 E); cbn; change (Pos.to_nat 1) with 1%nat; cbn; change (next_equal [8; 100] 1 100) with false; rewrite andb_false_r; reflexivity.
Qed.
Lemma fe_loglog (E x0 x1 : R) : loglog E x0 x1 1 1 = 1.
Proof. unfold loglog. rnorm. rewrite ln_1, !Rmult_0_r, Rplus_0_r. apply exp_0. Qed.
Lemma fe_gap : Rltb (100 - 8) (Rlit 5 (-10)) = false.
Proof. apply Rltb_false. unfold Rlit. simpl. lra. Qed.
Lemma fe_other b (E : R) : otherValue b fe_grid fe_ones E = Ok 1.
Proof.
  unfold otherValue. toR. rewrite fe_bracket. cbn [rbind Z.eqb orb]. change (@nlit RNum 5 (-10)) with (Rlit 5 (-10)). rnorm. toR. rewrite fe_gap. unfold fe_ones. change (@zget R [0; 0] 0) with (Ok 0); change (@zget R [0; 0] 1) with (Ok 0); change (@zget R [1; 1] 0) with (Ok 1); change (@zget R [1; 1] 1) with (Ok 1). cbn [rbind].
  destruct (Rltb_spec 0 1); [|lra]. cbn [andb]. rewrite fe_loglog. reflexivity.
Qed.
Lemma fe_zeros b (E : R) : otherValue b fe_grid [0; 0] E = Ok 0.
Proof.
  unfold otherValue. toR. rewrite fe_bracket. cbn [rbind Z.eqb orb]. change (@nlit RNum 5 (-10)) with (Rlit 5 (-10)). rnorm. toR. rewrite fe_gap. change (@zget R [0; 0] 0) with (Ok 0); change (@zget R [0; 0] 1) with (Ok 0); change (@zget R [1; 1] 0) with (Ok 1); change (@zget R [1; 1] 1) with (Ok 1). cbn [rbind].
  destruct (Rltb_spec 0 0); [lra|]. reflexivity.
Qed.
Lemma fe_shellValue (E : R) : partialShell fe_grid fe_ones E = Ok 1.
Proof.
  unfold partialShell. toR. rewrite fe_bracket. cbn [rbind Z.eqb orb]. change (@nlit RNum 5 (-10)) with (Rlit 5 (-10)). rnorm. toR. rewrite fe_gap. unfold fe_ones. change (@zget R [0; 0] 0) with (Ok 0); change (@zget R [0; 0] 1) with (Ok 0); change (@zget R [1; 1] 0) with (Ok 1); change (@zget R [1; 1] 1) with (Ok 1). cbn [rbind].
  destruct (Rltb_spec 0 1); [|lra]. rewrite fe_loglog. reflexivity.
Qed.
Definition fe_K (E : R) : R := if Rltb E (71 / 10) then 0 else 1.
Lemma fe_partialValue (E : R) s : In s fe_names ->
  partialValue fe_explicit E s = Ok (if String.eqb s "K" then fe_K E else if String.eqb s "all other" then 1 else 0).
Proof.
  intros I. unfold partialValue. cbn [el_ppE el_ppV el_binding fe_explicit].
  assert (Z : Reqb 0 0 = true) by (apply Reqb_true; reflexivity).
  repeat (destruct I as [<-|I]; [cbn [String.eqb Ascii.eqb Bool.eqb]|]); [| | | | | | | | | |destruct I].
  1:{ change (mfind sltb "K" fe_binding) with (Some (71 / 10)). cbn [of_opt rbind]. rnorm. unfold fe_K.
      destruct (Reqb_spec (71 / 10) 0); [lra|]. cbn [orb]. destruct (Rltb E (71 / 10)); [reflexivity|].
      cbn. toR. rewrite fe_shellValue. reflexivity. }
  9:{ cbn. toR. rewrite fe_other. reflexivity. }
  all: cbn; rewrite Z; reflexivity.
Qed.
Lemma fe_computeMu (E : R) : exists t, computeMu fe_explicit E = Ok t /\ field t "K" = fe_K E /\ field t "photoelectric" = fe_K E + 1 /\ field t "total" = fe_K E + 3 /\
  (forall s, In s ["L1"; "L2"; "L3"; "M1"; "M2"; "M3"; "M4"; "M5"] -> field t s = 0) /\ field t "all other" = 1.
Proof.
  set (val := fun s => if String.eqb s "K" then fe_K E else if String.eqb s "all other" then 1 else 0).
  assert (P : getPartialPhotoelectric fe_explicit E = Ok (mset_all sltb (map (fun s => (s, val s)) fe_names) [])).
  { unfold getPartialPhotoelectric. change photoShells with fe_names.
    assert (G : forall l, incl l fe_names -> rmapM (fun s => rbind (partialValue fe_explicit E s) (fun v => Ok (s, v))) l = Ok (map (fun s => (s, val s)) l)).
    { induction l as [|s l IH]; intros IN; cbn [rmapM map]; [reflexivity|]. toR. rewrite fe_partialValue by (apply IN; left; reflexivity). cbn [rbind].
      toR. rewrite IH by (intros x Ix; apply IN; right; exact Ix). reflexivity. }
    toR. rewrite G by apply incl_refl. reflexivity. }
  assert (S : rmapM (fun k => rbind (vlookup k (el_mu fe_explicit)) (fun y => rbind (otherValue true (el_muE fe_explicit) y E) (fun v => Ok (k, v)))) ["coherent"; "compton"; "pair"]
            = Ok [("coherent", 1); ("compton", 1); ("pair", 0)]).
  { unfold vlookup. cbn [rmapM].
    change (mfind sltb "coherent" (el_mu fe_explicit)) with (Some fe_ones). change (mfind sltb "compton" (el_mu fe_explicit)) with (Some fe_ones).
    change (mfind sltb "pair" (el_mu fe_explicit)) with (Some [0; 0]). change (el_muE fe_explicit) with fe_grid. cbn [of_opt rbind].
    toR. rewrite !fe_other, fe_zeros. reflexivity. }
  assert (X : exists t, computeMu fe_explicit E = Ok t).
  { unfold computeMu. change (existsb (fun kv => Nat.ltb 0 (length (snd kv))) (el_ppE fe_explicit)) with true. cbn iota.
    refine (ex_intro _ _ (eq_trans (f_equal (fun z => rbind z _) P) _)). cbn [rbind].
    refine (eq_trans (f_equal (fun z => rbind z _) S) _). cbn [rbind]. cbn [nfinite RNum]. reflexivity. }
  destruct X as [t H]. exists t. split; [exact H|]. apply computeMu_spec in H. destruct H as (_ & (part & HP & PV) & SC & _ & PH & TT & _).
  change (existsb (fun kv => Nat.ltb 0 (length (snd kv))) (el_ppE fe_explicit)) with true in HP. cbn iota in HP.
  assert (Q : part = mset_all sltb (map (fun s => (s, val s)) fe_names) []) by (apply Ok_inj; rewrite <- HP; exact P). clear HP P S.
  assert (OP : forall (o : option R) x, o = Some x -> match o with Some v => v | None => 0 end = x) by (intros ? ? ->; reflexivity).
  assert (FS : forall k (x : R), mfind sltb k t = Some x -> field t k = x) by (intros k x Hx; exact (OP _ _ Hx)).
  assert (V : forall k, In k fe_names -> field t k = val k).
  { intros k Ik. rewrite (FS _ _ (PV k Ik)). rewrite Q. clear - Ik. repeat (destruct Ik as [<-|Ik]; [reflexivity|]). destruct Ik. }
  assert (C1 : field t "coherent" = 1).
  { destruct (SC "coherent") as (y & v & Y & Ov & M); [left; reflexivity|]. rewrite (FS _ _ M). unfold vlookup in Y. change (mfind sltb "coherent" (el_mu fe_explicit)) with (Some fe_ones) in Y.
    apply Ok_inj in Y. subst y. exact (Ok_inj (eq_trans (eq_sym Ov) (fe_other _ _))). }
  assert (C2 : field t "compton" = 1).
  { destruct (SC "compton") as (y & v & Y & Ov & M); [right; left; reflexivity|]. rewrite (FS _ _ M). unfold vlookup in Y. change (mfind sltb "compton" (el_mu fe_explicit)) with (Some fe_ones) in Y.
    apply Ok_inj in Y. subst y. exact (Ok_inj (eq_trans (eq_sym Ov) (fe_other _ _))). }
  assert (C3 : field t "pair" = 0).
  { destruct (SC "pair") as (y & v & Y & Ov & M); [right; right; left; reflexivity|]. rewrite (FS _ _ M). unfold vlookup in Y. change (mfind sltb "pair" (el_mu fe_explicit)) with (Some [0; 0]) in Y.
    apply Ok_inj in Y. subst y. exact (Ok_inj (eq_trans (eq_sym Ov) (fe_zeros _ _))). }
  assert (PHV : field t "photoelectric" = fe_K E + 1).
  { rewrite (FS _ _ PH). change (@val0 RNum t) with (field t). rewrite !V by (cbn; tauto). rnorm. unfold val. cbn [String.eqb Ascii.eqb Bool.eqb]. toR. lra. }
  split; [apply V; left; reflexivity|]. split; [exact PHV|]. split.
  { rewrite (FS _ _ TT). change (@val0 RNum t) with (field t). rewrite PHV, C1, C2, C3. rnorm. toR. lra. }
  split; [|apply V; cbn; tauto]. intros s I. rewrite V by (cbn in I |- *; tauto). repeat (destruct I as [<-|I]; [reflexivity|]). destruct I.
Qed.
Lemma fe_mu (E : R) : exists t, Element.getMassAttenuationCoefficients fe_explicit E = Ok t /\ field t "K" = fe_K E /\ field t "photoelectric" = fe_K E + 1 /\ field t "total" = fe_K E + 3 /\
  (forall s, In s ["L1"; "L2"; "L3"; "M1"; "M2"; "M3"; "M4"; "M5"] -> field t s = 0) /\ field t "all other" = 1.
Proof. exact (fe_computeMu E). Qed.

(** ** Its lines *)
Lemma fe_ratios : exists T, 0 < T /\ Shell.getFluorescenceRatios fe_shell = [("KL3", 8 / 10 / T); ("KM3", 2 / 10 / T)].
Proof.
  change (Shell.getFluorescenceRatios fe_shell) with (sh_fluo (updateFluorescenceRatios (with_rad fe_new_shell [("KL3", 8 / 10); ("KM3", 2 / 10)]))).
  unfold updateFluorescenceRatios. cbn [sh_rad with_rad]. cbn [filter map snd fst]. rnorm.
  change (not_total ("KL3", 8 / 10)) with true. change (not_total ("KM3", 2 / 10)) with true. cbn [map snd andb].
  destruct (Rltb_spec 0 (8 / 10)); [|lra]. destruct (Rltb_spec 0 (2 / 10)); [|lra]. cbn [andb].
  exists (0 + 8 / 10 + 2 / 10). split; [lra|reflexivity].
Qed.
Lemma fe_lines (P : string * R -> Prop) : (forall x, 0 < x -> P ("KL3", x)) -> (forall x, 0 < x -> P ("KM3", x)) -> Forall P (Shell.getFluorescenceRatios fe_shell).
Proof.
  intros A B. destruct fe_ratios as (T & PT & Q). toR. rewrite Q. constructor; [apply A|constructor; [apply B|constructor]]; apply Rdiv_lt_0_compat; lra.
Qed.
Lemma fe_nonrad (s : @shell RNum) : Shell.getNonradiativeTransitions s = [] -> nonrad_ok (Shell.getNonradiativeTransitions s).
Proof. intros ->. split; [constructor|]. split; [intros T H; discriminate|constructor]. Qed.
Lemma fe_good : good_shells fe_explicit.
Proof.
  split; [reflexivity|]. constructor; [|constructor]. split; [|split].
  - unfold fe_shell. cbn [snd fst]. apply physical_step; [apply physical_step; [apply physical_new; reflexivity| |apply fe_nonrad; reflexivity]|exact I|apply fe_nonrad; reflexivity].
    cbn. repeat (constructor; [lra|]); constructor.
  - change (Forall (fun kv => 0 <= snd kv) [("omega", 1 / 3)]). constructor; [cbn; lra|constructor].
  - change (total_of [("omega", 1 / 3)] <= 1). unfold total_of. cbn. lra.
Qed.
Lemma fe_labels : own_labels fe_explicit.
Proof. constructor; [|constructor]. apply fe_lines; intros x _; cbn [fst]; [exists "L3"|exists "M3"]; reflexivity. Qed.
Lemma fe_nonneg : nonneg_dist (getBindingEnergies fe_explicit).
Proof. change (nonneg_dist fe_binding). repeat (constructor; [cbn; lra|]); constructor. Qed.
Lemma fe_energies : line_energies_defined fe_explicit.
Proof.
  split; [|exact fe_nonneg]. constructor; [|constructor]. split; [cbn; lra|]. apply fe_lines; intros x _; cbn; lia.
Qed.
Lemma fe_plain : plain_element fe_explicit.
Proof.
  constructor; [reflexivity|reflexivity|exact fe_nonneg|exact fe_labels|]. constructor; [|constructor]. apply fe_lines; intros x _; reflexivity.
Qed.
Lemma fe_K_range (E : R) : 0 <= fe_K E <= 1.
Proof. unfold fe_K. destruct (Rltb _ _); lra. Qed.
Lemma fe_photo (E : R) t k : Element.getMassAttenuationCoefficients fe_explicit E = Ok t -> In k photo_names -> 0 <= field t k.
Proof.
  intros H I. destruct (fe_mu E) as (t' & H' & A & B & C0 & D & F). assert (t' = t) by (apply Ok_inj; rewrite <- H, <- H'; reflexivity). subst t'.
  pose proof (fe_K_range E).
  destruct I as [<-|I]; [rewrite A; lra|]. repeat (destruct I as [<-|I]; [try (rewrite D by (cbn; tauto); lra); try (rewrite F; lra)|]). destruct I.
Qed.
Lemma fe_complete : complete_element fe_explicit.
Proof.
  constructor.
  - intros E. destruct (fe_mu E) as (t & HT & _ & _ & TT & _). exists t. split; [exact HT|]. rewrite TT. pose proof (fe_K_range E). lra.
  - intros E w. destruct (fe_mu E) as (t & HT & _).
    destruct (excitation_rates fe_explicit E w t fe_good fe_labels fe_energies eq_refl eq_refl HT (fun k => fe_photo E t k HT)) as (l & _ & _ & HL & _). eauto.
  - change (is_map fe_binding). unfold is_map, fe_binding. cbn. repeat constructor.
  - intros s b I P _. change (In (s, b) fe_binding) in I. repeat (destruct I as [I|I]; [injection I as <- <-; try lra; eexists; reflexivity|]). destruct I.
Qed.
(** the line KL3 above the edge *)
Lemma fe_KL3 (E w : R) l : 71 / 10 <= E -> 0 < w -> getPhotoelectricExcitationFactors fe_explicit E w = Ok l ->
  exists t, mfind sltb "KL3" l = Some t /\ 0 < field t "factor".
Proof.
  intros HE Hw H. destruct (fe_mu E) as (t & HT & A & B & _).
  destruct (excitation_rates fe_explicit E w t fe_good fe_labels fe_energies eq_refl eq_refl HT (fun k => fe_photo E t k HT)) as (l' & d & c & HL & HD & HC & LK & _ & RT).
  assert (l' = l) by (apply Ok_inj; rewrite <- H, <- HL; reflexivity). subst l'.
  destruct fe_ratios as (T & PT & Q).
  assert (IN : In ("KL3", 8 / 10 / T) (Shell.getFluorescenceRatios fe_shell)) by (toR; rewrite Q; left; reflexivity).
  destruct (RT "K" fe_shell "KL3" (8 / 10 / T) eq_refl IN) as (_ & _ & K). cbv zeta in K.
  change (field (Shell.getShellConstants fe_shell) "omega") with (1 / 3) in K.
  assert (FK : fe_K E = 1) by (unfold fe_K; destruct (Rltb_spec E (71 / 10)); lra).
  assert (DK : field d "K" = 1 / 2). { rewrite LK by (left; reflexivity). rewrite A, B, FK. destruct (Rltb_spec 0 (1 + 1)); lra. }
  assert (ND : nonneg_dist d).
  { assert (V : d = map (fun k => (k, field d k)) photo_names).
    { clear - HD HT. unfold getInitialPhotoelectricVacancyDistribution in HD. toR. rewrite HT in HD. apply Ok_inj in HD. subst d. reflexivity. }
    unfold nonneg_dist. rewrite V. apply Forall_forall. intros x Ix. apply in_map_iff in Ix. destruct Ix as (k & <- & Ik). cbn [snd]. rewrite LK by exact Ik.
    destruct (Rltb_spec 0 (field t "photoelectric")); [|lra]. apply Rmult_le_pos; [exact (fe_photo E t k HT Ik)|]. apply Rlt_le, Rinv_0_lt_compat. assumption. }
  destruct (C26_cascade fe_explicit d fe_good ND) as (c' & HC' & _ & BAL & _). assert (c' = c) by (apply Ok_inj; rewrite <- HC, <- HC'; reflexivity). subst c'.
  specialize (BAL [] "K" [] eq_refl). cbn in BAL. change (value_or_0 "K" c) with (field c "K") in BAL. change (value_or_0 "K" d) with (field d "K") in BAL.
  assert (P : 0 < 8 / 10 / T * field c "K" * (1 / 3)).
  { rewrite BAL, DK. apply Rmult_lt_0_compat; [|lra]. apply Rmult_lt_0_compat; [apply Rdiv_lt_0_compat; lra|lra]. }
  destruct (K P) as (energy & F & _). eexists. split; [exact F|]. cbn. apply Rmult_lt_0_compat; assumption.
Qed.
