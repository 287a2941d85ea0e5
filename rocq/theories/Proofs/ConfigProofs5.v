(** The configuration after reading a file does not depend on the configuration before. *)
From Coq Require Import Ascii String List ZArith Bool Arith Lia.
From Verif Require Import Base.Num Base.Res Base.SMap Base.Str Base.Text Model.SimpleIni Model.Beam Model.Material Model.TransmissionTable Model.Layer Model.XRF Model.Multilayer Model.ConfigFile.
Import ListNotations.
Set Implicit Arguments.
Local Open Scope string_scope.

Section Alike.
Context {N : Num}.
Variable readDouble : text -> option num.
Variable sortf : list (@ray N) -> list ray.
Local Notation rel := (@config N -> @config N -> Prop).
Definition alike {A} (R R' : rel) (m : X A) : Prop := forall c1 c2, R c1 c2 -> snd (m c1) = snd (m c2) /\ (forall a, snd (m c1) = Ok a -> R' (fst (m c1)) (fst (m c2))).
Lemma alike_ret {A} (R : rel) (a : A) : alike R R (xret a). Proof. intros c1 c2 H. split; [reflexivity|]. intros _ _. exact H. Qed.
Lemma alike_lift {A} (R : rel) (r : res A) : alike R R (xlift r). Proof. intros c1 c2 H. split; [reflexivity|]. intros _ _. exact H. Qed.
Lemma alike_mod (R R' : rel) f : (forall c1 c2, R c1 c2 -> R' (f c1) (f c2)) -> alike R R' (xmod f). Proof. intros H c1 c2 H'. split; [reflexivity|]. intros _ _. apply H, H'. Qed.
Lemma alike_bind_at {A B} (R' R'' : rel) (m1 m2 : X A) (f1 f2 : A -> X B) c1 c2 :
  snd (m1 c1) = snd (m2 c2) /\ (forall a, snd (m1 c1) = Ok a -> R' (fst (m1 c1)) (fst (m2 c2))) ->
  (forall a d1 d2, R' d1 d2 -> snd (f1 a d1) = snd (f2 a d2) /\ (forall b, snd (f1 a d1) = Ok b -> R'' (fst (f1 a d1)) (fst (f2 a d2)))) ->
  snd (xbind m1 f1 c1) = snd (xbind m2 f2 c2) /\ (forall b, snd (xbind m1 f1 c1) = Ok b -> R'' (fst (xbind m1 f1 c1)) (fst (xbind m2 f2 c2))).
Proof.
  unfold xbind. destruct (m1 c1) as [d1 r1], (m2 c2) as [d2 r2]. cbn [fst snd]. intros [<- HR] HF. destruct r1 as [a|e| |]; cbn [fst snd].
  - apply HF. exact (HR a eq_refl).
  - split; [reflexivity|]. intros b Q. discriminate.
  - split; [reflexivity|]. intros b Q. discriminate.
  - split; [reflexivity|]. intros b Q. discriminate.
Qed.
Lemma alike_bind {A B} (R R' R'' : rel) (m : X A) (f : A -> X B) : alike R R' m -> (forall a, alike R' R'' (f a)) -> alike R R'' (xbind m f).
Proof. intros Hm Hf c1 c2 H. apply alike_bind_at with (R' := R'); [apply Hm, H|]. intros a. apply Hf. Qed.
Lemma alike_fold {A B} (R : rel) (f : B -> A -> X B) l : (forall b a, alike R R (f b a)) -> forall b, alike R R (xfold f l b).
Proof. intros H. induction l as [|a l IH]; intros b; cbn [xfold]; [apply alike_ret|]. apply alike_bind with (R' := R); [apply H|exact IH]. Qed.

Definition angles (c : @config N) := (c_alphaIn c, c_alphaOut c, c_scattering c).
Variables g1 g2 : @num N * @num N * @num N.
Definition R0 (c1 c2 : @config N) : Prop := angles c1 = angles c2 \/ (angles c1 = g1 /\ angles c2 = g2).
Definition R1 (c1 c2 : @config N) : Prop := R0 c1 c2 /\ c_beam c1 = c_beam c2.
Definition R2 (c1 c2 : @config N) : Prop := R1 c1 c2 /\ c_materials c1 = c_materials c2.
Definition R3 (c1 c2 : @config N) : Prop := R2 c1 c2 /\ c_userFilters c1 = c_userFilters c2.
Definition R4 (c1 c2 : @config N) : Prop := R3 c1 c2 /\ c_userAttenuators c1 = c_userAttenuators c2.
Definition R5 (c1 c2 : @config N) : Prop := R4 c1 c2 /\ c_filters c1 = c_filters c2 /\ c_sample c1 = c_sample c2 /\ c_attenuators c1 = c_attenuators c2 /\ c_detector c1 = c_detector c2.
Definition R6 (c1 c2 : @config N) : Prop := R5 c1 c2 /\ c_reference c1 = c_reference c2.
Ltac rel := unfold R6, R5, R4, R3, R2, R1, R0, angles in *; cbn; intuition congruence.

Lemma alike_beam m : alike R0 R1 (readBeam readDouble sortf m).
Proof.
  unfold readBeam. apply alike_bind with (R' := R0); [apply alike_lift|]. intros [[e w] ch]. intros c1 c2 H. unfold xrf_setBeam_vectors.
  change (setBeam sortf (c_beam c2) e w ch []) with (setBeam sortf (c_beam c1) e w ch []). destruct (setBeam sortf (c_beam c1) e w ch []); cbn [xrf_setBeam_result fst snd]; (split; [reflexivity|]); intros a' Q; try discriminate. split; [exact H|reflexivity].
Qed.
Lemma alike_materials i : alike R1 R2 (readMaterials readDouble i).
Proof.
  unfold readMaterials. apply alike_bind with (R' := R2); [apply alike_mod; intros c1 c2 H; rel|]. intros _. apply alike_bind with (R' := R2); [|intros; apply alike_ret].
  apply alike_fold. intros v s. unfold materialSection. apply alike_bind with (R' := R2); [apply alike_lift|]. intros m. apply alike_bind with (R' := R2); [apply alike_mod; intros c1 c2 H; rel|]. intros _. apply alike_ret.
Qed.
Lemma alike_user (R R' : rel) parent clear add i : (forall c1 c2, R c1 c2 -> R' (clear c1) (clear c2)) -> (forall t c1 c2, R' c1 c2 -> R' (add t c1) (add t c2)) -> alike R R' (readUser readDouble parent clear add i).
Proof.
  intros HC HA. unfold readUser. apply alike_bind with (R' := R'); [apply alike_mod; exact HC|]. intros _. apply alike_bind with (R' := R'); [|intros; apply alike_ret].
  apply alike_fold. intros v s. unfold userSection. destruct (nltb _ _); [|apply alike_ret]. apply alike_bind with (R' := R'); [apply alike_lift|]. intros m. apply alike_bind with (R' := R'); [apply alike_mod; apply HA|]. intros _. apply alike_ret.
Qed.
Ltac step := apply alike_bind_at with (R' := R5); [split; [reflexivity|intros _ _; cbn; try assumption]|intros ? ? ? ?].
Lemma alike_attenuatorKey multi kv : alike R5 R5 (attenuatorKey readDouble multi kv).
Proof.
  unfold attenuatorKey. destruct (doubles _ _ _) as [|d0 l]; [apply alike_ret|]. destruct (nltb n0 d0); [|apply alike_ret].
  assert (L : forall d s funny (put : @layer N -> config -> config) (r : bool), (forall x c1 c2, R5 c1 c2 -> R5 (put x c1) (put x c2)) ->
    alike R5 R5 (fun c => xbind (xlift (namedLayer (c_materials c) (fst kv) d s funny)) (fun x => xbind (xmod (put x)) (fun _ => xret r)) c)).
  { intros d s funny put r HP c1 c2 H. assert (HM : c_materials c1 = c_materials c2) by rel. rewrite HM. apply alike_bind_at with (R' := R5).
    - split; [reflexivity|]. intros _ _. exact H.
    - intros x. apply alike_bind with (R' := R5); [apply alike_mod; apply HP|]. intros _. apply alike_ret. }
  destruct (String.eqb (withoutLast _) _); [apply L; intros x c1 c2 H; rel|].
  destruct (Nat.eqb _ 8).
  - apply alike_bind with (R' := R5); [apply alike_lift|]. intros [[a b] g]. apply alike_bind with (R' := R5); [apply alike_mod; intros c1 c2 H; rel|]. intros _.
    apply alike_bind with (R' := R5); [apply alike_lift|]. intros name. destruct (String.eqb name _); [apply alike_ret|]. apply L. intros x c1 c2 H. rel.
  - destruct (String.eqb (String.substring _ _ _) _); [|apply L; intros x c1 c2 H; rel].
    intros c1 c2 H. assert (HM : c_materials c1 = c_materials c2) by rel. rewrite HM. apply alike_bind_at with (R' := R5).
    + split; [reflexivity|]. intros _ _. exact H.
    + intros x. apply alike_bind with (R' := R5); [apply alike_mod; intros d1 d2 H'; rel|]. intros _. apply alike_ret.
Qed.
Lemma alike_multilayerKey u kv : alike R6 R6 (multilayerKey readDouble u kv).
Proof.
  unfold multilayerKey. destruct (doubles _ _ _) as [|d0 l]; [apply alike_ret|]. destruct (nltb n0 d0); [|apply alike_ret].
  intros c1 c2 H. assert (HM : c_materials c1 = c_materials c2) by rel. rewrite HM. apply alike_bind_at with (R' := R6).
  - split; [reflexivity|]. intros _ _. exact H.
  - intros x. apply alike_mod. intros d1 d2 H'. rel.
Qed.
Lemma alike_concentrationKey u kv : alike R6 R6 (concentrationKey readDouble u kv).
Proof.
  unfold concentrationKey. apply alike_bind with (R' := R6).
  - destruct (String.eqb _ _); [|apply alike_ret]. intros c1 c2 H. assert (HD : c_detector c1 = c_detector c2) by rel. rewrite HD. unfold setDistance. destruct (nleb _ _); (split; [reflexivity|]); intros b Q; [discriminate|]. cbn [fst]. rel.
  - intros _. destruct (String.eqb _ _); [|apply alike_ret]. intros c1 c2 H. assert (HD : c_detector c1 = c_detector c2) by rel. rewrite HD. unfold setActiveArea. destruct (nltb _ _); (split; [reflexivity|]); intros b Q; [discriminate|]. cbn [fst]. rel.
Qed.
Lemma alike_rest fit i : alike R0 R6 (xbind (readBeam readDouble sortf fit) (fun _ => xbind (readMaterials readDouble i) (fun _ => xbind (readUserFilters readDouble i) (fun _ => xbind (readUserAttenuators readDouble i) (fun _ =>
      let (i, att) := readSection i "attenuators" false in
      xbind (xmod clearLayers) (fun _ =>
      xbind (xfold (attenuatorKey readDouble) att false) (fun multi =>
      xbind (xmod putReference) (fun _ =>
      let (i, lay) := if multi then readSection i "multilayer" false else (i, []) in
      xbind (xfold (multilayerKey readDouble) lay tt) (fun _ =>
      let (i, conc) := readSection i "concentrations" false in
      xfold (concentrationKey readDouble) conc tt))))))))).
Proof.
  apply alike_bind with (R' := R1); [apply alike_beam|]. intros _. apply alike_bind with (R' := R2); [apply alike_materials|]. intros _.
  apply alike_bind with (R' := R3); [apply alike_user; [intros c1 c2 H; rel|intros t c1 c2 H; rel]|]. intros _. apply alike_bind with (R' := R4); [apply alike_user; [intros c1 c2 H; rel|intros t c1 c2 H; rel]|]. intros _.
  destruct (readSection i "attenuators" false) as [i1 att]. apply alike_bind with (R' := R5); [apply alike_mod; intros c1 c2 H; rel|]. intros _.
  apply alike_bind with (R' := R5); [apply alike_fold; intros; apply alike_attenuatorKey|]. intros multi. apply alike_bind with (R' := R6); [apply alike_mod; intros c1 c2 H; rel|]. intros _.
  destruct (if multi then _ else _) as [i2 lay]. apply alike_bind with (R' := R6); [apply alike_fold; intros; apply alike_multilayerKey|]. intros _. destruct (readSection i2 _ _) as [i3 conc].
  apply alike_fold. intros. apply alike_concentrationKey.
Qed.
Lemma alike_file file : alike R0 R6 (readConfigurationFromFile readDouble sortf file).
Proof.
  unfold readConfigurationFromFile. destruct (readFileName ini_new file) as [i r]. apply alike_bind with (R' := R0); [apply alike_lift|]. intros _.
  unfold readConfiguration. destruct (readSection i "fit" false) as [i1 fit1]. destruct fit1 as [|x y].
  - destruct (readSection i1 "result.config" false) as [i2 fit2]. destruct fit2 as [|x y]; [|apply alike_rest]. intros c1 c2 H. split; [reflexivity|]. intros a Q. discriminate.
  - apply alike_rest.
Qed.
End Alike.
