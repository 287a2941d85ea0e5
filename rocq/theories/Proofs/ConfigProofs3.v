(** Filters, sample, detector and attenuators. *)
From Coq Require Import Ascii String List ZArith Bool Arith Lia.
From Verif Require Import Base.Num Base.Res Base.SMap Base.Str Base.Text Base.ListLemmas Model.SimpleIni Model.Beam Model.Material Model.TransmissionTable Model.Layer Model.XRF Model.Multilayer Model.ConfigFile
  Spec.IniSpec Spec.FieldsSpec Spec.ConfigSpec Proofs.IniProofs Proofs.FieldsProofs Properties.IniProps Properties.FieldsProps Proofs.ConfigProofs Proofs.ConfigProofs2.
Import ListNotations.
Set Implicit Arguments.
Local Open Scope string_scope.

Section Layers.
Context {N : Num}.
Variable readDouble : text -> option num.
Local Notation nums items := (map (number readDouble minus1) items).
Local Notation words items := (map (fun item => str (match readWord item with Some w => w | None => [] end)) items).

Lemma number_at items i x : item_number readDouble items i x -> vget (nums items) i = Ok x.
Proof. intros (t & E & ->). unfold vget. rewrite nth_error_map, E. reflexivity. Qed.
Lemma word_at items i w : item_word items i w -> vget (words items) i = Ok w.
Proof.
  intros (t & v & E & R & ->). unfold vget. rewrite nth_error_map, E. cbn [option_map of_opt]. f_equal. f_equal. apply (C60_unique (readWord_reads [] t) R).
Qed.
Lemma at_word items i w : vget (words items) i = Ok w -> item_word items i w.
Proof.
  unfold vget. rewrite nth_error_map. destruct (nth_error items i) as [t|] eqn:E; [|discriminate]. cbn [option_map of_opt]. intros Q. injection Q as Q. 
  exists t, (match readWord t with Some w => w | None => [] end). split; [exact E|]. split; [apply readWord_reads|]. symmetry. exact Q.
Qed.
Lemma fillLayer_of mats name l0 l : of_material mats name l0 l -> fillLayer mats name l0 = l.
Proof.
  unfold fillLayer. assert (G : forall ms l, Forall (fun m : @material N => m_name m <> name) ms -> fold_left (fun l m => if String.eqb (m_name m) name then setMaterial_mat l m else l) ms l = l).
  { induction ms as [|m ms IH]; intros x H; [reflexivity|]. inversion H; subst. cbn [fold_left]. replace (String.eqb (m_name m) name) with false by (symmetry; apply String.eqb_neq; assumption). apply IH. assumption. }
  intros [[H ->]|(a & m & b & -> & E & H & ->)]; [apply G, H|]. apply Forall_app in H. destruct H as [Ha Hb]. rewrite fold_left_app, (G a) by exact Ha. cbn [fold_left]. rewrite E, String.eqb_refl. apply G, Hb.
Qed.
Lemma fillDetector_of mats name d0 d : detector_of_material mats name d0 d -> fillDetector mats name d0 = d.
Proof.
  unfold fillDetector. assert (G : forall ms l, Forall (fun m : @material N => m_name m <> name) ms -> fold_left (fun l m => if String.eqb (m_name m) name then det_setMaterial_mat l m else l) ms l = l).
  { induction ms as [|m ms IH]; intros x H; [reflexivity|]. inversion H; subst. cbn [fold_left]. replace (String.eqb (m_name m) name) with false by (symmetry; apply String.eqb_neq; assumption). apply IH. assumption. }
  intros [[H ->]|(a & m & b & -> & E & H & ->)]; [apply G, H|]. apply Forall_app in H. destruct H as [Ha Hb]. rewrite fold_left_app, (G a) by exact Ha. cbn [fold_left]. rewrite E, String.eqb_refl. apply G, Hb.
Qed.
Lemma namedLayer_of mats k items funny l : layer_line readDouble mats k items funny l -> namedLayer mats k (nums items) (words items) (Ok funny) = Ok l.
Proof.
  intros (dens & thick & name & H2 & H3 & H1 & M). unfold namedLayer. rewrite (number_at H2). cbn [rbind]. rewrite (number_at H3). cbn [rbind]. rewrite (word_at H1). cbn [rbind]. rewrite (fillLayer_of M). reflexivity.
Qed.
Lemma doubles_of v items : listed v items -> doubles readDouble (nlit (-1) 0) v = nums items.
Proof. intros L. unfold doubles, chars. rewrite (listed_split L). reflexivity. Qed.
Lemma strings_of v items : listed v items -> strings ","%char v = words items.
Proof. intros L. unfold strings, parseStringAsMultipleValues, chars. rewrite (listed_split L), map_map. reflexivity. Qed.

(** keys *)
Lemma substring_all s : String.substring 0 (String.length s) s = s.
Proof. induction s as [|c s IH]; [reflexivity|]. cbn [String.length String.substring]. f_equal. exact IH. Qed.
Lemma withoutLast_key k : String.eqb (withoutLast k) "BeamFilter" = true <-> filter_key k.
Proof.
  rewrite String.eqb_eq. unfold withoutLast, filter_key. split.
  - destruct (String.length k) as [|n] eqn:L; [intros ->; discriminate|]. intros E.
    assert (n = 10).
    { assert (Q : String.length (String.substring 0 n k) = n). { clear E. revert k L. induction n as [|n IH]; intros k L; [destruct k; reflexivity|]. destruct k as [|c k]; [discriminate|]. cbn [String.substring String.length]. f_equal. apply IH. cbn in L. congruence. }
      rewrite E in Q. symmetry. exact Q. }
    subst n. change 10 with (String.length "BeamFilter") in E. apply substring_eq in E. destruct E as [r ->]. rewrite str_app_length in L. cbn [String.length] in L.
    destruct r as [|c [|c' r]]; cbn [String.length] in L; [lia| |lia]. exists c. reflexivity.
  - intros [c ->]. reflexivity.
Qed.
Lemma detector_key_eqb k : String.eqb (String.substring 0 8 k) "Detector" = true <-> detector_key k.
Proof. rewrite String.eqb_eq. change 8 with (String.length "Detector"). apply substring_eq. Qed.
Lemma not_true_false (b : bool) (P : Prop) : (b = true <-> P) -> ~ P -> b = false.
Proof. intros H NP. destruct b; [|reflexivity]. exfalso. apply NP, H. reflexivity. Qed.

(** one line *)
Definition putFilters (l : list (@layer N)) (c : config) := setBeamFilters c l.
Definition means (c : @config N) (r : @meaning N) : config :=
  match r with
  | Nothing => c
  | AFilter l => setBeamFilters c (c_filters c ++ [l])%list
  | AnAttenuator l => setAttenuators c (c_attenuators c ++ [l])%list
  | ADetector d => setDetector c d
  | ASample a b g l => putSample (c_sample c ++ [l])%list (with_geometry c a b g)
  | AMultilayer a b g => with_geometry c a b g
  end.
Definition multi_of (multi : bool) (r : @meaning N) : bool := match r with AMultilayer _ _ _ => true | _ => multi end.
Lemma attenuatorKey_ok mats multi kv r c : c_materials c = mats -> describes_line readDouble mats kv r ->
  attenuatorKey readDouble multi kv c = (means c r, Ok (multi_of multi r)).
Proof.
  intros HM (items & L & D). unfold attenuatorKey. rewrite (doubles_of L), (strings_of L).
  assert (ON : line_on readDouble items -> exists x rest, nums items = x :: rest /\ nltb n0 x = true).
  { intros (x & (t & E & ->) & P). destruct items as [|t' items]; [discriminate|]. cbn in E. injection E as ->. cbn [map]. eauto. }
  destruct kv as [k v]. cbn [fst snd] in *.
  destruct r as [|l|l|det|a b g l|a b g]; cbn [means multi_of].
  - destruct D as [->|(x & (t & E & ->) & P)]; [reflexivity|]. destruct items as [|t' items]; [discriminate|]. cbn in E. injection E as ->. cbn [map]. rewrite P. reflexivity.
  - destruct D as (O & K & f & F & LL). destruct (ON O) as (x & rest & Q & P). rewrite Q, P, <- Q. apply withoutLast_key in K. rewrite K. rewrite (number_at F), HM.
    rewrite (namedLayer_of LL). reflexivity.
  - destruct D as (O & K & L8 & KD & f & F & LL). destruct (ON O) as (x & rest & Q & P). rewrite Q, P, <- Q. rewrite (not_true_false (withoutLast_key k) K).
    replace (Nat.eqb _ 8) with false by (symmetry; apply Nat.eqb_neq; rewrite map_length; exact L8). rewrite (not_true_false (detector_key_eqb k) KD). rewrite (number_at F), HM, (namedLayer_of LL). reflexivity.
  - destruct D as (O & K & L8 & KD & dens & thick & name & f & H2 & H3 & H4 & H1 & M). destruct (ON O) as (x & rest & Q & P). rewrite Q, P, <- Q. rewrite (not_true_false (withoutLast_key k) K).
    replace (Nat.eqb _ 8) with false by (symmetry; apply Nat.eqb_neq; rewrite map_length; exact L8). apply detector_key_eqb in KD. rewrite KD.
    rewrite (number_at H2). cbn [rbind]. rewrite (number_at H3). cbn [rbind]. rewrite (number_at H4). cbn [rbind]. rewrite (word_at H1). cbn [rbind]. rewrite HM, (fillDetector_of M). reflexivity.
  - destruct D as (O & K & L8 & (use & other & G4 & G5 & G6 & G7 & ->) & NM & LL). destruct (ON O) as (x & rest & Q & P). rewrite Q, P, <- Q. rewrite (not_true_false (withoutLast_key k) K).
    replace (Nat.eqb _ 8) with true by (symmetry; apply Nat.eqb_eq; rewrite map_length; exact L8).
    rewrite (number_at G6). cbn [rbind]. rewrite (number_at G4). cbn [rbind]. rewrite (number_at G5). cbn [rbind]. rewrite (number_at G7). cbn [rbind].
    unfold xbind, xlift, xmod, xret. cbv beta iota. pose proof LL as (dens & thick & name & H2 & H3 & H1 & M). rewrite (word_at H1).
    replace (String.eqb name "MULTILAYER") with false by (symmetry; apply String.eqb_neq; intros ->; contradiction). cbn [c_materials with_geometry]. rewrite HM, (namedLayer_of LL). reflexivity.
  - destruct D as (O & K & L8 & (use & other & G4 & G5 & G6 & G7 & ->) & NM). destruct (ON O) as (x & rest & Q & P). rewrite Q, P, <- Q. rewrite (not_true_false (withoutLast_key k) K).
    replace (Nat.eqb _ 8) with true by (symmetry; apply Nat.eqb_eq; rewrite map_length; exact L8).
    rewrite (number_at G6). cbn [rbind]. rewrite (number_at G4). cbn [rbind]. rewrite (number_at G5). cbn [rbind]. rewrite (number_at G7). cbn [rbind].
    unfold xbind, xlift, xmod, xret. cbv beta iota. rewrite (word_at NM). rewrite String.eqb_refl. reflexivity.
Qed.
Definition geometry_after (c : @config N) (l : list (num * num * num)) : num * num * num := last l (c_alphaIn c, c_alphaOut c, c_scattering c).
Definition after (c : @config N) (rs : list (@meaning N)) : config :=
  let '(a, b, g) := geometry_after c (geometries_in rs) in
  mkConfig (c_beam c) (c_materials c) (c_filters c ++ filters_in rs)%list (c_sample c ++ sample_in rs)%list (c_attenuators c ++ attenuators_in rs)%list
    (c_userFilters c) (c_userAttenuators c) (c_reference c) a b g (last (detectors_in rs) (c_detector c)).
Lemma last_cons {A} (x : A) l d : last (x :: l) d = last l x.
Proof. revert x d. induction l as [|y l IH]; intros x d; [reflexivity|]. change (last (y :: l) d = last (y :: l) x). rewrite !IH. reflexivity. Qed.
Lemma attenuators_ok mats att rs : Forall2 (describes_line readDouble mats) att rs -> forall multi c, c_materials c = mats ->
  xfold (attenuatorKey readDouble) att multi c = (after c rs, Ok (multi || is_multilayer rs)).
Proof.
  induction 1 as [|kv r att rs D _ IH]; intros multi c HM; cbn [xfold].
  - unfold xret, after, geometry_after. cbn. rewrite !app_nil_r, orb_false_r. destruct c; reflexivity.
  - unfold xbind. rewrite (attenuatorKey_ok multi c HM D). rewrite IH by (destruct r; exact HM).
    f_equal; [|destruct r, multi; reflexivity].
    unfold after, geometry_after. unfold geometries_in, filters_in, sample_in, attenuators_in, detectors_in. cbn [flat_map].
    destruct r; cbn [app means]; rewrite ?last_cons; cbn; rewrite <- ?app_assoc; reflexivity.
Qed.
Lemma multilayerKey_ok mats u kv r c : c_materials c = mats -> describes_layer readDouble mats kv r ->
  multilayerKey readDouble u kv c = (match r with Some l => putSample (c_sample c ++ [l])%list c | None => c end, Ok tt).
Proof.
  intros HM (items & L & D). unfold multilayerKey. rewrite (doubles_of L), (strings_of L). destruct kv as [k v]. cbn [fst snd] in *. destruct r as [l|].
  - destruct D as ((x & (t & E & ->) & P) & LL). destruct items as [|t' items']; [discriminate|]. cbn in E. injection E as ->. cbn [map] in LL |- *. rewrite P.
    pose proof (namedLayer_of LL) as Q. cbn [map] in Q. rewrite HM. rewrite Q. reflexivity.
  - destruct D as [->|(x & (t & E & ->) & P)]; [reflexivity|]. destruct items as [|t' items]; [discriminate|]. cbn in E. injection E as ->. cbn [map]. rewrite P. reflexivity.
Qed.
Lemma multilayer_ok mats lay rs : Forall2 (describes_layer readDouble mats) lay rs -> forall u c, c_materials c = mats ->
  xfold (multilayerKey readDouble) lay u c = (putSample (c_sample c ++ layers_in rs)%list c, Ok u).
Proof.
  induction 1 as [|kv r lay rs D _ IH]; intros u c HM; cbn [xfold].
  - unfold xret. cbn. rewrite app_nil_r. destruct c; reflexivity.
  - unfold xbind. rewrite (multilayerKey_ok u c HM D). destruct u. rewrite IH by (destruct r; exact HM). unfold layers_in. cbn [flat_map]. destruct r; [|reflexivity]. cbn. rewrite <- app_assoc. reflexivity.
Qed.
End Layers.
