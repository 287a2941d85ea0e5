(** The detector's place, and the whole file. *)
From Coq Require Import Ascii String List ZArith Bool Arith Lia.
From Verif Require Import Base.Num Base.Res Base.SMap Base.Str Base.Text Base.ListLemmas Model.SimpleIni Model.Beam Model.Material Model.TransmissionTable Model.Layer Model.XRF Model.Multilayer Model.ConfigFile
  Spec.IniSpec Spec.FieldsSpec Spec.ConfigSpec Proofs.IniProofs Proofs.FieldsProofs Properties.IniProps Properties.FieldsProps Proofs.ConfigProofs Proofs.ConfigProofs2 Proofs.ConfigProofs3.
Import ListNotations.
Set Implicit Arguments.
Local Open Scope string_scope.

Section Whole.
Context {N : Num}.
Variable readDouble : text -> option num.
Variable sortf : list (@ray N) -> list ray.
Local Notation key K := (fun kv : string * string => String.eqb (toUpper (fst kv)) K).
Definition withDetector (f : @detector N -> detector) (c : @config N) : config := setDetector c (f (c_detector c)).
Definition placedAt (dist area : bool) (x y : num) (d : @detector N) : detector :=
  let d := if dist then with_distance d x else d in if area then with_diameter d (nmul (nlit 2 0) (nsqrt (ndiv y npi))) else d.
Lemma concentration_fold x y (m : list (string * string)) :
  (forall kv, In kv m -> key "DISTANCE" kv = true -> number readDouble minus1 (list_ascii_of_string (snd kv)) = x /\ nleb x n0 = false) ->
  (forall kv, In kv m -> key "AREA" kv = true -> number readDouble minus1 (list_ascii_of_string (snd kv)) = y /\ nltb y n0 = false) ->
  forall u c, xfold (concentrationKey readDouble) m u c = (withDetector (placedAt (existsb (key "DISTANCE") m) (existsb (key "AREA") m) x y) c, Ok u).
Proof.
  intros H1 H2. induction m as [|kv m IH]; intros u c; cbn [xfold].
  - unfold xret, withDetector. cbn. destruct c; reflexivity.
  - assert (S : concentrationKey readDouble u kv c = (withDetector (placedAt (key "DISTANCE" kv) (key "AREA" kv) x y) c, Ok tt)).
    { unfold concentrationKey, single, chars. cbv zeta.
      specialize (H1 kv (or_introl eq_refl)). specialize (H2 kv (or_introl eq_refl)). cbv beta in H1, H2. unfold number in H1, H2.
      destruct (String.eqb (toUpper (fst kv)) "DISTANCE") eqn:QD.
      - assert (QA : String.eqb (toUpper (fst kv)) "AREA" = false) by (apply String.eqb_eq in QD; rewrite QD; reflexivity). rewrite QA.
        destruct (H1 eq_refl) as [E P]. unfold minus1 in E. rewrite E. unfold xbind, setDistance. rewrite P. reflexivity.
      - unfold xbind, xret. destruct (String.eqb (toUpper (fst kv)) "AREA") eqn:QA.
        + destruct (H2 eq_refl) as [E P]. unfold minus1 in E. rewrite E. unfold setActiveArea. rewrite P. reflexivity.
        + unfold withDetector. cbn. destruct c; reflexivity. }
    unfold xbind. rewrite S. destruct u. rewrite IH; [|intros k I; apply H1; right; exact I|intros k I; apply H2; right; exact I].
    f_equal. cbn [existsb]. unfold withDetector, placedAt. cbn [c_detector setDetector]. 
    destruct (String.eqb (toUpper (fst kv)) "DISTANCE"), (String.eqb (toUpper (fst kv)) "AREA"), (existsb (key "DISTANCE") m), (existsb (key "AREA") m); reflexivity.
Qed.
Lemma value_exists d key K r m : entries d "concentrations" m -> toUpper key = K -> value_in readDouble d key r ->
  existsb (fun kv : string * string => String.eqb (toUpper (fst kv)) K) m = (match r with Some _ => true | None => false end) /\
  forall x, r = Some x -> forall kv, In kv m -> String.eqb (toUpper (fst kv)) K = true -> number readDouble minus1 (list_ascii_of_string (snd kv)) = x.
Proof.
  intros (E1 & E2 & _) HK V. destruct r as [x|].
  - destruct V as (v & F & ->). destruct (@field_match _ _ _ _ _ _ E1 E2 HK F) as [X Y]. split; [apply existsb_exists; exact X|].
    intros x' Q kv I M. injection Q as <-. rewrite (Y kv I M). reflexivity.
  - split; [|discriminate]. cbn [value_in] in V. destruct (existsb _ m) eqn:Q; [|reflexivity]. exfalso. apply existsb_exists in Q. destruct Q as ([k v] & I & M). cbn [fst] in M.
    apply (@in_entry _ _ _ E1 E2) in I. apply (V k v I). apply (@eqb_letters k key K HK), M.
Qed.
Lemma concentrations_ok d m dist area c det : entries d "concentrations" m -> value_in readDouble d "distance" dist -> value_in readDouble d "area" area ->
  placed (c_detector c) dist area det -> forall u, xfold (concentrationKey readDouble) m u c = (setDetector c det, Ok u).
Proof.
  intros HE VD VA (d1 & P1 & P2) u. destruct (@value_exists _ _ _ _ _ HE (eq_refl : toUpper "distance" = "DISTANCE") VD) as [X1 Y1]. destruct (@value_exists _ _ _ _ _ HE (eq_refl : toUpper "area" = "AREA") VA) as [X2 Y2].
  set (x := match dist with Some x => x | None => n0 end). set (y := match area with Some y => y | None => n0 end).
  rewrite (@concentration_fold x y m).
  - rewrite X1, X2. f_equal. unfold withDetector, placedAt. f_equal. destruct dist as [x'|].
    + unfold setDistance in P1. destruct (nleb x' n0); [discriminate|]. injection P1 as <-. destruct area as [y'|]; [|subst det; reflexivity].
      unfold setActiveArea in P2. destruct (nltb y' n0); [discriminate|]. injection P2 as <-. reflexivity.
    + subst d1. destruct area as [y'|]; [|subst det; reflexivity]. unfold setActiveArea in P2. destruct (nltb y' n0); [discriminate|]. injection P2 as <-. reflexivity.
  - intros kv I M. destruct dist as [x'|].
    + split; [apply (Y1 x' eq_refl kv I M)|]. unfold setDistance in P1. subst x. destruct (nleb x' n0); [discriminate|reflexivity].
    + exfalso. assert (existsb (key "DISTANCE") m = true) by (apply existsb_exists; exists kv; auto). rewrite X1 in H. discriminate.
  - intros kv I M. destruct area as [y'|].
    + split; [apply (Y2 y' eq_refl kv I M)|]. unfold setActiveArea in P2. subst y. destruct (nltb y' n0); [discriminate|reflexivity].
    + exfalso. assert (existsb (key "AREA") m = true) by (apply existsb_exists; exists kv; auto). rewrite X2 in H. discriminate.
Qed.

(** *** Frames *)
Definition same_beam (c c' : @config N) : Prop := c_beam c' = c_beam c.
Definition same_beam_materials (c c' : @config N) : Prop := c_beam c' = c_beam c /\ c_materials c' = c_materials c.
Definition same_tables (c c' : @config N) : Prop := c_beam c' = c_beam c /\ c_materials c' = c_materials c /\ c_userFilters c' = c_userFilters c /\ c_userAttenuators c' = c_userAttenuators c.
Section Keep.
Variable P : @config N -> @config N -> Prop.
Hypothesis refl : forall c, P c c.
Hypothesis trans : forall a b c, P a b -> P b c -> P a c.
Hypothesis layers : forall c c', c_beam c' = c_beam c -> c_materials c' = c_materials c -> c_userFilters c' = c_userFilters c -> c_userAttenuators c' = c_userAttenuators c -> P c c'.
Lemma keeps_attenuatorKey multi kv : keeps P (attenuatorKey readDouble multi kv).
Proof.
  unfold attenuatorKey. destruct (doubles _ _ _) as [|d0 l]; [apply keeps_ret, refl|]. destruct (nltb n0 d0); [|apply keeps_ret, refl].
  destruct (String.eqb (withoutLast _) _).
  - intros c. apply keeps_at; [exact trans|apply keeps_lift, refl|]. intros x. apply keeps_bind; [exact trans|apply keeps_mod; intros c'; apply layers; reflexivity|]. intros _. apply keeps_ret, refl.
  - destruct (Nat.eqb _ 8).
    + apply keeps_bind; [exact trans|apply keeps_lift, refl|]. intros [[a b] g]. apply keeps_bind; [exact trans|apply keeps_mod; intros c'; apply layers; reflexivity|]. intros _.
      apply keeps_bind; [exact trans|apply keeps_lift, refl|]. intros name. destruct (String.eqb name _); [apply keeps_ret, refl|].
      intros c. apply keeps_at; [exact trans|apply keeps_lift, refl|]. intros x. apply keeps_bind; [exact trans|apply keeps_mod; intros c'; apply layers; reflexivity|]. intros _. apply keeps_ret, refl.
    + destruct (String.eqb (String.substring _ _ _) _); intros c; (apply keeps_at; [exact trans|apply keeps_lift, refl|]); intros x; (apply keeps_bind; [exact trans|apply keeps_mod; intros c'; apply layers; reflexivity|]); intros _; apply keeps_ret, refl.
Qed.
Lemma keeps_multilayerKey u kv : keeps P (multilayerKey readDouble u kv).
Proof.
  unfold multilayerKey. destruct (doubles _ _ _) as [|d0 l]; [apply keeps_ret, refl|]. destruct (nltb n0 d0); [|apply keeps_ret, refl].
  intros c. apply keeps_at; [exact trans|apply keeps_lift, refl|]. intros x. apply keeps_mod; intros c'; apply layers; reflexivity.
Qed.
Lemma keeps_concentrationKey u kv : keeps P (concentrationKey readDouble u kv).
Proof.
  unfold concentrationKey. apply keeps_bind; [exact trans| |].
  - destruct (String.eqb _ _); [|apply keeps_ret, refl]. intros c. unfold setDistance. destruct (nleb _ _); apply layers; reflexivity.
  - intros _. destruct (String.eqb _ _); [|apply keeps_ret, refl]. intros c. unfold setActiveArea. destruct (nltb _ _); apply layers; reflexivity.
Qed.
(** everything after the tables *)
Definition readLayers (i : ini) : X unit :=
  let (i, att) := readSection i "attenuators" false in
  xbind (xmod (@clearLayers N)) (fun _ =>
  xbind (xfold (attenuatorKey readDouble) att false) (fun multi =>
  xbind (xmod (@putReference N)) (fun _ =>
  let (i, lay) := if multi then readSection i "multilayer" false else (i, []) in
  xbind (xfold (multilayerKey readDouble) lay tt) (fun _ =>
  let (i, conc) := readSection i "concentrations" false in
  xfold (concentrationKey readDouble) conc tt)))).
Lemma keeps_layers i : keeps P (readLayers i).
Proof.
  unfold readLayers. destruct (readSection i "attenuators" false) as [i1 att]. apply keeps_bind; [exact trans|apply keeps_mod; intros c; apply layers; reflexivity|]. intros _.
  apply keeps_bind; [exact trans|apply keeps_fold; [exact refl|exact trans|]; intros; apply keeps_attenuatorKey|]. intros multi.
  apply keeps_bind; [exact trans|apply keeps_mod; intros c; apply layers; reflexivity|]. intros _. destruct (if multi then _ else _) as [i2 lay].
  apply keeps_bind; [exact trans|apply keeps_fold; [exact refl|exact trans|]; intros; apply keeps_multilayerKey|]. intros _. destruct (readSection i2 _ _) as [i3 conc].
  apply keeps_fold; [exact refl|exact trans|]; intros; apply keeps_concentrationKey.
Qed.
End Keep.
Lemma same_tables_refl c : same_tables c c. Proof. repeat split. Qed.
Lemma same_tables_trans a b c : same_tables a b -> same_tables b c -> same_tables a c.
Proof. unfold same_tables. intuition congruence. Qed.
Lemma layers_tables i : keeps same_tables (readLayers i).
Proof. apply keeps_layers; [apply same_tables_refl|exact same_tables_trans|]. unfold same_tables. auto. Qed.
Lemma user_frame parent clear add i : (forall c, same_beam_materials c (clear c)) -> (forall t c, same_beam_materials c (add t c)) -> keeps same_beam_materials (readUser readDouble parent clear add i).
Proof.
  assert (R : forall c, same_beam_materials c c) by (split; reflexivity). assert (T : forall a b c, same_beam_materials a b -> same_beam_materials b c -> same_beam_materials a c) by (unfold same_beam_materials; intuition congruence).
  intros HC HA. unfold readUser. apply keeps_bind; [exact T|apply keeps_mod; exact HC|]. intros _. apply keeps_bind; [exact T| |intros; apply keeps_ret, R].
  apply keeps_fold; [exact R|exact T|]. intros v s. unfold userSection. destruct (nltb _ _); [|apply keeps_ret, R]. apply keeps_bind; [exact T|apply keeps_lift, R|]. intros t. apply keeps_bind; [exact T|apply keeps_mod; apply HA|]. intros _. apply keeps_ret, R.
Qed.
Lemma materials_frame i : keeps same_beam (readMaterials readDouble i).
Proof.
  assert (R : forall c, same_beam c c) by reflexivity. assert (T : forall a b c, same_beam a b -> same_beam b c -> same_beam a c) by (unfold same_beam; congruence).
  unfold readMaterials. apply keeps_bind; [exact T|apply keeps_mod; reflexivity|]. intros _. apply keeps_bind; [exact T| |intros; apply keeps_ret, R].
  apply keeps_fold; [exact R|exact T|]. intros v s. unfold materialSection. apply keeps_bind; [exact T|apply keeps_lift, R|]. intros t. apply keeps_bind; [exact T|apply keeps_mod; reflexivity|]. intros _. apply keeps_ret, R.
Qed.
(** the part after the beam *)
Definition readRest (i : ini) : X unit :=
  xbind (readMaterials readDouble i) (fun _ => xbind (readUserFilters readDouble i) (fun _ => xbind (readUserAttenuators readDouble i) (fun _ => readLayers i))).
Definition readTables (i : ini) : X unit := xbind (readUserFilters readDouble i) (fun _ => xbind (readUserAttenuators readDouble i) (fun _ => readLayers i)).
Lemma tables_frame i : keeps same_beam_materials (readTables i).
Proof.
  assert (R : forall c, same_beam_materials c c) by (split; reflexivity). assert (T : forall a b c, same_beam_materials a b -> same_beam_materials b c -> same_beam_materials a c) by (unfold same_beam_materials; intuition congruence).
  unfold readTables. apply keeps_bind; [exact T|apply user_frame; split; reflexivity|]. intros _. apply keeps_bind; [exact T|apply user_frame; split; reflexivity|]. intros _.
  intros c. destruct (layers_tables i c) as (A & B & _). split; assumption.
Qed.
Lemma rest_frame i : keeps same_beam (readRest i).
Proof.
  assert (T : forall a b c, same_beam a b -> same_beam b c -> same_beam a c) by (unfold same_beam; congruence).
  unfold readRest. apply keeps_bind; [exact T|apply materials_frame|]. intros _. intros c. destruct (tables_frame i c) as [A _]. exact A.
Qed.

(** *** The stages of the whole reading *)
Lemma read_fit d i fit : holds i d -> entries d "fit" fit -> fit <> [] -> exists i', holds i' d /\
  readConfiguration readDouble sortf i = xbind (readBeam readDouble sortf fit) (fun _ => readRest i').
Proof.
  intros HI HE NE. exists (fst (readSection i "fit" false)). split; [apply holds_after, HI|]. unfold readConfiguration.
  pose proof (entries_read HI HE) as Q. destruct (readSection i "fit" false) as [i1 f1]. cbn [snd fst] in *. subst f1. destruct fit; [contradiction|]. reflexivity.
Qed.
Lemma read_result d i fit : holds i d -> entries d "fit" [] -> entries d "result.config" fit -> fit <> [] -> exists i', holds i' d /\
  readConfiguration readDouble sortf i = xbind (readBeam readDouble sortf fit) (fun _ => readRest i').
Proof.
  intros HI HF HE NE. exists (fst (readSection (fst (readSection i "fit" false)) "result.config" false)). split; [apply holds_after, holds_after, HI|]. unfold readConfiguration.
  pose proof (entries_read HI HF) as Q. pose proof (holds_after "fit" false HI) as HI'. destruct (readSection i "fit" false) as [i1 f1]. cbn [snd fst] in *. subst f1.
  pose proof (entries_read HI' HE) as Q'. destruct (readSection i1 "result.config" false) as [i2 f2]. cbn [snd fst] in *. subst f2. destruct fit; [contradiction|]. reflexivity.
Qed.
Lemma read_none d i c : holds i d -> entries d "fit" [] -> entries d "result.config" [] -> readConfiguration readDouble sortf i c = (c, Throw InvalidArgument).
Proof.
  intros HI HF HE. unfold readConfiguration.
  pose proof (entries_read HI HF) as Q. pose proof (holds_after "fit" false HI) as HI'. destruct (readSection i "fit" false) as [i1 f1]. cbn [snd fst] in *. subst f1.
  pose proof (entries_read HI' HE) as Q'. destruct (readSection i1 "result.config" false) as [i2 f2]. cbn [snd fst] in *. subst f2. reflexivity.
Qed.
Lemma readLayers_ok d i c att rs lay ls conc dist area det :
  holds i d -> entries d "attenuators" att -> Forall2 (describes_line readDouble (c_materials c)) att rs ->
  (if is_multilayer rs then entries d "multilayer" lay /\ Forall2 (describes_layer readDouble (c_materials c)) lay ls else ls = []) ->
  entries d "concentrations" conc -> value_in readDouble d "distance" dist -> value_in readDouble d "area" area ->
  placed (last (detectors_in rs) (detector_new "" n0 n0 n1)) dist area det ->
  let '(a, b, g) := last (geometries_in rs) (c_alphaIn c, c_alphaOut c, c_scattering c) in
  readLayers i c = (mkConfig (c_beam c) (c_materials c) (filters_in rs) (sample_in rs ++ layers_in ls)%list (attenuators_in rs) (c_userFilters c) (c_userAttenuators c) (Some 0%Z) a b g det, Ok tt).
Proof.
  intros HI HA HL HM HC VD VA PL. destruct (last (geometries_in rs) _) as [[a b] g] eqn:G. unfold readLayers.
  pose proof (entries_read HI HA) as Q. pose proof (holds_after "attenuators" false HI) as HI'. destruct (readSection i "attenuators" false) as [i1 a1]. cbn [snd fst] in *. subst a1.
  unfold xbind at 1, xmod at 1. cbv beta iota. unfold xbind at 1. rewrite (attenuators_ok HL false (clearLayers c) eq_refl). cbn [orb]. unfold xbind at 1, xmod at 1. cbv beta iota.
  assert (A : putReference (after (clearLayers c) rs) = mkConfig (c_beam c) (c_materials c) (filters_in rs) (sample_in rs) (attenuators_in rs) (c_userFilters c) (c_userAttenuators c) (Some 0%Z) a b g (last (detectors_in rs) (detector_new "" n0 n0 n1))).
  { unfold after, geometry_after. cbn [c_alphaIn c_alphaOut c_scattering clearLayers setDetector putSample setAttenuators setBeamFilters]. rewrite G. reflexivity. }
  rewrite A. clear A. set (c1 := mkConfig _ _ _ _ _ _ _ _ _ _ _ _).
  assert (B : exists i2, holds i2 d /\ (let (i0, lay0) := if is_multilayer rs then readSection i1 "multilayer" false else (i1, []) in
     xbind (xfold (multilayerKey readDouble) lay0 tt) (fun _ => let (_, conc0) := readSection i0 "concentrations" false in xfold (concentrationKey readDouble) conc0 tt)) c1 =
     (let (_, conc0) := readSection i2 "concentrations" false in xfold (concentrationKey readDouble) conc0 tt) (putSample (sample_in rs ++ layers_in ls)%list c1)).
  { destruct (is_multilayer rs).
    - destruct HM as [HE HD]. pose proof (entries_read HI' HE) as Q. pose proof (holds_after "multilayer" false HI') as HI2. destruct (readSection i1 "multilayer" false) as [i2 l2]. cbn [snd fst] in *. subst l2.
      exists i2. split; [exact HI2|]. unfold xbind. rewrite (multilayer_ok HD tt c1 eq_refl). reflexivity.
    - subst ls. exists i1. split; [exact HI'|]. cbn [xfold layers_in flat_map]. rewrite app_nil_r. reflexivity. }
  destruct B as (i2 & HI2 & B). rewrite B. clear B. pose proof (entries_read HI2 HC) as Q. destruct (readSection i2 "concentrations" false) as [i3 l3]. cbn [snd] in Q. subst l3.
  rewrite (@concentrations_ok d conc dist area (putSample (sample_in rs ++ layers_in ls)%list c1) det HC VD VA PL tt). reflexivity.
Qed.
End Whole.
