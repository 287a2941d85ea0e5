(** C62-C65: reading a configuration file. [readDouble] is the conversion of a text to double (operator>>), for any
    number type; 0 < 0 being false is the only law of the numbers used. *)
From Coq Require Import Ascii String List ZArith QArith Bool Arith Lia.
From Verif Require Import Base.Num Base.Res Base.SMap Base.Str Base.Text Model.SimpleIni Model.Beam Model.Material Model.TransmissionTable Model.Layer Model.XRF Model.Multilayer Model.ConfigFile
  Spec.IniSpec Spec.FieldsSpec Spec.ConfigSpec Proofs.IniProofs Proofs.FieldsProofs Properties.IniProps Proofs.ConfigProofs Proofs.ConfigProofs2 Proofs.ConfigProofs3 Proofs.ConfigProofs4 Proofs.ConfigProofs5.
Import ListNotations.
Set Implicit Arguments.
Local Close Scope Q_scope.
Local Open Scope string_scope.

Section Files.
Context {N : Num}.
Variable readDouble : text -> option num.
Variable sortf : list (@ray N) -> list ray.
Local Notation read file := (readConfigurationFromFile readDouble sortf file).

(** ** C62 *)
(** the rows in use, as a call of setBeam *)
Definition set_rows (c : @config N) (rows : list (@beam_row N)) : res (@beam N) :=
  setBeam sortf (c_beam c) (map (@br_energy N) rows) (map (@br_weight N) rows) (map (fun r => Z.max 0 (br_char r)) rows) [].
Lemma set_rows_of c rows : set_rows c rows = beam_of sortf c rows.
Proof.
  unfold set_rows, beam_of. f_equal. apply map_ext. intros r. unfold noneg. destruct (br_char r <? 0)%Z eqn:Q; [apply Z.ltb_lt in Q|apply Z.ltb_ge in Q]; lia.
Qed.
Definition beam_outcome (c : @config N) (used : list (@beam_row N)) (r : @config N * res unit) : Prop :=
  if existsb (@br_wrong N) used then r = (c, Throw InvalidArgument)
  else match set_rows c used with
       | Ok b => c_beam (fst r) = b
       | Throw e => r = (c, Throw e)
       | UB => r = (c, UB)
       | Diverge => r = (c, Diverge)
       end.
Lemma beam_stage d s i i' fit rows c : holds i d -> (forall k, mfind sltb k fit = value_of d s k) -> beam_rows readDouble d s rows ->
  readConfiguration readDouble sortf i = xbind (readBeam readDouble sortf fit) (fun _ => readRest readDouble i') ->
  beam_outcome c (filter (@br_used N) rows) (readConfiguration readDouble sortf i c).
Proof.
  intros HI HF HR E. unfold beam_outcome. rewrite E. unfold xbind. rewrite (@readBeam_rows N readDouble sortf d s fit rows c HF HR). rewrite set_rows_of. destruct (existsb _ _); [reflexivity|].
  destruct (beam_of sortf c (filter _ rows)) as [b|e| |]; try reflexivity. cbn [xrf_setBeam_result]. rewrite (rest_frame readDouble i' (xrf_setBeam c b)). reflexivity.
Qed.
(** The beam is that of the rows in use of [fit] (or [result.config]); a row in use with an energy that is not
    positive or a negative weight is an error and changes nothing. *)
Theorem C62_beam (d : document) (fit : list (string * string)) (rows : list (@beam_row N)) (c : @config N) :
  Forall line_ok d -> entries d "fit" fit -> fit <> [] -> beam_rows readDouble d "fit" rows ->
  beam_outcome c (filter (@br_used N) rows) (read (Some (document_text d)) c).
Proof.
  intros Hd HE NE HR. destruct (holds_read Hd) as (i & E & HI). unfold readConfigurationFromFile. rewrite E. unfold xbind at 1, xlift. cbv beta iota.
  destruct (read_fit readDouble sortf HI HE NE) as (i' & _ & Q). exact (@beam_stage d "fit" i i' fit rows c HI (proj1 (proj2 HE)) HR Q).
Qed.
Theorem C62_result (d : document) (fit : list (string * string)) (rows : list (@beam_row N)) (c : @config N) :
  Forall line_ok d -> entries d "fit" [] -> entries d "result.config" fit -> fit <> [] -> beam_rows readDouble d "result.config" rows ->
  beam_outcome c (filter (@br_used N) rows) (read (Some (document_text d)) c).
Proof.
  intros Hd HF HE NE HR. destruct (holds_read Hd) as (i & E & HI). unfold readConfigurationFromFile. rewrite E. unfold xbind at 1, xlift. cbv beta iota.
  destruct (read_result readDouble sortf HI HF HE NE) as (i' & _ & Q). exact (@beam_stage d "result.config" i i' fit rows c HI (proj1 (proj2 HE)) HR Q).
Qed.
(** Other files are rejected and change nothing. *)
Theorem C62_rejected (c : @config N) :
  read None c = (c, Throw IosFailure) /\
  (forall t e, snd (readFileName ini_new (Some t)) = Throw e -> read (Some t) c = (c, Throw e)) /\
  (forall d, Forall line_ok d -> entries d "fit" [] -> entries d "result.config" [] -> read (Some (document_text d)) c = (c, Throw InvalidArgument)).
Proof.
  split; [reflexivity|]. split.
  - intros t e E. unfold readConfigurationFromFile. destruct (readFileName ini_new (Some t)) as [i r]. cbn [snd] in E. subst r. reflexivity.
  - intros d Hd HF HE. destruct (holds_read Hd) as (i & E & HI). unfold readConfigurationFromFile. rewrite E. exact (read_none readDouble sortf c HI HF HE).
Qed.

(** ** C63 *)
(** the beam is accepted *)
Definition beam_read (d : document) (c : @config N) (b : @beam N) : Prop :=
  exists fit rows, entries d "fit" fit /\ fit <> [] /\ beam_rows readDouble d "fit" rows /\
    existsb (@br_wrong N) (filter (@br_used N) rows) = false /\ set_rows c (filter (@br_used N) rows) = Ok b.
Lemma after_beam d c b : Forall line_ok d -> beam_read d c b -> exists i, holds i d /\ read (Some (document_text d)) c = readRest readDouble i (xrf_setBeam c b).
Proof.
  intros Hd (fit & rows & HE & NE & HR & NW & SB). destruct (holds_read Hd) as (i & E & HI). destruct (read_fit readDouble sortf HI HE NE) as (i' & HI' & Q).
  exists i'. split; [exact HI'|]. unfold readConfigurationFromFile. rewrite E. unfold xbind at 1, xlift. cbv beta iota. rewrite Q. unfold xbind.
  rewrite (@readBeam_rows N readDouble sortf d "fit" fit rows c (proj1 (proj2 HE)) HR). rewrite NW, <- set_rows_of, SB. reflexivity.
Qed.
(** the materials the file describes, in the order of its sections *)
Definition file_materials (d : document) (ms : list (@material N)) : Prop :=
  exists secs names, subsections d "Materials" secs /\ Forall2 (named "Materials") secs names /\
    Forall2 (fun sx m => describes_material readDouble d (fst sx) (snd sx) m) (combine secs names) ms.
Definition file_tables (parent : string) (d : document) (ts : list (@ttable N)) : Prop :=
  exists secs names rs, subsections d parent secs /\ Forall2 (named parent) secs names /\
    Forall2 (fun sx r => describes_table readDouble d (fst sx) (snd sx) r) (combine secs names) rs /\ ts = chosen_tables rs.
(** Whatever follows in the file, and whatever was there before, these are the materials, *)
Theorem C63_materials (d : document) (c : @config N) (b : @beam N) (ms : list (@material N)) :
  Forall line_ok d -> beam_read d c b -> file_materials d ms -> c_materials (fst (read (Some (document_text d)) c)) = ms.
Proof.
  intros Hd HB (secs & names & HS & HN & HM). destruct (after_beam Hd HB) as (i & HI & ->). unfold readRest, xbind at 1. rewrite (readMaterials_ok (xrf_setBeam c b) HI HS HN HM).
  destruct (tables_frame readDouble i (putMaterials ms (xrf_setBeam c b))) as [_ Q]. exact Q.
Qed.
Lemma fold_addFilter ts : forall c : @config N, fold_left (fun c t => addUserFilter t c) ts c = setUserBeamFilters c (c_userFilters c ++ ts)%list.
Proof. induction ts as [|t ts IH]; intros c; cbn [fold_left]; [rewrite app_nil_r; destruct c; reflexivity|]. rewrite IH. unfold addUserFilter. cbn. rewrite <- app_assoc. reflexivity. Qed.
Lemma fold_addAttenuator ts : forall c : @config N, fold_left (fun c t => addUserAttenuator t c) ts c = setUserAttenuators c (c_userAttenuators c ++ ts)%list.
Proof. induction ts as [|t ts IH]; intros c; cbn [fold_left]; [rewrite app_nil_r; destruct c; reflexivity|]. rewrite IH. unfold addUserAttenuator. cbn. rewrite <- app_assoc. reflexivity. Qed.
Hypothesis ZERO : nltb (@n0 N) n0 = false.
Lemma after_tables d c b ms uf ua : Forall line_ok d -> beam_read d c b -> file_materials d ms -> file_tables "UserBeamFilters" d uf -> file_tables "UserAttenuators" d ua ->
  exists i, holds i d /\ read (Some (document_text d)) c = readLayers readDouble i (setUserAttenuators (setUserBeamFilters (putMaterials ms (xrf_setBeam c b)) uf) ua).
Proof.
  intros Hd HB (secs & names & HS & HN & HM) (s1 & n1' & r1 & HS1 & HN1 & HT1 & ->) (s2 & n2 & r2 & HS2 & HN2 & HT2 & ->). destruct (after_beam Hd HB) as (i & HI & ->). exists i. split; [exact HI|].
  unfold readRest, xbind at 1. rewrite (readMaterials_ok (xrf_setBeam c b) HI HS HN HM). unfold readUserFilters, xbind at 1.
  rewrite (@readUser_ok N readDouble ZERO "UserBeamFilters" _ _ i d s1 n1' r1 _ ltac:(discriminate) ltac:(cbn; intuition discriminate) HI HS1 HN1 HT1). rewrite fold_addFilter.
  unfold readUserAttenuators, xbind at 1.
  rewrite (@readUser_ok N readDouble ZERO "UserAttenuators" _ _ i d s2 n2 r2 _ ltac:(discriminate) ltac:(cbn; intuition discriminate) HI HS2 HN2 HT2). rewrite fold_addAttenuator. reflexivity.
Qed.
(** and these the user's tables: those to be used. *)
Theorem C63_tables (d : document) (c : @config N) (b : @beam N) (ms : list (@material N)) (uf ua : list (@ttable N)) :
  Forall line_ok d -> beam_read d c b -> file_materials d ms -> file_tables "UserBeamFilters" d uf -> file_tables "UserAttenuators" d ua ->
  let c' := fst (read (Some (document_text d)) c) in c_userFilters c' = uf /\ c_userAttenuators c' = ua.
Proof.
  intros Hd HB HM HF HA. cbv zeta. destruct (after_tables Hd HB HM HF HA) as (i & HI & ->).
  destruct (layers_tables readDouble i (setUserAttenuators (setUserBeamFilters (putMaterials ms (xrf_setBeam c b)) uf) ua)) as (_ & _ & -> & ->). split; reflexivity.
Qed.

(** ** C64 *)
(** The whole configuration: beam, materials and tables as above; every line of [attenuators] in use is a filter, a
    detector, a sample, the multilayer or an attenuator, in the alphabetical order of the keys; the multilayer follows;
    of several geometries and detectors the last one counts; without a geometry the old one stays. *)
Theorem C64_file (d : document) (c : @config N) b ms uf ua att rs lay ls conc dist area det :
  Forall line_ok d -> beam_read d c b -> file_materials d ms -> file_tables "UserBeamFilters" d uf -> file_tables "UserAttenuators" d ua ->
  entries d "attenuators" att -> Forall2 (describes_line readDouble ms) att rs ->
  (if is_multilayer rs then entries d "multilayer" lay /\ Forall2 (describes_layer readDouble ms) lay ls else ls = []) ->
  entries d "concentrations" conc -> value_in readDouble d "distance" dist -> value_in readDouble d "area" area ->
  placed (last (detectors_in rs) (detector_new "" n0 n0 n1)) dist area det ->
  let '(a, b', g) := last (geometries_in rs) (c_alphaIn c, c_alphaOut c, c_scattering c) in
  read (Some (document_text d)) c =
    (mkConfig b ms (filters_in rs) (sample_in rs ++ layers_in ls)%list (attenuators_in rs) uf ua (Some 0%Z) a b' g det, Ok tt).
Proof.
  intros Hd HB HM HF HA H1 H2 H3 H4 H5 H6 H7. destruct (after_tables Hd HB HM HF HA) as (i & HI & E).
  pose proof (@readLayers_ok N readDouble d i (setUserAttenuators (setUserBeamFilters (putMaterials ms (xrf_setBeam c b)) uf) ua) att rs lay ls conc dist area det HI H1 H2 H3 H4 H5 H6 H7) as Q.
  change (c_alphaIn (setUserAttenuators (setUserBeamFilters (putMaterials ms (xrf_setBeam c b)) uf) ua)) with (c_alphaIn c) in Q.
  change (c_alphaOut (setUserAttenuators (setUserBeamFilters (putMaterials ms (xrf_setBeam c b)) uf) ua)) with (c_alphaOut c) in Q.
  change (c_scattering (setUserAttenuators (setUserBeamFilters (putMaterials ms (xrf_setBeam c b)) uf) ua)) with (c_scattering c) in Q.
  destruct (last (geometries_in rs) _) as [[a b'] g]. rewrite E, Q. reflexivity.
Qed.
End Files.

(** ** C65 *)
Section Independence.
Context {N : Num}.
Variable readDouble : text -> option num.
Variable sortf : list (@ray N) -> list ray.
Local Notation read file := (readConfigurationFromFile readDouble sortf file).
Definition geometry (c : @config N) := (c_alphaIn c, c_alphaOut c, c_scattering c).
Definition same_but_geometry (c1 c2 : @config N) : Prop :=
  c_beam c1 = c_beam c2 /\ c_materials c1 = c_materials c2 /\ c_filters c1 = c_filters c2 /\ c_sample c1 = c_sample c2 /\ c_attenuators c1 = c_attenuators c2 /\
  c_userFilters c1 = c_userFilters c2 /\ c_userAttenuators c1 = c_userAttenuators c2 /\ c_reference c1 = c_reference c2 /\ c_detector c1 = c_detector c2.
(** For every file, well-formed or not: the outcome does not depend on the object, and after a success the
    objects agree, except that a file without geometry leaves the one of each object. *)
Theorem C65_independent (file : option text) (c1 c2 : @config N) :
  snd (read file c1) = snd (read file c2) /\
  (snd (read file c1) = Ok tt ->
     same_but_geometry (fst (read file c1)) (fst (read file c2)) /\
     (geometry (fst (read file c1)) = geometry (fst (read file c2)) \/
      (geometry (fst (read file c1)) = geometry c1 /\ geometry (fst (read file c2)) = geometry c2))).
Proof.
  destruct (@alike_file N readDouble sortf (geometry c1) (geometry c2) file c1 c2) as [E H]; [right; split; reflexivity|].
  split; [exact E|]. intros O. destruct (H tt O) as [[[[[[G B] M] UF] UA] (F & S & A & D)] R]. split; [|exact G]. repeat split; assumption.
Qed.
(** Reading the file again changes nothing. *)
Theorem C65_again (file : option text) (c : @config N) :
  snd (read file c) = Ok tt -> read file (fst (read file c)) = (fst (read file c), Ok tt).
Proof.
  intros O. destruct (C65_independent file c (fst (read file c))) as [E H]. destruct (H O) as (S & G). rewrite O in E.
  destruct (read file (fst (read file c))) as [c2 r2] eqn:Q. cbn [fst snd] in *. subst r2. f_equal.
  destruct S as (S1 & S2 & S3 & S4 & S5 & S6 & S7 & S8 & S9). destruct (fst (read file c)), c2. unfold geometry in G. cbn in *.
  assert (GG : (c_alphaIn, c_alphaOut, c_scattering) = (c_alphaIn0, c_alphaOut0, c_scattering0)) by (destruct G as [G|[_ G]]; [exact G|symmetry; exact G]).
  injection GG as -> -> ->. subst. reflexivity.
Qed.
End Independence.

Print Assumptions C62_beam.
Print Assumptions C62_result.
Print Assumptions C62_rejected.
Print Assumptions C63_materials.
Print Assumptions C63_tables.
Print Assumptions C64_file.
Print Assumptions C65_independent.
Print Assumptions C65_again.
