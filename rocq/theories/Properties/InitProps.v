(** C69: a new library of elements. *)
From Coq Require Import Ascii String List ZArith QArith Reals Bool Arith Lia Lra Sorted.
From Verif Require Import Base.Num Base.Res Base.SMap Base.Str Base.Text Base.ListLemmas Model.Shell Model.Specfile Model.EPDL97 Model.Element Model.Elements Model.ElementsFiles
  Spec.MaterialSpec Spec.ElementSpec Spec.ElementsSpec Spec.FilesSpec Spec.InitSpec Proofs.MathProofs Proofs.ElementProofs Proofs.ElementProofs4 Proofs.InitProofs Proofs.InitProofs2 Proofs.InitProofs3 Proofs.InitProofs4.
Import ListNotations.
Set Implicit Arguments.
Local Close Scope Q_scope.
Local Open Scope string_scope.

(** What a new library holds: the data base of its directory, with the binding energies of the file
    given if any; the elements from H to Mt in order; no materials; the names of the files read. *)
Theorem C69_library {N : Num} (strtod : text -> num) fs directory bindingFile lb :
  initialize strtod fs directory bindingFile = Ok lb ->
  (exists ep, setDataDirectory strtod fs directory epdl_new = (ep, Ok tt) /\
     (bindingFile = "" -> lb_epdl lb = ep) /\ (bindingFile <> "" -> loadBindingEnergies strtod ep (fs bindingFile) = (lb_epdl lb, Ok tt))) /\
  getElementNames (lb_es lb) = symbols /\ getMaterialNames (lb_es lb) = [] /\
  (forall s, ~ In s symbols -> getElement (lb_es lb) s = Throw InvalidArgument) /\
  forall m, In m ["K"; "L"; "M"] ->
    getShellConstantsFile lb m = Ok (directory ++ "//" ++ eadl97 m "Constants") /\
    getShellRadiativeTransitionsFile lb m = Ok (directory ++ "//" ++ eadl97 m "RadiativeRates") /\
    getShellNonradiativeTransitionsFile lb m = Ok (directory ++ "//" ++ eadl97 m "NonradiativeRates").
Proof.
  intros H. destruct (@init_ok N strtod fs false directory bindingFile lb H) as (ep0 & l & ED & EP & _ & _ & _ & FN). destruct (@init_elements N strtod fs false directory bindingFile lb H) as (NM & ES & _).
  split; [|split; [exact NM|split; [rewrite ES; reflexivity|split; [|exact FN]]]].
  - exists ep0. split; [exact ED|]. destruct (string_dec bindingFile "") as [B|B]; split; intros C; try contradiction; exact EP.
  - intros s NI. unfold getElement, isElementNameDefined. destruct (Nat.eqb _ 0); [reflexivity|]. rewrite ES. cbn [with_elements es_dict]. unfold mmem.
    destruct (mfind sltb s (dict_of symbols)) as [i|] eqn:F; [|reflexivity]. exfalso. apply NI. unfold dict_of in F. apply mset_all_In in F; [|exact symbols_nodup]. apply in_combine_l in F. exact F.
Qed.
Print Assumptions C69_library.

Lemma init_get {N : Num} (strtod : text -> num) fs directory bindingFile lb : initialize strtod fs directory bindingFile = Ok lb ->
  forall n s, nth_error symbols n = Some s -> exists e d e1, getElement (lb_es lb) s = Ok e /\ el_name e = s /\ nth_error (@defaultElements N) n = Some d /\
    i_z d = (Z.of_nat n + 1)%Z /\ predefined (lb_epdl lb) d = Ok e1 /\ kept e1 e.
Proof.
  intros H n s Hn. destruct (@init_elements N strtod fs false directory bindingFile lb H) as (NM & ES & EL).
  assert (LN : length (es_list (lb_es lb)) = length symbols) by (rewrite <- NM; symmetry; apply map_length).
  destruct (nth_error (es_list (lb_es lb)) n) as [e|] eqn:E.
  2:{ apply nth_error_None in E. assert (Q : nth_error symbols n <> None) by congruence. apply nth_error_Some in Q. lia. }
  assert (EN : el_name e = s). { pose proof (map_nth_error (@el_name N) n _ E) as Q. rewrite NM, Hn in Q. congruence. }
  destruct (EL n e E) as (d & e1 & calls & D & P & _ & _ & K). exists e, d, e1. split.
  { unfold getElement, isElementNameDefined, elementAt. assert (SN : Nat.eqb (String.length s) 0 = false).
    { apply nth_error_In in Hn. clear -Hn. assert (F : Forall (fun s => Nat.eqb (String.length s) 0 = false) symbols) by (repeat constructor). rewrite Forall_forall in F. apply F, Hn. }
    rewrite SN, ES. cbn [with_elements es_dict]. assert (MF : mfind sltb s (dict_of symbols) = Some n).
    { unfold dict_of. apply mset_all_In; [exact symbols_nodup|]. clear -Hn. assert (X : forall (l : list string) k m, nth_error l m = Some s -> In (s, (k + m)%nat) (combine l (seq k (length l)))).
      { induction l as [|a l IH]; intros k [|m] Q; cbn in Q; try discriminate; cbn [length seq combine]; [injection Q as ->; left; now rewrite Nat.add_0_r|]. right. rewrite <- Nat.add_succ_comm. apply IH, Q. }
      exact (X symbols 0%nat n Hn). }
    unfold mmem. rewrite MF. cbn [of_opt rbind]. unfold vget. cbn [with_elements es_list]. rewrite E. reflexivity. }
  split; [exact EN|]. split; [exact D|]. split; [|split; [exact P|exact K]].
  pose proof (map_nth_error (fun d : @info N => (i_symbol d, i_z d)) n _ D) as Q. rewrite default_symbols in Q.
  clear -Q Hn. assert (X : forall (l : list string) k m, nth_error (combine l (map Z.of_nat (seq k (length l)))) m = option_map (fun s => (s, Z.of_nat (k + m))) (nth_error l m)).
  { induction l as [|a l IH]; intros k [|m]; cbn [length seq map combine nth_error]; try reflexivity; [cbn; now rewrite Nat.add_0_r|]. rewrite IH. destruct (nth_error l m); cbn; [do 3 f_equal; lia|reflexivity]. }
  change 109%nat with (length symbols) in Q. rewrite X, Hn in Q. cbn [option_map] in Q. injection Q as _ <-. lia.
Qed.

(** Every predefined element: found under its symbol; its atomic number is its place in the list; its
    binding energies and mass attenuation coefficients are those of the data base. *)
Theorem C69_elements {N : Num} (strtod : text -> num) fs directory bindingFile lb :
  initialize strtod fs directory bindingFile = Ok lb ->
  forall n s, nth_error symbols n = Some s -> let z := (Z.of_nat n + 1)%Z in
    exists e b t, getElement (lb_es lb) s = Ok e /\ el_name e = s /\ el_z e = z /\
      EPDL97.getBindingEnergies (lb_epdl lb) z = Ok b /\ (forall k, val0 (getBindingEnergies e) k = val0 b k) /\
      getMassAttenuationTables (lb_epdl lb) z = Ok t /\ has_tables e t.
Proof.
  intros H n s Hn z. assert (MP := @init_maps N strtod fs directory bindingFile lb H). destruct (init_get _ _ _ _ H n Hn) as (e & d & e1 & G & EN & D & ZD & P & K). fold z in ZD.
  destruct (predefined_ok false _ MP P) as (e0 & b & t & _ & B1 & T1 & _ & _ & _ & _ & Z1 & _ & _ & _ & _ & V & _ & MU).
  rewrite ZD in B1, T1, Z1. exists e, b, t. destruct K as (K1 & _ & K3 & _ & _ & _ & _ & K8 & K9 & _).
  split; [exact G|]. split; [exact EN|]. split; [rewrite K3; exact Z1|]. split; [exact B1|]. split; [intros k; unfold getBindingEnergies; rewrite K8; apply V|]. split; [exact T1|].
  unfold has_tables, getMassAttenuationCoefficients_all. rewrite K9, MU. repeat constructor.
Qed.
Print Assumptions C69_elements.

(** Every new library comes from registering elements built by successful calls: whatever is proved
    of all histories of registrations and of calls holds of it. *)
Theorem C69_history {N : Num} (strtod : text -> num) fs directory bindingFile lb tostr depth fuel lf :
  initialize strtod fs directory bindingFile = Ok lb ->
  exists els, lb_es lb = es_run tostr depth fuel lf elements_empty (map RAdd els) /\ map el_name els = symbols /\
    Forall (fun e => exists e0 ops, fresh e0 /\ all_ok lf e0 ops /\ e = el_run lf e0 ops) els.
Proof.
  intros H. destruct (@init_elements N strtod fs lf directory bindingFile lb H) as (NM & ES & EL). assert (MP := @init_maps N strtod fs directory bindingFile lb H). exists (es_list (lb_es lb)).
  split; [|split; [exact NM|]].
  - rewrite <- registry by (rewrite NM; exact symbols_nodup). rewrite NM. exact ES.
  - apply Forall_forall. intros e He. apply In_nth_error in He. destruct He as [n Hn]. destruct (EL n e Hn) as (d & e1 & calls & _ & P & O & R & _).
    destruct (predefined_ok lf _ MP P) as (e0 & b & t & E0 & _ & _ & O1 & R1 & _). exists e0, (predefined_calls d b t ++ calls)%list.
    split; [right; exists (i_symbol d), (i_z d); exact E0|]. rewrite el_run_app, <- R1. split; [apply all_ok_app; rewrite <- R1; split; assumption|exact R].
Qed.
Print Assumptions C69_history.

(** The atomic data of the predefined elements: masses between Z and 3 Z, densities between 0 and 25. *)
Section Data.
Local Existing Instance RNum.
Lemma default_data : Forall (fun d : @info RNum => (IZR (i_z d) <= i_mass d <= 3 * IZR (i_z d))%R /\
  (0 < (if Rltb (Rlit 1 (-10)) (i_density d) then i_density d / Rlit 1000 0 else 1) < 25)%R) defaultElements.
Proof.
  repeat (constructor; [cbn [i_z i_mass i_density]; change (@nlit RNum) with Rlit; split;
    [unfold Rlit; simpl; lra|match goal with |- context [Rltb ?a ?b] => destruct (Rltb_spec a b) end; unfold Rlit in *; simpl in *; lra]|]). constructor.
Qed.
Theorem C69_atomic_data (strtod : text -> R) fs directory bindingFile lb :
  initialize strtod fs directory bindingFile = Ok lb ->
  forall n s, nth_error symbols n = Some s -> exists e a, getElement (lb_es lb) s = Ok e /\ getAtomicMass e = Ok a /\
    (INR (n + 1) <= a <= 3 * INR (n + 1))%R /\ (0 < el_density e < 25)%R.
Proof.
  intros H n s Hn. assert (MP := @init_maps RNum strtod fs directory bindingFile lb H). destruct (init_get _ _ _ _ H n Hn) as (e & d & e1 & G & EN & D & ZD & P & K).
  destruct (predefined_ok false _ MP P) as (_ & _ & _ & _ & _ & _ & _ & _ & _ & _ & _ & M1 & _ & _ & D1 & _).
  exists e, (i_mass d). destruct K as (K1 & _ & K3 & K4 & K5 & _). split; [exact G|]. unfold getAtomicMass. rewrite K4, M1. split; [reflexivity|].
  pose proof default_data as F. rewrite Forall_forall in F. specialize (F d (nth_error_In _ _ D)). rewrite ZD in F.
  assert (IN : IZR (Z.of_nat n + 1) = INR (n + 1)) by (rewrite INR_IZR_INZ; f_equal; lia). rewrite IN in F. rewrite K5, D1. exact F.
Qed.
End Data.
Print Assumptions C69_atomic_data.

(** The constructors: with no files of their own they are the same initialisation. A library is never
    made from an empty directory name, nor when any of its files is missing. *)
Theorem C69_constructors {N : Num} (strtod : text -> num) fs directory :
  (forall bindingFile, elements_files strtod fs directory bindingFile "" = initialize strtod fs directory bindingFile) /\
  (directory <> "" -> forall dataDir, elements_directory strtod fs dataDir directory = initialize strtod fs directory "") /\
  (forall dataDir, elements_directory strtod fs dataDir "" = initialize strtod fs dataDir "") /\
  (directory <> "" -> elements_pymca strtod fs directory 0 = initialize strtod fs directory "") /\
  (forall k, elements_pymca strtod fs "" k = Throw OutOfRange) /\ (forall b, initialize strtod fs "" b = Throw OutOfRange).
Proof.
  assert (S0 : directory <> "" -> Nat.eqb (String.length directory) 0 = false) by (destruct directory; [congruence|reflexivity]).
  split; [intros b; unfold elements_files; destruct (initialize _ _ _ _); reflexivity|]. split; [intros D dd; unfold elements_directory; rewrite S0 by exact D; reflexivity|].
  split; [reflexivity|]. split; [intros D; unfold elements_pymca; rewrite S0 by exact D; reflexivity|]. split; reflexivity.
Qed.
Print Assumptions C69_constructors.
Theorem C69_missing_file {N : Num} (strtod : text -> num) fs directory bindingFile f :
  In f ("EADL97_BindingEnergies.dat" :: "EPDL97_CrossSections.dat" ::
        flat_map (fun m => map (eadl97 m) ["Constants"; "RadiativeRates"; "NonradiativeRates"]) ["K"; "L"; "M"]) ->
  fs (directory ++ "//" ++ f) = None -> forall lb, initialize strtod fs directory bindingFile <> Ok lb.
Proof.
  intros IN FN lb H. destruct (@init_ok N strtod fs false directory bindingFile lb H) as (ep0 & l & ED & _ & _ & _ & X & _).
  destruct IN as [<-|[<-|IN]].
  - unfold setDataDirectory in ED. cbv zeta in ED. rewrite FN in ED. destruct (Nat.eqb _ 0); discriminate.
  - unfold setDataDirectory in ED. cbv zeta in ED. rewrite FN in ED. destruct (Nat.eqb _ 0); [discriminate|]. destruct (loadBindingEnergies strtod epdl_new _) as [e1 [[]| | |]]; discriminate.
  - apply (X f); [|exact FN]. cbn in IN. unfold eadl_names. cbn. tauto.
Qed.
Print Assumptions C69_missing_file.

(** Example, with exact rationals: a directory from which a library is made. *)
Section Example.
Local Existing Instance QNum.
Definition ex_nl : string := String (ascii_of_nat 10) "".
Definition ex_digits (t : text) : Q := inject_Z (fold_left (fun z c => (10 * z + Z.of_nat (nat_of_ascii c) - 48)%Z) t 0%Z).
Definition ex_binding : string :=
  "#S 1 binding" ++ ex_nl ++ "#N 10" ++ ex_nl ++ "#L Z  K(eV)  L1(eV)  L2(eV)  L3(eV)  M1(eV)  M2(eV)  M3(eV)  M4(eV)  M5(eV)" ++ ex_nl ++
  String.concat "" (map (fun _ => "1 9 8 7 6 5 4 3 2 1" ++ ex_nl) (seq 0 99)).
Definition ex_cross : string :=
  String.concat "" (map (fun _ =>
  "#S 1 element" ++ ex_nl ++ "#L energy  compton  coherent  photoelectric  total  K  L1  L2  L3  M1  M2  M3  M4  M5  allother" ++ ex_nl ++
  "1 1 1 7 9 0 3 1 1 0 0 0 0 0 1" ++ ex_nl ++ "3 1 1 30 32 20 4 2 2 0 0 0 0 0 1" ++ ex_nl ++ ex_nl) (seq 0 99)).
Definition ex_scans (label : string) (subs : list string) : string :=
  String.concat "" (map (fun s => "#S 1 shell" ++ ex_nl ++ "#L Z  " ++ label ++ s ++ ex_nl ++ String.concat "" (map (fun _ => "1 0" ++ ex_nl) (seq 0 99)) ++ ex_nl) subs).
Definition ex_trans (labels : list string) : string :=
  String.concat "" (map (fun s => "#S 1 shell" ++ ex_nl ++ "#L Z  " ++ s ++ ex_nl ++ String.concat "" (map (fun _ => "1 1" ++ ex_nl) (seq 0 99)) ++ ex_nl) labels).
Definition ex_files (name : string) : option text :=
  option_map list_ascii_of_string
  (if String.eqb name "d//EADL97_BindingEnergies.dat" then Some ex_binding
  else if String.eqb name "d//EPDL97_CrossSections.dat" then Some ex_cross
  else if String.eqb name "d//EADL97_KShellConstants.dat" then Some (ex_scans "omega" ["K"])
  else if String.eqb name "d//EADL97_LShellConstants.dat" then Some (ex_scans "omega" ["L1"; "L2"; "L3"])
  else if String.eqb name "d//EADL97_MShellConstants.dat" then Some (ex_scans "omega" ["M1"; "M2"; "M3"; "M4"; "M5"])
  else if String.eqb name "d//EADL97_KShellRadiativeRates.dat" then Some (ex_trans ["KL3"])
  else if String.eqb name "d//EADL97_LShellRadiativeRates.dat" then Some (ex_trans ["L1M3"; "L2M4"; "L3M5"])
  else if String.eqb name "d//EADL97_MShellRadiativeRates.dat" then Some (ex_trans ["M1N3"; "M2N4"; "M3N5"; "M4N6"; "M5N7"])
  else if String.eqb name "d//EADL97_KShellNonradiativeRates.dat" then Some (ex_trans ["KL1L3"])
  else if String.eqb name "d//EADL97_LShellNonradiativeRates.dat" then Some (ex_trans ["L1M3M3"; "L2M4M4"; "L3M5M5"])
  else if String.eqb name "d//EADL97_MShellNonradiativeRates.dat" then Some (ex_trans ["M1N3N3"; "M2N4N4"; "M3N5N5"; "M4N6N6"; "M5N7N7"])
  else None).
Definition ex_library : res (@library QNum) := initialize ex_digits ex_files "d" "".
Local Notation qnum := (@num QNum).
Definition ex_look (lb : @library QNum) : res (@element QNum) := @getElement QNum (@lb_es QNum lb) "Fe".
Definition ex_seen (e : @element QNum) : Z * option qnum * option (list qnum) * option (list qnum) * res (list (string * qnum)) :=
  (@el_z QNum e, mfind sltb "K" (@getBindingEnergies QNum e), mfind sltb "energy" (@getMassAttenuationCoefficients_all QNum e),
   mfind sltb "photoelectric" (@getMassAttenuationCoefficients_all QNum e), @getRadiativeTransitions QNum e "K").
Definition ex_iron (r : res (@library QNum)) := match r with Ok lb => match ex_look lb with Ok e => Some (ex_seen e) | _ => None end | _ => None end.
Definition ex_expected : Z * option qnum * option (list qnum) * option (list qnum) * res (list (string * qnum)) :=
  (26%Z, Some (9 # 1)%Q, Some [(1 # 1)%Q; (3 # 1)%Q], Some [(7 # 1)%Q; (30 # 1)%Q], Ok [("KL3", (1 # 1)%Q)]).
Lemma ex_found r x : ex_iron r = Some x -> exists lb e, r = Ok lb /\ ex_look lb = Ok e /\ ex_seen e = x.
Proof.
  destruct r as [lb| | |]; try discriminate. cbn [ex_iron]. destruct (ex_look lb) as [e| | |] eqn:G; try discriminate. intros E. exists lb, e.
  split; [reflexivity|]. split; [exact G|]. exact (f_equal (fun o => match o with Some x => x | None => x end) E).
Qed.
Lemma ex_check : ex_iron ex_library = Some ex_expected.
Proof. vm_cast_no_check (eq_refl (Some ex_expected)). Qed.
Theorem C69_example : exists lb e, ex_library = Ok lb /\ ex_look lb = Ok e /\ ex_seen e = ex_expected.
Proof. exact (ex_found ex_library ex_check). Qed.
End Example.
Print Assumptions C69_example.
