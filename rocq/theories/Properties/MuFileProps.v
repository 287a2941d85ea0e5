(** C74: a file of mass attenuation coefficients. *)
From Coq Require Import Ascii String List ZArith Reals Bool Arith Lia Lra.
From Verif Require Import Base.Num Base.Res Base.SMap Base.Str Base.Text Base.ListLemmas Model.Shell Model.Specfile Model.EPDL97 Model.Element Model.Elements Model.ElementsFiles
  Spec.ShellSpec Spec.MaterialSpec Spec.ElementSpec Spec.ElementsSpec Spec.InitSpec Spec.MergeSpec Spec.EPDL97Spec Spec.FilesSpec Spec.MuFileSpec Proofs.ElementProofs Proofs.ElementProofs2 Proofs.ElementProofs3 Proofs.ElementProofs4 Proofs.ElementsProofs Proofs.EPDL97Proofs7 Proofs.InitProofs Proofs.MergeProofs Properties.ElementsProps Properties.InitProps Proofs.MergeExample Properties.MergeProps Proofs.MuFileProofs Proofs.MuFileProofs2.
Import ListNotations.
Set Implicit Arguments.
Local Open Scope string_scope.

Lemma get_at {N : Num} (a b : @elements N) name i : es_dict a = es_dict b -> mfind sltb name (es_dict b) = Some i -> nth_error (es_list a) i = nth_error (es_list b) i -> getElement a name = getElement b name.
Proof. intros D F L. unfold getElement, isElementNameDefined, elementAt. rewrite D, F. cbn [of_opt rbind]. unfold vget. rewrite L. reflexivity. Qed.
Lemma in_firstn {A} (l : list A) d i x : nth_error l i = Some x -> (i < d)%nat -> In x (firstn d l).
Proof. revert d i. induction l as [|a l IH]; intros [|d] [|i] H L; cbn in *; try discriminate; try lia; [injection H as ->; auto|right; apply (IH d i); [exact H|lia]]. Qed.

Lemma from_kept {N : Num} (lb lb' : @library N) d : well_named (lb_es lb) -> from_k lb lb' d -> others_kept lb lb' d.
Proof.
  intros (ND & EX & NM) (D & _ & _ & _ & _ & _ & NS & K) n NI. destruct (String.eqb_spec n "") as [->|NE]; [reflexivity|].
  destruct (mfind sltb n (es_dict (lb_es lb))) as [i|] eqn:F.
  2:{ unfold getElement, isElementNameDefined, mmem. rewrite D, F. destruct (Nat.eqb _ 0); reflexivity. }
  destruct (Nat.le_gt_cases d i) as [L|L]; [apply (get_at _ _ _ D F (K i L))|].
  destruct (nth_error (es_list (lb_es lb)) i) as [e|] eqn:E.
  - exfalso. assert (G : getElement (lb_es lb) n = Ok e).
    { unfold getElement, isElementNameDefined, elementAt, mmem. rewrite F. assert (Z : Nat.eqb (String.length n) 0 = false) by (destruct n; [congruence|reflexivity]). rewrite Z. cbn [of_opt rbind]. unfold vget. rewrite E. reflexivity. }
    apply NI. apply in_firstn with i; [|exact L]. unfold getElementNames. rewrite (map_nth_error el_name _ _ E). f_equal. exact (NM _ _ G).
  - apply (get_at _ _ _ D F). rewrite E. apply nth_error_None. apply nth_error_None in E. pose proof (f_equal (@length string) NS) as Q. unfold getElementNames in Q. rewrite !map_length in Q. lia.
Qed.
Lemma call_applied {N : Num} strtod (lb lb' : @library N) content i out : well_named (lb_es lb) -> es_dict (lb_es lb') = es_dict (lb_es lb) ->
  call_at strtod lb content lb' i out -> scan_applied strtod lb content lb' i out.
Proof.
  intros WN D (name & en & ph & co & cp & pr & e' & lbi & SG & NK & C & E & DI & E'). exists name, en, ph, co, cp, pr, lbi. split; [exact NK|]. split; [exact SG|]. split; [exact C|].
  destruct (@named_place N lb WN name i NK) as (F & _). apply get_at with i; [rewrite D, DI; reflexivity|rewrite DI; exact F|rewrite E, E'; reflexivity].
Qed.

(** A file without scans, or one that cannot be opened, is refused and nothing changes. *)
Theorem C74_refused {N : Num} (strtod : text -> num) fs (lb : @library N) file :
  getNumberOfScans (setFileName (fs file)) = 0%nat -> setMassAttenuationCoefficientsFile strtod fs lb file = (lb, Throw IosFailure).
Proof. intros H. unfold setMassAttenuationCoefficientsFile. cbv zeta. rewrite H. reflexivity. Qed.
Print Assumptions C74_refused.

(** Whatever the outcome: the first d scans went to the first d elements, each as by a direct call; the
    call succeeds when these are all the scans, and otherwise ends at scan d, which either cannot be
    used or is refused by the direct call. Nothing else changes. *)
Theorem C74_any {N : Num} (strtod : text -> num) fs (lb lb' : @library N) file out :
  well_named (lb_es lb) -> (0 < getNumberOfScans (setFileName (fs file)))%nat ->
  setMassAttenuationCoefficientsFile strtod fs lb file = (lb', out) ->
  lb_epdl lb' = lb_epdl lb /\ lb_const lb' = lb_const lb /\ lb_rad lb' = lb_rad lb /\ lb_nonrad lb' = lb_nonrad lb /\
  es_mats (lb_es lb') = es_mats (lb_es lb) /\ getElementNames (lb_es lb') = getElementNames (lb_es lb) /\
  exists d, (forall i, (i < d)%nat -> scan_applied strtod lb (fs file) lb' i (Ok tt)) /\
  ((out = Ok tt /\ (d = getNumberOfScans (setFileName (fs file)))%nat /\ others_kept lb lb' d) \/
     (out <> Ok tt /\ (d < getNumberOfScans (setFileName (fs file)))%nat /\
  (scan_applied strtod lb (fs file) lb' d out /\ others_kept lb lb' (S d) \/ scan_unusable strtod lb (fs file) d /\ others_kept lb lb' d))).
Proof.
  intros WN P H. unfold setMassAttenuationCoefficientsFile in H. cbv zeta in H. rewrite (proj2 (Nat.ltb_ge _ _)) in H by lia.
  assert (FK : from_k lb lb 0%nat) by (unfold from_k; auto 10).
  destruct (@scans_run N strtod lb WN (fs file) _ 0%nat lb lb' out FK H) as (d & L & CD & _ & OUT). cbn [Nat.add] in CD, OUT.
  assert (FR : exists k, from_k lb lb' k) by (destruct OUT as [(_ & _ & X)|(_ & _ & [(_ & X)|(_ & X)])]; eexists; exact X).
  destruct FR as [k (D1 & D2 & D3 & D4 & D5 & D6 & D7 & D8)]. split; [exact D2|]. split; [exact D4|]. split; [exact D5|]. split; [exact D6|]. split; [exact D3|]. split; [exact D7|].
  exists d. split; [intros i I; apply call_applied; [exact WN|exact D1|apply CD; lia]|].
  destruct OUT as [(O & E & X)|(O & LT & [(C & X)|(C & X)])].
  - left. split; [exact O|]. split; [exact E|apply from_kept; assumption].
  - right. split; [exact O|]. split; [exact LT|]. left. split; [apply call_applied; assumption|apply from_kept; assumption].
  - right. split; [exact O|]. split; [exact LT|]. right. split; [exact C|apply from_kept; assumption].
Qed.
Print Assumptions C74_any.

(** Success: there are no more scans than elements, and each scan was given to the element of its place. *)
Theorem C74_file {N : Num} (strtod : text -> num) fs (lb lb' : @library N) file :
  well_named (lb_es lb) -> setMassAttenuationCoefficientsFile strtod fs lb file = (lb', Ok tt) ->
  let n := getNumberOfScans (setFileName (fs file)) in
  (0 < n <= length (getElementNames (lb_es lb)))%nat /\
  (forall i, (i < n)%nat -> scan_applied strtod lb (fs file) lb' i (Ok tt)) /\ others_kept lb lb' n.
Proof.
  intros WN H n. assert (P : (0 < n)%nat).
  { destruct (Nat.eq_dec n 0) as [Z|]; [|lia]. rewrite (C74_refused strtod fs lb file Z) in H. discriminate. }
  destruct (@C74_any N strtod fs lb lb' file (Ok tt) WN P H) as (_ & _ & _ & _ & _ & _ & d & CD & [(_ & -> & K)|(O & _)]); [|destruct (O eq_refl)]. fold n in CD, K. split; [|split; assumption].
  split; [exact P|]. destruct (CD (n - 1)%nat ltac:(lia)) as (name & en & ph & co & cp & pr & lbi & NK & _). assert (Q : nth_error (getElementNames (lb_es lb)) (n - 1) <> None) by congruence.
  apply nth_error_Some in Q. lia.
Qed.
Print Assumptions C74_file.

(** the libraries met: every one that comes from a new library by public calls *)
Lemma reg_well_named {N : Num} (es : @elements N) r : reg_ok es r -> NoDup (getElementNames es) -> ~ In "" (getElementNames es) -> well_named es.
Proof.
  intros R ND NE. split; [exact ND|]. pose proof (fun n => proj1 (getElement_registered es r n R)) as G. destruct R as [A B C E]. split.
  - intros n I. unfold getElementNames in I. apply in_map_iff in I as (e & <- & I). apply In_nth_error in I as [i I]. rewrite G. destruct (String.eqb_spec (el_name e) "") as [Z|_].
    + destruct NE. rewrite <- Z. unfold getElementNames. apply in_map. eapply nth_error_In, I.
    + destruct (B _ _ (E _ _ I)) as (e2 & _ & _ & ->). eauto.
  - intros n e H. rewrite G in H. destruct (String.eqb n ""); [discriminate|]. destruct (r n) as [e2|] eqn:RN; [|discriminate]. apply Ok_inj in H. subst e2.
    destruct (mfind sltb n (es_dict es)) as [i|] eqn:F; [|rewrite (C _ F) in RN; discriminate]. destruct (B _ _ F) as (e3 & _ & N3 & R3). congruence.
Qed.
Theorem C74_well_named {N : Num} (strtod : text -> num) fs directory bindingFile lb tostr depth fuel lf (ops : list es_op) :
  initialize strtod fs directory bindingFile = Ok lb ->
  (forall e, In (RAdd e) ops -> el_name e <> "") ->
  well_named (es_run tostr depth fuel lf (lb_es lb) ops).
Proof.
  intros H NE. destruct (@C69_history N strtod fs directory bindingFile lb tostr depth fuel lf H) as (els & -> & NM & _).
  unfold es_run at 1. unfold es_run at 1. rewrite <- fold_left_app. change (fold_left (fun es o => fst (es_call tostr depth fuel lf es o)) (map RAdd els ++ ops)%list elements_empty) with (es_run tostr depth fuel lf elements_empty (map RAdd els ++ ops)).
  destruct (C29_names tostr depth fuel lf (map RAdd els ++ ops)) as (ND & IN & _). apply (reg_well_named (run_reg tostr depth fuel lf (map RAdd els ++ ops) _ _ empty_reg) ND).
  intros I. apply IN in I as (e & I & Z). apply in_app_iff in I as [I|I]; [|exact (NE e I Z)]. apply in_map_iff in I as (e' & Q & I). injection Q as ->.
  assert (S : In "" symbols) by (rewrite <- NM, <- Z; apply in_map, I). destruct (in_dec string_dec "" symbols) as [K|K] eqn:Q; [vm_compute in Q; discriminate|exact (K S)].
Qed.
Print Assumptions C74_well_named.

(** Such a library stays one, whatever the outcome. *)
Theorem C74_again {N : Num} (strtod : text -> num) fs (lb lb' : @library N) file out :
  well_named (lb_es lb) -> setMassAttenuationCoefficientsFile strtod fs lb file = (lb', out) -> well_named (lb_es lb').
Proof.
  intros WN H. destruct (Nat.eq_dec (getNumberOfScans (setFileName (fs file))) 0) as [Z|Z].
  { rewrite (C74_refused strtod fs lb file Z) in H. injection H as <- _. exact WN. }
  unfold setMassAttenuationCoefficientsFile in H. cbv zeta in H. rewrite (proj2 (Nat.ltb_ge _ _)) in H by lia.
  assert (FK : from_k lb lb 0%nat) by (unfold from_k; auto 10).
  destruct (@scans_run N strtod lb WN (fs file) _ 0%nat lb lb' out FK H) as (d & _ & _ & _ & OUT). cbn [Nat.add] in OUT.
  assert (FR : exists k, from_k lb lb' k) by (destruct OUT as [(_ & _ & X)|(_ & _ & [(_ & X)|(_ & X)])]; eexists; exact X).
  destruct FR as [k (D & _ & _ & _ & _ & _ & NS & _)]. destruct WN as (ND & EX & NM).
  assert (PL : forall i e, nth_error (es_list (lb_es lb')) i = Some e -> exists e0, nth_error (es_list (lb_es lb)) i = Some e0 /\ el_name e0 = el_name e).
  { intros i e E. pose proof (map_nth_error el_name _ _ E) as Q. change (map el_name (es_list (lb_es lb'))) with (getElementNames (lb_es lb')) in Q. rewrite NS in Q. unfold getElementNames in Q.
    rewrite nth_error_map in Q. destruct (nth_error (es_list (lb_es lb)) i) as [e0|]; [|discriminate]. exists e0. split; [reflexivity|]. cbn in Q. congruence. }
  assert (PL' : forall i e0, nth_error (es_list (lb_es lb)) i = Some e0 -> exists e, nth_error (es_list (lb_es lb')) i = Some e).
  { intros i e0 E. assert (Q : nth_error (getElementNames (lb_es lb')) i <> None) by (rewrite NS; unfold getElementNames; rewrite (map_nth_error el_name _ _ E); discriminate).
    apply nth_error_Some in Q. unfold getElementNames in Q. rewrite map_length in Q. apply nth_error_Some in Q. destruct (nth_error (es_list (lb_es lb')) i) as [e|]; [eauto|congruence]. }
  split; [rewrite NS; exact ND|]. split.
  - intros n I. rewrite NS in I. destruct (EX n I) as [e0 G]. destruct (get_index _ _ G) as (i & F & E). destruct (PL' _ _ E) as [e E']. exists e.
    unfold getElement, isElementNameDefined, elementAt in *. rewrite D. destruct (if Nat.eqb (String.length n) 0 then false else mmem sltb n (es_dict (lb_es lb))); [|discriminate]. rewrite F. cbn [of_opt rbind]. unfold vget. rewrite E'. reflexivity.
  - intros n e G. destruct (get_index _ _ G) as (i & F & E). destruct (PL _ _ E) as (e0 & E0 & <-). apply NM.
    unfold getElement, isElementNameDefined, elementAt in *. rewrite D in G, F. destruct (if Nat.eqb (String.length n) 0 then false else mmem sltb n (es_dict (lb_es lb))); [|discriminate]. rewrite F. cbn [of_opt rbind]. unfold vget. rewrite E0. reflexivity.
Qed.
Print Assumptions C74_again.

(** A file is accepted when it has no more scans than there are elements, its rows are at least as long
    as the labels, and each of the direct calls is accepted. *)
Theorem C74_loads {N : Num} (strtod : text -> num) fs (lb : @library N) file :
  well_named (lb_es lb) ->
  let n := getNumberOfScans (setFileName (fs file)) in
  (0 < n <= length (getElementNames (lb_es lb)))%nat ->
  (forall i, (i < n)%nat -> exists labels rows, scan_is strtod (fs file) i labels rows /\ Forall (fun r => (length labels <= length r)%nat) rows) ->
  (forall i name energy photo coherent compton pairv, (i < n)%nat -> nth_error (getElementNames (lb_es lb)) i = Some name ->
     scan_gives strtod (fs file) i energy photo coherent compton pairv ->
     snd (setMassAttenuationCoefficients lb name energy photo coherent compton pairv) = Ok tt) ->
  snd (setMassAttenuationCoefficientsFile strtod fs lb file) = Ok tt.
Proof.
  intros WN n P SC CA. destruct (setMassAttenuationCoefficientsFile strtod fs lb file) as [lb' out] eqn:H. cbn [snd].
  destruct (@C74_any N strtod fs lb lb' file out WN (proj1 P) H) as (_ & _ & _ & _ & _ & _ & d & _ & [(O & _)|(_ & L & [((name & en & ph & co & cp & pr & lbi & NK & SG & C & _) & _)|(U & _)])]); [exact O| |].
  - pose proof (CA d name en ph co cp pr L NK SG) as Q. rewrite C in Q. exact Q.
  - destruct (SC d L) as (labels & rows & SI & FA). destruct (U labels rows SI) as [Q|(row & I & S)].
    + apply nth_error_None in Q. fold n in L. lia.
    + rewrite Forall_forall in FA. specialize (FA row I). lia.
Qed.
Print Assumptions C74_loads.

(** the data of a scan are determined: they are the columns the labels name *)
Theorem C74_columns {N : Num} (strtod : text -> num) content i en ph co cp pr en' ph' co' cp' pr' :
  scan_gives strtod content i en ph co cp pr -> scan_gives strtod content i en' ph' co' cp' pr' ->
  en = en' /\ ph = ph' /\ co = co' /\ cp = cp' /\ pr = pr'.
Proof.
  intros (l & r & (A & B) & C1 & C2 & C3 & C4 & C5) (l' & r' & (A' & B') & D1 & D2 & D3 & D4 & D5).
  assert (l' = l) by congruence. assert (r' = r) by congruence. subst l' r'.
  repeat split; eapply given_column_unique; eassumption.
Qed.
Print Assumptions C74_columns.

(** Example: a file with one scan for a library with one element. *)
Section Example.
Local Existing Instance RNum.
Local Open Scope R_scope.
(** reads a natural number *)
Definition mf_strtod (t : text) : R := fold_left (fun v c => 10 * v + INR (nat_of_ascii c - 48)) t 0.
Definition mf_lines (l : list string) : text := flat_map (fun s => list_ascii_of_string s ++ [newline])%list l.
Definition mf_fs (name : string) : option text :=
  if String.eqb name "mu.dat" then Some (mf_lines ["#S 1 Fe"; "#L Energy[keV]  Rayleigh  compton  Incoherent  Photo  PAIR"; "10 1 3 7 5 0"; "20 2 6 7 4 0"; "30 3 1 7 3 0"]) else None.
Lemma mf_labels : getScanLabels (setFileName (mf_fs "mu.dat")) 0 = Ok ["Energy[keV]"; "Rayleigh"; "compton"; "Incoherent"; "Photo"; "PAIR"].
Proof. vm_compute. reflexivity. Qed.
Lemma mf_data_any (f : text -> R) : getScanData f (setFileName (mf_fs "mu.dat")) 0 = Ok (map (fun r => map (fun s => f (list_ascii_of_string s)) r)
  [["10"; "1"; "3"; "7"; "5"; "0"]; ["20"; "2"; "6"; "7"; "4"; "0"]; ["30"; "3"; "1"; "7"; "3"; "0"]]%string).
Proof. vm_compute. reflexivity. Qed.
Lemma mf_data : getScanData mf_strtod (setFileName (mf_fs "mu.dat")) 0 = Ok [[10; 1; 3; 7; 5; 0]; [20; 2; 6; 7; 4; 0]; [30; 3; 1; 7; 3; 0]].
Proof.
  rewrite mf_data_any. cbn [map]. unfold mf_strtod. cbn [list_ascii_of_string fold_left]. 
  repeat match goal with |- context [INR (nat_of_ascii ?c - 48)] => let v := eval compute in (nat_of_ascii c - 48)%nat in change (nat_of_ascii c - 48)%nat with v end.
  cbn [INR]. repeat (f_equal; try lra).
Qed.
Lemma mf_column q l : In q ["energy"; "photoelectric"; "coherent"; "compton"; "pair"]%string -> fills q l = false -> ~ stands_for q l.
Proof. intros I F S. apply (fills_iff l I) in S. congruence. Qed.
Lemma mf_gives : scan_gives mf_strtod (mf_fs "mu.dat") 0 [10; 20; 30] [5; 4; 3] [1; 2; 3] [3; 6; 1] [0; 0; 0].
Proof.
  eexists _, _. split; [split; [exact mf_labels|exact mf_data]|].
  repeat split; (eapply given_column_file; [cbn; tauto|]); reflexivity.
Qed.
Theorem C74_example : well_named (lb_es mx_library) /\ exists lb' e' mu,
  setMassAttenuationCoefficientsFile mf_strtod mf_fs mx_library "mu.dat" = (lb', Ok tt) /\
  getElement (lb_es lb') "Fe" = Ok e' /\ getMassAttenuationCoefficients e' 20 = Ok mu /\
  value_or_0 "photoelectric" mu = 4 /\ value_or_0 "K" mu = 2 /\ value_or_0 "coherent" mu = 2 /\ value_or_0 "compton" mu = 6 /\ value_or_0 "pair" mu = 0 /\
  setMassAttenuationCoefficientsFile mf_strtod mf_fs mx_library "none.dat" = (mx_library, Throw IosFailure).
Proof.
  assert (WN : well_named (lb_es mx_library)).
  { split; [repeat constructor; cbn; tauto|]. split; [intros n [<-|[]]; exists mx_element; reflexivity|]. intros n e G. destruct (get_index _ _ G) as (i & F & E).
    cbn in F. destruct (String.eqb_spec n "Fe") as [->|D]; [cbn in F; injection F as <-; cbn in E; injection E as <-; reflexivity|]. exfalso. revert F. change (mfind sltb n (mset sltb "Fe"%string 0%nat []) = Some i -> False).
    rewrite (@mfind_mset_other _ _ sltb sltb_total) by (exact (not_eq_sym D) || apply smsorted_nil). discriminate. }
  split; [exact WN|]. destruct C71_example as (lbi & e' & mu & S & G & A & V1 & V2 & V3 & V4 & V5 & V6 & V7).
  destruct (setMassAttenuationCoefficientsFile mf_strtod mf_fs mx_library "mu.dat") as [lb' out] eqn:H.
  assert (NS : getNumberOfScans (setFileName (mf_fs "mu.dat")) = 1%nat) by reflexivity.
  assert (O : out = Ok tt).
  { pose proof (@C74_loads RNum mf_strtod mf_fs mx_library "mu.dat" WN) as L. cbv zeta in L. rewrite NS, H in L. apply L; [cbn; lia| |].
    - intros i I. replace i with 0%nat by lia. eexists _, _. split; [split; [exact mf_labels|exact mf_data]|]. repeat constructor.
    - intros i name en ph co cp pr I NK SG. replace i with 0%nat in * by lia. injection NK as <-. destruct (C74_columns mf_gives SG) as (<- & <- & <- & <- & <-). exact (f_equal snd S). }
  subst out. exists lb', e', mu. split; [reflexivity|]. destruct (@C74_file RNum mf_strtod mf_fs mx_library lb' "mu.dat" WN H) as (_ & CD & _).
  destruct (CD 0%nat ltac:(rewrite NS; lia)) as (name & en & ph & co & cp & pr & lb2 & NK & SG & C & GE). injection NK as <-. destruct (C74_columns mf_gives SG) as (<- & <- & <- & <- & <-).
  pose proof (eq_trans (eq_sym S) C) as Q. injection Q as <-. split; [exact (eq_trans GE G)|]. repeat (split; [assumption|]). reflexivity.
Qed.
End Example.
Print Assumptions C74_example.
