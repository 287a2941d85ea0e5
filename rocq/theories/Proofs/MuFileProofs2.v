(** A file of mass attenuation coefficients: the scans. *)
From Coq Require Import Ascii String List ZArith Bool Arith Lia.
From Verif Require Import Base.Num Base.Res Base.SMap Base.Str Base.Text Model.Shell Model.Specfile Model.EPDL97 Model.Element Model.Elements Model.ElementsFiles
  Spec.ElementSpec Spec.InitSpec Spec.MergeSpec Spec.EPDL97Spec Spec.FilesSpec Spec.MuFileSpec Proofs.ElementProofs Proofs.ElementProofs2 Proofs.ElementProofs3 Proofs.ElementProofs4 Proofs.ElementsProofs Proofs.EPDL97Proofs7 Proofs.InitProofs Proofs.MergeProofs Properties.MergeProps Proofs.MuFileProofs.
Import ListNotations.
Set Implicit Arguments.
Local Open Scope string_scope.

Section R.
Context {N : Num}.
Variable strtod : text -> num.
Variable lb0 : @library N.
Hypothesis WN : well_named (lb_es lb0).
Variable content : option text.

Lemma named_place name i : nth_error (getElementNames (lb_es lb0)) i = Some name -> mfind sltb name (es_dict (lb_es lb0)) = Some i /\ exists e, nth_error (es_list (lb_es lb0)) i = Some e /\ el_name e = name /\ getElement (lb_es lb0) name = Ok e.
Proof.
  intros H. destruct WN as (ND & EX & NM). destruct (EX name (nth_error_In _ _ H)) as [e G]. destruct (get_index _ _ G) as (j & F & E). pose proof (NM _ _ G) as M.
  assert (j = i). { apply (proj1 (NoDup_nth_error _) ND); [apply nth_error_Some; unfold getElementNames; rewrite (map_nth_error el_name _ _ E); discriminate|]. unfold getElementNames at 1. rewrite (map_nth_error el_name _ _ E), H. congruence. }
  subst j. split; [exact F|]. exists e. auto.
Qed.
(** [lb] comes from [lb0] by changes of elements before place k *)
Definition from_k (lb : library) (k : nat) : Prop :=
  es_dict (lb_es lb) = es_dict (lb_es lb0) /\ lb_epdl lb = lb_epdl lb0 /\ es_mats (lb_es lb) = es_mats (lb_es lb0) /\ lb_const lb = lb_const lb0 /\ lb_rad lb = lb_rad lb0 /\ lb_nonrad lb = lb_nonrad lb0 /\
  getElementNames (lb_es lb) = getElementNames (lb_es lb0) /\ forall j, (k <= j)%nat -> nth_error (es_list (lb_es lb)) j = nth_error (es_list (lb_es lb0)) j.
Definition call_at (lb' : library) (i : nat) (out : res unit) : Prop :=
  exists name en ph co cp pr e' lbi, scan_gives strtod content i en ph co cp pr /\ nth_error (getElementNames (lb_es lb0)) i = Some name /\
    setMassAttenuationCoefficients lb0 name en ph co cp pr = (lbi, out) /\ nth_error (es_list (lb_es lbi)) i = Some e' /\ es_dict (lb_es lbi) = es_dict (lb_es lb0) /\ nth_error (es_list (lb_es lb')) i = Some e'.
Definition no_data (i : nat) : Prop :=
  forall labels rows, scan_is strtod content i labels rows -> nth_error (getElementNames (lb_es lb0)) i = None \/ exists row, In row rows /\ (length row < length labels)%nat.
Lemma scans_run m : forall k lb lb' out, from_k lb k -> muScans strtod (setFileName content) (seq k m) lb = (lb', out) ->
  exists d, (d <= m)%nat /\ (forall i, (k <= i < k + d)%nat -> call_at lb' i (Ok tt)) /\ (forall j, (j < k)%nat -> nth_error (es_list (lb_es lb')) j = nth_error (es_list (lb_es lb)) j) /\
    ((out = Ok tt /\ d = m /\ from_k lb' (k + d)) \/
     (out <> Ok tt /\ (d < m)%nat /\ ((call_at lb' (k + d) out /\ from_k lb' (S (k + d))) \/ (no_data (k + d) /\ from_k lb' (k + d))))).
Proof.
  induction m as [|m IH]; intros k lb lb' out FK H.
  - cbn in H. injection H as <- <-. exists 0%nat. rewrite Nat.add_0_r. split; [lia|]. split; [intros i I; lia|]. split; [reflexivity|]. left. auto.
  - cbn [seq muScans] in H. match type of H with match ?r with _ => _ end = _ => destruct r as [[[[[[name en] ph] co] cp] pr]| | |] eqn:RD end.
    2-4: injection H as <- <-; exists 0%nat; rewrite Nat.add_0_r; split; [lia|]; split; [intros i I; lia|]; split; [reflexivity|]; right; split; [discriminate|]; split; [lia|]; right; (split; [|exact FK]).
    2-4: intros labels rows (SL & SD); rewrite SL in RD; cbn [rbind] in RD; rewrite SD in RD; cbn [rbind] in RD;
      destruct (nth_error (getElementNames (lb_es lb0)) k) as [name|] eqn:NK; [right|left; reflexivity];
      destruct (existsb (fun row => Nat.ltb (length row) (length labels)) rows) eqn:EB; [apply existsb_exists in EB as (row & I & L); apply Nat.ltb_lt in L; exists row; auto|exfalso];
      assert (FA : Forall (fun row => (0 + length labels <= length row)%nat) rows) by (apply Forall_forall; intros row I; cbn; destruct (Nat.le_gt_cases (length labels) (length row)) as [L|L]; [exact L|]; exfalso; assert (existsb (fun row => Nat.ltb (length row) (length labels)) rows = true) by (apply existsb_exists; exists row; split; [exact I|apply Nat.ltb_lt, L]); congruence);
      destruct (@fileColumn_total N "energy" rows labels 0 [] FA) as [w1 W1]; destruct (@fileColumn_total N "photoelectric" rows labels 0 [] FA) as [w2 W2]; destruct (@fileColumn_total N "coherent" rows labels 0 [] FA) as [w3 W3];
      destruct (@fileColumn_total N "compton" rows labels 0 [] FA) as [w4 W4]; destruct (@fileColumn_total N "pair" rows labels 0 [] FA) as [w5 W5];
      rewrite W1 in RD; cbn [rbind] in RD; rewrite W2 in RD; cbn [rbind] in RD; rewrite W3 in RD; cbn [rbind] in RD; rewrite W4 in RD; cbn [rbind] in RD; rewrite W5 in RD; cbn [rbind] in RD;
      destruct (@named_place _ _ NK) as (_ & ee & E & _ & _); unfold vget in RD; rewrite (proj2 (proj2 (proj2 (proj2 (proj2 (proj2 (proj2 FK)))))) k (Nat.le_refl k)), E in RD; cbn [of_opt rbind] in RD; discriminate.
    (* a scan read *)
    apply rbind_Ok in RD as (labels & SL & RD). apply rbind_Ok in RD as (rows & SD & RD). apply rbind_Ok in RD as (w1 & W1 & RD). apply rbind_Ok in RD as (w2 & W2 & RD). apply rbind_Ok in RD as (w3 & W3 & RD).
    apply rbind_Ok in RD as (w4 & W4 & RD). apply rbind_Ok in RD as (w5 & W5 & RD). apply rbind_Ok in RD as (e & E & RD). apply Ok_inj in RD. injection RD as <- <- <- <- <- <-.
    unfold vget in E. destruct FK as (D1 & D2 & D3 & D4 & D5 & D6 & D7 & D8). rewrite (D8 k (Nat.le_refl k)) in E. destruct (nth_error (es_list (lb_es lb0)) k) as [e0|] eqn:E0; [|discriminate]. apply Ok_inj in E. subst e0.
    assert (NK : nth_error (getElementNames (lb_es lb0)) k = Some (el_name e)) by (unfold getElementNames; exact (map_nth_error el_name _ _ E0)).
    destruct (@named_place _ _ NK) as (F & _).
    assert (SG : scan_gives strtod content k w1 w2 w3 w4 w5).
    { exists labels, rows. split; [split; assumption|]. repeat split; (eapply given_column_file; [|eassumption]); cbn; tauto. }
    destruct (@setMac_local N lb0 lb (el_name e) w1 w2 w3 w4 w5 k e F E0) as (e' & r & I & SB & S0); [split; [exact D1|split; [exact D2|rewrite (D8 k (Nat.le_refl k)); reflexivity]]|].
    rewrite SB in H. set (lb1 := with_list lb (set_nth (es_list (lb_es lb)) k e')) in *.
    assert (LK : (k < length (es_list (lb_es lb)))%nat) by (apply nth_error_Some; rewrite (D8 k (Nat.le_refl k)), E0; discriminate).
    assert (FK1 : from_k lb1 (S k)).
    { unfold from_k, lb1. cbn [with_list lb_es lb_epdl lb_const lb_rad lb_nonrad with_elements es_dict es_mats es_list]. repeat split; try assumption.
      - rewrite <- D7. unfold getElementNames. cbn [with_list lb_es with_elements es_list]. apply (@set_nth_map _ _ (@el_name N) _ k e' e); [rewrite (D8 k (Nat.le_refl k)); exact E0|apply I].
      - intros j J. rewrite set_nth_other by lia. apply D8. lia. }
    assert (CA : forall lbx, nth_error (es_list (lb_es lbx)) k = Some e' -> call_at lbx k r).
    { intros lbx X. exists (el_name e), w1, w2, w3, w4, w5, e'. eexists. split; [exact SG|]. split; [exact NK|]. split; [exact S0|]. cbn [with_list lb_es with_elements es_list es_dict]. split; [apply set_nth_same; apply nth_error_Some; rewrite E0; discriminate|]. auto. }
    assert (N1 : nth_error (es_list (lb_es lb1)) k = Some e') by (unfold lb1; cbn [with_list lb_es with_elements es_list]; apply set_nth_same, LK).
    destruct r as [[]| | |].
    2-4: injection H as <- <-; exists 0%nat; rewrite Nat.add_0_r; split; [lia|]; split; [intros i J; lia|]; split; [intros j J; unfold lb1; cbn [with_list lb_es with_elements es_list]; apply set_nth_other; lia|]; right; split; [discriminate|]; split; [lia|]; left; split; [apply CA, N1|exact FK1].
    destruct (IH (S k) lb1 lb' out FK1 H) as (d & Ld & CD & BD & OUT). exists (S d). split; [lia|]. split; [|split].
    + intros i J. destruct (Nat.eq_dec i k) as [->|D]; [|apply CD; lia]. apply CA. rewrite BD by lia. exact N1.
    + intros j J. rewrite BD by lia. unfold lb1. cbn [with_list lb_es with_elements es_list]. apply set_nth_other. lia.
    + replace (k + S d)%nat with (S k + d)%nat by lia. destruct OUT as [(O & -> & X)|(O & L & X)]; [left; auto|right; split; [exact O|split; [lia|exact X]]].
Qed.
End R.
