(** A library with one element, to which data are given. *)
From Coq Require Import Ascii String List ZArith Reals Bool Arith Lia Lra Sorted.
From Verif Require Import Base.Num Base.Res Base.SMap Base.Str Base.Text Model.Shell Model.Specfile Model.EPDL97 Model.Element Model.Elements Model.ElementsFiles
  Spec.ShellSpec Spec.MaterialSpec Spec.ElementSpec Spec.InitSpec Spec.MergeSpec Proofs.MathProofs Proofs.ElementProofs Proofs.ElementProofs2 Proofs.ElementProofs3 Proofs.ElementProofs4 Proofs.ElementProofs8 Proofs.ElementsProofs Proofs.InitProofs Proofs.InitProofs4
  Proofs.EPDL97Proofs9 Proofs.MergeProofs Proofs.MergeProofs2 Proofs.MergeProofs3 Proofs.MergeProofs4 Proofs.MergeProofs5 Proofs.MergeProofs6 Proofs.MergeProofs7 Proofs.MergeProofs8.
Import ListNotations.
Set Implicit Arguments.
Local Open Scope string_scope.
Local Open Scope R_scope.
Local Existing Instance RNum.

Definition mx_grid : list R := [1; 2; 8; 100].
Definition mx_row (g : R) : list R := [g; 1; 1; 1; 1; 0].
Definition mx_epdl : @epdl RNum := mkEpdl true [] []
  [("K", 3%Z); ("L1", 5%Z); ("L2", 5%Z); ("L3", 5%Z); ("M1", 5%Z); ("M2", 5%Z); ("M3", 5%Z); ("M4", 5%Z); ("M5", 5%Z); ("all other", 4%Z); ("coherent", 1%Z); ("compton", 2%Z); ("energy", 0%Z)]
  [map mx_row mx_grid] [mx_grid].
Definition mx_binding : list (string * R) := [("K", 19 / 20); ("L1", 0); ("L2", 0); ("L3", 0); ("M1", 0); ("M2", 0); ("M3", 0); ("M4", 0); ("M5", 0)].
Definition mx_element : @element RNum :=
  @mkElement RNum "Fe" "Fe" 26 (Some 56) 1 (-1)%Z (-1)%Z mx_binding [] [] [] (map (fun k => (k, [])) photo_names) (map (fun k => (k, [])) photo_names) false [] false [] [].
Definition mx_library : @library RNum := mkLibrary (with_elements elements_empty [("Fe", 0%nat)] [mx_element]) mx_epdl [] [] [].
Definition mx_table : list (string * list R) := match getMassAttenuationTables mx_epdl 26 with Ok t => t | _ => [] end.
Lemma mx_table_ok : getMassAttenuationTables mx_epdl 26 = Ok mx_table.
Proof. reflexivity. Qed.
Lemma mx_columns : vat mx_table "energy" = mx_grid /\ vat mx_table "K" = [1; 1; 1; 1] /\ vat mx_table "all other" = [1; 1; 1; 1] /\ vat mx_table "coherent" = [1; 1; 1; 1] /\ vat mx_table "compton" = [1; 1; 1; 1] /\ vat mx_table "pair" = [0; 0; 0; 0].
Proof. repeat split. Qed.
Lemma mx_apart : apart mx_grid.
Proof. intros [|[|[|[|i]]]] a b A B; cbn in A, B; try discriminate; try (injection A as <-; injection B as <-; lra). Qed.
Lemma apart_spaced l : apart l -> spaced l.
Proof. intros H i a b A B. specialize (H i a b A B). lra. Qed.
Lemma mx_loglog (E x0 x1 : R) : loglog E x0 x1 1 1 = 1.
Proof. unfold loglog. rnorm. rewrite ln_1, !Rmult_0_r, Rplus_0_r. apply exp_0. Qed.
Lemma nth_const (c : R) i : (i < 4)%nat -> nth_error [c; c; c; c] i = Some c.
Proof. intros H. destruct i as [|[|[|[|i]]]]; try reflexivity; lia. Qed.
Lemma mx_bracket (E : R) : exists i x0 x1, (S i < 4)%nat /\ bracket mx_grid E = Ok (Z.of_nat i, Z.of_nat (S i), x0, x1) /\ Rltb (x1 - x0) (Rlit 5 (-10)) = false.
Proof.
  destruct (bracket_spaced mx_grid E (apart_spaced mx_apart)) as (i & a & b & B & A0 & A1 & _); [cbn; lia|]. exists i, a, b. split; [change 4%nat with (length mx_grid); apply nth_error_Some; toR; congruence|]. split; [exact B|].
  apply Rltb_false. pose proof (mx_apart _ A0 A1). unfold Rlit. simpl. lra.
Qed.
Lemma mx_other b (E : R) : otherValue b mx_grid [1; 1; 1; 1] E = Ok 1.
Proof.
  destruct (mx_bracket E) as (i & x0 & x1 & L & B & G). unfold otherValue. rewrite B. cbn [rbind]. destruct (Z.eqb_spec (Z.of_nat i) (Z.of_nat (S i))); [lia|]. cbn [orb].
  change (nltb (nsub x1 x0) (nlit 5 (-10))) with (Rltb (x1 - x0) (Rlit 5 (-10))). rewrite G. rewrite !zget_nat. unfold vget. toR. rewrite !nth_const by lia. cbn [of_opt rbind].
  change (nltb n0 1) with (Rltb 0 1). destruct (Rltb_spec 0 1); [|lra]. cbn [andb]. rewrite mx_loglog. reflexivity.
Qed.
Lemma mx_zero b (E : R) : otherValue b mx_grid [0; 0; 0; 0] E = Ok 0.
Proof.
  destruct (mx_bracket E) as (i & x0 & x1 & L & B & G). unfold otherValue. rewrite B. cbn [rbind]. destruct (Z.eqb_spec (Z.of_nat i) (Z.of_nat (S i))); [lia|]. cbn [orb].
  change (nltb (nsub x1 x0) (nlit 5 (-10))) with (Rltb (x1 - x0) (Rlit 5 (-10))). rewrite G. rewrite !zget_nat. unfold vget. toR. rewrite !nth_const by lia. cbn [of_opt rbind].
  change (nltb n0 0) with (Rltb 0 0). destruct (Rltb_spec 0 0); [lra|]. reflexivity.
Qed.
Lemma mx_shell (E : R) : partialShell mx_grid [1; 1; 1; 1] E = Ok 1.
Proof.
  destruct (mx_bracket E) as (i & x0 & x1 & L & B & G). unfold partialShell. rewrite B. cbn [rbind]. destruct (Z.eqb_spec (Z.of_nat i) (Z.of_nat (S i))); [lia|]. cbn [orb].
  change (nltb (nsub x1 x0) (nlit 5 (-10))) with (Rltb (x1 - x0) (Rlit 5 (-10))). rewrite G. rewrite !zget_nat. unfold vget. toR. rewrite !nth_const by lia. cbn [of_opt rbind].
  change (nltb n0 1) with (Rltb 0 1). destruct (Rltb_spec 0 1); [|lra]. rewrite mx_loglog. reflexivity.
Qed.
Lemma mx_rising : rising (0 :: vat mx_table "energy").
Proof.
  destruct mx_columns as (-> & _). intros [|[|[|[|[|i]]]]] a b A B; cbn in A, B; try discriminate; try (injection A as <-; injection B as <-; lra).
Qed.
Lemma mx_taken : exists e1, putTables mx_table mx_element = (e1, Ok tt).
Proof.
  apply tables_accept; [exact mx_rising| |].
  - intros q Q. cbn in Q. destruct Q as [<-|[<-|[<-|[<-|[]]]]]; reflexivity.
  - intros s Hs. cbn in Hs. repeat (destruct Hs as [<-|Hs]; [split; reflexivity|]). destruct Hs.
Qed.
Definition mx_share (s : string) : R := if String.eqb s "K" then 1 else if String.eqb s "all other" then 1 else 0.
Lemma mx_answer e1 (x : R) : putTables mx_table mx_element = (e1, Ok tt) -> 1 <= x -> exists mu, getMassAttenuationCoefficients e1 x = Ok mu /\ forall s, In s photoShells -> value_or_0 s mu = mx_share s.
Proof.
  intros PT HX. destruct (putTables_state _ _ PT) as (CA & ME & MU & _ & BI & ST). specialize (MU eq_refl). destruct mx_columns as (C0 & C1 & C2 & C3 & C4 & C5).
  assert (BK : forall s b, mfind sltb s mx_binding = Some b -> mfind sltb s (el_binding e1) = Some b) by (intros s b Hb; apply BI; exact Hb).
  assert (OT : mfind sltb "all other" (el_ppE e1) = Some mx_grid /\ mfind sltb "all other" (el_ppV e1) = Some [1; 1; 1; 1]).
  { destruct (ST "all other") as (ea & eb & _ & SP & Q1 & Q2); [cbn; tauto|]. rewrite C0, C2 in SP. apply stored_other in SP as [A B]. rewrite Q1, Q2. auto. }
  assert (KT : mfind sltb "K" (el_ppE e1) = Some mx_grid /\ mfind sltb "K" (el_ppV e1) = Some [1; 1; 1; 1]).
  { destruct (ST "K") as (ea & eb & IN & SP & Q1 & Q2); [cbn; tauto|]. rewrite C0, C1 in SP.
    destruct (@stored_shape ea eb "K" [] mx_grid [] [1; 1; 1; 1] 1 SP) as (pre & wp & A & B & LA & LB & _); try discriminate; try reflexivity; try (cbn; lia); [exact mx_apart|constructor| |].
    - destruct IN as (_ & _ & _ & _ & _ & _ & _ & _ & IN). rewrite IN. change (val0 (el_binding mx_element) "K") with (19 / 20). repeat constructor; cbn; intros; lra.
    - destruct pre; [|discriminate]. destruct wp; [|discriminate]. rewrite Q1, Q2. auto. }
  destruct OT as [O1 O2]. destruct KT as [K1 K2].
  assert (Z : forall s, mfind sltb s mx_binding = Some 0 -> s <> "all other" -> partialValue e1 x s = Ok 0).
  { intros s Hb N. unfold partialValue. destruct (String.eqb_spec s "all other"); [contradiction|]. rewrite (BK s 0 Hb). cbn [of_opt rbind]. change (neqb 0 n0) with (Reqb 0 0). destruct (Reqb_spec 0 0); [reflexivity|lra]. }
  destruct (@computeMu_build e1 x mx_share 1 1 0) as (mu & CM & V & _).
  - apply (existsb_grid _ _ O1). cbn. lia.
  - intros s Hs. cbn in Hs. destruct Hs as [<-|Hs].
    { unfold partialValue. cbn [String.eqb Ascii.eqb Bool.eqb]. rewrite (BK "K" (19 / 20) eq_refl). cbn [of_opt rbind]. change (neqb (19 / 20) n0) with (Reqb (19 / 20) 0). change (nltb x (19 / 20)) with (Rltb x (19 / 20)).
      destruct (Reqb_spec (19 / 20) 0); [lra|]. destruct (Rltb_spec x (19 / 20)); [lra|]. cbn [orb]. unfold vlookup. rewrite K1, K2. cbn [of_opt rbind]. unfold finite_or. toR. rewrite mx_shell. reflexivity. }
    do 8 (destruct Hs as [<-|Hs]; [apply Z; [reflexivity|discriminate]|]). destruct Hs as [<-|[]].
    unfold partialValue. cbn [String.eqb Ascii.eqb Bool.eqb]. unfold vlookup. rewrite O1, O2. cbn [of_opt rbind]. unfold finite_or. toR. rewrite mx_other. reflexivity.
  - exists [1; 1; 1; 1]. unfold vlookup. rewrite (MU "coherent"), C3, ME, C0 by (cbn; tauto). split; [reflexivity|apply mx_other].
  - exists [1; 1; 1; 1]. unfold vlookup. rewrite (MU "compton"), C4, ME, C0 by (cbn; tauto). split; [reflexivity|apply mx_other].
  - exists [0; 0; 0; 0]. unfold vlookup. rewrite (MU "pair"), C5, ME, C0 by (cbn; tauto). split; [reflexivity|apply mx_zero].
  - exists mu. split; [|exact V]. unfold getMassAttenuationCoefficients. rewrite CA, ME, C0. cbn [length mx_grid Nat.ltb Nat.leb]. destruct (el_cacheFlag e1); exact CM.
Qed.
