(** EPDL97: sums of the coefficients, signs of the shell coefficients, loading histories. *)
From Coq Require Import Ascii String List ZArith Reals Bool Arith Lia Lra.
From Verif Require Import Base.Num Base.Res Base.SMap Base.Str Base.Text Base.ListLemmas Base.RSum Model.Specfile Model.EPDL97 Spec.EPDL97Spec Proofs.MathProofs Proofs.EPDL97Proofs Proofs.EPDL97Proofs2.
Import ListNotations.
Set Implicit Arguments.
Local Open Scope R_scope.
Local Existing Instance RNum.
Local Open Scope string_scope.

Lemma at0_value (m : list (string * R)) k : @at0 RNum m k = value m k.
Proof. reflexivity. Qed.
Lemma value_mset m k v q : msorted sltb m -> value (mset sltb k v m) q = if String.eqb k q then v else value m q.
Proof.
  intros S. unfold value. destruct (String.eqb_spec k q) as [<-|N]; [rewrite smfind_mset_same; reflexivity|].
  rewrite smfind_mset_other by auto. reflexivity.
Qed.
Lemma touch_sorted m k : msorted sltb m -> msorted sltb (@touch RNum m k).
Proof. intros S. unfold touch. destruct (mfind sltb k m); [exact S|apply smset_sorted, S]. Qed.
Lemma value_touch m k q : msorted sltb m -> value (@touch RNum m k) q = value m q.
Proof.
  intros S. unfold touch. destruct (mfind sltb k m) eqn:E; [reflexivity|]. toR. rewrite value_mset by exact S.
  destruct (String.eqb_spec k q) as [<-|N]; [|reflexivity]. unfold value. toR. rewrite E. reflexivity.
Qed.
Lemma mfind_touch m k q : msorted sltb m -> q = k \/ mfind sltb q m <> None -> mfind sltb q (@touch RNum m k) <> None.
Proof.
  intros S H. unfold touch. destruct (mfind sltb k m) eqn:E.
  - destruct H as [->|H]; [toR; congruence|exact H].
  - toR. destruct (string_dec k q) as [<-|N]; [rewrite smfind_mset_same; discriminate|]. rewrite smfind_mset_other by auto.
    destruct H as [->|H]; [contradiction|exact H].
Qed.
Lemma touch_all (l : list string) : forall m, msorted sltb m ->
  msorted sltb (fold_left (@touch RNum) l m) /\ (forall q, value (fold_left (@touch RNum) l m) q = value m q) /\
  (forall q, In q l \/ mfind sltb q m <> None -> mfind sltb q (fold_left (@touch RNum) l m) <> None).
Proof.
  induction l as [|k l IH]; intros m S; cbn [fold_left]; [split; [exact S|split; [reflexivity|intros q [[]|H]; exact H]]|].
  destruct (IH (@touch RNum m k) (@touch_sorted m k S)) as (A & B & C). split; [exact A|]. split.
  - intros q. rewrite B. apply value_touch, S.
  - intros q H. apply C. destruct H as [[H|H]|H]; [right|left; exact H|right]; apply mfind_touch; auto.
Qed.

Definition final_keys : list string := ["pair"; "photoelectric"; "total"].
Lemma finish_eq0 {N : Num} (m : list (string * num)) : exists m1 m2 m3 m4 ph to,
  m1 = mset sltb "pair" n0 m /\ m2 = fold_left touch shellKeys m1 /\
  ph = (at0 m2 "K" + at0 m2 "L1" + at0 m2 "L2" + at0 m2 "L3" + (at0 m2 "M1" + at0 m2 "M2" + at0 m2 "M3" + at0 m2 "M4" + at0 m2 "M5" + at0 m2 "all other"))%num /\
  m3 = mset sltb "photoelectric" ph m2 /\ m4 = touch (touch m3 "coherent") "compton" /\
  to = (at0 m4 "photoelectric" + at0 m4 "coherent" + at0 m4 "compton" + at0 m4 "pair")%num /\
  finish m = mset sltb "total" to m4.
Proof. unfold finish. cbv zeta. do 6 eexists. do 6 (split; [reflexivity|]). reflexivity. Qed.
Lemma finish_eq (m : list (string * R)) : exists (m1 m2 m3 m4 : list (string * R)) (ph to : R),
  m1 = mset sltb "pair" 0 m /\ m2 = @fold_left (list (string * R)) string (@touch RNum) shells m1 /\
  ph = value m2 "K" + value m2 "L1" + value m2 "L2" + value m2 "L3" + (value m2 "M1" + value m2 "M2" + value m2 "M3" + value m2 "M4" + value m2 "M5" + value m2 "all other") /\
  m3 = mset sltb "photoelectric" ph m2 /\ m4 = @fold_left (list (string * R)) string (@touch RNum) ["coherent"; "compton"] m3 /\
  to = value m4 "photoelectric" + value m4 "coherent" + value m4 "compton" + value m4 "pair" /\
  @finish RNum m = mset sltb "total" to m4.
Proof.
  destruct (@finish_eq0 RNum m) as (m1 & m2 & m3 & m4 & ph & to & E1 & E2 & E3 & E4 & E5 & E6 & E7).
  exists m1, m2, m3, m4, ph, to. split; [exact E1|]. split; [exact E2|]. split; [exact E3|]. split; [exact E4|]. split; [exact E5|]. split; [exact E6|exact E7].
Qed.
Lemma finish_spec (m : list (string * R)) : msorted sltb m ->
  let r := @finish RNum m in
  msorted sltb r /\ (forall q, ~ In q final_keys -> value r q = value m q) /\
  value r "pair" = 0 /\ value r "photoelectric" = Rsum (map (value r) shells) /\
  value r "total" = value r "photoelectric" + value r "coherent" + value r "compton" + value r "pair" /\
  (forall q, In q (shells ++ ["coherent"; "compton"; "pair"; "photoelectric"; "total"]) -> mfind sltb q r = Some (value r q)).
Proof.
  intros S. cbv zeta. destruct (finish_eq m) as (m1 & m2 & m3 & m4 & ph & to & E1 & E2 & E3 & E4 & E5 & E6 & ->).
  assert (S1 : msorted sltb m1) by (subst m1; apply smset_sorted, S).
  assert (V1 : forall q, value m1 q = if String.eqb "pair" q then 0 else value m q) by (intros q; subst m1; apply value_mset, S).
  destruct (@touch_all shells m1 S1) as (S2 & V2 & F2). toR. rewrite <- E2 in S2, V2, F2.
  assert (S3 : msorted sltb m3) by (subst m3; apply smset_sorted, S2).
  assert (V3 : forall q, value m3 q = if String.eqb "photoelectric" q then ph else value m2 q) by (intros q; subst m3; apply value_mset, S2).
  destruct (@touch_all ["coherent"; "compton"] m3 S3) as (S4 & V4 & F4). toR. rewrite <- E5 in S4, V4, F4.
  remember (mset sltb "total" to m4) as m5 eqn:E7.
  assert (S5 : msorted sltb m5) by (subst m5; apply smset_sorted, S4).
  assert (V5 : forall q, value m5 q = if String.eqb "total" q then to else value m4 q) by (intros q; subst m5; apply value_mset, S4).
  assert (F : forall q, In q (shells ++ ["coherent"; "compton"; "pair"; "photoelectric"; "total"]) -> mfind sltb q m5 <> None).
  { intros q H. rewrite E7. destruct (string_dec "total" q) as [<-|N]; [rewrite smfind_mset_same; discriminate|]. rewrite smfind_mset_other by auto.
    apply F4. destruct (string_dec "coherent" q) as [<-|N1]; [left; left; reflexivity|]. destruct (string_dec "compton" q) as [<-|N2]; [left; right; left; reflexivity|].
    right. rewrite E4. destruct (string_dec "photoelectric" q) as [<-|N3]; [rewrite smfind_mset_same; discriminate|]. rewrite smfind_mset_other by auto.
    apply F2. destruct (string_dec "pair" q) as [<-|N4]; [right; rewrite E1; rewrite smfind_mset_same; discriminate|]. left.
    apply in_app_or in H. destruct H as [H|H]; [exact H|]. cbn in H. intuition congruence. }
  assert (Eph : ph = Rsum (map (value m2) shells)) by (rewrite E3; cbn [shells map]; unfold Rsum; cbn [fold_right]; ring).
  assert (V : forall q, value m5 q = if String.eqb "total" q then to else if String.eqb "photoelectric" q then ph else if String.eqb "pair" q then 0 else value m q).
  { intros q. rewrite V5, V4, V3, V2, V1. reflexivity. }
  split; [exact S5|]. split.
  { intros q N. rewrite V. destruct (String.eqb_spec "total" q) as [<-|]; [exfalso; apply N; cbn; auto|].
    destruct (String.eqb_spec "photoelectric" q) as [<-|]; [exfalso; apply N; cbn; auto|].
    destruct (String.eqb_spec "pair" q) as [<-|]; [exfalso; apply N; cbn; auto|reflexivity]. }
  split; [rewrite V; reflexivity|]. split.
  { rewrite V. cbn [String.eqb Ascii.eqb Bool.eqb]. rewrite Eph. apply Rsum_ext. intros q Hq. rewrite V, V2, V1. cbn in Hq. repeat (destruct Hq as [<-|Hq]; [reflexivity|]). destruct Hq. }
  split.
  { rewrite !V. cbn [String.eqb Ascii.eqb Bool.eqb]. rewrite E6, !V4, !V3, !V2, !V1. cbn [String.eqb Ascii.eqb Bool.eqb]. reflexivity. }
  intros q H. specialize (F q H). unfold value. destruct (mfind sltb q m5); [reflexivity|contradiction].
Qed.

(** *** Folds over the columns *)
Lemma fold_value (f : list (string * R) -> string * Z -> res (list (string * R))) (P : string -> Z -> R -> Prop) (l : list (string * Z)) :
  (forall s key idx s', In (key, idx) l -> msorted sltb s -> f s (key, idx) = Ok s' ->
     msorted sltb s' /\ (forall q, q <> key -> value s' q = value s q) /\ P key idx (value s' key)) ->
  NoDup (map fst l) -> forall s s', msorted sltb s -> rfold f l s = Ok s' ->
  msorted sltb s' /\ (forall key idx, In (key, idx) l -> P key idx (value s' key)) /\
  (forall q, ~ In q (map fst l) -> value s' q = value s q).
Proof.
  induction l as [|[key idx] l IH]; intros H N s s' S E.
  - cbn in E. injection E as <-. split; [exact S|]. split; [intros ? ? []|reflexivity].
  - cbn [rfold] in E. destruct (f s (key, idx)) as [s1| | |] eqn:E1; try discriminate. cbn [rbind] in E.
    destruct (H s key idx s1) as (A & B & C); auto; [left; reflexivity|].
    inversion N as [|? ? N1 N2]; subst. destruct (IH (fun s key idx s' Hin => H s key idx s' (or_intror Hin)) N2 s1 s' A E) as (A' & B' & C').
    split; [exact A'|]. split.
    + intros k i [K|K]; [|exact (B' k i K)]. injection K as <- <-. rewrite (C' key N1). exact C.
    + intros q Q. cbn [map fst] in Q. rewrite C' by (intros K; apply Q; right; exact K). apply B. intros ->. apply Q. left. reflexivity.
Qed.

Lemma shell_not_long key : In key shells -> derived key = false /\ (unshelled key = true -> key = "all other") /\ (unshelled key = false -> Nat.ltb (String.length key) 3 = true).
Proof. intros H. cbn in H. repeat (destruct H as [<-|H]; [repeat split; cbn; auto; discriminate|]). destruct H. Qed.

(** entries of the column "all other" are not negative *)
Definition other_nonneg (index : list (string * Z)) (rows : list (list R)) : Prop :=
  forall idx r v, In ("all other", idx) index -> In r rows -> vgetZ r idx = Ok v -> 0 <= v.

Lemma extrapolate_pos g rows idx i x v : @extrapolate RNum g rows idx i x = Ok v -> 0 <= v.
Proof.
  unfold extrapolate. intros H. destruct (firstPositive _ _ _ _); try discriminate. cbn [rbind] in H.
  repeat match type of H with (let? _ := ?t in _)%res = _ => destruct t; try discriminate; cbn [rbind] in H end.
  injection H as <-. left. apply exp_pos.
Qed.
Lemma cell_In rows i idx v : @cell RNum rows i idx = Ok v -> exists r, In r rows /\ vgetZ r idx = Ok v.
Proof.
  unfold cell. intros H. destruct (vget rows i) as [r| | |] eqn:E; try discriminate. cbn [rbind] in H. exists r. split; [|exact H].
  unfold vget in E. destruct (nth_error rows i) eqn:F; [|discriminate]. injection E as <-. eapply nth_error_In, F.
Qed.
Definition shellP (key : string) (_ : Z) (v : R) : Prop := In key shells -> 0 <= v.

Ltac same_step := match goal with E : Ok _ = Ok _ |- _ => injection E as <- end.
Lemma set_ok s key v : msorted sltb s -> (In key shells -> 0 <= v) ->
  msorted sltb (mset sltb key v s) /\ (forall q, q <> key -> value (mset sltb key v s) q = value s q) /\ (In key shells -> 0 <= value (mset sltb key v s) key).
Proof.
  intros S H. split; [apply smset_sorted, S|]. split.
  - intros q N. rewrite value_mset by exact S. destruct (String.eqb_spec key q); [congruence|reflexivity].
  - rewrite value_mset by exact S. rewrite String.eqb_refl. exact H.
Qed.
Lemma set2_ok s key u v : msorted sltb s -> (In key shells -> 0 <= v) ->
  msorted sltb (mset sltb key v (mset sltb key u s)) /\ (forall q, q <> key -> value (mset sltb key v (mset sltb key u s)) q = value s q) /\
  (In key shells -> 0 <= value (mset sltb key v (mset sltb key u s)) key).
Proof. intros S H. rewrite mset_twice by exact S. apply set_ok; assumption. Qed.

Lemma caseA_ok index g rows b i j x0 x1 x s key idx s' : other_nonneg index rows -> In (key, idx) index -> msorted sltb s ->
  @caseA RNum g rows b i j x0 x1 x s (key, idx) = Ok s' ->
  msorted sltb s' /\ (forall q, q <> key -> value s' q = value s q) /\ shellP key idx (value s' key).
Proof.
  intros O K S E. unfold caseA in E. unfold shellP.
  destruct (derived key) eqn:D. { same_step. split; [exact S|]. split; [auto|]. intros H. destruct (shell_not_long H); congruence. }
  destruct (unshelled key) eqn:U.
  { destruct (cell rows j idx) as [v| | |] eqn:C; try discriminate. cbn [rbind] in E. same_step. apply set_ok; [exact S|].
    intros H. destruct (shell_not_long H) as (_ & Q & _). rewrite (Q U) in K. destruct (cell_In _ _ _ C) as (r & R1 & R2). exact (O idx r v K R1 R2). }
  destruct (Nat.ltb (String.length key) 3) eqn:L.
  2: { same_step. split; [exact S|]. split; [auto|]. intros H. destruct (shell_not_long H) as (_ & _ & Q). rewrite (Q U) in L. discriminate. }
  destruct (mfind sltb key b) as [e|]; [|discriminate].
  cbn [num nleb nltb n0 RNum] in E. toR.
  destruct (Rleb e x && Rltb 0 e)%bool.
  2: { same_step. apply set_ok; [exact S|]. intros; lra. }
  destruct (cell rows i idx) as [v1| | |]; try discriminate. cbn [rbind] in E. toR. destruct (Rltb_spec 0 v1) as [P|P].
  { same_step. apply set2_ok; [exact S|]. intros; lra. }
  match type of E with (let? _ := ?t in _)%res = _ => destruct t as [v2| | |]; try discriminate end. cbn [rbind] in E.
  match type of E with (if ?c then _ else _) = _ => destruct c eqn:Q end.
  { apply andb_prop in Q. destruct Q as [_ Q]. apply Rltb_true in Q. same_step. apply set2_ok; [exact S|]. intros; lra. }
  destruct (extrapolate g rows idx i x) as [v| | |] eqn:X; try discriminate. cbn [rbind] in E. same_step. apply set2_ok; [exact S|].
  intros _. eapply extrapolate_pos, X.
Qed.
Lemma caseB_ok index g rows b i j x0 x1 x s key idx s' : other_nonneg index rows -> In (key, idx) index -> msorted sltb s ->
  @caseB RNum g rows b i j x0 x1 x s (key, idx) = Ok s' ->
  msorted sltb s' /\ (forall q, q <> key -> value s' q = value s q) /\ shellP key idx (value s' key).
Proof.
  intros O K S E. unfold caseB in E. unfold shellP.
  destruct (derived key) eqn:D. { same_step. split; [exact S|]. split; [auto|]. intros H. destruct (shell_not_long H); congruence. }
  destruct (unshelled key) eqn:U.
  { destruct (cell rows i idx) as [v0| | |] eqn:C0; try discriminate. cbn [rbind] in E. destruct (cell rows j idx) as [v| | |] eqn:C; try discriminate. cbn [rbind] in E. same_step. apply set_ok; [exact S|].
    intros _. destruct (_ && _)%bool; [left; apply exp_pos|]. destruct (_ && _)%bool; [left; apply exp_pos|right; reflexivity]. }
  destruct (Nat.ltb (String.length key) 3) eqn:L.
  2: { same_step. split; [exact S|]. split; [auto|]. intros H. destruct (shell_not_long H) as (_ & _ & Q). rewrite (Q U) in L. discriminate. }
  destruct (mfind sltb key b) as [e|]; [|discriminate].
  cbn [num nleb nltb n0 RNum] in E. toR.
  destruct (Rleb e x && Rltb 0 e)%bool.
  2: { same_step. apply set_ok; [exact S|]. intros; lra. }
  destruct (cell rows i idx) as [v1| | |]; try discriminate. cbn [rbind] in E. toR. destruct (Rltb_spec 0 v1) as [P|P].
  { destruct (cell rows j idx) as [v2| | |]; try discriminate. cbn [rbind] in E. same_step. match goal with |- context [if ?c then _ else _] => destruct c end.
    - apply set2_ok; [exact S|]. intros _. left. apply exp_pos.
    - apply set_ok; [exact S|]. intros; lra. }
  destruct (extrapolate g rows idx i x) as [v| | |] eqn:X; try discriminate. cbn [rbind] in E. same_step. apply set2_ok; [exact S|].
  intros _. eapply extrapolate_pos, X.
Qed.
