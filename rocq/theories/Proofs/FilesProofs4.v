(** Shell constants files that load. *)
From Coq Require Import Ascii String List ZArith Bool Arith Lia Sorted.
From Verif Require Import Base.Num Base.Res Base.SMap Base.Str Base.Text Base.ListLemmas Model.Shell Model.Specfile Model.EPDL97 Model.Element Model.Elements Model.ElementsFiles
  Spec.MaterialSpec Spec.ElementSpec Spec.FilesSpec Proofs.ElementProofs4 Proofs.FilesProofs Proofs.FilesProofs2 Proofs.FilesProofs3.
Import ListNotations.
Set Implicit Arguments.
Local Open Scope string_scope.

Section Total.
Context {N : Num}.
Variable strtod : text -> num.
Local Notation table := (list (string * num)).

Lemma rowDict_total (key : string -> option string) : forall labels row j d, (j + length labels <= length row)%nat -> exists d', @rowDict N key labels row j d = Ok d'.
Proof.
  induction labels as [|l r IH]; intros row j d H; cbn [rowDict]; [now exists d|]. cbn [length] in H.
  destruct (key l) as [k|]; [|apply IH; lia]. unfold vget. destruct (nth_error row j) as [v|] eqn:V; cbn [of_opt rbind]; [apply IH; lia|].
  apply nth_error_None in V. lia.
Qed.
Lemma set_nth_Forall {A} (P : A -> Prop) : forall l n x, Forall P l -> P x -> Forall P (set_nth l n x).
Proof. induction l as [|a l IH]; intros [|n] x H Hx; cbn; inversion H; subst; constructor; auto. Qed.

Lemma fileRows_total key (apply : element -> table -> element * res unit) labels (P : element -> Prop) :
  (forall e d, P e -> labelled key labels d -> exists e', apply e d = (e', Ok tt) /\ P e') ->
  forall rows n d l, labelled key labels d -> Forall (fun r => length r = length labels) rows -> (n + length rows <= length l)%nat -> Forall P l ->
  exists l', fileRows key apply labels rows n d l = (l', Ok tt) /\ length l' = length l /\ Forall P l'.
Proof.
  intros AP. induction rows as [|row r IH]; intros n d l LB FL LE FP; cbn [fileRows]; [exists l; repeat split; assumption|].
  inversion FL as [|? ? L1 L2]; subst. cbn [length] in LE. destruct (@rowDict_total key labels row 0 d) as [d1 RD]; [cbn; lia|]. rewrite RD.
  destruct (@rowDict_says N key (fun l k => key l = Some k) (fun _ _ => iff_refl _) labels row d d1 LB RD) as [LB1 _].
  destruct (nth_error l n) as [e|] eqn:NE; [|apply nth_error_None in NE; lia].
  assert (PE : P e) by (rewrite Forall_forall in FP; apply FP; exact (nth_error_In _ _ NE)).
  destruct (AP e d1 PE LB1) as (e' & -> & PE'). destruct (IH (S n) d1 (set_nth l n e') LB1 L2) as (l' & FR & LL & FP').
  - rewrite set_nth_len. lia.
  - apply set_nth_Forall; assumption.
  - exists l'. split; [exact FR|]. rewrite set_nth_len in LL. split; assumption.
Qed.

Lemma constLoop_total : forall (l m : table), (forall k v, In (k, v) l -> mmem sltb k m = true) -> exists m', constLoop l m = (m', Ok tt) /\ forall k, mmem sltb k m' = mmem sltb k m.
Proof.
  induction l as [|[k v] l IH]; intros m H; cbn [constLoop]; [exists m; split; reflexivity|].
  rewrite (H k v (or_introl eq_refl)).
  assert (KE : forall q, mmem sltb q (mset sltb k v m) = mmem sltb q m).
  { intros q. unfold mmem. destruct (string_dec k q) as [<-|NE]; [rewrite smfind_mset_same; symmetry; exact (H k v (or_introl eq_refl))|now rewrite sfind_other]. }
  destruct (IH (mset sltb k v m)) as (m' & E & Q).
  - intros q w I. rewrite KE. exact (H q w (or_intror I)).
  - exists m'. split; [exact E|]. intros q. now rewrite Q, KE.
Qed.

(** the subshells exist and know the constants of the labels *)
Definition knows (subs : list string) (labels : nat -> list string) (e : @element N) : Prop :=
  forall i sub, nth_error subs i = Some sub -> exists sh, getShell e sub = Ok sh /\
    forall l k, In l (labels i) -> as_constant l k -> exists v, mfind sltb k (Shell.getShellConstants sh) = Some v.

Lemma const_step subs labels i sub e d : NoDup subs -> nth_error subs i = Some sub -> knows subs labels e -> labelled constantKey (labels i) d ->
  exists e', Element.setShellConstants e sub d = (e', Ok tt) /\ knows subs labels e'.
Proof.
  intros ND Hi K [IM LB]. destruct (K i sub Hi) as (sh & G & KN). unfold Element.setShellConstants. rewrite G. unfold onShell, Shell.setShellConstants.
  destruct (@constLoop_total d (sh_const sh)) as (m' & C & Q).
  - intros k v I. destruct (LB k v) as (l & Hl & HK).
    + apply smfind_In in I; [exact I|exact IM].
    + apply constantKey_iff in HK. destruct (KN l k Hl HK) as [w W]. unfold mmem. change (Shell.getShellConstants sh) with (sh_const sh) in W. now rewrite W.
  - rewrite C. eexists. split; [reflexivity|]. intros i2 sub2 H2. destruct (string_dec sub sub2) as [<-|NE].
    + assert (i = i2) by (exact (proj1 (NoDup_nth_error subs) ND i i2 ltac:(apply nth_error_Some; congruence) ltac:(congruence))). subst i2.
      exists (with_const sh m'). split; [unfold getShell; cbn; now rewrite smfind_mset_same|]. intros l k Hl HK. destruct (KN l k Hl HK) as [w W].
      specialize (Q k). unfold mmem in Q. change (Shell.getShellConstants sh) with (sh_const sh) in W. rewrite W in Q. cbn.
      destruct (mfind sltb k m') as [w'|]; [now exists w'|discriminate].
    + destruct (K i2 sub2 H2) as (sh2 & G2 & KN2). exists sh2. split; [|exact KN2]. unfold getShell in *. cbn. rewrite sfind_other by exact NE. exact G2.
Qed.

Lemma const_total content subs labels rows : NoDup subs ->
  forall todo i l, (forall m, nth_error todo m = nth_error subs (i + m)) ->
  (forall m, (m < length todo)%nat -> scan_is strtod content (i + m) (labels (i + m)%nat) (rows (i + m)%nat) /\
     Forall (fun r => length r = length (labels (i + m)%nat)) (rows (i + m)%nat) /\ (i + m < length (rows (i + m)%nat) <= length l)%nat) ->
  Forall (knows subs labels) l ->
  exists l', fileScans strtod constantKey (fun sub e d => Element.setShellConstants e sub d) (setFileName content) i todo l = (l', Ok tt).
Proof.
  intros ND. induction todo as [|s r IH]; intros i l TD SC K; cbn [fileScans]; [now exists l|].
  destruct (SC 0%nat) as ([A1 A2] & FL & LE); [cbn; lia|]. rewrite Nat.add_0_r in *. rewrite A1, A2.
  destruct (nth_error (rows i) i) as [row|] eqn:RI; [|apply nth_error_None in RI; lia].
  assert (LR : length row = length (labels i)) by (rewrite Forall_forall in FL; apply FL; exact (nth_error_In _ _ RI)). rewrite LR, Nat.eqb_refl. cbn [negb].
  assert (HS : nth_error subs i = Some s) by (specialize (TD 0%nat); rewrite Nat.add_0_r in TD; now rewrite <- TD).
  destruct (@fileRows_total constantKey (fun e d => Element.setShellConstants e s d) (labels i) (knows subs labels)) with (rows := rows i) (n := 0%nat) (d := @nil (string * num)) (l := l)
    as (l1 & FR & LL & FP).
  - intros e d KE LB. exact (@const_step subs labels i s e d ND HS KE LB).
  - split; [constructor|intros k v H; discriminate].
  - exact FL.
  - cbn. lia.
  - exact K.
  - rewrite FR. apply IH.
    + intros m. specialize (TD (S m)). rewrite Nat.add_succ_r in TD. exact TD.
    + intros m Hm. specialize (SC (S m)). rewrite Nat.add_succ_r in SC. rewrite LL. apply SC. cbn [length]. lia.
    + exact FP.
Qed.
End Total.
