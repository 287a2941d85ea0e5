(** Multilayer: one element in one layer keeps the table of lines balanced. *)
From Coq Require Import Ascii String List ZArith Reals Bool Arith Lia Lra.
From Verif Require Import Base.Num Base.Res Base.RSum Base.SMap Base.Str Base.ListLemmas Model.Beam Model.Material Model.TransmissionTable
  Model.Math Model.Shell Model.Element Model.Layer Model.XRF Model.Multilayer Spec.MultilayerSpec Proofs.LayerProofs Proofs.MultilayerProofs
  Proofs.MultilayerProofs2 Proofs.MultilayerProofs3.
Import ListNotations.
Set Implicit Arguments.
Local Open Scope string_scope.
Local Open Scope R_scope.
Local Existing Instance RNum.

Section Step.
Variable lf debug : bool.
Variable xl : @xlib RNum.
Variable c : @config RNum.
Hypothesis WF : well_formed xl.

Definition flux (t : tbl) : R := field t "efficiency" * (field t "primary" + field t "secondary").
Definition peak_ok (ls : lns) (L : string) (t : tbl) (e : string * tbl) : Prop :=
  exists u r, mfind sltb "rate" (snd e) = Some r /\ mfind sltb (L ++ " " ++ fst e) ls = Some u /\ field u "ratio" = r /\
    field u "rate" = r * flux t /\ field u "primary" = r * field t "primary" /\ field u "secondary" = r * field t "secondary" /\
    field u "energy" = field (snd e) "energy".
Definition balanced (ls : lns) (L : string) (t : tbl) : Prop :=
  exists esc, escape_peaks xl (c_detector c) (field t "energy") = Ok esc /\
    field t "rate" = (1 - Rsum (map peak_rate esc)) * flux t /\ Forall (peak_ok ls L t) esc.
Definition blank (ls : lns) (L : string) (t : tbl) : Prop :=
  field t "rate" = 0 /\ field t "primary" = 0 /\ field t "secondary" = 0 /\ forall e, mfind sltb (L ++ " " ++ e) ls = None.
Definition settled (ls : lns) (L : string) : Prop :=
  exists t, mfind sltb L ls = Some t /\ contributions t = field t "secondary" /\ balanced ls L t.
Definition pending (ls : lns) (L : string) (x : @rline RNum) : Prop :=
  one_word L /\ L <> "" /\ r_rate x = r_eff x * (r_primary x + r_secondary x) /\
  exists t, mfind sltb L ls = Some t /\ r_energy x = field t "energy" /\ r_mu x = field t "mu_1_i" /\ r_eff x = field t "efficiency" /\
    contributions t = field t "secondary" + r_secondary x /\ (balanced ls L t \/ blank ls L t).
Definition owned (ls : lns) (n : string) : Prop :=
  exists L e t esc, n = L ++ " " ++ e /\ one_word L /\ mfind sltb L ls = Some t /\
    escape_peaks xl (c_detector c) (field t "energy") = Ok esc /\ In e (map fst esc).
Definition rest (ls : lns) : Prop :=
  sorted2 ls /\ (forall L t, mfind sltb L ls = Some t -> one_word L -> L <> "" /\ settled ls L) /\
  (forall n t, mfind sltb n ls = Some t -> has_space n = true -> owned ls n).

(** entries L and "L ..." are the same in two tables *)
Definition same_for (L : string) (ls ls' : lns) : Prop :=
  mfind sltb L ls' = mfind sltb L ls /\ forall e, mfind sltb (L ++ " " ++ e) ls' = mfind sltb (L ++ " " ++ e) ls.
Lemma balanced_same ls ls' L t : same_for L ls ls' -> balanced ls L t -> balanced ls' L t.
Proof.
  intros [_ H] (esc & A & B & C). exists esc. split; [exact A|split; [exact B|]]. eapply Forall_impl; [|exact C].
  intros e (u & r & D). exists u, r. rewrite H. exact D.
Qed.
Lemma settled_same ls ls' L : same_for L ls ls' -> settled ls L -> settled ls' L.
Proof. intros H (t & A & B & C). exists t. split; [rewrite (proj1 H); exact A|split; [exact B|eapply balanced_same; eassumption]]. Qed.
Lemma pending_same ls ls' L x : same_for L ls ls' -> pending ls L x -> pending ls' L x.
Proof.
  intros H (O & N & P & t & A & B1 & B2 & B3 & C & D). split; [exact O|split; [exact N|split; [exact P|]]]. exists t. rewrite (proj1 H).
  repeat (split; [assumption|]). destruct D as [D|(D1 & D2 & D3 & D4)]; [left; eapply balanced_same; eassumption|right].
  repeat (split; [assumption|]). intros e. rewrite (proj2 H). apply D4.
Qed.

(** what finishing a line adds *)
Definition added (ls ls' : lns) (mf : R) (L : string) (x : @rline RNum) : Prop :=
  exists t t', mfind sltb L ls = Some t /\ mfind sltb L ls' = Some t' /\
     field t' "primary" = field t "primary" + r_primary x /\
     field t' "secondary" = field t "secondary" + r_secondary x /\
     field t' "massFraction" = mf /\
     (forall f, f <> "rate" -> f <> "primary" -> f <> "secondary" -> f <> "massFraction" -> field t' f = field t f).

Lemma finish_step element mf ls es L x ls' es' : sorted2 ls -> esc_ok xl c es -> pending ls L x ->
  finishLine lf xl element mf ls es (L, x) = Ok (ls', es') ->
  sorted2 ls' /\ esc_ok xl c es' /\ settled ls' L /\ added ls ls' mf L x /\
  (forall L', one_word L' -> L' <> L -> same_for L' ls ls') /\
  (forall n, mfind sltb n ls' = mfind sltb n ls \/ n = L \/ (has_space n = true /\ owned ls' n)).
Proof.
  intros S2 EO (O & N & P & t & A & B1 & B2 & B3 & C & D) H.
  destruct (@finishLine_spec lf xl c WF element mf ls es L x ls' es' t S2 EO O N A H)
    as (S2' & EO' & esc & EP & ND & (t' & A' & F1 & F2 & F3 & F4 & F5 & F6) & PS & FR).
  assert (EN : field t' "energy" = field t "energy") by (apply F6; discriminate).
  assert (EF : field t' "efficiency" = field t "efficiency") by (apply F6; discriminate).
  rewrite B1 in EP.
  split; [exact S2'|split; [exact EO'|]]. split; [|split; [|split]].
  - exists t'. split; [exact A'|]. split; [rewrite F5, C, F3; rring|].
    exists esc. rewrite EN. split; [exact EP|]. split.
    + rewrite F1. unfold flux. rewrite EF, F2, F3. rewrite P, B3.
      destruct D as [(esc' & Q1 & Q2 & _)|(Q1 & Q2 & Q3 & _)].
      * rewrite EP in Q1. injection Q1 as <-. rewrite Q2. unfold flux. rring.
      * rewrite Q1, Q2, Q3. rring.
    + rewrite Forall_forall in PS |- *. intros e I. destruct (PS e I) as (u & r & R & U & K1 & K2 & K3 & K4 & K5). exists u, r.
      split; [exact R|split; [exact U|split; [exact K1|]]]. unfold flux. rewrite EF, F2, F3.
      destruct D as [(esc' & Q1 & _ & Q2)|(Q1 & Q2 & Q3 & Q4)].
      * rewrite EP in Q1. injection Q1 as <-. rewrite Forall_forall in Q2. destruct (Q2 e I) as (u0 & r0 & R0 & U0 & M1 & M2 & M3 & M4 & M5).
        rewrite R in R0. injection R0 as <-. unfold lineOf in K2, K3, K4. toR. rewrite U0 in K2, K3, K4, K5.
        rewrite K2, K3, K4, K5, M2, M3, M4. unfold flux. rewrite P, B3. repeat split; try exact M5; rring.
      * unfold lineOf in K2, K3, K4. toR. rewrite Q4 in K2, K3, K4, K5. rewrite K2, K3, K4, K5. rewrite P, B3, Q2, Q3. cbn. repeat split; rring.
  - exists t, t'. repeat (split; [assumption|]). exact F6.
  - intros L' O' N'. split.
    + apply FR; [exact N'|]. intros e _ E. pose proof (has_space_mid L e) as HS. rewrite <- E in HS. unfold one_word in O'. congruence.
    + intros e. apply FR.
      * intros E. pose proof (has_space_mid L' e) as HS. rewrite E in HS. unfold one_word in O. congruence.
      * intros e' _ E. apply word_inj in E; [destruct E; congruence|exact O'|exact O].
  - intros n. destruct (string_dec n L) as [->|N1]; [right; left; reflexivity|].
    assert (DEC : (exists e, In e (map fst esc) /\ n = L ++ " " ++ e) \/ (forall e, In e (map fst esc) -> n <> L ++ " " ++ e)).
    { clear. induction (map fst esc) as [|e l IH]; [right; intros ? []|]. destruct (string_dec n (L ++ " " ++ e)) as [E|E].
      - left. exists e. split; [left; reflexivity|exact E].
      - destruct IH as [(e' & I & E')|IH]; [left; exists e'; split; [right; exact I|exact E']|right]. intros e' [<-|I]; [exact E|apply IH, I]. }
    destruct DEC as [(e & I & E)|NI]; [|left; apply FR; assumption].
    right. right. split; [rewrite E; apply has_space_mid|]. exists L, e, t', esc. split; [exact E|split; [exact O|split; [exact A'|split; [|exact I]]]].
    rewrite EN. exact EP.
Qed.

Lemma finish_all element mf : forall rs ls es ls' es', NoDup (map fst rs) -> sorted2 ls -> esc_ok xl c es ->
  (forall L x, In (L, x) rs -> pending ls L x) ->
  rfold (fun a lx => finishLine lf xl element mf (fst a) (snd a) lx) rs (ls, es) = Ok (ls', es') ->
  sorted2 ls' /\ esc_ok xl c es' /\ (forall L x, In (L, x) rs -> settled ls' L /\ added ls ls' mf L x) /\
  (forall L', one_word L' -> ~ In L' (map fst rs) -> same_for L' ls ls') /\
  (forall n, mfind sltb n ls' = mfind sltb n ls \/ In n (map fst rs) \/ (has_space n = true /\ owned ls' n)).
Proof.
  induction rs as [|[L x] rs IH]; intros ls es ls' es' ND S2 EO HP H.
  { cbn in H. injection H as <- <-. split; [exact S2|split; [exact EO|split; [intros ? ? []|split]]]; [split; reflexivity|left; reflexivity]. }
  cbn [map fst] in ND. apply NoDup_cons_iff in ND. destruct ND as [N1 ND].
  cbn [rfold fst snd] in H. obind H y Y. destruct y as [ls1 es1].
  destruct (@finish_step _ _ _ _ _ _ _ _ S2 EO (HP L x (or_introl eq_refl)) Y) as (A & B & C & D & E & F).
  assert (OL : one_word L) by apply (HP L x (or_introl eq_refl)).
  assert (NIN : forall L' x', In (L', x') rs -> L' <> L) by (intros L' x' I ->; apply N1; apply in_map_iff; exists (L, x'); auto).
  destruct (IH ls1 es1 ls' es' ND A B) as (A' & B' & C' & D' & F'); [|exact H|].
  { intros L' x' I. specialize (HP L' x' (or_intror I)). eapply pending_same; [|exact HP]. apply E; [apply HP|eapply NIN, I]. }
  split; [exact A'|split; [exact B'|split; [|split]]].
  - intros L' x' [I|I].
    + injection I as <- <-. specialize (D' L OL N1). split; [eapply settled_same; eassumption|].
      destruct D as (t & t' & T1 & T2 & T3). exists t, t'. split; [exact T1|split; [rewrite (proj1 D'); exact T2|exact T3]].
    + destruct (C' _ _ I) as [Q1 Q2]. split; [exact Q1|]. destruct Q2 as (t & t' & T1 & T2).
      exists t, t'. split; [|exact T2]. rewrite <- T1. symmetry. apply E; [apply (HP L' x' (or_intror I))|eapply NIN, I].
  - intros L' O' NI. cbn [map fst In] in NI. assert (Q1 : same_for L' ls ls1) by (apply E; [exact O'|intros ->; apply NI; left; reflexivity]). assert (Q2 : same_for L' ls1 ls') by (apply D'; tauto).
    split; [rewrite (proj1 Q2); apply Q1|]. intros e. rewrite (proj2 Q2). apply Q1.
  - intros n. destruct (F' n) as [Q|[Q|Q]]; [|right; left; right; exact Q|right; right; exact Q]. rewrite Q.
    destruct (F n) as [Q'|[->|[HS (L0 & e & t & esc & W1 & W2 & W3 & W4 & W5)]]]; [left; exact Q'|right; left; left; reflexivity|right; right].
    split; [exact HS|].
    assert (EX : exists t', mfind sltb L0 ls' = Some t' /\ field t' "energy" = field t "energy").
    { destruct (in_dec string_dec L0 (map fst rs)) as [I|NI].
      - apply in_map_iff in I. destruct I as [[L1 x1] [EE I]]. cbn in EE. subst L1. destruct (C' _ _ I) as [_ (t1 & t1' & T1 & T2 & _ & _ & _ & T3)].
        exists t1'. split; [exact T2|]. rewrite W3 in T1. injection T1 as <-. apply T3; discriminate.
      - exists t. split; [exact (eq_trans (proj1 (D' L0 W2 NI)) W3)|reflexivity]. }
    destruct EX as (t' & X1 & X2). exists L0, e, t', esc. rewrite X2. repeat (split; [assumption|]). assumption.
Qed.
End Step.
