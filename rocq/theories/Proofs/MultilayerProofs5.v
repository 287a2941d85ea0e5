(** Multilayer: one element in one layer. *)
From Coq Require Import Ascii String List ZArith Reals Bool Arith Lia Lra.
From Verif Require Import Base.Num Base.Res Base.RSum Base.SMap Base.Str Base.ListLemmas Model.Beam Model.Material Model.TransmissionTable
  Model.Math Model.Shell Model.Element Model.Layer Model.XRF Model.Multilayer Spec.MultilayerSpec Proofs.LayerProofs Proofs.MultilayerProofs
  Proofs.MultilayerProofs2 Proofs.MultilayerProofs3 Proofs.MultilayerProofs4.
Import ListNotations.
Set Implicit Arguments.
Local Open Scope string_scope.
Local Open Scope R_scope.
Local Existing Instance RNum.

Global Instance natltb_total : StrictTotal Nat.ltb.
Proof.
  split.
  - intros a. apply Nat.ltb_irrefl.
  - intros a b d. rewrite !Nat.ltb_lt. lia.
  - intros a b. rewrite !Nat.ltb_ge. lia.
Qed.

(** ** The three-level table *)
Definition ar_sorted (ar : @table3 RNum) : Prop := msorted sltb ar /\ forall k m, mfind sltb k ar = Some m -> msorted Nat.ltb m.
Lemma ar_sorted_nil : ar_sorted [].
Proof. split; [apply smsorted_nil|discriminate]. Qed.
Lemma opt_sorted {V} (o : option (list (nat * V))) : (forall m, o = Some m -> msorted Nat.ltb m) -> msorted Nat.ltb (match o with Some m => m | None => [] end).
Proof. intros H. destruct o; [apply H; reflexivity|apply msorted_nil]. Qed.
Lemma putTable_sorted ar k i (ls : lns) : ar_sorted ar -> ar_sorted (@putTable RNum ar k i ls).
Proof.
  intros [A B]. unfold putTable. split; [apply smset_sorted, A|]. intros k' m H. destruct (string_dec k k') as [<-|N].
  - rewrite smfind_mset_same in H. injection H as <-. apply mset_sorted; [exact natltb_total|].
    apply opt_sorted, B.
  - rewrite smfind_mset_other in H by assumption. eapply B, H.
Qed.
Lemma layerTable_put ar k i (ls : lns) k' i' : ar_sorted ar ->
  @layerTable RNum (putTable ar k i ls) k' i' = if (String.eqb k k' && Nat.eqb i i')%bool then ls else layerTable ar k' i'.
Proof.
  intros [A B]. unfold layerTable, putTable. destruct (String.eqb_spec k k') as [<-|N].
  - rewrite smfind_mset_same. cbn [andb]. destruct (Nat.eqb_spec i i') as [<-|N].
    + rewrite mfind_mset_same by exact natltb_total. reflexivity.
    + rewrite mfind_mset_other; [|exact natltb_total|exact N|apply opt_sorted, B].
      match goal with |- context [mfind sltb k ?a] => destruct (mfind sltb k a) end; reflexivity.
  - rewrite smfind_mset_other by assumption. reflexivity.
Qed.

Lemma some_inj' {A} (a b : A) : Some a = Some b -> a = b.
Proof. congruence. Qed.

Ltac same H1 H2 := let Q := fresh in assert (Q := eq_trans (eq_sym H1) H2); apply some_inj' in Q; match type of Q with ?a = ?b => first [subst b | subst a] end.

Section Step.
Variable lf debug : bool.
Variable xl : @xlib RNum.
Variable c : @config RNum.
Hypothesis WF : well_formed xl.

Lemma rest_nil : rest xl c [].
Proof. split; [apply sorted2_nil|split; discriminate]. Qed.

Definition gain (secondary : Z) env i s thr mu1 massFactor mf (tf : tbl) (ls ls' : lns) L : Prop :=
  exists t', mfind sltb L ls' = Some t' /\
   field t' "primary" = field (@lineOf RNum ls L) "primary" + primaryOf c s mu1 massFactor (field tf "rate") (field t' "mu_1_i") /\
   field t' "massFraction" = mf /\
   ((secondary <= 0)%Z -> field t' "secondary" = field (@lineOf RNum ls L) "secondary") /\
   match mfind sltb L ls with
   | Some t => field t' "energy" = field t "energy" /\ field t' "mu_1_i" = field t "mu_1_i" /\ field t' "efficiency" = field t "efficiency" /\
               field t' "energy_threshold" = field t "energy_threshold"
   | None => mfind sltb "energy" tf = Some (field t' "energy") /\ muTotal xl c (sl_layer s) (sl_comp s) (field t' "energy") = Ok (field t' "mu_1_i") /\
             detectionEfficiency xl c env i (sl_geo s) (c_detector c) (field t' "energy") = Ok (field t' "efficiency") /\
             field t' "energy_threshold" = thr
   end.

Lemma newLine_fields eff E thr mu : let t := @newLine RNum eff E thr mu in
  field t "efficiency" = eff /\ field t "energy" = E /\ field t "energy_threshold" = thr /\ field t "mu_1_i" = mu /\
  field t "primary" = 0 /\ field t "rate" = 0 /\ field t "secondary" = 0 /\ contributions t = 0.
Proof. cbv zeta. unfold newLine, field, contributions. cbn. repeat split. Qed.

Lemma newLine_space eff E thr mu f : has_space f = true -> field (@newLine RNum eff E thr mu) f = 0.
Proof.
  intros H. unfold newLine, field. cbn [mfind]. repeat match goal with |- context [sltb ?a f] => destruct (sltb a f) eqn:?; [|destruct (sltb f a) eqn:?; [reflexivity|]]; try reflexivity end;
  exfalso; match goal with A : sltb ?a f = false, B : sltb f ?a = false |- _ => assert (Q : a = f) by (apply (st_total (StrictTotal := sltb_total)); assumption); rewrite <- Q in H; discriminate H end.
Qed.

Lemma chosen_In family (factors : lns) L : In L (map fst (filter (chosen family) factors)) -> exists t, In (L, t) factors /\ lineSelected family L = true.
Proof.
  intros H. apply in_map_iff in H. destruct H as [[L' t] [E I]]. cbn in E. subst L'. apply filter_In in I. destruct I as [I C].
  exists t. split; [exact I|]. unfold chosen in C. apply andb_true_iff in C. apply C.
Qed.

Definition treated (mf massFactor : R) (calculationLayer : Z) (i : nat) : Prop :=
  (calculationLayer < 0 \/ calculationLayer = Z.of_nat i)%Z /\ massFactor <> 0.

Lemma layer_core secondary env i s element family thr (factors : lns) (ls : lns) es fc ls1 es1 rs mu1 mf massFactor fc2 rs2 ls2 ls3 es3 :
  actualFamily family <> "" -> msorted sltb factors -> (forall L, In L (map fst factors) -> one_word L) ->
  rest xl c ls -> esc_ok xl c es ->
  collect lf xl c env i s element family thr factors ls es = Ok (ls1, es1, rs) ->
  (if (0 <? secondary)%Z
   then secondaryLoop debug xl c env i s mu1 massFactor element thr 0 (e_slabs env) fc (map (withPrimary c s mu1 massFactor factors) rs) ls1
   else Ok (fc, map (withPrimary c s mu1 massFactor factors) rs, ls1)) = Ok (fc2, rs2, ls2) ->
  rfold (fun a lx => finishLine lf xl element mf (fst a) (snd a) lx) rs2 (ls2, es1) = Ok (ls3, es3) ->
  rest xl c ls3 /\ esc_ok xl c es3 /\
  (forall L t, In (L, t) (filter (chosen family) factors) -> gain secondary env i s thr mu1 massFactor mf t ls ls3 L) /\
  (forall L, one_word L -> ~ In L (map fst (filter (chosen family) factors)) -> mfind sltb L ls3 = mfind sltb L ls) /\
  (map fst rs2 = map fst (filter (chosen family) factors) /\ forall L x2, In (L, x2) rs2 -> exists t1 t2 t3, mfind sltb L ls1 = Some t1 /\ mfind sltb L ls2 = Some t2 /\ mfind sltb L ls3 = Some t3 /\
     r_mu x2 = field t1 "mu_1_i" /\ field t3 "mu_1_i" = field t1 "mu_1_i" /\
     field t3 "secondary" = field (@lineOf RNum ls L) "secondary" + r_secondary x2 /\
     forall f, has_space f = true -> field t1 f = field (@lineOf RNum ls L) f /\ field t3 f = field t2 f).
Proof.
  intros HF SF OW (S0 & R0 & W0) EO C SEC FIN.
  destruct (@collect_spec lf xl c env i s element family thr HF factors ls es ls1 es1 rs SF S0 EO C) as (S1 & EO1 & N1 & T1 & K1 & F1 & _).
  set (names := map fst (filter (chosen family) factors)) in *.
  assert (OWn : forall L, In L names -> one_word L /\ L <> "").
  { intros L I. destruct (chosen_In _ _ _ I) as (t & I1 & I2). split; [|eapply lineSelected_nonempty; eassumption].
    apply OW. apply in_map_iff. exists (L, t). auto. }
  assert (NDf : NoDup names).
  { unfold names. clear - SF. apply smsorted_NoDup in SF. unfold mkeys in SF.
    induction factors as [|[a t] r IH]; [constructor|]. cbn in SF. apply NoDup_cons_iff in SF. destruct SF as [A B].
    cbn [filter]. destruct (chosen family (a, t)); [|apply IH, B]. cbn [map fst]. constructor; [|apply IH, B].
    intros I. apply A. apply in_map_iff in I. destruct I as [x [E I]]. apply filter_In in I. apply in_map_iff. exists x. tauto. }
  set (rs1 := map (withPrimary c s mu1 massFactor factors) rs) in *.
  assert (N1' : map fst rs1 = names) by (rewrite <- N1; unfold rs1; rewrite map_map; apply map_ext; intros [? ?]; reflexivity).
  assert (P1 : forall L, In L (map fst rs1) -> exists t, mfind sltb L ls1 = Some t).
  { intros L I. rewrite N1', <- N1 in I. apply in_map_iff in I. destruct I as [[L' x] [E I]]. cbn in E. subst L'.
    destruct (T1 _ _ I) as ((t & Ht & _) & _). exists t. exact Ht. }
  assert (EV : ev rs1 ls1 rs2 ls2).
  { destruct (0 <? secondary)%Z.
    - eapply secondaryLoop_spec; [rewrite N1'; exact NDf|exact S1|exact P1|exact SEC].
    - injection SEC as <- <- <-. apply ev_refl, S1. }
  destruct EV as (S2 & N2 & EVx & EVo). rewrite N1' in N2, EVo.
  (* entries with a space are those of ls *)
  assert (SP : forall n, has_space n = true -> mfind sltb n ls2 = mfind sltb n ls).
  { intros n HS. assert (NI : ~ In n names) by (intros I; apply OWn in I; destruct I as [I _]; unfold one_word in I; congruence).
    rewrite EVo by exact NI. destruct (mfind sltb n ls) as [t|] eqn:E; [apply K1, E|].
    destruct (F1 n E) as [Q|[Q _]]; [exact Q|]. rewrite N1 in Q. contradiction. }
  assert (OUT : forall L, one_word L -> ~ In L names -> same_for L ls ls2).
  { intros L O NI. split; [|intros e; apply SP, has_space_mid].
    rewrite EVo by exact NI. destruct (mfind sltb L ls) as [t|] eqn:E; [apply K1, E|].
    destruct (F1 L E) as [Q|[Q _]]; [exact Q|]. rewrite N1 in Q. contradiction. }
  (* lines being treated *)
  assert (HX : forall L x2, In (L, x2) rs2 -> exists x t1 t2, In (L, x) rs /\ mfind sltb L ls1 = Some t1 /\ mfind sltb L ls2 = Some t2 /\
     evolved t1 t2 (r_secondary x2) /\ r_energy x2 = field t1 "energy" /\ r_mu x2 = field t1 "mu_1_i" /\ r_eff x2 = field t1 "efficiency" /\
     r_primary x2 = primaryOf c s mu1 massFactor (field (@lineOf RNum factors L) "rate") (field t1 "mu_1_i") /\
     r_rate x2 = r_eff x2 * (r_primary x2 + r_secondary x2) /\ ((secondary <= 0)%Z -> r_secondary x2 = 0)).
  { intros L x2 I2. destruct (EVx _ _ I2) as (x1 & I1 & A1 & A2 & A3 & A4 & A5 & A6).
    unfold rs1 in I1. apply in_map_iff in I1. destruct I1 as [[L' x] [E I]]. unfold withPrimary in E. cbn [fst snd] in E. injection E as -> <-.
    cbn [r_energy r_mu r_eff r_primary r_secondary r_rate] in *. rnorm_in A5. rnorm_in A6.
    destruct (T1 _ _ I) as ((t1 & Ht1 & B1 & B2 & B3) & _). destruct (A6 t1 Ht1) as (t2 & Ht2 & EVt).
    exists x, t1, t2. split; [exact I|split; [exact Ht1|split; [exact Ht2|]]]. split.
    { destruct EVt as (V1 & V2 & V3). split; [exact V1|split; [exact V2|]]. rewrite V3. rring. }
    rewrite A1, A2, A3, B1, B2, B3. repeat (split; [reflexivity|]). split; [rewrite A4, B2; reflexivity|]. split.
    - rewrite A5, A4, B2, B3. rring.
    - intros HZ. destruct (Z.ltb_spec 0 secondary); [lia|]. injection SEC as _ E2 _. rewrite <- E2 in I2. unfold rs1 in I2. apply in_map_iff in I2.
      destruct I2 as [[L' y] [E I2]]. unfold withPrimary in E. injection E as _ <-. reflexivity. }
  assert (PD : forall L x, In (L, x) rs2 -> pending xl c ls2 L x).
  { intros L x2 I2. destruct (HX _ _ I2) as (x & t1 & t2 & I & Ht1 & Ht2 & (V1 & V2 & V3) & B1 & B2 & B3 & B4 & B5 & _).
    assert (IN : In L names) by (rewrite <- N2; apply in_map_iff; exists (L, x2); auto).
    destruct (OWn L IN) as [O NE]. split; [exact O|split; [exact NE|split; [exact B5|]]].
    exists t2. split; [exact Ht2|]. rewrite !V2 by reflexivity. repeat (split; [assumption|]). rewrite V3.
    destruct (mfind sltb L ls) as [t|] eqn:E.
    - pose proof (K1 _ _ E) as Q. same Q Ht1. destruct (R0 L t E O) as [_ (t' & Q1 & Q2 & Q3)].
      same E Q1. split; [rewrite Q2; reflexivity|left]. destruct Q3 as (esc & Q4 & Q5 & Q6).
      exists esc. unfold flux. rewrite !V2 by reflexivity. split; [exact Q4|split; [exact Q5|]]. eapply Forall_impl; [|exact Q6].
      intros e (u & r & Z1 & Z2 & Z3 & Z4 & Z5 & Z6 & Z7). exists u, r. unfold flux. rewrite !V2 by reflexivity.
      rewrite SP by apply has_space_mid. repeat (split; [assumption|]). assumption.
    - destruct (F1 L E) as [Q|[_ (tf & E0 & mu & eff & I0 & Q1 & Q2 & Q3 & Q4)]]; [congruence|]. assert (Q5 := eq_trans (eq_sym Ht1) Q4). apply some_inj' in Q5. subst t1.
      destruct (newLine_fields eff E0 thr mu) as (G1 & G2 & G3 & G4 & G5 & G6 & G7 & G8).
      rewrite G7, G8. split; [reflexivity|right]. unfold blank. rewrite !V2 by reflexivity. repeat (split; [assumption|]).
      intros e. rewrite SP by apply has_space_mid. destruct (mfind sltb (L ++ " " ++ e) ls) as [u|] eqn:EU; [|reflexivity]. exfalso.
      destruct (W0 _ _ EU (has_space_mid _ _)) as (L0 & e0 & t0 & esc & Y1 & Y2 & Y3 & _). apply word_inj in Y1; [|exact O|exact Y2]. destruct Y1 as [-> _]. congruence. }
  destruct (@finish_all lf xl c WF element mf rs2 ls2 es1 ls3 es3) as (S3 & EO3 & A3 & B3 & C3); [rewrite N2; exact NDf|exact S2|exact EO1|exact PD|exact FIN|].
  split; [|split; [exact EO3|split; [|split; [|split; [exact N2|]]]]].
  - split; [exact S3|split].
    + intros L t HL O. destruct (in_dec string_dec L names) as [I|NI].
      * split; [apply OWn, I|]. rewrite <- N2 in I. apply in_map_iff in I. destruct I as [[L' x] [E I]]. cbn in E. subst L'. apply (A3 _ _ I).
      * assert (NI2 : ~ In L (map fst rs2)) by (rewrite N2; exact NI). pose proof (B3 L O NI2) as Q. pose proof (OUT L O NI) as Q'.
        assert (HL0 : mfind sltb L ls = Some t) by (rewrite <- (proj1 Q'), <- (proj1 Q); exact HL).
        destruct (R0 L t HL0 O) as [Y1 Y2]. split; [exact Y1|]. eapply settled_same; [exact Q|]. eapply settled_same; [exact Q'|exact Y2].
    + intros n t Hn HS. destruct (C3 n) as [Q|[Q|[_ Q]]].
      * assert (Hn' := eq_trans (eq_sym (SP n HS)) (eq_trans (eq_sym Q) Hn)). destruct (W0 n t Hn' HS) as (L & e & tL & esc & Y1 & Y2 & Y3 & Y4 & Y5).
        assert (EX : exists t', mfind sltb L ls3 = Some t' /\ field t' "energy" = field tL "energy").
        { destruct (in_dec string_dec L names) as [I|NI].
          - rewrite <- N2 in I. apply in_map_iff in I. destruct I as [[L' x] [E I]]. cbn in E. subst L'.
            destruct (A3 _ _ I) as [_ (ta & tb & Z1 & Z2 & _ & _ & _ & Z3)]. exists tb. split; [exact Z2|]. rewrite Z3 by discriminate.
            destruct (HX _ _ I) as (x0 & t1 & t2 & _ & Ht1 & Ht2 & (_ & V2 & _) & _). same Ht2 Z1.
            rewrite V2 by reflexivity. pose proof (K1 _ _ Y3) as Z4. same Z4 Ht1. reflexivity.
          - exists tL. split; [|reflexivity]. assert (NI2 : ~ In L (map fst rs2)) by (rewrite N2; exact NI).
            refine (eq_trans (proj1 (B3 L Y2 NI2)) (eq_trans (proj1 (OUT L Y2 NI)) Y3)). }
        destruct EX as (t' & Z1 & Z2). exists L, e, t', esc. rewrite Z2. repeat (split; [assumption|]). assumption.
      * rewrite N2 in Q. apply OWn in Q. destruct Q as [Q _]. unfold one_word in Q. congruence.
      * exact Q.
  - intros L tf I. assert (IN : In L names) by (apply in_map_iff; exists (L, tf); auto). destruct (OWn L IN) as [O NE].
    assert (IF : In (L, tf) factors) by (apply filter_In in I; apply I).
    assert (LF : @lineOf RNum factors L = tf) by (unfold lineOf; toR; rewrite (proj2 (smfind_In L tf SF) IF); reflexivity).
    rewrite <- N2 in IN. apply in_map_iff in IN. destruct IN as [[L' x2] [E I2]]. cbn in E. subst L'.
    destruct (HX _ _ I2) as (x & t1 & t2 & Ix & Ht1 & Ht2 & (V1 & V2 & V3) & G1 & G2 & G3 & G4 & G5 & G6).
    destruct (A3 _ _ I2) as [_ (ta & tb & Z1 & Z2 & Z3 & Z4 & Z5 & Z6)]. same Ht2 Z1.
    rewrite LF in G4. unfold gain.
    assert (M : field tb "mu_1_i" = field t1 "mu_1_i") by (rewrite Z6 by discriminate; apply V2; reflexivity).
    assert (E' : field tb "energy" = field t1 "energy") by (rewrite Z6 by discriminate; apply V2; reflexivity).
    assert (F' : field tb "efficiency" = field t1 "efficiency") by (rewrite Z6 by discriminate; apply V2; reflexivity).
    assert (H' : field tb "energy_threshold" = field t1 "energy_threshold") by (rewrite Z6 by discriminate; apply V2; reflexivity).
    exists tb. split; [exact Z2|]. rewrite Z3, Z4, G4, M, E', F', H', !V2 by reflexivity. unfold lineOf. toR.
    destruct (mfind sltb L ls) as [t|] eqn:EL.
    + pose proof (K1 _ _ EL) as Q. same Q Ht1. split; [reflexivity|split; [exact Z5|split; [intros HZ; rewrite (G6 HZ); rring|]]].
      repeat (split; [reflexivity|]). reflexivity.
    + destruct (F1 L EL) as [Q|[_ (tf' & E0 & mu & eff & I0 & Q1 & Q2 & Q3 & Q4)]]; [congruence|]. assert (Q5 := eq_trans (eq_sym Ht1) Q4). apply some_inj' in Q5. subst t1.
      destruct (newLine_fields eff E0 thr mu) as (X1 & X2 & X3 & X4 & X5 & X6 & X7 & X8). rewrite X1, X2, X3, X4, X5, X7.
      assert (tf' = tf). { pose proof (proj2 (smfind_In L tf SF) IF) as Y1. pose proof (proj2 (smfind_In L tf' SF) I0) as Y2. congruence. }
      subst tf'. cbn [field mfind]. split; [reflexivity|split; [exact Z5|split; [intros HZ; rewrite (G6 HZ); cbn; rring|]]].
      repeat (split; [assumption|]). reflexivity.
  - intros L O NI. assert (NI2 : ~ In L (map fst rs2)) by (rewrite N2; exact NI).
    exact (eq_trans (proj1 (B3 L O NI2)) (proj1 (OUT L O NI))).
  - intros L x2 I2.
    destruct (HX _ _ I2) as (x & t1 & t2 & Ix & Ht1 & Ht2 & (V1 & V2 & V3) & G1 & G2 & G3 & G4 & G5 & G6).
    destruct (A3 _ _ I2) as [_ (ta & tb & Z1 & Z2 & Z3 & Z4 & Z5 & Z6)]. same Ht2 Z1.
    exists t1, t2, tb. split; [exact Ht1|split; [exact Ht2|split; [exact Z2|split; [exact G2|split; [rewrite Z6 by discriminate; apply V2; reflexivity|]]]]].
    assert (LO : field t1 "secondary" = field (@lineOf RNum ls L) "secondary" /\ forall f, has_space f = true -> field t1 f = field (@lineOf RNum ls L) f).
    { unfold lineOf. toR. destruct (mfind sltb L ls) as [t|] eqn:EL.
      - pose proof (K1 _ _ EL) as Q. same Q Ht1. split; reflexivity.
      - destruct (F1 L EL) as [Q|[_ (tf' & E0 & mu & eff & I0 & Q1 & Q2 & Q3 & Q4)]]; [congruence|]. assert (Q5 := eq_trans (eq_sym Ht1) Q4). apply some_inj' in Q5. subst t1.
        split; [reflexivity|]. intros f Hf. rewrite newLine_space by exact Hf. reflexivity. }
    split; [rewrite Z4, V2 by reflexivity; rewrite (proj1 LO); reflexivity|].
    intros f Hf. split; [apply (proj2 LO), Hf|]. apply Z6; intros ->; discriminate Hf.
Qed.
End Step.
