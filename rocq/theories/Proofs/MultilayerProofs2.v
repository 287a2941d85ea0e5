(** Multilayer: the escape state and the collection of lines. *)
From Coq Require Import Ascii String List ZArith Reals Bool Arith Lia Lra.
From Verif Require Import Base.Num Base.Res Base.RSum Base.SMap Base.Str Base.ListLemmas Model.Beam Model.Material Model.TransmissionTable
  Model.Math Model.Shell Model.Element Model.Layer Model.XRF Model.Multilayer Spec.MultilayerSpec Proofs.LayerProofs Proofs.MultilayerProofs.
Import ListNotations.
Set Implicit Arguments.
Local Open Scope string_scope.
Local Open Scope R_scope.
Local Existing Instance RNum.

Ltac obind H x E := unfold rmap in H; match type of H with rbind ?t _ = Ok _ => destruct t as [x| | |] eqn:E; cbn [rbind] in H; [|discriminate H..] end.

Section Step.
Variable lf : bool.
Variable xl : @xlib RNum.
Variable c : @config RNum.
Hypothesis WF : well_formed xl.

(** ** Escape peaks *)
Definition cache_sound (d : @detector RNum) : Prop :=
  cache_sorted (d_cache d) /\ forall lab e v, cacheFind (d_cache d) lab e = Some v -> computeEscape (x_base xl) d e = Ok v.
Definition esc_ok (es : @escState RNum) : Prop :=
  with_cache (fst es) [] = with_cache (c_detector c) [] /\ (snd es <> 0%Z \/ cache_sound (fst es)).

Lemma computeEscape_det d d' (e : R) : with_cache d [] = with_cache d' [] -> @computeEscape RNum (x_base xl) d e = computeEscape (x_base xl) d' e.
Proof. intros H. destruct d, d'. injection H as -> -> -> -> -> -> ->. reflexivity. Qed.
Lemma d_layer_det (d d' : @detector RNum) : with_cache d [] = with_cache d' [] -> d_layer d = d_layer d'.
Proof. intros H. destruct d, d'. injection H as -> -> -> -> -> -> ->. reflexivity. Qed.
Lemma with_cache_det (d d' : @detector RNum) m : with_cache d [] = with_cache d' [] -> with_cache (with_cache d m) [] = with_cache d' [].
Proof. intros H. destruct d, d'. exact H. Qed.

Lemma askEscape_ok es (E : R) label d v : esc_ok es -> label <> "" -> askEscape lf xl es E label = Ok (d, v) ->
  computeEscape (x_base xl) (c_detector c) E = Ok v /\ esc_ok (d, 0%Z) /\ esc_ok (d, snd es).
Proof.
  intros [HD HC] HL H. destruct es as [d0 u]. cbn [fst snd] in *. unfold askEscape, det_getEscape in H. cbn [fst snd] in H.
  assert (L0 : Nat.ltb 0 (String.length label) = true) by (destruct label; [congruence|reflexivity]). rewrite L0 in H.
  set (d1 := if Z.eqb u 0 then d0 else with_cache d0 []) in H.
  assert (S1 : cache_sound d1).
  { unfold d1. destruct (Z.eqb_spec u 0) as [->|]; [destruct HC as [HC|HC]; [congruence|exact HC]|].
    apply (@cache_inv_nil RNum). reflexivity. }
  assert (D1 : with_cache d1 [] = with_cache (c_detector c) []) by (unfold d1; destruct (Z.eqb u 0); [exact HD|apply with_cache_det, HD]).
  clearbody d1. destruct S1 as [Ss Sf]. toR.
  destruct (cacheFind (d_cache d1) label E) as [w|] eqn:F.
  - cbn in H. injection H as <- <-. rewrite (@computeEscape_det (c_detector c) d1 E) by (symmetry; exact D1).
    split; [eapply Sf, F|]. assert (cache_sound d1) by (split; assumption). split; split; cbn [fst snd]; tauto.
  - destruct (computeEscape (x_base xl) d1 E) as [w| | |] eqn:G; cbn in H; try discriminate.
    injection H as <- <-. rewrite (@computeEscape_det (c_detector c) d1 E) by (symmetry; exact D1).
    split; [exact G|].
    assert (cache_sound (with_cache d1 (cacheSet (d_cache d1) label E w))).
    { split; [apply (@cacheSet_sorted RNum Rltb_total), Ss|]. intros lab' e' v' Hf. cbn [d_cache with_cache] in Hf.
      rewrite computeEscape_with_cache. rewrite (@cacheFind_set RNum Rltb_total) in Hf by exact Ss.
      destruct (string_dec label lab').
      - match type of Hf with (if ?q then _ else _) = _ => destruct q as [Q|Q] end; [injection Hf as <-; rewrite <- Q; exact G|eapply Sf, Hf].
      - eapply Sf, Hf. }
    split; split; cbn [fst snd]; try apply with_cache_det; try exact D1; tauto.
Qed.

Lemma escape_peaks_eq (E : R) : escape_peaks xl (c_detector c) E =
  if detectorDefined (c_detector c) then computeEscape (x_base xl) (c_detector c) E else Ok [].
Proof. reflexivity. Qed.
Lemma detectorDefined_det (d d' : @detector RNum) : with_cache d [] = with_cache d' [] -> detectorDefined d = detectorDefined d'.
Proof. intros H. unfold detectorDefined. rewrite (d_layer_det H). reflexivity. Qed.
Lemma computeEscape_sorted (E : R) l : computeEscape (x_base xl) (c_detector c) E = Ok l -> msorted sltb l.
Proof. intros H. unfold computeEscape in H. obind H k K. eapply (@wf_escape xl WF), H. Qed.
Lemma detectionEfficiency_det env i geo d d' (E : R) : with_cache d [] = with_cache d' [] ->
  detectionEfficiency xl c env i geo d E = detectionEfficiency xl c env i geo d' E.
Proof. intros H. unfold detectionEfficiency. rewrite (detectorDefined_det H), (d_layer_det H). reflexivity. Qed.

(** ** Lines of the element *)
Lemma lineSelected_nonempty family line : actualFamily family <> "" -> lineSelected family line = true -> line <> "".
Proof.
  intros HF H ->. unfold lineSelected in H. apply orb_true_iff in H. destruct H as [H|H].
  - destruct (actualFamily family); [congruence|discriminate].
  - apply andb_true_iff in H. destruct H as [H _]. apply andb_true_iff in H. destruct H as [_ H]. discriminate H.
Qed.

Definition chosen (family : string) (x : string * tbl) : bool :=
  (lineSelected family (fst x) && negb (Rleb (field (snd x) "factor") 0))%bool.

Lemma newLine_sorted eff E thr mu : msorted sltb (@newLine RNum eff E thr mu).
Proof. unfold msorted, newLine. cbn. repeat constructor. Qed.

(** what is known of a line being treated, with respect to the table *)
Definition tied (ls : lns) (L : string) (x : @rline RNum) : Prop :=
  exists t, mfind sltb L ls = Some t /\ r_energy x = field t "energy" /\ r_mu x = field t "mu_1_i" /\ r_eff x = field t "efficiency".

Definition fresh_line (env : @ray_env RNum) i s thr (factors ls' : lns) L : Prop :=
  exists t E mu eff, In (L, t) factors /\ mfind sltb "energy" t = Some E /\ muTotal xl c (sl_layer s) (sl_comp s) E = Ok mu /\
    detectionEfficiency xl c env i (sl_geo s) (c_detector c) E = Ok eff /\ mfind sltb L ls' = Some (@newLine RNum eff E thr mu).

Lemma collect_spec env i s element family thr : actualFamily family <> "" -> forall factors ls es ls' es' rs,
  msorted sltb factors -> sorted2 ls -> esc_ok es ->
  collect lf xl c env i s element family thr factors ls es = Ok (ls', es', rs) ->
  sorted2 ls' /\ esc_ok es' /\ map fst rs = map fst (filter (chosen family) factors) /\
  (forall L x, In (L, x) rs -> tied ls' L x /\ r_primary x = 0 /\ r_secondary x = 0 /\ r_rate x = 0) /\
  (forall L t, mfind sltb L ls = Some t -> mfind sltb L ls' = Some t) /\
  (forall L, mfind sltb L ls = None -> mfind sltb L ls' = None \/ (In L (map fst rs) /\ fresh_line env i s thr factors ls' L)) /\
  (forall line t, In (line, t) factors -> lineSelected family line = true -> exists f, mfind sltb "factor" t = Some f).
Proof.
  intros HF. induction factors as [|[line t] r IH]; intros ls es ls' es' rs HS S2 EO H.
  { cbn in H. injection H as <- <- <-. cbn. repeat split; try tauto; try apply S2; try apply EO. }
  assert (HS' := HS). apply msorted_cons_inv in HS. destruct HS as [HSr HSf].
  cbn [collect] in H. destruct (lineSelected family line) eqn:LS.
  - obind H factor FF. destruct (mfind sltb "factor" t) as [f|] eqn:FE; cbn in FF; [injection FF as <-|discriminate]. toR.
    change (@nleb RNum) with Rleb in H. change (@n0 RNum) with 0 in H.
    assert (HFi : field t "factor" = f) by (unfold field; rewrite FE; reflexivity).
    destruct (Rleb f 0) eqn:LE.
    + assert (CH : chosen family (line, t) = false) by (unfold chosen; cbn [fst snd]; rewrite HFi, LE, LS; reflexivity).
      destruct (IH _ _ _ _ _ HSr S2 EO H) as (A & B & C & D & F & G & K). cbn [filter]. rewrite CH.
      split; [exact A|split; [exact B|split; [exact C|split; [exact D|split; [exact F|split]]]]].
      * intros L HL. destruct (G L HL) as [Q|[Q1 Q2]]; [left; exact Q|right; split; [exact Q1|]].
        destruct Q2 as (t' & E & mu & eff & I & P). exists t', E, mu, eff. split; [right; exact I|exact P].
      * intros l u [I|I] Hl; [injection I as <- <-; exists f; exact FE|eapply K; eassumption].
    + assert (CH : chosen family (line, t) = true) by (unfold chosen; cbn [fst snd]; rewrite HFi, LE, LS; reflexivity).
      obind H energy EN. destruct (mfind sltb "energy" t) as [E|] eqn:EE; cbn in EN; [injection EN as <-|discriminate].
      obind H rate RT. destruct (mfind sltb line ls) as [old|] eqn:OL.
      * obind H x X. destruct x as [[ls2 es2] rs2]. injection H as <- <- <-.
        destruct (IH _ _ _ _ _ HSr S2 EO X) as (A & B & C & D & F & G & K). cbn [filter]. rewrite CH. cbn [map fst].
        split; [exact A|split; [exact B|split; [f_equal; exact C|split; [|split; [exact F|split]]]]].
        -- intros L x [I|I]; [|apply D; exact I]. injection I as <- <-. split; [|repeat split; reflexivity].
           exists old. split; [apply F; exact OL|repeat split; reflexivity].
        -- intros L HL. destruct (G L HL) as [Q|[Q1 Q2]]; [left; exact Q|right; split; [right; exact Q1|]].
           destruct Q2 as (t' & E' & mu & eff & I & P). exists t', E', mu, eff. split; [right; exact I|exact P].
        -- intros l u [I|I] Hl; [injection I as <- <-; exists f; exact FE|eapply K; eassumption].
      * obind H mu MU. obind H eff EF. obind H es1 ES. obind H x X. destruct x as [[ls2 es2] rs2]. injection H as <- <- <-.
        assert (EO1 : esc_ok es1).
        { destruct (detectorDefined (fst es)) eqn:DD; [|injection ES as <-; exact EO].
          obind ES dv DV. injection ES as <-. destruct dv as [d v].
          apply (@askEscape_ok es E (element ++ line) d v EO); [|exact DV].
          pose proof (lineSelected_nonempty _ HF LS). destruct element; [assumption|discriminate]. }
        destruct (IH _ _ _ _ _ HSr (@sorted2_set ls line _ S2 (newLine_sorted _ _ _ _)) EO1 X) as (A & B & C & D & F & G & K). cbn [filter]. rewrite CH. cbn [map fst].
        assert (FL : mfind sltb line ls2 = Some (@newLine RNum eff E thr mu)) by (apply F, find_set_same).
        split; [exact A|split; [exact B|split; [f_equal; exact C|split; [|split; [|split]]]]].
        -- intros L x [I|I]; [|apply D; exact I]. injection I as <- <-. split; [|repeat split; reflexivity].
           eexists. split; [exact FL|repeat split; reflexivity].
        -- intros L u HL. apply F. rewrite find_set_other; [exact HL|exact S2|]. intros ->. rewrite OL in HL. discriminate.
        -- intros L HL. destruct (string_dec line L) as [<-|Hn].
           ++ right. split; [left; reflexivity|]. exists t, E, mu, eff. split; [left; reflexivity|]. split; [exact EE|]. split; [exact MU|].
              split; [|exact FL]. destruct EO as [ED _]. rewrite <- (detectionEfficiency_det env i (sl_geo s) E ED). exact EF.
           ++ destruct (G L) as [Q|[Q1 Q2]]; [rewrite find_set_other by assumption; exact HL|left; exact Q|right; split; [right; exact Q1|]].
              destruct Q2 as (t' & E' & mu' & eff' & I & P). exists t', E', mu', eff'. split; [right; exact I|exact P].
        -- intros l u [I|I] Hl; [injection I as <- <-; exists f; exact FE|eapply K; eassumption].
  - destruct (IH _ _ _ _ _ HSr S2 EO H) as (A & B & C & D & F & G & K).
    assert (CH : chosen family (line, t) = false) by (unfold chosen; cbn [fst snd]; rewrite LS; reflexivity). cbn [filter]. rewrite CH.
    split; [exact A|split; [exact B|split; [exact C|split; [exact D|split; [exact F|split]]]]].
    + intros L HL. destruct (G L HL) as [Q|[Q1 Q2]]; [left; exact Q|right; split; [exact Q1|]].
      destruct Q2 as (t' & E & mu & eff & I & P). exists t', E, mu, eff. split; [right; exact I|exact P].
    + intros l u [I|I] Hl; [injection I as <- <-; congruence|eapply K; eassumption].
Qed.

End Step.
