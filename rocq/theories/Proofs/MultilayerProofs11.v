(** Multilayer: the primary intensity as a sum over rays and questions. *)
From Coq Require Import Ascii String List ZArith Reals Bool Arith Lia Lra.
From Verif Require Import Base.Num Base.Res Base.RSum Base.SMap Base.Str Base.ListLemmas Model.Beam Model.Material Model.TransmissionTable
  Model.Math Model.Shell Model.Element Model.Layer Model.XRF Model.Multilayer Spec.MultilayerSpec Proofs.MultilayerProofs Proofs.MultilayerProofs2
  Proofs.MultilayerProofs3 Proofs.MultilayerProofs4 Proofs.MultilayerProofs5 Proofs.MultilayerProofs6 Proofs.MultilayerProofs10.
Import ListNotations.
Set Implicit Arguments.
Local Open Scope string_scope.
Local Open Scope R_scope.
Local Existing Instance RNum.

(** ** Names of families *)
Lemma prefix_cons a s t : String.prefix (String a s) (String a t) = String.prefix s t.
Proof. cbn. destruct (ascii_dec a a); [reflexivity|congruence]. Qed.
Lemma selected_in_family family line : lineSelected family line = in_family family line.
Proof.
  unfold lineSelected, in_family, actualFamily. destruct (String.eqb_spec family "Ka") as [->|N].
  - cbn [String.eqb Ascii.eqb Bool.eqb andb]. apply orb_false_r.
  - destruct (String.eqb_spec family "Kb") as [->|N']; [|apply orb_false_r].
    cbn [andb]. destruct line as [|a [|b line]].
    + reflexivity.
    + unfold charAt. cbn [String.get String.prefix]. destruct (ascii_dec "K" a) as [<-|Ha]; [reflexivity|].
      destruct (Ascii.eqb_spec a "K"); [congruence|reflexivity].
    + unfold charAt. cbn [String.get String.prefix]. destruct (ascii_dec "K" a) as [<-|Ha].
      * cbn [Ascii.eqb Bool.eqb andb]. destruct (ascii_dec "M" b) as [<-|Hb]; [destruct line; reflexivity|]. cbn [orb].
        destruct (ascii_dec "L" b) as [<-|Hb']; [destruct line; reflexivity|]. destruct (Ascii.eqb_spec b "L"); [congruence|reflexivity].
      * destruct (Ascii.eqb_spec a "K"); [congruence|reflexivity].
Qed.
Lemma family_initial family : String.substring 0 1 (actualFamily family) = String.substring 0 1 family.
Proof.
  unfold actualFamily. destruct (String.eqb_spec family "Ka") as [->|]; [reflexivity|]. destruct (String.eqb_spec family "Kb") as [->|]; reflexivity.
Qed.

Section Trace.
Variable lf debug : bool.
Variable xl : @xlib RNum.
Variable c : @config RNum.
Hypothesis WF : well_formed xl.
Variable EL : string -> string -> R.
Hypothesis LE : line_energies xl EL.
Variables (elements families : list string) (layers : list Z) (secondary useMass : Z).
Hypothesis WORDS : forall e, In e elements -> one_word e.
Variable comps : list tbl.
Variable geo : list R.
Hypothesis LC : length comps = length (c_sample c).
Hypothesis LG : length geo = length (c_sample c).

Local Notation elem := (element_of elements).
Local Notation fam := (family_of families).
Local Notation lay := (layer_of layers).
Local Notation exc := (excites xl c elements families layers useMass comps).
Local Notation prim := (primary_of xl c elements useMass comps).

(** ** One element in all the layers *)
Definition table_effect env element family calculationLayer thr (factors : lns) i s (ls ls' : lns) : Prop :=
  (active useMass s element calculationLayer i -> forall L t, In (L, t) (filter (chosen family) factors) ->
     exists mu1, muTotal xl c (sl_layer s) (sl_comp s) (e_energy env) = Ok mu1 /\
       gain xl c secondary env i s thr mu1 (mfactor useMass s element) (field (sl_comp s) element) t ls ls' L) /\
  (forall L, one_word L -> ~ active useMass s element calculationLayer i \/ ~ In L (map fst (filter (chosen family) factors)) ->
     mfind sltb L ls' = mfind sltb L ls).

Lemma elementLayers_effect env element family cl thr (factors : lns) :
  actualFamily family <> "" -> msorted sltb factors -> (forall L, In L (map fst factors) -> one_word L) -> forall slabs i0 st st', inv xl c st ->
  elementLayers debug lf xl c secondary useMass env element family cl thr factors i0 slabs st = Ok st' ->
  let key := element ++ " " ++ family in
  inv xl c st' /\ st_thr st' = st_thr st /\
  (forall k i, k <> key \/ (i < i0)%nat \/ (i0 + length slabs <= i)%nat -> layerTable (st_ar st') k i = layerTable (st_ar st) k i) /\
  (forall i s, nth_error slabs i = Some s ->
     table_effect env element family cl thr factors (i0 + i) s (layerTable (st_ar st) key (i0 + i)) (layerTable (st_ar st') key (i0 + i))).
Proof.
  intros HF SF OW. induction slabs as [|s r IH]; intros i0 st st' I H key; cbn [elementLayers] in H.
  { injection H as <-. split; [exact I|split; [reflexivity|split; [reflexivity|]]]. intros [|i]; discriminate. }
  obind H st1 H1. destruct (@elementLayer_spec lf debug xl c WF secondary useMass env element family cl thr factors i0 s st st1 HF SF OW I H1) as (A & B & C1 & C2 & C3).
  destruct (IH _ _ _ A H) as (D1 & D2 & D3 & D4). fold key in D3, D4, C1, C2, C3. split; [exact D1|split; [congruence|split]].
  - intros k i Q. cbn [length] in Q. rewrite D3, C1; [reflexivity| |].
    + destruct Q as [Q|[Q|Q]]; [left; exact Q|right; lia..].
    + destruct Q as [Q|[Q|Q]]; [left; exact Q|right; left; lia|right; right; lia].
  - intros [|i] s0 Hs; cbn [nth_error] in Hs.
    + injection Hs as <-. rewrite Nat.add_0_r. assert (E : layerTable (st_ar st') key i0 = layerTable (st_ar st1) key i0) by (apply D3; right; left; lia).
      rewrite E. split; [exact C2|exact C3].
    + specialize (D4 i s0 Hs). replace (i0 + S i)%nat with (S i0 + i)%nat by lia.
      assert (E : layerTable (st_ar st1) key (S i0 + i) = layerTable (st_ar st) key (S i0 + i)) by (apply C1; right; lia). rewrite <- E. exact D4.
Qed.

(** ** What is known of the lines in the table *)
Definition described (t : tbl) (i : nat) (L element : string) (n : nat) : Prop :=
  field t "energy" = EL element L /\ field t "mu_1_i" = mu_at xl c comps i (EL element L) /\
  field t "efficiency" = detection xl c comps geo i (EL element L) /\ field t "massFraction" = field (comp_at comps i) element /\
  field t "energy_threshold" = threshold xl elements families n /\
  ((secondary <= 0)%Z -> field t "secondary" = 0).
Definition known (ar : @table3 RNum) : Prop := forall k i L t, one_word L -> mfind sltb L (layerTable ar k i) = Some t ->
  exists n, (n < length elements)%nat /\ k = elem n ++ " " ++ fam n /\ (i < length (c_sample c))%nat /\ described t i L (elem n) n.
Definition work := ((R * R) * nat)%type.
Definition wterm (k : string) (i : nat) (L : string) (w : work) : R :=
  if exc (snd w) (fst (fst w)) (snd (fst w)) k i L then prim (snd w) (fst (fst w)) (snd (fst w)) i L (EL (elem (snd w)) L) else 0.
Definition counted (done : list work) (ar : @table3 RNum) : Prop := forall k i L, one_word L ->
  field (@lineOf RNum (layerTable ar k i) L) "primary" = Rsum (map (wterm k i L) done) /\
  (mfind sltb L (layerTable ar k i) <> None <-> exists w, In w done /\ exc (snd w) (fst (fst w)) (snd (fst w)) k i L = true).

Lemma elem_word n : (n < length elements)%nat -> one_word (elem n).
Proof. intros H. apply WORDS. apply nth_In. exact H. Qed.
Lemma key_inj n n' : (n < length elements)%nat -> (n' < length elements)%nat -> elem n ++ " " ++ fam n = elem n' ++ " " ++ fam n' -> elem n = elem n' /\ fam n = fam n'.
Proof. intros H H' E. apply word_inj in E; [exact E|apply elem_word, H|apply elem_word, H']. Qed.
Lemma threshold_same n n' : elem n = elem n' -> fam n = fam n' -> threshold xl elements families n = threshold xl elements families n'.
Proof. intros E F. unfold threshold. rewrite E, F. reflexivity. Qed.

Lemma primaryOf_spec env i s mu1 rate n L t :
  slab_ok xl c comps geo (e_energy env) i s -> muTotal xl c (sl_layer s) (sl_comp s) (e_energy env) = Ok mu1 ->
  factor_row xl (elem n) L (e_energy env) (e_weight env) = Some t -> rate = field t "rate" ->
  primaryOf c s mu1 (mfactor useMass s (elem n)) rate (mu_at xl c comps i (EL (elem n) L)) = prim n (e_energy env) (e_weight env) i L (EL (elem n) L).
Proof.
  intros (S1 & S2 & S3 & S4) MU FR ->. rewrite S1, S2 in MU. apply muTotal_at in MU. subst mu1.
  unfold primaryOf, primary_of. rewrite FR. unfold mfactor, massThickness, mass_thickness. rewrite S1, S2, S4. rnorm.
  change (@sinDegrees RNum) with sinDegrees. 
  assert (SD : forall a : R, @sinDegrees RNum a = sin_degrees a).
  { intros a. unfold sinDegrees, sin_degrees. rnorm. change (@nlit RNum 180 0) with (Rlit 180 0). replace (Rlit 180 0) with 180 by (unfold Rlit; simpl; lra). reflexivity. }
  rewrite !SD. toR. set (chi := mu_at xl c comps i (e_energy env) / sin_degrees (c_alphaIn c) + _).
  replace (- chi * l_density (layer_at c i) * l_thickness (layer_at c i)) with (- chi * (l_density (layer_at c i) * l_thickness (layer_at c i))) by ring.
  reflexivity.
Qed.

(** ** One question for one ray *)
Lemma question_step env n st st' done :
  env_ok xl c comps geo env -> (n < length elements)%nat -> inv xl c st -> known (st_ar st) -> counted done (st_ar st) ->
  nth_error (st_thr st) n = None \/ nth_error (st_thr st) n = Some (threshold xl elements families n) ->
  @elementStep RNum debug lf xl c families layers secondary useMass env st n (elem n) = Ok st' ->
  inv xl c st' /\ known (st_ar st') /\ counted (done ++ [((e_energy env, e_weight env), n)]) (st_ar st') /\
  st_thr st' = (if Nat.ltb n (length (st_thr st)) then st_thr st else st_thr st ++ [threshold xl elements families n])%list.
Proof.
  intros EO Hn I K CN HT H. unfold elementStep in H. obind H fa FA. obind H cl CL.
  assert (FE : fa = fam n).
  { unfold vget in FA. unfold family_of. destruct (nth_error families n) eqn:Q; cbn in FA; [injection FA as <-; symmetry; apply nth_error_nth, Q|discriminate]. }
  assert (CE : cl = lay n).
  { unfold layer_of. destruct (Nat.ltb 1 (length layers)); unfold vget in CL;
    match type of CL with of_opt ?o = _ => destruct o eqn:Q; cbn in CL; [injection CL as <-; symmetry; apply nth_error_nth, Q|discriminate] end. }
  subst fa cl. destruct (String.eqb_spec (actualFamily (fam n)) "") as [|HF]; [discriminate|]. obind H ts TS. destruct ts as [thr st1].
  assert (TE : thr = threshold xl elements families n /\ st_ar st1 = st_ar st /\ inv xl c st1 /\
     st_thr st1 = (if Nat.ltb n (length (st_thr st)) then st_thr st else st_thr st ++ [threshold xl elements families n])%list).
  { destruct (nth_error (st_thr st) n) as [t|] eqn:Q.
    - injection TS as <- <-. destruct HT as [HT|HT]; [discriminate|injection HT as ->]. repeat (split; [reflexivity||exact I|]).
      assert (n < length (st_thr st))%nat by (apply nth_error_Some; congruence). destruct (Nat.ltb_spec n (length (st_thr st))); [reflexivity|lia].
    - obind TS t TT. injection TS as <- <-. rewrite family_initial in TT.
      assert (T : t = threshold xl elements families n) by (unfold threshold; rewrite TT; reflexivity). subst t.
      split; [reflexivity|split; [reflexivity|split; [exact I|]]]. cbn [st_thr]. apply nth_error_None in Q.
      destruct (Nat.ltb_spec n (length (st_thr st))); [toR; lia|reflexivity]. }
  destruct TE as (-> & AR & I1 & TH). clear TS. set (E := e_energy env) in *. set (w := e_weight env) in *.
  rnorm_in H. destruct (Rltb_spec E (threshold xl elements families n)) as [BL|AB].
  { (* below the threshold *)
    injection H as <-. rewrite AR. split; [exact I1|split; [exact K|split; [|exact TH]]].
    assert (NE : forall k i L, exc n E w k i L = false).
    { intros k i L. unfold excites. replace (Rleb (threshold xl elements families n) E) with false by (symmetry; apply Rleb_false; lra).
      rewrite !andb_false_r. reflexivity. }
    intros k i L O. destruct (CN k i L O) as [C1 C2]. split.
    - rewrite map_app, Rsum_app. cbn [map Rsum]. unfold wterm at 2. cbn [fst snd]. rewrite NE. rewrite C1. ring.
    - rewrite C2. split; intros (v & Iv & Ev); exists v; [split; [apply in_or_app; left; exact Iv|exact Ev]|].
      apply in_app_or in Iv. destruct Iv as [Iv|[<-|[]]]; [auto|]. cbn [fst snd] in Ev. rewrite NE in Ev. discriminate. }
  obind H factors FF. pose proof (@wf_factors xl WF _ _ _ _ FF) as SF.
  assert (OW : forall L, In L (map fst factors) -> one_word L).
  { intros L IL. apply in_map_iff in IL. destruct IL as [[L' t] [<- IL]]. exact (@wf_words xl WF _ _ _ _ _ _ FF IL). }
  destruct (@elementLayers_effect env (elem n) (fam n) (lay n) _ factors HF SF OW _ _ _ _ I1 H) as (D1 & D2 & D3 & D4).
  cbn [plus] in D3, D4. rewrite AR in D3, D4. destruct EO as [EO1 EO2]. set (key := elem n ++ " " ++ fam n) in *.
  assert (THR : Rleb (threshold xl elements families n) E = true) by (apply Rleb_true; lra).
  assert (FR : forall L, factor_row xl (elem n) L E w = mfind sltb L factors) by (intros L; unfold factor_row; toR; rewrite FF; reflexivity).
  (* excites, when the key is that of the question and the layer exists *)
  assert (EX : forall i s L, nth_error (e_slabs env) i = Some s ->
      (exc n E w key i L = true <-> active useMass s (elem n) (lay n) i /\ In L (map fst (filter (chosen (fam n)) factors)))).
  { intros i s L Hs. destruct (EO2 i s Hs) as (S1 & S2 & _). assert (Hi : (i < length (c_sample c))%nat) by (rewrite <- EO1; apply nth_error_Some; congruence).
    unfold excites. fold key. rewrite String.eqb_refl, THR, FR. cbn [andb]. destruct (Nat.ltb_spec i (length (c_sample c))) as [_|]; [|lia].
    rewrite !andb_true_r. rewrite !andb_true_iff, !orb_true_iff, andb_true_iff, !negb_true_iff, Z.ltb_lt, !Z.eqb_eq, Z.eqb_neq.
    assert (CH : In L (map fst (filter (chosen (fam n)) factors)) <->
       in_family (fam n) L = true /\ match mfind sltb L factors with Some t => Rltb 0 (field t "factor") | None => false end = true).
    { rewrite in_map_iff. split.
      - intros [[L' t] [Q IQ]]. cbn in Q. subst L'. apply filter_In in IQ. destruct IQ as [IQ CQ]. unfold chosen in CQ. cbn [fst snd] in CQ.
        apply andb_true_iff in CQ. destruct CQ as [C1 C2]. rewrite selected_in_family in C1. split; [exact C1|].
        toR. rewrite (proj2 (smfind_In L t SF) IQ). apply negb_true_iff, Rleb_false in C2. apply Rltb_true. lra.
      - intros [C1 C2]. toR. destruct (mfind sltb L factors) as [t|] eqn:Q; [|discriminate]. exists (L, t). split; [reflexivity|]. apply filter_In.
        split; [apply (smfind_In L t SF), Q|]. unfold chosen. cbn [fst snd]. rewrite selected_in_family, C1. cbn [andb].
        apply negb_true_iff, Rleb_false. apply Rltb_true in C2. lra. }
    rewrite CH. unfold active, mfactor. rewrite S2. destruct (Z.eqb_spec useMass 0) as [Z0|Z0].
    - assert (R1 : 1 <> 0) by lra. tauto.
    - rewrite Reqb_false. tauto. }
  (* tables of other keys and layers *)
  assert (OT : forall k i, k <> key \/ (length (e_slabs env) <= i)%nat -> layerTable (st_ar st') k i = layerTable (st_ar st) k i).
  { intros k i Q. apply D3. destruct Q; [left; assumption|right; right; assumption]. }
  assert (NX : forall k i L, k <> key \/ (length (e_slabs env) <= i)%nat -> exc n E w k i L = false).
  { intros k i L [Q|Q]; unfold excites; fold key.
    - destruct (String.eqb_spec k key); [contradiction|reflexivity].
    - destruct (Nat.ltb_spec i (length (c_sample c))); [lia|]. rewrite !andb_false_r. reflexivity. }
  (* the effect on one line *)
  assert (EFF : forall k i L, one_word L ->
     (exc n E w k i L = false /\ mfind sltb L (layerTable (st_ar st') k i) = mfind sltb L (layerTable (st_ar st) k i)) \/
     (exc n E w k i L = true /\ k = key /\ (i < length (c_sample c))%nat /\ exists t', mfind sltb L (layerTable (st_ar st') k i) = Some t' /\
        field t' "primary" = field (@lineOf RNum (layerTable (st_ar st) k i) L) "primary" + prim n E w i L (EL (elem n) L) /\
        described t' i L (elem n) n)).
  { intros k i L O. destruct (string_dec k key) as [->|NK]; [|left; split; [apply NX; left; exact NK|rewrite OT by (left; exact NK); reflexivity]].
    destruct (nth_error (e_slabs env) i) as [s|] eqn:Hs; [|apply nth_error_None in Hs; left; split; [apply NX; right; exact Hs|rewrite OT by (right; exact Hs); reflexivity]].
    destruct (D4 i s Hs) as [G1 G2]. destruct (EX i s L Hs) as [X1 X2].
    destruct (exc n E w key i L) eqn:XE.
    - right. split; [reflexivity|split; [reflexivity|]]. assert (Hi : (i < length (c_sample c))%nat) by (rewrite <- EO1; apply nth_error_Some; congruence).
      split; [exact Hi|]. destruct (X1 eq_refl) as [AC IC]. apply in_map_iff in IC. destruct IC as [[L' tf] [Q IC]]. cbn in Q. subst L'.
      destruct (G1 AC L tf IC) as (mu1 & MU & t' & T1 & T2 & T3 & T4 & T5). exists t'. split; [exact T1|].
      assert (IFF : In (L, tf) factors) by (apply filter_In in IC; apply IC).
      pose proof (EO2 i s Hs) as SO. assert (SO' := SO). destruct SO' as (S1 & S2 & S3 & S4).
      assert (DS : described t' i L (elem n) n).
      { toR. destruct (mfind sltb L (layerTable (st_ar st) key i)) as [t|] eqn:QT.
        - destruct (K key i L t O QT) as (n' & Hn' & KE & _ & (P1 & P2 & P3 & P4 & P5 & P6)). destruct (@key_inj n n' Hn Hn' KE) as [KE1 KE2].
          match type of T5 with match ?m with _ => _ end => assert (QM : m = Some t) by exact QT; rewrite QM in T5; clear QM end.
          destruct T5 as (V1 & V2 & V3 & V4). unfold described. rewrite V1, V2, V3, V4, P1, P2, P3, P5, T3, <- KE1, S2. 
          rewrite (@threshold_same n n' KE1 KE2). repeat (split; [reflexivity|]). intros Z0. rewrite T4 by exact Z0. unfold lineOf. toR. rewrite QT. apply P6, Z0.
        - match type of T5 with match ?m with _ => _ end => assert (QM : m = None) by exact QT; rewrite QM in T5; clear QM end.
          destruct T5 as (V1 & V2 & V3 & V4). pose proof (@LE _ _ _ _ _ _ FF IFF) as EE. assert (EN : field t' "energy" = EL (elem n) L) by (toR; rewrite V1 in EE; injection EE as EE; exact EE).
          unfold described. rewrite EN in V2, V3 |- *. rewrite S1, S2 in V2. rewrite S3 in V3. apply muTotal_at in V2.
          apply (@detection_ok xl c comps geo LC LG env i) in V3; [|split; assumption|exact Hi]. rewrite V2, V3, V4, T3, S2. repeat (split; [reflexivity|]).
          intros Z0. rewrite T4 by exact Z0. unfold lineOf. toR. rewrite QT. reflexivity. }
      split; [|exact DS]. rewrite T2. f_equal. destruct DS as (_ & M & _). rewrite M.
      apply (@primaryOf_spec env i s mu1 _ n L tf SO MU); [|reflexivity]. fold E w. rewrite FR. apply (smfind_In L tf SF), IFF.
    - left. split; [reflexivity|]. apply G2; [exact O|].
      destruct (in_dec string_dec L (map fst (filter (chosen (fam n)) factors))) as [IN|IN]; [|right; exact IN]. left. intros AC.
      specialize (X2 (conj AC IN)). discriminate. }
  split; [exact D1|split; [|split]].
  - intros k i L t O Ht. destruct (EFF k i L O) as [[_ Q]|(_ & -> & Hi & t' & Q & _ & DS)].
    + toR. rewrite Q in Ht. apply (K k i L t O Ht).
    + exists n. split; [exact Hn|split; [reflexivity|split; [exact Hi|]]]. assert (t = t') by (toR; congruence). subst. exact DS.
  - intros k i L O. destruct (CN k i L O) as [C1 C2]. rewrite map_app, Rsum_app. cbn [map Rsum]. unfold wterm at 2. cbn [fst snd].
    destruct (EFF k i L O) as [[XE Q]|(XE & -> & Hi & t' & Q & P & _)]; rewrite XE.
    + split; [unfold lineOf in C1 |- *; toR; rewrite Q, C1; ring|]. toR. rewrite Q, C2.
      split; intros (v & Iv & Ev); exists v; [split; [apply in_or_app; left; exact Iv|exact Ev]|].
      apply in_app_or in Iv. destruct Iv as [Iv|[<-|[]]]; [auto|]. cbn [fst snd] in Ev. congruence.
    + split; [unfold lineOf at 1; toR; rewrite Q, P, C1; rring|]. toR. rewrite Q. split; [intros _|discriminate].
      exists ((E, w), n). split; [apply in_or_app; right; left; reflexivity|exact XE].
  - rewrite D2. exact TH.
Qed.
End Trace.
