(** Multilayer, secondary excitation: the whole calculation. *)
From Coq Require Import Ascii String List ZArith Reals Bool Arith Lia Lra Permutation.
From Verif Require Import Base.Num Base.Res Base.RSum Base.SMap Base.Str Base.ListLemmas Model.Beam Model.Material Model.TransmissionTable
  Model.Math Model.Shell Model.Element Model.Layer Model.XRF Model.Multilayer Spec.MultilayerSpec Spec.SecondarySpec Proofs.LayerProofs Proofs.MultilayerProofs Proofs.MultilayerProofs2
  Proofs.MultilayerProofs3 Proofs.MultilayerProofs4 Proofs.MultilayerProofs5 Proofs.MultilayerProofs6 Proofs.MultilayerProofs7 Proofs.MultilayerProofs8 Proofs.MultilayerProofs9
  Proofs.MultilayerProofs10 Proofs.MultilayerProofs11 Proofs.MultilayerProofs12 Proofs.ElementProofs
  Proofs.MultilayerProofs19 Proofs.MultilayerProofs20 Proofs.MultilayerProofs21 Proofs.MultilayerProofs22 Proofs.MultilayerProofs23.
Import ListNotations.
Set Implicit Arguments.
Local Open Scope string_scope.
Local Open Scope R_scope.
Local Existing Instance RNum.

Section Trace.
Variable sortf : list R -> list R.
Variable lf debug : bool.
Variable xl : @xlib RNum.
Variable c : @config RNum.
Hypothesis WF : well_formed xl.
Hypothesis AE : answers_each xl.
Variable EL : string -> string -> R.
Hypothesis LE : line_energies xl EL.
Variables (elements families : list string) (layers : list Z) (secondary useMass : Z) (limit : R).
Hypothesis WORDS : forall e, In e elements -> one_word e.
Hypothesis POS : forall n, (n < length elements)%nat -> 0 <= threshold xl elements families n.
Variable comps : list tbl.
Variable geo : list R.
Hypothesis LC : length comps = length (c_sample c).
Hypothesis LG : length geo = length (c_sample c).
Hypothesis PF : forall j E, (j < length (c_sample c))%nat -> plain_families xl c comps j E.

Local Notation elem := (element_of elements).
Local Notation fam := (family_of families).
Local Notation lay := (layer_of layers).
Local Notation thr := (threshold xl elements families).
Local Notation exc := (excites xl c elements families layers useMass comps).
Local Notation known := (known xl c EL elements families secondary comps geo).
Local Notation counted := (counted xl c EL elements families layers useMass comps).
Local Notation all := (seq 0 (length elements)).
Local Notation low := (low xl elements families).
Local Notation thrs := (thrs xl elements families).
Local Notation works := (works elements).

Definition gains_at (n : nat) (E w : R) (i : nat) (L : string) : hits :=
  if (0 <? secondary)%Z then gains debug xl c elements families useMass limit comps n E w i L (EL (elem n) L) else [].
Definition wterm2 (f k : string) (i : nat) (L : string) (w : work) : R :=
  if exc (snd w) (fst (fst w)) (snd (fst w)) k i L then amount f (gains_at (snd w) (fst (fst w)) (snd (fst w)) i L) else 0.
Definition counted2 (done : list work) (ar : @table3 RNum) : Prop := forall k i L f, one_word L -> tracked f ->
  field (@lineOf RNum (layerTable ar k i) L) f = Rsum (map (wterm2 f k i L) done).

Lemma question_step2 mn env n st st' done :
  env_ok xl c comps geo env -> ((0 < secondary)%Z -> env_full xl c comps limit mn env) -> mn <= thr n ->
  (n < length elements)%nat -> inv xl c st -> known (st_ar st) -> fc_ok xl (st_fc st) -> counted2 done (st_ar st) ->
  nth_error (st_thr st) n = None \/ nth_error (st_thr st) n = Some (thr n) ->
  @elementStep RNum debug lf xl c families layers secondary useMass env st n (elem n) = Ok st' ->
  fc_ok xl (st_fc st') /\ counted2 (done ++ [((e_energy env, e_weight env), n)]) (st_ar st').
Proof.
  intros EO EF LOW Hn I K FC CN HT H. unfold elementStep in H. obind H fa FA. obind H cl CL.
  assert (FE : fa = fam n).
  { unfold vget in FA. unfold family_of. destruct (nth_error families n) eqn:Q; cbn in FA; [injection FA as <-; symmetry; apply nth_error_nth, Q|discriminate]. }
  assert (CE : cl = lay n).
  { unfold layer_of. destruct (Nat.ltb 1 (length layers)); unfold vget in CL;
    match type of CL with of_opt ?o = _ => destruct o eqn:Q; cbn in CL; [injection CL as <-; symmetry; apply nth_error_nth, Q|discriminate] end. }
  subst fa cl. destruct (String.eqb_spec (actualFamily (fam n)) "") as [|HF]; [discriminate|]. obind H ts TS. destruct ts as [th st1].
  assert (TE : th = thr n /\ st_ar st1 = st_ar st /\ inv xl c st1 /\ st_fc st1 = st_fc st).
  { destruct (nth_error (st_thr st) n) as [t|] eqn:Q.
    - injection TS as <- <-. destruct HT as [HT|HT]; [discriminate|injection HT as ->]. auto.
    - obind TS t TT. injection TS as <- <-. rewrite family_initial in TT.
      assert (T : t = thr n) by (unfold threshold; rewrite TT; reflexivity). subst t. auto. }
  destruct TE as (-> & AR & I1 & FC1). clear TS. rewrite <- FC1 in FC. set (E := e_energy env) in *. set (w := e_weight env) in *.
  rnorm_in H. destruct (Rltb_spec E (thr n)) as [BL|AB].
  { apply Ok_inj in H. subst st'. rewrite AR. split; [exact FC|]. 
    assert (NE : forall k i L, exc n E w k i L = false).
    { intros k i L. unfold excites. replace (Rleb (thr n) E) with false by (symmetry; apply Rleb_false; lra).
      rewrite !andb_false_r. reflexivity. }
    intros k i L f O TF. rewrite map_app, Rsum_app. cbn [map Rsum]. unfold wterm2 at 2. cbn [fst snd]. rewrite NE, (CN k i L f O TF). ring. }
  obind H factors XF. pose proof (@wf_factors xl WF _ _ _ _ XF) as SF.
  assert (OW : forall L, In L (map fst factors) -> one_word L).
  { intros L IL. apply in_map_iff in IL. destruct IL as [[L' t] [<- IL]]. exact (@wf_words xl WF _ _ _ _ _ _ XF IL). }
  destruct (@elementLayers_effect lf debug xl c WF secondary useMass comps geo LC LG env (elem n) (fam n) (lay n) _ factors HF SF OW _ _ _ _ I1 H) as (D1 & D2 & D3 & D4).
  destruct (@elementLayers_hits lf debug xl c WF EL LE elements families secondary useMass limit comps geo LC LG mn env EO EF n LOW factors XF HF (lay n)
     (length (e_slabs env)) 0%nat st1 st' eq_refl I1 FC) as [FC' HIT]; [|exact H|].
  { intros i _ L t O HL. rewrite AR in HL. destruct (K _ i L t O HL) as (n' & Hn' & KE & _ & (_ & P2 & _)).
    destruct (@key_inj elements families WORDS n n' Hn Hn' KE) as [KE1 _]. rewrite P2, KE1. reflexivity. }
  split; [exact FC'|]. cbn [plus] in D3, D4. rewrite AR in D3, D4, HIT. destruct EO as [EO1 EO2]. set (key := elem n ++ " " ++ fam n) in *.
  assert (THR : Rleb (thr n) E = true) by (apply Rleb_true; lra).
  assert (FR : forall L, factor_row xl (elem n) L E w = mfind sltb L factors) by (intros L; unfold factor_row; toR; rewrite XF; reflexivity).
  assert (EX : forall i s L, nth_error (e_slabs env) i = Some s ->
      (exc n E w key i L = true <-> active useMass s (elem n) (lay n) i /\ In L (map fst (filter (chosen (fam n)) factors)))).
  { intros i s L Hs. destruct (EO2 i s Hs) as (S1 & S2 & _). assert (Hi : (i < length (c_sample c))%nat) by (rewrite <- EO1; apply nth_error_Some; congruence).
    unfold excites. fold key. rewrite String.eqb_refl, THR, FR. cbn [andb]. destruct (Nat.ltb_spec i (length (c_sample c))) as [_|]; [|lia].
    rewrite !andb_true_r. rewrite !andb_true_iff, !orb_true_iff, andb_true_iff, !negb_true_iff, Z.ltb_lt, !Z.eqb_eq, Z.eqb_neq.
    assert (CH : In L (map fst (filter (chosen (fam n)) factors)) <->
       in_family (fam n) L = true /\ match mfind sltb L factors with Some t => Rltb 0 (field t "factor") | None => false end = true).
    { rewrite in_map_iff. split.
      - intros [[L' t] [Q IQ]]. cbn in Q. subst L'. apply filter_In in IQ. destruct IQ as [IQ CQ]. unfold chosen in CQ. cbn [fst snd] in CQ.
        apply andb_true_iff in CQ. destruct CQ as [C1 C2]. rewrite selected_in_family in C1. split; [exact C1|].
        toR. rewrite (proj2 (smfind_In L t SF) IQ). apply negb_true_iff, Rleb_false in C2. apply Rltb_true. lra.
      - intros [C1 C2]. toR. destruct (mfind sltb L factors) as [t|] eqn:Q; [|discriminate]. exists (L, t). split; [reflexivity|]. apply filter_In.
        split; [apply (smfind_In L t SF), Q|]. unfold chosen. cbn [fst snd]. rewrite selected_in_family, C1. cbn [andb].
        apply negb_true_iff, Rleb_false. apply Rltb_true in C2. lra. }
    rewrite CH. unfold active, mfactor. rewrite S2. destruct (Z.eqb_spec useMass 0) as [Z0|Z0].
    - assert (R1 : 1 <> 0) by lra. tauto.
    - rewrite Reqb_false. tauto. }
  intros k i L f O TF. rewrite map_app, Rsum_app. cbn [map Rsum]. unfold wterm2 at 2. cbn [fst snd].
  assert (OUT : exc n E w k i L = false -> mfind sltb L (layerTable (st_ar st') k i) = mfind sltb L (layerTable (st_ar st) k i) ->
     field (@lineOf RNum (layerTable (st_ar st') k i) L) f = Rsum (map (wterm2 f k i L) done) + ((if exc n E w k i L then amount f (gains_at n E w i L) else 0) + 0)).
  { intros XE Q. rewrite XE. pose proof (CN k i L f O TF) as Q1. unfold lineOf in Q1 |- *. toR. rewrite Q, Q1. ring. }
  destruct (string_dec k key) as [->|NK].
  2: { apply OUT; [unfold excites; fold key; destruct (String.eqb_spec k key); [contradiction|reflexivity]|]. rewrite D3 by (left; exact NK). reflexivity. }
  destruct (nth_error (e_slabs env) i) as [s|] eqn:Hs.
  2: { apply nth_error_None in Hs. apply OUT; [unfold excites; destruct (Nat.ltb_spec i (length (c_sample c))); [toR; lia|]; rewrite !andb_false_r; reflexivity|].
       rewrite D3 by (right; right; exact Hs). reflexivity. }
  destruct (EX i s L Hs) as [X1 X2]. destruct (exc n E w key i L) eqn:XE.
  - destruct (X1 eq_refl) as [AC IC]. pose proof (HIT i s (Nat.le_0_l _) Hs AC L IC f TF) as Q. 
    refine (eq_trans Q _). rewrite (CN key i L f O TF). unfold my_gains, gains_at. fold E w. ring.
  - apply OUT; [reflexivity|]. destruct (D4 i s Hs) as [_ G2]. apply G2; [exact O|].
    destruct (in_dec string_dec L (map fst (filter (chosen (fam n)) factors))) as [IN|IN]; [|right; exact IN]. left. intros AC.
    specialize (X2 (conj AC IN)). discriminate.
Qed.

Lemma steps_counted2 mn env : env_ok xl c comps geo env -> ((0 < secondary)%Z -> env_full xl c comps limit mn env) -> (forall n, (n < length elements)%nat -> mn <= thr n) ->
  forall m n st st' done done1, (n + m = length elements)%nat -> inv xl c st -> known (st_ar st) -> counted done1 (st_ar st) ->
  fc_ok xl (st_fc st) -> counted2 done (st_ar st) ->
  (st_thr st = thrs n \/ st_thr st = thrs (length elements)) ->
  @elementSteps RNum debug lf xl c families layers secondary useMass env n (skipn n elements) st = Ok st' ->
  fc_ok xl (st_fc st') /\ counted2 (done ++ map (fun k => ((e_energy env, e_weight env), k)) (seq n m)) (st_ar st').
Proof.
  intros EO EF LOW. induction m as [|m IH]; intros n st st' done done1 HN I K CN1 FC CN HT H.
  - rewrite skipn_all2 in H by lia. cbn [elementSteps] in H. apply Ok_inj in H. subst st'. cbn [seq map]. rewrite app_nil_r. auto.
  - assert (Hn : (n < length elements)%nat) by lia.
    assert (SK : skipn n elements = elem n :: skipn (S n) elements).
    { unfold element_of. clear -Hn. revert n Hn. induction elements as [|e l IHl]; intros [|n] Hn; cbn in *; [lia|lia|reflexivity|]. apply IHl. lia. }
    rewrite SK in H. cbn [elementSteps] in H. obind H st1 H1.
    assert (HT' : nth_error (st_thr st) n = None \/ nth_error (st_thr st) n = Some (thr n)).
    { destruct HT as [-> | ->]; [left; apply nth_error_None; rewrite thrs_length; lia|right; apply thrs_nth; exact Hn]. }
    destruct (@question_step lf debug xl c WF EL LE elements families layers secondary useMass WORDS comps geo LC LG env n st st1 done1 EO Hn I K CN1 HT' H1) as (I1 & K1 & C1 & T1).
    destruct (@question_step2 mn env n st st1 done EO EF (LOW n Hn) Hn I K FC CN HT' H1) as (F2 & C2).
    destruct (IH (S n) st1 st' _ _ ltac:(lia) I1 K1 C1 F2 C2) as (A & B); [| exact H |].
    + rewrite T1. destruct HT as [-> | ->]; rewrite thrs_length.
      * destruct (Nat.ltb_spec n n); [lia|]. left. symmetry. apply thrs_S.
      * destruct (Nat.ltb_spec n (length elements)); [right; reflexivity|lia].
    + split; [exact A|]. rewrite <- app_assoc in B. exact B.
Qed.

Lemma rayStep_counted2 ray done done1 st m st' m' : inv xl c st -> known (st_ar st) -> counted done1 (st_ar st) -> fc_ok xl (st_fc st) -> counted2 done (st_ar st) ->
  (st_thr st = [] \/ st_thr st = thrs (length elements)) -> low m ->
  @rayStep RNum sortf debug lf xl c elements families layers secondary useMass limit (base c comps geo) (st, m) ray = Ok (st', m') ->
  fc_ok xl (st_fc st') /\ counted2 (done ++ works ray) (st_ar st').
Proof.
  intros I K CN1 FC CN HT HM HA. unfold rayStep in HA. cbn [fst snd] in HA.
  destruct (@minimumOf_low xl c elements families POS comps geo LC LG m (st_thr st) HM HT) as [HM1 _]. set (mm := @minimumOf RNum m (st_thr st)) in *. clearbody mm.
  rnorm_in HA. toR. destruct (Rltb_spec (fst ray) mm) as [SK|SK].
  - apply Ok_inj in HA. injection HA as <- <-. split; [exact FC|]. intros k i L f O TF. rewrite map_app, Rsum_app, (CN k i L f O TF).
    unfold works. rewrite map_map. rewrite (@Rsum_zero nat _ all); [rring|]. intros n Hn. apply in_seq in Hn.
    unfold wterm2. cbn [fst snd]. unfold excites. replace (Rleb (thr n) (fst ray)) with false.
    2: { symmetry. apply Rleb_false. destruct HM1 as [-> | HM1]; [assert (0 <= thr n) by (apply POS; lia); lra|assert (mm <= thr n) by (apply HM1; lia); lra]. }
    rewrite !andb_false_r. reflexivity.
  - obind HA env EN. obind HA st2 ES. apply Ok_inj in HA. injection HA as <- <-. destruct (@rayEnv_ok xl c comps geo LC LG _ _ _ _ _ _ _ EN) as (E1 & E2 & EO).
    assert (LOW : forall n, (n < length elements)%nat -> mm <= thr n).
    { intros n Hn. destruct HM1 as [-> | HM1]; [assert (0 <= thr n) by (apply POS; lia); lra|apply HM1, Hn]. }
    assert (EF : (0 < secondary)%Z -> env_full xl c comps limit mm env).
    { intros SEC. eapply (@rayEnv_full sortf xl c AE comps geo LC LG); [exact SEC| | |exact EN]; [intros j Hj; apply PF, Hj|]. apply Rltb_false. lra. }
    destruct (@steps_counted2 mm env EO EF LOW (length elements) 0 st st2 done done1) as (A & B); [reflexivity|exact I|exact K|exact CN1|exact FC|exact CN|exact HT|exact ES|].
    split; [exact A|]. rewrite E1, E2 in B. destruct ray as [E w]. exact B.
Qed.
Lemma rays_counted2 : forall rays done done1 st m st' m', inv xl c st -> known (st_ar st) -> counted done1 (st_ar st) -> fc_ok xl (st_fc st) -> counted2 done (st_ar st) ->
  (st_thr st = [] \/ st_thr st = thrs (length elements)) -> low m ->
  rfold (@rayStep RNum sortf debug lf xl c elements families layers secondary useMass limit (base c comps geo)) rays (st, m) = Ok (st', m') ->
  counted2 (done ++ flat_map works rays) (st_ar st').
Proof.
  induction rays as [|ray rays IH]; intros done done1 st m st' m' I K CN1 FC CN HT HM H; cbn [rfold] in H.
  - apply Ok_inj in H. injection H as <- <-. cbn [flat_map]. rewrite app_nil_r. exact CN.
  - obind H a1 HA. destruct a1 as [st1 m1]. cbn [flat_map]. rewrite app_assoc.
    destruct (@rayStep_counted sortf lf debug xl c WF EL LE elements families layers secondary useMass limit WORDS POS comps geo LC LG ray done1 st m st1 m1 I K CN1 HT HM HA) as (A & B & C0 & D & F).
    destruct (@rayStep_counted2 ray done done1 st m st1 m1 I K CN1 FC CN HT HM HA) as [F2 C2].
    eapply IH; [exact A|exact B|exact C0|exact F2|exact C2|exact D|exact F|exact H].
Qed.
End Trace.
