(** Multilayer: the primary intensity of the whole calculation. *)
From Coq Require Import Ascii String List ZArith Reals Bool Arith Lia Lra Permutation.
From Verif Require Import Base.Num Base.Res Base.RSum Base.SMap Base.Str Base.ListLemmas Model.Beam Model.Material Model.TransmissionTable
  Model.Math Model.Shell Model.Element Model.Layer Model.XRF Model.Multilayer Spec.MultilayerSpec Proofs.MultilayerProofs Proofs.MultilayerProofs2
  Proofs.MultilayerProofs3 Proofs.MultilayerProofs4 Proofs.MultilayerProofs5 Proofs.MultilayerProofs6 Proofs.MultilayerProofs7 Proofs.MultilayerProofs8
  Proofs.MultilayerProofs9 Proofs.MultilayerProofs10 Proofs.MultilayerProofs11.
Import ListNotations.
Set Implicit Arguments.
Local Open Scope string_scope.
Local Open Scope R_scope.
Local Existing Instance RNum.

Section Rays.
Variable sortf : list R -> list R.
Variable lf debug : bool.
Variable xl : @xlib RNum.
Variable c : @config RNum.
Hypothesis WF : well_formed xl.
Variable EL : string -> string -> R.
Hypothesis LE : line_energies xl EL.
Variables (elements families : list string) (layers : list Z) (secondary useMass : Z) (limit : R).
Hypothesis WORDS : forall e, In e elements -> one_word e.
Hypothesis POS : forall n, (n < length elements)%nat -> 0 <= threshold xl elements families n.
Variable comps : list tbl.
Variable geo : list R.
Hypothesis LC : length comps = length (c_sample c).
Hypothesis LG : length geo = length (c_sample c).

Local Notation thr := (threshold xl elements families).
Local Notation exc := (excites xl c elements families layers useMass comps).
Local Notation known := (known xl c EL elements families secondary comps geo).
Local Notation counted := (counted xl c EL elements families layers useMass comps).
Local Notation all := (seq 0 (length elements)).
Definition thrs (k : nat) : list R := map thr (seq 0 k).
Definition works (ray : R * R) : list work := map (fun n => (ray, n)) all.

Lemma thrs_S k : thrs (S k) = (thrs k ++ [thr k])%list.
Proof. unfold thrs. rewrite seq_S, map_app. reflexivity. Qed.
Lemma thrs_nth k n : (n < k)%nat -> nth_error (thrs k) n = Some (thr n).
Proof. intros H. unfold thrs. rewrite (map_nth_error thr n (seq 0 k) (d := n)); [reflexivity|]. rewrite (nth_error_nth' _ 0%nat) by (rewrite seq_length; exact H). rewrite seq_nth by exact H. reflexivity. Qed.
Lemma thrs_length k : length (thrs k) = k.
Proof. unfold thrs. rewrite map_length, seq_length. reflexivity. Qed.

Lemma steps_counted env : env_ok xl c comps geo env -> forall m n st st' done, (n + m = length elements)%nat ->
  inv xl c st -> known (st_ar st) -> counted done (st_ar st) ->
  (st_thr st = thrs n \/ st_thr st = thrs (length elements)) ->
  @elementSteps RNum debug lf xl c families layers secondary useMass env n (skipn n elements) st = Ok st' ->
  inv xl c st' /\ known (st_ar st') /\ counted (done ++ map (fun k => ((e_energy env, e_weight env), k)) (seq n m)) (st_ar st') /\
  st_thr st' = thrs (length elements).
Proof.
  intros EO. induction m as [|m IH]; intros n st st' done HN I K CN HT H.
  - rewrite skipn_all2 in H by lia. cbn [elementSteps] in H. injection H as <-. cbn [seq map]. rewrite app_nil_r.
    split; [exact I|split; [exact K|split; [exact CN|]]]. replace n with (length elements) in HT by lia. destruct HT; assumption.
  - assert (Hn : (n < length elements)%nat) by lia.
    assert (SK : skipn n elements = element_of elements n :: skipn (S n) elements).
    { unfold element_of. clear -Hn. revert n Hn. induction elements as [|e l IHl]; intros [|n] Hn; cbn in *; [lia|lia|reflexivity|]. apply IHl. lia. }
    rewrite SK in H. cbn [elementSteps] in H. obind H st1 H1.
    assert (HT' : nth_error (st_thr st) n = None \/ nth_error (st_thr st) n = Some (thr n)).
    { destruct HT as [-> | ->]; [left; apply nth_error_None; rewrite thrs_length; lia|right; apply thrs_nth; exact Hn]. }
    destruct (@question_step lf debug xl c WF EL LE elements families layers secondary useMass WORDS comps geo LC LG env n st st1 done EO Hn I K CN HT' H1) as (I1 & K1 & C1 & T1).
    destruct (IH (S n) st1 st' _ ltac:(lia) I1 K1 C1) as (A & B & C0 & D); [| exact H |].
    + rewrite T1. destruct HT as [-> | ->]; rewrite thrs_length.
      * destruct (Nat.ltb_spec n n); [lia|]. left. symmetry. apply thrs_S.
      * destruct (Nat.ltb_spec n (length elements)); [right; reflexivity|lia].
    + split; [exact A|split; [exact B|split; [|exact D]]]. rewrite <- app_assoc in C0. exact C0.
Qed.

Definition low (m : R) : Prop := m = -1 \/ forall n, (n < length elements)%nat -> m <= thr n.
Lemma minimumOf_low m t : low m -> t = [] \/ t = thrs (length elements) -> low (@minimumOf RNum m t) /\ (t = [] -> @minimumOf RNum m t = m).
Proof.
  intros HM HT. unfold minimumOf. rnorm. destruct (Rltb_spec m 0) as [N|N].
  2: { split; [exact HM|reflexivity]. }
  destruct HT as [-> | ->]; [split; [exact HM|reflexivity]|].
  split.
  2: { intros E. rewrite E. reflexivity. }
  assert (G : forall l m, (forall x, In x l -> 0 <= x) -> let r := fold_left (fun m t => if Rltb t m || Rltb m 0 then t else m) l m in
     ((m < 0 /\ l = [] /\ r = m) \/ (0 <= r /\ (0 <= m -> r <= m) /\ forall x, In x l -> r <= x))).
  { clear. induction l as [|x l IH]; intros m P; cbn [fold_left].
    - destruct (Rlt_dec m 0); [left; auto|right]. split; [lra|split; [lra|intros x []]].
    - right. assert (Px := P x (or_introl eq_refl)). destruct (IH (if Rltb x m || Rltb m 0 then x else m) (fun y Hy => P y (or_intror Hy))) as [(Q1 & Q2 & Q3)|(Q1 & Q2 & Q3)].
      + exfalso. destruct (Rltb_spec x m), (Rltb_spec m 0); cbn [orb] in Q1; lra.
      + set (r := fold_left _ l _) in *. clearbody r. assert (Q4 : r <= x /\ (0 <= m -> r <= m)).
        { destruct (Rltb_spec x m), (Rltb_spec m 0); cbn [orb] in Q2; split; intros; lra. }
        split; [exact Q1|].
        split; [apply Q4|]. intros y [<-|Hy]; [apply Q4|apply Q3, Hy]. }
  destruct (G (thrs (length elements)) m) as [(_ & _ & Q)|(_ & _ & Q)].
  - intros x Hx. apply in_map_iff in Hx. destruct Hx as (n & <- & Hn). apply in_seq in Hn. apply POS. lia.
  - rnorm. rewrite Q. exact HM.
  - right. intros n Hn. apply Q. apply in_map_iff. exists n. split; [reflexivity|]. apply in_seq. lia.
Qed.

Lemma skipped_counted ray done ar : (forall n, (n < length elements)%nat -> fst ray < thr n) -> counted done ar -> counted (done ++ works ray) ar.
Proof.
  intros HB CN k i L O. destruct (CN k i L O) as [C1 C2].
  assert (NX : forall n, In n all -> exc n (fst ray) (snd ray) k i L = false).
  { intros n Hn. apply in_seq in Hn. unfold excites. replace (Rleb (thr n) (fst ray)) with false by (symmetry; apply Rleb_false; assert (fst ray < thr n) by (apply HB; lia); lra).
    rewrite !andb_false_r. reflexivity. }
  split.
  - rewrite map_app, Rsum_app, C1. unfold works. rewrite map_map. rewrite (@Rsum_zero nat _ all); [rring|].
    intros n Hn. unfold wterm. cbn [fst snd]. rewrite NX by exact Hn. reflexivity.
  - rewrite C2. split; intros (w & Iw & Ew); exists w; (split; [|exact Ew]).
    + apply in_or_app. left. exact Iw.
    + apply in_app_or in Iw. destruct Iw as [Iw|Iw]; [exact Iw|]. apply in_map_iff in Iw. destruct Iw as (n & <- & Hn). cbn [fst snd] in Ew.
      rewrite NX in Ew by exact Hn. discriminate.
Qed.

Lemma rayStep_counted ray done st m st' m' : inv xl c st -> known (st_ar st) -> counted done (st_ar st) ->
  (st_thr st = [] \/ st_thr st = thrs (length elements)) -> low m ->
  @rayStep RNum sortf debug lf xl c elements families layers secondary useMass limit (base c comps geo) (st, m) ray = Ok (st', m') ->
  inv xl c st' /\ known (st_ar st') /\ counted (done ++ works ray) (st_ar st') /\
  (st_thr st' = [] \/ st_thr st' = thrs (length elements)) /\ low m'.
Proof.
  intros I K CN HT HM HA. unfold rayStep in HA. cbn [fst snd] in HA.
  destruct (@minimumOf_low m (st_thr st) HM HT) as [HM1 _]. set (mm := @minimumOf RNum m (st_thr st)) in *. clearbody mm.
  rnorm_in HA. toR. destruct (Rltb_spec (fst ray) mm) as [SK|SK].
  - injection HA as <- <-. split; [exact I|split; [exact K|split; [|split; [exact HT|exact HM1]]]]. apply skipped_counted; [|exact CN].
    intros n Hn. destruct HM1 as [-> | HM1]; [specialize (POS Hn); lra|specialize (HM1 n Hn); lra].
  - obind HA env EN. obind HA st2 ES. injection HA as <- <-. destruct (@rayEnv_ok xl c comps geo LC LG _ _ _ _ _ _ _ EN) as (E1 & E2 & EO).
    destruct (@steps_counted env EO (length elements) 0 st st2 done) as (A & B & C0 & D); [reflexivity|exact I|exact K|exact CN|exact HT|exact ES|].
    split; [exact A|split; [exact B|split; [|split; [right; exact D|exact HM1]]]]. rewrite E1, E2 in C0. destruct ray as [E w]. exact C0.
Qed.
Lemma rays_counted : forall rays done st m st' m', inv xl c st -> known (st_ar st) -> counted done (st_ar st) ->
  (st_thr st = [] \/ st_thr st = thrs (length elements)) -> low m ->
  rfold (@rayStep RNum sortf debug lf xl c elements families layers secondary useMass limit (base c comps geo)) rays (st, m) = Ok (st', m') ->
  inv xl c st' /\ known (st_ar st') /\ counted (done ++ flat_map works rays) (st_ar st').
Proof.
  induction rays as [|ray rays IH]; intros done st m st' m' I K CN HT HM H; cbn [rfold] in H.
  - injection H as <- <-. cbn [flat_map]. rewrite app_nil_r. auto.
  - obind H a1 HA. destruct a1 as [st1 m1]. cbn [flat_map]. rewrite app_assoc.
    destruct (@rayStep_counted ray done st m st1 m1 I K CN HT HM HA) as (A & B & C0 & D & F). eapply IH; [exact A|exact B|exact C0|exact D|exact F|exact H].
Qed.
End Rays.

(** ** The whole calculation *)
Lemma rmapM_map {A B} (f : A -> res B) (d : B) l l' : rmapM f l = Ok l' -> l' = map (fun a => match f a with Ok v => v | _ => d end) l.
Proof.
  revert l'. induction l as [|a l IH]; intros l' H; cbn in H; [injection H as <-; reflexivity|].
  destruct (f a) as [v| | |] eqn:F; [|discriminate..]. cbn in H. destruct (rmapM f l) as [v'| | |]; [|discriminate..]. cbn in H. injection H as <-.
  cbn [map]. rewrite F. f_equal. apply IH. reflexivity.
Qed.
Lemma sum_swap {A B} (f : A -> B -> R) la lb : Rsum (map (fun w => f (fst w) (snd w)) (flat_map (fun a => map (fun b => (a, b)) lb) la)) =
  Rsum (map (fun a => Rsum (map (f a) lb)) la).
Proof.
  induction la as [|a la IH]; cbn [flat_map map Rsum]; [reflexivity|]. rewrite map_app, Rsum_app, IH, map_map. reflexivity.
Qed.

Section Answer.
Variable sortf : list R -> list R.
Variable lf debug : bool.
Variable xl : @xlib RNum.
Variable c : @config RNum.
Hypothesis WF : well_formed xl.
Hypothesis PW : pointwise xl.
Variable EL : string -> string -> R.
Hypothesis LE : line_energies xl EL.

Lemma sample_rays_combine over w' :
  filteredWeights xl c (map Beam.r_energy (rays_of c over)) (map Beam.r_weight (rays_of c over)) = Ok w' ->
  combine (map Beam.r_energy (rays_of c over)) w' = sample_rays xl c over.
Proof.
  intros H. destruct (@filtered_product xl c _ _ _ PW H) as [HL HN]. unfold sample_rays. rewrite map_length in HL.
  generalize (rays_of c over) w' HL HN. clear. intros l. induction l as [|r l IH]; intros [|v w'] HL HN; cbn in HL; try lia; [reflexivity|].
  cbn [map combine]. f_equal.
  - pose proof (HN 0%nat (Beam.r_energy r) eq_refl) as Q. cbn [nth map] in Q. f_equal. exact Q.
  - apply IH; [exact (eq_add_S _ _ HL)|]. intros k E HE. exact (HN (S k) E HE).
Qed.

Theorem primary_answer elements families layers secondary useGeo useMass limit over r :
  (forall e, In e elements -> one_word e) -> (forall n, (n < length elements)%nat -> 0 <= threshold xl elements families n) ->
  @getMultilayerFluorescence RNum sortf debug lf xl c elements families layers secondary useGeo useMass limit over = Ok r ->
  let rays := sample_rays xl c over in let comps := sample_compositions xl c in let geo := solid_angles c useGeo in
  forall key i L, one_word L ->
  (line_entry r key i L <> None <-> excited xl c elements families layers useMass comps rays key i L) /\
  forall t, line_entry r key i L = Some t ->
    field t "primary" = primary_sum xl c elements families layers useMass comps EL rays key i L /\
    exists n, (n < length elements)%nat /\ key = element_of elements n ++ " " ++ family_of families n /\ (i < length (c_sample c))%nat /\
      described xl c EL elements families secondary comps geo t i L (element_of elements n) n.
Proof.
  intros WORDS POS H rays comps0 geo0. unfold getMultilayerFluorescence in H. fold (rays_of c over) in H. cbv zeta in H.
  obind H comps CO. obind H ws FW. obind H geo GE. obind H a AA.
  assert (EC : comps = comps0) by (apply (rmapM_map _ []) in CO; exact CO).
  assert (EG : geo = geo0).
  { apply (rmapM_map _ 0) in GE. unfold geo0, solid_angles. toR. rewrite GE. apply map_ext. intros i. destruct (useGeo =? 0)%Z; reflexivity. }
  assert (ER : combine (map Beam.r_energy (rays_of c over)) ws = rays) by (apply sample_rays_combine, FW).
  assert (LC : length comps = length (c_sample c)) by (rewrite EC; apply map_length).
  assert (LG : length geo = length (c_sample c)) by (rewrite EG; unfold geo0, solid_angles; rewrite map_length, seq_length; reflexivity).
  toR. rewrite ER in AA. destruct a as [st m].
  destruct (@rays_counted sortf lf debug xl c WF EL LE elements families layers secondary useMass limit WORDS POS comps geo LC LG (rev rays) []
    (mkState [] (c_detector c, 1%Z) [] []) (-1) st m) as (I & K & CN).
  { exact (inv_init xl c). }
  { intros k i L t O Q. discriminate. }
  { intros k i L O. split; [reflexivity|]. split; [intros Q; exfalso; apply Q; reflexivity|intros (w & [] & _)]. }
  { left. reflexivity. }
  { left. reflexivity. }
  { replace (-1) with (@nlit RNum (-1) 0) by (cbn; unfold Rlit; simpl; lra). exact AA. }
  cbn [app] in CN. rewrite EC, EG in *. clear comps geo EC EG CO GE. cbn [fst] in H.
  (* before the tertiary correction *)
  assert (BEF : forall k i L, one_word L ->
     (mfind sltb L (layerTable (st_ar st) k i) <> None <-> excited xl c elements families layers useMass comps0 rays k i L) /\
     forall t, mfind sltb L (layerTable (st_ar st) k i) = Some t ->
       field t "primary" = primary_sum xl c elements families layers useMass comps0 EL rays k i L).
  { intros k i L O. destruct (CN k i L O) as [C1 C2]. split.
    - rewrite C2. unfold excited. split.
      + intros ([ray n] & Iw & Ew). apply in_flat_map in Iw. destruct Iw as (ray' & Ir & Iw). apply in_map_iff in Iw. destruct Iw as (n' & Q & Hn').
        injection Q as <- <-. exists ray', n'. apply in_rev in Ir. apply in_seq in Hn'. split; [exact Ir|split; [lia|exact Ew]].
      + intros (ray & n & Ir & Hn & Ew). exists (ray, n). split; [|exact Ew]. apply in_flat_map. exists ray. split; [apply in_rev in Ir; exact Ir|].
        apply in_map_iff. exists n. split; [reflexivity|]. apply in_seq. lia.
    - intros t Ht. unfold lineOf in C1. toR. rewrite Ht in C1. rewrite C1. unfold works, wterm, work.
      rewrite (sum_swap (fun ray n => if excites xl c elements families layers useMass comps0 n (fst ray) (snd ray) k i L then
         primary_of xl c elements useMass comps0 n (fst ray) (snd ray) i L (EL (element_of elements n) L) else 0)).
      unfold primary_sum. apply Rsum_perm. apply Permutation_map, Permutation_sym, Permutation_rev. }
  intros key i L O. rewrite line_entry_layerTable. destruct (BEF key i L O) as [B1 B2].
  destruct (Z.ltb_spec 1 secondary) as [Q|Q].
  - destruct I as (I1 & I2 & I3). destruct (@tertiary_spec (st_ar st) I1) as (ar1 & r' & _ & E & _ & _ & _ & LT).
    rewrite H in E. injection E as <-. specialize (LT key i). set (keys := contributingAll ar1) in *. clearbody keys.
    destruct (I2 key i) as (S2 & _ & _).
    assert (ND : NoDup (map fst (layerTable (st_ar st) key i))) by (apply (smsorted_NoDup (proj1 S2))).
    assert (EX : forall n, In n (map fst (layerTable (st_ar st) key i)) -> exists t, mfind sltb n (layerTable (st_ar st) key i) = Some t).
    { intros n IN. apply in_map_iff in IN. destruct IN as [[a t] [E IN]]. cbn in E. subst a. exists t. apply (smfind_In n t (proj1 S2)), IN. }
    destruct (@tertiaryFold_spec keys _ (layerTable (st_ar st) key i) S2 ND EX) as (A & B & C0). cbv zeta in A, B, C0.
    unfold tertiaryLayer in LT. rewrite LT. toR. clear LT.
    set (ls' := fold_left (tertiaryLine keys) (map fst (layerTable (st_ar st) key i)) (layerTable (st_ar st) key i)) in *. clearbody ls'.
    destruct (mfind sltb L (layerTable (st_ar st) key i)) as [t|] eqn:HT.
    + assert (IL : In L (map fst (layerTable (st_ar st) key i))) by (apply in_map_iff; exists (L, t); split; [reflexivity|apply (smfind_In L t (proj1 S2)), HT]).
      destruct (in_split _ _ IL) as (l1 & l2 & EQ). destruct (C0 l1 L l2 t EQ HT) as (t' & q & Ht' & (St' & FF & _) & _).
      rewrite Ht'. split; [split; [intros _; apply B1; intros QQ; discriminate (eq_trans (eq_sym HT) QQ)|intros _; discriminate]|].
      intros u HU. injection HU as <-. assert (FE : forall f, f <> "tertiary" -> f <> "rate" -> field t' f = field t f) by (intros; apply mfind_field, FF; assumption).
      rewrite FE by discriminate. split; [apply B2; exact HT|]. destruct (K key i L t O HT) as (n & Hn & KE & Hi & D). exists n.
      split; [exact Hn|split; [exact KE|split; [exact Hi|]]]. unfold described in *. rewrite !FE by discriminate. exact D.
    + assert (NI : ~ In L (map fst (layerTable (st_ar st) key i))) by (intros IL; destruct (EX L IL) as [tt QQ]; discriminate (eq_trans (eq_sym HT) QQ)).
      split.
      * split; intros QQ; [exfalso; apply QQ; exact (eq_trans (B L NI) HT)|]. intros _. exact (proj2 B1 QQ HT).
      * intros t QQ. discriminate (eq_trans (eq_sym QQ) (eq_trans (B L NI) HT)).
  - injection H as <-. split; [exact B1|]. intros t Ht. split; [apply B2, Ht|]. destruct (K key i L t O Ht) as (n & D). exists n. exact D.
Qed.
End Answer.
