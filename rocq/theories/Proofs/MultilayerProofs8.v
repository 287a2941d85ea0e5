(** Multilayer: the answer as a whole. *)
From Coq Require Import Ascii String List ZArith Reals Bool Arith Lia Lra Sorted.
From Verif Require Import Base.Num Base.Res Base.RSum Base.SMap Base.Str Base.ListLemmas Model.Beam Model.Material Model.TransmissionTable
  Model.Math Model.Shell Model.Element Model.Layer Model.XRF Model.Multilayer Spec.MultilayerSpec Proofs.LayerProofs Proofs.MultilayerProofs
  Proofs.MultilayerProofs2 Proofs.MultilayerProofs3 Proofs.MultilayerProofs4 Proofs.MultilayerProofs5 Proofs.MultilayerProofs6 Proofs.MultilayerProofs7.
Import ListNotations.
Set Implicit Arguments.
Local Open Scope string_scope.
Local Open Scope R_scope.
Local Existing Instance RNum.

(** ** Layers created by the tertiary loop *)
Definition layerOf {V} (m : list (nat * list V)) (i : nat) : list V := match mfind Nat.ltb i m with Some l => l | None => [] end.

Lemma natltb_sorted_seq n : forall a, StronglySorted (klt Nat.ltb) (seq a n).
Proof.
  induction n as [|n IH]; intros a; cbn; constructor; [apply IH|]. rewrite Forall_forall. intros x I. apply in_seq in I. unfold klt. apply Nat.ltb_lt. lia.
Qed.
Lemma sorted_same_set (l1 : list nat) : forall l2, StronglySorted (klt Nat.ltb) l1 -> StronglySorted (klt Nat.ltb) l2 -> (forall x, In x l1 <-> In x l2) -> l1 = l2.
Proof.
  induction l1 as [|a l1 IH]; intros [|b l2] H1 H2 H.
  - reflexivity.
  - exfalso. apply (H b). left. reflexivity.
  - exfalso. apply (H a). left. reflexivity.
  - inversion H1 as [|? ? S1 F1]. inversion H2 as [|? ? S2 F2]. subst. rewrite Forall_forall in F1, F2. unfold klt in F1, F2.
    assert (a = b).
    { destruct (proj1 (H a) (or_introl eq_refl)) as [->|Ia]; [reflexivity|]. destruct (proj2 (H b) (or_introl eq_refl)) as [->|Ib]; [reflexivity|].
      specialize (F1 _ Ib). specialize (F2 _ Ia). apply Nat.ltb_lt in F1, F2. lia. }
    subst b. f_equal. apply IH; [assumption..|]. intros x. split; intros I.
    + destruct (proj1 (H x) (or_intror I)) as [E|J]; [|exact J]. subst x. specialize (F1 _ I). rewrite Nat.ltb_irrefl in F1. discriminate.
    + destruct (proj2 (H x) (or_intror I)) as [E|J]; [|exact J]. subst x. specialize (F2 _ I). rewrite Nat.ltb_irrefl in F2. discriminate.
Qed.
Lemma below_length (l : list nat) B : NoDup l -> (forall x, In x l -> (x < B)%nat) -> (length l <= B)%nat.
Proof.
  intros ND H. rewrite <- (seq_length B 0). apply NoDup_incl_length; [exact ND|]. intros x I. apply in_seq. specialize (H x I). lia.
Qed.
Lemma above_length (l : list nat) i : (forall j, (j < i)%nat -> In j l) -> (i <= length l)%nat.
Proof.
  intros H. rewrite <- (seq_length i 0). apply NoDup_incl_length; [apply seq_NoDup|]. intros x I. apply in_seq in I. apply H. lia.
Qed.

Lemma mkeys_mset_nat {V} i (v : V) m x : msorted Nat.ltb m -> In x (map fst (mset Nat.ltb i v m)) <-> x = i \/ In x (map fst m).
Proof. intros H. apply (mset_keys_In (ltb := Nat.ltb)). exact H. Qed.

Lemma touch_spec B : forall fuel i (m : list (nat * lns)), msorted Nat.ltb m -> (forall x, In x (map fst m) -> (x < B)%nat) ->
  (forall j, (j < i)%nat -> In j (map fst m)) -> (B - i <= fuel)%nat ->
  exists m', @touchLayers RNum fuel i m = Ok m' /\ msorted Nat.ltb m' /\ map fst m' = seq 0 (length m') /\
    (forall k, layerOf m' k = layerOf m k) /\ (forall k l, mfind Nat.ltb k m = Some l -> mfind Nat.ltb k m' = Some l).
Proof.
  assert (END : forall i (m : list (nat * lns)), msorted Nat.ltb m -> (forall j, (j < i)%nat -> In j (map fst m)) -> (length m <= i)%nat ->
    map fst m = seq 0 (length m)).
  { intros i m HS U LE. apply sorted_same_set; [exact HS|apply natltb_sorted_seq|]. intros x. rewrite in_seq.
    assert (E : i = length m) by (apply Nat.le_antisymm; [rewrite <- (map_length fst m); apply above_length, U|exact LE]).
    split; intros I; [|apply U; lia]. split; [lia|].
    destruct (Nat.lt_ge_cases x (length m)) as [?|GE]; [lia|exfalso].
    assert (Q : (S i <= length (map fst m))%nat).
    { rewrite <- (seq_length i 0). change (S (length (seq 0 i))) with (length (x :: seq 0 i)). apply NoDup_incl_length.
      - constructor; [rewrite in_seq; lia|apply seq_NoDup].
      - intros y [<-|J]; [exact I|apply U; apply in_seq in J; lia]. }
    rewrite map_length in Q. lia. }
  induction fuel as [|fuel IH]; intros i m HS HB U HF; cbn [touchLayers]; toR; destruct (Nat.ltb_spec i (length m)) as [LT|GE].
  - exfalso. assert (LB : (length (map fst m) <= B)%nat) by (apply below_length; [apply (msorted_NoDup (ltb := Nat.ltb)), HS|exact HB]).
    rewrite map_length in LB. lia.
  - exists m. split; [reflexivity|split; [exact HS|split; [eapply END; eassumption|split; [reflexivity|auto]]]].
  - assert (LB : (length (map fst m) <= B)%nat) by (apply below_length; [apply (msorted_NoDup (ltb := Nat.ltb)), HS|exact HB]).
    rewrite map_length in LB.
    destruct (mfind Nat.ltb i m) as [l|] eqn:E; toR.
    + destruct (IH (Datatypes.S i) m HS HB) as (m' & A & A1 & A2 & A3 & A4); [|lia|].
      { intros j Hj. destruct (Nat.eq_dec j i) as [->|]; [|apply U; lia]. apply in_map_iff. exists (i, l). split; [reflexivity|]. apply (mfind_In (ltb := Nat.ltb) i l HS), E. }
      exists m'. repeat (split; [assumption|]). assumption.
    + destruct (IH (Datatypes.S i) (mset Nat.ltb i [] m)) as (m' & A & A1 & A2 & A3 & A4).
      * apply (mset_sorted (ltb := Nat.ltb)), HS.
      * intros x I. apply mkeys_mset_nat in I; [|exact HS]. destruct I as [->|I]; [lia|apply HB, I].
      * intros j Hj. apply mkeys_mset_nat; [exact HS|]. destruct (Nat.eq_dec j i) as [->|]; [left; reflexivity|right; apply U; lia].
      * lia.
      * exists m'. split; [exact A|split; [exact A1|split; [exact A2|split]]].
        -- intros k. rewrite A3. unfold layerOf. destruct (Nat.eq_dec i k) as [<-|N].
           ++ rewrite (mfind_mset_same (ltb := Nat.ltb)). toR. rewrite E. reflexivity.
           ++ rewrite (mfind_mset_other (ltb := Nat.ltb)); [reflexivity|exact N|exact HS].
        -- intros k l Hk. apply A4. rewrite (mfind_mset_other (ltb := Nat.ltb)); [exact Hk| |exact HS]. intros ->. toR. rewrite E in Hk. discriminate.
  - exists m. split; [reflexivity|split; [exact HS|split; [eapply END; eassumption|split; [reflexivity|auto]]]].
Qed.

Lemma layerBound_spec (m : list (nat * lns)) x : In x (map fst m) -> (x < @layerBound RNum m)%nat.
Proof.
  unfold layerBound. toR. induction (map fst m) as [|a l IH]; [intros []|]. intros [<-|I]; cbn [fold_right]; [lia|]. specialize (IH I). lia.
Qed.
Lemma touched_spec (m : list (nat * lns)) : msorted Nat.ltb m -> exists m', @touched RNum m = Ok m' /\ msorted Nat.ltb m' /\ map fst m' = seq 0 (length m') /\
    (forall k, layerOf m' k = layerOf m k) /\ (forall k l, mfind Nat.ltb k m = Some l -> mfind Nat.ltb k m' = Some l).
Proof.
  intros HS. unfold touched. apply (@touch_spec (@layerBound RNum m)); [exact HS|apply layerBound_spec|intros; lia|rewrite Nat.sub_0_r; apply Nat.le_add_l].
Qed.

(** ** The whole correction *)
Lemma mfind_Forall2 {K V W} (ltb : K -> K -> bool) (P : V -> W -> Prop) k (m : list (K * V)) (m' : list (K * W)) :
  Forall2 (fun a b => fst b = fst a /\ P (snd a) (snd b)) m m' ->
  match mfind ltb k m, mfind ltb k m' with Some v, Some w => P v w | None, None => True | _, _ => False end.
Proof.
  induction 1 as [|[a v] [b w] m m' [E H] F IH]; cbn; [exact I|]. cbn in E, H. subst b.
  destruct (ltb a k); [exact IH|]. destruct (ltb k a); [exact I|exact H].
Qed.
Lemma Forall2_keys {K V W} (P : V -> W -> Prop) (m : list (K * V)) (m' : list (K * W)) :
  Forall2 (fun a b => fst b = fst a /\ P (snd a) (snd b)) m m' -> map fst m' = map fst m.
Proof. induction 1 as [|a b m m' [E H] F IH]; cbn; [reflexivity|]. rewrite E, IH. reflexivity. Qed.

Definition touching (m m' : list (nat * lns)) : Prop :=
  msorted Nat.ltb m' /\ map fst m' = seq 0 (length m') /\ (forall k, layerOf m' k = layerOf m k) /\
  (forall k l, mfind Nat.ltb k m = Some l -> mfind Nat.ltb k m' = Some l).
Definition allTouched (ar ar1 : @table3 RNum) : Prop := Forall2 (fun a b => fst b = fst a /\ touching (snd a) (snd b)) ar ar1.
Lemma rmapM_touched (ar : @table3 RNum) : (forall k m, In (k, m) ar -> msorted Nat.ltb m) ->
  exists ar1, rmapM (fun km => rmap (fun m => (fst km, m)) (@touched RNum (snd km))) ar = Ok ar1 /\ allTouched ar ar1.
Proof.
  induction ar as [|[k m] ar IH]; intros H.
  - exists []. split; [reflexivity|constructor].
  - destruct (@touched_spec m) as (m' & A & B); [apply (H k); left; reflexivity|]. destruct IH as (ar1 & C & D); [intros k' m1 I; apply (H k'); right; exact I|].
    exists ((k, m') :: ar1). split; [|constructor; [split; [reflexivity|exact B]|exact D]].
    cbn [rmapM fst snd]. toR. rewrite A. cbn [rmap rbind]. rewrite C. reflexivity.
Qed.
Lemma tertiaryLayer_nil keys : @tertiaryLayer RNum keys [] = [].
Proof. reflexivity. Qed.
Lemma mfind_mapsnd {K V W} (ltb : K -> K -> bool) (g : V -> W) k : forall m : list (K * V),
  mfind ltb k (map (fun x => (fst x, g (snd x))) m) = option_map g (mfind ltb k m).
Proof.
  induction m as [|[a v] m IH]; cbn; [reflexivity|]. destruct (ltb a k); [exact IH|]. destruct (ltb k a); reflexivity.
Qed.

Lemma tertiary_spec (ar : @table3 RNum) : ar_sorted ar -> exists ar1 r, allTouched ar ar1 /\ tertiary ar = Ok r /\
  r = map (fun km => (fst km, map (fun il => (fst il, tertiaryLayer (contributingAll ar1) (snd il))) (snd km))) ar1 /\
  map fst r = map fst ar /\
  (forall k m, mfind sltb k r = Some m -> map fst m = seq 0 (length m)) /\
  (forall k i, layerTable r k i = tertiaryLayer (contributingAll ar1) (layerTable ar k i)).
Proof.
  intros [S1 S2]. destruct (@rmapM_touched ar) as (ar1 & A & B).
  { intros k m I. apply (S2 k). apply (smfind_In k m S1), I. }
  exists ar1. eexists. split; [exact B|]. unfold tertiary. toR. rewrite A. cbn [rbind]. split; [reflexivity|]. split; [reflexivity|].
  set (keys := contributingAll ar1). clearbody keys.
  split; [rewrite map_map; cbn; exact (@Forall2_keys _ _ _ touching _ _ B)|].
  assert (MF : forall k, mfind sltb k (map (fun km => (fst km, map (fun il => (fst il, tertiaryLayer keys (snd il))) (snd km))) ar1) =
     option_map (fun m => map (fun il => (fst il, tertiaryLayer keys (snd il))) m) (mfind sltb k ar1)).
  { intros k. exact (mfind_mapsnd sltb (fun m => map (fun il => (fst il, tertiaryLayer keys (snd il))) m) k ar1). }
  split.
  - intros k m H. toR. rewrite MF in H. pose proof (@mfind_Forall2 _ _ _ sltb touching k _ _ B) as Q. unfold table3 in *. toR.
    destruct (mfind sltb k ar1) as [m1|]; [|discriminate]. cbn in H. injection H as <-. rewrite map_map, map_length. cbn [fst].
    destruct (mfind sltb k ar); [|contradiction]. apply Q.
  - intros k i. unfold layerTable. toR. rewrite MF. pose proof (@mfind_Forall2 _ _ _ sltb touching k _ _ B) as Q. unfold table3 in *. toR.
    destruct (mfind sltb k ar1) as [m1|]; destruct (mfind sltb k ar) as [m|]; try contradiction; [|symmetry; apply tertiaryLayer_nil].
    cbn [option_map]. pose proof (mfind_mapsnd Nat.ltb (tertiaryLayer keys) i m1) as MM. toR. rewrite MM.
    destruct Q as (_ & _ & Q & _). specialize (Q i). unfold layerOf in Q.
    destruct (mfind Nat.ltb i m1); destruct (mfind Nat.ltb i m); cbn; try subst; try reflexivity; try (rewrite <- Q; reflexivity); rewrite Q; reflexivity.
Qed.

(** ** The answer *)
Section Answer.
Variables (sortf : list R -> list R) (debug lf : bool).
Variable xl : @xlib RNum.
Variable c : @config RNum.
Hypothesis WF : well_formed xl.

Lemma answer_state elements families layers secondary useGeo useMass limit over r :
  @getMultilayerFluorescence RNum sortf debug lf xl c elements families layers secondary useGeo useMass limit over = Ok r ->
  exists st, inv xl c st /\ ((secondary <= 1)%Z -> r = st_ar st) /\ ((1 < secondary)%Z -> tertiary (st_ar st) = Ok r).
Proof.
  intros H. unfold getMultilayerFluorescence in H. obind H comps CO. obind H ws FW. obind H geo GE. obind H a AA. exists (fst a).
  split; [refine (@rays_inv lf debug xl c WF _ _ _ _ _ _ _ _ _ _ _ _ AA); exact (inv_init xl c)|].
  destruct (Z.ltb_spec 1 secondary) as [Q|Q]; [split; [lia|intros _; exact H]|split; [intros _; injection H as <-; reflexivity|lia]].
Qed.
Lemma line_entry_layerTable (r : @table3 RNum) k i L : line_entry r k i L = mfind sltb L (layerTable r k i).
Proof. unfold line_entry, layerTable. destruct (mfind sltb k r); [|reflexivity]. destruct (mfind Nat.ltb i l); reflexivity. Qed.

Definition tertiary_of (secondary : Z) (t : tbl) : R := if (1 <? secondary)%Z then field t "tertiary" else 0.

Lemma answer_settled elements families layers secondary useGeo useMass limit over r k i L t :
  ((1 < secondary)%Z -> escape_names xl (c_detector c) /\ isEscape L = false) ->
  @getMultilayerFluorescence RNum sortf debug lf xl c elements families layers secondary useGeo useMass limit over = Ok r ->
  one_word L -> line_entry r k i L = Some t -> settled3 xl c (tertiary_of secondary t) (layerTable r k i) L t.
Proof.
  intros EN H OW HL. destruct (@answer_state _ _ _ _ _ _ _ _ _ H) as (st & (I1 & I2 & I3) & A & B). rewrite line_entry_layerTable in HL.
  unfold tertiary_of. destruct (Z.ltb_spec 1 secondary) as [Q|Q].
  - specialize (B Q). specialize (EN Q). destruct EN as [EN NE]. destruct (@tertiary_spec (st_ar st) I1) as (ar1 & r' & _ & E & _ & _ & _ & LT). rewrite B in E. injection E as <-.
    rewrite LT in *. exact (proj1 (@tertiaryLayer_settled xl c EN _ _ L t (I2 k i) OW NE HL)).
  - specialize (A ltac:(lia)). subst r. destruct (I2 k i) as (_ & R0 & _). eapply settled_settled3; [exact HL|]. apply (R0 L t HL OW).
Qed.
End Answer.
