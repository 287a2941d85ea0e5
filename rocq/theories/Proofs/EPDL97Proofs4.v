(** EPDL97: invariant of the loaded tables, photoelectric weights. *)
From Coq Require Import Ascii String List ZArith Reals Bool Arith Lia Lra.
From Verif Require Import Base.Num Base.Res Base.SMap Base.Str Base.Text Base.ListLemmas Base.RSum Model.Specfile Model.EPDL97 Spec.EPDL97Spec Proofs.MathProofs Proofs.EPDL97Proofs Proofs.EPDL97Proofs2 Proofs.EPDL97Proofs3.
Import ListNotations.
Set Implicit Arguments.
Local Open Scope R_scope.
Local Existing Instance RNum.
Local Open Scope string_scope.

Definition Inv (ep : @epdl RNum) : Prop :=
  msorted sltb (ep_index ep) /\ forall rows, In rows (ep_values ep) -> other_nonneg (ep_index ep) rows.

Lemma vgetZ_In {A} (v : list A) i x : vgetZ v i = Ok x -> In x v.
Proof. unfold vgetZ, vget. destruct (_ <? _)%Z; [discriminate|]. destruct (nth_error v (Z.to_nat i)) eqn:E; [|discriminate]. intros H. injection H as <-. eapply nth_error_In, E. Qed.

Lemma coefficients_spec ep last z x l t : Inv ep -> getMassAttenuationCoefficients last ep z x = (l, Ok t) ->
  exists s, msorted sltb s /\ t = @finish RNum s /\ (forall k, In k shells -> 0 <= value s k).
Proof.
  intros (IS & IV) E. unfold getMassAttenuationCoefficients in E. destruct (negb (ep_init ep)); [discriminate|]. destruct (z <? 1)%Z; [discriminate|].
  destruct (vgetZ (ep_energy ep) (zRow ep z)) as [g| | |]; try discriminate.
  destruct (getInterpolationIndices last g x) as [[[i j] l']| | |]; try discriminate. injection E as _ E.
  Ltac open_bind E w X := match type of E with rbind ?t _ = _ => destruct t as w eqn:X; try discriminate E; cbn [rbind] in E; cbv zeta in E end.
  open_bind E ipattern:([[[[i1 i2] x0] x1]| | |]) XU. open_bind E ipattern:([rows| | |]) ER. open_bind E ipattern:([b| | |]) EB. open_bind E ipattern:([s| | |]) F.
  cbn [rbind] in E. injection E as <-. exists s. apply vgetZ_In in ER. specialize (IV rows ER).
  assert (ND : NoDup (map fst (ep_index ep))) by (apply (smsorted_NoDup IS)).
  assert (S0 : msorted sltb (mset sltb "energy" x [])) by apply smset_sorted, smsorted_nil.
  destruct (fun A => @fold_value _ shellP (ep_index ep) A ND _ s S0 F) as (A & B & C).
  { intros s1 key idx s2 K Ss Es. destruct (_ || _)%bool; [eapply caseA_ok; eauto|eapply caseB_ok; eauto]. }
  split; [exact A|]. split; [reflexivity|]. intros k Hk. destruct (in_dec string_dec k (map fst (ep_index ep))) as [D|D].
  - apply in_map_iff in D. destruct D as ([key idx] & <- & D). exact (B key idx D Hk).
  - rewrite (C k D). rewrite value_mset by apply smsorted_nil. destruct (String.eqb_spec "energy" k) as [<-|_]; [|cbn; lra].
    exfalso. cbn in Hk. intuition discriminate.
Qed.

(** *** Loading *)
Lemma vset_length {A} (v : list A) i x : length (vset v i x) = length v.
Proof. revert i. induction v as [|a v IH]; intros [|i]; cbn; auto. Qed.
Lemma vget_vset_same {A} (v : list A) i x y : vget (vset v i x) i = Ok y -> y = x.
Proof. unfold vget. revert i. induction v as [|a v IH]; intros [|i]; cbn; try discriminate; [congruence|apply IH]. Qed.
Lemma vset_In {A} (v : list A) i x y : In y (vset v i x) -> y = x \/ In y v.
Proof.
  revert i. induction v as [|a v IH]; intros [|i]; cbn; auto.
  - intros [H|H]; auto.
  - intros [H|H]; auto. destruct (IH i H); auto.
Qed.
Lemma vgetZ_vset_same {A} (v : list A) i x y : vgetZ (vset v (Z.to_nat i) x) i = Ok y -> y = x.
Proof. unfold vgetZ. destruct (_ <? _)%Z; [discriminate|]. apply vget_vset_same. Qed.

Lemma normalize_ok index i row row' idx v : msorted sltb index -> In ("all other", idx) index ->
  @normalize RNum index i row = Ok row' -> vgetZ row' idx = Ok v -> 0 <= v.
Proof.
  intros S K E V. assert (IX : ix index "all other" = idx).
  { unfold ix. rewrite (proj2 (smfind_In "all other" idx S) K). reflexivity. }
  unfold normalize in E. rewrite IX in E.
  repeat match type of E with
  | rbind ?t _ = Ok _ => lazymatch t with vgetZ _ idx => fail | _ => let w := fresh "w" in destruct t as [w| | |]; try discriminate; cbn [rbind] in E end
  end.
  match type of E with rbind ?t _ = Ok _ => destruct t as [o| | |] eqn:O; try discriminate; cbn [rbind] in E end.
  injection E as <-. cbn [nltb n0 RNum] in V. toR. destruct (Rltb_spec o 0) as [C|C].
  - apply vgetZ_vset_same in V. subst. right. reflexivity.
  - rewrite O in V. injection V as <-. lra.
Qed.

Lemma loadScan_ok (strtod : text -> R) sf labels index i rows en : msorted sltb index ->
  @loadScan RNum strtod sf labels index i = Ok (rows, en) -> other_nonneg index rows.
Proof.
  intros S E. unfold loadScan in E. destruct (getScanLabels sf i) as [lab| | |]; try discriminate. cbn [rbind] in E.
  destruct (negb _); [discriminate|]. destruct (negb _); [discriminate|]. destruct (getScanData strtod sf i) as [rs| | |]; try discriminate. cbn [rbind] in E.
  destruct (rmapM _ rs) as [es| | |]; try discriminate. cbn [rbind] in E. destruct (rmapM (normalize index i) rs) as [ns| | |] eqn:N; try discriminate. cbn [rbind] in E. injection E as <- <-.
  apply rmapM_inv in N. intros idx r v K R V. assert (H : exists r0, @normalize RNum index i r0 = Ok r).
  { clear -N R. induction N as [|a c la lc A B IH]; [destruct R|]. destruct R as [<-|R]; [exists a; exact A|apply IH, R]. }
  destruct H as [r0 H]. eapply normalize_ok; eauto.
Qed.
Lemma loadScans_ok (strtod : text -> R) sf labels index : msorted sltb index -> forall todo values energy values' energy' r,
  (forall rows, In rows values -> other_nonneg index rows) ->
  @loadScans RNum strtod sf labels index todo values energy = (values', energy', r) -> forall rows, In rows values' -> other_nonneg index rows.
Proof.
  intros S. induction todo as [|i todo IH]; intros values energy values' energy' r H E rows Hr; cbn [loadScans] in E.
  - injection E as <- <- <-. apply H, Hr.
  - destruct (loadScan strtod sf labels index i) as [[v e]| | |] eqn:L; try (injection E as <- <- <-; apply H, Hr).
    eapply IH; [|exact E|exact Hr]. intros rows' K. apply vset_In in K. destruct K as [->|K]; [|apply H, K]. eapply loadScan_ok; eauto.
Qed.
Lemma buildIndex_sorted names labels : forall m m' r, msorted sltb m -> buildIndex names labels m = (m', r) -> msorted sltb m'.
Proof.
  induction names as [|n names IH]; intros m m' r S E; cbn [buildIndex] in E; [injection E as <- <-; exact S|].
  destruct (labelIndex _ _ _) as [i|]; [|injection E as <- <-; apply smset_sorted, S]. eapply IH; [|exact E]. apply smset_sorted, S.
Qed.
Lemma In_resize_nil {A} n (x : list A) : In x (resize [] n []) -> x = [].
Proof. unfold resize. rewrite firstn_nil. cbn [app]. intros H. apply repeat_spec in H. exact H. Qed.

Lemma Inv_new : Inv epdl_new.
Proof. split; [apply smsorted_nil|intros rows []]. Qed.
Lemma binding_keeps (strtod : text -> R) ep f : let ep' := fst (@loadBindingEnergies RNum strtod ep f) in
  ep_index ep' = ep_index ep /\ ep_values ep' = ep_values ep /\ ep_energy ep' = ep_energy ep.
Proof.
  unfold loadBindingEnergies. destruct (negb _); [auto|]. destruct (getScanLabels _ _) as [labels| | |]; auto.
  destruct (getScanData _ _ _) as [rows| | |]; auto. destruct rows as [|r0 rows]; auto. destruct (negb _); auto. destruct (rmapM _ _); auto.
Qed.
Lemma Inv_cross (strtod : text -> R) ep f : ep_index ep = [] -> ep_values ep = [] -> Inv (fst (@loadCrossSections RNum strtod ep f)).
Proof.
  intros EI EV. assert (I0 : Inv ep) by (split; rewrite ?EI, ?EV; [apply smsorted_nil|intros rows []]).
  unfold loadCrossSections. destruct (Nat.ltb _ 99); [exact I0|]. destruct (getScanLabels _ _) as [labels| | |]; try exact I0.
  destruct (Nat.ltb _ 15). { split; cbn; rewrite ?EI, ?EV; [apply smsorted_nil|intros rows []]. }
  rewrite EI, EV. destruct (buildIndex interestingLabels labels []) as [index r] eqn:B. apply buildIndex_sorted in B; [|apply smsorted_nil].
  destruct r; try (split; cbn; rewrite ?EV; [exact B|intros rows []]).
  match goal with |- context [loadScans ?s ?f ?l ?ix ?t ?v ?e] => destruct (loadScans s f l ix t v e) as [[values energy] r] eqn:L end.
  split; [exact B|]. cbn [ep_values ep_index fst]. eapply loadScans_ok; [exact B| |exact L].
  intros rows K. apply In_resize_nil in K. subst. intros idx r' v _ [].
Qed.
Lemma Inv_run (strtod : text -> R) (l : list ep_op) : Inv (ep_run strtod l).
Proof.
  unfold ep_run. rewrite <- fold_left_rev_right. induction (rev l) as [|o r IH]; [exact Inv_new|]. cbn [fold_right].
  set (ep := fold_right _ _ _) in *. clearbody ep. destruct o as [fs d|f|z b]; cbn [ep_call].
  - unfold setDataDirectory. destruct (Nat.eqb _ 0); [exact Inv_new|].
    destruct (loadBindingEnergies strtod epdl_new _) as [ep1 r1] eqn:E1.
    pose proof (@binding_keeps strtod epdl_new (fs (d ++ "//" ++ "EADL97_BindingEnergies.dat"))) as (A & B & _). rewrite E1 in A, B. cbn [fst] in A, B.
    assert (I1 : Inv ep1) by (split; rewrite ?A, ?B; [apply smsorted_nil|intros rows []]).
    destruct r1; try exact I1. pose proof (@Inv_cross strtod ep1 (fs (d ++ "//" ++ "EPDL97_CrossSections.dat")) A B) as C.
    destruct (loadCrossSections strtod ep1 _) as [ep2 r2]. cbn [fst] in C. destruct r2; exact C.
  - pose proof (@binding_keeps strtod ep f) as (A & B & _). destruct IH as [I1 I2]. split; [rewrite A; exact I1|]. rewrite A, B. exact I2.
  - unfold setBindingEnergies. destruct (z <? 1)%Z; [exact IH|]. destruct (Nat.ltb _ _); exact IH.
Qed.

(** *** Weights *)
Lemma mu_entries (t : list (string * R)) : forall m, msorted sltb m -> NoDup (map fst t) ->
  let r := mset_all sltb (map (fun kv => ("mu " ++ fst kv, snd kv)) t) m in
  msorted sltb r /\ (forall k v, In (k, v) t -> mfind sltb ("mu " ++ k) r = Some v) /\
  (forall q, (forall k, In k (map fst t) -> q <> "mu " ++ k) -> mfind sltb q r = mfind sltb q m).
Proof.
  induction t as [|[k v] t IH]; intros m S N; cbn [map mset_all fold_left fst snd]; [split; [exact S|split; [intros ? ? []|reflexivity]]|].
  inversion N as [|? ? N1 N2]; subst. destruct (IH (mset sltb ("mu " ++ k) v m) (smset_sorted _ _ S) N2) as (A & B & C).
  split; [exact A|]. split.
  - intros k' v' [K|K]; [|exact (B k' v' K)]. injection K as <- <-. unfold mset_all in C. rewrite C; [apply smfind_mset_same|].
    intros k' K' Q. injection Q as Q. subst. contradiction.
  - intros q Q. unfold mset_all in C. rewrite C; [apply smfind_mset_other; [|exact S]|].
    + intros E. apply (Q k); [left; reflexivity|congruence].
    + intros k' K'. apply Q. right. exact K'.
Qed.
Lemma set_shells (f : string -> R) (l : list string) : NoDup l -> forall m, msorted sltb m ->
  let r := fold_left (fun r k => mset sltb k (f k) r) l m in
  msorted sltb r /\ (forall k, In k l -> mfind sltb k r = Some (f k)) /\ (forall q, ~ In q l -> mfind sltb q r = mfind sltb q m).
Proof.
  induction l as [|k l IH]; intros N m S; cbn [fold_left]; [split; [exact S|split; [intros ? []|reflexivity]]|].
  inversion N as [|? ? N1 N2]; subst. destruct (IH N2 (mset sltb k (f k) m) (smset_sorted _ _ S)) as (A & B & C). split; [exact A|]. split.
  - intros k' [<-|K]; [|exact (B k' K)]. cbv zeta in C. rewrite C by exact N1. apply smfind_mset_same.
  - intros q Q. cbv zeta in C. rewrite C by (intros K; apply Q; right; exact K). apply smfind_mset_other; [|exact S]. intros ->. apply Q. left. reflexivity.
Qed.
Lemma shells_NoDup : NoDup shells.
Proof. unfold shells. repeat constructor; cbn; intuition discriminate. Qed.
Lemma shell_not_mu k q : In k shells -> k <> "mu " ++ q.
Proof. intros H. cbn in H. intros E. repeat (destruct H as [<-|H]; [discriminate|]). destruct H. Qed.
Lemma lit1_10 : Rlit 1 (-10) = / 10000000000. Proof. unfold Rlit; simpl; lra. Qed.
