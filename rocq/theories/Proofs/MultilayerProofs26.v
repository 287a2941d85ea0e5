(** Multilayer: the value of the tertiary correction. *)
From Coq Require Import Ascii String List ZArith Reals Bool Arith Lia Lra Permutation Sorting.Sorted.
From Verif Require Import Base.Num Base.Res Base.RSum Base.SMap Base.Str Base.ListLemmas Model.Beam Model.Material Model.TransmissionTable
  Model.Math Model.Shell Model.Element Model.Layer Model.XRF Model.Multilayer Spec.MultilayerSpec Spec.SecondarySpec Spec.TertiarySpec Proofs.LayerProofs Proofs.MultilayerProofs Proofs.MultilayerProofs2
  Proofs.MultilayerProofs3 Proofs.MultilayerProofs4 Proofs.MultilayerProofs5 Proofs.MultilayerProofs6 Proofs.MultilayerProofs7 Proofs.MultilayerProofs8 Proofs.MultilayerProofs11 Proofs.MultilayerProofs12 Proofs.ElementProofs
  Proofs.ShellProofs3 Proofs.MultilayerProofs19.
Import ListNotations.
Set Implicit Arguments.
Local Open Scope string_scope.
Local Open Scope R_scope.
Local Existing Instance RNum.

Lemma isEscape_spec s : isEscape s = true <-> escape_line s.
Proof.
  unfold isEscape, escape_line. split.
  - induction s as [|a s IH]; cbn [contains]; intros H; apply orb_true_iff in H; destruct H as [H|H]; try discriminate.
    + destruct (prefix_correct "esc" (String a s)) as [P _]. exists "". exists (substring 3 (String.length (String a s) - 3) (String a s)).
      cbn [append]. specialize (P H). destruct s as [|b [|d s]]; cbn in P; try discriminate P. injection P as -> -> ->.
      assert (SS : forall z n, n = String.length z -> substring 0 n z = z).
      { induction z as [|y z IHz]; intros [|n] Q; cbn in *; try reflexivity; try discriminate. f_equal. apply IHz. lia. }
      cbn [substring append String.length Nat.sub]. do 3 f_equal. symmetry. apply SS. lia.
    + destruct (IH H) as (x & y & ->). exists (String a x), y. reflexivity.
  - intros (a & b & ->). apply contains_app. destruct b; reflexivity.
Qed.
Lemma isEscape_false s : isEscape s = false <-> ~ escape_line s.
Proof. rewrite <- isEscape_spec. destruct (isEscape s); intuition congruence. Qed.

(** ** The enhancements as one list of entries *)
Definition item := (string * nat * string * tbl)%type.
Definition item_name (x : item) : string := let '(k, j, line, u) := x in elementOf k ++ " " ++ line ++ " " ++ layerNumber j.
Definition item_good (x : item) : bool := let '(k, j, line, u) := x in
  negb (isEscape line) && negb (Rltb (field u "massFraction") (Rlit 5 (-3))) && negb (Rltb (@excitationRatio RNum u) (Rlit 101 (-2))).
Definition item_value (x : item) : R := @excitationRatio RNum (snd x).
Definition put (acc : tbl) (x : item) : tbl := if item_good x then mset sltb (item_name x) (item_value x) acc else acc.
Definition items_layer (k : string) (j : nat) (l : lns) : list item := map (fun lt => (k, j, fst lt, snd lt)) l.
Definition items_key (k : string) (m : list (nat * lns)) : list item := flat_map (fun il => items_layer k (fst il) (snd il)) m.
Definition items (ar : list (string * list (nat * lns))) : list item := flat_map (fun km => items_key (fst km) (snd km)) ar.

Lemma contributing_put k j l acc b : (forall line u, In (line, u) l -> isEscape line = false -> Rltb (field u "massFraction") (Rlit 5 (-3)) = b) ->
  @contributing RNum (elementOf k) j l acc = fold_left put (items_layer k j l) acc.
Proof.
  revert acc. induction l as [|[line u] l IH]; intros acc H; [reflexivity|]. cbn [contributing items_layer map fold_left fst snd].
  assert (IH' : forall a, contributing (elementOf k) j l a = fold_left put (items_layer k j l) a) by (intros a; apply IH; intros x y I; apply H; right; exact I).
  unfold put at 2. unfold item_good, item_name, item_value. cbn [snd]. pose proof (H line u (or_introl eq_refl)) as HB.
  destruct (isEscape line); cbn [negb andb]; [apply IH'|]. specialize (HB eq_refl).
  change (@val0 RNum u "massFraction" <? nlit 5 (-3))%num with (Rltb (field u "massFraction") (Rlit 5 (-3))). rewrite HB. destruct b; cbn [negb andb].
  - (* everything else is below the limit as well *)
    clear - H. assert (K : forall line' u', In (line', u') l -> isEscape line' = false -> Rltb (field u' "massFraction") (Rlit 5 (-3)) = true) by (intros; eapply H; [right; eassumption|assumption]).
    clear H. induction l as [|[x y] l IH]; [reflexivity|]. cbn [items_layer map fold_left fst snd]. 
    unfold put at 2. unfold item_good. destruct (isEscape x) eqn:EX; cbn [negb andb]; [|rewrite (K x y (or_introl eq_refl) EX); cbn [negb andb]]; apply IH; intros; eapply K; try eassumption; right; eassumption.
  - change (@excitationRatio RNum u <? nlit 101 (-2))%num with (Rltb (@excitationRatio RNum u) (Rlit 101 (-2))). clear HB; destruct (Rltb (@excitationRatio RNum u) (Rlit 101 (-2))); cbn [negb]; apply IH'.
Qed.
Lemma contributingAll_put ar : (forall k m j l, In (k, m) ar -> In (j, l) m -> exists b, forall line u, In (line, u) l -> isEscape line = false -> Rltb (field u "massFraction") (Rlit 5 (-3)) = b) ->
  @contributingAll RNum ar = fold_left put (items ar) [].
Proof.
  unfold contributingAll. intros H0. revert H0.
  enough (G : forall acc, (forall k m j l, In (k, m) ar -> In (j, l) m -> exists b, forall line u, In (line, u) l -> isEscape line = false -> Rltb (field u "massFraction") (Rlit 5 (-3)) = b) ->
    fold_left (fun acc km => fold_left (fun acc il => @contributing RNum (elementOf (fst km)) (fst il) (snd il) acc) (snd km) acc) ar acc = fold_left put (items ar) acc) by apply G.
  induction ar as [|[k m] ar IH]; intros acc H; [reflexivity|]. cbn [fold_left items flat_map fst snd]. rewrite fold_left_app.
  assert (Q : forall m acc, (forall j l, In (j, l) m -> exists b, forall line u, In (line, u) l -> isEscape line = false -> Rltb (field u "massFraction") (Rlit 5 (-3)) = b) ->
     fold_left (fun acc il => @contributing RNum (elementOf k) (fst il) (snd il) acc) m acc = fold_left put (items_key k m) acc).
  { clear. induction m as [|[j l] m IH]; intros acc H; [reflexivity|]. cbn [fold_left items_key flat_map fst snd]. rewrite fold_left_app.
    destruct (H j l (or_introl eq_refl)) as [b Hb]. toR. rewrite (@contributing_put k j l acc b Hb). apply IH. intros; eapply H; right; eassumption. }
  toR. rewrite Q by (intros; eapply H; [left; reflexivity|eassumption]). apply IH. intros; eapply H; [right; eassumption|eassumption].
Qed.

Lemma put_sorted l : forall acc, msorted sltb acc -> msorted sltb (fold_left put l acc).
Proof. induction l as [|x l IH]; intros acc S; [exact S|]. cbn [fold_left]. apply IH. unfold put. destruct (item_good x); [apply smset_sorted|]; exact S. Qed.
(** the last entry of a name counts *)
Lemma put_find name l : forall acc, msorted sltb acc ->
  (exists l1 x l2, l = (l1 ++ x :: l2)%list /\ item_good x = true /\ item_name x = name /\ mfind sltb name (fold_left put l acc) = Some (item_value x) /\
     (forall y, In y l2 -> item_good y = true -> item_name y <> name)) \/
  ((forall y, In y l -> item_good y = true -> item_name y <> name) /\ mfind sltb name (fold_left put l acc) = mfind sltb name acc).
Proof.
  induction l as [|x l IH]; intros acc S; [right; split; [intros y []|reflexivity]|]. cbn [fold_left].
  assert (S' : msorted sltb (put acc x)) by (unfold put; destruct (item_good x); [apply smset_sorted|]; exact S).
  destruct (IH _ S') as [(l1 & z & l2 & -> & A)|[A B]]; [left; exists (x :: l1), z, l2; split; [reflexivity|exact A]|].
  destruct (item_good x) eqn:GX; [destruct (string_dec (item_name x) name) as [Q|Q]|].
  - left. exists [], x, l. split; [reflexivity|]. split; [exact GX|]. split; [exact Q|]. split; [|exact A].
    rewrite B. unfold put. rewrite GX, Q. apply smfind_mset_same.
  - right. split; [intros y [<-|I] G; [exact Q|apply A; assumption]|]. rewrite B. unfold put. rewrite GX. apply smfind_mset_other; [congruence|exact S].
  - right. split; [intros y [<-|I] G; [congruence|apply A; assumption]|]. rewrite B. unfold put. rewrite GX. reflexivity.
Qed.
Definition item_key (x : item) : string := fst (fst (fst x)).
Lemma items_sorted ar : msorted sltb ar -> StronglySorted (fun x y => item_key x = item_key y \/ sltb (item_key x) (item_key y) = true) (items ar).
Proof.
  intros S. assert (KM : forall k m x, In x (items_key k m) -> item_key x = k).
  { intros k m x I. apply in_flat_map in I. destruct I as (il & _ & I). apply in_map_iff in I. destruct I as (lt & <- & _). reflexivity. }
  unfold msorted, SMap.msorted in S. cbn in S. 
  induction ar as [|[k m] ar IH]; [constructor|]. cbn [items flat_map fst snd]. inversion S as [|? ? S1 F]; subst. apply StronglySorted_app. split; [|split; [apply IH, S1|]].
  - assert (G : forall l, (forall x, In x l -> item_key x = k) -> StronglySorted (fun x y => item_key x = item_key y \/ sltb (item_key x) (item_key y) = true) l).
    { induction l as [|x l IHl]; intros H; constructor; [apply IHl; intros; apply H; right; assumption|]. rewrite Forall_forall. intros y I. left.
      rewrite (H x (or_introl eq_refl)), (H y (or_intror I)). reflexivity. }
    apply G. apply KM.
  - intros x y Ix Iy. right. rewrite (KM _ _ _ Ix). apply in_flat_map in Iy. destruct Iy as ([k' m'] & I' & Iy). rewrite (KM _ _ _ Iy). cbn [fst].
    rewrite Forall_forall in F. apply F. apply (in_map fst) in I'. exact I'.
Qed.

(** ** The sum *)
Lemma fold_Rsum {A} (g : A -> R) l : forall a, fold_left (fun a x => a + g x) l a = a + Rsum (map g l).
Proof. induction l as [|x l IH]; intros a; cbn [fold_left map Rsum]; [ring|]. rewrite IH. ring. Qed.
Lemma Rsum_pick (g : string * R -> R) name (l : tbl) : msorted sltb l ->
  Rsum (map (fun kv => if String.eqb (fst kv) name then g kv else 0) l) = match mfind sltb name l with Some v => g (name, v) | None => 0 end.
Proof.
  intros S. destruct (mfind sltb name l) as [v|] eqn:F.
  - apply (smfind_In name v S) in F. assert (ND : NoDup (map fst l)) by apply (smsorted_NoDup S). destruct (in_split _ _ F) as (l1 & l2 & ->).
    rewrite map_app in ND. cbn [map fst] in ND. apply NoDup_remove_2 in ND. rewrite map_app, Rsum_app. cbn [map Rsum fst]. rewrite String.eqb_refl.
    rewrite (@Rsum_zero _ _ l1), (@Rsum_zero _ _ l2); [ring|..]; intros [a b] I; cbn [fst]; destruct (String.eqb_spec a name) as [->|]; try reflexivity;
      exfalso; apply ND, in_or_app; [right|left]; apply in_map_iff; exists (name, b); auto.
  - apply Rsum_zero. intros [a b] I. cbn [fst]. destruct (String.eqb_spec a name) as [->|]; [|reflexivity]. apply (smfind_In name b S) in I. congruence.
Qed.
(** the sum over the keys is a sum over the fields of the line *)
Lemma tertiarySum_fields (keys t : tbl) : msorted sltb keys -> msorted sltb t ->
  @tertiarySum RNum keys t = Rsum (map (fun nv => match mfind sltb (fst nv) keys with Some f => snd nv * (f - 1) | None => 0 end) t).
Proof.
  intros SK ST. unfold tertiarySum.
  transitivity (fold_left (fun a kf => a + match mfind sltb (fst kf) t with Some v => v * (snd kf - 1) | None => 0 end) keys 0).
  { assert (G : forall a, fold_left (fun a kf => match mfind sltb (fst kf) t with Some v => (a + v * (snd kf - n1))%num | None => a end) keys a =
      fold_left (fun a kf => a + match mfind sltb (fst kf) t with Some v => v * (snd kf - 1) | None => 0 end) keys a).
    { clear SK. induction keys as [|[k f] ks IH]; intros a; [reflexivity|]. cbn [fold_left fst snd]. rewrite IH. f_equal. toR. destruct (mfind sltb k t); rnorm; toR; [reflexivity|ring]. }
    apply G. }
  rewrite fold_Rsum, Rplus_0_l.
  transitivity (Rsum (map (fun kf => Rsum (map (fun nv => if String.eqb (fst nv) (fst kf) then snd nv * (snd kf - 1) else 0) t)) keys)).
  { apply Rsum_ext. intros [k f] _. cbn [fst snd]. rewrite (Rsum_pick (fun nv => snd nv * (f - 1)) k ST). reflexivity. }
  rewrite Rsum_swap. apply Rsum_ext. intros [n v] _. cbn [fst snd].
  transitivity (Rsum (map (fun kf => if String.eqb (fst kf) n then v * (snd kf - 1) else 0) keys)).
  { apply Rsum_ext. intros [k f] _. cbn [fst snd]. rewrite String.eqb_sym. reflexivity. }
  rewrite (Rsum_pick (fun kf => v * (snd kf - 1)) n SK). reflexivity.
Qed.
