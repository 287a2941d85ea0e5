(** Lemmas about Model/Element.v: attenuation coefficients, vacancies, energies. *)
From Coq Require Import Ascii String List ZArith Bool Reals Lra Lia Sorted.
From Verif Require Import Base.Num Base.Res Base.RSum Base.SMap Base.Str Base.ListLemmas
  Model.Shell Model.Element Spec.ShellSpec Spec.ElementSpec.
Import ListNotations.
Set Implicit Arguments.
Local Open Scope string_scope.

Lemma rbind_Ok {A B} (r : res A) (f : A -> res B) b : rbind r f = Ok b -> exists a, r = Ok a /\ f a = Ok b.
Proof. destruct r; cbn; try discriminate. intros H; exists a; auto. Qed.
Lemma Ok_inj {A} (a b : A) : Ok a = Ok b -> a = b.
Proof. congruence. Qed.
Lemma rmapM_Ok {A B} (f : A -> res B) l l' : rmapM f l = Ok l' <-> Forall2 (fun a b => f a = Ok b) l l'.
Proof.
  revert l'; induction l as [|a l IH]; intros l'; cbn.
  - split; [intros H; injection H as <-; constructor|intros H; inversion H; reflexivity].
  - split.
    + intros H. apply rbind_Ok in H as (b & Hb & H). apply rbind_Ok in H as (bs & Hbs & H). injection H as <-.
      constructor; [assumption|apply IH; assumption].
    + intros H; inversion H; subst. rewrite H2. cbn. apply IH in H4. rewrite H4. reflexivity.
Qed.

Lemma mset_all_keys_In {V} (l m : list (string * V)) k : msorted sltb m ->
  (In k (mkeys (mset_all sltb l m)) <-> In k (map fst l) \/ In k (mkeys m)).
Proof.
  revert m; induction l as [|[a b] l IH]; intros m Hs; cbn.
  - tauto.
  - change (In k (mkeys (mset_all sltb l (mset sltb a b m))) <-> (a = k \/ In k (map fst l)) \/ In k (mkeys m)).
    rewrite IH by (apply smset_sorted, Hs). rewrite smset_keys_In by assumption. intuition congruence.
Qed.
Lemma mset_all_In {V} (l : list (string * V)) k v : NoDup (map fst l) ->
  (mfind sltb k (mset_all sltb l []) = Some v <-> In (k, v) l).
Proof.
  intros Hn. rewrite smfind_In by (apply smset_all_sorted, smsorted_nil).
  assert (P : Permutation.Permutation (mset_all sltb l []) (l ++ [])).
  { apply smset_all_Permutation; [apply smsorted_nil|]. rewrite app_nil_r. exact Hn. }
  rewrite app_nil_r in P. split; intros H; [eapply Permutation.Permutation_in; eassumption|].
  eapply Permutation.Permutation_in; [symmetry; exact P|assumption].
Qed.

Section Generic.
Context {N : Num}.
Local Notation table := (list (string * num)).

Lemma mtouch_sorted (m : table) k : msorted sltb m -> msorted sltb (mtouch m k).
Proof. unfold mtouch. intros H. destruct (mmem sltb k m); [assumption|apply smset_sorted; assumption]. Qed.
Lemma val0_mtouch (m : table) k k' : msorted sltb m -> val0 (mtouch m k) k' = val0 m k'.
Proof.
  intros H. unfold mtouch. destruct (mmem sltb k m) eqn:E; [reflexivity|]. unfold val0.
  destruct (String.string_dec k k') as [->|Hn].
  - rewrite smfind_mset_same. unfold mmem in E. destruct (mfind sltb k' m); [discriminate|reflexivity].
  - rewrite smfind_mset_other by assumption. reflexivity.
Qed.
Lemma mfind_mtouch_other (m : table) k k' : k <> k' -> msorted sltb m -> mfind sltb k' (mtouch m k) = mfind sltb k' m.
Proof. intros Hn H. unfold mtouch. destruct (mmem sltb k m); [reflexivity|apply smfind_mset_other; assumption]. Qed.
Lemma mfind_mtouch_Some (m : table) k k' v : msorted sltb m -> mfind sltb k' m = Some v -> mfind sltb k' (mtouch m k) = Some v.
Proof.
  intros H E. destruct (String.string_dec k k') as [->|Hn].
  - unfold mtouch, mmem. rewrite E. assumption.
  - rewrite mfind_mtouch_other; assumption.
Qed.
Lemma touches_sorted l (m : table) : msorted sltb m -> msorted sltb (fold_left mtouch l m).
Proof. revert m; induction l as [|k l IH]; intros m H; cbn; [assumption|]. apply IH, mtouch_sorted, H. Qed.
Lemma val0_touches l (m : table) k' : msorted sltb m -> val0 (fold_left mtouch l m) k' = val0 m k'.
Proof.
  revert m; induction l as [|k l IH]; intros m H; cbn; [reflexivity|]. rewrite IH by (apply mtouch_sorted, H).
  apply val0_mtouch, H.
Qed.
Lemma mfind_touches_Some l (m : table) k v : msorted sltb m -> mfind sltb k m = Some v -> mfind sltb k (fold_left mtouch l m) = Some v.
Proof.
  revert m; induction l as [|x l IH]; intros m H E; cbn; [assumption|].
  apply IH; [apply mtouch_sorted, H|]. apply mfind_mtouch_Some; assumption.
Qed.
Lemma mfind_touches_In l (m : table) k : msorted sltb m -> In k l -> mfind sltb k (fold_left mtouch l m) = Some (val0 m k).
Proof.
  revert m; induction l as [|x l IH]; intros m H E; cbn; [destruct E|].
  destruct (String.string_dec x k) as [->|Hn].
  - apply mfind_touches_Some; [apply mtouch_sorted, H|]. unfold mtouch, val0, mmem.
    destruct (mfind sltb k m) eqn:F; [assumption|]. apply smfind_mset_same.
  - destruct E as [->|E]; [congruence|]. rewrite IH by (try apply mtouch_sorted; assumption).
    rewrite val0_mtouch by assumption. reflexivity.
Qed.
Lemma mfind_touches_other l (m : table) k : msorted sltb m -> ~ In k l -> mfind sltb k (fold_left mtouch l m) = mfind sltb k m.
Proof.
  revert m; induction l as [|x l IH]; intros m H E; cbn; [reflexivity|]. cbn in E.
  rewrite IH by (try apply mtouch_sorted; tauto). apply mfind_mtouch_other; [intuition congruence|assumption].
Qed.

Lemma touches_keys l (m : table) k : msorted sltb m -> In k (mkeys (fold_left mtouch l m)) -> In k l \/ In k (mkeys m).
Proof.
  revert m; induction l as [|x l IH]; intros m Hs Hk; [right; exact Hk|].
  cbn in Hk. apply IH in Hk; [|apply mtouch_sorted, Hs]. destruct Hk as [Hk|Hk]; [left; right; assumption|].
  unfold mtouch in Hk. destruct (mmem sltb x m); [right; assumption|].
  apply smset_keys_In in Hk; [|assumption]. destruct Hk as [->|Hk]; [left; left; reflexivity|right; assumption].
Qed.
(** the value of a partial table *)
Lemma getPartial_lookup (e : element) E part k : getPartialPhotoelectric e E = Ok part -> In k photoShells ->
  exists v, partialValue e E k = Ok v /\ mfind sltb k part = Some v.
Proof.
  unfold getPartialPhotoelectric. intros H Hk. apply rbind_Ok in H as (l & Hl & H). injection H as <-.
  cbn [photoShells shellKeys app] in Hl, Hk. cbn [rmapM] in Hl.
  repeat match type of Hl with
  | rbind _ _ = Ok _ => apply rbind_Ok in Hl as (? & ?Hp & Hl)
  | rmapM _ [] = Ok _ => cbn in Hl; injection Hl as <-
  | Ok _ = Ok _ => injection Hl as <-
  end.
  repeat match goal with
  | H : rbind (partialValue _ _ _) _ = Ok _ |- _ => apply rbind_Ok in H as (? & ? & H); injection H as <-
  | H : rbind _ _ = Ok _ |- _ => apply rbind_Ok in H as (? & ? & H)
  | H : Ok _ = Ok _ |- _ => injection H as <-
  end.
  cbn in Hk.
  repeat (destruct Hk as [<-|Hk]; [eexists; split; [eassumption|reflexivity]|]). destruct Hk.
Qed.

(** the table returned when the computation succeeds *)
Lemma computeMu_spec (e : element) E t : computeMu e E = Ok t ->
  msorted sltb t /\
  (exists part,
    (if existsb (fun kv => Nat.ltb 0 (length (snd kv))) (el_ppE e) then getPartialPhotoelectric e E = Ok part else part = []) /\
    (forall k, In k photoShells -> mfind sltb k t = Some (val0 part k))) /\
  (forall k, In k scattering_names -> exists y v, vlookup k (el_mu e) = Ok y /\
     otherValue true (el_muE e) y E = Ok v /\ mfind sltb k t = Some v) /\
  mfind sltb "energy" t = Some E /\
  mfind sltb "photoelectric" t = Some (val0 t "K" + val0 t "L1" + val0 t "L2" + val0 t "L3" +
     (val0 t "M1" + val0 t "M2" + val0 t "M3" + val0 t "M4" + val0 t "M5" + val0 t "all other"))%num /\
  mfind sltb "total" t = Some (val0 t "photoelectric" + val0 t "coherent" + val0 t "compton" + val0 t "pair")%num /\
  (forall k, In k (map fst t) -> In k (photo_names ++ scattering_names ++ ["energy"; "photoelectric"; "total"])).
Proof.
  unfold computeMu. intros H. apply rbind_Ok in H as (part & Hp & H). apply rbind_Ok in H as (scat & Hs & H).
  match type of H with (if nfinite ?x then _ else _) = _ => destruct (nfinite x); [|discriminate] end.
  apply Ok_inj in H. subst t. cbn [rmapM] in Hs.
  repeat match goal with
  | H : rbind _ _ = Ok _ |- _ => apply rbind_Ok in H as (? & ? & H)
  | H : Ok _ = Ok _ |- _ => apply Ok_inj in H; subst
  end.
  set (p0 := part) in *.
  assert (Sp : msorted sltb p0).
  { subst p0. destruct (existsb _ _).
    - unfold getPartialPhotoelectric in Hp. apply rbind_Ok in Hp as (l & _ & Hp). injection Hp as <-.
      apply smset_all_sorted, smsorted_nil.
    - injection Hp as <-. apply smsorted_nil. }
  assert (Kp : forall k, In k (mkeys p0) -> In k photoShells).
  { subst p0. destruct (existsb _ _).
    - intros k Hk. unfold getPartialPhotoelectric in Hp. apply rbind_Ok in Hp as (l & Hl & Hp). injection Hp as <-.
      rewrite rmapM_Ok in Hl.
      assert (map fst l = photoShells).
      { clear -Hl. induction Hl as [|a b l l' H _ IH]; [reflexivity|]. cbn. rewrite IH. f_equal.
        apply rbind_Ok in H as (v & _ & H). injection H as <-. reflexivity. }
      apply mset_all_keys_In in Hk; [|apply smsorted_nil]. destruct Hk as [Hk|[]]. rewrite <- H. exact Hk.
    - injection Hp as <-. cbn. tauto. }
  match goal with |- context [fold_left mtouch photoShells ?x] => set (r0 := x) in * end.
  assert (S0 : msorted sltb r0) by (apply smset_all_sorted, Sp).
  assert (K0 : forall k, ~ In k ["energy"; "coherent"; "compton"; "pair"] -> mfind sltb k r0 = mfind sltb k p0).
  { intros k Hk. subst r0. unfold mset_all. cbn [fold_left fst snd]. cbn in Hk.
    rewrite !smfind_mset_other by (try (repeat apply smset_sorted; assumption); intuition congruence). reflexivity. }
  set (r := fold_left mtouch photoShells r0) in *.
  assert (S1 : msorted sltb r) by (apply touches_sorted, S0).
  assert (V : forall k, val0 r k = val0 r0 k) by (intros; apply val0_touches, S0).
  match goal with |- context [mset sltb "photoelectric" ?x r] => set (photo := x) in * end.
  match goal with |- context [mset sltb "total" ?x _] => set (total := x) in * end.
  assert (S2 : msorted sltb (mset sltb "photoelectric" photo r)) by (apply smset_sorted, S1).
  assert (T : forall k, k <> "total" -> k <> "photoelectric" ->
     mfind sltb k (mset sltb "total" total (mset sltb "photoelectric" photo r)) = mfind sltb k r).
  { intros k H1' H2'. rewrite !smfind_mset_other by (try assumption; congruence). reflexivity. }
  assert (TV : forall k, k <> "total" -> k <> "photoelectric" ->
     val0 (mset sltb "total" total (mset sltb "photoelectric" photo r)) k = val0 r k).
  { intros k H1' H2'. unfold val0. rewrite T by assumption. reflexivity. }
  split; [apply smset_sorted, S2|]. split; [|split; [|split; [|split; [|split]]]].
  - exists p0. split.
    + subst p0. destruct (existsb _ _); [exact Hp|injection Hp as <-; reflexivity].
    + intros k Hk. rewrite T.
      2,3: intros ->; cbn in Hk; repeat (destruct Hk as [Hk|Hk]; [discriminate|]); destruct Hk.
      unfold r. rewrite mfind_touches_In by assumption. unfold val0. rewrite K0; [reflexivity|].
      cbn in Hk |- *. intros F. repeat (destruct F as [<-|F]; [repeat (destruct Hk as [Hk|Hk]; [discriminate|]); destruct Hk|]). destruct F.
  - intros k Hk. cbn in Hk.
    assert (G : forall k v, k <> "total" -> k <> "photoelectric" -> ~ In k photoShells -> mfind sltb k r0 = Some v ->
      mfind sltb k (mset sltb "total" total (mset sltb "photoelectric" photo r)) = Some v).
    { intros q v Q1 Q2 Q3 Q4. rewrite T by assumption. unfold r. rewrite mfind_touches_other; assumption. }
    assert (NI : forall k, In k ["coherent"; "compton"; "pair"] -> ~ In k photoShells).
    { intros q Hq F. cbn in Hq. repeat (destruct Hq as [<-|Hq]; [cbn in F; repeat (destruct F as [F|F]; [discriminate|]); destruct F|]). destruct Hq. }
    destruct Hk as [<-|[<-|[<-|[]]]]; do 2 eexists; (split; [eassumption|]); (split; [eassumption|]);
      (apply G; [discriminate|discriminate|apply NI; cbn; tauto|]); subst r0; unfold mset_all; cbn [fold_left fst snd];
      repeat first [rewrite smfind_mset_same; reflexivity
                   | rewrite smfind_mset_other by (try (repeat apply smset_sorted; assumption); discriminate)].
  - rewrite T by discriminate. unfold r. rewrite mfind_touches_other.
    + subst r0; unfold mset_all; cbn [fold_left fst snd].
      repeat first [rewrite smfind_mset_same; reflexivity
                   | rewrite smfind_mset_other by (try (repeat apply smset_sorted; assumption); discriminate)].
    + assumption.
    + cbn. intros F. repeat (destruct F as [F|F]; [discriminate|]). destruct F.
  - rewrite smfind_mset_other by (try discriminate; assumption). rewrite smfind_mset_same.
    rewrite !TV by discriminate. reflexivity.
  - rewrite smfind_mset_same. rewrite !(TV "coherent"), !(TV "compton"), !(TV "pair") by discriminate.
    unfold val0 at 1. rewrite smfind_mset_other by (try discriminate; assumption). rewrite smfind_mset_same. reflexivity.
  - intros k Hk. change (In k (mkeys (mset sltb "total" total (mset sltb "photoelectric" photo r)))) in Hk.
    rewrite smset_keys_In in Hk by assumption. destruct Hk as [->|Hk]; [cbn; tauto|].
    rewrite smset_keys_In in Hk by assumption. destruct Hk as [->|Hk]; [cbn; tauto|].
    assert (Hk' : In k photoShells \/ In k (mkeys r0)).
    { exact (touches_keys photoShells k S0 Hk). }
    destruct Hk' as [Hk'|Hk'].
    + apply in_or_app. left. exact Hk'.
    + subst r0. unfold mset_all in Hk'. cbn [fold_left fst snd] in Hk'. rewrite !smset_keys_In in Hk' by (repeat apply smset_sorted; assumption).
      destruct Hk' as [->|[->|[->|[->|Hk']]]]; try (cbn; tauto). apply in_or_app. left. apply Kp, Hk'.
Qed.

End Generic.
