(** Vacancy transfer of a shell (C19). *)
From Coq Require Import Ascii String List Bool Arith ZArith Reals Lra Lia Sorted Permutation.
From Verif Require Import Base.Num Base.Res Base.RSum Base.SMap Base.ListLemmas Base.Str Model.Shell Spec.ShellSpec Proofs.ShellProofs Proofs.ShellProofs2 Proofs.LayerProofs.
Import ListNotations.
Local Open Scope string_scope.
Local Open Scope R_scope.
Local Existing Instance RNum.
Implicit Types m : list (string * R).

Lemma string_rev_length s : String.length (string_rev s) = String.length s.
Proof.
  unfold string_rev. rewrite <- list_ascii_length, list_ascii_of_string_of_list_ascii, rev_length. apply list_ascii_length.
Qed.
Lemma ends_withb_spec d k : ends_withb d k = true <-> exists r, k = (r ++ d)%string.
Proof.
  unfold ends_withb. rewrite prefix_spec. unfold string_rev. split; intros [r E].
  - exists (string_of_list_ascii (rev (list_ascii_of_string r))). apply list_ascii_inj.
    rewrite list_ascii_app, list_ascii_of_string_of_list_ascii.
    apply (f_equal list_ascii_of_string) in E. rewrite list_ascii_app, !list_ascii_of_string_of_list_ascii in E.
    apply (f_equal (@rev ascii)) in E. rewrite rev_app_distr, !rev_involutive in E. exact E.
  - exists (string_of_list_ascii (rev (list_ascii_of_string r))). apply list_ascii_inj.
    rewrite E, !list_ascii_app, !list_ascii_of_string_of_list_ascii, rev_app_distr. reflexivity.
Qed.
Lemma suffix_match_eq d k : (String.length d <= String.length k)%nat -> suffix_match d k = Ok (ends_withb d k).
Proof.
  intros H. destruct (suffix_match_long d k H) as [b E]. rewrite E. f_equal. destruct b.
  - apply suffix_match_true in E. symmetry. apply ends_withb_spec, E.
  - destruct (ends_withb d k) eqn:X; [|reflexivity]. apply ends_withb_spec, suffix_match_true in X. congruence.
Qed.

Lemma sumPrefix_R p m (acc : R) : sumPrefix p m acc = acc + Rsum (map (fun kv => snd kv * (if String.prefix p (fst kv) then 1 else 0)) m).
Proof.
  unfold sumPrefix. revert acc. induction m as [|[k v] m IH]; intros acc; cbn [fold_left map Rsum fst snd]; [lra|].
  destruct (String.prefix p k); rewrite IH; [change (@nadd RNum acc v) with (acc + v)|]; lra.
Qed.
Lemma sumSuffix_R d m (acc : R) : Forall (fun kv => (String.length d <= String.length (fst kv))%nat) m ->
  sumSuffix d m acc = Ok (acc + Rsum (map (fun kv => snd kv * (if ends_withb d (fst kv) then 1 else 0)) m)).
Proof.
  unfold sumSuffix. revert acc. induction m as [|[k v] m IH]; intros acc H; cbn [rfold map Rsum fst snd]; [f_equal; lra|].
  inversion H; subst. rewrite suffix_match_eq by assumption. cbn [rbind].
  destruct (ends_withb d k); rewrite IH by assumption; f_equal; [change (@nadd RNum acc v) with (acc + v)|]; lra.
Qed.
Lemma transferSum_R (s : shell) d m : String.length d = 2%nat -> Forall (fun kv => (2 <= String.length (fst kv))%nat) m ->
  transferSum s d m = Ok (expected_vacancies (sh_name s) d m).
Proof.
  intros Hd Hm. unfold transferSum. rewrite sumPrefix_R, sumSuffix_R by (rewrite Hd; exact Hm). f_equal.
  change (@n0 RNum) with 0. unfold expected_vacancies, vacancies_in. rewrite Rplus_0_l, <- Rsum_plus. apply Rsum_ext. intros; lra.
Qed.

(** what the code returns, as a formula *)
Definition well_formed name (s : @shell RNum) : Prop :=
  has_id name s /\ mkeys (sh_const s) = constant_names name /\ msorted sltb (sh_const s) /\
  Forall (fun kv => (2 <= String.length (fst kv))%nat) (sh_auger s) /\
  Forall (fun g => Forall (fun kv => (2 <= String.length (fst kv))%nat) (snd g)) (sh_ck s) /\
  msorted sltb (sh_ck s) /\ incl (mkeys (sh_ck s)) (map fst (ck_groups name)).

Lemma ck_groups_names name f : In f (map fst (ck_groups name)) -> sltb "auger" f = true /\ sltb f "fluorescence" = true /\ f <> "auger" /\ f <> "fluorescence".
Proof.
  unfold ck_groups. repeat match goal with |- context [if ?b then _ else _] => destruct b end; cbn [map fst In]; intros H;
  repeat (destruct H as [<-|H]; [repeat split; try reflexivity; discriminate|]); contradiction.
Qed.

Lemma const_lookup name (s : @shell RNum) k : mkeys (sh_const s) = constant_names name -> msorted sltb (sh_const s) ->
  In k (constant_names name) -> mfind sltb k (sh_const s) = Some (value_or_0 k (sh_const s)).
Proof.
  intros Hk Hs Hi. apply value_or_0_Some. intros X. apply smfind_None in X; [|exact Hs]. apply X. exact (eq_ind_r (fun l => In k l) Hi Hk).
Qed.

Definition transfer_table name (s : @shell RNum) d : list (string * R) :=
  ([("auger", expected_vacancies name d (sh_auger s) * (1 - total_of (sh_const s)))] ++
  map (fun g => (fst g, expected_vacancies name d (snd g) * value_or_0 (fst g) (sh_const s))) (sh_ck s) ++
  [("fluorescence", value_or_0 (name ++ d)%string (sh_fluo s) * value_or_0 "omega" (sh_const s))])%list.

Lemma mset_all_cons (k : string) (v : R) l m : mset_all sltb ((k, v) :: l) m = mset_all sltb l (mset sltb k v m).
Proof. reflexivity. Qed.

Lemma three_way_sorted (a b : R) (l : list (string * R)) : msorted sltb l ->
  Forall (fun kv => sltb "auger" (fst kv) = true /\ sltb (fst kv) "fluorescence" = true) l ->
  msorted sltb ([("auger", a)] ++ l ++ [("fluorescence", b)])%list.
Proof.
  intros Hs Hf. unfold msorted, mkeys. cbn [app map fst]. rewrite map_app. cbn [map fst].
  apply Forall_and_inv in Hf. destruct Hf as [H1 H2]. constructor.
  - apply StronglySorted_app. split; [exact Hs|]. split; [repeat constructor|].
    intros x y Hx [<-|[]]. apply in_map_iff in Hx. destruct Hx as [z [<- Hz]]. rewrite Forall_forall in H2. apply H2, Hz.
  - apply Forall_app. split; [apply Forall_map; exact H1|]. repeat constructor.
Qed.

Lemma output_table (fl a : R) (cks : list (string * R)) : msorted sltb cks ->
  Forall (fun kv => sltb "auger" (fst kv) = true /\ sltb (fst kv) "fluorescence" = true) cks ->
  mset_all sltb (("fluorescence", fl) :: ("auger", a) :: cks) [] = ([("auger", a)] ++ cks ++ [("fluorescence", fl)])%list.
Proof.
  intros Hs Hf. pose proof (three_way_sorted a fl cks Hs Hf) as Hx.
  apply smsorted_ext; [apply smset_all_sorted, smsorted_nil|exact Hx|].
  intros k. rewrite smfind_mset_all by apply smsorted_nil.
  assert (F : forall k v, mfind sltb k (([("auger", a)] ++ cks ++ [("fluorescence", fl)])%list) = Some v <->
      In (k, v) (([("auger", a)] ++ cks ++ [("fluorescence", fl)])%list)) by (intros; apply smfind_In; exact Hx).
  rewrite alast_last_binding. unfold last_binding. cbn [rev].
  rewrite <- app_assoc. cbn [app].
  assert (P : forall (l1 l2 : list (string * R)) f, find f (l1 ++ l2)%list = match find f l1 with Some x => Some x | None => find f l2 end).
  { intros l1 l2 f. induction l1 as [|x l1 IH]; cbn; [reflexivity|]. destruct (f x); [reflexivity|exact IH]. }
  rewrite P. destruct (find (fun kv => String.eqb (fst kv) k) (rev cks)) as [[q w]|] eqn:E.
  - apply find_some in E. destruct E as [E1 E2]. cbn in E2. apply String.eqb_eq in E2. subst q. apply in_rev in E1.
    symmetry. apply F. apply in_or_app. right. apply in_or_app. left. exact E1.
  - cbn [find]. cbn [fst]. 
    destruct (String.eqb_spec "auger" k) as [<-|Hk1].
    + symmetry. apply F. left. reflexivity.
    + destruct (String.eqb_spec "fluorescence" k) as [<-|Hk2].
      * symmetry. apply F. apply in_or_app. right. apply in_or_app. right. left. reflexivity.
      * symmetry. apply smfind_None; [exact Hx|]. unfold mkeys. cbn [app map fst]. rewrite map_app. cbn [In]. rewrite in_app_iff. cbn.
        intros [H|[H|[H|[]]]]; [congruence| |congruence]. apply in_map_iff in H. destruct H as [[q w] [H1 H2]]. cbn in H1. subst q.
        apply in_rev in H2. pose proof (find_none _ _ E _ H2) as H3. cbn in H3. rewrite String.eqb_refl in H3. discriminate.
Qed.

Lemma transfer_exact name (s : @shell RNum) d : well_formed name s -> String.length d = 2%nat ->
  getDirectVacancyTransferRatios s d =
  if Rltb (10001 / 10000) (total_of (sh_const s)) then Throw DomainError else Ok (transfer_table name s d).
Proof.
  intros ((Hn & E1 & Hid) & Hk & Hs & Ha & Hc & Hcs & Hci) Hd. unfold getDirectVacancyTransferRatios. rewrite Hd. cbn [Nat.eqb negb].
  rewrite transferSum_R by assumption. cbn [rbind].
  rewrite (rmapM_Ok _ (fun g => (fst g, expected_vacancies name d (snd g)))).
  2:{ intros g Hg. rewrite Forall_forall in Hc. rewrite transferSum_R by (auto). rewrite E1. reflexivity. }
  cbn [rbind]. rewrite E1.
  assert (Es : @nsum RNum (map snd (sh_const s)) = total_of (sh_const s)) by apply nsum_R.
  match goal with |- context [@nsum ?N ?l] => replace (@nsum N l) with (total_of (sh_const s)) by (symmetry; exact Es) end.
  assert (El : @nlit RNum 10001 (-4) = 10001 / 10000).
  { change (Rlit 10001 (-4) = 10001 / 10000). unfold Rlit. simpl. lra. }
  match goal with |- context [@nltb RNum ?a ?b] => change (@nltb RNum a b) with (Rltb a (total_of (sh_const s))) end.
  rewrite El. destruct (Rltb _ _); [reflexivity|].
  assert (Ho : forall fl a : R, mset_all sltb (("fluorescence", fl) :: ("auger", a) :: map (fun g => (fst g, expected_vacancies name d (snd g))) (sh_ck s)) []
     = ([("auger", a)] ++ map (fun g => (fst g, expected_vacancies name d (snd g))) (sh_ck s) ++ [("fluorescence", fl)])%list).
  { intros fl a. apply output_table.
    - apply (msorted_map_val (fun g => expected_vacancies name d (snd g))), Hcs.
    - apply Forall_forall. intros [f v] Hi. apply in_map_iff in Hi. destruct Hi as [g [X Hg]]. injection X as <- <-.
      cbn [fst]. assert (In (fst g) (map fst (ck_groups name))) by (apply Hci, in_map, Hg).
      destruct (ck_groups_names name (fst g)) as (A & B & _); auto. }
  match goal with |- context [mset_all ?o ?l ?m] =>
    let H := fresh in pose proof (Ho (value_or_0 (name ++ d)%string (sh_fluo s)) (expected_vacancies name d (sh_auger s))) as H;
    replace (mset_all o l m) with (([("auger", expected_vacancies name d (sh_auger s))] ++ map (fun g => (fst g, expected_vacancies name d (snd g))) (sh_ck s) ++ [("fluorescence", value_or_0 (name ++ d)%string (sh_fluo s))])%list : list (string * R)) by (symmetry; exact H); clear H end.
  rewrite (rmapM_Ok _ (fun kv => (fst kv, snd kv * (if String.eqb (fst kv) "auger" then 1 - total_of (sh_const s)
     else value_or_0 (if String.eqb (fst kv) "fluorescence" then "omega" else fst kv) (sh_const s))))).
  - f_equal. unfold transfer_table. cbn [app map fst snd String.eqb Ascii.eqb Bool.eqb]. f_equal.
    rewrite map_app. cbn [map fst snd String.eqb Ascii.eqb Bool.eqb]. f_equal. rewrite map_map. cbn [fst snd]. apply map_ext_in. intros g Hg.
    assert (In (fst g) (map fst (ck_groups name))) by (apply Hci, in_map, Hg).
    destruct (ck_groups_names name (fst g)) as (_ & _ & A & B); auto.
    rewrite (proj2 (String.eqb_neq _ _) A), (proj2 (String.eqb_neq _ _) B). reflexivity.
  - intros [f v] Hi. cbn [fst snd]. destruct (String.eqb_spec f "auger") as [->|Hf]; [reflexivity|].
    rewrite (const_lookup name); [reflexivity|exact Hk|exact Hs|].
    unfold constant_names. apply in_or_app.
    destruct (String.eqb_spec f "fluorescence") as [->|Hf2]; [right; left; reflexivity|]. left.
    cbn [app] in Hi. destruct Hi as [Hi|Hi]; [congruence|]. apply in_app_or in Hi. destruct Hi as [Hi|[Hi|[]]]; [|congruence].
    apply in_map_iff in Hi. destruct Hi as [g [X Hg]]. injection X as <- _. apply Hci, in_map, Hg.
Qed.

(** *** Invariant of physical histories *)
Lemma physical_reachable name s : physical name s -> reachable name s.
Proof.
  induction 1 as [s H|s o H IH Ho Hm]; [exists s, []; split; [exact H|reflexivity]|apply reachable_step, IH].
Qed.

Definition ratios_ok m : Prop :=
  Forall (fun kv => 0 <= snd kv) m /\ total_of (nontotal m) <= 1 /\ Forall (fun kv => (2 <= String.length (fst kv))%nat) m.
Definition phys_inv name (s : @shell RNum) : Prop :=
  (msorted sltb (sh_fluo s) /\ Forall (fun kv => 0 <= snd kv) (sh_fluo s) /\ total_of (sh_fluo s) <= 1) /\
  ratios_ok (sh_auger s) /\
  (msorted sltb (sh_ck s) /\ incl (mkeys (sh_ck s)) (map fst (ck_groups name)) /\ Forall (fun g => ratios_ok (snd g)) (sh_ck s)).

Lemma radLoop_sorted {N : Num} name labels values (m : list (string * num)) : msorted sltb m -> msorted sltb (fst (radLoop name labels values m)).
Proof.
  revert values m. induction labels as [|l labels IH]; intros values m H; cbn; [exact H|].
  destruct (radLabel name l); [|exact H]. destruct values as [|v values]; [exact H|]. apply IH, smset_sorted, H.
Qed.
Lemma mset_values (P : R -> Prop) k v m : P v -> Forall (fun kv => P (snd kv)) m -> Forall (fun kv => P (snd kv)) (mset sltb k v m).
Proof. intros Hv Hm. apply (mset_all_values P [(k, v)] m); [repeat constructor; exact Hv|exact Hm]. Qed.
Lemma radLoop_values name labels (values : list (@num RNum)) (m : list (string * @num RNum)) : Forall (fun v : R => 0 <= v) values ->
  Forall (fun kv : string * R => 0 <= snd kv) m -> Forall (fun kv : string * R => 0 <= snd kv) (fst (radLoop name labels values m)).
Proof.
  revert values m. induction labels as [|l labels IH]; intros values m Hv H; cbn; [exact H|].
  destruct (radLabel name l); [|exact H]. destruct values as [|v values]; [exact H|]. inversion Hv; subst.
  apply IH; [assumption|]. apply (mset_values (fun x => 0 <= x)); assumption.
Qed.

Lemma fluo_inv (s : @shell RNum) : msorted sltb (sh_rad s) -> Forall (fun kv => 0 <= snd kv) (sh_rad s) ->
  msorted sltb (sh_fluo (updateFluorescenceRatios s)) /\ Forall (fun kv => 0 <= snd kv) (sh_fluo (updateFluorescenceRatios s)) /\
  total_of (sh_fluo (updateFluorescenceRatios s)) <= 1.
Proof.
  intros Hs Hp. destruct (fluo_facts s Hs Hp) as (A & B & C). split; [apply updateFluo_sorted|]. split.
  - apply Forall_forall. intros [k v] Hi. cbn. specialize (C k v Hi). lra.
  - destruct (Rle_lt_dec (total_of (nontotal (sh_rad s))) 0) as [Z|Z]; [|rewrite B by exact Z; lra].
    assert (E : sh_fluo (updateFluorescenceRatios s) = []).
    { destruct (sh_fluo (updateFluorescenceRatios s)) as [|[k v] l] eqn:E; [reflexivity|]. exfalso.
      destruct (proj1 (A k v)) as (r & H1 & H2 & H3 & _); [left; reflexivity|].
      assert (r <= total_of (nontotal (sh_rad s))).
      { apply (total_in_le k); [apply Forall_filter; exact Hp|apply nontotal_In; split; [exact H1|exact H2]]. }
      lra. }
    assert (X : total_of (sh_fluo (updateFluorescenceRatios s)) = 0) by (rewrite E; reflexivity). lra.
Qed.

Lemma rad_vec_inv name (s : @shell RNum) labels values : Forall (fun v => 0 <= v) values ->
  phys_inv name s -> phys_inv name (fst (setRadiativeTransitions_vec s labels values)).
Proof.
  intros Hv (A & B & C). unfold setRadiativeTransitions_vec.
  pose proof (radLoop_sorted (sh_name s) labels values [] smsorted_nil) as H1.
  pose proof (radLoop_values (sh_name s) labels values [] Hv (Forall_nil _)) as H2.
  destruct (radLoop (sh_name s) labels values []) as [m r]. cbn [fst] in H1, H2. destruct r; try (split; [exact A|split; [exact B|exact C]]).
  split; [|split; [exact B|exact C]]. apply (fluo_inv (with_rad s m) H1 H2).
Qed.

Lemma total_nontotal_div c m : Forall (fun kv => fst kv <> "TOTAL") m -> nontotal (map (fun kv => (fst kv, snd kv / c)) m) = map (fun kv => (fst kv, snd kv / c)) m.
Proof. intros H. apply nontotal_id. apply Forall_map. exact H. Qed.

Lemma Forall_mset (P : string * R -> Prop) k v m : P (k, v) -> Forall P m -> Forall P (mset sltb k v m).
Proof.
  intros Hp. induction 1 as [|[q w] m Hq H IH]; cbn; [repeat constructor; exact Hp|].
  destruct (sltb q k) eqn:E1; [constructor; assumption|]. destruct (sltb k q) eqn:E2; [constructor; [exact Hp|constructor; assumption]|].
  assert (q = k) by (apply (st_total (ltb:=sltb)); assumption). subst q. constructor; assumption.
Qed.

Lemma div_nonneg a b : 0 <= a -> 0 <= b -> 0 <= a / b.
Proof.
  intros Ha Hb. destruct (Req_dec b 0) as [->|Hn]; [unfold Rdiv; rewrite Rinv_0; lra|].
  apply Rmult_le_pos; [exact Ha|]. apply Rlt_le, Rinv_0_lt_compat. lra.
Qed.
Lemma div_le_1 a b : 0 <= a <= b -> a / b <= 1.
Proof.
  intros [Ha Hb]. destruct (Req_dec b 0) as [->|Hn]; [unfold Rdiv; rewrite Rinv_0; lra|].
  apply (Rmult_le_reg_r b); [lra|]. unfold Rdiv. rewrite Rmult_assoc, Rinv_l by exact Hn. lra.
Qed.

Lemma group_ratios_ok name d m : nonrad_ok m -> ratios_ok (group_table name d m).
Proof.
  intros (Hp & _ & Hl). assert (Hm : Forall (fun kv => 0 <= snd kv /\ (2 <= String.length (fst kv))%nat) (members name d m)).
  { apply Forall_filter, Forall_filter, Forall_filter. apply Forall_and; assumption. }
  split; [|split].
  - apply Forall_mset; [apply ck_rate_nonneg|]. apply Forall_map. eapply Forall_impl; [|exact Hm]. cbn. intros [k v] [H _].
    apply div_nonneg; [exact H|apply ck_rate_nonneg].
  - rewrite group_nontotal, total_scale. apply div_le_1. split; [|apply Rle_refl]. apply ck_rate_nonneg.
  - apply Forall_mset; [cbn; lia|]. apply Forall_map. eapply Forall_impl; [|exact Hm]. cbn. tauto.
Qed.

Lemma auger_ratios_ok name m : nonrad_ok m -> mfind sltb "TOTAL" m = Some (value_or_0 "TOTAL" m) ->
  ratios_ok (mset sltb "TOTAL" (value_or_0 "TOTAL" m - ck_rates name m)
    (map (fun kv => (fst kv, snd kv / (value_or_0 "TOTAL" m - ck_rates name m))) (augers name m))).
Proof.
  intros (Hp & Ht & Hl) ET. specialize (Ht _ ET). set (T := value_or_0 "TOTAL" m) in *.
  assert (Hm : Forall (fun kv => (0 <= snd kv /\ (2 <= String.length (fst kv))%nat) /\ fst kv <> "TOTAL") (augers name m)).
  { apply Forall_filter, Forall_filter. apply Forall_and.
    - apply Forall_filter, Forall_and; assumption.
    - apply Forall_forall. intros [k v] Hi. apply nontotal_In in Hi. apply Hi. }
  pose proof (augers_total' name m Hp) as Ha.
  assert (H0 : 0 <= total_of (augers name m)).
  { apply total_nonneg. eapply Forall_impl; [|exact Hm]. cbn. tauto. }
  assert (HT : 0 <= T - ck_rates name m) by lra.
  split; [|split].
  - apply Forall_mset; [exact HT|]. apply Forall_map. eapply Forall_impl; [|exact Hm]. cbn. intros kv H. apply div_nonneg; [apply H|exact HT].
  - rewrite nontotal_mset, total_nontotal_div, total_scale; [apply div_le_1; lra|]. eapply Forall_impl; [|exact Hm]. cbn. tauto.
  - apply Forall_mset; [cbn; lia|]. apply Forall_map. eapply Forall_impl; [|exact Hm]. cbn. tauto.
Qed.

Lemma nonrad_inv name (s : @shell RNum) m0 : has_id name s -> msorted sltb m0 ->
  nonrad_ok (sh_nonrad (updateNonradiativeRatios (with_nonrad s m0))) ->
  phys_inv name s -> phys_inv name (updateNonradiativeRatios (with_nonrad s m0)).
Proof.
  intros Hid Hm Hok (A & _ & _). destruct (nonrad_update name (with_nonrad s m0) Hid Hm) as (E1 & E2 & E3).
  change (sh_nonrad (with_nonrad s m0)) with m0 in E1, E2, E3. rewrite E1 in Hok.
  split; [exact A|]. split.
  - rewrite E3. apply auger_ratios_ok; [exact Hok|]. apply value_or_0_Some. rewrite nr_full_total. discriminate.
  - rewrite E2, ck_table_eq. split; [apply (msorted_map_val (fun g => group_table name (snd g) (nr_full m0))), ck_groups_sorted|].
    split; [unfold mkeys; rewrite map_map; apply incl_refl|].
    apply Forall_map, Forall_forall. intros g _. apply group_ratios_ok, Hok.
Qed.

Lemma physical_inv name s : physical name s -> phys_inv name s.
Proof.
  induction 1 as [s H|s o H IH Ho Hm].
  - rewrite shell_new_Ok in H by (eapply shell_new_name, H). injection H as <-. cbn. unfold phys_inv, ratios_ok. cbn.
    repeat split; try constructor; try (unfold total_of; cbn; lra). intros x [].
  - pose proof (physical_reachable _ _ H) as Hr. pose proof (reachable_id _ _ Hr) as Hid.
    pose proof (reachable_nonrad_sorted _ _ Hr) as Hs.
    destruct o; cbn [sh_step rad_nonneg] in *.
    + apply rad_vec_inv; assumption.
    + apply rad_vec_inv; [apply Forall_map; exact Ho|exact IH].
    + apply rad_vec_inv; [apply Forall_map; exact Ho|exact IH].
    + unfold setNonradiativeTransitions_vec in *. pose proof (nonradLoop_sorted labels values [] smsorted_nil) as Hl.
      destruct (nonradLoop labels values []) as [m' r]. cbn [fst] in Hl. destruct r; try exact IH. apply nonrad_inv; assumption.
    + unfold setNonradiativeTransitions_map, setNonradiativeTransitions_vec in *.
      pose proof (nonradLoop_sorted (map fst m) (map snd m) [] smsorted_nil) as Hl.
      destruct (nonradLoop (map fst m) (map snd m) []) as [m' r]. cbn [fst] in Hl. destruct r; try exact IH. apply nonrad_inv; assumption.
    + apply nonrad_inv; [exact Hid|apply smset_all_sorted, Hs|exact Hm|exact IH].
    + unfold setShellConstants. destruct (constLoop m (sh_const s)). exact IH.
Qed.

Lemma physical_wf name s : physical name s -> well_formed name s.
Proof.
  intros H. pose proof (physical_reachable _ _ H) as Hr. destruct (reachable_const _ _ Hr) as [K1 K2].
  destruct (physical_inv _ _ H) as (_ & (_ & _ & B) & C1 & C2 & C3).
  split; [apply reachable_id, Hr|]. split; [exact K1|]. split; [exact K2|]. split; [exact B|]. split; [|split; [exact C1|exact C2]].
  eapply Forall_impl; [|exact C3]. intros g (_ & _ & X). exact X.
Qed.

(** *** Bounds *)
Lemma vacancies_nonneg name d k : 0 <= vacancies_in name d k.
Proof. unfold vacancies_in. destruct (String.prefix _ _), (ends_withb _ _); lra. Qed.
Lemma vacancies_total name d : In name shell_names -> d <> "AL" -> String.length d = 2%nat -> vacancies_in name d "TOTAL" = 0.
Proof.
  intros Hn Hd L. unfold vacancies_in. rewrite prefix_total by exact Hn. destruct (ends_withb d "TOTAL") eqn:E; [|lra]. exfalso.
  apply ends_withb_spec in E. destruct E as [r E]. destruct d as [|a [|b [|c d]]]; try discriminate.
  destruct r as [|r1 [|r2 [|r3 [|r4 r]]]]; cbn in E; try discriminate E.
  - injection E; intros; subst. apply Hd. reflexivity.
  - apply (f_equal String.length) in E. cbn in E. rewrite str_app_length in E. cbn in E. lia.
Qed.
Lemma expected_nontotal name d m : In name shell_names -> d <> "AL" -> String.length d = 2%nat ->
  expected_vacancies name d m = expected_vacancies name d (nontotal m).
Proof.
  intros Hn Hd L. unfold expected_vacancies, nontotal. induction m as [|[k v] m IH]; [reflexivity|].
  cbn [map Rsum filter fst snd]. destruct (String.eqb_spec k "TOTAL") as [->|]; cbn [negb map Rsum fst snd]; rewrite IH; [|reflexivity].
  rewrite vacancies_total by assumption. lra.
Qed.
Lemma expected_nonneg name d m : Forall (fun kv => 0 <= snd kv) m -> 0 <= expected_vacancies name d m.
Proof.
  intros H. apply Rsum_map_nonneg. intros kv Hi. rewrite Forall_forall in H. apply Rmult_le_pos; [apply H, Hi|apply vacancies_nonneg].
Qed.

Lemma at_most_one {A} (f : A -> bool) (l : list A) : (forall a b, In a l -> In b l -> f a = true -> f b = true -> a = b) -> NoDup l ->
  Rsum (map (fun a => if f a then 1 else 0) l) <= 1.
Proof.
  intros H Hn. induction Hn as [|a l Ha Hn IH]; cbn; [lra|]. destruct (f a) eqn:E.
  - rewrite (Rsum_zero (fun a => if f a then 1 else 0)); [lra|]. intros b Hb. destruct (f b) eqn:E2; [|reflexivity]. exfalso. apply Ha.
    rewrite (H a b); [exact Hb|left; reflexivity|right; exact Hb|exact E|exact E2].
  - assert (Rsum (map (fun a0 => if f a0 then 1 else 0) l) <= 1) by (apply IH; intros; apply H; cbn; auto). lra.
Qed.
Lemma Rsum_swap {A B} (f : A -> B -> R) (la : list A) (lb : list B) :
  Rsum (map (fun a => Rsum (map (f a) lb)) la) = Rsum (map (fun b => Rsum (map (fun a => f a b) la)) lb).
Proof.
  induction la as [|a la IH]; cbn [map Rsum]; [symmetry; apply Rsum_zero; reflexivity|]. rewrite IH, <- Rsum_plus. reflexivity.
Qed.

Definition destinations (ds : list string) : Prop := NoDup ds /\ Forall (fun d => String.length d = 2%nat /\ d <> "AL") ds.

Lemma vacancies_sum name ds k : destinations ds -> Rsum (map (fun d => vacancies_in name d k) ds) <= 2.
Proof.
  intros [Hn Hl]. unfold vacancies_in. rewrite Rsum_plus. rewrite Forall_forall in Hl.
  assert (A : Rsum (map (fun d => if String.prefix (name ++ "-" ++ d) k then 1 else 0) ds) <= 1).
  { apply at_most_one; [|exact Hn]. intros a b Ha Hb E1 E2. apply prefix_spec in E1, E2.
    apply (ck_label_unique name a b k); [rewrite (proj1 (Hl a Ha)), (proj1 (Hl b Hb)); reflexivity|exact E1|exact E2]. }
  assert (B : Rsum (map (fun d => if ends_withb d k then 1 else 0) ds) <= 1).
  { apply at_most_one; [|exact Hn]. intros a b Ha Hb E1 E2. unfold ends_withb in E1, E2. apply prefix_spec in E1, E2.
    destruct E1 as [r1 E1], E2 as [r2 E2]. rewrite E1 in E2.
    apply str_app_inj_len in E2; [|rewrite !string_rev_length, (proj1 (Hl a Ha)), (proj1 (Hl b Hb)); reflexivity].
    unfold string_rev in E2. apply (f_equal list_ascii_of_string) in E2. rewrite !list_ascii_of_string_of_list_ascii in E2.
    apply (f_equal (@rev ascii)) in E2. rewrite !rev_involutive in E2. apply list_ascii_inj, E2. }
  lra.
Qed.

Lemma expected_sum name ds m : In name shell_names -> destinations ds -> ratios_ok m ->
  Rsum (map (fun d => expected_vacancies name d m) ds) <= 2.
Proof.
  intros Hn Hd (Hp & Ht & _). rewrite (Rsum_ext _ (fun d => expected_vacancies name d (nontotal m))).
  2:{ intros d Hi. destruct Hd as [_ Hd]. rewrite Forall_forall in Hd. destruct (Hd d Hi). apply expected_nontotal; assumption. }
  unfold expected_vacancies. rewrite Rsum_swap.
  apply Rle_trans with (Rsum (map (fun kv => 2 * snd kv) (nontotal m))).
  - apply Rsum_le. intros [k v] Hi. cbn [fst snd]. rewrite Rsum_mult_l. rewrite Rmult_comm.
    apply Rmult_le_compat_r; [|apply vacancies_sum, Hd]. apply nontotal_In in Hi. rewrite Forall_forall in Hp.
    apply (Hp (k, v)), Hi.
  - rewrite Rsum_mult_l. unfold total_of in Ht. lra.
Qed.

Lemma value_nonneg k m : Forall (fun kv => 0 <= snd kv) m -> msorted sltb m -> 0 <= value_or_0 k m.
Proof.
  intros H Hs. unfold value_or_0. destruct (mfind sltb k m) eqn:E; [|lra]. apply smfind_In in E; [|exact Hs].
  rewrite Forall_forall in H. apply (H _ E).
Qed.

Lemma fluo_dest_sum name ds m : NoDup ds -> msorted sltb m -> Forall (fun kv => 0 <= snd kv) m -> 
  Rsum (map (fun d => value_or_0 (name ++ d)%string m) ds) <= total_of m.
Proof.
  intros Hn Hs Hp. revert m Hs Hp. induction Hn as [|d ds Hd Hn IH]; intros m Hs Hp; cbn [map Rsum]; [apply total_nonneg, Hp|].
  set (k := (name ++ d)%string). set (m' := filter (fun kv => negb (String.eqb (fst kv) k)) m).
  assert (E : forall d', In d' ds -> value_or_0 (name ++ d')%string m = value_or_0 (name ++ d')%string m').
  { intros d' Hi. assert (Hk : (name ++ d')%string <> k) by (unfold k; intros X; apply str_app_inj_l in X; subst d'; contradiction).
    unfold value_or_0. assert (X : mfind sltb (name ++ d')%string m = mfind sltb (name ++ d')%string m'); [|rewrite X; reflexivity].
    assert (Hs' : msorted sltb m') by (apply msorted_filter, Hs).
    destruct (mfind sltb (name ++ d')%string m) as [v|] eqn:F.
    - apply smfind_In in F; [|exact Hs]. symmetry. apply smfind_In; [exact Hs'|]. apply filter_In. split; [exact F|]. cbn [fst].
      rewrite (proj2 (String.eqb_neq _ _) Hk). reflexivity.
    - symmetry. apply smfind_None in F; [|exact Hs]. apply smfind_None; [exact Hs'|]. intros Hi'. apply F.
      unfold mkeys in *. apply in_map_iff in Hi'. destruct Hi' as [x [X1 X2]]. apply filter_In in X2. apply in_map_iff. exists x. tauto. }
  rewrite (Rsum_ext _ (fun d' => value_or_0 (name ++ d')%string m') ds E).
  assert (IH' := IH m' (msorted_filter _ _ Hs) (Forall_filter _ _ _ Hp)).
  rewrite (total_filter_split (fun kv => String.eqb (fst kv) k) m). fold m'.
  assert (X : value_or_0 k m <= total_of (filter (fun kv => String.eqb (fst kv) k) m)).
  { unfold value_or_0. destruct (mfind sltb k m) as [v|] eqn:F; [|apply total_nonneg, Forall_filter, Hp].
    apply smfind_In in F; [|exact Hs]. apply (total_in_le k); [apply Forall_filter, Hp|]. apply filter_In. split; [exact F|]. apply String.eqb_refl. }
  lra.
Qed.

(** *** Main results *)
Lemma transfer_ok name (s : @shell RNum) d : physical name s -> String.length d = 2%nat ->
  total_of (getShellConstants s) <= 1 -> getDirectVacancyTransferRatios s d = Ok (transfer_table name s d).
Proof.
  intros H Hd Hc. rewrite (transfer_exact name) by (try apply physical_wf; assumption).
  destruct (Rltb (10001 / 10000) (total_of (sh_const s))) eqn:E; [|reflexivity]. apply Rltb_true in E.
  change (getShellConstants s) with (sh_const s) in Hc.
  assert (total_of (sh_const s) <= 1) by exact Hc. lra.
Qed.
Lemma transfer_domain_error name (s : @shell RNum) d : physical name s -> String.length d = 2%nat ->
  10001 / 10000 < total_of (getShellConstants s) -> getDirectVacancyTransferRatios s d = Throw DomainError.
Proof.
  intros H Hd Hc. rewrite (transfer_exact name) by (try apply physical_wf; assumption).
  destruct (Rltb (10001 / 10000) (total_of (sh_const s))) eqn:E; [reflexivity|]. apply Rltb_false in E.
  exfalso. apply E. exact Hc.
Qed.
Lemma transfer_bad_destination {N : Num} (s : shell) d : String.length d <> 2%nat -> getDirectVacancyTransferRatios s d = Throw InvalidArgument.
Proof. intros H. unfold getDirectVacancyTransferRatios. destruct (Nat.eqb_spec (String.length d) 2); [contradiction|reflexivity]. Qed.

Lemma transfer_nonneg name (s : @shell RNum) d : physical name s -> Forall (fun kv => 0 <= snd kv) (getShellConstants s) ->
  total_of (getShellConstants s) <= 1 -> Forall (fun kv => 0 <= snd kv) (transfer_table name s d).
Proof.
  intros H Hc Hs. destruct (physical_inv _ _ H) as ((F1 & F2 & F3) & (A1 & A2 & A3) & C1 & C2 & C3).
  destruct (reachable_const _ _ (physical_reachable _ _ H)) as [_ K2].
  assert (Hc' : forall k, 0 <= value_or_0 k (sh_const s)) by (intros k; apply value_nonneg; [exact Hc|exact K2]).
  unfold transfer_table. rewrite !Forall_app. split; [|split].
  - constructor; [|constructor]. cbn [snd]. apply Rmult_le_pos; [apply expected_nonneg, A1|].
    assert (total_of (sh_const s) <= 1) by exact Hs. lra.
  - apply Forall_map. eapply Forall_impl; [|exact C3]. cbn. intros g (G1 & _). apply Rmult_le_pos; [apply expected_nonneg, G1|apply Hc'].
  - constructor; [|constructor]. cbn [snd]. apply Rmult_le_pos; [apply value_nonneg; assumption|apply Hc'].
Qed.

Lemma transfer_lookup_auger name (s : @shell RNum) d : value_or_0 "auger" (transfer_table name s d) = expected_vacancies name d (sh_auger s) * (1 - total_of (sh_const s)).
Proof. reflexivity. Qed.

Lemma transfer_table_sorted name (s : @shell RNum) d : physical name s -> msorted sltb (transfer_table name s d).
Proof.
  intros H. destruct (physical_inv _ _ H) as (_ & _ & C1 & C2 & C3). apply three_way_sorted.
  - apply (msorted_map_val (fun g => expected_vacancies name d (snd g) * value_or_0 (fst g) (sh_const s))), C1.
  - apply Forall_map, Forall_forall. intros g Hg. cbn [fst].
    destruct (ck_groups_names name (fst g)) as (A & B & _); [apply C2, in_map, Hg|auto].
Qed.
Lemma value_of_In k v m : msorted sltb m -> In (k, v) m -> value_or_0 k m = v.
Proof. intros Hs Hi. apply smfind_In in Hi; [|exact Hs]. unfold value_or_0. rewrite Hi. reflexivity. Qed.

Lemma transfer_lookup_fluo name (s : @shell RNum) d : physical name s ->
  value_or_0 "fluorescence" (transfer_table name s d) = value_or_0 (name ++ d)%string (sh_fluo s) * value_or_0 "omega" (sh_const s).
Proof.
  intros H. apply value_of_In; [apply transfer_table_sorted, H|]. unfold transfer_table. apply in_or_app. right. apply in_or_app. right. now left.
Qed.
Lemma transfer_lookup_ck name (s : @shell RNum) d f t : physical name s -> In (f, t) (sh_ck s) ->
  value_or_0 f (transfer_table name s d) = expected_vacancies name d t * value_or_0 f (sh_const s).
Proof.
  intros H Hi. apply value_of_In; [apply transfer_table_sorted, H|]. unfold transfer_table. apply in_or_app. right. apply in_or_app. left.
  apply in_map_iff. exists (f, t). auto.
Qed.

Lemma transfer_conservation name (s : @shell RNum) ds outs : physical name s -> destinations ds ->
  Forall (fun kv => 0 <= snd kv) (getShellConstants s) -> total_of (getShellConstants s) <= 1 ->
  rmapM (getDirectVacancyTransferRatios s) ds = Ok outs ->
  Rsum (map (value_or_0 "fluorescence") outs) <= value_or_0 "omega" (getShellConstants s) /\
  Rsum (map (value_or_0 "auger") outs) <= 2 * (1 - total_of (getShellConstants s)) /\
  (forall f d, In (f, d) (ck_groups name) -> Rsum (map (value_or_0 f) outs) <= 2 * value_or_0 f (getShellConstants s)).
Proof.
  intros H Hd Hc Hs E. destruct (physical_inv _ _ H) as ((F1 & F2 & F3) & A & C1 & C2 & C3).
  pose proof (reachable_id _ _ (physical_reachable _ _ H)) as (Hn & _).
  destruct (reachable_const _ _ (physical_reachable _ _ H)) as [_ K2].
  assert (Hc' : forall k, 0 <= value_or_0 k (sh_const s)) by (intros k; apply value_nonneg; [exact Hc|exact K2]).
  assert (Hs' : total_of (sh_const s) <= 1) by exact Hs.
  rewrite (rmapM_Ok _ (transfer_table name s)) in E.
  2:{ intros d Hi. apply transfer_ok; [exact H| |exact Hs]. destruct Hd as [_ Hd]. rewrite Forall_forall in Hd. apply Hd, Hi. }
  injection E as <-. change (getShellConstants s) with (sh_const s). split; [|split].
  - rewrite map_map. rewrite (Rsum_ext _ (fun d => value_or_0 "omega" (sh_const s) * value_or_0 (name ++ d)%string (sh_fluo s))).
    2:{ intros d _. rewrite transfer_lookup_fluo by exact H. apply Rmult_comm. }
    rewrite Rsum_mult_l. rewrite <- (Rmult_1_r (value_or_0 "omega" (sh_const s))) at 2. apply Rmult_le_compat_l; [apply Hc'|].
    eapply Rle_trans; [apply fluo_dest_sum; [apply Hd|exact F1|exact F2]|exact F3].
  - rewrite map_map. rewrite (Rsum_ext _ (fun d => (1 - total_of (sh_const s)) * expected_vacancies name d (sh_auger s))).
    2:{ intros d _. rewrite transfer_lookup_auger. apply Rmult_comm. }
    rewrite Rsum_mult_l. rewrite (Rmult_comm 2). apply Rmult_le_compat_l; [lra|]. apply expected_sum; assumption.
  - intros f d0 Hf. rewrite map_map. destruct (mfind sltb f (sh_ck s)) as [t|] eqn:E.
    + apply smfind_In in E; [|exact C1].
      rewrite (Rsum_ext _ (fun d => value_or_0 f (sh_const s) * expected_vacancies name d t)).
      2:{ intros d _. rewrite (transfer_lookup_ck name s d f t H E). apply Rmult_comm. }
      rewrite Rsum_mult_l, (Rmult_comm 2). apply Rmult_le_compat_l; [apply Hc'|]. apply expected_sum; [exact Hn|exact Hd|].
      rewrite Forall_forall in C3. apply (C3 _ E).
    + apply smfind_None in E; [|exact C1]. rewrite (Rsum_zero (fun d => value_or_0 f (transfer_table name s d))).
      * specialize (Hc' f). lra.
      * intros d _. unfold value_or_0. assert (X : mfind sltb f (transfer_table name s d) = None); [|rewrite X; reflexivity].
        apply smfind_None; [apply transfer_table_sorted, H|]. unfold transfer_table, mkeys. rewrite !map_app, !in_app_iff. cbn.
        destruct (ck_groups_names name f) as (_ & _ & N1 & N2); [apply in_map_iff; exists (f, d0); auto|].
        intros [[X|[]]|[X|[X|[]]]]; [congruence| |congruence]. rewrite map_map in X. cbn in X. apply E. exact X.
Qed.
