(** Shell over the reals: C16, C18, C19. *)
From Coq Require Import Ascii String List Bool Arith ZArith Reals Lra Lia Sorted Permutation.
From Verif Require Import Base.Num Base.Res Base.RSum Base.SMap Base.ListLemmas Base.Str Model.Shell Spec.ShellSpec Proofs.ShellProofs.
Import ListNotations.
Local Open Scope string_scope.
Local Open Scope R_scope.
Local Existing Instance RNum.

Implicit Types m : list (string * R).

Lemma total_filter_split (f : string * R -> bool) m :
  total_of m = total_of (filter f m) + total_of (filter (fun x => negb (f x)) m).
Proof. unfold total_of. induction m as [|x m IH]; cbn; [lra|]. destruct (f x); cbn; lra. Qed.
Lemma total_nonneg m : Forall (fun kv => 0 <= snd kv) m -> 0 <= total_of m.
Proof. intros H. apply Rsum_nonneg. apply Forall_map. exact H. Qed.
Lemma total_positive m : Forall (fun kv => 0 <= snd kv) m -> total_of (positive_rates m) = total_of m.
Proof.
  unfold total_of, positive_rates. induction 1 as [|x m Hx H IH]; cbn; [lra|].
  destruct (Rltb 0 (snd x)) eqn:E; cbn; [lra|]. apply Rltb_false in E. lra.
Qed.
Lemma total_scale c m : total_of (map (fun kv => (fst kv, snd kv / c)) m) = total_of m / c.
Proof. unfold total_of. rewrite map_map. cbn. rewrite <- Rsum_div, map_map. reflexivity. Qed.
Lemma Forall_filter {A} (P : A -> Prop) f l : Forall P l -> Forall P (filter f l).
Proof. rewrite !Forall_forall. intros H x Hx. apply filter_In in Hx. apply H, Hx. Qed.
Lemma positive_rates_pos m : Forall (fun kv => 0 < snd kv) (positive_rates m).
Proof. apply Forall_forall. intros x Hx. apply filter_In in Hx. apply Rltb_true, Hx. Qed.
Lemma total_pos m : m <> [] -> Forall (fun kv => 0 < snd kv) m -> 0 < total_of m.
Proof. intros Hn H. apply Rsum_pos; [destruct m; cbn; congruence|apply Forall_map; exact H]. Qed.
Lemma total_in_le k v m : Forall (fun kv => 0 <= snd kv) m -> In (k, v) m -> v <= total_of m.
Proof.
  intros H Hi. apply Rsum_in_le; [apply Forall_map; exact H|]. apply in_map_iff. exists (k, v). auto.
Qed.

(** ** C16 *)
Lemma updateFluo_R (s : shell) : msorted sltb (sh_rad s) ->
  sh_fluo (updateFluorescenceRatios s) =
  map (fun kv => (fst kv, snd kv / total_of (nontotal (sh_rad s)))) (positive_rates (nontotal (sh_rad s))).
Proof.
  intros Hs. rewrite updateFluo_exact by exact Hs. unfold total_of.
  rewrite (nsum_R (map snd (nontotal (sh_rad s)))). reflexivity.
Qed.

Lemma mset_all_values (P : R -> Prop) (l m : list (string * R)) :
  Forall (fun kv => P (snd kv)) l -> Forall (fun kv => P (snd kv)) m -> Forall (fun kv => P (snd kv)) (mset_all sltb l m).
Proof.
  revert m. induction l as [|[k v] l IH]; intros m Hl Hm; cbn; [exact Hm|]. inversion Hl; subst. apply IH; [assumption|].
  clear IH. induction m as [|[q w] m IHm]; cbn; [constructor; [assumption|constructor]|].
  inversion Hm; subst. destruct (sltb q k); [constructor; [assumption|apply IHm; assumption]|].
  destruct (sltb k q); constructor; auto.
Qed.

Lemma fluo_facts (s : shell) : msorted sltb (sh_rad s) -> Forall (fun kv => 0 <= snd kv) (sh_rad s) ->
  let fl := sh_fluo (updateFluorescenceRatios s) in
  let T := total_of (nontotal (sh_rad s)) in
  (forall k v, In (k, v) fl <-> exists r, In (k, r) (sh_rad s) /\ k <> "TOTAL" /\ 0 < r /\ v = r / T) /\
  (0 < T -> total_of fl = 1) /\
  (forall k v, In (k, v) fl -> 0 < v <= 1).
Proof.
  intros Hs Hp fl T. unfold fl. rewrite updateFluo_R by exact Hs. fold T.
  assert (Hp' : Forall (fun kv => 0 <= snd kv) (nontotal (sh_rad s))) by (apply Forall_filter, Hp).
  assert (Hpp : total_of (positive_rates (nontotal (sh_rad s))) = T) by (apply total_positive, Hp').
  assert (I : forall k v, In (k, v) (map (fun kv => (fst kv, snd kv / T)) (positive_rates (nontotal (sh_rad s)))) <->
    exists r, In (k, r) (sh_rad s) /\ k <> "TOTAL" /\ 0 < r /\ v = r / T).
  { intros k v. rewrite in_map_iff. split.
    - intros [[k' r] [E Hi]]. cbn in E. injection E as -> <-. apply filter_In in Hi. destruct Hi as [Hi Hr].
      apply nontotal_In in Hi. exists r. cbn in Hr. apply Rltb_true in Hr. tauto.
    - intros (r & Hi & Hk & Hr & ->). exists (k, r). split; [reflexivity|]. apply filter_In. split; [apply nontotal_In; auto|].
      apply Rltb_true, Hr. }
  split; [exact I|]. split.
  - intros HT. rewrite total_scale, Hpp. field. lra.
  - intros k v Hi. apply I in Hi. destruct Hi as (r & Hi & Hk & Hr & ->).
    assert (r <= T) by (eapply total_in_le; [exact Hp'|apply nontotal_In; split; [exact Hi|exact Hk]]).
    split; [apply Rdiv_lt_0_compat; lra|]. apply (Rmult_le_reg_r T); [lra|]. unfold Rdiv. rewrite Rmult_assoc, Rinv_l by lra. lra.
Qed.

Lemma setRad_nonneg_table name (s : shell) labels (values : list R) s' : reachable name s -> length labels = length values ->
  Forall (fun v => 0 <= v) values -> setRadiativeTransitions_vec s labels values = (s', Ok tt) ->
  exists s1, s' = updateFluorescenceRatios s1 /\ sh_rad s' = sh_rad s1 /\ msorted sltb (sh_rad s1) /\ Forall (fun kv => 0 <= snd kv) (sh_rad s1).
Proof.
  intros H Hl Hv E. assert (F : Forall (acceptable name) labels).
  { apply (proj1 (setRad_accept name s labels values H Hl)). rewrite E. reflexivity. }
  rewrite (setRad_effect name) in E by assumption. injection E as <-. eexists. split; [reflexivity|]. split; [reflexivity|].
  split; [apply smset_all_sorted, smsorted_nil|]. cbn. apply mset_all_values; [|constructor].
  apply Forall_forall. intros [k v] Hi. apply in_combine_r in Hi. rewrite Forall_forall in Hv. apply Hv, Hi.
Qed.

Lemma C16_main name (s : shell) labels (values : list R) s' : reachable name s -> length labels = length values ->
  Forall (fun v => 0 <= v) values -> setRadiativeTransitions_vec s labels values = (s', Ok tt) ->
  let T := total_of (nontotal (getRadiativeTransitions s')) in
  (forall k v, In (k, v) (getFluorescenceRatios s') <->
     exists r, In (k, r) (getRadiativeTransitions s') /\ k <> "TOTAL" /\ 0 < r /\ v = r / T) /\
  (0 < T -> total_of (getFluorescenceRatios s') = 1) /\
  (forall k v, In (k, v) (getFluorescenceRatios s') -> 0 < v <= 1).
Proof.
  intros H Hl Hv E. destruct (setRad_nonneg_table name s labels values s' H Hl Hv E) as (s1 & -> & E1 & Hs & Hp).
  exact (fluo_facts s1 Hs Hp).
Qed.

Lemma nontotal_fluo_only (s1 s2 : @shell RNum) : msorted sltb (sh_rad s1) -> msorted sltb (sh_rad s2) ->
  nontotal (sh_rad s1) = nontotal (sh_rad s2) ->
  sh_fluo (updateFluorescenceRatios s1) = sh_fluo (updateFluorescenceRatios s2).
Proof. intros H1 H2 E. rewrite !updateFluo_R by assumption. rewrite E. reflexivity. Qed.

Lemma C16_total_ignored name (s : shell) labels (values labels' values' : list _) s1 s2 : reachable name s ->
  length labels = length values -> length labels' = length values' ->
  setRadiativeTransitions_vec s labels values = (s1, Ok tt) ->
  setRadiativeTransitions_vec s labels' values' = (s2, Ok tt) ->
  nontotal (getRadiativeTransitions s1) = nontotal (getRadiativeTransitions s2) ->
  getFluorescenceRatios s1 = getFluorescenceRatios s2.
Proof.
  intros H L1 L2 E1 E2 E.
  assert (F1 : Forall (acceptable name) labels) by (apply (proj1 (setRad_accept name s labels values H L1)); rewrite E1; reflexivity).
  assert (F2 : Forall (acceptable name) labels') by (apply (proj1 (setRad_accept name s labels' values' H L2)); rewrite E2; reflexivity).
  rewrite (setRad_effect name) in E1 by assumption. rewrite (setRad_effect name) in E2 by assumption.
  injection E1 as <-. injection E2 as <-.
  apply nontotal_fluo_only; [apply smset_all_sorted, smsorted_nil|apply smset_all_sorted, smsorted_nil|exact E].
Qed.

(** ** C18 *)
Lemma prefix_total name d : In name shell_names -> String.prefix (name ++ "-" ++ d) "TOTAL" = false.
Proof. unfold shell_names; cbn [In]; intros H. repeat (destruct H as [<-|H]; [reflexivity|]). contradiction. Qed.

Definition members (name d : string) m : list (string * R) :=
  filter (fun kv => String.prefix (name ++ "-" ++ d) (fst kv)) (positive_rates (nontotal m)).

Lemma members_eq name d m : In name shell_names ->
  filter (fun kv => Rltb 0 (snd kv) && String.prefix (name ++ "-" ++ d) (fst kv)) m = members name d m.
Proof.
  intros Hn. unfold members, positive_rates, nontotal. rewrite !filter_filter. apply filter_ext. intros [k v]. cbn [fst snd].
  destruct (String.eqb_spec k "TOTAL") as [->|]; cbn [negb andb]; [|reflexivity].
  rewrite prefix_total by exact Hn. apply andb_false_r.
Qed.

Definition group_table (name d : string) m : list (string * R) :=
  mset sltb "TOTAL" (ck_rate name d m) (map (fun kv => (fst kv, snd kv / ck_rate name d m)) (members name d m)).

Lemma members_pos name d m : Forall (fun kv => 0 < snd kv) (members name d m).
Proof. apply Forall_filter, positive_rates_pos. Qed.
Lemma ck_rate_nonneg name d m : 0 <= ck_rate name d m.
Proof. apply total_nonneg. eapply Forall_impl; [|apply members_pos]. cbn. intros; lra. Qed.
Lemma members_nil name d m : ck_rate name d m <= 0 -> members name d m = [].
Proof.
  intros H. destruct (members name d m) as [|x l] eqn:E; [reflexivity|]. exfalso.
  assert (0 < total_of (members name d m)) by (apply total_pos; [congruence|apply members_pos]).
  unfold ck_rate in H. fold (members name d m) in H. lra.
Qed.

Lemma members_sorted name d m : msorted sltb m -> msorted sltb (members name d m).
Proof. intros H. apply msorted_filter, msorted_filter, msorted_filter, H. Qed.

Lemma ckGroup_eq name d i m : In name shell_names -> msorted sltb m -> ckPrefix name i = (name ++ "-" ++ d)%string ->
  ckGroup name m i = (group_table name d m, ck_rate name d m).
Proof.
  intros Hn Hs Hp.
  assert (E0 : ckGroup name m i =
    (let mem := filter (fun kv : string * R => (Rltb 0 (snd kv) && String.prefix (ckPrefix name i) (fst kv))%bool) m in
     let t : R := Rsum (map snd mem) in
     let g := mset_all sltb mem [] in
     (mset sltb "TOTAL" t (if Rltb 0 t then map (fun kv => (fst kv, snd kv / t)) g else g), t))).
  { cbv zeta. rewrite <- nsum_R. reflexivity. }
  rewrite E0, Hp. cbv zeta. rewrite members_eq by exact Hn.
  change (Rsum (map snd (members name d m))) with (ck_rate name d m).
  rewrite mset_all_id by (apply members_sorted, Hs). f_equal. unfold group_table. f_equal.
  destruct (Rltb 0 (ck_rate name d m)) eqn:E; [reflexivity|].
  apply Rltb_false in E. rewrite members_nil by lra. reflexivity.
Qed.

Definition ck_table (name : string) m : list (string * list (string * R)) :=
  mset_all sltb (map (fun g => (fst g, group_table name (snd g) m)) (ck_groups name)) [].

Lemma ck_groups_sorted name : msorted sltb (ck_groups name).
Proof.
  unfold ck_groups. repeat match goal with |- context [if ?b then _ else _] => destruct b end;
    unfold msorted, mkeys, klt; cbn; repeat constructor.
Qed.
Lemma ck_table_eq name m : ck_table name m = map (fun g => (fst g, group_table name (snd g) m)) (ck_groups name).
Proof.
  apply mset_all_id. apply (msorted_map_val (fun g => group_table name (snd g) m)). apply ck_groups_sorted.
Qed.

Definition is_ck (name k : string) : bool := existsb (fun g => String.prefix (name ++ "-" ++ snd g) k) (ck_groups name).
Definition augers (name : string) m : list (string * R) :=
  filter (fun kv => negb (is_ck name (fst kv))) (positive_rates (nontotal m)).

Definition nr_full m : list (string * R) :=
  match mfind sltb "TOTAL" m with Some _ => m | None => mset sltb "TOTAL" (total_of (nontotal m)) m end.

Lemma nr_full_sorted m : msorted sltb m -> msorted sltb (nr_full m).
Proof. intros H. unfold nr_full. destruct (mfind _ _ m); [exact H|apply smset_sorted, H]. Qed.
Lemma nr_full_nontotal m : nontotal (nr_full m) = nontotal m.
Proof. unfold nr_full. destruct (mfind _ _ m); [reflexivity|apply nontotal_mset]. Qed.
Lemma nr_full_total m : mfind sltb "TOTAL" (nr_full m) =
  Some (match mfind sltb "TOTAL" m with Some t => t | None => total_of (nontotal m) end).
Proof. unfold nr_full. destruct (mfind sltb "TOTAL" m) eqn:E; [exact E|apply smfind_mset_same]. Qed.

Lemma nr_full_none m : mfind sltb "TOTAL" m = None -> mfind sltb "TOTAL" (nr_full m) = Some (total_of (nontotal (nr_full m))).
Proof. intros H. rewrite nr_full_total, nr_full_nontotal, H. reflexivity. Qed.

Lemma group_table_sorted name d m : msorted sltb m -> msorted sltb (group_table name d m).
Proof. intros H. apply smset_sorted. apply (msorted_map_val (fun kv => snd kv / ck_rate name d m)). apply members_sorted, H. Qed.

Lemma group_nontotal name d m : nontotal (group_table name d m) = map (fun kv => (fst kv, snd kv / ck_rate name d m)) (members name d m).
Proof.
  unfold group_table. rewrite nontotal_mset. apply nontotal_id. apply Forall_map. cbn. apply Forall_filter, Forall_filter.
  apply Forall_forall. intros [k v] Hi. apply nontotal_In in Hi. apply Hi.
Qed.

Lemma group_mem name d m k r : In name shell_names -> msorted sltb m -> In (k, r) (positive_rates (nontotal m)) ->
  mmem sltb k (group_table name d m) = String.prefix (name ++ "-" ++ d) k.
Proof.
  intros Hn Hs Hi. pose proof (group_table_sorted name d m Hs) as Hg.
  assert (Hk : k <> "TOTAL") by (apply filter_In in Hi; destruct Hi as [Hi _]; apply nontotal_In in Hi; apply Hi).
  unfold mmem. destruct (mfind sltb k (group_table name d m)) as [v|] eqn:E.
  - apply smfind_In in E; [|exact Hg]. assert (E' : In (k, v) (nontotal (group_table name d m))) by (apply nontotal_In; auto).
    rewrite group_nontotal in E'. apply in_map_iff in E'. destruct E' as [[k' r'] [E1 E2]]. cbn in E1. injection E1 as -> _.
    apply filter_In in E2. symmetry. apply E2.
  - apply smfind_None in E; [|exact Hg]. destruct (String.prefix _ k) eqn:P; [|reflexivity]. exfalso. apply E.
    apply in_map_iff. exists (k, r / ck_rate name d m). split; [reflexivity|].
    assert (X : In (k, r / ck_rate name d m) (nontotal (group_table name d m))).
    { rewrite group_nontotal. apply in_map_iff. exists (k, r). split; [reflexivity|]. apply filter_In. split; [exact Hi|exact P]. }
    apply nontotal_In in X. apply X.
Qed.

Lemma ck_rates_ge name m k r : In (k, r) (positive_rates (nontotal m)) -> is_ck name k = true -> 0 < ck_rates name m.
Proof.
  intros Hi Hc. unfold is_ck in Hc. apply existsb_exists in Hc. destruct Hc as [g [Hg Hp]].
  assert (Hr : 0 < r) by (apply filter_In in Hi; destruct Hi as [_ Hi]; apply Rltb_true in Hi; exact Hi).
  assert (X : r <= ck_rate name (snd g) m).
  { eapply total_in_le; [eapply Forall_impl; [|apply members_pos]; cbn; intros; lra|].
    apply filter_In. split; [exact Hi|exact Hp]. }
  assert (Y : ck_rate name (snd g) m <= ck_rates name m).
  { apply Rsum_in_le; [apply Forall_map, Forall_forall; intros; apply ck_rate_nonneg|].
    apply in_map_iff. exists g. auto. }
  lra.
Qed.

Lemma isCK_eq name m k r : In name shell_names -> msorted sltb m -> In (k, r) (positive_rates (nontotal m)) ->
  Rltb 0 (ck_rates name m) && existsb (fun g => mmem sltb k (snd g)) (ck_table name m) = is_ck name k.
Proof.
  intros Hn Hs Hi. assert (E : existsb (fun g => mmem sltb k (snd g)) (ck_table name m) = is_ck name k).
  { rewrite ck_table_eq. unfold is_ck. generalize (ck_groups name) as l. induction l as [|g l IH]; cbn; [reflexivity|].
    rewrite (group_mem name (snd g) m k r Hn Hs Hi), IH. reflexivity. }
  rewrite E. destruct (is_ck name k) eqn:C; [|apply andb_false_r]. rewrite andb_true_r. apply Rltb_true.
  eapply ck_rates_ge; [exact Hi|exact C].
Qed.

Lemma nr_full_model m : (if mmem sltb "TOTAL" m then m else mset sltb "TOTAL" (@nsum RNum (map snd (nontotal m))) m) = nr_full m.
Proof.
  unfold nr_full, mmem. destruct (mfind sltb "TOTAL" m); [reflexivity|]. rewrite nsum_R. reflexivity.
Qed.

Lemma nonrad_update name (s : @shell RNum) : has_id name s -> msorted sltb (sh_nonrad s) ->
  let u := updateNonradiativeRatios s in
  let m := nr_full (sh_nonrad s) in
  sh_nonrad u = m /\ sh_ck u = ck_table name m /\
  sh_auger u = mset sltb "TOTAL" (value_or_0 "TOTAL" m - ck_rates name m)
    (map (fun kv => (fst kv, snd kv / (value_or_0 "TOTAL" m - ck_rates name m))) (augers name m)).
Proof.
  intros Hr Hs u m. destruct Hr as (Hn & E1 & Hr2). pose proof (conj Hn (conj E1 Hr2)) as Hr.
  assert (Em : (if mmem sltb totalLabel (sh_nonrad s) then sh_nonrad s
      else mset sltb totalLabel (nsum (map snd (filter not_total (sh_nonrad s)))) (sh_nonrad s)) = m).
  { exact (nr_full_model (sh_nonrad s)). }
  assert (Hm : msorted sltb m) by (apply nr_full_sorted, Hs).
  assert (Eg : map (fun i => (fij (sh_name s) i, ckGroup (sh_name s) m i)) (ckIndices s) =
               map (fun g => (fst g, (group_table name (snd g) m, ck_rate name (snd g) m))) (ck_groups name)).
  { rewrite E1. pose proof (ckIndices_spec _ _ Hr) as K. revert K. generalize (ckIndices s) as l, (ck_groups name) as g.
    induction l as [|i l IH]; intros [|[f d] g] K; cbn [map] in K; try discriminate; [reflexivity|].
    pose proof (f_equal (fun l => fst (hd ("","") l)) K) as K1; pose proof (f_equal (fun l => snd (hd ("","") l)) K) as K2; pose proof (f_equal (@tl _) K) as K3; cbn [hd tl fst snd] in K1, K2, K3. cbn [map]. f_equal; [|apply IH, K3]. rewrite K1. cbn [fst snd]. f_equal.
    apply ckGroup_eq; [exact Hn|exact Hm|exact K2]. }
  unfold u, updateNonradiativeRatios. rewrite Em, Eg. cbn [sh_nonrad sh_ck sh_auger].
  rewrite !map_map. cbn [fst snd].
  change (mset_all sltb (map (fun x => (fst x, group_table name (snd x) m)) (ck_groups name)) []) with (ck_table name m).
  assert (En : @nsum RNum (map (fun x => ck_rate name (snd x) m) (ck_groups name)) = ck_rates name m) by apply nsum_R.
  match goal with |- context [@nsum ?N ?l] => replace (@nsum N l) with (ck_rates name m) by (symmetry; exact En) end. clear En.
  split; [reflexivity|]. split; [reflexivity|].
  change (match mfind sltb totalLabel m with Some t => t | None => n0 end) with (value_or_0 "TOTAL" m).
  unfold totalLabel. f_equal.
  assert (Ef : filter (fun kv : string * R => (Rltb 0 (snd kv) && negb (Rltb 0 (ck_rates name m) &&
      existsb (fun g => mmem sltb (fst kv) (snd g)) (ck_table name m)) && not_total kv)%bool) m = augers name m).
  { unfold augers. unfold positive_rates at 1. unfold nontotal at 1. rewrite !filter_filter.
    apply filter_ext_in. intros [k v] Hi. unfold not_total, totalLabel. cbn [fst snd].
    destruct (String.eqb_spec k "TOTAL") as [Hk|Hk]; cbn [negb andb]; [rewrite andb_false_r; reflexivity|].
    rewrite andb_true_r. destruct (Rltb 0 v) eqn:Ev; [|reflexivity]. cbn [andb]. f_equal.
    apply (isCK_eq name m k v Hn Hm). apply filter_In. split; [apply nontotal_In; auto|exact Ev]. }
  etransitivity; [|apply mset_all_id].
  - f_equal. etransitivity; [|rewrite <- Ef; reflexivity]. reflexivity.
  - apply (msorted_map_val (fun kv => snd kv / (value_or_0 "TOTAL" m - ck_rates name m))).
    apply msorted_filter, msorted_filter, msorted_filter, Hm.
Qed.

(** *** what a successful non-radiative call leaves *)
Definition is_nonrad {N : Num} (o : sh_op) : Prop :=
  match o with SNonVec _ _ | SNonMap _ | SNonArr _ => True | _ => False end.

Lemma nonradLoop_sorted {N : Num} labels values (m : list (string * num)) :
  msorted sltb m -> msorted sltb (fst (nonradLoop labels values m)).
Proof.
  revert values m. induction labels as [|l labels IH]; intros values m H; cbn; [exact H|].
  destruct values as [|v values]; [exact H|]. apply IH, smset_sorted, H.
Qed.
Lemma update_nonrad_sorted {N : Num} (s : shell) : msorted sltb (sh_nonrad s) -> msorted sltb (sh_nonrad (updateNonradiativeRatios s)).
Proof. intros H. cbn. destruct (mmem _ _ _); [exact H|apply smset_sorted, H]. Qed.

Lemma step_nonrad {N : Num} (s : shell) o : msorted sltb (sh_nonrad s) ->
  msorted sltb (sh_nonrad (fst (sh_step s o))) /\
  (is_nonrad o -> snd (sh_step s o) = Ok tt ->
   exists m : list (string * num), msorted sltb m /\ fst (sh_step s o) = updateNonradiativeRatios (with_nonrad s m)).
Proof.
  intros Hs. destruct o; cbn [sh_step is_nonrad].
  1-3: split; [|contradiction];
    unfold setRadiativeTransitions_arr, setRadiativeTransitions_map, setRadiativeTransitions_vec;
    match goal with |- context [radLoop ?a ?b ?c ?d] => destruct (radLoop a b c d) as [m' [| | |]] end; exact Hs.
  1-2: unfold setNonradiativeTransitions_map, setNonradiativeTransitions_vec;
    match goal with |- context [nonradLoop ?a ?b ?c] => pose proof (nonradLoop_sorted a b c (smsorted_nil)) as Hl;
      destruct (nonradLoop a b c) as [m' r] end; cbn [fst] in Hl;
    (split; [destruct r; try exact Hl; apply (update_nonrad_sorted (with_nonrad s m')); exact Hl|]);
    intros _ E; destruct r as [[]| | |]; cbn in E; try discriminate; exists m'; (split; [exact Hl|reflexivity]).
  - assert (K : msorted sltb (mset_all sltb (map (fun kv => (toUpperCaseString (fst kv), snd kv)) l) (sh_nonrad s)))
      by (apply smset_all_sorted, Hs).
    split; [apply (update_nonrad_sorted (with_nonrad s _)); exact K|]. intros _ _. eexists. split; [exact K|reflexivity].
  - split; [|contradiction]. unfold setShellConstants. destruct (constLoop m (sh_const s)). exact Hs.
Qed.

Lemma reachable_step {N : Num} name (s : shell) o : reachable name s -> reachable name (fst (sh_step s o)).
Proof.
  intros (s0 & ops & H & ->). exists s0, (ops ++ [o])%list. split; [exact H|]. unfold sh_run. rewrite fold_left_app. reflexivity.
Qed.
Lemma reachable_ind' {N : Num} name (P : shell -> Prop) :
  (forall s, shell_new name = Ok s -> P s) -> (forall s o, reachable name s -> P s -> P (fst (sh_step s o))) ->
  forall s, reachable name s -> P s.
Proof.
  intros H0 H1 s (s0 & ops & H & ->). induction ops as [|o ops IH] using rev_ind; [apply H0, H|].
  unfold sh_run in *. rewrite fold_left_app. cbn. apply H1; [exists s0, ops; auto|exact IH].
Qed.
Lemma reachable_nonrad_sorted {N : Num} name (s : shell) : reachable name s -> msorted sltb (sh_nonrad s).
Proof.
  revert s. apply reachable_ind'.
  - intros s H. rewrite shell_new_Ok in H by (eapply shell_new_name, H). injection H as <-. apply smsorted_nil.
  - intros s o _ H. apply step_nonrad, H.
Qed.

Lemma group_table_spec name d m k v : In name shell_names -> k <> "TOTAL" ->
  (In (k, v) (group_table name d m) <->
   exists r, In (k, r) m /\ 0 < r /\ ck_label name d k /\ v = r / ck_rate name d m).
Proof.
  intros Hn Hk. assert (E : In (k, v) (group_table name d m) <-> In (k, v) (nontotal (group_table name d m))).
  { rewrite nontotal_In. tauto. }
  rewrite E, group_nontotal, in_map_iff. unfold ck_label, begins_with. split.
  - intros [[k' r] [E1 E2]]. cbn in E1. injection E1 as -> <-. apply filter_In in E2. destruct E2 as [E2 E3].
    apply filter_In in E2. destruct E2 as [E2 E4]. apply nontotal_In in E2. cbn [fst snd] in *. apply Rltb_true in E4.
    apply prefix_spec in E3. exists r. tauto.
  - intros (r & Hi & Hr & Hp & ->). exists (k, r). split; [reflexivity|]. apply filter_In. split; [|apply prefix_spec; exact Hp].
    apply filter_In. split; [apply nontotal_In; auto|apply Rltb_true; exact Hr].
Qed.

Lemma is_ck_iff name k : is_ck name k = true <-> exists f d, In (f, d) (ck_groups name) /\ ck_label name d k.
Proof.
  unfold is_ck. rewrite existsb_exists. unfold ck_label, begins_with. split.
  - intros [[f d] [H1 H2]]. apply prefix_spec in H2. exists f, d. auto.
  - intros (f & d & H1 & H2). exists (f, d). split; [exact H1|]. apply prefix_spec. exact H2.
Qed.

Lemma ck_dest_len name f d : In (f, d) (ck_groups name) -> String.length d = 2%nat.
Proof.
  unfold ck_groups. repeat match goal with |- context [if ?b then _ else _] => destruct b end; cbn [In]; intros H;
  repeat (destruct H as [H|H]; [injection H as <- <-; reflexivity|]); contradiction.
Qed.
Lemma str_app_inj_len (a b r r' : string) : String.length a = String.length b -> (a ++ r = b ++ r')%string -> a = b.
Proof.
  revert b. induction a as [|x a IH]; intros [|y b] L E; cbn in *; try discriminate; [reflexivity|].
  injection E as -> E. f_equal. apply IH; [lia|exact E].
Qed.
Lemma ck_label_unique name d d' k : String.length d = String.length d' -> ck_label name d k -> ck_label name d' k -> d = d'.
Proof.
  intros L [r ->] [r' E]. rewrite !append_assoc_str in E. apply str_app_inj_l in E.
  apply (str_app_inj_l "-") in E. exact (str_app_inj_len d d' r r' L E).
Qed.
Lemma ck_groups_snd_NoDup name : NoDup (map snd (ck_groups name)).
Proof.
  unfold ck_groups. repeat match goal with |- context [if ?b then _ else _] => destruct b end; cbn [map snd];
  repeat constructor; cbn [In]; intuition discriminate.
Qed.

Lemma total_disjoint name (gs : list (string * string)) (m : list (string * R)) :
  (forall f d, In (f, d) gs -> String.length d = 2%nat) -> NoDup (map snd gs) ->
  total_of m = Rsum (map (fun g => total_of (filter (fun kv => String.prefix (name ++ "-" ++ snd g) (fst kv)) m)) gs)
             + total_of (filter (fun kv => negb (existsb (fun g => String.prefix (name ++ "-" ++ snd g) (fst kv)) gs)) m).
Proof.
  revert m. induction gs as [|[f d] gs IH]; intros m Hl Hn.
  - cbn. rewrite Rplus_0_l. f_equal. induction m as [|x m IHm]; cbn; [reflexivity|]. congruence.
  - cbn [map snd] in Hn. inversion Hn; subst. cbn [map Rsum snd existsb].
    rewrite (total_filter_split (fun kv => String.prefix (name ++ "-" ++ d) (fst kv)) m).
    rewrite (IH (filter (fun x => negb (String.prefix (name ++ "-" ++ d) (fst x))) m)); [|intros; eapply Hl; right; eassumption|assumption].
    rewrite filter_filter. rewrite <- Rplus_assoc. f_equal.
    + f_equal. apply Rsum_ext. intros g Hg. f_equal. rewrite filter_filter. apply filter_ext. intros [k v]. cbn [fst].
      destruct (String.prefix (name ++ "-" ++ d) k) eqn:E1; [|reflexivity]. cbn [negb andb].
      destruct (String.prefix (name ++ "-" ++ snd g) k) eqn:E2; [|reflexivity]. exfalso.
      apply prefix_spec in E1, E2. assert (d = snd g).
      { apply (ck_label_unique name d (snd g) k); [|exact E1|exact E2]. rewrite (Hl f d) by now left.
        destruct g as [f' d']. symmetry. apply (Hl f' d'). now right. }
      subst d. apply H1. apply in_map, Hg.
    + f_equal. apply filter_ext. intros [k v]. cbn [fst]. rewrite negb_orb. reflexivity.
Qed.

Lemma augers_total name m : total_of (positive_rates (nontotal m)) = ck_rates name m + total_of (augers name m).
Proof.
  rewrite (total_disjoint name (ck_groups name)); [reflexivity|intros; eapply ck_dest_len; eassumption|apply ck_groups_snd_NoDup].
Qed.

Theorem C18_ck name (s s' : @shell RNum) o f d : reachable name s -> is_nonrad o -> sh_step s o = (s', Ok tt) ->
  In (f, d) (ck_groups name) ->
  let m := getNonradiativeTransitions s' in
  exists t, mfind sltb f (getCosterKronigRatios s') = Some t /\
    mfind sltb "TOTAL" t = Some (ck_rate name d m) /\
    (forall k v, k <> "TOTAL" ->
       (In (k, v) t <-> exists r, In (k, r) m /\ 0 < r /\ ck_label name d k /\ v = r / ck_rate name d m)) /\
    (0 < ck_rate name d m -> total_of (nontotal t) = 1).
Proof.
  intros Hr Ho E Hi m. pose proof (reachable_nonrad_sorted _ _ Hr) as Hs.
  destruct (step_nonrad s o Hs) as [_ K]. rewrite E in K. destruct (K Ho eq_refl) as (m0 & Hm & E'). cbn [fst] in E'.
  destruct (reachable_id _ _ Hr) as (Hn & Hid).
  destruct (nonrad_update name (with_nonrad s m0) (conj Hn Hid) Hm) as (A & B & _).
  change (sh_nonrad (with_nonrad s m0)) with m0 in A, B.
  assert (Em : m = nr_full m0) by (unfold m, getNonradiativeTransitions; rewrite E'; exact A).
  rewrite <- Em in B. exists (group_table name d m). split; [|split; [|split]].
  - unfold getCosterKronigRatios. rewrite E', B, ck_table_eq.
    apply mfind_In; [exact sltb_total|apply (msorted_map_val (fun g => group_table name (snd g) m)), ck_groups_sorted|].
    apply in_map_iff. exists (f, d). split; [reflexivity|exact Hi].
  - apply smfind_mset_same.
  - intros k v Hk. apply group_table_spec; assumption.
  - intros Hp. rewrite group_nontotal, total_scale. change (total_of (members name d m)) with (ck_rate name d m). field. lra.
Qed.

Theorem C18_ck_keys name (s s' : @shell RNum) o : reachable name s -> is_nonrad o -> sh_step s o = (s', Ok tt) ->
  map fst (getCosterKronigRatios s') = map fst (ck_groups name).
Proof.
  intros Hr Ho E. pose proof (reachable_nonrad_sorted _ _ Hr) as Hs.
  destruct (step_nonrad s o Hs) as [_ K]. rewrite E in K. destruct (K Ho eq_refl) as (m0 & Hm & E'). cbn [fst] in E'.
  destruct (reachable_id _ _ Hr) as (Hn & Hid).
  destruct (nonrad_update name (with_nonrad s m0) (conj Hn Hid) Hm) as (A & B & _).
  change (sh_nonrad (with_nonrad s m0)) with m0 in A, B.
  unfold getCosterKronigRatios. rewrite E', B, ck_table_eq, map_map. reflexivity.
Qed.

Lemma augers_total' name m : Forall (fun kv => 0 <= snd kv) m -> total_of (augers name m) = total_of (nontotal m) - ck_rates name m.
Proof. intros Hp. pose proof (augers_total name m) as Ha. rewrite total_positive in Ha by (apply Forall_filter, Hp). lra. Qed.
Lemma value_or_0_Some k m : mfind sltb k m <> None -> mfind sltb k m = Some (value_or_0 k m).
Proof. unfold value_or_0. destruct (mfind sltb k m); [reflexivity|congruence]. Qed.

Theorem C18_auger name (s s' : @shell RNum) o : reachable name s -> is_nonrad o -> sh_step s o = (s', Ok tt) ->
  let m := getNonradiativeTransitions s' in
  exists T, mfind sltb "TOTAL" m = Some T /\
    mfind sltb "TOTAL" (getAugerRatios s') = Some (T - ck_rates name m) /\
    (forall k v, k <> "TOTAL" ->
       (In (k, v) (getAugerRatios s') <-> exists r, In (k, r) m /\ 0 < r /\
          (forall f d, In (f, d) (ck_groups name) -> ~ ck_label name d k) /\ v = r / (T - ck_rates name m))) /\
    (Forall (fun kv => 0 <= snd kv) m -> T - ck_rates name m <> 0 ->
       total_of (nontotal (getAugerRatios s')) = (total_of (nontotal m) - ck_rates name m) / (T - ck_rates name m)).
Proof.
  intros Hr Ho E m. pose proof (reachable_nonrad_sorted _ _ Hr) as Hs.
  destruct (step_nonrad s o Hs) as [_ K]. rewrite E in K. destruct (K Ho eq_refl) as (m0 & Hm & E'). cbn [fst] in E'.
  destruct (reachable_id _ _ Hr) as (Hn & Hid).
  destruct (nonrad_update name (with_nonrad s m0) (conj Hn Hid) Hm) as (A & _ & B).
  change (sh_nonrad (with_nonrad s m0)) with m0 in A, B.
  assert (Em : m = nr_full m0) by (unfold m, getNonradiativeTransitions; rewrite E'; exact A).
  rewrite <- Em in B. set (T := value_or_0 "TOTAL" m) in *.
  assert (ET : mfind sltb "TOTAL" m = Some T).
  { apply value_or_0_Some. rewrite Em. rewrite (nr_full_total m0). discriminate. }
  assert (EA : getAugerRatios s' = mset sltb "TOTAL" (T - ck_rates name m) (map (fun kv => (fst kv, snd kv / (T - ck_rates name m))) (augers name m)))
    by (unfold getAugerRatios; rewrite E'; exact B).
  assert (EN : nontotal (getAugerRatios s') = map (fun kv => (fst kv, snd kv / (T - ck_rates name m))) (augers name m)).
  { rewrite EA, nontotal_mset. apply nontotal_id. apply Forall_map. cbn. apply Forall_filter, Forall_filter.
    apply Forall_forall. intros [k v] Hi. apply nontotal_In in Hi. apply Hi. }
  exists T. split; [exact ET|]. split; [rewrite EA; apply smfind_mset_same|]. split.
  - intros k v Hk.
    assert (X : In (k, v) (getAugerRatios s') <-> In (k, v) (nontotal (getAugerRatios s'))).
    { rewrite nontotal_In. tauto. }
    rewrite X, EN, in_map_iff. split.
    + intros [[k' r] [E1 E2]]. cbn in E1. injection E1 as -> <-. apply filter_In in E2. destruct E2 as [E2 E3].
      apply filter_In in E2. destruct E2 as [E2 E4]. apply nontotal_In in E2. cbn [fst snd] in *. apply Rltb_true in E4.
      exists r. split; [apply E2|]. split; [exact E4|]. split; [|reflexivity]. intros f d Hg Hc.
      rewrite (proj2 (is_ck_iff name k)) in E3; [discriminate|]. exists f, d. auto.
    + intros (r & Hi & Hp & Hg & ->). exists (k, r). split; [reflexivity|]. apply filter_In. split.
      * apply filter_In. split; [apply nontotal_In; auto|apply Rltb_true; exact Hp].
      * cbn [fst]. destruct (is_ck name k) eqn:C; [|reflexivity]. exfalso. apply is_ck_iff in C.
        destruct C as (f & d & C1 & C2). exact (Hg f d C1 C2).
  - intros Hp Hz. rewrite EN, total_scale. f_equal.
    exact (augers_total' name m Hp).
Qed.
