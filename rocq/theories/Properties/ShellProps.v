(** C16 - C20: Shell. *)
From Coq Require Import PrimFloat String List ZArith Reals Lra Lia.
From Verif Require Import Base.Num Base.Res Base.RSum Base.SMap Model.Shell Spec.ShellSpec
  Proofs.ShellProofs Proofs.ShellProofs2 Proofs.ShellProofs3.
Import ListNotations.
Local Open Scope string_scope.
Local Open Scope R_scope.
Local Existing Instance RNum.

(** C16 *)
Theorem C16_fluorescence_ratios :
  forall (name : string) (s s' : shell) (labels : list string) (values : list R),
  reachable name s -> length labels = length values -> Forall (fun v => 0 <= v) values ->
  setRadiativeTransitions_vec s labels values = (s', Ok tt) ->
  let T := total_of (nontotal (getRadiativeTransitions s')) in
  (forall k v, In (k, v) (getFluorescenceRatios s') <->
     exists r, In (k, r) (getRadiativeTransitions s') /\ k <> "TOTAL" /\ 0 < r /\ v = r / T) /\
  (0 < T -> total_of (getFluorescenceRatios s') = 1) /\
  (forall k v, In (k, v) (getFluorescenceRatios s') -> 0 < v <= 1).
Proof. intros name s s' labels values. apply C16_main. Qed.
Print Assumptions C16_fluorescence_ratios.

Theorem C16_total_has_no_influence :
  forall (name : string) (s s1 s2 : shell) (labels labels' : list string) (values values' : list R),
  reachable name s -> length labels = length values -> length labels' = length values' ->
  setRadiativeTransitions_vec s labels values = (s1, Ok tt) ->
  setRadiativeTransitions_vec s labels' values' = (s2, Ok tt) ->
  nontotal (getRadiativeTransitions s1) = nontotal (getRadiativeTransitions s2) ->
  getFluorescenceRatios s1 = getFluorescenceRatios s2.
Proof. intros name s s1 s2 l l' v v'. apply C16_total_ignored. Qed.
Print Assumptions C16_total_has_no_influence.

(** the map overload is the vector overload on the map's entries, the array overload that on
    upper-cased labels *)
Theorem C16_overloads_agree :
  forall (N : Num) (s : shell) (l : list (string * num)),
  setRadiativeTransitions_map s l = setRadiativeTransitions_vec s (map fst l) (map snd l) /\
  setRadiativeTransitions_arr s l = setRadiativeTransitions_vec s (map (fun kv => upper (fst kv)) l) (map snd l).
Proof. intros N s l. split; reflexivity. Qed.
Print Assumptions C16_overloads_agree.

Definition new_shell (name : string) : @shell RNum :=
  match shell_new name with Ok s => s | _ => mkShell "" 0 0 [] [] [] [] [] [] end.
Definition C16_shell : @shell RNum := fst (setRadiativeTransitions_vec (new_shell "K") ["KL2"; "kl3"; "total"] [1; 2; 7]).
Example C16_case : reachable "K" (new_shell "K") /\
  setRadiativeTransitions_vec (new_shell "K") ["KL2"; "kl3"; "total"] [1; 2; 7] = (C16_shell, Ok tt) /\
  getRadiativeTransitions C16_shell = [("KL2", 1); ("KL3", 2); ("TOTAL", 7)] /\
  total_of (getFluorescenceRatios C16_shell) = 1.
Proof.
  assert (A : reachable "K" (new_shell "K")) by (eexists; exists []; split; reflexivity).
  assert (B : setRadiativeTransitions_vec (new_shell "K") ["KL2"; "kl3"; "total"] [1; 2; 7] = (C16_shell, Ok tt)) by reflexivity.
  assert (C : getRadiativeTransitions C16_shell = [("KL2", 1); ("KL3", 2); ("TOTAL", 7)]) by reflexivity.
  split; [exact A|]. split; [exact B|]. split; [exact C|].
  apply (proj1 (proj2 (C16_main "K" (new_shell "K") ["KL2"; "kl3"; "total"] [1; 2; 7] C16_shell A eq_refl ltac:(repeat constructor; lra) B))).
  unfold getRadiativeTransitions in *. rewrite C. unfold total_of. cbn. lra.
Qed.

(** C17 *)
Theorem C17_labels_accepted :
  forall (N : Num) (name : string) (s : shell) (labels : list string) (values : list num),
  reachable name s -> length labels = length values ->
  (snd (setRadiativeTransitions_vec s labels values) = Ok tt <-> Forall (acceptable name) labels) /\
  (snd (setRadiativeTransitions_vec s labels values) = Ok tt \/
   snd (setRadiativeTransitions_vec s labels values) = Throw InvalidArgument).
Proof. intros N. apply setRad_accept. Qed.
Print Assumptions C17_labels_accepted.

Theorem C17_labels_stored_canonically :
  forall (N : Num) (name : string) (s s' : shell) (labels : list string) (values : list num) (k : string),
  reachable name s -> length labels = length values ->
  setRadiativeTransitions_vec s labels values = (s', Ok tt) ->
  mfind sltb k (getRadiativeTransitions s') = last_binding k (combine (map canonical labels) values).
Proof. intros N name s s' labels values k. apply setRad_table. Qed.
Print Assumptions C17_labels_stored_canonically.

(** every stored label begins with the shell name: false *)
Theorem C17_stored_labels_belong_to_the_shell_refuted :
  exists s s' : @shell FNum, reachable "K" s /\
  setRadiativeTransitions_vec s ["abc12"] [1%float] = (s', Ok tt) /\
  map fst (getRadiativeTransitions s') = ["ABC1"] /\ ~ begins_with "K" "ABC1".
Proof.
  eexists. eexists. split; [eexists; exists []; split; reflexivity|]. split; [reflexivity|]. split; [reflexivity|].
  intros [r H]. discriminate.
Qed.
Print Assumptions C17_stored_labels_belong_to_the_shell_refuted.

(** a rejected call leaves the object as it was: false *)
Theorem C17_rejected_call_is_atomic_refuted :
  exists s s' : @shell FNum, reachable "K" s /\
  setRadiativeTransitions_vec s ["KM3"; "X"] [2%float; 3%float] = (s', Throw InvalidArgument) /\
  map fst (getRadiativeTransitions s) = ["KL3"] /\ map fst (getRadiativeTransitions s') = ["KM3"] /\
  map fst (getFluorescenceRatios s') = ["KL3"].
Proof.
  eexists. eexists. split; [eexists; exists [SRadVec ["KL3"] [1%float]]; split; reflexivity|]. repeat split; reflexivity.
Qed.
Print Assumptions C17_rejected_call_is_atomic_refuted.

Example C17_case : acceptable "L1" "l1m3" /\ acceptable "L1" "ToTal" /\ acceptable "K" "kl" /\ acceptable "L3" "L3O45" /\
  ~ acceptable "L1" "L2M3" /\ ~ acceptable "K" "" /\ canonical "kl" = "KL2" /\ canonical "L3O45" = "L3O4".
Proof.
  unfold acceptable, two_final_digits, begins_with. repeat split; try reflexivity.
  - right; right. split; [discriminate|exists "M3"; reflexivity].
  - left. reflexivity.
  - right; right. split; [discriminate|exists "L"; reflexivity].
  - right; left. do 5 eexists. split; [reflexivity|split; reflexivity].
  - intros [H|[(a & b & c & d & e & H & _)|[_ [r H]]]]; discriminate.
  - intros [H|[(a & b & c & d & e & H & _)|[_ [r H]]]]; discriminate.
Qed.

(** C18: [is_nonrad o] selects the three setNonradiativeTransitions overloads. *)
Theorem C18_coster_kronig_groups :
  forall (name : string) (s s' : shell) (o : sh_op) (f d : string),
  reachable name s -> is_nonrad o -> sh_step s o = (s', Ok tt) -> In (f, d) (ck_groups name) ->
  let m := getNonradiativeTransitions s' in
  exists t, mfind sltb f (getCosterKronigRatios s') = Some t /\
    mfind sltb "TOTAL" t = Some (ck_rate name d m) /\
    (forall k v, k <> "TOTAL" ->
       (In (k, v) t <-> exists r, In (k, r) m /\ 0 < r /\ ck_label name d k /\ v = r / ck_rate name d m)) /\
    (0 < ck_rate name d m -> total_of (nontotal t) = 1).
Proof. intros name s s' o f d. apply C18_ck. Qed.
Print Assumptions C18_coster_kronig_groups.

Theorem C18_groups_of_the_shell :
  forall (name : string) (s s' : shell) (o : sh_op),
  reachable name s -> is_nonrad o -> sh_step s o = (s', Ok tt) ->
  map fst (getCosterKronigRatios s') = map fst (ck_groups name) /\
  (In name ["K"; "L3"; "M5"] -> getCosterKronigRatios s' = []).
Proof.
  intros name s s' o Hr Ho E. pose proof (C18_ck_keys name s s' o Hr Ho E) as K. split; [exact K|].
  intros Hn. cbn in Hn. destruct (getCosterKronigRatios s'); [reflexivity|]. exfalso.
  destruct Hn as [<-|[<-|[<-|[]]]]; discriminate K.
Qed.
Print Assumptions C18_groups_of_the_shell.

Theorem C18_one_group_per_transition :
  forall (name f d f' d' k : string), In (f, d) (ck_groups name) -> In (f', d') (ck_groups name) ->
  ck_label name d k -> ck_label name d' k -> d = d'.
Proof.
  intros name f d f' d' k H H' K K'. apply (ck_label_unique name d d' k); [|exact K|exact K'].
  rewrite (ck_dest_len _ _ _ H), (ck_dest_len _ _ _ H'). reflexivity.
Qed.
Print Assumptions C18_one_group_per_transition.

Theorem C18_auger_ratios :
  forall (name : string) (s s' : shell) (o : sh_op),
  reachable name s -> is_nonrad o -> sh_step s o = (s', Ok tt) ->
  let m := getNonradiativeTransitions s' in
  exists T, mfind sltb "TOTAL" m = Some T /\
    mfind sltb "TOTAL" (getAugerRatios s') = Some (T - ck_rates name m) /\
    (forall k v, k <> "TOTAL" ->
       (In (k, v) (getAugerRatios s') <-> exists r, In (k, r) m /\ 0 < r /\
          (forall f d, In (f, d) (ck_groups name) -> ~ ck_label name d k) /\ v = r / (T - ck_rates name m))) /\
    (Forall (fun kv => 0 <= snd kv) m -> T - ck_rates name m <> 0 ->
       total_of (nontotal (getAugerRatios s')) = (total_of (nontotal m) - ck_rates name m) / (T - ck_rates name m)).
Proof. intros name s s' o. apply C18_auger. Qed.
Print Assumptions C18_auger_ratios.

(** consistent TOTAL: the ratios add up to 1 *)
Theorem C18_auger_ratios_sum_to_one :
  forall (name : string) (s s' : shell) (o : sh_op),
  reachable name s -> is_nonrad o -> sh_step s o = (s', Ok tt) ->
  let m := getNonradiativeTransitions s' in
  Forall (fun kv => 0 <= snd kv) m -> mfind sltb "TOTAL" m = Some (total_of (nontotal m)) ->
  (exists k r, In (k, r) m /\ k <> "TOTAL" /\ 0 < r /\ forall f d, In (f, d) (ck_groups name) -> ~ ck_label name d k) ->
  total_of (nontotal (getAugerRatios s')) = 1.
Proof.
  intros name s s' o Hr Ho E m Hm HT (k & r & Hi & Hk & Hp & Hc).
  destruct (C18_auger name s s' o Hr Ho E) as (T & E1 & _ & _ & E4). fold m in E1, E4.
  assert (T = total_of (nontotal m)) by congruence. subst T.
  assert (Hnz : 0 < total_of (nontotal m) - ck_rates name m).
  { refine (eq_ind _ (fun x => 0 < x) _ _ (augers_total' name m Hm)). apply total_pos; [|apply Forall_filter, positive_rates_pos].
    assert (X : In (k, r) (augers name m)).
    { unfold augers, positive_rates. rewrite !filter_In, nontotal_In. cbn [fst snd]. split; [split; [tauto|apply Rltb_true, Hp]|].
      destruct (is_ck name k) eqn:C; [|reflexivity]. apply is_ck_iff in C. destruct C as (f & d & C1 & C2).
      exfalso. exact (Hc f d C1 C2). }
    intros X'. rewrite X' in X. exact X. }
  rewrite E4; [|exact Hm|lra]. field. lra.
Qed.
Print Assumptions C18_auger_ratios_sum_to_one.

(** a call that supplies no TOTAL always leaves a consistent one (vector and map overloads,
    which start from an empty table) *)
Theorem C18_missing_total_is_the_sum :
  forall (name : string) (s s' : shell) (labels : list string) (values : list R),
  reachable name s -> setNonradiativeTransitions_vec s labels values = (s', Ok tt) ->
  ~ In "TOTAL" (map upper labels) ->
  mfind sltb "TOTAL" (getNonradiativeTransitions s') = Some (total_of (nontotal (getNonradiativeTransitions s'))).
Proof.
  intros name s s' labels values Hr E Ht.
  unfold setNonradiativeTransitions_vec in E.
  assert (K : forall values m, ~ In "TOTAL" (mkeys m) -> msorted sltb m -> ~ In "TOTAL" (mkeys (fst (nonradLoop labels values m))) /\ msorted sltb (fst (nonradLoop labels values m))).
  { clear - Ht. induction labels as [|l labels IH]; intros values m Hm Hs; cbn; [auto|].
    destruct values as [|v values]; [auto|]. apply IH; [intros X; apply Ht; right; exact X| |apply smset_sorted, Hs].
    intros X. apply smset_keys_In in X; [|exact Hs]. destruct X as [X|X]; [|contradiction]. apply Ht. left. symmetry. exact X. }
  specialize (K values [] (fun x => x) smsorted_nil). destruct (nonradLoop labels values []) as [m r]. cbn [fst] in K.
  destruct K as [K1 K2]. destruct r; try discriminate E. injection E as <-.
  destruct (nonrad_update name (with_nonrad s m) (reachable_id _ _ Hr) K2) as (A & _).
  change (sh_nonrad (with_nonrad s m)) with m in A.
  unfold getNonradiativeTransitions. rewrite A.
  apply smfind_None in K1; [|exact K2]. exact (nr_full_none m K1).
Qed.
Print Assumptions C18_missing_total_is_the_sum.

(** the array overload neither clears the table nor refreshes a TOTAL it computed itself, so after
    a second call the Auger ratios no longer add up to 1 *)
Theorem C18_array_overload_keeps_stale_total_refuted :
  exists s : @shell FNum, reachable "K" s /\
  getAugerRatios (fst (setNonradiativeTransitions_arr s [("K-L1L2", 1%float)]))
  = [("K-L1L1", 1%float); ("K-L1L2", 1%float); ("TOTAL", 1%float)].
Proof.
  eexists. split; [eexists; exists [SNonArr [("K-L1L1", 1%float)]]; split; reflexivity|]. vmrefl.
Qed.
Print Assumptions C18_array_overload_keeps_stale_total_refuted.

(** C19 *)
Theorem C19_transfer_values :
  forall (name : string) (s : shell) (d : string),
  physical name s -> String.length d = 2%nat -> total_of (getShellConstants s) <= 1 ->
  exists out, getDirectVacancyTransferRatios s d = Ok out /\
    map fst out = "auger" :: map fst (getCosterKronigRatios s) ++ ["fluorescence"] /\
    value_or_0 "fluorescence" out = value_or_0 (name ++ d) (getFluorescenceRatios s) * value_or_0 "omega" (getShellConstants s) /\
    value_or_0 "auger" out = expected_vacancies name d (getAugerRatios s) * (1 - total_of (getShellConstants s)) /\
    (forall f t, In (f, t) (getCosterKronigRatios s) ->
       value_or_0 f out = expected_vacancies name d t * value_or_0 f (getShellConstants s)).
Proof.
  intros name s d H Hd Hs. exists (transfer_table name s d). split; [apply transfer_ok; assumption|]. split.
  - unfold transfer_table. cbn [app map fst]. rewrite map_app, map_map. reflexivity.
  - split; [apply transfer_lookup_fluo, H|]. split; [apply transfer_lookup_auger|].
    intros f t Hi. apply transfer_lookup_ck; [exact H|exact Hi].
Qed.
Print Assumptions C19_transfer_values.

Theorem C19_transfer_is_not_negative :
  forall (name : string) (s : shell) (d : string) (out : list (string * R)),
  physical name s -> String.length d = 2%nat ->
  Forall (fun kv => 0 <= snd kv) (getShellConstants s) -> total_of (getShellConstants s) <= 1 ->
  getDirectVacancyTransferRatios s d = Ok out -> Forall (fun kv => 0 <= snd kv) out.
Proof.
  intros name s d out H Hd Hc Hs E. rewrite (transfer_ok name) in E by assumption. injection E as <-.
  apply transfer_nonneg; assumption.
Qed.
Print Assumptions C19_transfer_is_not_negative.

(** over any set of different destination subshells: the radiative part is at most omega; an
    Auger or Coster-Kronig transition leaves at most two vacancies *)
Theorem C19_vacancies_are_bounded :
  forall (name : string) (s : shell) (ds : list string) (outs : list (list (string * R))),
  physical name s -> destinations ds ->
  Forall (fun kv => 0 <= snd kv) (getShellConstants s) -> total_of (getShellConstants s) <= 1 ->
  rmapM (getDirectVacancyTransferRatios s) ds = Ok outs ->
  Rsum (map (value_or_0 "fluorescence") outs) <= value_or_0 "omega" (getShellConstants s) /\
  Rsum (map (value_or_0 "auger") outs) <= 2 * (1 - total_of (getShellConstants s)) /\
  (forall f d, In (f, d) (ck_groups name) -> Rsum (map (value_or_0 f) outs) <= 2 * value_or_0 f (getShellConstants s)).
Proof. exact transfer_conservation. Qed.
Print Assumptions C19_vacancies_are_bounded.

Theorem C19_too_large_yields_throw :
  forall (name : string) (s : shell) (d : string), physical name s -> String.length d = 2%nat ->
  10001 / 10000 < total_of (getShellConstants s) -> getDirectVacancyTransferRatios s d = Throw DomainError.
Proof. exact transfer_domain_error. Qed.
Print Assumptions C19_too_large_yields_throw.

Theorem C19_bad_destination_throws :
  forall (N : Num) (s : shell) (d : string), String.length d <> 2%nat ->
  getDirectVacancyTransferRatios s d = Throw InvalidArgument.
Proof. intros N. exact transfer_bad_destination. Qed.
Print Assumptions C19_bad_destination_throws.

(** the bound of the property without the factor 2 (each Coster-Kronig part at most fij) fails:
    L1-L3L3 puts two vacancies in L3. Also "AL" reads the TOTAL entry as a transition. *)
Theorem C19_coster_kronig_part_at_most_its_yield_refuted :
  exists (s : @shell FNum) out, reachable "L1" s /\ getDirectVacancyTransferRatios s "L3" = Ok out /\
  mfind sltb "f13" (getShellConstants s) = Some 0.25%float /\ mfind sltb "f13" out = Some 0.5%float.
Proof.
  eexists. eexists. split; [eexists; exists [SConst [("f13", 0.25%float)]; SNonVec ["L1-L3L3"] [1%float]]; split; reflexivity|].
  repeat split; vmrefl.
Qed.
Print Assumptions C19_coster_kronig_part_at_most_its_yield_refuted.

Theorem C19_destination_AL_counts_the_total_refuted :
  exists (s : @shell FNum) out, reachable "K" s /\ getDirectVacancyTransferRatios s "AL" = Ok out /\
  mfind sltb "auger" out = Some 7%float.
Proof.
  eexists. eexists. split; [eexists; exists [SNonVec ["K-L1L2"] [7%float]]; split; reflexivity|].
  repeat split; vmrefl.
Qed.
Print Assumptions C19_destination_AL_counts_the_total_refuted.

Definition C19_shell : @shell RNum :=
  fst (sh_step (fst (sh_step (fst (sh_step
    (new_shell "L1")
    (SConst [("omega", 1/2); ("f12", 1/8); ("f13", 1/4)])))
    (SNonVec ["L1-L2M1"; "L1-L3M5"; "L1-M1M1"; "TOTAL"] [1; 2; 3; 8])))
    (SRadVec ["L1M3"; "L1M2"] [1; 3])).
Example C19_case : physical "L1" C19_shell /\ destinations ["L2"; "L3"; "M1"; "M5"] /\
  total_of (getShellConstants C19_shell) = 7/8 /\ Forall (fun kv => 0 <= snd kv) (getShellConstants C19_shell).
Proof.
  split; [|split; [|split]].
  - unfold C19_shell. apply physical_step; [apply physical_step; [apply physical_step; [apply physical_new; reflexivity|exact I|]|exact I|]| |].
    + cbn. split; [constructor|]. split; [intros T HT; discriminate|constructor].
    + change (nonrad_ok [("L1-L2M1", 1); ("L1-L3M5", 2); ("L1-M1M1", 3); ("TOTAL", 8)]).
      split; [repeat (constructor; [cbn; lra|]); constructor|]. split; [|repeat constructor].
      intros T HT. cbn in HT. injection HT as <-. unfold total_of; cbn. lra.
    + cbn. repeat (constructor; [lra|]); constructor.
    + change (nonrad_ok [("L1-L2M1", 1); ("L1-L3M5", 2); ("L1-M1M1", 3); ("TOTAL", 8)]).
      split; [repeat (constructor; [cbn; lra|]); constructor|]. split; [|repeat constructor].
      intros T HT. cbn in HT. injection HT as <-. unfold total_of; cbn. lra.
  - split; [repeat constructor; cbn; intuition discriminate|]. repeat constructor; discriminate.
  - change (total_of [("f12", 1/8); ("f13", 1/4); ("omega", 1/2)] = 7/8). unfold total_of. cbn. lra.
  - change (Forall (fun kv => 0 <= snd kv) [("f12", 1/8); ("f13", 1/4); ("omega", 1/2)]).
    repeat (constructor; [cbn; lra|]); constructor.
Qed.

(** C20 *)
Theorem C20_accepted_keys :
  forall (N : Num) (name : string) (s : shell) (l : list (string * num)), reachable name s ->
  (snd (setShellConstants s l) = Ok tt <-> Forall (fun kv => In (fst kv) (constant_names name)) l) /\
  (snd (setShellConstants s l) = Ok tt \/ snd (setShellConstants s l) = Throw InvalidArgument).
Proof. intros N. exact setShellConstants_iff. Qed.
Print Assumptions C20_accepted_keys.

Theorem C20_exactly_the_given_keys_change :
  forall (N : Num) (name : string) (s s' : shell) (l : list (string * num)) (k : string), reachable name s ->
  setShellConstants s l = (s', Ok tt) ->
  mfind sltb k (getShellConstants s') =
  match last_binding k l with Some v => Some v | None => mfind sltb k (getShellConstants s) end.
Proof. intros N name s s' l k. apply setShellConstants_effect. Qed.
Print Assumptions C20_exactly_the_given_keys_change.

Theorem C20_known_constants :
  forall (N : Num) (name : string) (s : shell), reachable name s -> map fst (getShellConstants s) = constant_names name.
Proof. intros N name s H. apply (reachable_const name s H). Qed.
Print Assumptions C20_known_constants.

Theorem C20_construction :
  forall (N : Num) (name : string),
  (In name shell_names -> exists s, shell_new name = Ok s /\ Forall (fun kv => snd kv = n0) (getShellConstants s)) /\
  (~ In name shell_names -> shell_new name = Throw InvalidArgument).
Proof.
  intros N name. split; [|apply shell_new_throws]. intros H. eexists. split; [apply shell_new_Ok, H|]. cbn.
  unfold shell_names in H; cbn [In] in H. repeat (destruct H as [<-|H]; [repeat constructor|]). contradiction.
Qed.
Print Assumptions C20_construction.

Theorem C20_failed_call_is_atomic_refuted :
  exists s s' : @shell FNum, reachable "L1" s /\
  setShellConstants s [("f12", 0.5%float); ("zzz", 0.5%float)] = (s', Throw InvalidArgument) /\
  mfind sltb "f12" (getShellConstants s) = Some 0%float /\ mfind sltb "f12" (getShellConstants s') = Some 0.5%float.
Proof. eexists. eexists. split; [eexists; exists []; split; reflexivity|]. repeat split; vmrefl. Qed.
Print Assumptions C20_failed_call_is_atomic_refuted.

Example C20_case : constant_names "L1" = ["f12"; "f13"; "omega"] /\ constant_names "M4" = ["f45"; "omega"] /\ constant_names "K" = ["omega"].
Proof. repeat split; reflexivity. Qed.
