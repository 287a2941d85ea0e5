(** C66: interpolation; C67: loading the cross sections. *)
From Coq Require Import Ascii String List ZArith QArith Reals Bool Arith Lia Lra Permutation.
From Verif Require Import Base.Num Base.Res Base.SMap Base.Str Base.Text Base.ListLemmas Base.RSum Model.Specfile Model.EPDL97 Spec.EPDL97Spec
  Proofs.MathProofs Proofs.EPDL97Proofs Proofs.EPDL97Proofs2 Proofs.EPDL97Proofs3 Proofs.EPDL97Proofs4 Proofs.EPDL97Proofs5 Proofs.EPDL97Proofs6 Proofs.EPDL97Proofs7 Proofs.EPDL97Proofs8
  Properties.EPDL97Props Properties.EPDL97Props2.
Import ListNotations.
Set Implicit Arguments.
Local Close Scope Q_scope.
Local Open Scope string_scope.
Local Open Scope R_scope.
Local Existing Instance RNum.

(** *** C66 *)
Section C66.
Variables (ep : epdl) (z : Z) (g : list R) (rows : list (list R)) (b : list (string * R)).
Variables (key : string) (idx : Z).
(** Between two points the coefficients are interpolated in logarithmic scales, whatever was asked
    before: those of scattering and of the subshells reached; the other subshells have none. *)
Theorem C66_interpolation (k last : nat) (x : R) t :
  data_of ep z g rows b -> nondecreasing g -> table_ok (ep_index ep) g rows -> msorted sltb (ep_index ep) -> In (key, idx) (ep_index ep) ->
  (k + 1 < length g)%nat -> pt g k < x < pt g (k + 1) -> 5 / 10000000000 <= pt g (k + 1) - pt g k ->
  snd (getMassAttenuationCoefficients last ep z x) = Ok t ->
  0 < entry rows k idx -> 0 < entry rows (k + 1) idx ->
  (In key scattering \/ In key subshells /\ excited b key x -> mfind sltb key t = Some (loglog (pt g k) (pt g (k + 1)) (entry rows k idx) (entry rows (k + 1) idx) x)) /\
  (In key subshells -> ~ excited b key x -> mfind sltb key t = Some 0).
Proof.
  intros D ND T IS K L X G E P0 P1. rewrite <- lit5_10 in G.
  assert (IN : In key scattering \/ In key subshells -> In key (shells ++ ["coherent"; "compton"])) by (intros [H|H]; cbn in H |- *; tauto).
  split.
  - intros H. destruct (@between_points ep z g rows b D ND IS key idx K k last x t L X G E) as (s & s' & S1 & F & C); [apply IN; tauto|]. rewrite F. f_equal.
    destruct (fun A B => @caseB_value (ep_index ep) g rows b T key idx K k (k + 1) (pt g k) (pt g (k + 1)) x s s' A B S1 C) as (V1 & _ & _ & V); [lia|lia|].
    destruct H as [H|[H EX]]; [apply V1; assumption|]. destruct (V H) as (_ & V2 & _). apply V2; assumption.
  - intros H EX. destruct (@between_points ep z g rows b D ND IS key idx K k last x t L X G E) as (s & s' & S1 & F & C); [apply IN; tauto|]. rewrite F. f_equal.
    destruct (fun A B => @caseB_value (ep_index ep) g rows b T key idx K k (k + 1) (pt g k) (pt g (k + 1)) x s s' A B S1 C) as (_ & _ & _ & V); [lia|lia|].
    apply (V H), EX.
Qed.
(** So they lie between those of the two points. *)
Theorem C66_between (k last : nat) (x : R) t :
  data_of ep z g rows b -> nondecreasing g -> table_ok (ep_index ep) g rows -> msorted sltb (ep_index ep) -> In (key, idx) (ep_index ep) ->
  (k + 1 < length g)%nat -> 0 < pt g k -> pt g k < x < pt g (k + 1) -> 5 / 10000000000 <= pt g (k + 1) - pt g k ->
  snd (getMassAttenuationCoefficients last ep z x) = Ok t ->
  0 < entry rows k idx -> 0 < entry rows (k + 1) idx -> In key scattering \/ In key subshells /\ excited b key x ->
  exists v, mfind sltb key t = Some v /\ Rmin (entry rows k idx) (entry rows (k + 1) idx) <= v <= Rmax (entry rows k idx) (entry rows (k + 1) idx).
Proof.
  intros D ND T IS K L P X G E P0 P1 H. eexists. split; [eapply (proj1 (@C66_interpolation k last x t D ND T IS K L X G E P0 P1)); exact H|].
  apply loglog_between; try assumption; lra.
Qed.
(** A subshell reached by the energy but without coefficient in the table yet: that of the straight
    line through its first two coefficients. *)
Theorem C66_extrapolation (k m last : nat) (x : R) t :
  data_of ep z g rows b -> nondecreasing g -> table_ok (ep_index ep) g rows -> msorted sltb (ep_index ep) -> In (key, idx) (ep_index ep) ->
  (k + 1 < length g)%nat -> pt g k < x < pt g (k + 1) -> 5 / 10000000000 <= pt g (k + 1) - pt g k ->
  snd (getMassAttenuationCoefficients last ep z x) = Ok t -> In key subshells -> excited b key x ->
  (k < m)%nat -> (m + 1 < length g)%nat -> (forall n, (k <= n < m)%nat -> entry rows n idx <= 0) -> 0 < entry rows m idx ->
  mfind sltb key t = Some (loglog (pt g m) (pt g (m + 1)) (entry rows m idx) (entry rows (m + 1) idx) x).
Proof.
  intros D ND T IS K L X G E H EX KM ML Z0 P. rewrite <- lit5_10 in G.
  assert (IN : In key (shells ++ ["coherent"; "compton"])) by (cbn in H |- *; tauto).
  destruct (@between_points ep z g rows b D ND IS key idx K k last x t L X G E IN) as (s & s' & S1 & F & C). rewrite F. f_equal.
  destruct (fun A B => @caseB_value (ep_index ep) g rows b T key idx K k (k + 1) (pt g k) (pt g (k + 1)) x s s' A B S1 C) as (_ & _ & _ & V); [lia|lia|].
  destruct (V H) as (_ & _ & V3). eapply (@extrapolate_value (ep_index ep) g rows T key idx K k x); [lia|apply V3; [exact EX|apply Z0; lia]|lia|exact ML|exact Z0|exact P].
Qed.
(** At an energy given twice (an absorption edge) the coefficients are those above the edge, whatever
    was asked before. *)
Theorem C66_edge (k last : nat) t :
  data_of ep z g rows b -> nondecreasing g -> table_ok (ep_index ep) g rows -> msorted sltb (ep_index ep) -> In (key, idx) (ep_index ep) ->
  edge g k -> regular_edge (ep_index ep) g rows k -> snd (getMassAttenuationCoefficients last ep z (pt g k)) = Ok t ->
  (In key scattering -> 0 <= entry rows (k + 1) idx -> mfind sltb key t = Some (entry rows (k + 1) idx)) /\
  (In key subshells -> (~ excited b key (pt g k) -> mfind sltb key t = Some 0) /\
     (excited b key (pt g k) -> 0 < entry rows (k + 1) idx -> mfind sltb key t = Some (entry rows (k + 1) idx))).
Proof. intros D ND T IS K ED Rg E. exact (@edge_value ep z g rows b D ND T IS key idx K k last t ED Rg E). Qed.
End C66.
Print Assumptions C66_interpolation.
Print Assumptions C66_between.
Print Assumptions C66_extrapolation.
Print Assumptions C66_edge.

(** an element with an edge of K at 2 *)
Definition ex3_grid : list R := [1; 2; 2; 4].
Definition ex3_rows : list (list R) := [ex_row 4 0; ex_row 3 0; ex_row 3 8; ex_row 2 5].
Definition ex3 : @epdl RNum := ex_ep ex3_grid ex3_rows 2.
Ltac calc := unfold entry, pt; repeat match goal with |- context [Z.to_nat ?z] => let v := eval vm_compute in (Z.to_nat z) in change (Z.to_nat z) with v end;
  cbn [nth ex3_grid ex3_rows ex_row Nat.sub Nat.add length]; intros; lra.
Example C66_example : forall last,
  (exists t, snd (getMassAttenuationCoefficients last ex3 1 2) = Ok t /\ mfind sltb "K" t = Some 8 /\ mfind sltb "coherent" t = Some 3) /\
  (exists t, snd (getMassAttenuationCoefficients last ex3 1 (3 / 2)) = Ok t /\ mfind sltb "K" t = Some 0 /\ mfind sltb "coherent" t = Some (loglog 1 2 4 3 (3 / 2))) /\
  (exists t, snd (getMassAttenuationCoefficients last ex3 1 3) = Ok t /\ mfind sltb "K" t = Some (loglog 2 4 8 5 3)).
Proof.
  assert (RO : forall r, In r ex3_rows -> exists a c, r = ex_row a c) by (intros r H; cbn in H; repeat (destruct H as [<-|H]; [eexists; eexists; reflexivity|]); destruct H).
  assert (T : table_ok ex_index ex3_grid ex3_rows) by (apply ex_table; [reflexivity|exact RO]).
  assert (ND : nondecreasing ex3_grid).
  { intros i j H. cbn [length ex3_grid] in H. destruct i as [|[|[|[|i]]]]; destruct j as [|[|[|[|j]]]]; try lia; cbn; lra. }
  assert (D : data_of ex3 1 ex3_grid ex3_rows (ex_binding 2)) by apply ex_data.
  assert (C : complete ex_index ex3_grid ex3_rows (ex_binding 2)) by (apply ex_complete; [cbn; lia|calc]).
  assert (KI : In ("K", 5%Z) ex_index) by (vm_compute; auto 20). assert (CI : In ("coherent", 2%Z) ex_index) by (vm_compute; auto 20).
  assert (BK : mfind sltb "K" (ex_binding 2) = Some 2) by reflexivity.
  assert (EX : forall x, 2 <= x -> excited (ex_binding 2) "K" x) by (intros x H; exists 2; split; [exact BK|lra]).
  assert (NX : forall x, x < 2 -> ~ excited (ex_binding 2) "K" x) by (intros x H (e & B & H'); rewrite BK in B; injection B as <-; lra).
  assert (ANS : forall x last, exists t, snd (getMassAttenuationCoefficients last ex3 1 x) = Ok t) by (intros x last; apply (@C43_query_answers ex3 1 ex3_grid ex3_rows (ex_binding 2)); auto; cbn; lia).
  intros last. split; [|split].
  - destruct (ANS 2 last) as [t E]. exists t. split; [exact E|].
    assert (ED : edge ex3_grid 1) by (repeat split; try (cbn; lia); calc).
    assert (RE : regular_edge ex_index ex3_grid ex3_rows 1).
    { intros key idx K. vm_compute in K. repeat (destruct K as [K|K]; [injection K as <- <-; split; [intros H; try calc; exfalso; cbn in H; intuition discriminate|calc]|]). destruct K. }
    split.
    + destruct (@C66_edge ex3 1 ex3_grid ex3_rows (ex_binding 2) "K" 5 1 last t D ND T ex_sorted KI ED RE E) as [_ H].
      destruct H as [_ H]; [cbn; tauto|]. apply H; [apply EX; calc|calc].
    + destruct (@C66_edge ex3 1 ex3_grid ex3_rows (ex_binding 2) "coherent" 2 1 last t D ND T ex_sorted CI ED RE E) as [H _]. apply H; [cbn; tauto|calc].
  - destruct (ANS (3 / 2) last) as [t E]. exists t. split; [exact E|]. split.
    + destruct (@between_points ex3 1 ex3_grid ex3_rows (ex_binding 2) D ND ex_sorted "K" 5 KI 0 last (3 / 2) t) as (s & s' & S1 & F & CB); try (rewrite lit5_10); try calc; try (cbn; lia); [exact E|cbn; tauto|].
      rewrite F. f_equal. destruct (fun A B => @caseB_value ex_index ex3_grid ex3_rows (ex_binding 2) T "K" 5 KI 0 1 (pt ex3_grid 0) (pt ex3_grid 1) (3 / 2) s s' A B S1 CB) as (_ & _ & _ & V); [cbn; lia|cbn; lia|].
      apply V; [cbn; tauto|apply NX; lra].
    + apply (@C66_interpolation ex3 1 ex3_grid ex3_rows (ex_binding 2) "coherent" 2 0 last (3 / 2) t D ND T ex_sorted CI); auto; try calc; try (cbn; lia). left. cbn. tauto.
  - destruct (ANS 3 last) as [t E]. exists t. split; [exact E|].
    apply (@C66_interpolation ex3 1 ex3_grid ex3_rows (ex_binding 2) "K" 5 2 last 3 t D ND T ex_sorted KI); auto; try calc; try (cbn; lia). right. split; [cbn; tauto|apply EX; lra].
Qed.
