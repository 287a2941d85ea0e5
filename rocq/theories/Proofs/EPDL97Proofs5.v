(** EPDL97: queries that always succeed; values of one column; examples. *)
From Coq Require Import Ascii String List ZArith Reals Bool Arith Lia Lra.
From Verif Require Import Base.Num Base.Res Base.SMap Base.Str Base.Text Base.ListLemmas Base.RSum Model.Specfile Model.EPDL97 Spec.EPDL97Spec
  Proofs.MathProofs Proofs.EPDL97Proofs Proofs.EPDL97Proofs2 Proofs.EPDL97Proofs3 Proofs.EPDL97Proofs4.
Import ListNotations.
Set Implicit Arguments.
Local Open Scope R_scope.
Local Existing Instance RNum.
Local Open Scope string_scope.

Lemma rfold_total {S T} (f : S -> T -> res S) l : (forall s t, In t l -> exists s', f s t = Ok s') -> forall s, exists s', rfold f l s = Ok s'.
Proof.
  induction l as [|t l IH]; intros H s; [exists s; reflexivity|]. cbn [rfold]. destruct (H s t) as [s1 ->]; [left; reflexivity|]. cbn [rbind].
  apply IH. intros s2 t2 K. apply H. right. exact K.
Qed.

Section Total.
Variables (index : list (string * Z)) (g : list R) (rows : list (list R)) (b : list (string * R)).
Hypothesis T : table_ok index g rows.
Hypothesis C : complete index g rows b.

Lemma firstPositive_ok key idx : In (key, idx) index -> (2 <= length g)%nat -> 0 < entry rows (length g - 2) idx ->
  forall f i, (length g - 2 - i <= f)%nat -> (i <= length g - 2)%nat -> exists m, @firstPositive RNum f rows idx i = Ok m /\ (i <= m <= length g - 2)%nat.
Proof.
  intros K N P. induction f as [|f IH]; intros i F L; cbn [firstPositive]; rewrite (@cell_ok index g rows i idx key T K) by lia; cbn [rbind nleb n0 RNum].
  - assert (i = length g - 2)%nat as -> by lia. destruct (Rleb_spec (entry rows (length g - 2) idx) 0); [lra|]. exists (length g - 2)%nat. auto.
  - destruct (Rleb_spec (entry rows i idx) 0) as [Q|Q]; [|exists i; split; [reflexivity|lia]].
    assert (i <> length g - 2)%nat by (intros ->; lra). destruct (IH (S i)) as (m & E & H1); [lia|lia|]. exists m. split; [exact E|lia].
Qed.
Lemma extrapolate_ok key idx i x : In (key, idx) index -> (2 <= length g)%nat -> 0 < entry rows (length g - 2) idx -> (i <= length g - 2)%nat ->
  exists v, @extrapolate RNum g rows idx i x = Ok v.
Proof.
  intros K N P L. unfold extrapolate. destruct (@firstPositive_ok key idx K N P (S (length rows)) i) as (m & E & H); [destruct T as [T0 _]; lia|exact L|].
  toR. rewrite E. cbn [rbind]. rewrite (@cell_ok index g rows m idx key T K) by lia. rewrite (@cell_ok index g rows (S m) idx key T K) by lia. cbn [rbind].
  toR. rewrite (@vget_nth R g m 0) by lia. rewrite (@vget_nth R g (S m) 0) by lia. cbn [rbind]. eexists. reflexivity.
Qed.
Lemma caseA_total i j x0 x1 x s t : In t index -> (2 <= length g)%nat -> (i < length g)%nat -> (j < length g)%nat -> exists s', @caseA RNum g rows b i j x0 x1 x s t = Ok s'.
Proof.
  intros K N I J. destruct t as [key idx]. unfold caseA. destruct (derived key); [eexists; reflexivity|].
  rewrite (@cell_ok index g rows i idx key T K) by lia. rewrite (@cell_ok index g rows j idx key T K) by lia. cbn [rbind].
  destruct (unshelled key) eqn:U; [eexists; reflexivity|]. destruct (Nat.ltb_spec (String.length key) 3) as [L|L]; [|eexists; reflexivity].
  destruct (C _ _ K L) as (e & Be & He). toR. rewrite Be. cbn [num nleb nltb n0 RNum]. destruct (Rleb e x && Rltb 0 e)%bool eqn:Q; [|eexists; reflexivity].
  apply andb_prop in Q. destruct Q as [_ Q]. apply Rltb_true in Q. destruct (He Q) as [P1 P2].
  destruct (Rltb_spec 0 (entry rows i idx)) as [Pi|Pi]; [eexists; reflexivity|].
  assert (X : exists v, @extrapolate RNum g rows idx i x = Ok v).
  { apply (@extrapolate_ok key idx); auto. assert (i <> length g - 1)%nat by (intros ->; lra). lia. }
  destruct X as [v X]. destruct (Rltb (@nsub RNum x1 x0) (@nlit RNum 5 (-10))); cbn [rbind andb].
  - destruct (Rltb 0 (entry rows j idx)); [eexists; reflexivity|]. toR. rewrite X. eexists; reflexivity.
  - toR. rewrite X. eexists; reflexivity.
Qed.
Lemma caseB_total i j x0 x1 x s t : In t index -> (2 <= length g)%nat -> (i < length g)%nat -> (j < length g)%nat -> exists s', @caseB RNum g rows b i j x0 x1 x s t = Ok s'.
Proof.
  intros K N I J. destruct t as [key idx]. unfold caseB. destruct (derived key); [eexists; reflexivity|].
  rewrite (@cell_ok index g rows i idx key T K) by lia. rewrite (@cell_ok index g rows j idx key T K) by lia. cbn [rbind].
  destruct (unshelled key) eqn:U; [eexists; reflexivity|]. destruct (Nat.ltb_spec (String.length key) 3) as [L|L]; [|eexists; reflexivity].
  destruct (C _ _ K L) as (e & Be & He). toR. rewrite Be. cbn [num nleb nltb n0 RNum]. destruct (Rleb e x && Rltb 0 e)%bool eqn:Q; [|eexists; reflexivity].
  apply andb_prop in Q. destruct Q as [_ Q]. apply Rltb_true in Q. destruct (He Q) as [P1 P2].
  destruct (Rltb_spec 0 (entry rows i idx)) as [Pi|Pi]; [eexists; reflexivity|].
  destruct (@extrapolate_ok key idx i x K N P1) as [v X]. { assert (i <> length g - 1)%nat by (intros ->; lra). lia. }
  toR. rewrite X. eexists; reflexivity.
Qed.
Lemma usedPair_range x i j : (i <= j < length g)%nat -> exists i1 i2 x0 x1, @usedPair RNum g x i j = Ok (i1, i2, x0, x1) /\ (i1 < length g)%nat /\ (i2 < length g)%nat.
Proof.
  intros H. unfold usedPair. toR. rewrite (@vget_nth R g i 0) by lia. rewrite (@vget_nth R g j 0) by lia. cbn [rbind].
  destruct (_ && _)%bool eqn:Q; [|do 4 eexists; split; [reflexivity|lia]]. apply andb_prop in Q. destruct Q as [_ Q]. apply Nat.ltb_lt in Q.
  rewrite (@vget_nth R g (j + 1) 0) by exact Q. cbn [rbind]. destruct (@neqb RNum _ _); do 4 eexists; (split; [reflexivity|lia]).
Qed.
Lemma answer_total ep x i j : ep_index ep = index -> (2 <= length g)%nat -> (i <= j < length g)%nat -> exists t, answer ep g rows b x i j = Ok t.
Proof.
  intros EI N H. unfold answer. destruct (@usedPair_range x i j H) as (i1 & i2 & x0 & x1 & -> & H1 & H2). cbn [rbind]. rewrite EI.
  match goal with |- context [rfold ?f ?l ?s0] => assert (X : exists s, rfold f l s0 = Ok s) end.
  { apply rfold_total. intros s t K. destruct (_ || _)%bool; [apply caseA_total|apply caseB_total]; auto. }
  destruct X as [s ->]. cbn [rbind]. eexists. reflexivity.
Qed.
End Total.

(** the value of one column *)
Lemma stepA_any g rows b i j x0 x1 x s key idx s' : msorted sltb s -> @caseA RNum g rows b i j x0 x1 x s (key, idx) = Ok s' ->
  msorted sltb s' /\ (forall q, q <> key -> value s' q = value s q).
Proof.
  intros S E. assert (O : other_nonneg [] rows) by (intros ? ? ? []).
  unfold caseA in E.
  assert (M : forall v, msorted sltb (mset sltb key v s) /\ (forall q, q <> key -> value (mset sltb key v s) q = value s q)).
  { intros v. split; [apply smset_sorted, S|]. intros q Hq. rewrite value_mset by exact S. destruct (String.eqb_spec key q); congruence. }
  assert (M2 : forall v w, msorted sltb (mset sltb key v (mset sltb key w s)) /\ (forall q, q <> key -> value (mset sltb key v (mset sltb key w s)) q = value s q)).
  { intros v w. rewrite mset_twice by exact S. apply M. }
  destruct (derived key); [injection E as <-; auto|]. destruct (unshelled key).
  { destruct (cell rows j idx); try discriminate. injection E as <-. apply M. }
  destruct (Nat.ltb _ 3); [|injection E as <-; auto]. destruct (mfind sltb key b); [|discriminate].
  destruct (_ && _)%bool; [|injection E as <-; apply M]. destruct (cell rows i idx); try discriminate. cbn [rbind] in E.
  match type of E with (if ?c then _ else _) = _ => destruct c end; [injection E as <-; apply M2|].
  match type of E with rbind ?t _ = _ => destruct t; try discriminate end. cbn [rbind] in E. destruct (_ && _)%bool; [injection E as <-; apply M2|].
  destruct (extrapolate _ _ _ _ _); try discriminate. injection E as <-. apply M2.
Qed.
Lemma stepB_any g rows b i j x0 x1 x s key idx s' : msorted sltb s -> @caseB RNum g rows b i j x0 x1 x s (key, idx) = Ok s' ->
  msorted sltb s' /\ (forall q, q <> key -> value s' q = value s q).
Proof.
  intros S E. unfold caseB in E.
  assert (M : forall v, msorted sltb (mset sltb key v s) /\ (forall q, q <> key -> value (mset sltb key v s) q = value s q)).
  { intros v. split; [apply smset_sorted, S|]. intros q Hq. rewrite value_mset by exact S. destruct (String.eqb_spec key q); congruence. }
  assert (M2 : forall v w, msorted sltb (mset sltb key v (mset sltb key w s)) /\ (forall q, q <> key -> value (mset sltb key v (mset sltb key w s)) q = value s q)).
  { intros v w. rewrite mset_twice by exact S. apply M. }
  destruct (derived key); [injection E as <-; auto|]. destruct (unshelled key).
  { destruct (cell rows i idx); try discriminate. cbn [rbind] in E. destruct (cell rows j idx); try discriminate. injection E as <-. apply M. }
  destruct (Nat.ltb _ 3); [|injection E as <-; auto]. destruct (mfind sltb key b); [|discriminate].
  destruct (_ && _)%bool; [|injection E as <-; apply M]. destruct (cell rows i idx); try discriminate. cbn [rbind] in E.
  match type of E with (if ?c then _ else _) = _ => destruct c end.
  { destruct (cell rows j idx); try discriminate. cbn [rbind] in E. injection E as <-. match goal with |- context [if ?c then _ else _] => destruct c end; [apply M2|apply M]. }
  destruct (extrapolate _ _ _ _ _); try discriminate. injection E as <-. apply M2.
Qed.
Lemma answer_value ep g rows b x i j i1 i2 x0 x1 t key idx : msorted sltb (ep_index ep) -> In (key, idx) (ep_index ep) ->
  answer ep g rows b x i j = Ok t -> @usedPair RNum g x i j = Ok (i1, i2, x0, x1) ->
  In key (shells ++ ["coherent"; "compton"]) ->
  exists s s', msorted sltb s /\ mfind sltb key t = Some (value s' key) /\
    (if (Nat.eqb i1 i2 || Rltb (x1 - x0) (Rlit 5 (-10)))%bool then @caseA RNum g rows b i1 i2 x0 x1 x s (key, idx) = Ok s'
     else @caseB RNum g rows b i1 i2 x0 x1 x s (key, idx) = Ok s').
Proof.
  intros IS K E U H. unfold answer in E. rewrite U in E. cbn [rbind] in E. cbv zeta in E.
  match type of E with rbind ?t _ = _ => destruct t as [s| | |] eqn:F; try discriminate end. cbn [rbind] in E. injection E as <-.
  set (P := fun (key : string) (idx : Z) (v : R) => exists s s', msorted sltb s /\ v = value s' key /\
    (if (Nat.eqb i1 i2 || Rltb (x1 - x0) (Rlit 5 (-10)))%bool then @caseA RNum g rows b i1 i2 x0 x1 x s (key, idx) = Ok s'
     else @caseB RNum g rows b i1 i2 x0 x1 x s (key, idx) = Ok s')).
  destruct (fun A => @fold_value _ P (ep_index ep) A (smsorted_NoDup IS) _ s (smset_sorted _ _ (@smsorted_nil R)) F) as (A & B & _).
  { intros s1 key1 idx1 s2 K1 S1 E1. unfold P. destruct (_ || _)%bool; [destruct (@stepA_any g rows b i1 i2 x0 x1 x s1 key1 idx1 s2 S1 E1) as [M1 M2]|destruct (@stepB_any g rows b i1 i2 x0 x1 x s1 key1 idx1 s2 S1 E1) as [M1 M2]];
    (split; [exact M1|]; split; [exact M2|]; exists s1, s2; auto). }
  destruct (finish_spec A) as (_ & FV & _ & _ & _ & FS). destruct (B key idx K) as (s1 & s2 & S1 & V & W). exists s1, s2. split; [exact S1|]. split; [|exact W].
  assert (N : In key (shells ++ ["coherent"; "compton"; "pair"; "photoelectric"; "total"]) /\ ~ In key final_keys).
  { clear - H. cbn in H. repeat (destruct H as [<-|H]; [split; [cbn; auto 20|cbn; intuition discriminate]|]). destruct H. }
  toR. rewrite FS by apply N. rewrite FV by apply N. rewrite V. reflexivity.
Qed.
