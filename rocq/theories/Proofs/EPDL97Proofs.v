(** The interpolation indices of EPDL97. *)
From Coq Require Import Ascii String List ZArith Reals Bool Arith Lia Lra.
From Verif Require Import Base.Num Base.Res Base.SMap Base.Str Base.Text Base.ListLemmas Model.EPDL97 Spec.EPDL97Spec Proofs.MathProofs.
Import ListNotations.
Set Implicit Arguments.
Local Open Scope R_scope.
Local Existing Instance RNum.

Lemma bisect_spec (g : list R) (x : R) : forall fuel last iMin iMax,
  (iMin <= iMax < length g)%nat -> (iMax - iMin <= fuel)%nat -> (last < length g)%nat ->
  exists i j last', bisect fuel g x last iMin iMax = Ok (i, j, last') /\ (last' < length g)%nat /\
    (iMin <= i)%nat /\ (j <= iMax)%nat /\ (j = S i \/ (i = iMin /\ j = iMin /\ iMax = iMin)) /\
    (i = iMin \/ pt g i < x) /\ (j = iMax \/ x <= pt g j).
Proof.
  induction fuel as [|f IH]; intros last iMin iMax H F L; cbn [bisect].
  - destruct (Nat.leb_spec (iMax - iMin) 1); [|lia]. exists iMin, iMax, last. repeat split; try lia; auto.
  - destruct (Nat.leb_spec (iMax - iMin) 1) as [D|D].
    + exists iMin, iMax, last. repeat split; try lia; auto.
    + set (d := if Nat.ltb 2 (iMax - iMin) then Nat.div2 (iMax - iMin) else (iMax - iMin - 1)%nat).
      assert (Hd : (1 <= d < iMax - iMin)%nat).
      { unfold d. destruct (Nat.ltb_spec 2 (iMax - iMin)) as [K|K]; [|lia]. split.
        - destruct (iMax - iMin)%nat as [|[|m]]; try lia. cbn. lia.
        - apply Nat.lt_div2. lia. }
      rewrite (@vget_nth (@num RNum) g (iMin + d) 0%R) by (change (iMin + d < @length R g)%nat; lia). cbn [rbind]. cbn [nltb RNum].
      change (nth (iMin + d) g 0) with (pt g (iMin + d)). destruct (Rltb_spec (pt g (iMin + d)) x) as [C|C].
      * destruct (IH (iMin + d)%nat (iMin + d)%nat iMax) as (i & j & l & E & A1 & A2 & A3 & A4 & A5 & A6); try lia.
        exists i, j, l. split; [exact E|]. repeat split; try lia; auto. destruct A5 as [->|A5]; auto.
      * destruct (IH (iMin + d)%nat iMin (iMin + d)%nat) as (i & j & l & E & A1 & A2 & A3 & A4 & A5 & A6); try lia.
        exists i, j, l. split; [exact E|]. repeat split; try lia; auto. destruct A6 as [->|A6]; auto. right. lra.
Qed.

Lemma indices_spec (g : list R) (x : R) (last : nat) : nondecreasing g -> (2 <= length g)%nat ->
  exists i j last', getInterpolationIndices last g x = Ok (i, j, last') /\ (last' < length g)%nat /\
    (j < length g)%nat /\
    (pt g 0 <= x -> x < pt g (length g - 1) -> j = S i /\ pt g i <= x <= pt g j) /\
    (x < pt g 0 -> i = 0%nat /\ j = (if Nat.eqb last 0 then 0 else 1)%nat) /\
    (pt g (length g - 1) <= x -> (j = S i /\ pt g i <= x /\ (x <= pt g j \/ j = (length g - 1)%nat)) \/ (i = length g - 1 /\ j = length g - 1)%nat) /\
    (pt g (length g - 1) < x -> j = (length g - 1)%nat /\ i = (if Nat.ltb last (length g - 1) then length g - 2 else length g - 1)%nat).
Proof.
  intros S N. unfold getInterpolationIndices. set (n := @length R g) in *. change (@length (@num RNum) g) with n. cbv zeta.
  destruct (Nat.eqb_spec n 0); [lia|]. set (l := if Nat.leb n last then (n - 1)%nat else last).
  assert (Hl : (l < n)%nat) by (unfold l; destruct (Nat.leb_spec n last); lia).
  assert (Hl0 : l = 0%nat <-> last = 0%nat) by (unfold l; destruct (Nat.leb_spec n last); lia).
  assert (Hln : l = (n - 1)%nat <-> (n - 1 <= last)%nat) by (unfold l; destruct (Nat.leb_spec n last); lia).
  rewrite (@vget_nth (@num RNum) g l 0) by exact Hl. cbn [rbind nltb RNum]. change (nth l g 0) with (pt g l).
  assert (G : forall a b, (a <= b < n)%nat -> pt g a <= pt g b) by (intros; apply S; assumption).
  destruct (Rltb_spec x (pt g l)) as [C|C].
  - destruct (@bisect_spec g x n l 0 l) as (i & j & l' & E & A1 & A2 & A3 & A4 & A5 & A6); try (fold n; lia).
    exists i, j, l'. split; [exact E|]. split; [exact A1|]. split; [lia|].
    assert (Lx : x < pt g (n - 1)) by (specialize (G l (n - 1)%nat); assert (pt g l <= pt g (n - 1)) by (apply G; lia); lra).
    split; [|split; [|split]].
    + intros H0 _. assert (l <> 0)%nat by (intros K; rewrite K in C; lra).
      split; [destruct A4 as [A4|A4]; lia|]. split; [destruct A5 as [->|A5]; [exact H0|lra]|].
      destruct A6 as [->|A6]; lra.
    + intros H0. assert (i = 0)%nat. { destruct A5 as [A5|A5]; [exact A5|]. assert (pt g 0 <= pt g i) by (apply G; lia). lra. }
      subst i. split; [reflexivity|]. destruct (Nat.eqb_spec last 0) as [K|K]; [apply Hl0 in K|]; destruct A4 as [A4|A4]; try lia.
      
    + intros K. lra.
    + intros K. lra.
  - assert (Hx : pt g l <= x) by lra.
    assert (K : forall a iMax, (a < n)%nat -> (l <= iMax < n)%nat -> (iMax = (n - 1)%nat \/ x < pt g iMax) ->
      exists i j last', bisect n g x a l iMax = Ok (i, j, last') /\ (last' < n)%nat /\ (j < n)%nat /\
       (pt g 0 <= x -> x < pt g (n - 1) -> j = Datatypes.S i /\ pt g i <= x <= pt g j) /\
       (x < pt g 0 -> i = 0%nat /\ j = (if Nat.eqb last 0 then 0 else 1)%nat) /\
       (pt g (n - 1) <= x -> (j = Datatypes.S i /\ pt g i <= x /\ (x <= pt g j \/ j = (n - 1)%nat)) \/ (i = n - 1 /\ j = n - 1)%nat) /\
       (pt g (n - 1) < x -> j = (n - 1)%nat /\ i = (if Nat.ltb last (n - 1) then n - 2 else n - 1)%nat)).
    { intros a iMax Ha Hm Hb. destruct (@bisect_spec g x n a l iMax) as (i & j & l' & E & A1 & A2 & A3 & A4 & A5 & A6); try (fold n; lia).
      exists i, j, l'. split; [exact E|]. split; [exact A1|]. split; [lia|].
      assert (Hi : pt g i <= x) by (destruct A5 as [->|A5]; lra).
      split; [|split; [|split]].
      - intros _ H1. assert (j = Datatypes.S i).
        { destruct A4 as [A4|(A4 & A4' & A4'')]; [exact A4|]. exfalso. destruct Hb as [Hb|Hb]; [rewrite <- Hb, A4'' in H1; lra|rewrite A4'' in Hb; lra]. }
        split; [assumption|]. split; [exact Hi|]. destruct A6 as [->|A6]; [|lra]. destruct Hb as [->|Hb]; lra.
      - intros H0. assert (pt g 0 <= pt g l) by (apply G; lia). lra.
      - intros _. destruct A4 as [A4|(A4 & A4' & A4'')].
        + left. split; [exact A4|]. split; [exact Hi|]. destruct A6 as [->|A6]; [|left; lra]. destruct Hb as [->|Hb]; [right; reflexivity|left; lra].
        + destruct Hb as [Hb|Hb]; [right; lia|]. left. exfalso. rewrite A4'' in Hb. lra.
      - intros H1. assert (j = n - 1)%nat.
        { destruct A6 as [->|A6].
          - destruct Hb as [->|Hb]; [reflexivity|]. assert (pt g iMax <= pt g (n - 1)) by (apply G; lia). lra.
          - assert (pt g j <= pt g (n - 1)) by (apply G; lia). lra. }
        split; [assumption|]. destruct (Nat.ltb_spec last (n - 1)) as [Q|Q]; destruct A4 as [A4|A4]; try lia. }
    destruct (Nat.ltb_spec 21 (n - l)) as [D|D].
    + rewrite (@vget_nth (@num RNum) g (l + 20) 0) by (change (l + 20 < n)%nat; lia). cbn [rbind]. change (nth (l + 20) g 0) with (pt g (l + 20)).
      destruct (Rltb_spec x (pt g (l + 20))); apply K; try lia; auto.
    + apply K; try lia; auto.
Qed.

(** *** The answer as a function of the pair of indices *)
Definition answer (ep : @epdl RNum) (g : list R) (rows : list (list R)) (b : list (string * R)) (x : R) (i j : nat) : res (list (string * R)) :=
  (let? p := usedPair g x i j in
   let '(i1, i2, x0, x1) := p in
   let step := if (Nat.eqb i1 i2 || Rltb (x1 - x0) (Rlit 5 (-10)))%bool then caseA g rows b i1 i2 x0 x1 x else caseB g rows b i1 i2 x0 x1 x in
   let? r := rfold step (ep_index ep) (mset sltb "energy"%string x []) in
   Ok (finish r))%res.

Lemma zRow_data (ep : @epdl RNum) z g rows b : data_of ep z g rows b ->
  vgetZ (ep_energy ep) (zRow ep z) = Ok g /\ vgetZ (ep_values ep) (zRow ep z) = Ok rows /\ vgetZ (ep_binding ep) (zRow ep z) = Ok b.
Proof.
  intros (I & Z1 & H1 & H2 & H3). set (i := Nat.min _ _) in *.
  assert (L : (0 < length (ep_energy ep))%nat).
  { destruct (ep_energy ep); [destruct i; discriminate H1|cbn; lia]. }
  assert (E : zRow ep z = Z.of_nat i).
  { unfold zRow. assert (Hi : i = Nat.min (Z.to_nat (z - 1)) (length (ep_energy ep) - 1)) by reflexivity. clearbody i.
    rewrite Z.gtb_ltb. destruct (Z.ltb_spec (Z.of_nat (length (ep_energy ep)) - 1) (z - 1)); lia. }
  rewrite E. unfold vgetZ. destruct (Z.ltb_spec (Z.of_nat i) 0); [lia|]. rewrite Nat2Z.id. unfold vget.
  rewrite H1, H2, H3. auto.
Qed.
Lemma query_answer (ep : @epdl RNum) z g rows b last x i j l : data_of ep z g rows b ->
  getInterpolationIndices last g x = Ok (i, j, l) -> getMassAttenuationCoefficients last ep z x = (l, answer ep g rows b x i j).
Proof.
  intros D E. destruct (zRow_data D) as (A & B & C). destruct D as (I & Z1 & _).
  unfold getMassAttenuationCoefficients. rewrite I. cbn [negb]. destruct (Z.ltb_spec z 1); [lia|].
  rewrite A. replace (@getInterpolationIndices RNum last g x) with (@Ok (nat * nat * nat) (i, j, l)) by (symmetry; exact E).
  f_equal. unfold answer. destruct (usedPair g x i j) as [[[[a c] x0] x1]| | |]; [|reflexivity|reflexivity|reflexivity].
  cbn [rbind]. rewrite B. cbn [rbind]. rewrite C. reflexivity.
Qed.

Lemma bracket_unique (g : list R) (x : R) (i j : nat) : nondecreasing g -> (S i < length g)%nat -> (S j < length g)%nat ->
  pt g i < x < pt g (S i) -> pt g j <= x <= pt g (S j) -> i = j.
Proof.
  intros S Hi Hj A B. destruct (Nat.lt_trichotomy i j) as [C|[C|C]]; [exfalso|exact C|exfalso].
  - assert (pt g (Datatypes.S i) <= pt g j) by (apply S; lia). lra.
  - assert (pt g (Datatypes.S j) <= pt g i) by (apply S; lia). lra.
Qed.
