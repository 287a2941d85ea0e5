(** EPDL97 at the points of the table; sums; photoelectric weights. *)
From Coq Require Import Ascii String List ZArith Reals Bool Arith Lia Lra.
From Verif Require Import Base.Num Base.Res Base.SMap Base.Str Base.Text Base.ListLemmas Model.EPDL97 Spec.EPDL97Spec Proofs.MathProofs Proofs.EPDL97Proofs.
Import ListNotations.
Set Implicit Arguments.
Local Open Scope R_scope.
Local Existing Instance RNum.

Ltac toR := change (@num RNum) with R in *.

Lemma cell_ok index g rows i idx key : table_ok index g rows -> In (key, idx) index -> (i < length g)%nat ->
  @cell RNum rows i idx = Ok (entry rows i idx).
Proof.
  intros (L & H) K I. destruct (H _ _ K) as [Z0 Hr]. unfold cell. toR. rewrite (@vget_nth _ rows i []) by lia.
  cbn [rbind]. unfold vgetZ. destruct (Z.ltb_spec idx 0); [lia|]. apply vget_nth. apply Hr. apply nth_In. lia.
Qed.

Lemma firstPositive_fuel index g rows key idx : table_ok index g rows -> In (key, idx) index ->
  forall f i, (length g - i <= f)%nat -> @firstPositive RNum f rows idx i = @firstPositive RNum (S f) rows idx i.
Proof.
  intros T K. induction f as [|f IH]; intros i H.
  - cbn [firstPositive]. assert (C : @cell RNum rows i idx = UB).
    { unfold cell. toR. rewrite (@vget_UB _ rows i) by (destruct T as [T _]; lia). reflexivity. }
    rewrite C. reflexivity.
  - change (firstPositive (S f) rows idx i) with
      (rbind (@cell RNum rows i idx) (fun v => if Rleb v 0 then @firstPositive RNum f rows idx (S i) else Ok i)).
    change (firstPositive (S (S f)) rows idx i) with
      (rbind (@cell RNum rows i idx) (fun v => if Rleb v 0 then @firstPositive RNum (S f) rows idx (S i) else Ok i)).
    destruct (@cell RNum rows i idx); [|reflexivity|reflexivity|reflexivity]. cbn [rbind].
    rewrite (IH (S i)) by lia. reflexivity.
Qed.
(** the extrapolation does not depend on a starting row with no positive entry *)
Lemma extrapolate_shift index g rows key idx i x : table_ok index g rows -> In (key, idx) index -> (i < length g)%nat ->
  entry rows i idx <= 0 -> @extrapolate RNum g rows idx i x = @extrapolate RNum g rows idx (S i) x.
Proof.
  intros T K I E. unfold extrapolate. f_equal. toR.
  rewrite <- (@firstPositive_fuel index g rows key idx T K (length rows) (S i)) by (destruct T as [T _]; lia).
  change (firstPositive (S (length rows)) rows idx i) with
      (rbind (@cell RNum rows i idx) (fun v => if Rleb v 0 then @firstPositive RNum (length rows) rows idx (S i) else Ok i)).
  rewrite (@cell_ok index g rows i idx key T K I). cbn [rbind]. destruct (Rleb_spec (entry rows i idx) 0); [reflexivity|lra].
Qed.

Definition stepT (g : list R) (rows : list (list R)) (b : list (string * R)) (k : nat) (result : list (string * R)) (kv : string * Z) : res (list (string * R)) :=
  let '(key, idx) := kv in
  let y := entry rows k idx in
  if derived key then Ok result
  else if unshelled key then Ok (mset sltb key (if Rltb 0 y then y else 0) result)
  else if Nat.ltb (String.length key) 3 then
    match mfind sltb key b with
    | None => Throw RuntimeError
    | Some e =>
        let result := mset sltb key 0 result in
        if (Rleb e (pt g k) && Rltb 0 e)%bool then
          if Rltb 0 y then Ok (mset sltb key y result)
          else (let? v := @extrapolate RNum g rows idx k (pt g k) in Ok (mset sltb key v result))%res
        else Ok result
    end
  else Ok result.

Lemma weights_right x0 x1 : 0 < x0 < x1 -> @weightA RNum x0 x1 x1 = 0 /\ @weightB RNum x0 x1 x1 = 1.
Proof.
  intros H. unfold weightA, weightB. cbn [num n1 nadd nmul ndiv nlog RNum].
  assert (0 < ln (x1 / x0)). { rewrite <- ln_1. apply ln_increasing; [lra|]. apply Rmult_lt_reg_r with x0; [lra|]. unfold Rdiv. rewrite Rmult_assoc, Rinv_l; lra. }
  split; [|field; lra]. replace (x1 / x1) with 1 by (field; lra). rewrite ln_1. ring.
Qed.
Lemma weights_left x0 x1 : 0 < x0 < x1 -> @weightA RNum x0 x1 x0 = 1 /\ @weightB RNum x0 x1 x0 = 0.
Proof.
  intros H. unfold weightA, weightB. cbn [num n1 nadd nmul ndiv nlog RNum].
  assert (0 < ln (x1 / x0)). { rewrite <- ln_1. apply ln_increasing; [lra|]. apply Rmult_lt_reg_r with x0; [lra|]. unfold Rdiv. rewrite Rmult_assoc, Rinv_l; lra. }
  split; [field; lra|]. replace (x0 / x0) with 1 by (field; lra). rewrite ln_1. ring.
Qed.
Lemma mset_twice {V} k (u v : V) m : msorted sltb m -> mset sltb k v (mset sltb k u m) = mset sltb k v m.
Proof.
  intros S. apply (@smsorted_ext V).
  - apply smset_sorted, smset_sorted, S.
  - apply smset_sorted, S.
  - intros q. destruct (string_dec k q) as [<-|N].
    + rewrite !smfind_mset_same. reflexivity.
    + rewrite !smfind_mset_other; auto. apply smset_sorted, S.
Qed.

Lemma lit5_10 : Rlit 5 (-10) = 5 / 10000000000. Proof. unfold Rlit; simpl; lra. Qed.
Lemma lit1_5 : Rlit 1 (-5) = / 100000. Proof. unfold Rlit; simpl; lra. Qed.

Lemma fold_step_eq {S T} (P : S -> Prop) (f h : S -> T -> res S) l :
  (forall s t s', In t l -> P s -> h s t = Ok s' -> P s') -> (forall s t, In t l -> P s -> f s t = h s t) ->
  forall s, P s -> rfold f l s = rfold h l s.
Proof.
  induction l as [|t l IH]; intros Q E s Ps; [reflexivity|]. cbn [rfold]. rewrite (E s t) by (auto; left; reflexivity).
  destruct (h s t) as [s'| | |] eqn:H; [|reflexivity|reflexivity|reflexivity]. cbn [rbind]. apply IH.
  - intros; eapply Q; eauto. right; assumption.
  - intros; apply E; auto. right; assumption.
  - eapply Q; eauto. left; reflexivity.
Qed.

Section Point.
Variables (index : list (string * Z)) (g : list R) (rows : list (list R)) (b : list (string * R)) (k : nat).
Hypothesis T : table_ok index g rows.
Hypothesis I : isolated g k.
Hypothesis Reg : regular index g rows k.
Let x := pt g k.

Lemma stepT_sorted s t s' : In t index -> msorted sltb s -> stepT g rows b k s t = Ok s' -> msorted sltb s'.
Proof.
  intros _ S. destruct t as [key idx]. unfold stepT. destruct (derived key); [intros E; injection E as <-; exact S|].
  destruct (unshelled key); [intros E; injection E as <-; apply smset_sorted, S|].
  destruct (Nat.ltb _ 3); [|intros E; injection E as <-; exact S]. destruct (mfind sltb key b); [|discriminate].
  destruct (_ && _)%bool; [|intros E; injection E as <-; apply smset_sorted, S].
  destruct (Rltb _ _); [intros E; injection E as <-; apply smset_sorted, smset_sorted, S|].
  destruct (extrapolate _ _ _ _ _); try discriminate. cbn [rbind]. intros E; injection E as <-; apply smset_sorted, smset_sorted, S.
Qed.

Lemma vget_pt i : (i < length g)%nat -> vget g i = Ok (pt g i).
Proof. intros H. apply vget_nth. exact H. Qed.
Lemma extrapolate_point idx key : In (key, idx) index -> 0 < entry rows k idx -> (k + 1 < length g)%nat ->
  @extrapolate RNum g rows idx k x = Ok (entry rows k idx).
Proof.
  intros K P L. destruct I as (K1 & X0 & X1 & X2). specialize (X2 L). unfold extrapolate.
  change (firstPositive (S (length (A := list num) rows)) rows idx k) with
    (rbind (@cell RNum rows k idx) (fun v => if Rleb v 0 then @firstPositive RNum (length rows) rows idx (S k) else Ok k)).
  rewrite (@cell_ok index g rows k idx key T K) by lia. cbn [rbind]. destruct (Rleb_spec (entry rows k idx) 0); [lra|]. cbn [rbind].
  rewrite (@cell_ok index g rows k idx key T K) by lia. rewrite (@cell_ok index g rows (S k) idx key T K) by lia. cbn [rbind].
  toR. rewrite (vget_pt (i := k)) by lia. rewrite (vget_pt (i := S k)) by lia. cbn [rbind].
  replace (S k) with (k + 1)%nat by lia. destruct (@weights_left (pt g k) (pt g (k + 1))) as [A B]; [lra|]. unfold x. toR. rewrite A, B.
  f_equal. cbn [nexp nadd nmul nlog RNum]. rewrite Rmult_1_l, Rmult_0_l, Rplus_0_r. apply exp_ln. exact P.
Qed.

(** the pair (k - 1, k) *)
Lemma caseB_left s t : In t index -> msorted sltb s ->
  caseB g rows b (k - 1) k (pt g (k - 1)) (pt g k) x s t = stepT g rows b k s t.
Proof.
  intros K Ss. destruct t as [key idx]. destruct I as (K1 & X0 & X1 & X2). destruct (Reg _ _ K) as [R1 R2].
  unfold caseB, stepT. destruct (@weights_right (pt g (k - 1)) (pt g k)) as [A B]; [lra|]. fold x in A, B |- *. toR. rewrite A, B.
  destruct (derived key); [reflexivity|].
  rewrite (@cell_ok index g rows (k - 1) idx key T K) by lia. rewrite (@cell_ok index g rows k idx key T K) by lia.
  set (y0 := entry rows (k - 1) idx) in *. set (y1 := entry rows k idx) in *.
  assert (E : 0 < y1 -> exp (0 * ln y0 + 1 * ln y1) = y1) by (intros P; rewrite Rmult_0_l, Rmult_1_l, Rplus_0_l; apply exp_ln; exact P).
  assert (E' : 0 < y1 -> exp (1 * ln y1) = y1) by (intros P; rewrite Rmult_1_l; apply exp_ln; exact P).
  cbn [rbind nltb nleb nsub nexp nlog nadd nmul n0 nlit RNum]. rewrite lit1_5.
  destruct (unshelled key).
  { f_equal. f_equal. destruct (Rltb_spec 0 y0); destruct (Rltb_spec 0 y1); cbn [andb]; auto; try lra.
    destruct (Rltb_spec (/ 100000) (x - pt g (k - 1))) as [Q|Q]; [auto|]. unfold x in Q. lra. }
  destruct (Nat.ltb _ 3); [|reflexivity]. destruct (mfind sltb key b) as [e|]; [|reflexivity].
  destruct (Rleb e x && Rltb 0 e)%bool; [|reflexivity].
  destruct (Rltb_spec 0 y0) as [P0|P0].
  - specialize (R1 P0). destruct (Rltb_spec 0 y1); [|lra]. cbn [andb]. rewrite E; auto.
  - assert (Sh : @extrapolate RNum g rows idx (k - 1) x = @extrapolate RNum g rows idx k x).
    { replace k with (S (k - 1)) at 2 by lia. apply (@extrapolate_shift index g rows key idx); auto; try lia. fold y0. lra. }
    rewrite Sh. destruct (Rltb_spec 0 y1) as [P1|P1]; [|reflexivity].
    destruct (Nat.ltb_spec (k + 1) (length g)) as [L|L].
    + rewrite (@extrapolate_point idx key) by auto. reflexivity.
    + exfalso. destruct (Nat.ltb_spec (k + 1) (length g)); [lia|]. fold y0 in R2. lra.
Qed.
(** the pair (k, k + 1) *)
Lemma caseB_right s t : In t index -> msorted sltb s -> (k + 1 < length g)%nat ->
  caseB g rows b k (k + 1) (pt g k) (pt g (k + 1)) x s t = stepT g rows b k s t.
Proof.
  intros K Ss L. destruct t as [key idx]. destruct I as (K1 & X0 & X1 & X2). specialize (X2 L). destruct (Reg _ _ K) as [R1 R2].
  destruct (Nat.ltb_spec (k + 1) (length g)) as [_|Q]; [|lia].
  unfold caseB, stepT. destruct (@weights_left (pt g k) (pt g (k + 1))) as [A B]; [lra|]. fold x in A, B |- *. toR. rewrite A, B.
  destruct (derived key); [reflexivity|].
  rewrite (@cell_ok index g rows k idx key T K) by lia. rewrite (@cell_ok index g rows (k + 1) idx key T K) by lia.
  set (y0 := entry rows k idx) in *. set (y1 := entry rows (k + 1) idx) in *.
  assert (E : 0 < y0 -> exp (1 * ln y0 + 0 * ln y1) = y0) by (intros P; rewrite Rmult_0_l, Rmult_1_l, Rplus_0_r; apply exp_ln; exact P).
  cbn [rbind nltb nleb nsub nexp nlog nadd nmul n0 nlit RNum]. rewrite lit1_5.
  destruct (unshelled key).
  { f_equal. f_equal. destruct (Rltb_spec 0 y0); destruct (Rltb_spec 0 y1); cbn [andb]; auto; try lra.
    destruct (Rltb_spec (/ 100000) (x - x)) as [Q|Q]; [lra|reflexivity]. }
  destruct (Nat.ltb _ 3); [|reflexivity]. destruct (mfind sltb key b) as [e|]; [|reflexivity].
  destruct (Rleb e x && Rltb 0 e)%bool; [|reflexivity].
  destruct (Rltb_spec 0 y0) as [P0|P0]; [|reflexivity].
  specialize (R2 P0). destruct (Rltb_spec 0 y1); [|lra]. cbn [andb]. rewrite E; auto.
Qed.
(** the pair (k, k) at the last point *)
Lemma caseA_last s t : In t index -> msorted sltb s -> (k + 1 = length g)%nat ->
  caseA g rows b k k (pt g k) (pt g k) x s t = stepT g rows b k s t.
Proof.
  intros K Ss L. destruct t as [key idx]. destruct I as (K1 & X0 & X1 & X2). destruct (Reg _ _ K) as [R1 R2].
  destruct (Nat.ltb_spec (k + 1) (length g)) as [Q|_]; [lia|]. specialize (R1 R2).
  unfold caseA, stepT. fold x. toR.
  destruct (derived key); [reflexivity|].
  rewrite (@cell_ok index g rows k idx key T K) by lia. set (y0 := entry rows k idx) in *.
  cbn [rbind nltb nleb nsub nexp nlog nadd nmul n0 nlit RNum].
  destruct (Rltb_spec 0 y0) as [P0|P0]; [|lra].
  destruct (unshelled key); [reflexivity|].
  destruct (Nat.ltb _ 3); [|reflexivity]. destruct (mfind sltb key b) as [e|]; [|reflexivity].
  destruct (Rleb e x && Rltb 0 e)%bool; reflexivity.
Qed.

Definition answerT : res (list (string * R)) :=
  (let? r := rfold (stepT g rows b k) index (mset sltb "energy"%string x []) in Ok (@finish RNum r))%res.

Lemma start_sorted : msorted sltb (mset sltb "energy"%string x []).
Proof. apply smset_sorted, smsorted_nil. Qed.

Lemma usedPair_stays i j : (i <= j < length g)%nat -> (x = pt g j -> (j + 1 < length g)%nat -> pt g (j + 1) <> pt g j) ->
  @usedPair RNum g x i j = Ok (i, j, pt g i, pt g j).
Proof.
  intros H N. unfold usedPair. toR. rewrite (vget_pt (i := i)) by lia. rewrite (vget_pt (i := j)) by lia. cbn [rbind neqb RNum].
  destruct (Reqb_spec x (pt g j)) as [E|E]; [|reflexivity]. cbn [andb]. change (@length R g) with (length g).
  destruct (Nat.ltb_spec (j + 1) (length g)) as [L|L]; [|reflexivity]. rewrite (vget_pt (i := (j + 1)%nat)) by lia. cbn [rbind].
  destruct (Reqb_spec (pt g (j + 1)) (pt g j)) as [Q|Q]; [|reflexivity]. exfalso. exact (N E L Q).
Qed.
Lemma answer_left ep : ep_index ep = index -> answer ep g rows b x (k - 1) k = answerT.
Proof.
  intros EI. pose proof I as (K1 & X0 & X1 & X2). unfold answer. rewrite usedPair_stays; [|lia|intros _ L; specialize (X2 L); lra].
  cbn [rbind]. rewrite lit5_10. destruct (Nat.eqb_spec (k - 1) k); [lia|]. cbn [orb]. destruct (Rltb_spec (pt g k - pt g (k - 1)) (5 / 10000000000)); [lra|].
  rewrite EI. unfold answerT. f_equal. apply (@fold_step_eq _ _ (fun s => msorted sltb s)).
  - intros; eapply stepT_sorted; eauto.
  - intros; apply caseB_left; auto.
  - apply start_sorted.
Qed.
Lemma answer_right ep : ep_index ep = index -> (k + 1 < length g)%nat -> answer ep g rows b x k (k + 1) = answerT.
Proof.
  intros EI L. pose proof I as (K1 & X0 & X1 & X2). specialize (X2 L). unfold answer. rewrite usedPair_stays; [|lia|unfold x; lra].
  cbn [rbind]. rewrite lit5_10. destruct (Nat.eqb_spec k (k + 1)); [lia|]. cbn [orb]. destruct (Rltb_spec (pt g (k + 1) - pt g k) (5 / 10000000000)); [lra|].
  rewrite EI. unfold answerT. f_equal. apply (@fold_step_eq _ _ (fun s => msorted sltb s)).
  - intros; eapply stepT_sorted; eauto.
  - intros; apply caseB_right; auto.
  - apply start_sorted.
Qed.
Lemma answer_last ep : ep_index ep = index -> (k + 1 = length g)%nat -> answer ep g rows b x k k = answerT.
Proof.
  intros EI L. pose proof I as (K1 & X0 & X1 & X2). unfold answer. rewrite usedPair_stays; [|lia|lia].
  cbn [rbind]. rewrite Nat.eqb_refl. cbn [orb].
  rewrite EI. unfold answerT. f_equal. apply (@fold_step_eq _ _ (fun s => msorted sltb s)).
  - intros; eapply stepT_sorted; eauto.
  - intros; apply caseA_last; auto.
  - apply start_sorted.
Qed.
Lemma query_point ep z last : nondecreasing g -> data_of ep z g rows b -> ep_index ep = index ->
  snd (getMassAttenuationCoefficients last ep z x) = answerT.
Proof.
  intros ND D EI. pose proof I as (K1 & X0 & X1 & X2).
  destruct (@indices_spec g x last ND) as (i & j & l & E & _ & Hj & In1 & _ & In2 & _); [lia|].
  rewrite (@query_answer ep z g rows b last x i j l D E). cbn [snd].
  assert (G0 : pt g 0 <= x) by (apply ND; lia).
  assert (M : forall a c, (a <= c < length g)%nat -> pt g a <= pt g c) by (intros; apply ND; assumption).
  destruct (Nat.ltb_spec (k + 1) (length g)) as [L|L].
  - specialize (X2 L). assert (x < pt g (length g - 1)). { specialize (M (k + 1)%nat (length g - 1)%nat). unfold x. assert (pt g (k + 1) <= pt g (length g - 1)) by (apply M; lia). lra. }
    destruct In1 as [-> [B1 B2]]; auto.
    assert (i = k \/ i = k - 1)%nat as [->| ->].
    { destruct (Nat.lt_trichotomy i k) as [C|[C|C]]; [right|left; exact C|exfalso].
      - destruct (Nat.eq_dec i (k - 1)); [assumption|exfalso]. assert (pt g (S i) <= pt g (k - 1)) by (apply M; lia). unfold x in *. lra.
      - assert (pt g (k + 1) <= pt g i) by (apply M; lia). unfold x in *. lra. }
    + replace (S k) with (k + 1)%nat by lia. apply answer_right; auto.
    + replace (S (k - 1)) with k by lia. apply answer_left; auto.
  - assert (Ek : (k = length g - 1)%nat) by lia. destruct In2 as [(-> & B1 & B2)|[-> ->]].
    + unfold x. rewrite Ek. lra.
    + assert (i = k - 1)%nat as ->.
      { destruct (Nat.eq_dec i (k - 1)); [assumption|exfalso]. assert (pt g (S i) <= pt g (k - 1)) by (apply M; lia). destruct B2 as [B2|B2]; [unfold x in *; lra|lia]. }
      replace (S (k - 1)) with k by lia. apply answer_left; auto.
    + rewrite <- Ek. apply answer_last; auto. lia.
Qed.
End Point.
