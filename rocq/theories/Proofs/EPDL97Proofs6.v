(** C66: interpolation between points and at absorption edges. *)
From Coq Require Import Ascii String List ZArith Reals Bool Arith Lia Lra.
From Verif Require Import Base.Num Base.Res Base.SMap Base.Str Base.Text Base.ListLemmas Base.RSum Model.EPDL97 Spec.EPDL97Spec
  Proofs.MathProofs Proofs.EPDL97Proofs Proofs.EPDL97Proofs2 Proofs.EPDL97Proofs3 Proofs.EPDL97Proofs4 Proofs.EPDL97Proofs5.
Import ListNotations.
Set Implicit Arguments.
Local Open Scope string_scope.
Local Open Scope R_scope.
Local Existing Instance RNum.
Ltac toR := change (@num RNum) with R in *.

Lemma kinds key : (In key scattering -> derived key = false /\ unshelled key = true) /\
  (In key subshells -> derived key = false /\ unshelled key = false /\ Nat.ltb (String.length key) 3 = true).
Proof.
  split; intros H; cbn in H; repeat (destruct H as [<-|H]; [repeat split|]); destruct H.
Qed.
Lemma weights_loglog x0 x1 y0 y1 x :
  exp (@weightA RNum x0 x1 x * ln y0 + @weightB RNum x0 x1 x * ln y1) = loglog x0 x1 y0 y1 x.
Proof.
  unfold weightA, weightB, loglog. cbn [nlog ndiv nmul n1 RNum]. f_equal. unfold Rdiv. ring.
Qed.
Lemma loglog_left x0 x1 y0 y1 : 0 < x0 < x1 -> 0 < y0 -> loglog x0 x1 y0 y1 x0 = y0.
Proof.
  intros H Y. rewrite <- weights_loglog. destruct (@weights_left x0 x1 H) as [-> ->]. rewrite Rmult_1_l, Rmult_0_l, Rplus_0_r. apply exp_ln, Y.
Qed.
Lemma loglog_right x0 x1 y0 y1 : 0 < x0 < x1 -> 0 < y1 -> loglog x0 x1 y0 y1 x1 = y1.
Proof.
  intros H Y. rewrite <- weights_loglog. destruct (@weights_right x0 x1 H) as [-> ->]. rewrite Rmult_1_l, Rmult_0_l, Rplus_0_l. apply exp_ln, Y.
Qed.
Lemma loglog_between x0 x1 y0 y1 x : 0 < x0 -> x0 <= x <= x1 -> x0 < x1 -> 0 < y0 -> 0 < y1 ->
  Rmin y0 y1 <= loglog x0 x1 y0 y1 x <= Rmax y0 y1.
Proof.
  intros P X L Y0 Y1. unfold loglog. set (d := ln (x1 / x0)). set (a := ln (x1 / x)). set (c := ln (x / x0)).
  assert (LN : forall u v, 0 < u -> 0 < v -> ln (u / v) = ln u - ln v).
  { intros u v U V. unfold Rdiv. rewrite ln_mult by (try assumption; apply Rinv_0_lt_compat; assumption). rewrite ln_Rinv by assumption. ring. }
  assert (MONO : forall u v, 0 < u -> u <= v -> ln u <= ln v).
  { intros u v U [V|<-]; [left; apply ln_increasing; assumption|right; reflexivity]. }
  assert (D : 0 < d). { unfold d. rewrite LN by lra. assert (ln x0 < ln x1) by (apply ln_increasing; lra). lra. }
  assert (A : 0 <= a). { unfold a. rewrite LN by lra. assert (ln x <= ln x1) by (apply MONO; lra). lra. }
  assert (C : 0 <= c). { unfold c. rewrite LN by lra. assert (ln x0 <= ln x) by (apply MONO; lra). lra. }
  assert (S : a + c = d) by (unfold a, c, d; rewrite !LN by lra; ring).
  set (m := Rmin y0 y1). set (M := Rmax y0 y1).
  assert (m0 : 0 < m) by (unfold m, Rmin; destruct (Rle_dec y0 y1); assumption).
  assert (M0 : 0 < M) by (unfold M, Rmax; destruct (Rle_dec y0 y1); assumption).
  assert (E0 : ln m <= ln y0 <= ln M) by (split; apply MONO; try assumption; [apply Rmin_l|apply Rmax_l]).
  assert (E1 : ln m <= ln y1 <= ln M) by (split; apply MONO; try assumption; [apply Rmin_r|apply Rmax_r]).
  assert (EXP : forall u v, u <= v -> exp u <= exp v).
  { intros u v [V|<-]; [left; apply exp_increasing; exact V|right; reflexivity]. }
  split.
  - rewrite <- (exp_ln m m0). apply EXP. apply (Rmult_le_reg_r d); [exact D|]. unfold Rdiv. rewrite Rmult_assoc, Rinv_l by lra. rewrite Rmult_1_r, <- S. nra.
  - rewrite <- (exp_ln M M0). apply EXP. apply (Rmult_le_reg_r d); [exact D|]. unfold Rdiv. rewrite Rmult_assoc, Rinv_l by lra. rewrite Rmult_1_r, <- S. nra.
Qed.

Section Steps.
Variables (index : list (string * Z)) (g : list R) (rows : list (list R)) (b : list (string * R)).
Hypothesis T : table_ok index g rows.
Variables (key : string) (idx : Z).
Hypothesis K : In (key, idx) index.

Lemma shell_cases x : (excited b key x \/ ~ excited b key x) /\
  forall e, mfind sltb key b = Some e -> (Rleb e x && Rltb 0 e)%bool = true <-> excited b key x.
Proof.
  split.
  - destruct (mfind sltb key b) as [e|] eqn:B.
    + destruct (Rlt_dec 0 e); destruct (Rle_dec e x); [left; exists e; split; [exact B|lra]| | | ];
        (right; intros (e' & B' & H); rewrite B in B'; injection B' as <-; lra).
    + right. intros (e' & B' & H). congruence.
  - intros e B. split.
    + intros H. apply andb_prop in H. destruct H as [H1 H2]. exists e. split; [exact B|]. apply Rleb_true in H1. apply Rltb_true in H2. lra.
    + intros (e' & B' & H). rewrite B in B'. injection B' as <-. apply andb_true_intro. split; [apply Rleb_true; lra|apply Rltb_true; lra].
Qed.
Lemma caseA_value i j x0 x1 x s s' : (i < length g)%nat -> (j < length g)%nat -> msorted sltb s -> caseA g rows b i j x0 x1 x s (key, idx) = Ok s' ->
  (In key scattering -> value s' key = entry rows j idx) /\
  (In key subshells -> (~ excited b key x -> value s' key = 0) /\
     (excited b key x -> 0 < entry rows i idx -> value s' key = entry rows i idx) /\
     (excited b key x -> entry rows i idx <= 0 -> x1 - x0 < Rlit 5 (-10) -> 0 < entry rows j idx -> value s' key = entry rows j idx)).
Proof.
  intros Hi Hj Ss E. unfold caseA in E. toR.
  assert (VM : forall v m, msorted sltb m -> value (mset sltb key v m) key = v) by (intros v m Sm; rewrite value_mset by exact Sm; rewrite String.eqb_refl; reflexivity).
  rewrite (@cell_ok index g rows i idx key T K Hi) in E. rewrite (@cell_ok index g rows j idx key T K Hj) in E. cbn [rbind] in E.
  destruct (kinds key) as [K1 K2]. split; intros H.
  - destruct (K1 H) as [D U]. rewrite D, U in E. injection E as <-. apply VM, Ss.
  - destruct (K2 H) as (D & U & L). rewrite D, U, L in E. destruct (mfind sltb key b) as [e|] eqn:B; [|discriminate].
    destruct (@shell_cases x) as [_ SC]. specialize (SC e B). cbn [nltb nleb n0 RNum] in E.
    set (c := (Rleb e x && Rltb 0 e)%bool) in *. destruct c.
    + assert (X : excited b key x) by (apply SC; reflexivity). split; [intros N; contradiction|]. destruct (Rltb_spec 0 (entry rows i idx)) as [P|P].
      * injection E as <-. split; [intros _ _; apply VM, smset_sorted, Ss|intros; lra].
      * split; [intros; lra|]. intros _ _ Q P1. change (@nlit RNum) with Rlit in E. change (@nsub RNum) with Rminus in E. rewrite (proj2 (Rltb_true _ _) Q) in E. cbn [rbind] in E.
        rewrite (proj2 (Rltb_true _ _) P1) in E. cbn [andb] in E. injection E as <-. apply VM, smset_sorted, Ss.
    + assert (X : ~ excited b key x) by (intros X; apply SC in X; discriminate). split; [|split; intros; contradiction].
      intros _. injection E as <-. apply VM, Ss.
Qed.
Lemma caseB_value i j x0 x1 x s s' : (i < length g)%nat -> (j < length g)%nat -> msorted sltb s -> caseB g rows b i j x0 x1 x s (key, idx) = Ok s' ->
  (In key scattering -> 0 < entry rows i idx -> 0 < entry rows j idx -> value s' key = loglog x0 x1 (entry rows i idx) (entry rows j idx) x) /\
  (In key scattering -> entry rows j idx <= 0 -> value s' key = 0) /\
  (In key scattering -> entry rows i idx <= 0 -> x <= x0 -> value s' key = 0) /\
  (In key subshells -> (~ excited b key x -> value s' key = 0) /\
     (excited b key x -> 0 < entry rows i idx -> 0 < entry rows j idx -> value s' key = loglog x0 x1 (entry rows i idx) (entry rows j idx) x) /\
     (excited b key x -> entry rows i idx <= 0 -> extrapolate g rows idx i x = Ok (value s' key))).
Proof.
  intros Hi Hj Ss E. unfold caseB in E. toR.
  assert (VM : forall v m, msorted sltb m -> value (mset sltb key v m) key = v) by (intros v m Sm; rewrite value_mset by exact Sm; rewrite String.eqb_refl; reflexivity).
  rewrite (@cell_ok index g rows i idx key T K Hi) in E. rewrite (@cell_ok index g rows j idx key T K Hj) in E. cbn [rbind] in E.
  destruct (kinds key) as [K1 K2]. cbn [nexp nadd nmul nlog RNum] in E. rewrite !weights_loglog in E.
  assert (SCAT : In key scattering -> s' = mset sltb key (if (Rltb 0 (entry rows i idx) && Rltb 0 (entry rows j idx))%bool then loglog x0 x1 (entry rows i idx) (entry rows j idx) x
     else if (Rltb 0 (entry rows j idx) && Rltb (Rlit 1 (-5)) (x - x0))%bool then exp (@weightB RNum x0 x1 x * ln (entry rows j idx)) else 0) s).
  { intros H. destruct (K1 H) as [D U]. rewrite D, U in E. injection E as <-. reflexivity. }
  split; [|split; [|split]].
  - intros H P0 P1. rewrite (SCAT H). rewrite VM by exact Ss. rewrite (proj2 (Rltb_true _ _) P0), (proj2 (Rltb_true _ _) P1). reflexivity.
  - intros H P1. rewrite (SCAT H). rewrite VM by exact Ss. destruct (Rltb_spec 0 (entry rows j idx)); [lra|]. rewrite andb_false_r. reflexivity.
  - intros H P0 X. rewrite (SCAT H). rewrite VM by exact Ss. destruct (Rltb_spec 0 (entry rows i idx)); [lra|]. cbn [andb]. rewrite lit1_5.
    destruct (Rltb_spec (/ 100000) (x - x0)); [lra|]. rewrite andb_false_r. reflexivity.
  - intros H. destruct (K2 H) as (D & U & L). rewrite D, U, L in E. destruct (mfind sltb key b) as [e|] eqn:B; [|discriminate].
    destruct (@shell_cases x) as [_ SC]. specialize (SC e B). cbn [nltb nleb n0 RNum] in E.
    set (c := (Rleb e x && Rltb 0 e)%bool) in *. destruct c.
    + assert (X : excited b key x) by (apply SC; reflexivity). split; [intros N; contradiction|]. destruct (Rltb_spec 0 (entry rows i idx)) as [P|P].
      * split; [|intros; lra]. intros _ _ P1. rewrite (proj2 (Rltb_true _ _) P1) in E. cbn [andb] in E. injection E as <-. apply VM, smset_sorted, Ss.
      * split; [intros; lra|]. intros _ _. destruct (extrapolate g rows idx i x) as [v| | |]; try discriminate. cbn [rbind] in E. injection E as <-. rewrite VM by (apply smset_sorted, Ss). reflexivity.
    + assert (X : ~ excited b key x) by (intros X; apply SC in X; discriminate). split; [|split; intros; contradiction].
      intros _. injection E as <-. apply VM, Ss.
Qed.
Lemma extrapolate_value i x v : (i < length g)%nat -> extrapolate g rows idx i x = Ok v ->
  forall m, (i <= m)%nat -> (m + 1 < length g)%nat -> (forall n, (i <= n < m)%nat -> entry rows n idx <= 0) -> 0 < entry rows m idx ->
  v = loglog (pt g m) (pt g (m + 1)) (entry rows m idx) (entry rows (m + 1) idx) x.
Proof.
  intros Hi E m IM ML Z P. unfold extrapolate in E.
  assert (F : forall d i fuel, (i + d = m)%nat -> (d < fuel)%nat -> (forall n, (i <= n < m)%nat -> entry rows n idx <= 0) -> firstPositive fuel rows idx i = Ok m).
  { clear E Hi IM Z. induction d as [|d IH]; intros i0 fuel Q L Z; (destruct fuel as [|fuel]; [lia|]); cbn [firstPositive]; toR.
    - rewrite (@cell_ok index g rows i0 idx key T K) by lia. cbn [rbind nleb n0 RNum]. replace i0 with m by lia. destruct (Rleb_spec (entry rows m idx) 0); [lra|reflexivity].
    - rewrite (@cell_ok index g rows i0 idx key T K) by lia. cbn [rbind nleb n0 RNum]. specialize (Z i0) as Z0. destruct (Rleb_spec (entry rows i0 idx) 0) as [_|C]; [|exfalso; specialize (Z0 ltac:(lia)); lra].
      apply IH; [lia|lia|]. intros n Hn. apply Z. lia. }
  assert (LR : length rows = length g) by (destruct T; assumption).
  toR. rewrite (F (m - i)%nat i (S (length rows))) in E; [|lia|lia|exact Z]. cbn [rbind] in E.
  rewrite (@cell_ok index g rows m idx key T K) in E by lia. rewrite (@cell_ok index g rows (S m) idx key T K) in E by lia. cbn [rbind] in E.
  rewrite (@vget_pt g m) in E by lia. rewrite (@vget_pt g (S m)) in E by lia. cbn [rbind nexp nadd nmul nlog RNum] in E. rewrite weights_loglog in E.
  injection E as <-. replace (m + 1)%nat with (S m) by lia. reflexivity.
Qed.
End Steps.

Section Query.
Variables (ep : epdl) (z : Z) (g : list R) (rows : list (list R)) (b : list (string * R)).
Hypothesis D : data_of ep z g rows b.
Hypothesis ND : nondecreasing g.
Hypothesis T : table_ok (ep_index ep) g rows.
Hypothesis IS : msorted sltb (ep_index ep).
Variables (key : string) (idx : Z).
Hypothesis K : In (key, idx) (ep_index ep).

Lemma between_points (k last : nat) (x : R) t : (k + 1 < length g)%nat -> pt g k < x < pt g (k + 1) -> Rlit 5 (-10) <= pt g (k + 1) - pt g k ->
  snd (getMassAttenuationCoefficients last ep z x) = Ok t -> In key (shells ++ ["coherent"; "compton"]) ->
  exists s s', msorted sltb s /\ mfind sltb key t = Some (value s' key) /\ caseB g rows b k (k + 1) (pt g k) (pt g (k + 1)) x s (key, idx) = Ok s'.
Proof.
  intros L X G E H. assert (N : (2 <= length g)%nat) by lia.
  assert (X0 : pt g 0 <= x) by (assert (pt g 0 <= pt g k) by (apply ND; lia); lra).
  assert (X1 : x < pt g (length g - 1)) by (assert (pt g (k + 1) <= pt g (length g - 1)) by (apply ND; lia); lra).
  destruct (@indices_spec g x last ND N) as (i & j & l & EI & _ & Hj & A & _). destruct (A X0 X1) as [-> B].
  rewrite (@query_answer ep z g rows b last x i (S i) l D EI) in E. cbn [snd] in E.
  assert (i = k) as -> by (symmetry; apply (@bracket_unique g x k i); auto; try lia; replace (S k) with (k + 1)%nat by lia; auto).
  replace (S k) with (k + 1)%nat in * by lia.
  assert (U : @usedPair RNum g x k (k + 1) = Ok (k, (k + 1)%nat, pt g k, pt g (k + 1))).
  { unfold usedPair. toR. rewrite (@vget_pt g k) by lia. rewrite (@vget_pt g (k + 1)) by lia. cbn [rbind neqb RNum].
    destruct (Reqb_spec x (pt g (k + 1))) as [Q|Q]; [lra|reflexivity]. }
  destruct (@answer_value ep g rows b x k (k + 1) k (k + 1) (pt g k) (pt g (k + 1)) t key idx IS K E U H) as (s & s' & S1 & F & C).
  exists s, s'. split; [exact S1|]. split; [exact F|]. destruct (Nat.eqb_spec k (k + 1)); [lia|]. cbn [orb] in C.
  destruct (Rltb_spec (pt g (k + 1) - pt g k) (Rlit 5 (-10))); [lra|]. exact C.
Qed.

Lemma edge_value (k last : nat) t : edge g k -> regular_edge (ep_index ep) g rows k ->
  snd (getMassAttenuationCoefficients last ep z (pt g k)) = Ok t ->
  (In key scattering -> 0 <= entry rows (k + 1) idx -> mfind sltb key t = Some (entry rows (k + 1) idx)) /\
  (In key subshells -> (~ excited b key (pt g k) -> mfind sltb key t = Some 0) /\
     (excited b key (pt g k) -> 0 < entry rows (k + 1) idx -> mfind sltb key t = Some (entry rows (k + 1) idx))).
Proof.
  intros (K1 & L & P0 & G0 & Q & G2) Rg E. set (x := pt g k) in *.
  destruct (Rg _ _ K) as [R1 R2].
  assert (IN : forall l, In key l -> (l = scattering \/ l = subshells) -> In key (shells ++ ["coherent"; "compton"])).
  { intros l H [-> | ->]; cbn in H |- *; tauto. }
  assert (M : forall a c, (a <= c < length g)%nat -> pt g a <= pt g c) by (intros; apply ND; assumption).
  destruct (@indices_spec g x last ND) as (i & j & l & EI & _ & Hj & In1 & _ & In2 & _); [lia|].
  rewrite (@query_answer ep z g rows b last x i j l D EI) in E. cbn [snd] in E.
  assert (C5 : Rlit 5 (-10) = 5 / 10000000000) by apply lit5_10.
  (* the pair (k, k + 1) *)
  assert (CA : forall a c, (a = k \/ a = (k + 1)%nat) -> c = (k + 1)%nat -> @usedPair RNum g x i j = Ok (a, c, pt g a, pt g c) ->
    (In key scattering -> 0 <= entry rows (k + 1) idx -> mfind sltb key t = Some (entry rows (k + 1) idx)) /\
    (In key subshells -> (~ excited b key x -> mfind sltb key t = Some 0) /\
     (excited b key x -> 0 < entry rows (k + 1) idx -> mfind sltb key t = Some (entry rows (k + 1) idx)))).
  { intros a c Ha -> U. assert (PA : pt g a = x) by (destruct Ha as [-> | ->]; [reflexivity|exact Q]).
    assert (AV : forall H : In key (shells ++ ["coherent"; "compton"]), exists s s', msorted sltb s /\ mfind sltb key t = Some (value s' key) /\ caseA g rows b a (k + 1) (pt g a) (pt g (k + 1)) x s (key, idx) = Ok s').
    { intros H. destruct (@answer_value ep g rows b x i j a (k + 1) (pt g a) (pt g (k + 1)) t key idx IS K E U H) as (s & s' & S1 & F & C).
      exists s, s'. split; [exact S1|]. split; [exact F|]. rewrite PA, Q in C |- *. replace (Rltb (x - x) (Rlit 5 (-10))) with true in C by (symmetry; apply Rltb_true; rewrite C5; lra).
      rewrite orb_true_r in C. exact C. }
    split; intros H.
    - intros _. destruct (AV (IN _ H (or_introl eq_refl))) as (s & s' & S1 & F & C). rewrite F. f_equal.
      destruct (fun A B => @caseA_value (ep_index ep) g rows b T key idx K a (k + 1) (pt g a) (pt g (k + 1)) x s s' A B S1 C) as [V _]; [destruct Ha as [-> | ->]; lia|lia|exact (V H)].
    - destruct (AV (IN _ H (or_intror eq_refl))) as (s & s' & S1 & F & C). rewrite F.
      destruct (fun A B => @caseA_value (ep_index ep) g rows b T key idx K a (k + 1) (pt g a) (pt g (k + 1)) x s s' A B S1 C) as [_ V]; [destruct Ha as [-> | ->]; lia|lia|].
      destruct (V H) as (V1 & V2 & V3). split; [intros X; f_equal; apply V1, X|]. intros X P. f_equal.
      destruct (Rlt_dec 0 (entry rows a idx)) as [Y|Y].
      + rewrite V2 by assumption. destruct Ha as [-> | ->]; [symmetry; apply R1; assumption|reflexivity].
      + apply V3; try assumption; [lra|]. rewrite PA, Q. rewrite C5. lra. }
  assert (U2 : forall a, (a <= k + 1)%nat -> @usedPair RNum g x a (k + 1) = Ok (a, (k + 1)%nat, pt g a, pt g (k + 1))).
  { intros a Ha. unfold usedPair. toR. rewrite (@vget_pt g a) by lia. rewrite (@vget_pt g (k + 1)) by lia. cbn [rbind neqb RNum].
    destruct (Reqb_spec x (pt g (k + 1))) as [_|C]; [|exfalso; apply C; auto]. cbn [andb]. change (@length R g) with (length g).
    destruct (Nat.ltb_spec (k + 1 + 1) (length g)) as [L2|L2]; [|reflexivity]. rewrite (@vget_pt g (k + 1 + 1)) by lia. cbn [rbind].
    destruct (Reqb_spec (pt g (k + 1 + 1)) (pt g (k + 1))) as [C|C]; [|reflexivity]. exfalso. replace (k + 1 + 1)%nat with (k + 2)%nat in C by lia. specialize (G2 ltac:(lia)). lra. }
  assert (U1 : @usedPair RNum g x (k - 1) k = Ok (k, (k + 1)%nat, pt g k, pt g (k + 1))).
  { unfold usedPair. toR. rewrite (@vget_pt g (k - 1)) by lia. rewrite (@vget_pt g k) by lia. cbn [rbind neqb RNum].
    destruct (Reqb_spec x (pt g k)) as [_|C]; [|exfalso; apply C; reflexivity]. cbn [andb]. change (@length R g) with (length g).
    destruct (Nat.ltb_spec (k + 1) (length g)) as [_|?]; [|lia]. rewrite (@vget_pt g (k + 1)) by lia. cbn [rbind].
    destruct (Reqb_spec (pt g (k + 1)) (pt g k)) as [_|C]; [|contradiction]. replace (S k) with (k + 1)%nat by lia. reflexivity. }
  assert (X0 : pt g 0 <= x) by (apply M; lia).
  assert (CI : j = S i -> pt g i <= x <= pt g j -> i = (k - 1)%nat \/ i = k \/ (i = (k + 1)%nat /\ (k + 2 < length g)%nat)).
  { intros -> [B1 B2]. destruct (le_lt_dec i (k + 1)) as [C|C].
    - destruct (Nat.eq_dec i (k + 1)); [right; right; lia|]. destruct (Nat.eq_dec i k); [auto|]. destruct (Nat.eq_dec i (k - 1)); [auto|].
      exfalso. assert (pt g (S i) <= pt g (k - 1)) by (apply M; lia). lra.
    - exfalso. assert (pt g (k + 2) <= pt g i) by (apply M; lia). specialize (G2 ltac:(lia)). lra. }
  assert (FIN : j = S i -> pt g i <= x <= pt g j ->
    (In key scattering -> 0 <= entry rows (k + 1) idx -> mfind sltb key t = Some (entry rows (k + 1) idx)) /\
    (In key subshells -> (~ excited b key x -> mfind sltb key t = Some 0) /\
     (excited b key x -> 0 < entry rows (k + 1) idx -> mfind sltb key t = Some (entry rows (k + 1) idx)))).
  { intros J B. destruct (CI J B) as [-> |[-> |[-> L2]]].
    - replace j with k in * by lia. apply (CA k (k + 1)%nat); auto.
    - replace j with (k + 1)%nat in * by lia. apply (CA k (k + 1)%nat); auto. apply U2. lia.
    - clear CI. replace j with (k + 2)%nat in * by lia. specialize (G2 L2). specialize (R2 L2).
      assert (U : @usedPair RNum g x (k + 1) (k + 2) = Ok ((k + 1)%nat, (k + 2)%nat, pt g (k + 1), pt g (k + 2))).
      { unfold usedPair. toR. rewrite (@vget_pt g (k + 1)) by lia. rewrite (@vget_pt g (k + 2)) by lia. cbn [rbind neqb RNum].
        destruct (Reqb_spec x (pt g (k + 2))) as [C|C]; [lra|reflexivity]. }
      assert (AV : forall H : In key (shells ++ ["coherent"; "compton"]), exists s s', msorted sltb s /\ mfind sltb key t = Some (value s' key) /\ caseB g rows b (k + 1) (k + 2) (pt g (k + 1)) (pt g (k + 2)) x s (key, idx) = Ok s').
      { intros H. destruct (@answer_value ep g rows b x (k + 1) (k + 2) (k + 1) (k + 2) (pt g (k + 1)) (pt g (k + 2)) t key idx IS K E U H) as (s & s' & S1 & F & C).
        exists s, s'. split; [exact S1|]. split; [exact F|]. destruct (Nat.eqb_spec (k + 1) (k + 2)); [lia|]. cbn [orb] in C.
        destruct (Rltb_spec (pt g (k + 2) - pt g (k + 1)) (Rlit 5 (-10))) as [W|W]; [rewrite C5 in W; lra|]. exact C. }
      assert (LL : 0 < entry rows (k + 1) idx -> loglog (pt g (k + 1)) (pt g (k + 2)) (entry rows (k + 1) idx) (entry rows (k + 2) idx) x = entry rows (k + 1) idx).
      { intros P. rewrite <- Q. apply loglog_left; [lra|exact P]. }
      split; intros H.
      + intros P. destruct (AV (IN _ H (or_introl eq_refl))) as (s & s' & S1 & F & C). rewrite F. f_equal.
        destruct (fun A B => @caseB_value (ep_index ep) g rows b T key idx K (k + 1) (k + 2) (pt g (k + 1)) (pt g (k + 2)) x s s' A B S1 C) as (V1 & V2 & V3 & _); [lia|lia|].
        destruct (Rlt_dec 0 (entry rows (k + 1) idx)) as [Y|Y].
        * rewrite V1 by auto. apply LL, Y.
        * rewrite V3; [lra|exact H|lra|rewrite Q; lra].
      + destruct (AV (IN _ H (or_intror eq_refl))) as (s & s' & S1 & F & C). rewrite F.
        destruct (fun A B => @caseB_value (ep_index ep) g rows b T key idx K (k + 1) (k + 2) (pt g (k + 1)) (pt g (k + 2)) x s s' A B S1 C) as (_ & _ & _ & V); [lia|lia|].
        destruct (V H) as (V1 & V2 & _). split; [intros X; f_equal; apply V1, X|]. intros X P. f_equal. rewrite V2 by auto. apply LL, P. }
  destruct (Rlt_dec x (pt g (length g - 1))) as [X1|X1].
  - destruct (In1 X0 X1) as [J B]. apply FIN; assumption.
  - assert (LAST : (k + 2 = length g)%nat).
    { destruct (Nat.eq_dec (k + 2) (length g)); [assumption|exfalso]. specialize (G2 ltac:(lia)). assert (pt g (k + 2) <= pt g (length g - 1)) by (apply M; lia). lra. }
    assert (PL : pt g (length g - 1) = x) by (rewrite <- LAST; replace (k + 2 - 1)%nat with (k + 1)%nat by lia; exact Q).
    destruct In2 as [(J & B1 & B2)|[J1 J2]]; [lra| |].
    + apply FIN; [exact J|]. split; [exact B1|]. destruct B2 as [B2|B2]; [exact B2|]. rewrite B2, PL. lra.
    + assert (i = (k + 1)%nat) by lia. assert (j = (k + 1)%nat) by lia. subst i j. apply (CA (k + 1)%nat (k + 1)%nat); auto. rewrite H. apply U2. lia.
Qed.
End Query.
