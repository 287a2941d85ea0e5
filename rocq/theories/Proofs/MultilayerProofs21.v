(** Multilayer, secondary excitation: the loops over the photons and the layers, contribution by contribution. *)
From Coq Require Import Ascii String List ZArith Reals Bool Arith Lia Lra.
From Verif Require Import Base.Num Base.Res Base.RSum Base.SMap Base.Str Base.ListLemmas Model.Beam Model.Material Model.TransmissionTable
  Model.Math Model.Shell Model.Element Model.Layer Model.XRF Model.Multilayer Spec.MultilayerSpec Spec.SecondarySpec Proofs.LayerProofs Proofs.MultilayerProofs Proofs.MultilayerProofs2
  Proofs.MultilayerProofs3 Proofs.MultilayerProofs10 Proofs.ElementProofs Proofs.MultilayerProofs19 Proofs.MultilayerProofs20.
Import ListNotations.
Set Implicit Arguments.
Local Open Scope string_scope.
Local Open Scope R_scope.
Local Existing Instance RNum.

Definition hits := list (string * R).
(** the part of a list of contributions that goes to a field *)
Definition amount (f : string) (h : hits) : R :=
  if String.eqb f "secondary" then Rsum (map snd h) else Rsum (map snd (filter (fun x => String.eqb (fst x) f) h)).
Lemma amount_app f (a b : hits) : amount f (a ++ b)%list = amount f a + amount f b.
Proof. unfold amount. destruct (String.eqb f "secondary"); rewrite ?filter_app, map_app, Rsum_app; reflexivity. Qed.
Lemma amount_nil f : amount f [] = 0.
Proof. unfold amount. destruct (String.eqb f "secondary"); reflexivity. Qed.

(** [hh L]: contributions to line L *)
Definition ev2 (hh : string -> hits) (rs : rlns) (ls : lns) (rs' : rlns) (ls' : lns) : Prop :=
  forall L x', In (L, x') rs' -> exists x, In (L, x) rs /\ r_mu x' = r_mu x /\
    r_secondary x' = r_secondary x + amount "secondary" (hh L) /\
    forall t, mfind sltb L ls = Some t -> exists t', mfind sltb L ls' = Some t' /\
      forall f, has_space f = true -> field t' f = field t f + amount f (hh L).

Lemma ev2_refl hh rs ls : (forall L x, In (L, x) rs -> hh L = []) -> ev2 hh rs ls rs ls.
Proof.
  intros HE L x I. exists x. rewrite (HE L x I), amount_nil. split; [exact I|]. split; [reflexivity|]. split; [rring|]. intros t Ht. exists t. split; [exact Ht|].
  intros f _. rewrite amount_nil. ring.
Qed.
Lemma ev2_trans h1 h2 rs ls rs1 ls1 rs2 ls2 : ev2 h1 rs ls rs1 ls1 -> ev2 h2 rs1 ls1 rs2 ls2 -> ev2 (fun L => (h1 L ++ h2 L)%list) rs ls rs2 ls2.
Proof.
  intros A B L x2 I. destruct (B _ _ I) as (x1 & I1 & M1 & S1 & F1). destruct (A _ _ I1) as (x & I0 & M0 & S0 & F0).
  exists x. split; [exact I0|]. split; [congruence|]. split; [rewrite S1, S0, amount_app; rring|].
  intros t Ht. destruct (F0 t Ht) as (t1 & Ht1 & G1). destruct (F1 t1 Ht1) as (t2 & Ht2 & G2). exists t2. split; [exact Ht2|].
  intros f Hf. rewrite G2, G1, amount_app by exact Hf. ring.
Qed.
Lemma ev2_ext h1 h2 rs ls rs' ls' : (forall L x, In (L, x) rs -> h1 L = h2 L) -> ev2 h1 rs ls rs' ls' -> ev2 h2 rs ls rs' ls'.
Proof.
  intros HE A L x' I. destruct (A L x' I) as (x & I0 & M & S0 & F). exists x. rewrite <- (HE L x I0). auto.
Qed.

Definition line_hit (val : string -> R -> option R) (name : string) (factors : lns) (L : string) : hits :=
  match mfind sltb L factors with
  | Some t => match val L (field t "rate") with Some v => [(name, v)] | None => [] end
  | None => [] end.
(** one photon: [val L rate] is what it adds to line L *)
Lemma excite_hits term (val : string -> R -> option R) name factors : has_space name = true ->
  forall rs ls rs' ls',
  (forall L rate x o, In (L, x) rs -> term rate x = Ok o -> o = val L rate) ->
  NoDup (map fst rs) -> sorted2 ls -> (forall L, In L (map fst rs) -> exists t, mfind sltb L ls = Some t) ->
  excite term name factors rs ls = Ok (rs', ls') ->
  ev2 (line_hit val name factors) rs ls rs' ls'.
Proof.
  intros HN. induction rs as [|[L x] r IH]; intros ls rs' ls' TV ND S2 P H.
  { cbn in H. injection H as <- <-. intros L x' []. }
  cbn [map fst] in ND. apply NoDup_cons_iff in ND. destruct ND as [N1 ND].
  assert (TV' : forall L rate x o, In (L, x) r -> term rate x = Ok o -> o = val L rate) by (intros; eapply TV; [right; eassumption|assumption]).
  cbn [excite] in H. obind H o OO. destruct o as [v|].
  - obind H y Y. destruct y as [r2 ls2]. apply Ok_inj in H. injection H as <- <-. cbn [fst snd] in *.
    destruct (P L (or_introl eq_refl)) as [t Ht].
    assert (St : msorted sltb t) by (eapply (proj2 S2), Ht).
    assert (LO : @lineOf RNum ls L = t) by (unfold lineOf; toR; rewrite Ht; reflexivity).
    unfold addContribution in Y. rewrite LO in Y.
    set (ls1 := mset sltb L (@addField RNum t name v) ls) in Y.
    assert (S1 : sorted2 ls1) by (apply sorted2_set; [exact S2|apply addField_sorted, St]).
    assert (PR : forall L', In L' (map fst r) -> exists t, mfind sltb L' ls1 = Some t).
    { intros L' I'. destruct (P L' (or_intror I')) as [t' Ht']. exists t'. unfold ls1. rewrite find_set_other; [exact Ht'|exact S2|]. congruence. }
    destruct (@excite_spec term name factors HN r ls1 r2 ls2 ND S1 PR Y) as (_ & _ & _ & D).
    pose proof (IH ls1 r2 ls2 TV' ND S1 PR Y) as C.
    intros L' x' [I|I].
    + injection I as <- <-. exists x. split; [left; reflexivity|]. cbn [r_mu r_secondary]. split; [reflexivity|].
      unfold line_hit. toR. destruct (mfind sltb L factors) as [tf|]; [|discriminate OO].
      apply (TV L _ x _ (or_introl eq_refl)) in OO. change (@val0 RNum tf "rate") with (field tf "rate") in OO. toR. rewrite <- OO. split.
      { unfold amount. cbn. rring. }
      intros t0 Ht0. rewrite Ht in Ht0. injection Ht0 as <-.
      exists (@addField RNum t name v). split; [rewrite (D L N1); apply find_set_same|]. intros f Hf. rewrite field_addField by exact St. 
      unfold amount. destruct (String.eqb_spec f "secondary") as [->|_]; [discriminate Hf|]. cbn [filter map Rsum fst snd]. toR.
      destruct (String.eqb name f); cbn [filter map Rsum fst snd]; ring.
    + destruct (C _ _ I) as (x0 & I0 & E1 & E2 & E3). exists x0. split; [right; exact I0|].
      split; [exact E1|split; [exact E2|]]. intros t0 Ht0. apply E3. unfold ls1. rewrite find_set_other; [exact Ht0|exact S2|].
      intros <-. apply N1. apply in_map_iff. exists (L, x0). split; [reflexivity|exact I0].
  - obind H y Y. destruct y as [r2 ls2]. apply Ok_inj in H. injection H as <- <-. cbn [fst snd] in *.
    assert (PR : forall L', In L' (map fst r) -> exists t, mfind sltb L' ls = Some t) by (intros L' I'; apply P; right; exact I').
    destruct (@excite_spec term name factors HN r ls r2 ls2 ND S2 PR Y) as (_ & _ & _ & D).
    pose proof (IH ls r2 ls2 TV' ND S2 PR Y) as C.
    intros L' x' [I|I].
    + injection I as <- <-. exists x. split; [left; reflexivity|]. split; [reflexivity|].
      assert (HH : line_hit val name factors L = []).
      { unfold line_hit. toR. destruct (mfind sltb L factors) as [tf|]; [|reflexivity].
        apply (TV L _ x _ (or_introl eq_refl)) in OO. change (@val0 RNum tf "rate") with (field tf "rate") in OO. toR. rewrite <- OO. reflexivity. }
      toR. rewrite HH, amount_nil. split; [rring|]. intros t0 Ht0. exists t0. rewrite (D L N1). split; [exact Ht0|]. intros f _. rewrite amount_nil. ring.
    + destruct (C _ _ I) as (x0 & I0 & E). exists x0. split; [right; exact I0|exact E].
Qed.

Section Loop.
Variable debug : bool.
Variable xl : @xlib RNum.
Variable c : @config RNum.

(** the cache of excitation factors holds answers of the library *)
Definition fc_ok (fc : @fcache RNum) : Prop :=
  msorted sltb fc /\ forall element m, mfind sltb element fc = Some m -> msorted Rltb m /\
    forall E l, mfind Rltb E m = Some l -> x_factors xl element E 1 = Ok l.
Lemma fc_nil : fc_ok [].
Proof. split; [apply smsorted_nil|]. intros e m H. discriminate H. Qed.
Lemma cachedFactors_spec fc element E fc' l : fc_ok fc -> @cachedFactors RNum xl fc element E = Ok (fc', l) ->
  fc_ok fc' /\ x_factors xl element E 1 = Ok l.
Proof.
  intros [SF FC] H. unfold cachedFactors in H. set (m := match mfind sltb element fc with Some m => m | None => [] end) in *.
  assert (MOK : msorted Rltb m /\ forall E l, mfind Rltb E m = Some l -> x_factors xl element E 1 = Ok l).
  { unfold m. destruct (mfind sltb element fc) as [m0|] eqn:Q; [apply FC, Q|]. split; [constructor|]. intros E0 l0 Q0. discriminate Q0. }
  clearbody m. destruct MOK as [SM MM]. change (@nltb RNum) with Rltb in H. toR. destruct (mfind Rltb E m) as [l0|] eqn:Q.
  - apply Ok_inj in H. injection H as <- <-. split; [split; assumption|]. apply MM, Q.
  - obind H l0 XF. apply Ok_inj in H. injection H as <- <-. split; [|exact XF]. split; [apply smset_sorted, SF|].
    intros e' m' Hm. destruct (string_dec element e') as [<-|NE].
    + rewrite smfind_mset_same in Hm. injection Hm as <-. split; [apply (@mset_sorted R _ Rltb Rltb_total), SM|].
      intros E0 l1 H1. destruct (Req_dec E E0) as [<-|NE].
      * rewrite (@mfind_mset_same R _ Rltb Rltb_total) in H1. injection H1 as <-. exact XF.
      * rewrite (@mfind_mset_other R _ Rltb Rltb_total) in H1; [|exact NE|exact SM]. apply MM, H1.
    + rewrite smfind_mset_other in Hm; [|exact NE|exact SF]. apply FC, Hm.
Qed.

Section Photons.
Variables (j : nat) (s2 : @slab RNum) (element : string) (thr : R).
Variable term : R -> R -> R -> R -> @rline RNum -> res (option R).
Variable muj : R -> R.
Variable val : R -> R -> string -> R -> option R.   (* energy, number, line, rate *)
Definition photon_hit (L : string) (ph : R * R * string) : hits :=
  let '(e, number, name) := ph in
  if Rltb e thr then [] else
  match factor_row xl element L e 1 with
  | Some t => match val e number L (field t "rate") with Some v => [(name ++ " " ++ layerNumber j, v)] | None => [] end
  | None => [] end.

Lemma exciteAll_hits : forall em k fc rs ls fc' rs' ls',
  (forall q ph, nth_error em q = Some ph -> nth_error (sl_muj s2) (k + q) = Some (muj (fst (fst ph)))) ->
  (forall L e number rate x o y, In (L, x) rs -> r_mu y = r_mu x -> term e (muj e) number rate y = Ok o -> o = val e number L rate) ->
  fc_ok fc -> NoDup (map fst rs) -> sorted2 ls -> (forall L, In L (map fst rs) -> exists t, mfind sltb L ls = Some t) ->
  exciteAll xl term j s2 element thr k em fc rs ls = Ok (fc', rs', ls') ->
  fc_ok fc' /\ ev2 (fun L => flat_map (photon_hit L) em) rs ls rs' ls'.
Proof.
  induction em as [|[[E number] name] r IH]; intros k fc rs ls fc' rs' ls' MJ TV FC ND S2 P H; cbn [exciteAll] in H.
  { apply Ok_inj in H. injection H as <- <- <-. split; [exact FC|]. apply ev2_refl. reflexivity. }
  assert (MJ' : forall q ph, nth_error r q = Some ph -> nth_error (sl_muj s2) (S k + q) = Some (muj (fst (fst ph)))).
  { intros q ph Hq. specialize (MJ (S q) ph Hq). rewrite Nat.add_succ_r in MJ. exact MJ. }
  rnorm_in H. toR. destruct (Rltb E thr) eqn:B.
  { destruct (IH _ _ _ _ _ _ _ MJ' TV FC ND S2 P H) as [A1 B1]. split; [exact A1|]. eapply ev2_ext; [|exact B1]. intros L x I. cbn [flat_map photon_hit]. toR. rewrite B. reflexivity. }
  obind H fl FL. destruct fl as [fc1 l]. obind H y Y. destruct y as [rs1 ls1]. cbn [fst snd] in *.
  destruct (@cachedFactors_spec _ _ _ _ _ FC FL) as [FC1 XF].
  assert (EV := @excite_spec _ _ _ (has_space_mid _ _) _ _ _ _ ND S2 P Y).
  assert (E2 : ev2 (line_hit (val E number) (name ++ " " ++ layerNumber j) l) rs ls rs1 ls1).
  { refine (@excite_hits _ (val E number) _ _ (has_space_mid _ _) _ _ _ _ _ ND S2 P Y).
    intros L rate x o I HT. pose proof (MJ 0%nat _ eq_refl) as M0. rewrite Nat.add_0_r in M0. cbn [fst] in M0.
    obind HT mm MM. unfold vget in MM. toR. rewrite M0 in MM. cbn in MM. apply Ok_inj in MM. subst mm. exact (TV L E number rate x o x I eq_refl HT). }
  assert (EV' := EV). destruct EV' as (A0 & B0 & C0 & D0).
  destruct (IH (S k) fc1 rs1 ls1 fc' rs' ls' MJ') as [A1 B1]; [|exact FC1|rewrite B0; exact ND|exact A0|eapply ev_ready; eassumption|exact H|].
  { intros L e nb rate x o y I EQ HT. destruct (E2 L x I) as (x0 & I0 & M0 & _). exact (TV L e nb rate x0 o y I0 (eq_trans EQ M0) HT). }
  split; [exact A1|]. eapply ev2_ext; [|exact (ev2_trans E2 B1)]. intros L x I. cbn [flat_map photon_hit]. toR. rewrite B. f_equal.
  unfold line_hit, factor_row. toR. rewrite XF. reflexivity.
Qed.
End Photons.
End Loop.
