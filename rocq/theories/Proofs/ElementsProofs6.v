(** Mixture rule and peak families (real numbers). *)
From Coq Require Import Ascii String List ZArith Reals Bool Lia Lra Arith Sorted Permutation.
From Verif Require Import Base.Num Base.Res Base.RSum Base.SMap Base.Str Base.ListLemmas Model.Material Model.Shell Model.Element Model.Formula Model.Elements
  Spec.MaterialSpec Spec.ShellSpec Spec.ElementSpec Spec.FormulaSpec Spec.BeamSpec Spec.ElementsSpec
  Proofs.ElementsProofs Proofs.ElementsProofs2 Proofs.ElementsProofs3 Proofs.ElementsProofs4 Proofs.ElementsProofs5.
Import ListNotations.
Local Open Scope string_scope.
Local Existing Instance RNum.
Local Notation tbl := (list (string * R)).
Local Open Scope R_scope.

Lemma addScaled_weight (g : string -> R) w (c : tbl) : forall acc : tbl, msorted sltb acc ->
  msorted sltb (@addScaled RNum w c acc) /\
  Rsum (map (fun kv => snd kv * g (fst kv)) (@addScaled RNum w c acc)) =
  Rsum (map (fun kv => snd kv * g (fst kv)) acc) + w * Rsum (map (fun kv => snd kv * g (fst kv)) c).
Proof.
  induction c as [|[k v] c IH]; intros acc Hs.
  - cbn. split; [exact Hs|lra].
  - unfold addScaled. cbn [fold_left fst snd]. change (fold_left _ c ?a) with (@addScaled RNum w c a).
    pose proof (madd_sorted k (v * w) acc Hs) as Hs'. destruct (IH _ Hs') as [A B]. split; [exact A|].
    refine (eq_trans B _). cbn [map fst snd Rsum]. unfold madd.
    pose proof (mset_weight g k (@val0 RNum acc k + v * w) acc Hs) as W. rewrite val0_R in W.
    assert (W' : Rsum (map (fun kv => snd kv * g (fst kv)) (mset sltb k (@nadd RNum (@val0 RNum acc k) (@nmul RNum v w)) acc)) =
      Rsum (map (fun kv => snd kv * g (fst kv)) acc) + (v * w) * g k) by (refine (eq_trans W _); lra).
    refine (eq_trans (f_equal (fun z => z + _) W') _). lra.
Qed.
Lemma addScaled_keys w (c : tbl) : forall acc s, In s (map fst (@addScaled RNum w c acc)) -> msorted sltb acc -> In s (map fst c) \/ In s (map fst acc).
Proof. intros acc s I Hs. apply (proj2 (proj2 (proj2 (addScaled_facts w c acc Hs)))) in I. exact I. Qed.

Section Mix.
Variables (es : @elements RNum) (r : string -> option (@element RNum)).
Hypothesis Hreg : reg_ok es r.

Lemma elementAt_reg s e : r s = Some e -> elementAt es s = Ok e.
Proof.
  intros H. unfold elementAt. destruct (mfind sltb s (es_dict es)) as [i|] eqn:F.
  - destruct (ro_in _ _ Hreg _ _ F) as [e' [H1 [H2 H3]]]. cbn. unfold vget. rewrite H1. cbn. congruence.
  - rewrite (ro_none _ _ Hreg _ F) in H. discriminate.
Qed.

Lemma mixtureSum_spec total E (mu : string -> tbl) (l : tbl) : (forall s x, In (s, x) l -> mu_at r s E (mu s)) ->
  forall co cp pa ph : R, mixtureSum es total E l (co, cp, pa, ph) =
    Ok (co + Rsum (map (fun kv => snd kv * value_or_0 "coherent" (mu (fst kv))) l) / total,
        cp + Rsum (map (fun kv => snd kv * value_or_0 "compton" (mu (fst kv))) l) / total,
        pa + Rsum (map (fun kv => snd kv * value_or_0 "pair" (mu (fst kv))) l) / total,
        ph + Rsum (map (fun kv => snd kv * value_or_0 "photoelectric" (mu (fst kv))) l) / total).
Proof.
  induction l as [|[s x] l IH]; intros H co cp pa ph.
  - cbn [mixtureSum map Rsum]. unfold Rdiv. rewrite !Rmult_0_l, !Rplus_0_r. reflexivity.
  - cbn [mixtureSum map Rsum fst snd]. destruct (H s x (or_introl eq_refl)) as [e [He Hm]].
    rewrite (elementAt_reg s e He). cbn [rbind]. rewrite Hm. cbn [rbind].
    rewrite IH by (intros s' x' I; apply (H s' x'); right; exact I). unfold muTerm. rewrite !val0_R. rnorm. unfold Rdiv.
    f_equal. apply f_equal2; [apply f_equal2; [apply f_equal2|]|]; ring.
Qed.

Lemma mixtureElements_spec (comp : string -> res tbl) (c : string -> tbl) (input : tbl) :
  (forall k w, In (k, w) input -> 0 <= w /\ comp k = Ok (c k) /\ c k <> []) ->
  forall acc t, msorted sltb acc ->
  exists out, mixtureElements comp input acc t = Ok (out, t + Rsum (map snd input)) /\ msorted sltb out /\
    (forall g, Rsum (map (fun kv => snd kv * g (fst kv)) out) =
       Rsum (map (fun kv => snd kv * g (fst kv)) acc) +
       Rsum (map (fun kw => snd kw * Rsum (map (fun sx => snd sx * g (fst sx)) (c (fst kw)))) input)) /\
    forall s, In s (map fst out) -> In s (map fst acc) \/ exists k w, In (k, w) input /\ In s (map fst (c k)).
Proof.
  induction input as [|[k w] input IH]; intros H acc t Hs.
  - exists acc. cbn. rewrite Rplus_0_r. split; [reflexivity|]. split; [exact Hs|]. split; [intros g; lra|auto].
  - cbn [mixtureElements map snd Rsum fst]. destruct (H k w (or_introl eq_refl)) as [Hw [Hc Hne]]. rnorm.
    destruct (Rltb_spec w 0) as [Q|_]; [lra|]. rewrite Hc. cbn [rbind].
    destruct (IH (fun k' w' I => H k' w' (or_intror I)) (@addScaled RNum w (c k) acc) (t + w)) as [out [E [S1 [G K]]]].
    { exact (proj1 (addScaled_weight (fun _ => 0) w (c k) acc Hs)). }
    exists out. split; [|split; [exact S1|split]].
    + destruct (c k) as [|x y]; [congruence|]. refine (eq_trans E _). do 2 f_equal. lra.
    + intros g. rewrite G. rewrite (proj2 (addScaled_weight g w (c k) acc Hs)). lra.
    + intros s I. destruct (K s I) as [I'|(k' & w' & I1 & I2)].
      * apply addScaled_keys in I'; [|exact Hs]. destruct I' as [I'|I']; [right; exists k, w; split; [left; reflexivity|exact I']|left; exact I'].
      * right. exists k', w'. split; [right; exact I1|exact I2].
Qed.

Theorem mixture_list tostr depth fuel (input : tbl) (energies : list R) (c : string -> tbl) (mu : R -> string -> tbl) :
  (forall k w, In (k, w) input -> 0 <= w /\ @Elements.getComposition RNum tostr depth fuel es k = Ok (c k) /\ c k <> []) ->
  0 < Rsum (map snd input) ->
  (forall E k w s x, In E energies -> In (k, w) input -> In (s, x) (c k) -> mu_at r s E (mu E s)) ->
  getMu_map_list tostr depth fuel es input energies 0 = Ok (map (fun E => mu_table (mean input c (mu E)) E) energies).
Proof.
  intros H Ht Hmu. unfold getMu_map_list. cbn [Z.eqb].
  destruct (mixtureElements_spec (Elements.getComposition tostr depth fuel es) c input H [] 0 smsorted_nil) as [out [E [S1 [G K]]]].
  change (@n0 RNum) with 0. rewrite E. cbn [rbind snd fst]. rewrite Rplus_0_l. rnorm.
  destruct (Rleb_spec (Rsum (map snd input)) 0) as [Q|_]; [lra|]. cbn [rbind fst snd].
  apply rmapM_Ok. intros En IE. unfold mixtureAt. rewrite (mixtureSum_spec _ En (mu En) out).
  - unfold rmap. cbn [rbind]. unfold mu_table. 
    assert (M : forall p, 0 + Rsum (map (fun kv => snd kv * value_or_0 p (mu En (fst kv))) out) / Rsum (map snd input) = mean input c (mu En) p).
    { intros p. unfold mean. rewrite (G (fun s => value_or_0 p (mu En s))). cbn [map Rsum]. rewrite !Rplus_0_l. reflexivity. }
    change (@n0 RNum) with 0. rewrite <- !M. reflexivity.
  - intros s x I. destruct (K s) as [[]|(k & w & I1 & I2)]; [apply in_map_iff; exists (s, x); auto|].
    apply in_map_iff in I2. destruct I2 as [[s' x'] [Q I2]]. cbn in Q. subst s'. exact (Hmu En k w s x' IE I1 I2).
Qed.
Theorem composition_list tostr depth fuel (input : tbl) (energies : list R) (flag : Z) (mu : R -> string -> tbl) : flag <> 0%Z ->
  (forall E s x, In E energies -> In (s, x) input -> mu_at r s E (mu E s)) ->
  getMu_map_list tostr depth fuel es input energies flag =
  Ok (map (fun E => mu_table (fun p => Rsum (map (fun sx => snd sx * value_or_0 p (mu E (fst sx))) input)) E) energies).
Proof.
  intros Hf Hmu. unfold getMu_map_list. destruct (Z.eqb_spec flag 0) as [Q|_]; [contradiction|]. cbn [rbind fst snd].
  apply rmapM_Ok. intros En IE. unfold mixtureAt. rewrite (mixtureSum_spec _ En (mu En) input).
  - unfold rmap. cbn [rbind]. unfold mu_table. change (@n0 RNum) with 0. change (@n1 RNum) with 1. unfold Rdiv. rewrite Rinv_1, !Rmult_1_r, !Rplus_0_l. reflexivity.
  - intros s x I. exact (Hmu En s x IE I).
Qed.

(** errors *)
Lemma mixtureElements_negative (comp : string -> res tbl) (input : tbl) :
  (forall k w, In (k, w) input -> exists c, comp k = Ok c) ->
  (exists k w, In (k, w) input /\ (w < 0 \/ comp k = Ok [])) ->
  forall acc t, mixtureElements comp input acc t = Throw InvalidArgument.
Proof.
  induction input as [|[k w] input IH]; intros H [k0 [w0 [I Q]]] acc t; [destruct I|]. cbn [mixtureElements]. rnorm.
  destruct (Rltb_spec w 0) as [_|W]; [reflexivity|]. destruct (H k w (or_introl eq_refl)) as [c Hc]. rewrite Hc. cbn [rbind].
  destruct c as [|x c]; [reflexivity|]. apply IH; [intros k' w' I'; apply (H k' w'); right; exact I'|].
  exists k0, w0. split; [|exact Q]. destruct I as [E|I]; [|exact I]. injection E as <- <-. destruct Q as [Q|Q]; [contradiction|congruence].
Qed.
End Mix.

(** *** vector overload *)
Lemma transpose_nth (l : list tbl) p v i : In (p, v) (@transpose_mu RNum l) -> nth_error v i = option_map (fun t => value_or_0 p t) (nth_error l i).
Proof.
  unfold transpose_mu. intros I. apply in_map_iff in I. destruct I as [k [E _]]. injection E as <- <-.
  rewrite nth_error_map. reflexivity.
Qed.

(** *** peak families *)
Section Peaks.
Variables (es : @elements RNum) (r : string -> option (@element RNum)).

Lemma klm_iff s : isKLM s = true <-> exists x, s = "K" ++ x \/ s = "L" ++ x \/ s = "M" ++ x.
Proof.
  unfold isKLM. destruct s as [|a s].
  - cbn. split; [discriminate|]. intros [x [Q|[Q|Q]]]; discriminate.
  - assert (Z : substring 0 1 (String a s) = String a "") by (destruct s; reflexivity). rewrite Z. cbv zeta. 
    rewrite !orb_true_iff, !String.eqb_eq. split.
    + intros [[Q|Q]|Q]; injection Q as ->; exists s; auto.
    + intros [x [Q|[Q|Q]]]; injection Q as -> ->; auto.
Qed.
Lemma familiesOf_spec name e (shells : list string) out : familiesOf name e shells = Ok out ->
  forall f, In f out <-> exists s c, In s shells /\ fst f = name ++ " " ++ s /\ isKLM s = true /\ mfind sltb s (getBindingEnergies e) = Some (snd f) /\
    Element.getShellConstants e s = Ok c /\ 0 < value_or_0 "omega" c.
Proof.
  revert out. induction shells as [|s shells IH]; intros out H f; cbn [familiesOf] in H.
  - injection H as <-. split; [intros []|]. intros (s & c & [] & _).
  - assert (Skip : forall out, familiesOf name e shells = Ok out -> (isKLM s = false \/ exists c, Element.getShellConstants e s = Ok c /\ ~ 0 < value_or_0 "omega" c) ->
      (In f out <-> exists s0 c, In s0 (s :: shells) /\ fst f = name ++ " " ++ s0 /\ isKLM s0 = true /\ mfind sltb s0 (getBindingEnergies e) = Some (snd f) /\
         Element.getShellConstants e s0 = Ok c /\ 0 < value_or_0 "omega" c)).
    { intros o Ho Hs. rewrite (IH o Ho f). split.
      - intros (s0 & c & I & K). exists s0, c. split; [right; exact I|exact K].
      - intros (s0 & c & [<-|I] & K); [|exists s0, c; split; [exact I|exact K]]. exfalso. destruct K as (_ & K1 & _ & K2 & K3).
        destruct Hs as [Hs|[c' [Hc Hs]]]; [congruence|]. rewrite Hc in K2. injection K2 as <-. contradiction. }
    destruct (isKLM s) eqn:KLM; [|apply Skip; auto].
    destruct (Element.getShellConstants e s) as [c| | |] eqn:Hc; cbn [rbind] in H; try discriminate.
    destruct (val0 c "omega" >? n0)%num eqn:W; rewrite val0_R in W; rnorm_in W;
      [apply Rltb_true in W|apply Rltb_false in W; apply Skip; [exact H|right; exists c; split; [reflexivity|lra]]].
    destruct (mfind sltb s (getBindingEnergies e)) as [b|] eqn:Hb; cbn [of_opt rbind] in H; [|discriminate].
    destruct (familiesOf name e shells) as [o| | |] eqn:Ho; cbn [rbind] in H; try discriminate. injection H as <-. cbn [In].
    rewrite (IH o eq_refl f). split.
    + intros [<-|(s0 & c0 & I & K)].
      * exists s, c. cbn [fst snd]. split; [left; reflexivity|]. auto 10.
      * exists s0, c0. split; [right; exact I|exact K].
    + intros (s0 & c0 & [<-|I] & K).
      * left. destruct K as (K1 & _ & K2 & _). rewrite Hb in K2. destruct f as [fa fb]. cbn [fst snd] in *. injection K2 as <-. now rewrite K1.
      * right. exists s0, c0. split; [exact I|exact K].
Qed.
Lemma excited_spec (e : @element RNum) energy s : In s (getExcitedShells e energy) <-> exists b, In (s, b) (getBindingEnergies e) /\ 0 < b < energy.
Proof.
  unfold getExcitedShells, getBindingEnergies. rewrite in_map_iff. split.
  - intros [[s' b] [<- I]]. apply filter_In in I. destruct I as [I K]. rnorm_in K. cbn [snd] in K. apply andb_true_iff in K. destruct K as [K1 K2].
    apply Rltb_true in K1, K2. eauto.
  - intros [b [I [K1 K2]]]. exists (s, b). split; [reflexivity|]. apply filter_In. split; [exact I|]. rnorm. cbn [snd]. apply andb_true_iff.
    rewrite !Rltb_true. auto.
Qed.
Lemma families_element name e energy out : msorted sltb (getBindingEnergies e) -> familiesOf name e (getExcitedShells e energy) = Ok out ->
  forall f, In f out <-> family name e energy f.
Proof.
  intros Hs H f. rewrite (familiesOf_spec _ _ _ _ H f). unfold family. split.
  - intros (s & c & I & K1 & K2 & K3 & K4 & K5). exists s, c. split; [exact K1|]. split; [apply klm_iff, K2|]. split; [exact K3|]. split; [|auto].
    apply excited_spec in I. destruct I as [b [I Hb]]. apply (smfind_In _ _ Hs) in I. unfold num in *. cbn in *. 
    assert (b = snd f) by congruence. subst b. exact Hb.
  - intros (s & c & K1 & K2 & K3 & K4 & K5 & K6). apply klm_iff in K2. exists s, c. split; [|auto 10]. apply excited_spec. exists (snd f). split; [|exact K4].
    apply (smfind_In _ _ Hs). exact K3.
Qed.
End Peaks.
Lemma by_energy_swo (l : list (string * R)) : strict_weak_order (fun a b => Rltb (snd a) (snd b)) l.
Proof.
  split; [|split].
  - intros a _. apply Rltb_false. lra.
  - intros a b c _ _ _. rewrite !Rltb_true. lra.
  - intros a b c _ _ _. rewrite !Rltb_false. lra.
Qed.
Lemma peaks_spec (sortf : tbl -> tbl) (es : @elements RNum) names energy out :
  std_sort_contract (fun a b => Rltb (snd a) (snd b)) sortf ->
  (forall n e, In n names -> getElement es n = Ok e -> msorted sltb (getBindingEnergies e)) ->
  getPeakFamilies sortf es names energy = Ok out ->
  StronglySorted (fun a b => snd a <= snd b) out /\
  forall f, In f out <-> exists n e, In n names /\ getElement es n = Ok e /\ family n e energy f.
Proof.
  intros Hsort Hb H. unfold getPeakFamilies in H.
  match type of H with rbind ?x _ = _ => destruct x as [l| | |] eqn:E; cbn [rbind] in H; try discriminate end.
  injection H as <-. destruct (Hsort l (by_energy_swo l)) as [P S1]. split.
  { clear - S1. induction S1 as [|a l' S1 IH F]; constructor; [exact IH|]. eapply Forall_impl; [|exact F]. cbn. intros b Hb. apply Rltb_false in Hb. lra. }
  assert (G : forall names acc l, (forall n e, In n names -> getElement es n = Ok e -> msorted sltb (getBindingEnergies e)) ->
     rfold (fun out name => rbind (getElement es name) (fun e => rbind (familiesOf name e (getExcitedShells e energy)) (fun f => Ok (out ++ f)%list))) names acc = Ok l ->
     forall f, In f l <-> In f acc \/ exists n e, In n names /\ getElement es n = Ok e /\ family n e energy f).
  { clear. induction names as [|n names IH]; intros acc l Hb E f; cbn [rfold] in E.
    - injection E as <-. split; [auto|]. intros [H|(n & e & [] & _)]. exact H.
    - destruct (getElement es n) as [e| | |] eqn:Hn; cbn [rbind] in E; try discriminate.
      destruct (familiesOf n e (getExcitedShells e energy)) as [o| | |] eqn:Ho; cbn [rbind] in E; try discriminate.
      rewrite (IH _ _ (fun n' e' I => Hb n' e' (or_intror I)) E f), in_app_iff.
      rewrite (families_element n e energy o (Hb n e (or_introl eq_refl) Hn) Ho f). split.
      + intros [[H|H]|(n' & e' & I & K)]; [left; exact H|right; exists n, e; split; [left; reflexivity|auto]|right; exists n', e'; split; [right; exact I|exact K]].
      + intros [H|(n' & e' & [<-|I] & K1 & K2)]; [auto| |right; eauto].
        rewrite Hn in K1. injection K1 as <-. auto. }
  intros f. 
  pose proof (G names [] l Hb E f) as Q. split.
  - intros I. apply (Permutation_in _ (Permutation_sym P)) in I. apply Q in I. destruct I as [[]|I]. exact I.
  - intros I. apply (Permutation_in _ P). apply Q. right. exact I.
Qed.
(** success *)
Lemma peaks_succeed (sortf : tbl -> tbl) (es : @elements RNum) names energy :
  (forall n, In n names -> exists e, getElement es n = Ok e /\ msorted sltb (getBindingEnergies e) /\
     forall s b, In (s, b) (getBindingEnergies e) -> 0 < b < energy -> isKLM s = true -> exists c, Element.getShellConstants e s = Ok c) ->
  exists out, getPeakFamilies sortf es names energy = Ok out.
Proof.
  intros H. unfold getPeakFamilies.
  assert (G : forall acc, exists l, rfold (fun out name => rbind (getElement es name) (fun e => rbind (familiesOf name e (getExcitedShells e energy)) (fun f => Ok (out ++ f)%list))) names acc = Ok l).
  { induction names as [|n names IH]; intros acc; [exists acc; reflexivity|]. cbn [rfold].
    destruct (H n (or_introl eq_refl)) as [e [He [Hs Hc]]]. rewrite He. cbn [rbind].
    assert (F : exists o, familiesOf n e (getExcitedShells e energy) = Ok o).
    { assert (Sub : forall s, In s (getExcitedShells e energy) -> exists b, In (s, b) (getBindingEnergies e) /\ 0 < b < energy) by (intros s; apply excited_spec).
      revert Sub. generalize (getExcitedShells e energy) as l. induction l as [|s l IHl]; intros Sub; [exists []; reflexivity|].
      cbn [familiesOf]. destruct (IHl (fun s' I => Sub s' (or_intror I))) as [o Ho]. destruct (Sub s (or_introl eq_refl)) as [b [Ib Hb]].
      destruct (isKLM s) eqn:K; [|eauto]. destruct (Hc s b Ib Hb K) as [c Hcc]. rewrite Hcc. cbn [rbind].
      destruct (_ >? _)%num; [|eauto]. apply (smfind_In _ _ Hs) in Ib. refine (eq_ind_r (fun z => exists o, rbind (of_opt z) _ = Ok o) _ Ib).
      cbn [of_opt rbind]. rewrite Ho. cbn. eauto. }
    destruct F as [o Ho]. rewrite Ho. cbn [rbind]. apply IH. intros n' I. apply H. right. exact I. }
  destruct (G []) as [l Hl]. rewrite Hl. cbn. eauto.
Qed.

(** *** only the ratios of the amounts matter *)
Definition scaled (a : R) (l : tbl) : tbl := map (fun kv => (fst kv, a * snd kv)) l.
Lemma scaled_value a k (m : tbl) : value_or_0 k (scaled a m) = a * value_or_0 k m.
Proof.
  unfold value_or_0. induction m as [|[q v] m IH]; cbn [scaled map mfind fst snd]; [lra|].
  destruct (sltb q k); [exact IH|]. destruct (sltb k q); lra.
Qed.
Lemma scaled_mset a k v (m : tbl) : mset sltb k (a * v) (scaled a m) = scaled a (mset sltb k v m).
Proof.
  induction m as [|[q w] m IH]; cbn [scaled map mset fst snd]; [reflexivity|].
  destruct (sltb q k); [cbn [map fst snd]; f_equal; exact IH|]. destruct (sltb k q); reflexivity.
Qed.
Lemma scaled_add a w (c : tbl) : forall acc : tbl, @addScaled RNum (a * w) c (scaled a acc) = scaled a (@addScaled RNum w c acc).
Proof.
  induction c as [|[k v] c IH]; intros acc; [reflexivity|].
  unfold addScaled. cbn [fold_left fst snd]. change (fold_left _ c ?z) with (@addScaled RNum w c z) at 2.
  assert (E : @madd RNum k (v * (a * w)) (scaled a acc) = scaled a (@madd RNum k (v * w) acc)).
  { unfold madd. rewrite <- scaled_mset, !val0_R. f_equal. rewrite scaled_value. rnorm. ring. }
  refine (eq_trans _ (IH _)). unfold addScaled at 1. exact (f_equal _ E).
Qed.
Lemma scaled_elements a (comp : string -> res tbl) (input : tbl) : 0 < a -> forall acc t,
  mixtureElements comp (scaled a input) (scaled a acc) (a * t) =
  rmap (fun ot => (scaled a (fst ot), a * snd ot)) (mixtureElements comp input acc t).
Proof.
  intros Ha. induction input as [|[k w] input IH]; intros acc t; [reflexivity|]. cbn [scaled map mixtureElements fst snd]. rnorm.
  destruct (Rltb_spec (a * w) 0) as [Q|Q]; destruct (Rltb_spec w 0) as [Q'|Q']; try (exfalso; nra); [reflexivity|].
  destruct (comp k) as [c| | |]; try reflexivity. cbn [rbind]. destruct c as [|x c]; [reflexivity|].
  rewrite <- IH. f_equal; [|lra]. exact (scaled_add a w (x :: c) acc).
Qed.
Lemma scaled_sum es a total E (l : tbl) : a <> 0 -> total <> 0 -> forall acc,
  @mixtureSum RNum es (a * total) E (scaled a l) acc = mixtureSum es total E l acc.
Proof.
  intros Ha Ht. induction l as [|[s x] l IH]; intros [[[co cp] pa] ph]; [reflexivity|]. cbn [scaled map mixtureSum fst snd].
  destruct (elementAt es s) as [e| | |]; try reflexivity. cbn [rbind].
  destruct (Element.getMassAttenuationCoefficients e E) as [t| | |]; try reflexivity. cbn [rbind]. rnorm.
  replace (a * x / (a * total)) with (x / total) by (field; split; assumption). apply IH.
Qed.
Lemma scaled_list tostr depth fuel (es : @elements RNum) a (input : tbl) energies : 0 < a ->
  getMu_map_list tostr depth fuel es (scaled a input) energies 0 = getMu_map_list tostr depth fuel es input energies 0.
Proof.
  intros Ha. unfold getMu_map_list. cbn [Z.eqb]. 
  assert (E : mixtureElements (Elements.getComposition tostr depth fuel es) (scaled a input) [] 0 =
    rmap (fun ot => (scaled a (fst ot), a * snd ot)) (mixtureElements (Elements.getComposition tostr depth fuel es) input [] 0)).
  { pose proof (scaled_elements a (Elements.getComposition tostr depth fuel es) input Ha [] 0) as H. rewrite Rmult_0_r in H. exact H. }
  change (@n0 RNum) with 0. rewrite E. destruct (mixtureElements _ input [] 0) as [[o t]| | |]; try reflexivity. cbn [rmap rbind fst snd]. rnorm.
  destruct (Rleb_spec (a * t) 0) as [Q|Q]; destruct (Rleb_spec t 0) as [Q'|Q']; try (exfalso; nra); [reflexivity|]. cbn [rbind fst snd].
  apply rmapM_ext. intros En _. unfold mixtureAt. rewrite scaled_sum; [reflexivity|lra|lra].
Qed.
