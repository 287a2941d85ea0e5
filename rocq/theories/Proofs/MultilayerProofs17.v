(** Multilayer: the answer as a whole. *)
From Coq Require Import Ascii String List ZArith Reals Bool Arith Lia Lra Permutation Sorting.Sorted.
From Verif Require Import Base.Num Base.Res Base.RSum Base.SMap Base.Str Base.ListLemmas Model.Beam Model.Material Model.TransmissionTable
  Model.Math Model.Shell Model.Element Model.Layer Model.XRF Model.Multilayer Spec.MultilayerSpec Proofs.LayerProofs Proofs.MultilayerProofs
  Proofs.MultilayerProofs2 Proofs.MultilayerProofs3 Proofs.MultilayerProofs4 Proofs.MultilayerProofs5 Proofs.MultilayerProofs6 Proofs.MultilayerProofs7 Proofs.MultilayerProofs8.
Import ListNotations.
Set Implicit Arguments.
Local Open Scope string_scope.
Local Open Scope R_scope.
Local Existing Instance RNum.

Lemma NoDup_app_intro {A} : forall l1 l2 : list A, NoDup l1 -> NoDup l2 -> (forall x, In x l1 -> ~ In x l2) -> NoDup (l1 ++ l2).
Proof.
  induction l1 as [|a l1 IH]; intros l2 H1 H2 D; cbn; [exact H2|]. inversion H1 as [|? ? N1 N2]. subst. constructor.
  - rewrite in_app_iff. intros [I|I]; [contradiction|]. exact (D a (or_introl eq_refl) I).
  - apply IH; [exact N2|exact H2|]. intros x I. apply D. right. exact I.
Qed.
Lemma NoDup_flat {A B} (f : A -> list B) : forall l, NoDup l -> (forall a, In a l -> NoDup (f a)) ->
  (forall a b x, In a l -> In b l -> In x (f a) -> In x (f b) -> a = b) -> NoDup (flat_map f l).
Proof.
  induction l as [|a l IH]; intros ND F D; cbn; [constructor|]. inversion ND as [|? ? N1 N2]. subst.
  apply NoDup_app_intro.
  - apply F. left. reflexivity.
  - apply IH; [exact N2|intros; apply F; right; assumption|intros; eapply D; [right|right| |]; eassumption].
  - intros x I1 I2. apply in_flat_map in I2. destruct I2 as (b & Ib & Ix). assert (a = b) by (eapply D; [left; reflexivity|right; exact Ib|exact I1|exact Ix]). subst. contradiction.
Qed.
Lemma Rsum_filter {A} (p : A -> bool) (f : A -> R) l :
  Rsum (map f l) = Rsum (map f (filter (fun x => negb (p x)) l)) + Rsum (map f (filter p l)).
Proof. induction l as [|a l IH]; cbn; [ring|]. destruct (p a); cbn; rewrite IH; ring. Qed.
Lemma Rsum_flat {A B} (f : A -> list B) (g : B -> R) l : Rsum (map g (flat_map f l)) = Rsum (map (fun a => Rsum (map g (f a))) l).
Proof. induction l as [|a l IH]; cbn; [reflexivity|]. rewrite map_app, Rsum_app, IH. reflexivity. Qed.

Section Total.
Variables (sortf : list R -> list R) (debug lf : bool).
Variable xl : @xlib RNum.
Variable c : @config RNum.
Hypothesis WF : well_formed xl.
Definition whole (ls : lns) : Prop := sorted2 ls /\ forall n t, mfind sltb n ls = Some t -> has_space n = true -> owned xl c ls n.
Lemma rest_whole ls : rest xl c ls -> whole ls.
Proof. intros (A & _ & B). split; assumption. Qed.
Lemma tertiaryLayer_keys keys ls : sorted2 ls -> sorted2 (@tertiaryLayer RNum keys ls) /\
  (forall n, mfind sltb n ls = None -> mfind sltb n (@tertiaryLayer RNum keys ls) = None) /\
  (forall n t, mfind sltb n ls = Some t -> exists t', mfind sltb n (@tertiaryLayer RNum keys ls) = Some t' /\
     forall f, f <> "tertiary" -> f <> "rate" -> mfind sltb f t' = mfind sltb f t).
Proof.
  intros S2. unfold tertiaryLayer. assert (IN : forall n, In n (map fst ls) <-> exists t, mfind sltb n ls = Some t).
  { intros n. split.
    - intros I. apply in_map_iff in I. destruct I as ([n' t] & <- & I). exists t. apply (smfind_In _ _ (proj1 S2)), I.
    - intros [t H]. apply (smfind_In _ _ (proj1 S2)) in H. apply in_map_iff. exists (n, t). split; [reflexivity|exact H]. }
  assert (ND : NoDup (map fst ls)) by (apply smsorted_NoDup; apply (proj1 S2)).
  destruct (@tertiaryFold_spec keys (map fst ls) ls S2 ND (fun n => proj1 (IN n))) as (A & B & C0).
  split; [exact A|]. split.
  - intros n H. refine (eq_trans (B n _) H). rewrite IN. intros [t Q]. congruence.
  - intros n t H. assert (I : In n (map fst ls)) by (apply IN; exists t; exact H). apply in_split in I. destruct I as (l1 & l2 & E).
    destruct (C0 l1 n l2 t E H) as (t' & q & H' & (_ & K & _) & _). exists t'. split; [exact H'|exact K].
Qed.
Lemma tertiaryLayer_whole keys ls : whole ls -> whole (@tertiaryLayer RNum keys ls).
Proof.
  intros [A B]. destruct (@tertiaryLayer_keys keys ls A) as (S2 & N0 & K). split; [exact S2|]. intros n t H HS.
  destruct (mfind sltb n ls) as [t0|] eqn:F; [|discriminate (eq_trans (eq_sym H) (N0 _ F))].
  destruct (B n t0 F HS) as (L & e & tL & esc & -> & OW & FL & ES & IE). destruct (K _ _ FL) as (t' & FL' & KE).
  exists L, e, t', esc. split; [reflexivity|]. split; [exact OW|]. split; [exact FL'|]. split; [|exact IE].
  assert (Q : field t' "energy" = field tL "energy") by (apply mfind_field, KE; discriminate). rewrite Q. exact ES.
Qed.
Lemma layerTable_answer elements families layers secondary useGeo useMass limit over r k i :
  @getMultilayerFluorescence RNum sortf debug lf xl c elements families layers secondary useGeo useMass limit over = Ok r ->
  whole (layerTable r k i).
Proof.
  intros H. destruct (@answer_state sortf debug lf xl c WF _ _ _ _ _ _ _ _ _ H) as (st & (I1 & I2 & I3) & A & B).
  destruct (Z.ltb_spec 1 secondary) as [Q|Q].
  - specialize (B Q). destruct (@tertiary_spec (st_ar st) I1) as (ar1 & r' & _ & E & _ & _ & _ & LT). rewrite B in E. injection E as <-.
    rewrite LT. apply tertiaryLayer_whole, rest_whole, I2.
  - specialize (A ltac:(lia)). subst r. apply rest_whole, I2.
Qed.

Definition escOf (t : tbl) : list (string * tbl) := match escape_peaks xl (c_detector c) (field t "energy") with Ok l => l | _ => [] end.
Definition isLine (nt : string * tbl) : bool := negb (has_space (fst nt)).
Definition rateOf (ls : lns) (n : string) : R := field (@lineOf RNum ls n) "rate".
Lemma escape_sorted E l : escape_peaks xl (c_detector c) E = Ok l -> NoDup (map fst l).
Proof.
  unfold escape_peaks. destruct (_ || _)%bool; [|intros H; injection H as <-; constructor].
  intros H. apply smsorted_NoDup.
  assert (Q : exists comp a b n s, lib_escape (x_base xl) comp E a b n s = Ok l).
  { revert H. clear. unfold det_getEscape, clearEscapePeakCache. cbn. intros H.
    destruct (computeEscape _ _ _) as [v| | |] eqn:CE; cbn in H; try discriminate. unfold computeEscape in CE. obind CE co CO. do 5 eexists. 
    injection H as <-. exact CE. }
  destruct Q as (comp & a & b & n & s & Q). exact (wf_escape xl WF _ _ _ _ _ _ _ Q).
Qed.

(** rate of everything = Σ over the lines *)
Lemma layer_total (ls : lns) (T : tbl -> R) : whole ls ->
  (forall L t, In (L, t) ls -> one_word L -> settled3 xl c (T t) ls L t) ->
  Rsum (map (fun nt => field (snd nt) "rate") ls) =
  Rsum (map (fun nt => field (snd nt) "efficiency" * (field (snd nt) "primary" + field (snd nt) "secondary" + T (snd nt))) (filter isLine ls)).
Proof.
  intros [S2 OWN] SET. destruct S2 as [S1 S2].
  assert (NDK : NoDup (map fst ls)) by (apply smsorted_NoDup; exact S1).
  rewrite (Rsum_filter (fun nt => has_space (fst nt))).
  change (filter (fun x : string * tbl => negb (has_space (fst x))) ls) with (filter isLine ls).
  set (W := filter isLine ls). set (K2 := filter (fun nt => has_space (fst nt)) ls).
  set (P := flat_map (fun nt => map (fun e => fst nt ++ " " ++ fst e) (escOf (snd nt))) W).
  assert (FIND : forall n t, In (n, t) ls -> mfind sltb n ls = Some t) by (intros; apply (smfind_In _ _ S1); assumption).
  assert (INW : forall L t, In (L, t) W <-> In (L, t) ls /\ one_word L).
  { intros L t. unfold W. rewrite filter_In. unfold isLine. cbn. unfold one_word. destruct (has_space L); cbn; intuition discriminate. }
  assert (SUBND : forall q, NoDup (map fst (filter q ls))).
  { intros q. clear - NDK. induction ls as [|a l IH]; cbn; [constructor|]. inversion NDK as [|? ? N1 N2]. subst. destruct (q a); cbn; [constructor|apply IH, N2].
    - intros I. apply N1. apply in_map_iff in I. destruct I as (b & <- & I). apply filter_In in I. apply in_map, I.
    - apply IH, N2. }
  assert (EQ2 : Rsum (map (fun nt => field (snd nt) "rate") K2) = Rsum (map (rateOf ls) (map fst K2))).
  { rewrite map_map. apply Rsum_ext. intros [n t] I. unfold rateOf, lineOf. cbn [fst snd]. toR. rewrite (FIND n t); [reflexivity|].
    unfold K2 in I. apply filter_In in I. apply I. }
  toR. rewrite EQ2.
  assert (PERM : Permutation (map fst K2) P).
  { apply NoDup_Permutation.
    - apply SUBND.
    - unfold P. apply NoDup_flat.
      + apply (NoDup_map_inv fst). apply SUBND.
      + intros [L t] I. cbn [fst snd]. unfold escOf. destruct (escape_peaks xl (c_detector c) (field t "energy")) as [l| | |] eqn:E; cbn; try constructor.
        pose proof (escape_sorted _ E) as ND. clear - ND. induction l as [|a l IH]; cbn; [constructor|]. inversion ND as [|? ? N1 N2]. subst. constructor; [|apply IH, N2].
        intros I. apply N1. apply in_map_iff in I. destruct I as (b & Q & I). apply str_app_inj_l in Q. apply (str_app_inj_l " ") in Q. rewrite <- Q. apply in_map, I.
      + intros [L t] [L' t'] x I I' Ix Ix'. cbn [fst snd] in *. apply in_map_iff in Ix, Ix'. destruct Ix as (e & <- & _), Ix' as (e' & Q & _).
        apply INW in I, I'. destruct (@word_inj L' L (fst e') (fst e) (proj2 I') (proj2 I) Q) as [-> _]. f_equal.
        assert (A1' := FIND _ _ (proj1 I)). assert (A2' := FIND _ _ (proj1 I')). congruence.
    - intros n. split.
      + intros I. apply in_map_iff in I. destruct I as ([n' t] & <- & I). unfold K2 in I. apply filter_In in I. destruct I as [I HS]. cbn in HS.
        destruct (OWN _ _ (FIND _ _ I) HS) as (L & e & tL & esc & Q & OW & FL & ES & IE). cbn [fst]. subst n'. unfold P. apply in_flat_map. exists (L, tL).
        split; [apply INW; split; [apply (smfind_In _ _ S1); exact FL|exact OW]|]. cbn [fst snd]. unfold escOf. rewrite ES.
        apply in_map_iff in IE. destruct IE as (x & <- & IX). apply in_map_iff. exists x. split; [reflexivity|exact IX].
      + intros I. unfold P in I. apply in_flat_map in I. destruct I as ([L t] & IW & I). cbn [fst snd] in I. apply in_map_iff in I. destruct I as (e & <- & IE).
        apply INW in IW. destruct (SET L t (proj1 IW) (proj2 IW)) as (_ & esc & ES & _ & FA). unfold escOf in IE. rewrite ES in IE.
        rewrite Forall_forall in FA. destruct (FA e IE) as (u & r & _ & FU & _). apply in_map_iff. exists (L ++ " " ++ fst e, u).
        split; [reflexivity|]. unfold K2. apply filter_In. split; [apply (smfind_In _ _ S1); exact FU|]. cbn [fst]. apply has_space_mid. }
  rewrite (Rsum_perm (Permutation_map (rateOf ls) PERM)). unfold P. rewrite Rsum_flat. rewrite <- Rsum_plus.
  apply Rsum_ext. intros [L t] I. apply INW in I. destruct I as [I OW]. cbn [fst snd].
  destruct (SET L t I OW) as (_ & esc & ES & RT & FA). unfold escOf. rewrite ES, RT. rewrite map_map.
  set (fl := field t "efficiency" * (field t "primary" + field t "secondary" + T t)) in *.
  assert (Q : Rsum (map (fun x => rateOf ls (L ++ " " ++ fst x)) esc) = Rsum (map peak_rate esc) * fl).
  { transitivity (Rsum (map (fun e => fl * peak_rate e) esc)); [|rewrite Rsum_mult_l; ring]. apply Rsum_ext. intros e IE. rewrite Forall_forall in FA. destruct (FA e IE) as (u & r & HR & FU & _ & UR & _).
    assert (PR : peak_rate e = r) by (unfold peak_rate, field; rewrite HR; reflexivity).
    unfold rateOf, lineOf. toR. rewrite FU, UR, PR. unfold fl. ring. }
  rewrite Q. ring.
Qed.
End Total.
