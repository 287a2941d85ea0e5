(** The class Elements is a well-formed library for the calculation. *)
From Coq Require Import Ascii String List ZArith Reals Bool Arith Lia Lra.
From Verif Require Import Base.Num Base.Res Base.RSum Base.SMap Base.Str Base.ListLemmas Model.Material Model.Shell Model.Element
  Model.Elements Model.Layer Model.XRF Model.Multilayer Model.XRFLibrary Spec.ShellSpec Spec.ElementSpec Spec.MultilayerSpec Spec.LibrarySpec
  Proofs.ShellProofs Proofs.ElementProofs Proofs.ElementProofs5 Proofs.ElementProofs7 Proofs.LayerProofs Proofs.MultilayerProofs Proofs.MultilayerProofs2 Proofs.MultilayerProofs7.
Import ListNotations.
Set Implicit Arguments.
Local Open Scope string_scope.
Local Open Scope R_scope.
Local Existing Instance RNum.
Local Notation tab := (list (string * R)).
Local Notation linesR := (list (string * list (string * R))).

Lemma mfind_any {V} k (m : list (string * V)) v : mfind sltb k m = Some v -> In (k, v) m.
Proof.
  induction m as [|[q w] m IH]; cbn; [discriminate|]. destruct (sltb q k) eqn:A; [intros H; right; apply IH, H|].
  destruct (sltb k q) eqn:B; [discriminate|]. intros [= <-]. left. f_equal. apply (st_total (StrictTotal := sltb_total)); assumption.
Qed.
Lemma rfold_inv {A B} (f : B -> A -> res B) (P : B -> Prop) l : (forall a, In a l -> forall b b', P b -> f b a = Ok b' -> P b') ->
  forall b b', P b -> rfold f l b = Ok b' -> P b'.
Proof.
  induction l as [|a l IH]; intros H b b' Pb E; cbn in E; [injection E as <-; exact Pb|].
  obind E x X. apply (IH (fun q I => H q (or_intror I)) x b'); [|exact E]. exact (H a (or_introl eq_refl) b x Pb X).
Qed.

(** ** The lines of an element *)
Section Lines.
Variable e : @element RNum.
Hypothesis PE : plain_element e.

Definition row_fact (line : string) (t : tab) : Prop :=
  exists r, 0 < r /\ t = [("energy", transition_energy e line); ("rate", r)] /\ one_word line.
Definition rows_fact (out : linesR) : Prop := msorted sltb out /\ forall line t, In (line, t) out -> row_fact line t.

Lemma shell_of_spec k lab : In k shell_names -> begins_with k lab -> shell_of lab = k.
Proof.
  intros I [r ->]. unfold shell_of. cbn in I. decompose [or] I; subst; try contradiction; cbn; try reflexivity; destruct r; reflexivity.
Qed.
Lemma lineStep_rows k v sh out kv out' : In k shell_names -> mfind sltb k (el_shells e) = Some sh -> In kv (sh_fluo sh) ->
  rows_fact out -> lineStep e true k v sh out kv = Ok out' -> rows_fact out'.
Proof.
  intros Hk Hsh Hkv [SO RW] H. unfold lineStep in H. cbn zeta in H. obind H rate ER. clear ER.
  destruct (nltb n0 rate) eqn:GT; [|injection H as <-; split; assumption].
  destruct (mfind sltb k (el_binding e)) as [b0|] eqn:B0; [|discriminate].
  destruct (nleb b0 n0) eqn:LE; [discriminate|]. obind H from F. obind H b1 F1. apply Ok_inj in H. subst out'.
  assert (POS : 0 < rate) by (apply Rltb_true; exact GT).
  assert (EN : b0 - b1 = transition_energy e (fst kv)).
  { unfold transition_energy. assert (SH : shell_of (fst kv) = k).
    { apply shell_of_spec; [exact Hk|]. pose proof (pe_labels _ PE) as O. unfold own_labels in O. rewrite Forall_forall in O.
      specialize (O _ (mfind_any _ _ Hsh)). cbn in O. rewrite Forall_forall in O. exact (O kv Hkv). }
    rewrite SH. assert (V0 : value_or_0 k (getBindingEnergies e) = b0) by (unfold value_or_0, getBindingEnergies; pose proof B0 as B0'; toR; rewrite B0'; reflexivity).
    rewrite V0. cbn zeta. f_equal.
    unfold lastTwo in F. destruct (Nat.ltb _ 2); [discriminate|]. injection F as <-. unfold fromEnergy in F1. cbn zeta in F1.
    unfold value_or_0, getBindingEnergies. change (val0 (N:=RNum) (el_binding e) (substring (String.length (fst kv) - 2) 2 (fst kv))) with
      (field (el_binding e) (substring (String.length (fst kv) - 2) 2 (fst kv))) in F1. unfold field in F1.
    match type of F1 with context [match ?m with Some _ => _ | None => _ end] => destruct m as [b|] end; toR.
    - cbn [nleb nltb n0 RNum] in F1. change (@n0 RNum) with 0 in F1. destruct (Rleb_spec b 0) as [L|L]; [|apply Ok_inj in F1; rewrite <- F1; destruct (Reqb_spec b 0); [lra|reflexivity]].
      destruct (Rltb_spec b 0) as [L'|L']; [discriminate|]. apply Ok_inj in F1; rewrite <- F1. destruct (Reqb_spec b 0); [change (@nlit RNum 3 (-3)) with (Rlit 3 (-3)); unfold Rlit; simpl; lra|lra].
    - cbn [nleb nltb n0 RNum] in F1. change (@n0 RNum) with 0 in F1. destruct (Rleb_spec 0 0) as [L|L]; [|lra]. destruct (Rltb_spec 0 0) as [L'|L']; [discriminate|]. apply Ok_inj in F1; rewrite <- F1.
      destruct (Reqb_spec 0 0); [change (@nlit RNum 3 (-3)) with (Rlit 3 (-3)); unfold Rlit; simpl; lra|lra]. }
  assert (OW : one_word (fst kv)).
  { pose proof (pe_words _ PE) as O. rewrite Forall_forall in O. specialize (O _ (mfind_any _ _ Hsh)). cbn in O. rewrite Forall_forall in O. exact (O kv Hkv). }
  assert (NEW : mset sltb "energy" (b0 - b1) (mset sltb "rate" rate (match mfind sltb (fst kv) out with Some t => t | None => [] end)) =
                [("energy", transition_energy e (fst kv)); ("rate", rate)]).
  { destruct (mfind sltb (fst kv) out) as [t|] eqn:FO; [|cbn; rewrite EN; reflexivity].
    destruct (RW _ _ (mfind_any _ _ FO)) as (r & _ & -> & _). cbn. rewrite EN. reflexivity. }
  split; [apply smset_sorted, SO|]. intros line t I. apply smset_In in I; [|exact SO].
  destruct I as [I|[_ I]]; [|apply RW, I]. injection I as -> ->. exists rate. split; [exact POS|]. split; [exact NEW|exact OW].
Qed.
Lemma directLines_rows (l : tab) out : Forall (fun kv => In (fst kv) shell_names) l -> directLines e true l = Ok out -> rows_fact out.
Proof.
  intros F. unfold directLines. apply (@rfold_inv _ _ _ rows_fact); [|split; [apply smsorted_nil|intros ? ? []]].
  intros kv I out0 out1 R0 H. cbn beta in H. obind H sh HS. rewrite Forall_forall in F. specialize (F kv I).
  revert H. apply (@rfold_inv _ _ _ rows_fact); [|exact R0]. intros ln Iln o1 o2 P1 P2.
  unfold of_opt in HS. destruct (mfind sltb (fst kv) (el_shells e)) eqn:HF; [|discriminate]. injection HS as ->.
  eapply lineStep_rows; eauto.
Qed.
End Lines.

(** ** Excitation factors *)
Lemma factors_rows (e : @element RNum) (E w : R) l : plain_element e -> getPhotoelectricExcitationFactors e E w = Ok l ->
  exists photo, (exists mu, getMassAttenuationCoefficients e E = Ok mu /\ photo = field mu "photoelectric") /\
  msorted sltb l /\ forall line t, In (line, t) l -> one_word line /\
    exists r, 0 < r /\ t = [("energy", transition_energy e line); ("factor", r * w); ("rate", r * w * photo)].
Proof.
  intros PE H. unfold getPhotoelectricExcitationFactors in H. rewrite (pe_cache _ PE) in H. unfold computeFactors in H.
  obind H d HD. obind H ls HL. obind H mu HM. apply Ok_inj in H. subst l.
  exists (field mu "photoelectric"). split; [exists mu; split; reflexivity|].
  unfold getXRayLinesFromVacancyDistribution in HL. cbn [Z.eqb negb] in HL. rewrite (pe_cascade _ PE) in HL. cbn [andb] in HL.
  obind HL cl HC.
  assert (RF : rows_fact e ls).
  { eapply directLines_rows; [exact PE| |exact HL]. clear - HC. unfold cascadeList in HC.
    assert (K : Forall (fun kv : string * R => In (fst kv) shell_names) (initialDistribution e d)).
    { apply Forall_forall. intros kv I. unfold initialDistribution in I. apply in_map_iff in I. destruct I as (k & <- & I). exact (keys_names e k I). }
    revert HC K. generalize (initialDistribution e d), (length (cascadeKeys e)). intros l n. revert l cl.
    induction n as [|n IH]; intros l cl HC K; cbn in HC; [injection HC as <-; constructor|]. destruct l as [|[k v] l]; [injection HC as <-; constructor|].
    obind HC r' HR. obind HC o HO. apply Ok_inj in HC. subst cl. inversion K; subst. constructor; [assumption|].
    apply (IH r' o); [exact HO|]. clear - HR H2. destruct (Rltb 0 v); [|apply Ok_inj in HR; subst r'; assumption].
    apply rmapM_inv in HR. apply Forall_forall. intros kv I. clear - HR H2 I. induction HR as [|a b l l' Hab F2 IH]; [contradiction|].
    inversion H2; subst. destruct I as [<-|I]; [|apply IH; assumption]. clear - Hab H1. obind Hab sh X. obind Hab q Y. apply Ok_inj in Hab. subst b. exact H1. }
  destruct RF as [SO RW]. split.
  { unfold msorted, mkeys. rewrite map_map. exact SO. }
  intros line t I. apply in_map_iff in I. destruct I as ([line' t'] & Q & I). cbn [fst snd] in Q. injection Q as <- <-.
  destruct (RW _ _ I) as (r & P & -> & OW). split; [exact OW|]. exists r. split; [exact P|]. reflexivity.
Qed.

Section Library.
Variables (tostr : R -> string) (depth fuel : nat) (sortf : tab -> tab) (es : @elements RNum).
Hypothesis PL : plain_library es.
Local Notation xl := (@xlib_of RNum tostr depth fuel sortf es).

Lemma factors_of ele (E w : R) l : x_factors xl ele E w = Ok l ->
  exists e, Elements.getElement es ele = Ok e /\ plain_element e /\ getPhotoelectricExcitationFactors e E w = Ok l.
Proof.
  cbn [x_factors xlib_of]. unfold getExcitationFactors. intros H. obind H e HE. obind H v HV. unfold getPhotoelectricExcitationFactors_vec in HV.
  cbn [rmapM] in HV. obind HV l0 H0. cbn [rbind] in HV. apply Ok_inj in HV. subst v. unfold vget in H. cbn in H. apply Ok_inj in H. subst l0.
  exists e. split; [reflexivity|]. split; [exact (pl_elements _ PL _ _ HE)|exact H0].
Qed.
Lemma library_rows ele (E w : R) l : x_factors xl ele E w = Ok l ->
  exists photo, msorted sltb l /\ forall line t, In (line, t) l -> one_word line /\
    exists r, 0 < r /\ t = [("energy", line_energy_in es ele line); ("factor", r * w); ("rate", r * w * photo)].
Proof.
  intros H. destruct (factors_of _ _ _ H) as (e & HE & PE & HF). destruct (factors_rows _ _ PE HF) as (photo & _ & SO & RW).
  exists photo. split; [exact SO|]. unfold line_energy_in. rewrite HE. exact RW.
Qed.

(** ** Escape peaks *)
Definition peaks_fact (k : @escape_key RNum) (out : linesR) : Prop :=
  msorted sltb out /\ forall n t, In (n, t) out -> (exists p, n = p ++ "esc") /\ exists en r, t = [("energy", en); ("rate", r)] /\ (k_thickness k = 0 -> k_thrI k < r).
Lemma escapeLines_peaks k (E s muI eff : R) name : forall l out out', peaks_fact k out ->
  escapeLines tostr depth fuel es k E s muI eff name l out = Ok out' -> peaks_fact k out'.
Proof.
  induction l as [|[line t] l IH]; intros out out' PF H; cbn [escapeLines] in H; [apply Ok_inj in H; subst out'; exact PF|].
  obind H r0 H0. obind H eF H1. obind H muF H2. revert H. apply IH. clear IH. destruct PF as [SO RW].
  set (rate := escapeRate s muF muI r0). clearbody rate. destruct (nltb (k_thrI k) rate) eqn:GT; [|split; assumption].
  set (key := (name ++ "_" ++ line ++ "esc")%string). set (q := if nltb n0 (k_thickness k) then ndiv rate eff else rate).
  assert (Q : k_thickness k = 0 -> k_thrI k < q).
  { intros T. unfold q. rewrite T. replace (@nltb RNum n0 0) with false by (symmetry; apply Rltb_false; cbn; apply Rlt_irrefl). apply Rltb_true; exact GT. }
  clearbody q. assert (NEW : mset sltb "energy" (nsub E eF) (mset sltb "rate" q (match mfind sltb key out with Some t => t | None => [] end)) = [("energy", nsub E eF); ("rate", q)]).
  { destruct (mfind sltb key out) as [u|] eqn:FO; [|reflexivity]. destruct (RW _ _ (mfind_any _ _ FO)) as (_ & en & r & -> & _). reflexivity. }
  split; [apply smset_sorted, SO|]. intros n u I. apply smset_In in I; [|exact SO]. destruct I as [I|[_ I]]; [|apply RW, I].
  injection I as -> ->. split; [exists (name ++ "_" ++ line)%string; unfold key; rewrite !append_assoc_str; reflexivity|]. exists (nsub E eF), q. split; [exact NEW|exact Q].
Qed.
Lemma getEscape_peaks k (E : R) l : Elements.getEscape tostr depth fuel es k E = Ok l -> peaks_fact k l.
Proof.
  intros H. unfold Elements.getEscape in H. obind H b HB.
  assert (b = false).
  { unfold isEscapeCacheCompatible in HB. obind HB flag HF. destruct (pl_escape _ PL) as [Z|Z]; rewrite Z in *; [injection HF as <-; cbn in HB; injection HB as <-; reflexivity|].
    destruct (Z.eqb flag 0); injection HB as <-; reflexivity. }
  subst b. unfold Elements.computeEscape in H. cbn zeta in H. obind H muI HM. revert H.
  apply (@rfold_inv _ _ _ (peaks_fact k)); [|split; [apply smsorted_nil|intros ? ? []]].
  intros nw _ o1 o2 P1 P2. obind P2 fl HF. revert P2. apply escapeLines_peaks, P1.
Qed.

(** ** The library as the calculation needs it *)
Theorem library_well_formed : well_formed xl.
Proof.
  constructor.
  - intros ele E w l H. destruct (library_rows _ _ _ H) as (_ & SO & _). exact SO.
  - intros ele E w l line t H I. destruct (library_rows _ _ _ H) as (photo & _ & RW). apply (RW line t I).
  - intros comp E a b n s l H. apply getEscape_peaks in H. apply H.
Qed.
Theorem library_line_energies : line_energies xl (line_energy_in es).
Proof.
  intros ele E w l line t H I. destruct (library_rows _ _ _ H) as (photo & _ & RW). destruct (RW line t I) as (_ & r & _ & ->). reflexivity.
Qed.
Lemma transpose_total (l : list tab) : vval (transpose_mu l) "total" = map (fun t => val0 t "total") l.
Proof. reflexivity. Qed.
Lemma map_list_pointwise comp Es flag m : getMu_map_vec tostr depth fuel es comp Es flag = Ok m ->
  Forall2 (fun E v => exists m', getMu_map_vec tostr depth fuel es comp [E] flag = Ok m' /\ vval m' "total" = [v]) Es (vval m "total").
Proof.
  unfold getMu_map_vec, getMu_map_list. intros H. obind H l HL. obind HL at_ HA. apply Ok_inj in H. subst m. rewrite transpose_total.
  apply rmapM_inv in HL. clear - HA HL. induction HL as [|E t Es ts HT F2 IH]; [constructor|]. constructor; [|exact IH].
  eexists. cbn [rmap rbind rmapM]. unfold rmap. rewrite HT. cbn [rbind]. split; reflexivity.
Qed.
Lemma Forall2_both {A B} (P Q : Prop) (F G : A -> B -> Prop) : forall l l', (P -> Forall2 F l l') -> (Q -> Forall2 G l l') -> P \/ Q ->
  Forall2 (fun x y => (P -> F x y) /\ (Q -> G x y)) l l'.
Proof.
  induction l as [|x l IH]; intros l' HP HQ PQ.
  - destruct l' as [|y l']; [constructor|]. destruct PQ as [p|q]; [specialize (HP p); inversion HP|specialize (HQ q); inversion HQ].
  - destruct l' as [|y l']; [destruct PQ as [p|q]; [specialize (HP p); inversion HP|specialize (HQ q); inversion HQ]|].
    constructor; [split; intros p; [specialize (HP p); inversion HP|specialize (HQ p); inversion HQ]; assumption|].
    apply IH; [intros p; specialize (HP p); inversion HP; assumption|intros p; specialize (HQ p); inversion HQ; assumption|exact PQ].
Qed.
Theorem library_pointwise : pointwise xl.
Proof.
  intros comp Es m H. apply Forall2_both; [| |exact H]; apply map_list_pointwise.
Qed.
Theorem library_escape_names d : 0 <= d_thrI d -> escape_names xl d.
Proof.
  intros T. constructor. intros E l [n t] H I. unfold escape_peaks in H. destruct (_ || _)%bool in H; [|injection H as <-; contradiction].
  unfold det_getEscape in H. cbn [String.length Nat.ltb Nat.leb snd] in H. unfold Layer.computeEscape in H. obind H c HC.
  cbn [x_base xlib_of library_of lib_escape] in H. apply getEscape_peaks in H. destruct H as [_ RW]. destruct (RW n t I) as ((p & ->) & en & r & -> & K).
  split; [apply contains_app; reflexivity|]. unfold peak_rate. cbn. specialize (K eq_refl). cbn in K. lra.
Qed.
End Library.
