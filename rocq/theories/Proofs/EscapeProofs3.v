(** Total escape; the failures of the escape cache. *)
From Coq Require Import Ascii String List ZArith Reals Bool Arith Lia Lra Permutation.
From Verif Require Import Base.Num Base.Res Base.RSum Base.SMap Base.Str Base.ListLemmas Model.Material Model.Formula Model.Shell Model.Element
  Model.Elements Model.Layer Model.XRF Model.Multilayer Model.XRFLibrary Spec.MaterialSpec Spec.ShellSpec Spec.ElementSpec Spec.ElementsSpec Spec.MultilayerSpec Spec.LibrarySpec Spec.EscapeSpec
  Proofs.ShellProofs Proofs.ElementProofs Proofs.ElementProofs5 Proofs.ElementProofs7 Proofs.LayerProofs Proofs.MultilayerProofs Proofs.MultilayerProofs2 Proofs.MultilayerProofs7 Proofs.LibraryProofs Proofs.EscapeProofs Proofs.EscapeProofs2.
Import ListNotations.
Set Implicit Arguments.
Local Open Scope string_scope.
Local Open Scope R_scope.
Local Existing Instance RNum.
Local Notation tab := (list (string * R)).
Local Notation linesR := (list (string * list (string * R))).
Local Ltac toR := change (@num RNum) with R in *.

Lemma dominated c : 0 <= c -> forall A B : tab, NoDup (map fst A) -> (forall k x, In (k, x) A -> exists y, In (k, y) B /\ x <= c * y) ->
  (forall k y, In (k, y) B -> 0 <= y) -> Rsum (map snd A) <= c * Rsum (map snd B).
Proof.
  intros C. induction A as [|[k x] A IH]; intros B ND DOM PB; cbn [map Rsum snd].
  - apply Rmult_le_pos; [exact C|]. apply Rsum_map_nonneg. intros [k y] I. exact (PB k y I).
  - inversion ND as [|? ? NI ND']. subst. destruct (DOM k x (or_introl eq_refl)) as (y & IY & LE).
    destruct (in_split _ _ IY) as (B1 & B2 & ->). specialize (IH (B1 ++ B2)%list ND').
    assert (G : Rsum (map snd A) <= c * Rsum (map snd (B1 ++ B2)%list)).
    { apply IH.
      - intros k' x' I. destruct (DOM k' x' (or_intror I)) as (y' & IY' & LE'). exists y'. split; [|exact LE']. apply in_app_or in IY'. apply in_or_app.
        destruct IY' as [Q|[Q|Q]]; [left; exact Q| |right; exact Q]. injection Q as <- <-. exfalso. apply NI. apply in_map_iff. exists (k, x'). auto.
      - intros k' y' I. apply (PB k' y'). apply in_app_or in I. apply in_or_app. destruct I; [left; assumption|right; right; assumption]. }
    rewrite map_app, Rsum_app in G |- *. cbn [map Rsum snd]. lra.
Qed.
Theorem escape_total_bound tostr depth fuel (es : @elements RNum) (k : @escape_key RNum) E muI peaks :
  (forall name e, Elements.getElement es name = Ok e -> plain_element e) ->
  es_escFlag es = Some 0%Z \/ (es_escFlag es <> None /\ es_esc es = []) ->
  is_map (k_composition k) -> (forall name w, In (name, w) (k_composition k) -> plain_name name) ->
  0 < incidence (k_alphaIn k) ->
  total_coefficient tostr depth fuel es (k_composition k) E muI ->
  (forall E' mu, total_coefficient tostr depth fuel es (k_composition k) E' mu -> 0 < mu) ->
  (forall r, In r (emitted es (k_composition k) E) -> 0 <= r) ->
  Elements.getEscape tostr depth fuel es k E = Ok peaks ->
  Rsum (map peak_rate peaks) <= Rsum (emitted es (k_composition k) E) / (2 * muI * stopped (k_thickness k) (incidence (k_alphaIn k)) muI).
Proof.
  intros PE OFF MC PN S TI POS EM H. destruct (@escape_peaks_exact tostr depth fuel es k E peaks PE OFF MC PN H) as (MP & KEYS & _).
  assert (MI := POS _ _ TI). destruct (stopped_bounds (k_thickness k) S MI) as [SB SB']. set (st := stopped _ _ _) in *.
  set (B := flat_map (fun nw => match getExcitationFactors es (fst nw) E (snd nw) with Ok rows => map (fun r => (peak_name (fst nw) (fst r), field (snd r) "rate")) rows | _ => [] end) (k_composition k)).
  assert (EB : emitted es (k_composition k) E = map snd B).
  { unfold emitted, B. clear. induction (k_composition k) as [|nw l IH]; [reflexivity|]. cbn [flat_map]. rewrite map_app, IH. f_equal.
    destruct (getExcitationFactors es (fst nw) E (snd nw)); try reflexivity. rewrite map_map. reflexivity. }
  rewrite EB in *. unfold Rdiv. rewrite Rmult_comm.
  assert (M : map peak_rate peaks = map snd (map (fun p => (fst p, peak_rate p)) peaks)) by (rewrite map_map; reflexivity).
  toR. rewrite M. apply dominated.
  - apply Rlt_le, Rinv_0_lt_compat. apply Rmult_lt_0_compat; lra.
  - rewrite map_map. cbn [fst]. apply map_NoDup, MP.
  - intros key x I. apply in_map_iff in I. destruct I as ([key' t] & Q & I). cbn [fst snd] in Q. injection Q as -> <-.
    destruct (KEYS _ _ I) as (el & line & -> & rate & eF & mI & mF & (w & rows & v & IC & FR & IR & F1 & F2) & T1 & T2 & P). cbv zeta in P. destruct P as [_ ->].
    assert (mI = muI). { destruct T1 as (x & X1 & <-). destruct TI as (y & Y1 & <-). rewrite X1 in Y1. apply Ok_inj in Y1. subst y. reflexivity. } subst mI.
    exists rate.
    assert (INB : In (peak_name el line, rate) B).
    { unfold B. apply in_flat_map. exists (el, w). split; [exact IC|]. cbn [fst snd]. rewrite FR. apply in_map_iff. exists (line, v). cbn [fst snd]. split; [|exact IR].
      f_equal. unfold field. toR. rewrite F1. reflexivity. }
    split; [exact INB|]. unfold peak_rate, field. cbn. fold st.
    assert (R0 : 0 <= rate). { apply EM. apply in_map_iff. exists (peak_name el line, rate). auto. }
    assert (LE : escape_per_photon (incidence (k_alphaIn k)) mF muI rate <= rate / (2 * muI)).
    { destruct R0 as [R0|<-]; [left; apply per_photon_bounds; [exact S|exact (POS _ _ T2)|exact MI|exact R0]|]. unfold escape_per_photon, Rdiv. rewrite !Rmult_0_l. lra. }
    replace (/ (2 * muI * st) * rate) with (rate / (2 * muI) * / st) by (unfold Rdiv; rewrite !Rinv_mult; ring).
    unfold Rdiv at 1. apply Rmult_le_compat_r; [apply Rlt_le, Rinv_0_lt_compat, SB|exact LE].
  - intros key y I. apply EM. apply in_map_iff. exists (key, y). auto.
Qed.

(** ** The left operand evaluated first *)
Lemma mfind_set_R {A} (e : R) (v : A) m : mfind Rltb e (mset Rltb e v m) = Some v.
Proof. exact (@mfind_mset_same R _ Rltb Rltb_total e v m). Qed.
Section LeftFirst.
Variables (tostr : R -> string) (depth fuel : nat).
(** while the remembered question is the one being asked, a new energy is answered by the empty entry just made *)
Lemma left_first_get (es : @elements RNum) k e f : es_escFlag es = Some f -> f <> 0%Z -> es_escKey es = Some k ->
  Elements.getEscape tostr depth fuel (with_esc es (mset Rltb e [] (es_esc es)) (es_escKey es) (es_escFlag es)) k e = Ok [].
Proof.
  intros FL NZ KY. unfold Elements.getEscape.
  assert (C : isEscapeCacheCompatible (with_esc es (mset Rltb e [] (es_esc es)) (es_escKey es) (es_escFlag es)) k = Ok true).
  { apply compatible_iff. cbn [es_escFlag es_esc es_escKey with_esc]. split; [exists f; auto|]. split; [|exact KY].
    intros Q. pose proof (@mfind_set_R (list (string * list (string * R))) e [] (es_esc es)) as F. toR. rewrite Q in F. discriminate. }
  rewrite C. cbn [rbind es_esc with_esc]. change (@nltb RNum) with Rltb.
  match goal with |- match ?o with _ => _ end = _ => replace o with (Some (@nil (string * list (string * R)))); [reflexivity|] end. symmetry. exact (mfind_set_R e [] (es_esc es)).
Qed.
Lemma left_first_loop k f : f <> 0%Z -> forall l es es' r, es_escFlag es = Some f -> es_escKey es = Some k -> msorted Rltb (es_esc es) ->
  updateEscapeLoop tostr depth true fuel es k l = (es', r) ->
  r = Ok tt /\ es_escFlag es' = Some f /\ es_escKey es' = Some k /\
  (forall E v, mfind Rltb E (es_esc es) = Some v -> mfind Rltb E (es_esc es') = Some v) /\
  (forall E, In E l -> mfind Rltb E (es_esc es) = None -> mfind Rltb E (es_esc es') = Some []).
Proof.
  intros NZ. induction l as [|e l IH]; intros es es' r FL KY SO H; cbn [updateEscapeLoop] in H.
  { injection H as <- <-. repeat split; auto. intros E []. }
  change (@nltb RNum) with Rltb in H. cbn [Bool.eqb] in H.
  assert (LG := left_first_get es e FL NZ KY). 
  match type of H with context [if ?b then _ else _] => destruct b eqn:ME end.
  - destruct (IH (with_esc es (es_esc es) (Some k) (es_escFlag es)) es' r FL eq_refl SO H) as (A & B & C & D & F). cbn [es_esc with_esc] in *. repeat split; auto.
    intros E [<-|I] N; [|auto]. unfold mmem in ME. toR. rewrite N in ME. discriminate.
  - cbn [es_escKey es_escFlag with_esc] in LG. toR. rewrite LG in H. cbn [cacheAssign] in H. change (@nltb RNum) with Rltb in H.
    destruct (IH (with_esc es (mset Rltb e [] (es_esc es)) (Some k) (es_escFlag es)) es' r FL eq_refl (@mset_sorted R _ Rltb Rltb_total e [] (es_esc es) SO) H) as (A & B & C & D & F). cbn [es_esc with_esc] in *. repeat split; auto.
    + intros E v G. apply D. destruct (Req_EM_T e E) as [<-|NE]; [|exact (eq_trans (@mfind_mset_other R _ Rltb Rltb_total e E [] (es_esc es) NE SO) G)].
      unfold mmem in ME. toR. rewrite G in ME. discriminate.
    + intros E I N. destruct (Req_EM_T e E) as [<-|NE]; [apply D; apply mfind_set_R|].
      destruct I as [->|I]; [contradiction|]. apply F; [exact I|]. exact (eq_trans (@mfind_mset_other R _ Rltb Rltb_total e E [] (es_esc es) NE SO) N).
Qed.
(** after two updates with the same question the energies of the second one, if new, have no escape peaks *)
Theorem left_first_empty es k f E : es_escFlag es = Some f -> f <> 0%Z -> es_escKey es = Some k -> es_esc es <> [] -> msorted Rltb (es_esc es) ->
  mfind Rltb E (es_esc es) = None ->
  forall es' r, updateEscapeCache tostr depth true fuel es k [E] = (es', r) -> r = Ok tt /\ Elements.getEscape tostr depth fuel es' k E = Ok [].
Proof.
  intros FL NZ KY NE SO N es' r H. unfold updateEscapeCache in H.
  assert (C : isEscapeCacheCompatible es k = Ok true) by (apply compatible_iff; split; [exists f; auto|auto]). toR. rewrite C in H.
  destruct (left_first_loop NZ _ _ FL KY SO H) as (A & B & D & _ & G). split; [exact A|].
  specialize (G E (or_introl eq_refl) N). unfold Elements.getEscape.
  assert (C' : isEscapeCacheCompatible es' k = Ok true). { apply compatible_iff. split; [exists f; auto|]. split; [intros Q; rewrite Q in G; discriminate|exact D]. }
  toR. rewrite C'. cbn [rbind]. change (@nltb RNum) with Rltb. match goal with |- match ?o with _ => _ end = _ => replace o with (Some (@nil (string * list (string * R)))) by (symmetry; exact G); reflexivity end.
Qed.
End LeftFirst.
