(** Multilayer, secondary excitation: the loop over the emitting layers gives the contributions of the specification. *)
From Coq Require Import Ascii String List ZArith Reals Bool Arith Lia Lra.
From Verif Require Import Base.Num Base.Res Base.RSum Base.SMap Base.Str Base.ListLemmas Model.Beam Model.Material Model.TransmissionTable
  Model.Math Model.Shell Model.Element Model.Layer Model.XRF Model.Multilayer Spec.MultilayerSpec Spec.SecondarySpec Proofs.LayerProofs Proofs.MultilayerProofs Proofs.MultilayerProofs2
  Proofs.MultilayerProofs3 Proofs.MultilayerProofs10 Proofs.ElementProofs Proofs.MultilayerProofs19 Proofs.MultilayerProofs20 Proofs.MultilayerProofs21.
Import ListNotations.
Set Implicit Arguments.
Local Open Scope string_scope.
Local Open Scope R_scope.
Local Existing Instance RNum.

Lemma flat_map_filter {A B} (p : A -> bool) (f : A -> list B) l : (forall a, In a l -> p a = false -> f a = []) -> flat_map f (filter p l) = flat_map f l.
Proof.
  induction l as [|a l IH]; intros H; [reflexivity|]. cbn [filter flat_map]. rewrite <- IH by (intros a' I; apply H; right; exact I).
  destruct (p a) eqn:P; [reflexivity|]. rewrite (H a (or_introl eq_refl) P). reflexivity.
Qed.

Section Loop.
Variable debug : bool.
Variable xl : @xlib RNum.
Variable c : @config RNum.
Variable comps : list tbl.
Variable geo : list R.
Hypothesis LC : length comps = length (c_sample c).
Hypothesis LG : length geo = length (c_sample c).
Variable limit : R.
Variables (elements families : list string) (useMass : Z).
Local Notation mu := (mu_at xl c comps).
Local Notation size := (length (c_sample c)).
Variable mn : R.
Variable env : @ray_env RNum.
Hypothesis EO : env_ok xl c comps geo env.
Hypothesis EF : env_full xl c comps limit mn env.
Local Notation E := (e_energy env).
Local Notation w := (e_weight env).
Variables (n i : nat) (s : @slab RNum).
Hypothesis Hs : nth_error (e_slabs env) i = Some s.
Variable en : string -> R.
Hypothesis LOW : mn <= threshold xl elements families n.
Local Notation thr := (threshold xl elements families n).
Local Notation element := (element_of elements n).
Definition mass_of : R := if (useMass =? 0)%Z then 1 else field (comp_at comps i) element.
Local Notation gain := (gain_from debug xl c elements families useMass comps n E i).

Definition term_value (j : nat) (e number : R) (L : string) (rate : R) : option R :=
  if neglected xl c comps i j rate (en L) then None
  else Some (geometry debug xl c comps i j E (en L) e * (mass_of * (Rlit 5 (-1) / sin_degrees (c_alphaIn c))) * rate * number).
Lemma hit_gain j L ph : photon_hit xl j element thr (term_value j) L ph = gain L (en L) j ph.
Proof.
  destruct ph as [[e number] name]. unfold photon_hit, gain_from. destruct (Rltb_spec e thr) as [B|B].
  - replace (Rleb thr e) with false by (symmetry; apply Rleb_false; lra). cbn [andb]. destruct (factor_row xl element L e 1); reflexivity.
  - replace (Rleb thr e) with true by (symmetry; apply Rleb_true; lra). cbn [andb]. destruct (factor_row xl element L e 1) as [t|]; [|reflexivity].
    unfold term_value. destruct (neglected xl c comps i j (field t "rate") (en L)); [reflexivity|]. cbn [negb]. rewrite layerNumber_label. reflexivity.
Qed.

Lemma secondaryLoop_hits : forall k j fc rs ls fc' rs' ls', k = length (skipn j (e_slabs env)) ->
  (forall L x, In (L, x) rs -> r_mu x = mu i (en L)) ->
  fc_ok xl fc -> NoDup (map fst rs) -> sorted2 ls -> (forall L, In L (map fst rs) -> exists t, mfind sltb L ls = Some t) ->
  secondaryLoop debug xl c env i s (mu i E) mass_of element thr j (skipn j (e_slabs env)) fc rs ls = Ok (fc', rs', ls') ->
  fc_ok xl fc' /\
  ev2 (fun L => flat_map (fun q => if neglected_layer xl c comps i q E then [] else flat_map (gain L (en L) q) (photons xl c limit comps q E w))
                 (seq j k)) rs ls rs' ls'.
Proof.
  induction k as [|k IH]; intros j fc rs ls fc' rs' ls' HK RM FC ND S2 P H.
  { destruct (skipn j (e_slabs env)); [|discriminate]. cbn [secondaryLoop] in H. apply Ok_inj in H. injection H as <- <- <-.
    split; [exact FC|]. apply ev2_refl. reflexivity. }
  assert (SK : exists s2, nth_error (e_slabs env) j = Some s2 /\ skipn j (e_slabs env) = s2 :: skipn (S j) (e_slabs env)).
  { clear -HK. revert j HK. induction (e_slabs env) as [|a l IHl]; intros [|j] HK; try discriminate HK; [exists a; split; reflexivity|]. apply IHl. exact HK. }
  destruct SK as (s2 & Hs2 & SK). rewrite SK in H, HK. cbn [length] in HK. apply eq_add_S in HK. cbn [secondaryLoop] in H.
  destruct (proj2 EO i s Hs) as (_ & _ & _ & W1). destruct (proj2 EO j s2 Hs2) as (_ & _ & _ & W2). rewrite W1, W2 in H.
  change (@nlit RNum 1 (-4)) with (Rlit 1 (-4)) in H. rnorm_in H.
  change (negb (Nat.eqb i j) && Rltb (beam_at xl c comps j E / beam_at xl c comps i E) (Rlit 1 (-4)))%bool with (neglected_layer xl c comps i j E) in H.
  cbn [seq]. destruct (neglected_layer xl c comps i j E) eqn:NG.
  { destruct (IH (S j) _ _ _ _ _ _ HK RM FC ND S2 P H) as [A B]. split; [exact A|]. eapply ev2_ext; [|exact B]. intros L x I. cbn [flat_map]. rewrite NG. reflexivity. }
  obind H y Y. destruct y as [[fc1 rs1] ls1].
  destruct (proj1 EF j s2 Hs2) as (MJ & EM & MV).
  assert (EV : ev rs ls rs1 ls1) by (eapply exciteAll_spec; [exact ND|exact S2|exact P|exact Y]).
  destruct (@exciteAll_hits xl j s2 element thr (secondaryTerm debug xl c env i j s s2 (mu i E) mass_of) (mu j) (term_value j) (sl_em s2) 0 fc rs ls fc1 rs1 ls1) as [FC1 E1]; [| |exact FC|exact ND|exact S2|exact P|exact Y|].
  { intros q ph Hq. rewrite MV. cbn [plus]. exact (map_nth_error (fun ph => mu j (fst (fst ph))) q (sl_em s2) Hq). }
  { intros L e number rate x o y I EQ HT. assert (RY : r_mu y = mu i (en L)) by (rewrite EQ; apply RM, I).
    exact (@term_spec debug xl c comps geo LC LG limit mn env EO EF i j s s2 mass_of e number rate y (en L) o Hs Hs2 RY HT). }
  assert (EV' := EV). destruct EV' as (A0 & B0 & C0 & D0).
  destruct (IH (S j) fc1 rs1 ls1 fc' rs' ls' HK) as [A B]; [|exact FC1|rewrite B0; exact ND|exact A0|eapply ev_ready; eassumption|exact H|].
  { intros L x1 I. destruct (E1 L x1 I) as (x & I0 & M & _). rewrite M. apply RM, I0. }
  split; [exact A|]. eapply ev2_ext; [|exact (ev2_trans E1 B)]. intros L x I. cbn [flat_map]. rewrite NG. f_equal.
  rewrite EM. rewrite flat_map_filter.
  - clear. induction (photons xl c limit comps j E w) as [|ph l IHl]; [reflexivity|]. cbn [flat_map]. rewrite hit_gain, IHl. reflexivity.
  - intros [[e number] name] _ AB. unfold above in AB. cbn [fst] in AB. apply negb_false_iff, Rltb_true in AB. unfold photon_hit.
    replace (Rltb e thr) with true by (symmetry; apply Rltb_true; lra). reflexivity.
Qed.
End Loop.
