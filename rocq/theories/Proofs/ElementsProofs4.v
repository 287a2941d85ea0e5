(** Compositions of materials (real numbers). *)
From Coq Require Import Ascii String List ZArith Reals Bool Lia Lra Arith.
From Verif Require Import Base.Num Base.Res Base.RSum Base.SMap Base.Str Base.ListLemmas Model.Material Model.Shell Model.Element Model.Formula Model.Elements
  Spec.MaterialSpec Spec.ShellSpec Spec.ElementSpec Spec.FormulaSpec Spec.ElementsSpec Proofs.MaterialProofs Proofs.FormulaProofs Proofs.FormulaProofs2
  Proofs.ElementsProofs Proofs.ElementsProofs2 Proofs.ElementsProofs3.
Import ListNotations.
Local Open Scope string_scope.
Local Existing Instance RNum.
Local Notation tbl := (list (string * R)).
Local Open Scope R_scope.

(** *** adding a scaled composition *)
Lemma val0_R (m : tbl) k : @val0 RNum m k = value_or_0 k m. Proof. reflexivity. Qed.
Lemma madd_sorted k v (m : tbl) : msorted sltb m -> msorted sltb (@madd RNum k v m).
Proof. apply smset_sorted. Qed.
Lemma madd_value k v (m : tbl) s : msorted sltb m -> value_or_0 s (@madd RNum k v m) = value_or_0 s m + (if String.eqb k s then v else 0).
Proof.
  intros Hs. unfold madd, value_or_0. destruct (String.eqb_spec k s) as [->|Q].
  - rewrite smfind_mset_same. reflexivity.
  - rewrite smfind_mset_other by assumption. rnorm. lra.
Qed.
Lemma madd_total k v (m : tbl) : msorted sltb m -> Rsum (map snd (@madd RNum k v m)) = Rsum (map snd m) + v.
Proof.
  intros Hs. unfold madd. induction m as [|[q w] m IH]; cbn [mset map snd Rsum].
  - unfold val0. cbn. lra.
  - apply (@msorted_cons_inv string R sltb) in Hs. destruct Hs as [Hs Hf]. unfold val0. cbn [mfind].
    destruct (sltb q k) eqn:A; cbn [map snd Rsum].
    + unfold val0 in IH. rewrite (IH Hs). lra.
    + destruct (sltb k q) eqn:B; cbn [map snd Rsum]; rnorm; lra.
Qed.
Lemma madd_keys k v (m : tbl) s : msorted sltb m -> (In s (map fst (@madd RNum k v m)) <-> s = k \/ In s (map fst m)).
Proof. intros Hs. unfold madd. exact (smset_keys_In k _ s Hs). Qed.


Fixpoint lsum (s : string) (c : tbl) : R := match c with [] => 0 | (k, v) :: r => (if String.eqb k s then v else 0) + lsum s r end.
Lemma lsum_value (c : tbl) s : msorted sltb c -> lsum s c = value_or_0 s c.
Proof.
  induction c as [|[k v] c IH]; intros Hs; [reflexivity|]. apply (@msorted_cons_inv string R sltb) in Hs. destruct Hs as [Hs Hf].
  cbn [lsum]. rewrite (IH Hs). unfold value_or_0. cbn [mfind]. destruct (String.eqb_spec k s) as [->|Q].
  - rewrite (@mfind_Forall_gt string R sltb sltb_total s c Hf).
    destruct (sltb s s) eqn:A; [rewrite (st_irrefl (StrictTotal := sltb_total)) in A; discriminate|]. lra.
  - destruct (sltb k s) eqn:A; [lra|]. destruct (sltb s k) eqn:B.
    + assert (G : mfind sltb s c = None).
      { apply (@mfind_Forall_gt string R sltb sltb_total). eapply Forall_impl; [|exact Hf]. intros x Hx. eapply (st_trans (StrictTotal := sltb_total)); [exact B|exact Hx]. }
      rewrite G. lra.
    + exfalso. apply Q. apply (st_total (StrictTotal := sltb_total)); assumption.
Qed.
Lemma addScaled_facts w (c : tbl) : forall acc : tbl, msorted sltb acc ->
  msorted sltb (@addScaled RNum w c acc) /\
  (forall s, value_or_0 s (@addScaled RNum w c acc) = value_or_0 s acc + lsum s c * w) /\
  Rsum (map snd (@addScaled RNum w c acc)) = Rsum (map snd acc) + w * Rsum (map snd c) /\
  (forall s, In s (map fst (@addScaled RNum w c acc)) <-> In s (map fst c) \/ In s (map fst acc)).
Proof.
  induction c as [|[k v] c IH]; intros acc Hs.
  - cbn. split; [exact Hs|]. split; [intros s; lra|]. split; [lra|tauto].
  - unfold addScaled. cbn [fold_left fst snd]. change (fold_left _ c ?a) with (@addScaled RNum w c a).
    pose proof (madd_sorted k (v * w) acc Hs) as Hs'. destruct (IH _ Hs') as [A [B [C D]]].
    split; [exact A|]. split; [|split].
    + intros s. rewrite B. rewrite madd_value by exact Hs. cbn [lsum]. destruct (String.eqb k s); lra.
    + refine (eq_trans C _). rewrite madd_total by exact Hs. cbn [map snd Rsum]. lra.
    + intros s. rewrite D. rewrite madd_keys by exact Hs. cbn. intuition congruence.
Qed.
Lemma addScaled_pos w (c : tbl) : 0 < w -> forall acc : tbl, msorted sltb acc -> (forall s x, In (s, x) c -> 0 < x) -> (forall s x, In (s, x) acc -> 0 < x) ->
  forall s x, In (s, x) (@addScaled RNum w c acc) -> 0 < x.
Proof.
  intros Hw. induction c as [|[k v] c IH]; intros acc Hs Hc Ha s x I; [exact (Ha _ _ I)|].
  unfold addScaled in I. cbn [fold_left fst snd] in I. change (fold_left _ c ?a) with (@addScaled RNum w c a) in I.
  refine (IH _ (madd_sorted _ _ _ Hs) _ _ s x I).
  - intros s' x' I'. apply (Hc s'). right. exact I'.
  - intros s' x' I'. unfold madd in I'. apply (proj2 (@smfind_In R s' x' _ (smset_sorted _ _ Hs))) in I'.
    destruct (string_dec k s') as [<-|Q].
    + rewrite smfind_mset_same in I'. injection I' as <-. assert (0 < v) by (apply (Hc k); left; reflexivity).
      assert (0 <= @val0 RNum acc k).
      { rewrite val0_R. unfold value_or_0. destruct (mfind sltb k acc) as [y|] eqn:F; [|lra]. apply (smfind_In _ _ Hs) in F. apply Rlt_le, (Ha _ _ F). }
      assert (0 < v * w) by (apply Rmult_lt_0_compat; assumption). rnorm. lra.
    + rewrite smfind_mset_other in I' by assumption. apply (smfind_In _ _ Hs) in I'. exact (Ha _ _ I').
Qed.

(** *** the loop over the constituents *)
Section Mix.
Variable r : string -> option (@element RNum).
(** the fractions of an answer *)
Definition answer (c : tbl) (f : string -> R) : Prop :=
  c <> [] /\ msorted sltb c /\ (forall s x, In (s, x) c -> 0 < x /\ exists e, r s = Some e) /\
  Rsum (map snd c) = 1 /\ forall s, value_or_0 s c = f s.
Lemma answer_fractions c f : answer c f <-> mass_fractions r c f.
Proof. reflexivity. Qed.
Lemma answer_ext c f g : answer c f -> (forall s, f s = g s) -> answer c g.
Proof. intros (A & B & C & D & E) H. split; [exact A|]. split; [exact B|]. split; [exact C|]. split; [exact D|]. intros s. rewrite E. apply H. Qed.

Definition partial (acc : tbl) (t : R) (g : string -> R) : Prop :=
  msorted sltb acc /\ (forall s x, In (s, x) acc -> 0 < x /\ exists e, r s = Some e) /\ Rsum (map snd acc) = t /\ forall s, value_or_0 s acc = g s.

Lemma addScaled_partial w c f acc t g : 0 < w -> answer c f -> partial acc t g ->
  partial (@addScaled RNum w c acc) (t + w) (fun s => g s + w * f s) /\ @addScaled RNum w c acc <> [].
Proof.
  intros Hw (A & B & C & D & E) (a & b & cc & d).
  destruct (addScaled_facts w c acc a) as (F1 & F2 & F3 & F4).
  assert (P := addScaled_pos w c Hw acc a (fun s x I => proj1 (C s x I)) (fun s x I => proj1 (b s x I))).
  split.
  - split; [exact F1|]. split; [|split].
    + intros s x I. split; [exact (P s x I)|].
      assert (K : In s (map fst (@addScaled RNum w c acc))) by (apply in_map_iff; exists (s, x); auto).
      apply F4 in K. destruct K as [K|K]; apply in_map_iff in K; destruct K as [[s' x'] [Q K]]; cbn in Q; subst s'; [exact (proj2 (C _ _ K))|exact (proj2 (b _ _ K))].
    + refine (eq_trans F3 _). rewrite cc, D. lra.
    + intros s. rewrite F2, d, lsum_value, E by exact B. lra.
  - intros Z. destruct c as [|[k v] c]; [congruence|]. assert (K : In k (map fst (@addScaled RNum w ((k, v) :: c) acc))) by (apply F4; left; left; reflexivity).
    rewrite Z in K. destruct K.
Qed.

Lemma mixLoop_facts (comp : string -> res tbl) (f : string -> string -> R) (l : tbl) :
  (forall k w, In (k, w) l -> 0 < w /\ exists c, comp k = Ok c /\ answer c (f k)) ->
  forall acc t g, partial acc t g ->
  exists out, @mixLoop RNum comp l acc = Ok (Some out) /\
    partial out (t + Rsum (map snd l)) (fun s => g s + Rsum (map (fun kw => snd kw * f (fst kw) s) l)) /\ (l <> [] -> out <> []) /\ (acc <> [] -> out <> []).
Proof.
  induction l as [|[k w] l IH]; intros H acc t g Hp.
  - exists acc. split; [reflexivity|]. split; [|split; [congruence|auto]]. destruct Hp as (a & b & c & d). split; [exact a|]. split; [exact b|]. cbn. split; [lra|].
    intros s. rewrite d. lra.
  - destruct (H k w (or_introl eq_refl)) as [Hw [c [Hc Ha]]]. cbn [mixLoop]. rewrite Hc. cbn [rbind].
    destruct (addScaled_partial w c (f k) acc t g Hw Ha Hp) as [Hp' Hne].
    destruct (IH (fun k' w' I => H k' w' (or_intror I)) _ _ _ Hp') as [out [E [P [_ Q]]]].
    exists out. split; [|split; [|split]].
    + destruct c as [|c0 c]; [destruct Ha as [Ha _]; congruence|]. exact E.
    + destruct P as (p1 & p2 & p3 & p4). split; [exact p1|]. split; [exact p2|]. cbn [map snd fst Rsum]. split; [rewrite p3; lra|].
      intros s. rewrite p4. lra.
    + intros _. exact (Q Hne).
    + intros _. exact (Q Hne).
Qed.
Lemma partial_nil : partial [] 0 (fun _ => 0).
Proof. split; [apply smsorted_nil|]. split; [intros s x []|]. split; reflexivity. Qed.

(** normalising first (getComposition) and last (the overloads with additional materials) *)
Lemma mix_normalised comp f (l : tbl) : good_amounts l ->
  (forall k w, In (k, w) l -> exists c, comp k = Ok c /\ answer c (f k)) ->
  exists out, @mixLoop RNum comp (@divide_by_total RNum l) [] = Ok (Some out) /\ answer out (mixture l f).
Proof.
  intros [Hn Hw] H. assert (Hw' : forall kv, In kv l -> 0 < snd kv) by (intros [k w] I; exact (Hw k w I)).
  destruct (divide_pos l Hn Hw') as [P D].
  destruct (mixLoop_facts comp f (@divide_by_total RNum l)) with (acc := @nil (string * R)) (t := 0) (g := fun _ : string => 0) as [out [E [Q [N _]]]].
  - intros k w I. split; [apply (D (k, w) I)|]. rewrite divide_eq in I. apply in_map_iff in I. destruct I as [[k' w'] [Z I]]. injection Z as -> _. exact (H k w' I).
  - apply partial_nil.
  - exists out. split; [exact E|]. destruct Q as (a & b & c & d). split.
    + apply N. rewrite divide_eq. destruct l; [congruence|discriminate].
    + split; [exact a|]. split; [exact b|]. split.
      * rewrite c, divide_sum by lra. lra.
      * intros s. rewrite d. unfold mixture. rewrite divide_eq, map_map. cbn [fst snd].
        rewrite (Rsum_ext _ (fun kw => / Rsum (map snd l) * (snd kw * f (fst kw) s))) by (intros; unfold Rdiv; lra).
        rewrite Rsum_mult_l. unfold Rdiv. lra.
Qed.
Lemma mix_raw comp f (l : tbl) : good_amounts l ->
  (forall k w, In (k, w) l -> exists c, comp k = Ok c /\ answer c (f k)) ->
  exists out, @mixLoop RNum comp l [] = Ok (Some out) /\ answer (@divide_by_total RNum out) (mixture l f).
Proof.
  intros [Hn Hw] H. assert (Hw' : forall kv, In kv l -> 0 < snd kv) by (intros [k w] I; exact (Hw k w I)).
  destruct (divide_pos l Hn Hw') as [P _].
  destruct (mixLoop_facts comp f l) with (acc := @nil (string * R)) (t := 0) (g := fun _ : string => 0) as [out [E [Q [N _]]]].
  - intros k w I. split; [exact (Hw k w I)|exact (H k w I)].
  - apply partial_nil.
  - exists out. split; [exact E|]. destruct Q as (a & b & c & d). specialize (N Hn). rewrite Rplus_0_l in c.
    assert (Hout : forall kv, In kv out -> 0 < snd kv) by (intros [s x] I; exact (proj1 (b s x I))).
    destruct (divide_pos out N Hout) as [P' D]. split; [|split; [|split; [|split]]].
    + rewrite divide_eq. destruct out; [congruence|discriminate].
    + apply divide_sorted, a.
    + intros s x I. split; [apply (D (s, x) I)|]. rewrite divide_eq in I. apply in_map_iff in I. destruct I as [[s' x'] [Z I]]. injection Z as -> _. exact (proj2 (b s x' I)).
    + apply divide_sum. lra.
    + intros s. unfold value_or_0. rewrite divide_find. unfold mixture. rewrite <- c. specialize (d s). unfold value_or_0 in d.
      rewrite Rplus_0_l in d. rewrite <- d. destruct (@mfind string R sltb s out); cbn [option_map]; [reflexivity|unfold Rdiv; lra].
Qed.
End Mix.

(** *** getComposition *)
Section Comp.
Variables (tostr : R -> string) (depth : nat) (es : @elements RNum) (r : string -> option (@element RNum)).
Hypothesis Hreg : reg_ok es r.
Local Notation comp fuel n := (@Elements.getComposition RNum tostr depth fuel es n).

Lemma formula_answer n c : formula_of tostr depth es n c -> answer r c (fun s => value_or_0 s c).
Proof.
  intros [H [Hn Hp]]. destruct (formula_shape tostr depth es r Hreg n c H) as [A [B C]].
  split; [exact Hn|]. split; [exact A|]. split; [intros s x I; split; [exact (Hp s x I)|exact (B s x I)]|]. split; [|reflexivity].
  destruct c as [|[s x] c]; [congruence|]. apply (C s x (or_introl eq_refl)), (Hp s x (or_introl eq_refl)).
Qed.
Lemma find_getMaterial n m : getMaterial es n = Ok m -> nth_error (es_mats es) (getMaterialIndexFromName es n) = Some m.
Proof. unfold getMaterial. destruct (nth_error _ _); [intros H; injection H as ->; reflexivity|discriminate]. Qed.

(** a finite list of eventually constant calls *)
Lemma fuel_all (P : string -> tbl -> Prop) (g : nat -> string -> res tbl) (l : tbl) :
  (forall k w, In (k, w) l -> exists fuel0 c, (forall fuel, (fuel0 <= fuel)%nat -> g fuel k = Ok c) /\ P k c) ->
  exists fuel0, forall fuel, (fuel0 <= fuel)%nat -> forall k w, In (k, w) l -> exists c, g fuel k = Ok c /\ P k c.
Proof.
  induction l as [|[k w] l IH]; intros H; [exists 0%nat; intros fuel _ k w []|].
  destruct IH as [f1 H1]; [intros k' w' I; apply (H k' w'); right; exact I|].
  destruct (H k w (or_introl eq_refl)) as [f2 [c [H2 Pc]]].
  exists (Nat.max f1 f2). intros fuel Hf k' w' [E|I].
  - injection E as <- <-. exists c. split; [apply H2; lia|exact Pc].
  - apply (H1 fuel ltac:(lia) k' w' I).
Qed.
(** *** more fuel does not change the outcome *)
Lemma mixLoop_mono (g g' : string -> res tbl) (l : tbl) : (forall k, g k <> Diverge -> g' k = g k) ->
  forall acc, @mixLoop RNum g l acc <> Diverge -> @mixLoop RNum g' l acc = @mixLoop RNum g l acc.
Proof.
  intros H. induction l as [|[k w] l IH]; intros acc Hd; [reflexivity|]. cbn [mixLoop] in *.
  destruct (g k) as [c| | |] eqn:E; try (cbn in Hd; congruence); rewrite (H k) by congruence; rewrite E; cbn [rbind] in *; try reflexivity.
  destruct c; [reflexivity|]. apply IH, Hd.
Qed.
Lemma comp_S fuel n : comp (S fuel) n =
  rbind (getCompositionFromFormula tostr depth es n) (fun r =>
      match r with
      | _ :: _ => Ok r
      | [] =>
          match nth_error (es_mats es) (getMaterialIndexFromName es n) with
          | None => Ok []
          | Some m =>
              match Material.getComposition m with
              | [] => Throw InvalidArgument
              | c => rmap (@or_empty RNum) (mixLoop (Elements.getComposition tostr depth fuel es) (divide_by_total c) [])
              end
          end
      end).
Proof. reflexivity. Qed.
Lemma comp_mono fuel : forall n, comp fuel n <> Diverge -> comp (S fuel) n = comp fuel n.
Proof.
  induction fuel as [|fuel IH]; intros n H; [cbn in H; congruence|].
  rewrite (comp_S fuel) in H. rewrite (comp_S (S fuel)), (comp_S fuel).
  destruct (getCompositionFromFormula tostr depth es n) as [c| | |]; cbn [rbind] in *; try reflexivity.
  destruct c as [|c0 c]; [|reflexivity]. destruct (nth_error _ _) as [m|]; [|reflexivity].
  destruct (Material.getComposition m) as [|x0 c]; [reflexivity|]. unfold rmap in *.
  rewrite (mixLoop_mono (Elements.getComposition tostr depth fuel es) (Elements.getComposition tostr depth (S fuel) es)); [reflexivity|exact IH|].
  intros K. apply H. rewrite K. reflexivity.
Qed.
Lemma comp_mono_le fuel fuel' n : (fuel <= fuel')%nat -> comp fuel n <> Diverge -> comp fuel' n = comp fuel n.
Proof. induction 1 as [|f Hf IH]; intros H; [reflexivity|]. rewrite comp_mono; [apply IH, H|]. rewrite IH; assumption. Qed.

Theorem composition_resolves n f : resolves tostr depth es n f ->
  exists fuel0 c, (forall fuel, (fuel0 <= fuel)%nat -> comp fuel n = Ok c) /\ answer r c f.
Proof.
  induction 1 as [n c Hf|n m f Hn Hm Hg Hk IH].
  - exists 1%nat, c. split; [|exact (formula_answer n c Hf)]. intros [|fuel] Hle; [lia|]. cbn [Elements.getComposition].
    destruct Hf as [Hf [Hne _]]. rewrite Hf. cbn [rbind]. destruct c; [congruence|reflexivity].
  - destruct (fuel_all (fun k c => answer r c (f k)) (fun fuel k => comp fuel k) (Material.getComposition m) IH) as [f0 H0].
    assert (B : exists out, comp (S f0) n = Ok out /\ answer r out (mixture (Material.getComposition m) f)).
    { cbn [Elements.getComposition]. unfold not_a_formula in Hn. rewrite Hn. cbn [rbind]. rewrite (find_getMaterial n m Hm).
      destruct (mix_normalised r (Elements.getComposition tostr depth f0 es) f (Material.getComposition m) Hg) as [out [E A]].
      { intros k w I. exact (H0 f0 (le_n _) k w I). }
      exists out. split; [|exact A]. destruct Hg as [Hg _]. destruct (Material.getComposition m) as [|x l] eqn:Z; [exfalso; apply Hg; reflexivity|].
      unfold rmap. rewrite E. reflexivity. }
    destruct B as [out [B A]]. exists (S f0), out. split; [|exact A]. intros fuel Hle. rewrite <- B. apply comp_mono_le; [exact Hle|]. rewrite B. discriminate.
Qed.

(** unknown names *)
Lemma comp_unknown fuel n : not_a_formula tostr depth es n -> (forall m, getMaterial es n <> Ok m) -> comp (S fuel) n = Ok [].
Proof.
  intros Hn Hm. cbn [Elements.getComposition]. unfold not_a_formula in Hn. rewrite Hn. cbn [rbind].
  unfold getMaterial in Hm. destruct (nth_error _ _) as [m|]; [exfalso; apply (Hm m); reflexivity|reflexivity].
Qed.

(** cyclic registries *)
Lemma mixLoop_diverge (g : string -> res tbl) (before : tbl) k w after : g k = Diverge ->
  (forall k' w', In (k', w') before -> g k' = Diverge \/ exists x c, g k' = Ok (x :: c)) ->
  forall acc, @mixLoop RNum g (before ++ (k, w) :: after) acc = Diverge.
Proof.
  intros Hk. induction before as [|[k' w'] before IH]; intros H acc; cbn [app mixLoop].
  - rewrite Hk. reflexivity.
  - destruct (H k' w' (or_introl eq_refl)) as [E|(x & c & E)]; rewrite E; cbn [rbind]; [reflexivity|].
    apply IH. intros k1 w1 I. apply (H k1 w1). right. exact I.
Qed.
Theorem comp_cycle (S_ : string -> Prop) :
  (forall n, S_ n -> exists m before k w after, not_a_formula tostr depth es n /\ getMaterial es n = Ok m /\
     Material.getComposition m = (before ++ (k, w) :: after)%list /\ S_ k /\
     forall k' w', In (k', w') before -> S_ k' \/ exists f, resolves tostr depth es k' f) ->
  forall fuel n, S_ n -> comp fuel n = Diverge.
Proof.
  intros H. induction fuel as [|fuel IH]; intros n Hn; [reflexivity|].
  destruct (H n Hn) as (m & before & k & w & after & H1 & H2 & H3 & H4 & H5).
  cbn [Elements.getComposition]. unfold not_a_formula in H1. rewrite H1. cbn [rbind]. rewrite (find_getMaterial n m H2), H3.
  assert (E : @mixLoop RNum (Elements.getComposition tostr depth fuel es) (@divide_by_total RNum (before ++ (k, w) :: after)) [] = Diverge).
  { rewrite divide_eq, map_app. cbn [map fst snd]. apply mixLoop_diverge; [exact (IH k H4)|].
    intros k' w' I. apply in_map_iff in I. destruct I as [[k1 w1] [Q I]]. injection Q as -> _.
    destruct (H5 k' w1 I) as [Hc|[f Hf]]; [left; exact (IH k' Hc)|].
    destruct (composition_resolves k' f Hf) as [f0 [c [Hc Ha]]].
    specialize (Hc (Nat.max fuel f0) ltac:(lia)).
    destruct (comp fuel k') as [c'| | |] eqn:Q; [right|exfalso|exfalso|left; reflexivity];
      rewrite (comp_mono_le fuel (Nat.max fuel f0) k') in Hc by (lia || congruence); [|congruence|congruence].
    assert (c' = c) by congruence. subst c'. destruct Ha as [Ha _]. destruct c as [|x c]; [exfalso; apply Ha; reflexivity|eauto]. }
  destruct (before ++ (k, w) :: after)%list as [|x l] eqn:Z; [destruct before; discriminate|]. unfold rmap. rewrite E. reflexivity.
Qed.
End Comp.
