(** Compositions with additional materials, acyclic registries (real numbers). *)
From Coq Require Import Ascii String List ZArith Reals Bool Lia Lra Arith.
From Verif Require Import Base.Num Base.Res Base.RSum Base.SMap Base.Str Base.ListLemmas Model.Material Model.Shell Model.Element Model.Formula Model.Elements
  Spec.MaterialSpec Spec.ShellSpec Spec.ElementSpec Spec.FormulaSpec Spec.ElementsSpec Proofs.MaterialProofs Proofs.FormulaProofs Proofs.FormulaProofs2
  Proofs.ElementsProofs Proofs.ElementsProofs2 Proofs.ElementsProofs3 Proofs.ElementsProofs4.
Import ListNotations.
Local Open Scope string_scope.
Local Existing Instance RNum.
Local Notation tbl := (list (string * R)).
Local Open Scope R_scope.

Section With.
Variables (tostr : R -> string) (depth : nat) (es : @elements RNum) (r : string -> option (@element RNum)).
Hypothesis Hreg : reg_ok es r.
Local Notation comp fuel n := (@Elements.getComposition RNum tostr depth fuel es n).
Local Notation compw fuel add n := (@Elements.getComposition_with RNum tostr depth fuel es add n).

(** *** an element symbol is its own formula *)
Lemma symbol_formula s e a : (1 <= depth)%nat -> symbol s -> r s = Some e -> getAtomicMass e = Ok a -> 0 < a ->
  getCompositionFromFormula tostr depth es s = Ok [(s, 1)].
Proof.
  intros Hd Hs He Ha Hp. destruct depth as [|d] eqn:Ed; [lia|].
  destruct (parse_items tostr d [(s, None)]) as (m & Ep & Hsort & Hf); [discriminate|repeat constructor; exact Hs|].
  assert (Et : items_text [(s, None)] = s) by (cbn; unfold item_text; cbn; rewrite !sapp_nil; reflexivity). rewrite Et in Ep.
  assert (Hm : m = [(s, 1)]).
  { apply (@smsorted_ext R); [exact Hsort|repeat constructor|]. intros k. rewrite Hf. unfold atoms_of, items_of. cbn [filter fst].
    cbn [mfind]. destruct (String.eqb_spec s k) as [<-|Q].
    - rewrite (st_irrefl (StrictTotal := sltb_total)). cbn. unfold item_count. cbn. f_equal. lra.
    - destruct (sltb s k) eqn:A; [reflexivity|]. destruct (sltb k s) eqn:B; [reflexivity|]. exfalso. apply Q. apply (st_total (StrictTotal := sltb_total)); assumption. }
  subst m. destruct (formula_fractions tostr (S d) es r Hreg s [(s, 1)] (fun _ => a)) as (c & Hc & Hsc & Hk & Hv & H1 & _); [exact Ep|discriminate| | |].
  - intros s' n [Q|[]]. injection Q as <- <-. lra.
  - intros s' [<-|[]]. eauto.
  - rewrite Hc. f_equal. destruct c as [|[k x] [|? ?]]; try discriminate. injection Hk as ->. cbn in H1. f_equal. f_equal. lra.
Qed.

(** *** more fuel *)
Lemma compw_S fuel add n : compw (S fuel) add n =
      rbind (getCompositionFromFormula tostr depth es n) (fun r =>
      match r with
      | _ :: _ => Ok r
      | [] =>
          match add with
          | [] => comp fuel n
          | _ =>
              rbind (match nth_error add (materialIndex add n) with
                     | None => comp fuel n
                     | Some m => Ok (Material.getComposition m)
                     end) (fun c =>
              match c with
              | [] => Throw InvalidArgument
              | _ => rmap (fun o => @divide_by_total RNum (@or_empty RNum o)) (mixLoop (getComposition_with tostr depth fuel es add) c [])
              end)
          end
      end).
Proof. destruct add; reflexivity. Qed.
Lemma compw_mono fuel : forall add n, compw fuel add n <> Diverge -> compw (S fuel) add n = compw fuel add n.
Proof.
  induction fuel as [|fuel IH]; intros add n H; [cbn in H; congruence|].
  rewrite (compw_S fuel) in H. rewrite (compw_S (S fuel)), (compw_S fuel).
  destruct (getCompositionFromFormula tostr depth es n) as [c| | |]; cbn [rbind] in *; try reflexivity.
  destruct c as [|c0 c]; [|reflexivity]. destruct add as [|a0 add]; [apply comp_mono, H|].
  set (q := match nth_error (a0 :: add) (materialIndex (a0 :: add) n) with None => comp fuel n | Some m => Ok (Material.getComposition m) end) in *.
  replace (match nth_error (a0 :: add) (materialIndex (a0 :: add) n) with None => comp (S fuel) n | Some m => Ok (Material.getComposition m) end) with q.
  2:{ unfold q in *. destruct (nth_error _ _); [reflexivity|]. symmetry. apply comp_mono. intros K. apply H. rewrite K. reflexivity. }
  destruct q as [c| | |]; cbn [rbind] in *; try reflexivity. destruct c as [|x c]; [reflexivity|]. unfold rmap in *.
  rewrite (mixLoop_mono (getComposition_with tostr depth fuel es (a0 :: add)) (getComposition_with tostr depth (S fuel) es (a0 :: add))); [reflexivity|apply IH|].
  intros K. apply H. rewrite K. reflexivity.
Qed.
Lemma compw_mono_le fuel fuel' add n : (fuel <= fuel')%nat -> compw fuel add n <> Diverge -> compw fuel' add n = compw fuel add n.
Proof. induction 1 as [|f Hf IH]; intros H; [reflexivity|]. rewrite compw_mono; [apply IH, H|]. rewrite IH; assumption. Qed.

Hypothesis Hsym : forall s e, r s = Some e -> getCompositionFromFormula tostr depth es s = Ok [(s, 1)].

Lemma single_answer s e : r s = Some e -> answer r [(s, 1)] (fun t => if String.eqb s t then 1 else 0).
Proof.
  intros He. split; [discriminate|]. split; [repeat constructor|]. split; [intros t x [Q|[]]; injection Q as <- <-; split; [lra|eauto]|].
  split; [cbn; lra|]. intros t. rewrite <- lsum_value by repeat constructor. cbn. destruct (String.eqb s t); lra.
Qed.
Lemma self_mixture c f : answer r c f -> forall s, mixture c (fun k t => if String.eqb k t then 1 else 0) s = f s.
Proof.
  intros (A & B & C & D & E) s. unfold mixture. rewrite D. rewrite <- E, <- lsum_value by exact B. clear A B C D E.
  unfold Rdiv. rewrite Rinv_1, Rmult_1_r. induction c as [|[k v] c IH]; [reflexivity|]. cbn [map fst snd Rsum lsum]. rewrite IH. destruct (String.eqb k s); lra.
Qed.

Theorem composition_with add n f : resolves_with tostr depth es add n f ->
  exists fuel0 c, (forall fuel, (fuel0 <= fuel)%nat -> compw fuel add n = Ok c) /\ answer r c f.
Proof.
  induction 1 as [n c Hf|n m f Hn Hm Hg Hk IH|n f Hn Hm Hr].
  - exists 1%nat, c. split; [|exact (formula_answer tostr depth es r Hreg n c Hf)]. intros [|fuel] Hle; [lia|]. rewrite compw_S.
    destruct Hf as [Hf [Hne _]]. rewrite Hf. cbn [rbind]. destruct c; [congruence|reflexivity].
  - destruct (fuel_all (fun k c => answer r c (f k)) (fun fuel k => compw fuel add k) (Material.getComposition m) IH) as [f0 H0].
    assert (B : exists out, compw (S f0) add n = Ok out /\ answer r out (mixture (Material.getComposition m) f)).
    { rewrite compw_S. unfold not_a_formula in Hn. rewrite Hn. cbn [rbind]. destruct add as [|a0 add]; [discriminate|].
      rewrite index_find, Hm. cbn [rbind].
      destruct (mix_raw r (getComposition_with tostr depth f0 es (a0 :: add)) f (Material.getComposition m) Hg) as [out [E A]].
      { intros k w I. exact (H0 f0 (le_n _) k w I). }
      exists (@divide_by_total RNum out). split; [|exact A]. destruct Hg as [Hg _]. destruct (Material.getComposition m) as [|x l] eqn:Z; [exfalso; apply Hg; reflexivity|].
      unfold rmap. rewrite E. reflexivity. }
    destruct B as [out [B A]]. exists (S f0), out. split; [|exact A]. intros fuel Hle. rewrite <- B. apply compw_mono_le; [exact Hle|]. rewrite B. discriminate.
  - destruct (composition_resolves tostr depth es r Hreg n f Hr) as [f0 [c [Hc Ha]]].
    assert (B : exists out, compw (S (S f0)) add n = Ok out /\ answer r out f).
    { rewrite compw_S. unfold not_a_formula in Hn. rewrite Hn. cbn [rbind]. destruct add as [|a0 add].
      { exists c. split; [apply Hc; lia|exact Ha]. }
      rewrite index_find, Hm, Hc by lia. cbn [rbind].
      destruct (mix_raw r (getComposition_with tostr depth (S f0) es (a0 :: add)) (fun k t => if String.eqb k t then 1 else 0) c) as [out [E A]].
      { destruct Ha as (A1 & A2 & A3 & _). split; [exact A1|]. intros k w I. exact (proj1 (A3 k w I)). }
      { intros k w I. destruct Ha as (A1 & A2 & A3 & _). destruct (A3 k w I) as [_ [e He]]. exists [(k, 1)]. split; [|apply (single_answer k e He)].
        rewrite compw_S, (Hsym k e He). reflexivity. }
      exists (@divide_by_total RNum out). split; [|apply (answer_ext r _ _ f A), (self_mixture c f Ha)].
      destruct c as [|x c]; [destruct Ha as [Ha _]; exfalso; apply Ha; reflexivity|]. unfold rmap. rewrite E. reflexivity. }
    destruct B as [out [B A]]. exists (S (S f0)), out. split; [|exact A]. intros fuel Hle. rewrite <- B. apply compw_mono_le; [exact Hle|]. rewrite B. discriminate.
Qed.

(** the overload taking a map *)
Theorem composition_map add (input : tbl) (f : string -> string -> R) : good_amounts input ->
  (forall k w, In (k, w) input -> resolves_with tostr depth es add k (f k)) ->
  exists fuel0 c, (forall fuel, (fuel0 <= fuel)%nat -> @getComposition_map RNum tostr depth fuel es add input = Ok c) /\ answer r c (mixture input f).
Proof.
  intros Hg H.
  destruct (fuel_all (fun k c => answer r c (f k)) (fun fuel k => compw fuel add k) input) as [f0 H0].
  { intros k w I. exact (composition_with add k (f k) (H k w I)). }
  destruct (mix_raw r (getComposition_with tostr depth f0 es add) f input Hg) as [out [E A]].
  { intros k w I. exact (H0 f0 (le_n _) k w I). }
  exists f0, (@divide_by_total RNum out). split; [|exact A]. intros fuel Hle. unfold getComposition_map, rmap.
  rewrite (mixLoop_mono (getComposition_with tostr depth f0 es add)).
  - rewrite E. reflexivity.
  - intros k Hk. apply compw_mono_le; [exact Hle|exact Hk].
  - rewrite E. discriminate.
Qed.
End With.

(** *** acyclic registries *)
Lemma choose (tostr : R -> string) depth (es : @elements RNum) (l : tbl) :
  (forall k w, In (k, w) l -> exists f, resolves tostr depth es k f) -> exists g, forall k w, In (k, w) l -> resolves tostr depth es k (g k).
Proof.
  intros H.
  assert (D : forall l : tbl, (forall k w, In (k, w) l -> exists f, resolves tostr depth es k f) -> exists g, forall k w, In (k, w) l -> resolves tostr depth es k (g k)).
  { clear. induction l as [|[k w] l IH]; intros H; [exists (fun _ _ => 0); intros k w []|].
    destruct IH as [g Hg]; [intros k' w' I; apply (H k' w'); right; exact I|]. destruct (H k w (or_introl eq_refl)) as [f Hf].
    exists (fun s => if String.eqb k s then f else g s). intros k' w' I. destruct (String.eqb_spec k k') as [<-|Q]; [exact Hf|].
    destruct I as [E|I]; [injection E as E _; congruence|]. exact (Hg k' w' I). }
  exact (D l H).
Qed.
Theorem acyclic_resolves tostr depth (es : @elements RNum) rank : acyclic tostr depth es rank ->
  forall n, (exists c, formula_of tostr depth es n c) \/ (not_a_formula tostr depth es n /\ exists m, getMaterial es n = Ok m) ->
  exists f, resolves tostr depth es n f.
Proof.
  intros H. assert (K : forall b n, (rank n < b)%nat -> not_a_formula tostr depth es n -> (exists m, getMaterial es n = Ok m) -> exists f, resolves tostr depth es n f).
  { induction b as [|b IH]; intros n Hb Hn [m Hm]; [lia|]. destruct (H n m Hm Hn) as [Hg Hk].
    destruct (choose tostr depth es (Material.getComposition m)) as [g G].
    - intros k w I. destruct (Hk k w I) as [[c Hc]|[Hf [Hr Hm']]]; [eexists; apply (by_formula _ _ _ k c Hc)|]. apply IH; [lia|exact Hf|exact Hm'].
    - eexists. apply (by_mixture _ _ _ n m g Hn Hm Hg G). }
  intros n [[c Hc]|[Hn Hm]]; [eexists; apply (by_formula _ _ _ n c Hc)|]. apply (K (S (rank n)) n); [lia|exact Hn|exact Hm].
Qed.

(** *** weighted totals of grouped counts *)
Lemma mset_weight (g : string -> R) k v (m : tbl) : msorted sltb m ->
  Rsum (map (fun kv => snd kv * g (fst kv)) (mset sltb k v m)) =
  Rsum (map (fun kv => snd kv * g (fst kv)) m) + (v - value_or_0 k m) * g k.
Proof.
  unfold value_or_0. induction m as [|[q w] m IH]; cbn [mset mfind map snd fst Rsum]; intros Hs; [lra|].
  apply (@msorted_cons_inv string R sltb) in Hs. destruct Hs as [Hs Hf]. specialize (IH Hs).
  destruct (sltb q k) eqn:A; cbn [map snd fst Rsum]; [rewrite IH; lra|].
  destruct (sltb k q) eqn:B; cbn [map snd fst Rsum]; [lra|].
  assert (q = k) as -> by (apply (st_total (StrictTotal := sltb_total)); assumption). lra.
Qed.
Lemma addCount_weight (g : string -> R) (m : tbl) kv : msorted sltb m ->
  Rsum (map (fun kv => snd kv * g (fst kv)) (@addCount RNum m kv)) = Rsum (map (fun kv => snd kv * g (fst kv)) m) + snd kv * g (fst kv).
Proof.
  intros Hs. destruct kv as [k v]. unfold addCount. cbn [fst snd].
  pose proof (fun x => mset_weight g k x m Hs) as W. unfold value_or_0 in W.
  change (@mfind string (@num RNum) sltb k m) with (@mfind string R sltb k m).
  destruct (@mfind string R sltb k m) as [w|]; (refine (eq_trans (W _) _); rnorm; lra).
Qed.
Lemma grouped_weight (g : string -> R) (l : tbl) : forall m : tbl, msorted sltb m ->
  Rsum (map (fun kv => snd kv * g (fst kv)) (fold_left (@addCount RNum) l m)) =
  Rsum (map (fun kv => snd kv * g (fst kv)) m) + Rsum (map (fun kv => snd kv * g (fst kv)) l).
Proof.
  induction l as [|kv l IH]; intros m Hs; cbn [fold_left map Rsum]; [lra|].
  refine (eq_trans (IH _ (addCount_sorted m kv Hs)) _). pose proof (addCount_weight g m kv Hs) as W.
  rewrite <- Rplus_assoc. f_equal. exact W.
Qed.
Lemma atoms_acount s (l : list item) : atoms_of s l = acount s (map (fun i => (fst i, item_count i)) l).
Proof.
  unfold acount, atoms_of, items_of.
  assert (Em : filter (fun kv => String.eqb (fst kv) s) (map (fun i => (fst i, item_count i)) l) = map (fun i => (fst i, item_count i)) (filter (fun j => String.eqb (fst j) s) l)).
  { induction l as [|j l0 IH]; [reflexivity|]. cbn [map filter fst]. destruct (String.eqb (fst j) s); cbn [map]; rewrite IH; reflexivity. }
  rewrite Em. unfold item in *. destruct (filter (fun j : string * option literal => String.eqb (fst j) s) l) as [|j l1]; [reflexivity|]. cbn [map]. rewrite map_map. reflexivity.
Qed.
Lemma items_weight (g : string -> R) (l : list item) (m : tbl) : msorted sltb m -> (forall s, mfind sltb s m = atoms_of s l) ->
  Rsum (map (fun kv => snd kv * g (fst kv)) m) = Rsum (map (fun i => item_count i * g (fst i)) l).
Proof.
  intros Hs Hf. assert (E : m = fold_left (@addCount RNum) (map (fun i => (fst i, item_count i)) l) []).
  { apply (@smsorted_ext R); [exact Hs|apply addAll_sorted, smsorted_nil|]. intros s. rewrite Hf, atoms_acount.
    symmetry. refine (eq_trans (addAll_find _ _ _ (smsorted_nil)) _). reflexivity. }
  rewrite E. refine (eq_trans (grouped_weight g _ _ smsorted_nil) _). cbn [map Rsum]. rewrite Rplus_0_l, map_map. reflexivity.
Qed.
