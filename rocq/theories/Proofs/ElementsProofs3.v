(** Compositions from formulas (real numbers). *)
From Coq Require Import Ascii String List ZArith Reals Bool Lia Lra Arith.
From Verif Require Import Base.Num Base.Res Base.RSum Base.SMap Base.Str Base.ListLemmas Model.Material Model.Shell Model.Element Model.Formula Model.Elements
  Spec.MaterialSpec Spec.ElementSpec Spec.FormulaSpec Spec.ElementsSpec Proofs.FormulaProofs Proofs.FormulaProofs2 Proofs.ElementsProofs Proofs.ElementsProofs2.
Import ListNotations.
Local Open Scope string_scope.
Local Existing Instance RNum.

Lemma parse_sorted tostr fuel : forall s (m : list (string * R)), @parseFormula RNum tostr fuel s = Ok m -> msorted sltb m.
Proof.
  induction fuel as [|fuel IH]; intros s m; cbn [parseFormula]; [discriminate|].
  assert (Z : forall m : list (string * R), @Ok (list (string * R)) [] = Ok m -> msorted sltb m) by (intros m0 H; injection H as <-; apply smsorted_nil).
  assert (F : forall m : list (string * R), Ok (@parseFlat RNum s) = Ok m -> msorted sltb m).
  { intros m0 H. injection H as <-. unfold parseFlat. destruct s as [|c r]; [apply smsorted_nil|]. destruct (isupper c); [|apply smsorted_nil].
    destruct (flatScan _ _ _ _ _); [|apply smsorted_nil]. apply (addAll_sorted l []), smsorted_nil. }
  destruct (negb _); [apply Z|]. destruct (negb _); [apply Z|]. destruct (has_space s); [apply Z|].
  destruct (positions 40 0 s) as [|o1 orest]; [apply F|]. destruct (positions 41 0 s) as [|p2 q]; [apply F|]. cbv zeta.
  destruct (Nat.eqb _ _); [apply Z|].
  match goal with |- rbind ?r _ = _ -> _ => destruct r as [tmp| | |]; cbn [rbind]; try discriminate end.
  destruct tmp as [|t0 tmp]; [apply Z|].
  match goal with |- match ?o with _ => _ end = _ -> _ => destruct o as [factor|]; [|apply Z] end.
  apply IH.
Qed.

(** *** masses of a parsed formula, in terms of the registry *)
Section Masses.
Variables (es : @elements RNum) (r : string -> option (@element RNum)).
Hypothesis Hreg : reg_ok es r.

Lemma formulaMasses_all (mass : string -> R) (l : list (string * R)) :
  (forall s, In s (map fst l) -> exists e, r s = Some e /\ getAtomicMass e = Ok (mass s)) ->
  formulaMasses es l = Ok (Some (map (fun kv => (fst kv, snd kv * mass (fst kv))) l))%R.
Proof.
  induction l as [|[k n] l IH]; intros H; [reflexivity|]. cbn [formulaMasses map fst snd].
  destruct (H k (or_introl eq_refl)) as [e [He Hm]].
  destruct (mfind sltb k (es_dict es)) as [i|] eqn:F.
  - destruct (ro_in _ _ Hreg _ _ F) as [e' [H1 [H2 H3]]]. unfold vget. rewrite H1. cbn [of_opt rbind].
    assert (e' = e) by congruence. subst e'. rewrite Hm. cbn [rbind]. rewrite IH by (intros s I; apply H; right; exact I). reflexivity.
  - rewrite (ro_none _ _ Hreg _ F) in He. discriminate.
Qed.
Lemma formulaMasses_unknown (l : list (string * R)) s0 :
  In s0 (map fst l) -> r s0 = None ->
  (forall s e, In s (map fst l) -> r s = Some e -> exists a, getAtomicMass e = Ok a) ->
  formulaMasses es l = Ok None.
Proof.
  intros I0 N0. induction l as [|[k n] l IH]; intros H; [destruct I0|]. cbn [formulaMasses].
  destruct (mfind sltb k (es_dict es)) as [i|] eqn:F; [|reflexivity].
  destruct (ro_in _ _ Hreg _ _ F) as [e' [H1 [H2 H3]]]. unfold vget. rewrite H1. cbn [of_opt rbind].
  destruct (H k e' (or_introl eq_refl) H3) as [a Ha]. rewrite Ha. cbn [rbind].
  rewrite IH; [reflexivity| |].
  - destruct I0 as [E|I0]; [|exact I0]. cbn in E. congruence.
  - intros s e I. apply H. right. exact I.
Qed.
(** what a successful call used *)
Lemma formulaMasses_inv l o : formulaMasses es l = Ok (Some o) ->
  map fst o = map fst l /\ forall s, In s (map fst l) -> exists e, r s = Some e.
Proof.
  revert o. induction l as [|[k n] l IH]; intros o H; cbn [formulaMasses] in H.
  - injection H as <-. split; [reflexivity|]. intros s [].
  - destruct (mfind sltb k (es_dict es)) as [i|] eqn:F; [|discriminate].
    destruct (ro_in _ _ Hreg _ _ F) as [e' [H1 [H2 H3]]]. unfold vget in H. rewrite H1 in H. cbn [of_opt rbind] in H.
    destruct (getAtomicMass e') as [a| | |]; cbn [rbind] in H; try discriminate.
    destruct (formulaMasses es l) as [[o'|]| | |]; cbn in H; try discriminate. injection H as <-.
    destruct (IH o' eq_refl) as [E Hr]. split; [cbn [map fst]; f_equal; exact E|]. intros s [<-|I]; [eauto|apply Hr, I].
Qed.
End Masses.

Lemma divide_fst (l : list (string * R)) : map fst (@divide_by_total RNum l) = map fst l.
Proof. unfold divide_by_total. rewrite map_map. reflexivity. Qed.
Lemma divide_snd (l : list (string * R)) : map snd (@divide_by_total RNum l) = map (fun x => x / Rsum (map snd l))%R (map snd l).
Proof. unfold divide_by_total. rewrite !map_map. rewrite nsum_R. reflexivity. Qed.
Lemma divide_eq (l : list (string * R)) : @divide_by_total RNum l = map (fun kv => (fst kv, snd kv / Rsum (map snd l)))%R l.
Proof. unfold divide_by_total. rewrite nsum_R. reflexivity. Qed.
Lemma divide_sum (l : list (string * R)) : (Rsum (map snd l) <> 0)%R -> Rsum (map snd (@divide_by_total RNum l)) = 1%R.
Proof. intros H. rewrite divide_snd, Rsum_div. field. exact H. Qed.
Lemma divide_sorted (l : list (string * R)) : msorted sltb l -> msorted sltb (@divide_by_total RNum l).
Proof. unfold msorted, mkeys. rewrite divide_fst. auto. Qed.
Lemma divide_pos (l : list (string * R)) : l <> [] -> (forall kv, In kv l -> (0 < snd kv)%R) ->
  (0 < Rsum (map snd l))%R /\ forall kv, In kv (@divide_by_total RNum l) -> (0 < snd kv <= 1)%R.
Proof.
  intros Hn H. assert (P : (0 < Rsum (map snd l))%R).
  { apply Rsum_pos; [destruct l; [congruence|discriminate]|]. apply Forall_map, Forall_forall. exact H. }
  split; [exact P|]. rewrite divide_eq. intros kv' I'. apply in_map_iff in I'. destruct I' as [kv [<- I]]. cbn [fst snd].
  assert (snd kv <= Rsum (map snd l))%R.
  { apply Rsum_in_le; [|apply in_map, I]. apply Forall_map, Forall_forall. intros x Ix. apply Rlt_le, H, Ix. }
  specialize (H kv I). split.
  - apply Rdiv_lt_0_compat; assumption.
  - apply Rmult_le_reg_r with (Rsum (map snd l)); [exact P|]. unfold Rdiv. rewrite Rmult_assoc, Rinv_l by lra. lra.
Qed.
Lemma divide_find (l : list (string * R)) s : mfind sltb s (@divide_by_total RNum l) = option_map (fun x => x / Rsum (map snd l))%R (mfind sltb s l).
Proof.
  rewrite divide_eq. generalize (Rsum (map snd l)) as t. intros t. induction l as [|[k v] l IH]; [reflexivity|]. cbn [map mfind fst snd].
  destruct (sltb k s); [exact IH|]. destruct (sltb s k); reflexivity.
Qed.

Lemma mfind_map_val (f : string -> R -> R) (l : list (string * R)) s :
  mfind sltb s (map (fun kv => (fst kv, f (fst kv) (snd kv))) l) = option_map (f s) (mfind sltb s l).
Proof.
  induction l as [|[k v] l IH]; [reflexivity|]. cbn [map mfind fst snd].
  destruct (sltb k s) eqn:A; [exact IH|]. destruct (sltb s k) eqn:B; [reflexivity|]. cbn.
  destruct (st_cases (ST := sltb_total) k s) as [[C|C]|C]; congruence.
Qed.

(** *** the composition of a formula *)
Section Formula.
Variables (tostr : R -> string) (depth : nat) (es : @elements RNum) (r : string -> option (@element RNum)).
Hypothesis Hreg : reg_ok es r.

Theorem formula_fractions (formula : string) (counts : list (string * R)) (mass : string -> R) :
  @parseFormula RNum tostr depth formula = Ok counts -> counts <> [] ->
  (forall s n, In (s, n) counts -> (0 < n)%R) ->
  (forall s, In s (map fst counts) -> exists e, r s = Some e /\ getAtomicMass e = Ok (mass s) /\ (0 < mass s)%R) ->
  exists c : list (string * R),
    getCompositionFromFormula tostr depth es formula = Ok c /\ msorted sltb c /\ map fst c = map fst counts /\
    (forall s, mfind sltb s c = option_map (fun n => n * mass s / Rsum (map (fun kv => snd kv * mass (fst kv)) counts))%R (mfind sltb s counts)) /\
    Rsum (map snd c) = 1%R /\ (forall s x, In (s, x) c -> (0 < x <= 1)%R).
Proof.
  intros Hp Hne Hpos Hm. set (l := map (fun kv => (fst kv, snd kv * mass (fst kv)))%R counts).
  assert (Hl : forall kv, In kv l -> (0 < snd kv)%R).
  { intros kv I. apply in_map_iff in I. destruct I as [[s n] [<- I]]. cbn. destruct (Hm s) as [e [_ [_ M]]]; [apply in_map_iff; exists (s, n); auto|].
    apply Rmult_lt_0_compat; [exact (Hpos _ _ I)|exact M]. }
  assert (Hln : l <> []) by (unfold l; destruct counts; [congruence|discriminate]).
  assert (Hsum : Rsum (map snd l) = Rsum (map (fun kv => snd kv * mass (fst kv)) counts)%R) by (unfold l; rewrite map_map; reflexivity).
  destruct (divide_pos l Hln Hl) as [P D].
  exists (@divide_by_total RNum l). split; [|split; [|split; [|split; [|split]]]].
  - unfold getCompositionFromFormula. rewrite Hp. cbn [rbind]. destruct counts as [|x counts]; [congruence|].
    rewrite (formulaMasses_all es r Hreg mass); [reflexivity|]. intros s I. destruct (Hm s I) as [e [A [B _]]]. eauto.
  - apply divide_sorted. unfold msorted, mkeys, l. rewrite map_map. cbn. apply (parse_sorted _ _ _ _ Hp).
  - rewrite divide_fst. unfold l. rewrite map_map. reflexivity.
  - intros s. rewrite divide_find, Hsum. unfold l. rewrite (mfind_map_val (fun k v => v * mass k)%R).
    destruct (mfind sltb s counts); reflexivity.
  - apply divide_sum. lra.
  - intros s x I. exact (D (s, x) I).
Qed.

Theorem formula_unknown (formula : string) (counts : list (string * R)) s0 :
  @parseFormula RNum tostr depth formula = Ok counts -> In s0 (map fst counts) -> r s0 = None ->
  (forall s e, In s (map fst counts) -> r s = Some e -> exists a, getAtomicMass e = Ok a) ->
  getCompositionFromFormula tostr depth es formula = Ok [].
Proof.
  intros Hp I N H. unfold getCompositionFromFormula. rewrite Hp. cbn [rbind]. destruct counts as [|x counts]; [reflexivity|].
  rewrite (formulaMasses_unknown es r Hreg (x :: counts) s0 I N H). reflexivity.
Qed.

(** every non-empty answer: ascending element names, adding up to 1 unless all vanish *)
Theorem formula_shape formula (c : list (string * R)) :
  getCompositionFromFormula tostr depth es formula = Ok c ->
  msorted sltb c /\ (forall s x, In (s, x) c -> exists e, r s = Some e) /\
  (forall s x, In (s, x) c -> (0 < x)%R -> Rsum (map snd c) = 1%R).
Proof.
  unfold getCompositionFromFormula. destruct (parseFormula tostr depth formula) as [p| | |] eqn:Hp; cbn [rbind]; try discriminate.
  assert (Z : forall c : list (string * R), @Ok (list (string * R)) [] = Ok c -> msorted sltb c /\ (forall s x, In (s, x) c -> exists e, r s = Some e) /\
     (forall s x, In (s, x) c -> (0 < x)%R -> Rsum (map snd c) = 1%R)).
  { intros c0 H. injection H as <-. split; [apply smsorted_nil|]. split; intros s x []. }
  destruct p as [|x p]; [apply Z|]. destruct (formulaMasses es (x :: p)) as [[o|]| | |] eqn:F; cbn [rmap rbind]; try discriminate; [|apply Z].
  intros H. injection H as <-. destruct (formulaMasses_inv es r Hreg _ _ F) as [E K]. split; [|split].
  - apply divide_sorted. unfold msorted, mkeys. refine (eq_rect_r (fun l => Sorted.StronglySorted _ l) _ E). apply (parse_sorted _ _ _ _ Hp).
  - intros s y I. apply K. refine (eq_rect _ (fun l => In s l) _ _ E).
    refine (eq_rect _ (fun l => In s l) _ _ (divide_fst o)). apply in_map_iff. exists (s, y). auto.
  - intros s y I Hy. apply divide_sum. intros T. rewrite divide_eq in I. apply in_map_iff in I. destruct I as [kv [Q I]].
    injection Q as _ Q. rewrite T in Q. unfold Rdiv in Q. rewrite Rinv_0, Rmult_0_r in Q. lra.
Qed.
End Formula.
