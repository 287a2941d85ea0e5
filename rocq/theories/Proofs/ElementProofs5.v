(** Cascade: closed form, linearity, monotonicity (C26). *)
From Coq Require Import Ascii String List ZArith Bool Reals Lra Lia Sorted.
From Verif Require Import Base.Num Base.Res Base.RSum Base.SMap Base.Str Base.ListLemmas
  Model.Shell Model.Element Spec.ShellSpec Spec.ElementSpec Proofs.ShellProofs Proofs.ShellProofs2 Proofs.ShellProofs3
  Proofs.ElementProofs Proofs.ElementProofs3.
Import ListNotations.
Local Open Scope string_scope.
Local Open Scope R_scope.
Local Existing Instance RNum.

(** ** The recursion on functions *)
Section Cascade.
Variable T : string -> string -> R.
Fixpoint cval (ks : list string) (f : string -> R) (x : string) : R :=
  match ks with
  | [] => 0
  | k :: r => if String.eqb x k then f k else cval r (fun y => f y + T k y * f k) x
  end.
Lemma cval_ext ks : forall f g x, (forall y, In y ks -> f y = g y) -> cval ks f x = cval ks g x.
Proof.
  induction ks as [|k r IH]; intros f g x H; cbn; [reflexivity|].
  destruct (String.eqb x k); [apply H; left; reflexivity|]. apply IH. intros y Hy.
  rewrite (H y), (H k); [reflexivity|left; reflexivity|right; exact Hy].
Qed.
Lemma cval_linear ks : forall a b f g x, cval ks (fun y => a * f y + b * g y) x = a * cval ks f x + b * cval ks g x.
Proof.
  induction ks as [|k r IH]; intros a b f g x; cbn; [lra|].
  destruct (String.eqb x k); [reflexivity|]. rewrite <- IH. apply cval_ext. intros y _. ring.
Qed.
Lemma cval_zero ks x : cval ks (fun _ => 0) x = 0.
Proof. rewrite (cval_ext ks _ (fun y => 0 * 0 + 0 * 0)) by (intros; ring). rewrite (cval_linear ks 0 0 (fun _ => 0) (fun _ => 0)). ring. Qed.
Lemma cval_sum {A} ks (l : list A) (w : A -> R) (f : A -> string -> R) x :
  cval ks (fun y => Rsum (map (fun a => w a * f a y) l)) x = Rsum (map (fun a => w a * cval ks (f a) x) l).
Proof.
  induction l as [|a l IH]; cbn [map Rsum]; [apply cval_zero|].
  rewrite <- IH. rewrite (cval_ext ks _ (fun y => w a * f a y + 1 * Rsum (map (fun a => w a * f a y) l))) by (intros; cbn; ring).
  rewrite cval_linear. cbn. ring.
Qed.
(** the fixed-point equation *)
Lemma cval_eq ks : forall f pre x post, NoDup ks -> ks = (pre ++ x :: post)%list ->
  cval ks f x = f x + Rsum (map (fun j => T j x * cval ks f j) pre).
Proof.
  induction ks as [|k r IH]; intros f pre x post Hn He; [destruct pre; discriminate|].
  inversion Hn as [|? ? Hk Hr]; subst. destruct pre as [|p pre]; cbn in He.
  - injection He as -> ->. cbn. rewrite String.eqb_refl. ring.
  - injection He as -> He. cbn [cval map Rsum]. destruct (String.eqb_spec x p) as [->|Hx].
    + exfalso. apply Hk. rewrite He. apply in_app_iff. right. left. reflexivity.
    + rewrite String.eqb_refl. rewrite (IH _ pre x post Hr He).
      cbn. rewrite Rplus_assoc. f_equal. f_equal. apply Rsum_ext. intros j Hj.
      destruct (String.eqb_spec j p) as [->|]; [|reflexivity].
      exfalso. apply Hk. rewrite He. apply in_app_iff. left. exact Hj.
Qed.
Definition rates_pos (ks : list string) : Prop := forall pre k post d, ks = (pre ++ k :: post)%list -> In d post -> 0 <= T k d.
Lemma cval_ge ks : rates_pos ks -> forall f x, (forall y, In y ks -> 0 <= f y) -> In x ks -> f x <= cval ks f x.
Proof.
  induction ks as [|k r IH]; intros HT f x Hf Hx; [destruct Hx|]. cbn. destruct (String.eqb_spec x k) as [->|Hn]; [lra|].
  destruct Hx as [->|Hx]; [contradiction|].
  assert (P : forall y, In y r -> 0 <= T k y * f k).
  { intros y Hy. apply Rmult_le_pos; [apply (HT [] k r y eq_refl Hy)|apply Hf; left; reflexivity]. }
  apply Rle_trans with (f x + T k x * f k); [specialize (P x Hx); lra|].
  apply (IH (fun pre k' post d E H => HT (k :: pre) k' post d (f_equal (cons k) E) H) (fun y => f y + T k y * f k) x); [|exact Hx].
  intros y Hy. specialize (P y Hy). specialize (Hf y (or_intror Hy)). lra.
Qed.

(** ** The model follows the recursion *)
Variable shells : list (string * @shell RNum).
Definition rates_ok (ks : list string) : Prop :=
  forall pre k post, ks = (pre ++ k :: post)%list ->
    exists sh, mfind sltb k shells = Some sh /\ forall d, In d post -> transferRate sh d = Ok (T k d) /\ 0 <= T k d.
Lemma cascadeLoop_eq ks : forall f, NoDup ks -> rates_ok ks -> (forall k, In k ks -> 0 <= f k) ->
  cascadeLoop shells (length ks) (map (fun k => (k, f k)) ks) = Ok (map (fun k => (k, cval ks f k)) ks).
Proof.
  induction ks as [|k r IH]; intros f Hn HT Hf; [reflexivity|].
  inversion Hn as [|? ? Hk Hr]; subst. cbn [length map cascadeLoop].
  destruct (HT [] k r eq_refl) as (sh & Hsh & Hrate).
  set (g := fun y => f y + T k y * f k).
  assert (E : (if (f k >? n0)%num then rmapM (fun kv : string * @num RNum => rbind (of_opt (mfind sltb k shells)) (fun sh =>
                        rbind (transferRate sh (fst kv)) (fun rate => Ok (fst kv, snd kv + rate * f k)%num))) (map (fun k => (k, f k)) r)
               else Ok (map (fun k => (k, f k)) r)) = Ok (map (fun k => (k, g k)) r)).
  { destruct (f k >? n0)%num eqn:P.
    - apply rmapM_Ok. rewrite Hsh. cbn [of_opt rbind]. clear IH. revert Hrate. generalize r.
      induction r0 as [|d r0 IHr]; intros Hrate; cbn; constructor.
      + cbn. destruct (Hrate d (or_introl eq_refl)) as [-> _]. reflexivity.
      + apply IHr. intros d' Hd'. apply Hrate. right. exact Hd'.
    - assert (f k = 0) by (specialize (Hf k (or_introl eq_refl)); apply Rltb_false in P; change (~ 0 < f k) in P; lra).
      f_equal. apply map_ext. intros y. unfold g. rewrite H. f_equal. ring. }
  match goal with |- rbind ?X _ = _ => change X with (if (f k >? n0)%num then rmapM (fun kv : string * @num RNum => rbind (of_opt (mfind sltb k shells)) (fun sh =>
                        rbind (transferRate sh (fst kv)) (fun rate => Ok (fst kv, snd kv + rate * f k)%num))) (map (fun k => (k, f k)) r)
               else Ok (map (fun k => (k, f k)) r)) end.
  rewrite E. cbn [rbind]. rewrite IH.
  - cbn [rbind]. f_equal. cbn [cval]. rewrite String.eqb_refl. f_equal. apply map_ext_in. intros y Hy.
    destruct (String.eqb_spec y k) as [->|]; [contradiction|reflexivity].
  - exact Hr.
  - intros pre k' post ->. apply (HT (k :: pre) k' post). reflexivity.
  - intros y Hy. unfold g. specialize (Hrate y Hy). apply Rplus_le_le_0_compat; [apply Hf; right; exact Hy|].
    apply Rmult_le_pos; [apply Hrate|apply Hf; left; reflexivity].
Qed.
End Cascade.

(** ** Good shells *)
Lemma good_names (e : @element RNum) : good_shells e -> cascadeKeys e = map fst (el_shells e).
Proof. intros [H _]. unfold cascadeKeys. rewrite H. reflexivity. Qed.
Lemma shell_names_sorted : StronglySorted (klt sltb) shell_names.
Proof. repeat constructor. Qed.
Lemma firstn_sorted {A} (P : A -> A -> Prop) n : forall l, StronglySorted P l -> StronglySorted P (firstn n l).
Proof.
  induction n as [|n IH]; intros l H; [constructor|]. destruct l as [|a l]; [constructor|]. cbn.
  inversion H as [|? ? H1 H2]; subst. constructor; [apply IH, H1|]. apply Forall_forall. intros x Hx.
  rewrite Forall_forall in H2. apply H2. rewrite <- (firstn_skipn n l). apply in_app_iff. left. exact Hx.
Qed.
Lemma good_sorted (e : @element RNum) : good_shells e -> msorted sltb (el_shells e).
Proof. intros [H _]. unfold msorted, mkeys. rewrite H. apply firstn_sorted, shell_names_sorted. Qed.
Lemma good_find (e : @element RNum) k : good_shells e -> In k (map fst (el_shells e)) ->
  exists sh, mfind sltb k (el_shells e) = Some sh /\ good_shell k sh.
Proof.
  intros G H. apply in_map_iff in H as ((k' & sh) & E & H). cbn in E. subst k'. exists sh.
  split; [apply smfind_In; [apply good_sorted, G|exact H]|]. destruct G as [_ G]. rewrite Forall_forall in G. apply (G _ H).
Qed.
Lemma after_K pre k post d n : firstn n shell_names = (pre ++ k :: post)%list -> In d post -> String.length d = 2%nat.
Proof.
  intros H Hd. assert (In d (tl (firstn n shell_names))).
  { rewrite H. destruct pre; cbn; [exact Hd|]. apply in_app_iff. right. right. exact Hd. }
  assert (In d (tl shell_names)).
  { destruct n; [destruct H0|]. change (In d (firstn n (tl shell_names))) in H0.
    rewrite <- (firstn_skipn n (tl shell_names)). apply in_app_iff. left. exact H0. }
  cbn in H1. decompose [or] H1; subst; try reflexivity. contradiction.
Qed.
Lemma good_rates (e : @element RNum) : good_shells e -> rates_ok (transfer e) (el_shells e) (cascadeKeys e).
Proof.
  intros G pre k post H. rewrite (good_names e G) in H.
  destruct (good_find e k G) as (sh & Hsh & P1 & P2 & P3).
  { rewrite H. apply in_app_iff. right. left. reflexivity. }
  exists sh. split; [exact Hsh|]. intros d Hd. assert (L : String.length d = 2%nat).
  { destruct G as [G _]. rewrite G in H. eapply after_K; eassumption. }
  unfold transfer. rewrite Hsh. unfold transferRate. rewrite (transfer_ok k sh d P1 L P3). cbn [rbind].
  split; [rewrite nsum_R; reflexivity|]. apply total_nonneg, (transfer_nonneg k sh d P1 P2 P3).
Qed.
Lemma good_NoDup (e : @element RNum) : good_shells e -> NoDup (cascadeKeys e).
Proof. intros G. rewrite (good_names e G). apply (smsorted_NoDup (good_sorted e G)). Qed.

Definition out (e : @element RNum) (d : list (string * R)) (k : string) : R := cval (transfer e) (cascadeKeys e) (fun x => value_or_0 x d) k.
Lemma some_inj {A} (a b : A) : Some a = Some b -> a = b.
Proof. intros H. injection H as ->. reflexivity. Qed.
Lemma dist_nonneg k d : nonneg_dist d -> 0 <= value_or_0 k d.
Proof.
  intros H. unfold value_or_0. destruct (@mfind string R sltb k d) as [v|] eqn:E; [|lra].
  assert (In v (map snd d)).
  { clear H. revert E. induction d as [|[q w] d IH]; [discriminate|]. cbn. destruct (sltb q k); [intros E; right; apply IH, E|].
    destruct (sltb k q); [discriminate|]. intros E; apply some_inj in E; left; exact E. }
  apply in_map_iff in H0 as ((q & w) & E' & H0). cbn in E'. subst w. unfold nonneg_dist in H. rewrite Forall_forall in H. apply (H _ H0).
Qed.
Lemma cascadeList_eq (e : @element RNum) (d : list (string * R)) : good_shells e -> nonneg_dist d ->
  cascadeList e d = Ok (map (fun k => (k, out e d k)) (cascadeKeys e)).
Proof.
  intros G H. unfold cascadeList, initialDistribution.
  rewrite (map_ext _ (fun k => (k, value_or_0 k d))) by (intros k; rewrite val0_R; reflexivity).
  unfold out. apply (cascadeLoop_eq (transfer e) (el_shells e) (cascadeKeys e) (fun k => value_or_0 k d)).
  - apply good_NoDup, G.
  - apply good_rates, G.
  - intros k _. apply dist_nonneg, H.
Qed.
Lemma cascade_table_sorted (e : @element RNum) (f : string -> R) : good_shells e -> msorted sltb (map (fun k => (k, f k)) (cascadeKeys e)).
Proof.
  intros G. unfold msorted, mkeys. rewrite map_map. cbn. rewrite map_id, (good_names e G). apply (good_sorted e G).
Qed.
Lemma cascade_eq (e : @element RNum) (d : list (string * R)) : good_shells e -> nonneg_dist d ->
  getCascadeModifiedVacancyDistribution e d = Ok (map (fun k => (k, out e d k)) (cascadeKeys e)).
Proof.
  intros G H. unfold getCascadeModifiedVacancyDistribution. rewrite cascadeList_eq by assumption. cbn [rbind]. f_equal.
  exact (@mset_all_id string R sltb _ (cascade_table_sorted e (out e d) G)).
Qed.
Lemma table_value (e : @element RNum) (f : string -> R) k : good_shells e ->
  value_or_0 k (map (fun k => (k, f k)) (cascadeKeys e)) = if existsb (String.eqb k) (cascadeKeys e) then f k else 0.
Proof.
  intros G. pose proof (cascade_table_sorted e f G) as Hs. destruct (existsb (String.eqb k) (cascadeKeys e)) eqn:E.
  - apply existsb_exists in E as (x & Hx & E). apply String.eqb_eq in E. subst x.
    apply value_of_In; [exact Hs|]. apply in_map_iff. exists k. split; [reflexivity|exact Hx].
  - unfold value_or_0. destruct (mfind sltb k _) eqn:F; [|reflexivity]. apply smfind_In in F; [|exact Hs].
    apply in_map_iff in F as (x & F & Hx). injection F as -> <-.
    assert (existsb (String.eqb k) (cascadeKeys e) = true) by (apply existsb_exists; exists k; split; [exact Hx|apply String.eqb_refl]). congruence.
Qed.
