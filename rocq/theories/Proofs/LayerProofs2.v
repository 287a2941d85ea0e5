(** The material attached last decides every answer; element list of the peak families. *)
From Coq Require Import String List ZArith Bool.
From Verif Require Import Base.Num Base.Res Base.SMap Model.Material Model.Layer Spec.LayerSpec.
Import ListNotations.

Section Any.
Context {N : Num}.
Variable (lib : library).

(** the layer represents the attachment *)
Definition represents (l : layer) (a : attachment) : Prop :=
  match a with
  | ByName s => l_hasMaterial l = false /\ l_materialName l = s
  | ByMaterial m => l_hasMaterial l = true /\ l_material l = m
  end.
Lemma same_represents (l l' : layer) a :
  l_hasMaterial l' = l_hasMaterial l -> l_materialName l' = l_materialName l -> l_material l' = l_material l ->
  represents l a -> represents l' a.
Proof. unfold represents. intros -> -> ->. tauto. Qed.

Lemma step_represents lf d o a : represents (d_layer d) a ->
  represents (d_layer (det_step lf lib d o)) (attached a [o]).
Proof.
  destruct o; cbn [det_step attached fold_left]; intros H; try (split; reflexivity); try exact H.
  - unfold setActiveArea. destruct (_ <? _)%num; exact H.
  - unfold setDiameter. destruct (_ <? _)%num; exact H.
  - unfold setDistance. match goal with |- context [if ?c then _ else _] => destruct c end; exact H.
  - unfold det_setDensity, setDensity. match goal with |- context [if ?c then _ else _] => destruct c end; [exact H|].
    eapply same_represents; [..|exact H]; reflexivity.
  - unfold det_setThickness, setThickness. match goal with |- context [if ?c then _ else _] => destruct c end; [exact H|].
    eapply same_represents; [..|exact H]; reflexivity.
  - unfold det_getEscape. repeat match goal with |- context [match ?c with _ => _ end] => destruct c end; exact H.
Qed.
Lemma run_represents lf ops : forall d a, represents (d_layer d) a -> represents (d_layer (det_run lf lib d ops)) (attached a ops).
Proof.
  induction ops as [|o ops IH]; intros d a H; [exact H|].
  cbn. apply IH. exact (step_represents lf d o a H).
Qed.

Lemma push_new_In acc s x : In x (push_new acc s) <-> In x acc \/ x = s.
Proof.
  unfold push_new. destruct (existsb (String.eqb s) acc) eqn:E.
  - apply existsb_exists in E. destruct E as [y [Hy E]]. apply String.eqb_eq in E. subst y. split; [tauto|]. intros [H| ->]; assumption.
  - rewrite in_app_iff. cbn. intuition congruence.
Qed.
Lemma push_new_NoDup acc s : NoDup acc -> NoDup (push_new acc s).
Proof.
  unfold push_new. intros H. destruct (existsb (String.eqb s) acc) eqn:E; [exact H|].
  apply NoDup_rev in H. rewrite <- (rev_involutive (acc ++ [s])), rev_app_distr. apply NoDup_rev. cbn. constructor; [|exact H].
  rewrite <- in_rev. intros I. assert (existsb (String.eqb s) acc = true); [|congruence].
  apply existsb_exists. exists s. split; [exact I|apply String.eqb_refl].
Qed.
Lemma fold_push_In l acc x : In x (fold_left push_new l acc) <-> In x acc \/ In x l.
Proof.
  revert acc. induction l as [|a l IH]; intros acc; cbn [fold_left]; [cbn; tauto|].
  rewrite IH, push_new_In. cbn. intuition.
Qed.
Lemma fold_push_NoDup l acc : NoDup acc -> NoDup (fold_left push_new l acc).
Proof. revert acc. induction l as [|a l IH]; intros acc H; [exact H|]. cbn. apply IH, push_new_NoDup, H. Qed.

Lemma elements_list names : forall acc, NoDup acc ->
  (forall n, In n names -> exists c, lib_comp_name lib n = Ok c) ->
  exists els, rfold (fun acc name => rbind (lib_comp_name lib name) (fun c => Ok (fold_left push_new (map fst c) acc))) names acc = Ok els /\
    NoDup els /\
    forall x, In x els <-> In x acc \/ exists n c, In n names /\ lib_comp_name lib n = Ok c /\ In x (map fst c).
Proof.
  induction names as [|n names IH]; intros acc ND H.
  - exists acc. split; [reflexivity|]. split; [exact ND|]. intros x. split; [tauto|]. intros [I|[? [? [[] _]]]]. exact I.
  - destruct (H n) as [c Hc]; [left; reflexivity|]. cbn [rfold]. rewrite Hc. cbn [rbind].
    destruct (IH (fold_left push_new (map fst c) acc)) as [els [E [ND' K]]].
    + apply fold_push_NoDup, ND.
    + intros m Hm. apply H. right. exact Hm.
    + exists els. split; [exact E|]. split; [exact ND'|]. intros x. rewrite K, fold_push_In. split.
      * intros [[I|I]|[m [c' [I [J L]]]]]; [tauto| |].
        -- right. exists n, c. split; [left; reflexivity|tauto].
        -- right. exists m, c'. split; [right; exact I|tauto].
      * intros [I|[m [c' [[->|I] [J L]]]]]; [tauto| |].
        -- rewrite Hc in J. injection J as <-. tauto.
        -- right. exists m, c'. tauto.
Qed.

Lemma families_spec l m E : represents l (ByMaterial m) ->
  (forall n, In n (map fst (getComposition m)) -> exists c, lib_comp_name lib n = Ok c) ->
  exists els, NoDup els /\
    (forall x, In x els <-> exists n c, In n (map fst (getComposition m)) /\ lib_comp_name lib n = Ok c /\ In x (map fst c)) /\
    layer_getPeakFamilies lib l E = lib_families_list lib els E.
Proof.
  intros [H1 H2] H. unfold layer_getPeakFamilies. rewrite H1, H2.
  destruct (elements_list (map fst (getComposition m)) [] (NoDup_nil _) H) as [els [E1 [ND K]]].
  exists els. split; [exact ND|]. split.
  - intros x. rewrite K. cbn. tauto.
  - rewrite E1. reflexivity.
Qed.
End Any.
