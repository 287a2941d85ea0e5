(** Generic list and outcome lemmas. *)
From Coq Require Import List Bool Arith Lia Sorted Permutation.
From Verif Require Import Base.Res.
Import ListNotations.
Set Implicit Arguments.

Lemma rmapM_Ok {A B} (f : A -> res B) (g : A -> B) l :
  (forall a, In a l -> f a = Ok (g a)) -> rmapM f l = Ok (map g l).
Proof.
  induction l as [|a l IH]; cbn; intros H; [reflexivity|].
  rewrite H by auto. cbn. rewrite IH by auto. reflexivity.
Qed.

Lemma rmapM_inv {A B} (f : A -> res B) l bs :
  rmapM f l = Ok bs -> Forall2 (fun a b => f a = Ok b) l bs.
Proof.
  revert bs. induction l as [|a l IH]; cbn; intros bs H; [inversion H; constructor|].
  destruct (f a) eqn:E; cbn in H; try discriminate.
  destruct (rmapM f l) eqn:E2; cbn in H; try discriminate.
  inversion H; subst. constructor; auto.
Qed.

Lemma rmapM_ext {A B} (f g : A -> res B) l :
  (forall a, In a l -> f a = g a) -> rmapM f l = rmapM g l.
Proof.
  induction l as [|a l IH]; cbn; intros H; [reflexivity|].
  rewrite H by auto. rewrite IH by auto. reflexivity.
Qed.

Lemma rmapM_not_throw {A B} (f : A -> res B) l :
  (forall a, In a l -> (exists b, f a = Ok b) \/ f a = UB) ->
  (exists bs, rmapM f l = Ok bs) \/ rmapM f l = UB.
Proof.
  induction l as [|a l IH]; cbn; intros H; [left; eexists; reflexivity|].
  destruct (H a (or_introl eq_refl)) as [[b E]|E]; rewrite E; cbn; [|right; reflexivity].
  destruct IH as [[bs E2]|E2]; [auto| |]; rewrite E2; cbn; [left; eexists; reflexivity|right; reflexivity].
Qed.

Lemma map_nth_error_seq {A} (l : list A) d : map (fun i => nth i l d) (seq 0 (length l)) = l.
Proof.
  apply nth_ext with (d := d) (d' := d).
  - rewrite map_length, seq_length. reflexivity.
  - intros n Hn. rewrite map_length, seq_length in Hn.
    rewrite nth_indep with (d' := nth 0 l d) by (rewrite map_length, seq_length; assumption).
    rewrite (map_nth (fun i => nth i l d)). rewrite seq_nth by assumption. reflexivity.
Qed.

Lemma vget_nth {A} (l : list A) i d : i < length l -> vget l i = Ok (nth i l d).
Proof. intros H. unfold vget. rewrite (nth_error_nth' l d H). reflexivity. Qed.

Lemma vget_UB {A} (l : list A) i : length l <= i -> vget l i = UB.
Proof. intros H. unfold vget. apply nth_error_None in H. rewrite H. reflexivity. Qed.

Lemma StronglySorted_map {A B} (R : A -> A -> Prop) (S : B -> B -> Prop) (f : A -> B) l :
  (forall a b, In a l -> In b l -> R a b -> S (f a) (f b)) -> StronglySorted R l -> StronglySorted S (map f l).
Proof.
  intros H Hs. induction Hs as [|a l Hs IH Hf]; cbn; constructor.
  - apply IH. intros; apply H; cbn; auto.
  - apply Forall_map. rewrite Forall_forall in Hf |- *. intros x Hx. apply H; cbn; auto.
Qed.

Lemma StronglySorted_app {A} (R : A -> A -> Prop) l1 l2 :
  StronglySorted R (l1 ++ l2) <->
  StronglySorted R l1 /\ StronglySorted R l2 /\ (forall a b, In a l1 -> In b l2 -> R a b).
Proof.
  induction l1 as [|x l1 IH]; cbn.
  - split; [intros; repeat split; [constructor|assumption|tauto] | tauto].
  - split.
    + intros H. inversion H; subst. apply IH in H2. destruct H2 as (H1 & H2 & H4). rewrite Forall_app in H3.
      destruct H3 as [H3 H5]. rewrite Forall_forall in H5. repeat split; [constructor; assumption|assumption|].
      intros a b [->|Ha] Hb; auto.
    + intros (H1 & H2 & H3). inversion H1; subst. constructor.
      * apply IH; repeat split; auto.
      * apply Forall_app; split; [assumption|]. apply Forall_forall; intros; apply H3; auto.
Qed.

Lemma last_app_cons {A} (l : list A) a d : last (l ++ [a]) d = a.
Proof. apply last_last. Qed.

Lemma existsb_false_Forall {A} (f : A -> bool) l : existsb f l = false <-> Forall (fun a => f a = false) l.
Proof.
  induction l as [|a l IH]; cbn; [split; [constructor|reflexivity]|].
  rewrite orb_false_iff, IH. split; [intros [? ?]; constructor; assumption|intros H; inversion H; auto].
Qed.

Lemma forallb_Forall {A} (f : A -> bool) l : forallb f l = true <-> Forall (fun a => f a = true) l.
Proof. rewrite forallb_forall, Forall_forall. tauto. Qed.

Lemma map_combine_fst {A B} (l : list A) (m : list B) : length l = length m -> map fst (combine l m) = l.
Proof. revert m. induction l as [|a l IH]; intros [|b m]; cbn; intros H; try discriminate; f_equal; auto. Qed.
Lemma map_combine_snd {A B} (l : list A) (m : list B) : length l = length m -> map snd (combine l m) = m.
Proof. revert m. induction l as [|a l IH]; intros [|b m]; cbn; intros H; try discriminate; f_equal; auto. Qed.
