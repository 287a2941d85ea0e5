(** [std::map<K,V>] as a list of pairs sorted by key, with the container's
    operations.  Keys are compared only through operator<, like the C++ map. *)
From Coq Require Import List Bool Sorted Permutation String Ascii Reals Lra Lia.
From Verif Require Import Base.Num.
Import ListNotations.
Set Implicit Arguments.

Section SMap.
Context {K V : Type} (ltb : K -> K -> bool).

Definition smap := list (K * V).

(** map::find (lower_bound, then check of equivalence). *)
Fixpoint mfind (k : K) (m : list (K * V)) : option V :=
  match m with
  | [] => None
  | (k', v) :: r => if ltb k' k then mfind k r else if ltb k k' then None else Some v
  end.

(** map[k] = v. An existing equivalent key is kept. *)
Fixpoint mset (k : K) (v : V) (m : list (K * V)) : list (K * V) :=
  match m with
  | [] => [(k, v)]
  | (k', v') :: r => if ltb k' k then (k', v') :: mset k v r
                     else if ltb k k' then (k, v) :: m else (k', v) :: r
  end.

(** map::erase(k) *)
Fixpoint merase (k : K) (m : list (K * V)) : list (K * V) :=
  match m with
  | [] => []
  | (k', v') :: r => if ltb k' k then (k', v') :: merase k r
                     else if ltb k k' then m else r
  end.

(** map::upper_bound(k): elements before / from the first key greater than k *)
Fixpoint msplit_upper (k : K) (m : list (K * V)) : list (K * V) * list (K * V) :=
  match m with
  | [] => ([], [])
  | (k', v') :: r => if ltb k k' then ([], m)
                     else let '(a, b) := msplit_upper k r in ((k', v') :: a, b)
  end.

Definition mmem (k : K) (m : list (K * V)) : bool :=
  match mfind k m with Some _ => true | None => false end.

(** Building a map by successive assignments. *)
Definition mset_all (l : list (K * V)) (m : list (K * V)) : list (K * V) :=
  fold_left (fun m kv => mset (fst kv) (snd kv) m) l m.

Definition mkeys (m : list (K * V)) : list K := map fst m.
Definition mvals (m : list (K * V)) : list V := map snd m.

Definition klt (a b : K) : Prop := ltb a b = true.
Definition msorted (m : list (K * V)) : Prop := StronglySorted klt (mkeys m).
End SMap.

Class StrictTotal {K} (ltb : K -> K -> bool) : Prop := {
  st_irrefl : forall a, ltb a a = false;
  st_trans : forall a b c, ltb a b = true -> ltb b c = true -> ltb a c = true;
  st_total : forall a b, ltb a b = false -> ltb b a = false -> a = b
}.

Section Laws.
Context {K V : Type} (ltb : K -> K -> bool) {ST : StrictTotal ltb}.
Notation msorted := (@msorted K V ltb).

Lemma st_asym a b : ltb a b = true -> ltb b a = false.
Proof.
  intros H. destruct (ltb b a) eqn:E; [|reflexivity].
  rewrite <- (st_irrefl (ltb:=ltb) a). symmetry. eapply st_trans; eassumption.
Qed.

Lemma st_eq_dec (a b : K) : {a = b} + {a <> b}.
Proof.
  destruct (ltb a b) eqn:E1.
  - right; intros ->. rewrite st_irrefl in E1; discriminate.
  - destruct (ltb b a) eqn:E2.
    + right; intros ->. rewrite st_irrefl in E2; discriminate.
    + left. apply st_total; assumption.
Qed.

Lemma st_cases a b : {ltb a b = true} + {a = b} + {ltb b a = true}.
Proof.
  destruct (ltb a b) eqn:E1; [left; left; reflexivity|].
  destruct (ltb b a) eqn:E2; [right; reflexivity|].
  left; right; apply st_total; assumption.
Qed.

Lemma msorted_nil : msorted [].
Proof. constructor. Qed.

Lemma msorted_cons_inv k v m : msorted ((k, v) :: m) -> msorted m /\ Forall (klt ltb k) (mkeys m).
Proof. intros H; inversion H; subst; split; assumption. Qed.

Lemma msorted_cons k v m : msorted m -> Forall (klt ltb k) (mkeys m) -> msorted ((k, v) :: m).
Proof. intros; constructor; assumption. Qed.

Lemma mfind_Forall_gt k m : Forall (klt ltb k) (mkeys m) -> @mfind K V ltb k m = None.
Proof.
  destruct m as [|[k' v'] m]; intros H; [reflexivity|]. inversion H; subst. cbn.
  rewrite (st_asym H2). unfold klt in H2. rewrite H2. reflexivity.
Qed.

Lemma mfind_In k v m : msorted m -> (mfind ltb k m = Some v <-> In (k, v) m).
Proof.
  induction m as [|[k' v'] m IH]; intros Hs; cbn; [split; [discriminate|tauto]|].
  apply msorted_cons_inv in Hs. destruct Hs as [Hs Hf]. specialize (IH Hs).
  destruct (st_cases k' k) as [[H|H]|H].
  - rewrite H. rewrite IH. split; [tauto|]. intros [E|E]; [|assumption].
    inversion E; subst. rewrite st_irrefl in H; discriminate.
  - subst k'. rewrite st_irrefl. split.
    + intros E; inversion E; left; reflexivity.
    + intros [E|E]; [inversion E; reflexivity|].
      exfalso. apply (in_map fst) in E. rewrite Forall_forall in Hf. specialize (Hf _ E). cbn in Hf.
      unfold klt in Hf. rewrite st_irrefl in Hf; discriminate.
  - rewrite (st_asym H), H. split; [discriminate|]. intros [E|E].
    + inversion E; subst. rewrite st_irrefl in H; discriminate.
    + exfalso. apply (in_map fst) in E. rewrite Forall_forall in Hf. specialize (Hf _ E). cbn in Hf.
      assert (ltb k k = true) by (eapply st_trans; eassumption). rewrite st_irrefl in H0; discriminate.
Qed.

Lemma mfind_None k m : msorted m -> (mfind ltb k m = None <-> ~ In k (@mkeys K V m)).
Proof.
  intros Hs. split.
  - intros H Hin. unfold mkeys in Hin. apply in_map_iff in Hin. destruct Hin as [[k' v] [E Hin]]. cbn in E; subst k'.
    apply (mfind_In k v Hs) in Hin. congruence.
  - intros H. destruct (mfind ltb k m) eqn:E; [|reflexivity]. exfalso; apply H.
    apply (mfind_In k v Hs) in E. apply (in_map fst) in E. exact E.
Qed.

Lemma mset_keys_Forall (P : K -> Prop) k v m :
  P k -> Forall P (mkeys m) -> Forall P (mkeys (@mset K V ltb k v m)).
Proof.
  intros Hk. induction m as [|[k' v'] m IH]; cbn; intros H.
  - repeat constructor; assumption.
  - inversion H; subst. destruct (ltb k' k); [|destruct (ltb k k')]; cbn; constructor; auto.
Qed.

Lemma mset_sorted k v m : msorted m -> msorted (mset ltb k v m).
Proof.
  induction m as [|[k' v'] m IH]; cbn; intros Hs.
  - repeat constructor.
  - assert (Hs' := Hs). apply msorted_cons_inv in Hs. destruct Hs as [Hs Hf].
    destruct (ltb k' k) eqn:E1.
    + apply msorted_cons; [auto|]. apply mset_keys_Forall; assumption.
    + destruct (ltb k k') eqn:E2.
      * apply msorted_cons; [assumption|]. cbn. constructor; [assumption|].
        eapply Forall_impl; [|exact Hf]. intros a Ha. unfold klt in *. eapply st_trans; eassumption.
      * apply msorted_cons; assumption.
Qed.

Lemma mfind_mset_same k v m : mfind ltb k (@mset K V ltb k v m) = Some v.
Proof.
  induction m as [|[k' v'] m IH]; cbn.
  - rewrite st_irrefl; reflexivity.
  - destruct (ltb k' k) eqn:E1; cbn; [rewrite E1; exact IH|].
    destruct (ltb k k') eqn:E2; cbn.
    + rewrite st_irrefl; reflexivity.
    + rewrite E1, E2; reflexivity.
Qed.

Lemma mfind_mset_other k k' v m : k <> k' -> msorted m ->
  mfind ltb k' (mset ltb k v m) = mfind ltb k' m.
Proof.
  intros Hne. induction m as [|[q w] m IH]; intros Hs; cbn.
  - destruct (st_cases k k') as [[H|H]|H]; [rewrite H|contradiction|rewrite (st_asym H), H]; reflexivity.
  - assert (Hs' := Hs). apply msorted_cons_inv in Hs. destruct Hs as [Hs Hf].
    destruct (ltb q k) eqn:E1; cbn.
    + destruct (ltb q k') eqn:E3; [auto|reflexivity].
    + destruct (ltb k q) eqn:E2; cbn.
      * destruct (st_cases k k') as [[H|H]|H]; [rewrite H|contradiction|].
        -- reflexivity.
        -- rewrite (st_asym H), H.
           assert (ltb k' q = true) by (eapply st_trans; eassumption).
           rewrite (st_asym H0), H0; reflexivity.
      * assert (q = k) by (apply st_total; assumption). subst q.
        destruct (st_cases k k') as [[H|H]|H]; [rewrite H|contradiction|rewrite (st_asym H), H]; reflexivity.
Qed.

Lemma mset_In k v m x : msorted m ->
  (In x (mset ltb k v m) <-> x = (k, v) \/ (fst x <> k /\ In x m)).
Proof.
  intros Hs. destruct x as [q w]. rewrite <- (mfind_In q w (mset_sorted k v Hs)).
  destruct (st_eq_dec k q) as [->|Hne].
  - rewrite mfind_mset_same. cbn. split.
    + intros E; inversion E; left; reflexivity.
    + intros [E|[E _]]; [inversion E; reflexivity|congruence].
  - rewrite mfind_mset_other by assumption. rewrite (mfind_In q w Hs). cbn. split.
    + intros H; right; split; [congruence|assumption].
    + intros [E|[_ H]]; [inversion E; congruence|assumption].
Qed.

Lemma mset_keys_In k v m q : msorted m ->
  (In q (mkeys (mset ltb k v m)) <-> q = k \/ In q (mkeys m)).
Proof.
  intros Hs. unfold mkeys. rewrite !in_map_iff. split.
  - intros [x [E H]]. apply mset_In in H; [|assumption]. destruct H as [->|[H1 H2]].
    + left; cbn in E; congruence.
    + right; exists x; split; assumption.
  - intros [->|[x [E H]]].
    + exists (k, v); split; [reflexivity|]. apply mset_In; [assumption|left; reflexivity].
    + destruct (st_eq_dec q k) as [->|Hne].
      * exists (k, v); split; [reflexivity|]. apply mset_In; [assumption|left; reflexivity].
      * exists x; split; [assumption|]. apply mset_In; [assumption|]. right; split; congruence.
Qed.

Lemma msorted_NoDup m : msorted m -> NoDup (@mkeys K V m).
Proof.
  unfold SMap.msorted. generalize (mkeys m) as l. induction l as [|a l IH]; intros H; constructor; inversion H; subst.
  - intros Hin. rewrite Forall_forall in H3. specialize (H3 _ Hin). unfold klt in H3. rewrite st_irrefl in H3; discriminate.
  - auto.
Qed.

(** Two sorted maps with the same bindings are equal. *)
Lemma msorted_ext m1 m2 : msorted m1 -> msorted m2 ->
  (forall k, mfind ltb k m1 = mfind ltb k m2) -> m1 = m2.
Proof.
  revert m2. induction m1 as [|[k1 v1] m1 IH]; intros [|[k2 v2] m2] H1 H2 He.
  - reflexivity.
  - specialize (He k2). cbn in He. rewrite st_irrefl in He. discriminate.
  - specialize (He k1). cbn in He. rewrite st_irrefl in He. discriminate.
  - apply msorted_cons_inv in H1. apply msorted_cons_inv in H2. destruct H1 as [H1 F1], H2 as [H2 F2].
    assert (k1 = k2).
    { destruct (st_cases k1 k2) as [[H|H]|H]; [|assumption|]; exfalso.
      - specialize (He k1). cbn in He. rewrite st_irrefl, (st_asym H), H in He. discriminate.
      - specialize (He k2). cbn in He. rewrite st_irrefl, (st_asym H), H in He. discriminate. }
    subst k2. assert (v1 = v2).
    { specialize (He k1). cbn in He. rewrite st_irrefl in He. congruence. }
    subst v2. f_equal. apply IH; [assumption..|]. intros k. specialize (He k). cbn in He.
    destruct (st_cases k1 k) as [[H|H]|H].
    + rewrite H in He; exact He.
    + subst k. rewrite (mfind_Forall_gt _ F1), (mfind_Forall_gt _ F2); reflexivity.
    + assert (Forall (klt ltb k) (mkeys m1)) by (eapply Forall_impl; [|exact F1]; intros a Ha; unfold klt in *; eapply st_trans; eassumption).
      assert (Forall (klt ltb k) (mkeys m2)) by (eapply Forall_impl; [|exact F2]; intros a Ha; unfold klt in *; eapply st_trans; eassumption).
      rewrite (mfind_Forall_gt _ H0), (mfind_Forall_gt _ H3); reflexivity.
Qed.

Lemma mset_all_sorted l m : msorted m -> msorted (mset_all ltb l m).
Proof.
  unfold mset_all. revert m. induction l as [|[k v] l IH]; cbn; intros m Hs; [assumption|].
  apply IH, mset_sorted, Hs.
Qed.

(** Assigning along a sorted list of fresh larger keys appends. *)
Lemma mset_append k (v : V) m : Forall (fun q => ltb q k = true) (mkeys m) -> mset ltb k v m = m ++ [(k, v)].
Proof.
  induction m as [|[q w] m IH]; cbn; intros H; [reflexivity|]. inversion H; subst. rewrite H2.
  f_equal. auto.
Qed.

Lemma mset_all_app_sorted l m : msorted (m ++ l) -> mset_all ltb l m = m ++ l.
Proof.
  unfold mset_all. revert m. induction l as [|[k v] l IH]; cbn; intros m Hs; [rewrite app_nil_r; reflexivity|].
  rewrite mset_append.
  - rewrite IH; rewrite <- app_assoc; [reflexivity|exact Hs].
  - clear IH. induction m as [|[q w] m IHm]; cbn; [constructor|].
    cbn in Hs. apply msorted_cons_inv in Hs. destruct Hs as [Hs Hf]. constructor; [|apply IHm, Hs].
    rewrite Forall_forall in Hf. apply Hf. unfold mkeys. rewrite map_app. apply in_or_app. right. left. reflexivity.
Qed.

Lemma mset_all_id l : msorted l -> mset_all ltb l [] = l.
Proof. intros H. apply (mset_all_app_sorted l []). exact H. Qed.

(** Last-assignment-wins characterisation. *)
Fixpoint alast (k : K) (l : list (K * V)) : option V :=
  match l with
  | [] => None
  | (k', v) :: r => match alast k r with
                    | Some w => Some w
                    | None => if st_eq_dec k' k then Some v else None
                    end
  end.

Lemma mfind_mset_all k l m : msorted m ->
  mfind ltb k (mset_all ltb l m) = match alast k l with Some v => Some v | None => mfind ltb k m end.
Proof.
  unfold mset_all. revert m. induction l as [|[q w] l IH]; cbn; intros m Hs; [reflexivity|].
  rewrite IH by (apply mset_sorted, Hs). destruct (alast k l); [reflexivity|].
  destruct (st_eq_dec q k) as [->|Hne].
  - apply mfind_mset_same.
  - apply mfind_mset_other; assumption.
Qed.

Lemma mfind_merase_same k m : msorted m -> mfind ltb k (merase ltb k m) = None.
Proof.
  induction m as [|[q w] m IH]; cbn; intros Hs; [reflexivity|].
  apply msorted_cons_inv in Hs. destruct Hs as [Hs Hf].
  destruct (ltb q k) eqn:E1; cbn; [rewrite E1; auto|].
  destruct (ltb k q) eqn:E2; cbn; [rewrite E1, E2; reflexivity|].
  assert (q = k) by (apply st_total; assumption); subst q. apply mfind_Forall_gt, Hf.
Qed.

(** Permutation of a list with distinct keys. *)
Lemma mset_Permutation_new k (v : V) m : msorted m -> ~ In k (mkeys m) ->
  Permutation (mset ltb k v m) ((k, v) :: m).
Proof.
  induction m as [|[q w] m IH]; cbn; intros Hs Hn; [reflexivity|].
  apply msorted_cons_inv in Hs. destruct Hs as [Hs Hf].
  destruct (ltb q k) eqn:E1.
  - rewrite IH by tauto. apply perm_swap.
  - destruct (ltb k q) eqn:E2; [reflexivity|].
    exfalso. apply Hn. left. apply st_total; assumption.
Qed.

Lemma mset_all_Permutation l m : msorted m -> NoDup (mkeys (l ++ m)) ->
  Permutation (mset_all ltb l m) (l ++ m).
Proof.
  unfold mset_all. revert m. induction l as [|[k v] l IH]; cbn; intros m Hs Hn; [reflexivity|].
  inversion Hn; subst. rewrite IH.
  - rewrite mset_Permutation_new; [|assumption|].
    + symmetry. apply Permutation_middle.
    + intros Hin. apply H1. unfold mkeys. rewrite map_app. apply in_or_app. right. exact Hin.
  - apply mset_sorted, Hs.
  - unfold mkeys. rewrite map_app. cbn [fst snd].
    assert (P : Permutation (map fst (mset ltb k v m)) (k :: map fst m)).
    { change (k :: map fst m) with (map fst ((k, v) :: m)). apply Permutation_map.
      apply mset_Permutation_new; [assumption|]. intros Hin. apply H1. unfold mkeys. rewrite map_app. apply in_or_app. right. exact Hin. }
    rewrite P. rewrite <- Permutation_middle. rewrite <- map_app. exact Hn.
Qed.

(** upper_bound *)
Lemma msplit_upper_app k m : let '(a, b) := @msplit_upper K V ltb k m in a ++ b = m.
Proof.
  induction m as [|[q w] m IH]; cbn; [reflexivity|]. destruct (ltb k q); [reflexivity|].
  destruct (msplit_upper ltb k m) as [a b]. cbn. f_equal. exact IH.
Qed.

Lemma msplit_upper_le k m : Forall (fun q => ltb k q = false) (mkeys (fst (@msplit_upper K V ltb k m))).
Proof.
  induction m as [|[q w] m IH]; cbn; [constructor|]. destruct (ltb k q) eqn:E; [constructor|].
  destruct (msplit_upper ltb k m) as [a b]. cbn in *. constructor; assumption.
Qed.

Lemma msplit_upper_hd k m q w r : snd (@msplit_upper K V ltb k m) = (q, w) :: r -> ltb k q = true.
Proof.
  induction m as [|[q' w'] m IH]; cbn; [discriminate|]. destruct (ltb k q') eqn:E.
  - cbn. intros H; inversion H; subst; assumption.
  - destruct (msplit_upper ltb k m) as [a b]. cbn in *. exact IH.
Qed.
End Laws.

(** ** Keys used by fisx *)
Definition sltb : string -> string -> bool := String.ltb.

Lemma string_compare_refl s : String.compare s s = Eq.
Proof.
  induction s as [|c s IH]; [reflexivity|]. cbn. unfold Ascii.compare. rewrite BinNat.N.compare_refl. exact IH.
Qed.

Lemma string_lt_trans a b c :
  String.compare a b = Lt -> String.compare b c = Lt -> String.compare a c = Lt.
Proof.
  revert b c. induction a as [|x a IH]; intros [|y b] [|z c]; cbn; try discriminate; try reflexivity.
  unfold Ascii.compare.
  destruct (BinNat.N.compare_spec (N_of_ascii x) (N_of_ascii y)) as [E1|E1|E1]; try discriminate;
  destruct (BinNat.N.compare_spec (N_of_ascii y) (N_of_ascii z)) as [E2|E2|E2]; try discriminate; intros H1 H2;
  destruct (BinNat.N.compare_spec (N_of_ascii x) (N_of_ascii z)) as [E3|E3|E3]; try reflexivity; try lia.
  eapply IH; eassumption.
Qed.

Global Instance sltb_total : StrictTotal sltb.
Proof.
  split.
  - intros a. unfold sltb, String.ltb. rewrite string_compare_refl. reflexivity.
  - intros a b c. unfold sltb, String.ltb.
    destruct (String.compare a b) eqn:E1; try discriminate.
    destruct (String.compare b c) eqn:E2; try discriminate. intros _ _.
    rewrite (string_lt_trans _ _ _ E1 E2). reflexivity.
  - intros a b. unfold sltb, String.ltb. rewrite (String.compare_antisym b a).
    destruct (String.compare a b) eqn:E1; cbn; try discriminate.
    intros _ _. apply String.compare_eq_iff. exact E1.
Qed.

Global Instance Rltb_total : StrictTotal Rltb.
Proof.
  split.
  - intros a. apply Rltb_false. lra.
  - intros a b c. rewrite !Rltb_true. lra.
  - intros a b. rewrite !Rltb_false. lra.
Qed.

(** String-keyed instances with the order fixed. *)
Section StringKeys.
Context {V : Type}.
Definition smfind_In := @mfind_In string V sltb sltb_total.
Definition smfind_None := @mfind_None string V sltb sltb_total.
Definition smset_sorted := @mset_sorted string V sltb sltb_total.
Definition smset_In := @mset_In string V sltb sltb_total.
Definition smset_keys_In := @mset_keys_In string V sltb sltb_total.
Definition smset_all_sorted := @mset_all_sorted string V sltb sltb_total.
Definition smfind_mset_same := @mfind_mset_same string V sltb sltb_total.
Definition smfind_mset_other := @mfind_mset_other string V sltb sltb_total.
Definition smfind_mset_all := @mfind_mset_all string V sltb sltb_total.
Definition smsorted_ext := @msorted_ext string V sltb sltb_total.
Definition smsorted_NoDup := @msorted_NoDup string V sltb sltb_total.
Definition smset_all_Permutation := @mset_all_Permutation string V sltb sltb_total.
Definition smsorted_nil := @msorted_nil string V sltb.
End StringKeys.
