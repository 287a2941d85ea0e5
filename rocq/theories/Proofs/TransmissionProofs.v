From Coq Require Import String List Bool Arith Reals Lra Lia Sorted ZArith.
From Verif Require Import Base.Num Base.Res Base.SMap Base.ListLemmas Model.TransmissionTable Spec.TransmissionSpec.
Import ListNotations.
Local Open Scope R_scope.

Section Gen.
Context {N : Num}.
Lemma tt_map_throw_unchanged (t t' : ttable) table n c e :
  setTransmissionTable_map t table n c = (t', Throw e) -> t' = t.
Proof. unfold setTransmissionTable_map. destruct (bad_rows _ _); [congruence|]. destruct (rename_conflict _ _ _); congruence. Qed.
Lemma tt_vec_throw_unchanged (t t' : ttable) en tr n c e :
  setTransmissionTable_vec t en tr n c = (t', Throw e) -> t' = t.
Proof.
  unfold setTransmissionTable_vec. destruct (rename_conflict _ _ _); [congruence|].
  destruct (negb _); [congruence|]. destruct (bad_rows _ _); congruence.
Qed.
End Gen.

Local Existing Instance RNum.

Lemma is_table_msorted t : is_table t <-> msorted Rltb t.
Proof.
  unfold is_table, msorted, mkeys. split; intros H.
  - induction H; constructor; try assumption. eapply Forall_impl; [|exact H0]. intros b Hb. apply Rltb_true. exact Hb.
  - induction H; constructor; try assumption. eapply Forall_impl; [|exact H0]. intros b Hb. apply Rltb_true. exact Hb.
Qed.

Lemma nonempty_true s : nonempty s = true <-> s <> EmptyString.
Proof. destruct s; cbn; split; congruence. Qed.
Lemma nonempty_false s : nonempty s = false <-> s = EmptyString.
Proof. destruct s; cbn; split; congruence. Qed.

Lemma rename_conflict_iff t n c : rename_conflict t n c = true <-> renames t n c.
Proof. unfold rename_conflict, renames. rewrite orb_true_iff, !andb_true_iff, !nonempty_true. tauto. Qed.

Lemma bad_rows_ok mx rows : @bad_rows RNum mx rows = false <->
  Forall (fun r => 0 <= fst r /\ mx <= fst r /\ 0 <= snd r) rows /\ StronglySorted Rle (map fst rows).
Proof.
  revert mx. induction rows as [|[e t] rows IH]; intros mx; cbn [bad_rows map fst].
  - split; [intros _; split; constructor|reflexivity].
  - rewrite !orb_false_iff. cbn. rewrite !Rltb_false. rewrite IH. split.
    + intros (((H1 & H2) & H3) & H4 & H5). split.
      * constructor; [cbn; lra|]. eapply Forall_impl; [|exact H4]. cbn. intros a; lra.
      * constructor; [assumption|]. apply Forall_map. eapply Forall_impl; [|exact H4]. cbn. intros a; lra.
    + intros [H1 H2]. apply Forall_cons_iff in H1. destruct H1 as [H1 H3]. apply StronglySorted_inv in H2.
      destruct H2 as [H2 H4]. cbn in *. repeat split; try lra; try assumption.
      rewrite Forall_map in H4. rewrite Forall_forall in *. intros a Ha. specialize (H3 a Ha). specialize (H4 a Ha). cbn in *. lra.
Qed.

Definition rows_ok (rows : list (R * R)) : Prop :=
  Forall (fun r => 0 <= fst r /\ 0 <= snd r) rows /\ StronglySorted Rle (map fst rows).

Lemma bad_rows_m1 rows : @bad_rows RNum (nlit (-1) 0) rows = false <-> rows_ok rows.
Proof.
  rewrite bad_rows_ok. unfold rows_ok. split; intros [H1 H2]; split; try assumption;
  (eapply Forall_impl; [|exact H1]); cbn; unfold Rlit; cbn; intros a; lra.
Qed.

Lemma is_table_le t : is_table t -> StronglySorted Rle (map fst t).
Proof.
  unfold is_table. induction 1; constructor; auto. eapply Forall_impl; [|exact H0]. cbn; intros; lra.
Qed.

(** *** acceptance *)
Lemma set_map_iff t table n c : is_table table ->
  (snd (setTransmissionTable_map t table n c) = Ok tt <->
     ~ renames t n c /\ Forall (fun r => 0 <= fst r /\ 0 <= snd r) table) /\
  (snd (setTransmissionTable_map t table n c) = Ok tt ->
     getTransmissionTable (fst (setTransmissionTable_map t table n c)) = table) /\
  (snd (setTransmissionTable_map t table n c) <> Ok tt ->
     setTransmissionTable_map t table n c = (t, Throw InvalidArgument)).
Proof.
  intros Hm. unfold setTransmissionTable_map. destruct (bad_rows _ table) eqn:E1.
  - cbn. split; [split; [discriminate|]|split; [discriminate|reflexivity]].
    intros [_ H]. exfalso. assert (E2 : bad_rows (nlit (-1) 0) table = false) by (apply bad_rows_m1; split; [assumption|apply is_table_le, Hm]). congruence.
  - apply bad_rows_m1 in E1. destruct E1 as [E1 _].
    destruct (rename_conflict t n c) eqn:E2.
    + apply rename_conflict_iff in E2. cbn. split; [split; [discriminate|tauto]|split; [discriminate|reflexivity]].
    + assert (~ renames t n c) by (intros H; apply rename_conflict_iff in H; congruence).
      cbn. split; [tauto|]. split; [reflexivity|congruence].
Qed.

Lemma set_vec_iff t E V n c :
  (snd (setTransmissionTable_vec t E V n c) = Ok tt <->
     ~ renames t n c /\ length E = length V /\ Forall (fun e => 0 <= e) E /\ StronglySorted Rle E /\ Forall (fun v => 0 <= v) V) /\
  (snd (setTransmissionTable_vec t E V n c) <> Ok tt ->
     setTransmissionTable_vec t E V n c = (t, Throw InvalidArgument)).
Proof.
  unfold setTransmissionTable_vec. destruct (rename_conflict t n c) eqn:E2.
  - apply rename_conflict_iff in E2. cbn. split; [split; [discriminate|tauto]|reflexivity].
  - assert (Hr : ~ renames t n c) by (intros H; apply rename_conflict_iff in H; congruence).
    destruct (Nat.eqb_spec (length E) (length V)) as [Hl|Hl]; cbn [negb].
    + assert (K : rows_ok (combine E V) <-> Forall (fun e => 0 <= e) E /\ StronglySorted Rle E /\ Forall (fun v => 0 <= v) V).
      { unfold rows_ok. rewrite map_combine_fst by assumption.
        assert (Forall (fun r => 0 <= fst r /\ 0 <= snd r) (combine E V) <-> Forall (fun e => 0 <= e) E /\ Forall (fun v => 0 <= v) V).
        { clear - Hl. revert V Hl. induction E as [|e E IH]; intros [|v V] Hl; cbn in *; try discriminate.
          - split; [split; constructor|constructor].
          - rewrite !Forall_cons_iff, IH by congruence. cbn. tauto. }
        tauto. }
      destruct (bad_rows _ _) eqn:E1.
      * cbn. split; [split; [discriminate|]|reflexivity]. intros (_ & _ & H). exfalso. assert (E3 : bad_rows (nlit (-1) 0) (combine E V) = false) by (apply bad_rows_m1; tauto). congruence.
      * apply bad_rows_m1 in E1. cbn. split; [tauto|congruence].
    + cbn. split; [split; [discriminate|tauto]|reflexivity].
Qed.

(** *** the stored table is always a valid map *)
Lemma mset_nonneg (k v : R) m : 0 <= k -> 0 <= v -> Forall (fun r => 0 <= fst r /\ 0 <= snd r) m ->
  Forall (fun r => 0 <= fst r /\ 0 <= snd r) (mset Rltb k v m).
Proof.
  intros Hk Hv. induction m as [|[q w] m IH]; cbn; intros H.
  - constructor; [split; assumption|constructor].
  - inversion H; subst. cbn in *. destruct (Rltb q k); [constructor; auto|].
    destruct (Rltb k q); constructor; auto. cbn. tauto.
Qed.

Lemma micro_pos : @nlit RNum 1 (-6) = / 1000000.
Proof.
  change (@nlit RNum 1 (-6)) with (1 * / 10 ^ (Pos.to_nat 6)). rewrite Rmult_1_l.
  f_equal. change (Pos.to_nat 6) with 6%nat. ring.
Qed.

Lemma fill_step_nonneg m r : 0 <= fst r /\ 0 <= snd r ->
  Forall (fun r => 0 <= fst r /\ 0 <= snd r) m -> Forall (fun r => 0 <= fst r /\ 0 <= snd r) (fill_step m r).
Proof.
  destruct r as [e v]. cbn [fst snd]. intros [He Hv] Hm. unfold fill_step. rewrite micro_pos. rnorm.
  destruct (mfind Rltb e m); apply mset_nonneg; auto; lra.
Qed.

Lemma fill_step_sorted m r : msorted Rltb m -> msorted Rltb (fill_step m r).
Proof. destruct r as [e v]. intros H. unfold fill_step. destruct (mfind _ e m); apply (mset_sorted (ST:=Rltb_total)), H. Qed.

Lemma fold_fill_ok rows : forall m, msorted Rltb m ->
  Forall (fun r => 0 <= fst r /\ 0 <= snd r) m -> Forall (fun r => 0 <= fst r /\ 0 <= snd r) rows ->
  msorted Rltb (fold_left fill_step rows m) /\ Forall (fun r => 0 <= fst r /\ 0 <= snd r) (fold_left fill_step rows m).
Proof.
  induction rows as [|r rows IH]; cbn; intros m Hs Hm Hr; [split; assumption|].
  inversion Hr; subst. apply IH; [apply fill_step_sorted, Hs|apply fill_step_nonneg; assumption|assumption].
Qed.

Definition tt_valid (t : @ttable RNum) : Prop :=
  is_table (getTransmissionTable t) /\ Forall (fun r => 0 <= fst r /\ 0 <= snd r) (getTransmissionTable t).

Lemma tt_valid_step t o : tt_op_ok o -> tt_valid t -> tt_valid (fst (tt_step t o)).
Proof.
  intros Ho Hv. destruct o; cbn [tt_step fst]; try exact Hv.
  - unfold setTransmissionTable_map. destruct (bad_rows _ table) eqn:E1; [exact Hv|]. destruct (rename_conflict _ _ _); [exact Hv|].
    apply bad_rows_m1 in E1. split; [exact Ho|]. apply E1.
  - unfold setTransmissionTable_vec. destruct (rename_conflict _ _ _); [exact Hv|]. destruct (negb _); [exact Hv|].
    destruct (bad_rows _ _) eqn:E1; [exact Hv|]. apply bad_rows_m1 in E1. destruct E1 as [E1 _].
    unfold tt_valid, getTransmissionTable, put, fill. cbn [fst tt_table].
    destruct (fold_fill_ok (combine energy transmission) []) as [H1 H2]; [constructor|constructor|assumption|].
    split; [apply is_table_msorted; exact H1|exact H2].
Qed.

Lemma tt_valid_run l t : Forall tt_op_ok l -> tt_valid t -> tt_valid (tt_run t l).
Proof.
  unfold tt_run. revert t. induction l as [|o l IH]; cbn; intros t H Hv; [assumption|].
  inversion H; subst. apply IH; [assumption|]. apply tt_valid_step; assumption.
Qed.

Lemma tt_valid_new n c : tt_valid (tt_new n c).
Proof. split; cbn; repeat constructor; cbn; lra. Qed.

(** *** interpolation *)
Lemma upper_split E T : is_table T ->
  T = fst (msplit_upper Rltb E T) ++ snd (msplit_upper Rltb E T) /\
  (forall x y, In (x, y) (fst (msplit_upper Rltb E T)) -> x <= E) /\
  (forall x y, In (x, y) (snd (msplit_upper Rltb E T)) -> E < x).
Proof.
  intros HT. assert (A := msplit_upper_app Rltb E T). assert (B := msplit_upper_le Rltb E T).
  assert (C := fun q w r => @msplit_upper_hd _ _ Rltb E T q w r).
  destruct (msplit_upper Rltb E T) as [lo hi]. cbn [fst snd] in *. split; [congruence|]. split.
  - intros x y Hin. apply (in_map fst) in Hin. rewrite Forall_forall in B. specialize (B _ Hin). cbn in B.
    apply Rltb_false in B. lra.
  - intros x y Hin. destruct hi as [|[q w] hi]; [destruct Hin|]. specialize (C q w hi eq_refl). apply Rltb_true in C.
    destruct Hin as [E1|Hin]; [congruence|]. subst T. unfold is_table in HT. rewrite map_app in HT.
    apply StronglySorted_app in HT. destruct HT as (_ & H2 & _). cbn in H2. inversion H2; subst.
    rewrite Forall_forall in H3. apply (in_map fst) in Hin. specialize (H3 _ Hin). cbn in H3. lra.
Qed.

Lemma last_In {A} (l : list A) d : l <> [] -> In (last l d) l.
Proof.
  intros H. destruct (exists_last H) as [l' [a E]]. rewrite E. rewrite last_last. apply in_or_app; right; left; reflexivity.
Qed.

Lemma table_parts pre x1 y1 x2 y2 post : is_table (pre ++ (x1, y1) :: (x2, y2) :: post) ->
  x1 < x2 /\ (forall a b, In (a, b) pre -> a < x1) /\ (forall a b, In (a, b) post -> x2 < a).
Proof.
  intros HT. unfold is_table in HT. rewrite map_app in HT. apply StronglySorted_app in HT.
  destruct HT as (_ & H2 & H3). cbn in *. apply StronglySorted_inv in H2. destruct H2 as [H2 H4].
  apply StronglySorted_inv in H2. destruct H2 as [H2 H5]. rewrite Forall_forall in H4, H5. split; [|split].
  - apply H4. left; reflexivity.
  - intros a b Hin. apply H3; [apply (in_map fst) in Hin; exact Hin|left; reflexivity].
  - intros a b Hin. apply H5. apply (in_map fst) in Hin; exact Hin.
Qed.

Lemma get_first (t : @ttable RNum) (x y : R) (rest : list (R * R)) (E : R) : is_table (tt_table t) -> tt_table t = (x, y) :: rest -> E <= x -> getTransmission t E = y.
Proof.
  intros HT Ht HE. unfold getTransmission. rewrite Ht in *.
  destruct (upper_split E ((x, y) :: rest) HT) as (H1 & H2 & H3). rnorm_all.
  rnorm. destruct (msplit_upper Rltb E ((x, y) :: rest)) as [lo hi] eqn:Es. cbn [fst snd] in *.
  destruct hi as [|[x2 y2] hi].
  - rewrite app_nil_r in H1. subst lo.
    (* all keys <= E <= x : the list is a singleton *)
    destruct rest as [|[x' y'] rest]; [reflexivity|]. exfalso.
    destruct (table_parts [] x y x' y' rest HT) as [H5 _].
    specialize (H2 x' y'). cbn in H2. assert (x' <= E) by tauto. lra.
  - destruct (Rleb_spec E x); [reflexivity|contradiction].
Qed.

Lemma get_segment (t : @ttable RNum) (pre : list (R * R)) (x1 y1 x2 y2 : R) (post : list (R * R)) (E : R) : is_table (tt_table t) ->
  tt_table t = pre ++ (x1, y1) :: (x2, y2) :: post -> x1 <= E <= x2 ->
  getTransmission t E = y1 + (E - x1) / (x2 - x1) * (y2 - y1).
Proof.
  intros HT Ht HE.
  destruct (table_parts pre x1 y1 x2 y2 post) as (Hx & Hpre & Hpost); [exact (eq_ind _ is_table HT _ Ht)|].
  (* compute the split *)
  assert (Happ : forall (s r : list (R * R)), (forall a b, In (a, b) s -> a <= E) ->
             msplit_upper Rltb E (s ++ r) = (s ++ fst (msplit_upper Rltb E r), snd (msplit_upper Rltb E r))).
  { clear. induction s as [|[a b] s IH]; intros r H; cbn; [destruct (msplit_upper Rltb E r); reflexivity|].
    destruct (Rltb_spec E a) as [HH|HH]; [exfalso; assert (a <= E) by (apply (H a b); left; reflexivity); lra|].
    rewrite IH by (intros; eapply H; right; eassumption). destruct (msplit_upper Rltb E r); reflexivity. }
  unfold getTransmission. rnorm.
  assert (Hne : exists xf yf rest, tt_table t = (xf, yf) :: rest).
  { rewrite Ht. destruct pre as [|[a b] pre]; cbn; eauto. }
  destruct Hne as (xf & yf & rest & Hf). rewrite Hf. rewrite <- Hf, Ht.
  destruct (Rlt_dec E x2) as [HE2|HE2].
  - (* lo = pre ++ [(x1,y1)], hi = (x2,y2)::post *)
    rewrite Happ by (intros a b Hin; specialize (Hpre a b Hin); lra).
    cbn [msplit_upper]. destruct (Rltb_spec E x1) as [H|H]; [lra|]. destruct (Rltb_spec E x2) as [H'|H']; [|lra]. cbn [fst snd].
    rewrite last_last.
    destruct (Rleb_spec E xf) as [H0|H0].
    + (* E <= first: then pre = [] and E = x1 *)
      destruct pre as [|[a b] pre].
      * cbn in Ht. rewrite Hf in Ht. inversion Ht; subst. assert (E = x1) by lra. subst E.
        unfold Rdiv. replace (x1 - x1) with 0 by lra. lra.
      * exfalso. cbn in Ht. rewrite Hf in Ht. inversion Ht; subst. assert (a < x1) by (apply (Hpre a b); left; reflexivity). lra.
    + cbn. field. lra.
  - assert (E = x2) by lra. subst E.
    replace (pre ++ (x1, y1) :: (x2, y2) :: post) with ((pre ++ [(x1, y1); (x2, y2)]) ++ post) by (rewrite <- app_assoc; reflexivity).
    rewrite Happ.
    2:{ intros a b Hin. apply in_app_or in Hin. destruct Hin as [Hin|[Hin|[Hin|[]]]]; [specialize (Hpre a b Hin); lra|inversion Hin; subst; lra|inversion Hin; subst; lra]. }
    rnorm_all. assert (Hlast : last ((pre ++ [(x1, y1); (x2, y2)]) ++ []) (xf, yf) = (x2, y2)).
    { rewrite app_nil_r. replace (pre ++ [(x1, y1); (x2, y2)]) with ((pre ++ [(x1, y1)]) ++ [(x2, y2)]) by (rewrite <- app_assoc; reflexivity).
      apply last_last. }
    assert (Hy2 : y2 = y1 + (x2 - x1) / (x2 - x1) * (y2 - y1)) by (field; lra).
    destruct post as [|[x3 y3] post]; cbn [msplit_upper fst snd].
    + rewrite Hlast. exact Hy2.
    + assert (x2 < x3) by (apply (Hpost x3 y3); left; reflexivity).
      destruct (Rltb_spec x2 x3); [|lra]. cbn [fst snd]. rewrite Hlast.
      destruct (Rleb_spec x2 xf) as [H0|H0].
      * exfalso. destruct pre as [|[a b] pre]; cbn in Ht; rewrite Hf in Ht; inversion Ht; subst; [lra|].
        assert (a < x1) by (apply (Hpre a b); left; reflexivity). lra.
      * cbn. replace (x2 - x2) with 0 by lra. rewrite <- Hy2. unfold Rdiv. lra.
Qed.

Lemma get_last (t : @ttable RNum) (pre : list (R * R)) (x y E : R) : is_table (tt_table t) -> tt_table t = pre ++ [(x, y)] -> x <= E -> getTransmission t E = y.
Proof.
  destruct t as [nm cm T]. cbn [tt_table]. rnorm_all. intros HT Ht HE. unfold getTransmission. cbn [tt_table]. rnorm.
  assert (Hne : exists xf yf rest, T = (xf, yf) :: rest).
  { rewrite Ht. destruct pre as [|[a b] pre]; cbn; eauto. }
  destruct Hne as (xf & yf & rest & Hf). rewrite Hf. rewrite <- Hf.
  destruct (upper_split E T HT) as (H1 & H2 & H3).
  assert (Hall : forall a b, In (a, b) T -> a <= x).
  { intros a b Hin. unfold is_table in HT. rewrite Ht in *. rewrite map_app in HT. apply StronglySorted_app in HT.
    destruct HT as (_ & _ & H). apply in_app_or in Hin. destruct Hin as [Hin|[Hin|[]]]; [|inversion Hin; lra].
    apply (in_map fst) in Hin. specialize (H a x Hin). cbn in H. assert (a < x) by auto. left; assumption. }
  destruct (msplit_upper Rltb E T) as [lo hi]. cbn [fst snd] in *.
  destruct hi as [|[x2 y2] hi].
  - rewrite app_nil_r in H1. rewrite <- H1, Ht, last_last. reflexivity.
  - exfalso. assert (E < x2) by (apply (H3 x2 y2); left; reflexivity).
    assert (x2 <= x) by (apply (Hall x2 y2); rewrite H1; apply in_or_app; right; left; reflexivity). lra.
Qed.

Lemma get_empty t E : tt_table t = [] -> getTransmission t E = 1.
Proof. intros H. unfold getTransmission. rewrite H. reflexivity. Qed.

Lemma table_cases t E : is_table t ->
  t = [] \/
  (exists x y rest, t = (x, y) :: rest /\ E <= x) \/
  (exists pre x y, t = pre ++ [(x, y)] /\ x <= E) \/
  (exists pre x1 y1 x2 y2 post, t = pre ++ (x1, y1) :: (x2, y2) :: post /\ x1 <= E <= x2).
Proof.
  intros _. induction t as [|[x y] t IH]; [left; reflexivity|right].
  destruct (Rle_dec E x) as [H|H]; [left; eauto|right].
  destruct IH as [->|[(x' & y' & rest & -> & H')|[(pre & x' & y' & -> & H')|(pre & x1 & y1 & x2 & y2 & post & -> & H')]]].
  - left. exists [], x, y. split; [reflexivity|lra].
  - right. exists [], x, y, x', y', rest. split; [reflexivity|lra].
  - left. exists ((x, y) :: pre), x', y'. split; [reflexivity|assumption].
  - right. exists ((x, y) :: pre), x1, y1, x2, y2, post. split; [reflexivity|assumption].
Qed.

Lemma get_bounded t E lo hi : is_table (tt_table t) -> tt_table t <> [] ->
  Forall (fun r => lo <= snd r <= hi) (tt_table t) -> lo <= getTransmission t E <= hi.
Proof.
  intros HT Hne Hb. rewrite Forall_forall in Hb.
  destruct (table_cases (tt_table t) E HT) as [H|[(x & y & rest & H & HE)|[(pre & x & y & H & HE)|(pre & x1 & y1 & x2 & y2 & post & H & HE)]]].
  - contradiction.
  - rewrite (get_first t x y rest E HT H HE). apply (Hb (x, y)). rewrite H. left; reflexivity.
  - rewrite (get_last t pre x y E HT H HE). apply (Hb (x, y)). rewrite H. apply in_or_app; right; left; reflexivity.
  - rewrite (get_segment t pre x1 y1 x2 y2 post E HT H HE).
    assert (B1 : lo <= y1 <= hi) by (apply (Hb (x1, y1)); rewrite H; apply in_or_app; right; left; reflexivity).
    assert (B2 : lo <= y2 <= hi) by (apply (Hb (x2, y2)); rewrite H; apply in_or_app; right; right; left; reflexivity).
    destruct (table_parts pre x1 y1 x2 y2 post) as (Hx & _ & _); [exact (eq_ind _ is_table HT _ H)|].
    set (f := (E - x1) / (x2 - x1)).
    assert (0 <= f <= 1).
    { unfold f. split; [apply Rmult_le_pos; [lra|left; apply Rinv_0_lt_compat; lra]|].
      apply Rmult_le_reg_r with (x2 - x1); [lra|]. unfold Rdiv. rewrite Rmult_assoc, Rinv_l by lra. lra. }
    nra.
Qed.

Lemma get_at_knot t x y : is_table (tt_table t) -> In (x, y) (tt_table t) -> getTransmission t x = y.
Proof.
  intros HT Hin. apply in_split in Hin. destruct Hin as (pre & post & H).
  destruct post as [|[x2 y2] post].
  - apply (get_last t pre x y x HT H). lra.
  - destruct (table_parts pre x y x2 y2 post) as (Hx & _ & _); [exact (eq_ind _ is_table HT _ H)|].
    rewrite (get_segment t pre x y x2 y2 post x HT H) by lra. replace (x - x) with 0 by lra. unfold Rdiv. lra.
Qed.

(** *** fill *)
Lemma fill_shift rows2 : forall (done : list (R * R)) prev E V,
  rows2 = combine E V -> length E = length V ->
  StronglySorted Rlt (map fst done ++ shifted prev E) ->
  StronglySorted Rle E ->
  (match prev with
   | None => done = []
   | Some p => (Forall (fun k => k <= p + / 1000000) (map fst done)) /\ (In p (map fst done) \/ exists e', E = e' :: tl E /\ e' <> p) /\ (forall e', In e' E -> p <= e')
   end) ->
  (match prev with Some p => In p (map fst done) \/ In (p + / 1000000) (map fst done) | None => True end) ->
  fold_left fill_step rows2 done = done ++ combine (shifted prev E) V.
Proof.
  induction rows2 as [|[e v] rows2 IH]; intros done prev E V Hr Hl Hs HE Hp Hp2.
  - destruct E as [|e E], V as [|v V]; cbn in *; try discriminate. rewrite app_nil_r. reflexivity.
  - destruct E as [|e' E], V as [|v' V]; cbn in Hr, Hl; try discriminate. injection Hr as He0 Hv0 Hr0; subst e' v' rows2. injection Hl as Hl.
    cbn [fold_left]. cbn [shifted] in *. set (k := match prev with Some p => if Req_EM_T e p then e + / 1000000 else e | None => e end) in *.
    assert (Hkeys : Forall (fun q => Rltb q k = true) (mkeys done)).
    { apply StronglySorted_app in Hs. destruct Hs as (_ & _ & Hs). apply Forall_forall. intros q Hq. apply Rltb_true. apply Hs; [exact Hq|left; reflexivity]. }
    assert (Hdone_sorted : msorted Rltb done).
    { apply StronglySorted_app in Hs. destruct Hs as (Hs & _ & _). apply is_table_msorted. exact Hs. }
    assert (Hstep : fill_step done (e, v) = done ++ [(k, v)]).
    { unfold fill_step. rewrite micro_pos. rnorm.
      assert (Hfind : mfind Rltb e done = None \/ (mfind Rltb e done <> None /\ k = e + / 1000000)).
      { unfold k. destruct prev as [p|].
        - destruct (Req_EM_T e p) as [->|Hne].
          + right. split; [|reflexivity]. intros Hn. apply (mfind_None (ST:=Rltb_total)) in Hn; [|assumption]. apply Hn.
            destruct Hp as (_ & [Hin|(e' & Ee & Hne')] & _); [exact Hin|]. cbn in Ee. inversion Ee; subst. congruence.
          + left. apply (mfind_None (ST:=Rltb_total)); [assumption|]. intros Hin. unfold k in Hkeys. destruct (Req_EM_T e p); [contradiction|].
            rewrite Forall_forall in Hkeys. specialize (Hkeys e Hin). apply Rltb_true in Hkeys. lra.
        - left. subst done. reflexivity. }
      destruct Hfind as [Hn|[Hn Hk]].
      - rewrite Hn. assert (k = e).
        { unfold k. destruct prev as [p|]; [|reflexivity]. destruct (Req_EM_T e p) as [->|]; [|reflexivity].
          exfalso. apply (mfind_None (ST:=Rltb_total)) in Hn; [|assumption]. apply Hn.
          destruct Hp as (_ & [Hin|(e' & Ee & Hne')] & _); [exact Hin|]. cbn in Ee. inversion Ee; subst. congruence. }
        subst k. rewrite H in *. apply mset_append. exact Hkeys.
      - destruct (mfind Rltb e done); [|congruence]. rewrite <- Hk. apply mset_append. exact Hkeys. }
    rewrite Hstep. etransitivity; [apply (IH (done ++ [(k, v)]) (Some e) E V)|rewrite <- app_assoc; reflexivity].
    + reflexivity.
    + assumption.
    + rewrite map_app. cbn [map fst]. rewrite <- app_assoc. exact Hs.
    + inversion HE; assumption.
    + inversion HE; subst. rewrite map_app. cbn [map fst]. split; [|split].
      * apply Forall_app. split.
        -- rewrite Forall_forall in Hkeys |- *. intros q Hq. specialize (Hkeys q Hq). apply Rltb_true in Hkeys.
           assert (k <= e + / 1000000) by (unfold k; destruct prev as [p|]; [destruct (Req_EM_T e p)|]; lra). lra.
        -- constructor; [|constructor]. unfold k; destruct prev as [p|]; [destruct (Req_EM_T e p)|]; lra.
      * unfold k. destruct prev as [p|]; [|left; apply in_or_app; right; left; reflexivity].
        destruct (Req_EM_T e p) as [->|]; [|left; apply in_or_app; right; left; reflexivity].
        left. apply in_or_app. left. destruct Hp as (_ & [Hin|(e' & Ee & Hne')] & _); [exact Hin|]. cbn in Ee. inversion Ee; subst. congruence.
      * intros e' He'. rewrite Forall_forall in H2. apply H2. exact He'.
    + rewrite map_app. cbn [map fst]. unfold k. destruct prev as [p|]; [|left; apply in_or_app; right; left; reflexivity].
      destruct (Req_EM_T e p) as [->|]; [right; apply in_or_app; right; left; reflexivity|left; apply in_or_app; right; left; reflexivity].
Qed.

Lemma set_vec_faithful t E V n c :
  ~ renames t n c -> length E = length V -> Forall (fun e => 0 <= e) E -> StronglySorted Rle E -> Forall (fun v => 0 <= v) V ->
  StronglySorted Rlt (shifted None E) ->
  exists t', setTransmissionTable_vec t E V n c = (t', Ok tt) /\ getTransmissionTable t' = combine (shifted None E) V.
Proof.
  intros H1 H2 H3 H4 H5 H6.
  assert (K : snd (setTransmissionTable_vec t E V n c) = Ok tt) by (apply set_vec_iff; tauto).
  unfold setTransmissionTable_vec in *. destruct (rename_conflict _ _ _); [discriminate|]. destruct (negb _); [discriminate|].
  destruct (bad_rows _ _); [discriminate|]. eexists; split; [reflexivity|].
  unfold getTransmissionTable, put, fill. cbn [tt_table].
  exact (fill_shift (combine E V) [] None E V eq_refl H2 H6 H4 eq_refl I).
Qed.

Lemma shifted_strict E : StronglySorted Rlt E -> forall prev, (match prev with Some p => Forall (fun e => p < e) E | None => True end) -> shifted prev E = E.
Proof.
  induction 1 as [|e E Hs IH Hf]; intros prev Hp; [reflexivity|]. cbn [shifted]. rewrite IH by exact Hf.
  destruct prev as [p|]; [|reflexivity]. inversion Hp; subst. destruct (Req_EM_T e p); [lra|reflexivity].
Qed.
Lemma set_vec_strict t E V n c :
  ~ renames t n c -> length E = length V -> Forall (fun e => 0 <= e) E -> StronglySorted Rlt E -> Forall (fun v => 0 <= v) V ->
  exists t', setTransmissionTable_vec t E V n c = (t', Ok tt) /\ getTransmissionTable t' = combine E V.
Proof.
  intros H1 H2 H3 H4 H5. assert (Q := shifted_strict E H4 None I).
  destruct (set_vec_faithful t E V n c H1 H2 H3) as (t' & A & B); auto.
  3:{ exists t'. split; [exact A|]. rewrite B. rewrite Q. reflexivity. }
  - clear - H4. induction H4; constructor; auto. eapply Forall_impl; [|exact H]. cbn; intros; lra.
  - rewrite Q. exact H4.
Qed.

Lemma set_names (t t' : @ttable RNum) (E V : list R) (T : list (R * R)) n c :
  (setTransmissionTable_vec t E V n c = (t', Ok tt) \/ setTransmissionTable_map t T n c = (t', Ok tt)) ->
  tt_name t' = (if string_dec n EmptyString then tt_name t else n) /\
  tt_comment t' = (if string_dec c EmptyString then tt_comment t else c).
Proof.
  assert (K : forall tab, tt_name (put t tab n c) = (if string_dec n EmptyString then tt_name t else n) /\
             tt_comment (put t tab n c) = (if string_dec c EmptyString then tt_comment t else c)).
  { intros tab. unfold put. cbn [tt_name tt_comment]. split.
    - destruct (string_dec n EmptyString) as [->|H]; [reflexivity|]. apply nonempty_true in H. rewrite H. reflexivity.
    - destruct (string_dec c EmptyString) as [->|H]; [reflexivity|]. apply nonempty_true in H. rewrite H. reflexivity. }
  unfold setTransmissionTable_vec, setTransmissionTable_map. intros [H|H].
  - destruct (rename_conflict _ _ _); [discriminate|]. destruct (negb _); [discriminate|]. destruct (bad_rows _ _); [discriminate|].
    inversion H; subst. apply K.
  - destruct (bad_rows _ _); [discriminate|]. destruct (rename_conflict _ _ _); [discriminate|]. inversion H; subst. apply K.
Qed.
