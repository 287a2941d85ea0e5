From Coq Require Import List ZArith Reals Lra Lia Sorted Permutation Bool Arith.
From Verif Require Import Base.Num Base.Res Base.RSum Base.ListLemmas Model.Beam Spec.BeamSpec.
Import ListNotations.

Lemma swo_R (l : list (@ray RNum)) : strict_weak_order ray_ltb l.
Proof.
  unfold strict_weak_order, ray_ltb; cbn. repeat split; intros.
  - apply Rltb_false. lra.
  - rewrite Rltb_true in *. lra.
  - rewrite Rltb_false in *. lra.
  - rewrite Rltb_false in *. lra.
Qed.

Lemma sortable_R (l : list (@ray RNum)) : sortable l = true.
Proof.
  unfold sortable. apply orb_true_iff. right. apply forallb_forall. intros. cbn. apply Reqb_true. reflexivity.
Qed.

Section Gen.
Context {N : Num}.

(** value used for index i *)
Definition eff {A} (d : A) (v : list A) (i : nat) : A :=
  match v with [] => d | [a] => a | _ => nth i v d end.

Lemma opt_arg_eff {A} (d : A) v i n : usable n v -> i < n -> opt_arg d v i = Ok (eff d v i).
Proof.
  intros Hu Hi. unfold opt_arg, eff. destruct v as [|a [|b v]]; cbn [length Nat.ltb Nat.leb]; [reflexivity..|].
  apply vget_nth. unfold usable in Hu. cbn in *. lia.
Qed.

Lemma column_eff {A} (d : A) v n : usable n v -> column n d v = map (eff d v) (seq 0 n).
Proof.
  intros Hu. unfold column, eff. destruct v as [|a [|b v]].
  - generalize 0. induction n as [|n IH]; intros k; cbn; [reflexivity|]. f_equal. apply IH. left; cbn; lia.
  - generalize 0. induction n as [|n IH]; intros k; cbn; [reflexivity|]. f_equal. apply IH. left; cbn; lia.
  - set (l := a :: b :: v) in *. assert (Hn : n <= length l) by (unfold usable in Hu; cbn in *; lia).
    rewrite <- (map_nth_error_seq (firstn n l) d). rewrite firstn_length, Nat.min_l by assumption.
    apply map_ext_in. intros i Hi. apply in_seq in Hi.
    clear Hu. revert n i Hn Hi. generalize l. induction l0 as [|x l0 IH]; intros [|n] [|i] Hn Hi; cbn in *; try lia; try reflexivity.
    apply IH; lia.
Qed.

Lemma length_column {A} (d : A) v n : usable n v -> length (column n d v) = n.
Proof. intros H. rewrite column_eff by assumption. rewrite map_length, seq_length. reflexivity. Qed.

Definition mk4 (r : num * num * Z * num) : ray :=
  mkRay (fst (fst (fst r))) (snd (fst (fst r))) (snd (fst r)) (snd r).

Lemma combine_map_seq {A B} (f : nat -> A) (g : nat -> B) l : combine (map f l) (map g l) = map (fun i => (f i, g i)) l.
Proof. induction l; cbn; f_equal; auto. Qed.

Variable sortf : list ray -> list ray.

Lemma setBeam_usable b E W F D : E <> [] ->
  usable (length E) W -> usable (length E) F -> usable (length E) D ->
  setBeam sortf b E W F D =
  normalizeBeam sortf (map mk4 (combine (combine (combine E (column (length E) n1 W)) (column (length E) 1%Z F))
                           (column (length E) n0 D))).
Proof.
  intros HE HW HF HD. unfold setBeam. destruct E as [|e0 E]; [congruence|].
  set (EE := e0 :: E) in *. set (n := length EE) in *.
  rewrite rmapM_Ok with (g := fun i => mkRay (nth i EE n0) (eff n1 W i) (eff 1%Z F i) (eff n0 D i)).
  - cbn [rbind]. f_equal. rewrite !column_eff by assumption.
    transitivity (map mk4 (combine (combine (combine (map (fun i => nth i EE n0) (seq 0 n)) (map (eff n1 W) (seq 0 n))) (map (eff 1%Z F) (seq 0 n))) (map (eff n0 D) (seq 0 n)))).
    + rewrite !combine_map_seq, map_map. reflexivity.
    + unfold n at 1. rewrite map_nth_error_seq. reflexivity.
  - intros i Hi. apply in_seq in Hi. rewrite (vget_nth EE n0) by (fold n; lia). cbn [rbind].
    rewrite (opt_arg_eff n1 W _ n) by (assumption || lia). cbn [rbind].
    rewrite (opt_arg_eff 1%Z F _ n) by (assumption || lia). cbn [rbind].
    rewrite (opt_arg_eff n0 D _ n) by (assumption || lia). reflexivity.
Qed.

Lemma column_full {A} (d : A) v n : length v = n -> column n d v = v.
Proof.
  intros H. destruct v as [|a [|b v]]; cbn in *; subst; cbn; try reflexivity. f_equal. f_equal. apply firstn_all.
Qed.

Lemma usable_full {A} (v : list A) n : length v = n -> usable n v.
Proof. intros <-. right. lia. Qed.

Lemma column_usable {A} (d : A) v n : usable n v -> usable n (column n d v).
Proof. intros H. apply usable_full, length_column, H. Qed.

(** Broadcasting: same outcome as with full columns. *)
Lemma setBeam_broadcast b E W F D : E <> [] ->
  usable (length E) W -> usable (length E) F -> usable (length E) D ->
  setBeam sortf b E W F D =
  setBeam sortf b E (column (length E) n1 W) (column (length E) 1%Z F) (column (length E) n0 D).
Proof.
  intros. rewrite (setBeam_usable b E W F D) by assumption.
  rewrite (setBeam_usable b E (column _ _ W)) by (auto using column_usable).
  rewrite !(column_full _ (column _ _ _)) by (apply length_column; assumption). reflexivity.
Qed.

Lemma usable_dec {A} n (v : list A) : usable n v \/ (1 < length v < n).
Proof. unfold usable. lia. Qed.

Lemma rmapM_seq_UB {B} (f : nat -> res B) n k :
  (forall i, i < n -> (exists b, f i = Ok b) \/ f i = UB) -> k < n -> f k = UB -> rmapM f (seq 0 n) = UB.
Proof.
  intros H Hk E. destruct (@rmapM_not_throw nat B f (seq 0 n)) as [[bs Hb]|Hb]; [|exfalso|assumption].
  - intros a Ha. apply in_seq in Ha. apply H. lia.
  - apply rmapM_inv in Hb.
    assert (In k (seq 0 n)) by (apply in_seq; lia).
    revert H0. induction Hb; cbn; [tauto|]. intros [->|Hin]; [congruence|auto].
Qed.

Lemma opt_arg_cases {A} (d : A) v i : (exists a, opt_arg d v i = Ok a) \/ opt_arg d v i = UB.
Proof.
  unfold opt_arg. destruct (Nat.ltb 1 (length v)).
  - unfold vget. destruct (nth_error v i); cbn; eauto.
  - destruct v; eauto.
Qed.

Lemma opt_arg_short {A} (d : A) v n : 1 < length v < n -> opt_arg d v (n - 1) = UB.
Proof.
  intros H. unfold opt_arg. destruct (Nat.ltb_spec 1 (length v)); [|lia]. apply vget_UB. lia.
Qed.

Lemma setBeam_short b E W F D :
  (1 < length W < length E \/ 1 < length F < length E \/ 1 < length D < length E) ->
  setBeam sortf b E W F D = UB.
Proof.
  intros H. unfold setBeam. destruct E as [|e0 E]; [cbn in H; lia|].
  set (EE := e0 :: E) in *. set (n := length EE) in *.
  rewrite (@rmapM_seq_UB _ _ n (n - 1)); [reflexivity| | lia |].
  - intros i Hi. rewrite (vget_nth EE n0) by assumption. cbn [rbind].
    destruct (opt_arg_cases n1 W i) as [[w ->]| ->]; cbn [rbind]; [|auto].
    destruct (opt_arg_cases 1%Z F i) as [[f ->]| ->]; cbn [rbind]; [|auto].
    destruct (opt_arg_cases n0 D i) as [[d ->]| ->]; cbn [rbind]; eauto.
  - rewrite (vget_nth EE n0) by (fold n; lia). cbn [rbind].
    destruct (opt_arg_cases n1 W (n-1)) as [[w Ew]|Ew]; rewrite Ew; cbn [rbind]; [|reflexivity].
    destruct (opt_arg_cases 1%Z F (n-1)) as [[f Ef]|Ef]; rewrite Ef; cbn [rbind]; [|reflexivity].
    destruct (opt_arg_cases n0 D (n-1)) as [[d Ed]|Ed]; rewrite Ed; cbn [rbind]; [|reflexivity].
    exfalso. destruct H as [H|[H|H]];
      [rewrite (opt_arg_short n1 W n H) in Ew|rewrite (opt_arg_short 1%Z F n H) in Ef|rewrite (opt_arg_short n0 D n H) in Ed]; discriminate.
Qed.

(** Pointer overload. *)
Definition ptr_col {A} (n : nat) (d : A) (p : option (list A)) : list A :=
  match p with None => repeat d n | Some v => firstn n v end.

Lemma map_const_seq {A} (d : A) n : map (fun _ => d) (seq 0 n) = repeat d n.
Proof. generalize 0. induction n as [|n IH]; intros k; cbn; f_equal; auto. Qed.

Definition peff {A} (d : A) (p : option (list A)) (i : nat) : A :=
  match p with None => d | Some v => nth i v d end.

Lemma setBeam_ptr_vec b E W F D :
  (forall w, W = Some w -> length w = length E) ->
  (forall f, F = Some f -> length f = length E) ->
  (forall d, D = Some d -> length d = length E) ->
  E <> [] ->
  setBeam_ptr sortf b (Z.of_nat (length E)) (Some E) W F D =
  match setBeam sortf b E (match W with Some w => w | None => [] end)
                 (match F with Some f => f | None => [] end) (match D with Some d => d | None => [] end) with
  | Ok b' => (b', Ok tt)
  | Throw e => (b, Throw e)
  | UB => (b, UB)
  | Diverge => (b, Diverge)
  end.
Proof.
  intros HW HF HD HE. unfold setBeam_ptr. destruct (Z.ltb_spec (Z.of_nat (length E)) 0); [lia|].
  rewrite Nat2Z.id. unfold setBeam. destruct E as [|e0 E]; [congruence|].
  set (EE := e0 :: E) in *. set (n := length EE) in *.
  assert (Hopt : forall A (d : A) (p : option (list A)) i, i < n -> (forall w, p = Some w -> length w = n) ->
            match p with None => Ok d | _ => pget p i end = opt_arg d (match p with Some w => w | None => [] end) i).
  { intros A d p i Hi Hp. destruct p as [w|]; [|reflexivity]. specialize (Hp w eq_refl). unfold pget, opt_arg.
    destruct w as [|x [|y w]]; cbn [length Nat.ltb Nat.leb]; [exfalso; rewrite <- Hp in Hi; cbn in Hi; lia| |reflexivity].
    rewrite <- Hp in Hi; cbn in Hi. assert (i = 0) by lia. subst i. reflexivity. }
  erewrite rmapM_ext; [reflexivity|].
  intros i Hi. cbv beta. apply in_seq in Hi. unfold pget at 1.
  rewrite <- (Hopt _ n1 W), <- (Hopt _ 1%Z F), <- (Hopt _ n0 D) by (assumption || lia). reflexivity.
Qed.
End Gen.

(** Statement-level lemmas at R *)
Section AtR.
Local Existing Instance RNum.

Definition unrow (r : @ray RNum) : row := (r_energy r, r_weight r, r_char r, r_div r).

Lemma nlit_R0 z : @nlit RNum z 0 = IZR z.
Proof. cbn. unfold Rlit. cbn. lra. Qed.

Lemma columns_ok b : getBeamAsDoubleVectors b = columns (map unrow (b_rays b)).
Proof.
  unfold getBeamAsDoubleVectors, columns. rewrite !map_map. unfold row_energy, row_weight, row_flag, row_div; cbn [unrow fst snd].
  rewrite (map_ext (fun r : @ray RNum => @nlit RNum (r_char r) 0) (fun r => IZR (r_char r)) (fun r => nlit_R0 (r_char r))). reflexivity.
Qed.

Lemma map_unrow_mk4 (l : list row) : map unrow (map mk4 l) = l.
Proof. rewrite map_map. rewrite <- (map_id l) at 2. apply map_ext. intros [[[e w] f] d]. reflexivity. Qed.

Lemma table_weights E W F D n : length E = n -> length W = n -> length F = n -> length D = n ->
  map row_weight (table E W F D) = W.
Proof.
  unfold table. revert W F D n. induction E as [|e E IH]; intros [|w W] [|f F] [|d D] n H1 H2 H3 H4; cbn in *; subst; try discriminate; try reflexivity.
  f_equal. apply (IH W F D (length E)); congruence.
Qed.

Lemma table_map_weight (c : R -> R) E W F D :
  map (fun r => (row_energy r, c (row_weight r), row_flag r, row_div r)) (table E W F D) = table E (map c W) F D.
Proof.
  unfold table. revert W F D. induction E as [|e E IH]; intros [|w W] [|f F] [|d D]; cbn; try reflexivity.
  f_equal. apply IH.
Qed.

Lemma normalize_correct sortf E W F D n : std_sort_contract ray_ltb sortf ->
  length E = n -> length W = n -> length F = n -> length D = n ->
  exists b' rows,
    normalizeBeam sortf (map mk4 (table E W F D)) = Ok b' /\
    getBeamAsDoubleVectors b' = columns rows /\
    StronglySorted Rle (map row_energy rows) /\
    Permutation rows (table E (if Rlt_dec 0 (Rsum W) then map (fun w => w / Rsum W)%R W else W) F D) /\
    (0 < Rsum W -> Rsum (map row_weight rows) = 1)%R.
Proof.
  intros Hc H1 H2 H3 H4. unfold normalizeBeam.
  assert (EW : nsum (map r_weight (map mk4 (table E W F D))) = Rsum W).
  { rewrite map_map. rewrite nsum_R. f_equal. exact (table_weights E W F D n H1 H2 H3 H4). }
  rewrite EW.
  set (T := Rsum W). rewrite sortable_R. cbn [nltb RNum n0].
  set (rays' := if Rltb 0 T then _ else _).
  destruct (Hc rays' (swo_R rays')) as [Hp Hs].
  exists (mkBeam (sortf rays') true), (map unrow (sortf rays')).
  assert (Erows : map unrow rays' = table E (if Rlt_dec 0 T then map (fun w => w / T)%R W else W) F D).
  { unfold rays', Rltb. destruct (Rlt_dec 0 T).
    - rewrite <- (table_map_weight (fun w => w / T)%R). rewrite !map_map. reflexivity.
    - apply map_unrow_mk4. }
  assert (Hp' : Permutation (map unrow (sortf rays')) (table E (if Rlt_dec 0 T then map (fun w => w / T)%R W else W) F D)).
  { rewrite <- Erows. symmetry. apply Permutation_map, Hp. }
  split; [reflexivity|]. split; [apply columns_ok|]. split; [|split].
  - rewrite map_map. cbn. eapply StronglySorted_map; [|exact Hs]. intros a b _ _. unfold ray_ltb. cbn.
    rewrite Rltb_false. lra.
  - exact Hp'.
  - intros HT. rewrite (Rsum_perm (Permutation_map row_weight Hp')).
    destruct (Rlt_dec 0 T); [|contradiction].
    rewrite table_weights with (n := n); [|rewrite ?map_length; assumption..].
    rewrite Rsum_div. fold T. field. lra.
Qed.
End AtR.

(** Insertion sort satisfies the contract of std::sort at R: the hypothesis is satisfiable. *)
Section ISort.
Context {A : Type} (lt : A -> A -> bool).
Fixpoint ins (a : A) (l : list A) : list A :=
  match l with [] => [a] | b :: r => if lt a b then a :: l else b :: ins a r end.
Definition isort (l : list A) : list A := fold_right ins [] l.

Lemma ins_perm a l : Permutation (a :: l) (ins a l).
Proof. induction l as [|b l IH]; cbn; [reflexivity|]. destruct (lt a b); [reflexivity|]. rewrite perm_swap. constructor. exact IH. Qed.
Lemma isort_perm l : Permutation l (isort l).
Proof. induction l as [|a l IH]; cbn; [reflexivity|]. rewrite <- ins_perm. constructor. exact IH. Qed.

Lemma ins_sorted a l : strict_weak_order lt (a :: l) ->
  StronglySorted (fun a b => lt b a = false) l -> StronglySorted (fun a b => lt b a = false) (ins a l).
Proof.
  induction l as [|b l IH]; intros Hw Hs; cbn; [repeat constructor|].
  destruct Hw as (Hi & Ht & He). inversion Hs; subst.
  destruct (lt a b) eqn:E.
  - constructor; [assumption|]. constructor.
    + destruct (lt b a) eqn:E2; [|reflexivity].
      assert (lt a a = true) by (apply (Ht a b a); cbn; auto). rewrite Hi in H; [discriminate|cbn; auto].
    + rewrite Forall_forall in H2 |- *. intros c Hc. specialize (H2 c Hc).
      destruct (lt c a) eqn:E2; [|reflexivity].
      assert (lt c b = true) by (apply (Ht c a b); cbn; auto). congruence.
  - constructor.
    + apply IH; [|assumption]. repeat split; intros.
      * apply Hi; cbn in *; tauto.
      * eapply (Ht a0 b0 c); cbn in *; tauto.
      * eapply (He a0 b0 c); cbn in *; tauto.
      * eapply (He a0 b0 c); cbn in *; tauto.
    + rewrite Forall_forall in H2 |- *. intros c Hc.
      apply (Permutation_in c (Permutation_sym (ins_perm a l))) in Hc. destruct Hc as [<-|Hc]; auto.
Qed.

Lemma isort_contract : std_sort_contract lt isort.
Proof.
  intros l Hw. split; [apply isort_perm|].
  induction l as [|a l IH]; cbn; [constructor|]. apply ins_sorted.
  - destruct Hw as (Hi & Ht & He).
    assert (Hin : forall x, In x (a :: isort l) -> In x (a :: l)).
    { intros x [->|Hx]; [left; reflexivity|right]. eapply Permutation_in; [symmetry; apply isort_perm|exact Hx]. }
    repeat split; intros; eauto.
    + eapply (He a0 b c); eauto.
    + eapply (He a0 b c); eauto.
  - apply IH. destruct Hw as (Hi & Ht & He). repeat split; intros.
    + apply Hi; cbn; auto.
    + eapply (Ht a0 b c); cbn; auto.
    + eapply (He a0 b c); cbn; auto.
    + eapply (He a0 b c); cbn; auto.
Qed.
End ISort.
