(** Binding energies and vector queries of EPDL97. *)
From Coq Require Import Ascii String List ZArith Bool Arith Lia Sorted.
From Verif Require Import Base.Num Base.Res Base.SMap Base.Str Base.Text Base.ListLemmas Model.Specfile Model.EPDL97
  Spec.MaterialSpec Spec.FilesSpec Proofs.ElementProofs4.
Import ListNotations.
Set Implicit Arguments.
Local Open Scope string_scope.

Lemma substr_all (s : string) n : (String.length s <= n)%nat -> substring 0 n s = s.
Proof. revert n. induction s as [|a s IH]; intros [|n] H; cbn in *; try reflexivity; try lia. rewrite IH by lia. reflexivity. Qed.
Lemma bindingKey_iff label k : bindingKey label = k <-> as_shell label k.
Proof.
  unfold bindingKey, substr, as_shell. destruct label as [|a s].
  - cbn. split.
    + intros <-. exists "". split; [reflexivity|]. right. split; [intros r; discriminate|]. right. split; [intros; discriminate|]. right. cbn. split; [reflexivity|lia].
    + intros (rest & E & _). destruct k; [reflexivity|discriminate].
  - change (substring 0 1 (String a s)) with (String a (substring 0 0 s)). assert (S0 : substring 0 0 s = "") by (destruct s; reflexivity). rewrite S0.
    destruct (String.eqb_spec (String a "") "K") as [AK|AK].
    + injection AK as ->. split; [intros <-; exists s; split; [reflexivity|left; reflexivity]|]. intros (rest & E & [->|[NK _]]); [reflexivity|]. exfalso. apply (NK s). reflexivity.
    + assert (NK : forall r, String a s <> "K" ++ r) by (intros r E; apply AK; cbn in E; congruence).
      assert (KK : forall rest, String a s = "K" ++ rest -> False) by (intros r E; exact (NK r E)).
      destruct s as [|b [|c s]].
      * cbn. split; [intros <-; exists ""; split; [reflexivity|]; right; split; [exact NK|]; right; split; [intros; discriminate|]; right; cbn; split; [reflexivity|lia]|].
        intros (rest & E & [->|[_ [[L [r ->]]|[_ L]]]]); [destruct (KK _ E)|destruct k as [|x [|y k]]; cbn in E, L; try discriminate|]. destruct L as [L|[-> _]]; [destruct k as [|x [|y k]]; cbn in E, L; try discriminate|]. rewrite E. clear. induction k; cbn; congruence.
      * cbn. split; [intros <-; exists ""; split; [reflexivity|]; right; split; [exact NK|]; right; split; [intros; discriminate|]; left; reflexivity|].
        intros (rest & E & [->|[_ [[L [r ->]]|[_ L]]]]); [destruct (KK _ E)|destruct k as [|x [|y [|w k]]]; cbn in E, L; try discriminate|]. destruct L as [L|[-> L]]; [|destruct k as [|x [|y k]]; cbn in E, L; try discriminate; lia]. destruct k as [|x [|y [|w k]]]; cbn in E, L; try discriminate. congruence.
      * change (Nat.ltb (String.length (String a (String b (String c s)))) 3) with false. cbv iota.
        assert (S3 : substring 3 1 (String a (String b (String c s))) = substring 0 1 s) by reflexivity. rewrite S3.
        assert (P : (exists r, s = "(" ++ r) <-> substring 0 1 s = "(").
        { destruct s as [|d s]; cbn; [split; [intros [r R]; discriminate|discriminate]|]. assert (S1 : substring 0 0 s = "") by (destruct s; reflexivity). rewrite S1.
          split; [intros [r R]; injection R as -> _; reflexivity|intros R; injection R as ->; exists s; reflexivity]. }
        destruct (String.eqb_spec (substring 0 1 s) "(") as [B|B].
        -- cbn. apply P in B. assert (S2 : substring 0 0 s = "") by (destruct s; reflexivity). rewrite S2. split.
           ++ intros <-. exists s. split; [reflexivity|]. right. split; [exact NK|]. left. split; [reflexivity|exact B].
           ++ intros (rest & E & [->|[_ [[L _]|[NB _]]]]); [destruct (KK _ E)| |destruct B as [r ->]; exfalso; exact (NB a b c r eq_refl)].
              destruct k as [|x [|y [|w [|v k]]]]; cbn in E, L; try discriminate. congruence.
        -- cbn. split.
           ++ intros <-. exists (String c s). split; [reflexivity|]. right. split; [exact NK|]. right. split; [|left; reflexivity]. intros x y w r E. apply B, P. exists r. cbn; congruence.
           ++ intros (rest & E & [->|[_ [[L [r ->]]|[_ L]]]]); [destruct (KK _ E)| |].
              ** exfalso. destruct k as [|x [|y [|w [|v k]]]]; cbn in E, L; try discriminate. apply B, P. exists r. cbn; congruence.
              ** destruct L as [L|[-> L]]; destruct k as [|x [|y [|w k]]]; cbn in E, L; try discriminate; try lia. congruence.
Qed.

Section EPDL.
Context {N : Num}.
Variable strtod : text -> num.
Local Notation table := (list (string * num)).

(** *** One row of binding energies *)
Lemma row_range (labels : list string) (row : list num) : forall n a old t,
  rfold (fun m n => (let? l := vget labels n in let? v := vget row n in Ok (mset sltb (bindingKey l) v m))%res) (seq a n) old = Ok t ->
  forall k v, mfind sltb k t = Some v <->
    (exists j l, (a <= j < a + n)%nat /\ nth_error labels j = Some l /\ bindingKey l = k /\ nth_error row j = Some v /\
       forall j' l', (j < j' < a + n)%nat -> nth_error labels j' = Some l' -> bindingKey l' <> k) \/
    (forall j l, (a <= j < a + n)%nat -> nth_error labels j = Some l -> bindingKey l <> k) /\ mfind sltb k old = Some v.
Proof.
  induction n as [|n IH]; intros a old t H k v; cbn [seq rfold] in H.
  - injection H as <-. split; [intros F; right; split; [intros; lia|exact F]|]. intros [(j & l & J & _)|[_ F]]; [lia|exact F].
  - unfold vget in H. destruct (nth_error labels a) as [l|] eqn:L; cbn [of_opt rbind] in H; [|discriminate]. destruct (nth_error row a) as [w|] eqn:W; cbn [of_opt rbind] in H; [|discriminate].
    rewrite (IH (S a) _ t H k v). split.
    + intros [(j & l' & J & A & B & C & D)|[A F]].
      * left. exists j, l'. split; [lia|]. split; [exact A|]. split; [exact B|]. split; [exact C|]. intros j' l'' J'. apply D. lia.
      * destruct (string_dec (bindingKey l) k) as [E|E].
        -- rewrite E, smfind_mset_same in F. injection F as <-. left. exists a, l. split; [lia|]. split; [exact L|]. split; [exact E|]. split; [exact W|]. intros j' l' J'. apply A. lia.
        -- rewrite sfind_other in F by exact E. right. split; [|exact F]. intros j l' J G. destruct (Nat.eq_dec j a) as [->|]; [rewrite L in G; injection G as <-; exact E|apply (A j l'); [lia|exact G]].
    + intros [(j & l' & J & A & B & C & D)|[A F]].
      * destruct (Nat.eq_dec j a) as [->|NJ].
        -- right. rewrite L in A. injection A as <-. rewrite W in C. injection C as <-. split; [intros j l' J'; apply D; lia|]. rewrite B. apply smfind_mset_same.
        -- left. exists j, l'. split; [lia|]. split; [exact A|]. split; [exact B|]. split; [exact C|]. intros j' l'' J'. apply D. lia.
      * right. split; [intros j l' J; apply A; lia|]. rewrite sfind_other; [exact F|]. apply (A a l); [lia|exact L].
Qed.
Lemma nth_tl {A} (l : list A) j : nth_error (tl l) j = nth_error l (S j).
Proof. destruct l; cbn; [destruct j; reflexivity|reflexivity]. Qed.
Lemma bindingRow_spec labels row old t : bindingRow labels old row = Ok t -> forall k v, mfind sltb k t = Some v <->
  says as_shell (tl labels) (tl row) k v \/ (forall w, ~ says as_shell (tl labels) (tl row) k w) /\ mfind sltb k old = Some v.
Proof.
  intros H k v. unfold bindingRow in H. assert (CE : forall n a old t,
    rfold (fun m n => (let? l := vget labels n in let? v := vget row n in Ok (mset sltb (bindingKey l) v m))%res) (seq a n) old = Ok t -> forall j, (a <= j < a + n)%nat -> nth_error row j <> None).
  { clear. induction n as [|n IH]; intros a old t H j J; cbn [seq rfold] in H; [lia|]. unfold vget in H. destruct (nth_error labels a) as [l|]; cbn [of_opt rbind] in H; [|discriminate].
    destruct (nth_error row a) as [w|] eqn:W; cbn [of_opt rbind] in H; [|discriminate]. destruct (Nat.eq_dec j a) as [->|]; [congruence|apply (IH _ _ _ H); lia]. }
  specialize (CE _ _ _ _ H). rewrite (row_range _ _ _ _ _ H k v).
  assert (Q : forall w, says as_shell (tl labels) (tl row) k w <-> exists j l, (1 <= j < 1 + (length labels - 1))%nat /\ nth_error labels j = Some l /\ bindingKey l = k /\ nth_error row j = Some w /\
       forall j' l', (j < j' < 1 + (length labels - 1))%nat -> nth_error labels j' = Some l' -> bindingKey l' <> k).
  { intros w. unfold says. split.
    - intros (j & l & A & B & C & D). rewrite nth_tl in A. rewrite nth_tl in C. exists (S j), l. assert (SL : (S j < length labels)%nat) by (apply nth_error_Some; congruence).
      split; [lia|]. split; [exact A|]. split; [apply bindingKey_iff, B|]. split; [exact C|]. intros j' l' J' G E. destruct j' as [|j']; [lia|]. apply (D j' l'); [lia|rewrite nth_tl; exact G|apply bindingKey_iff, E].
    - intros (j & l & J & A & B & C & D). destruct j as [|j]; [lia|]. exists j, l. rewrite !nth_tl. split; [exact A|]. split; [apply bindingKey_iff, B|]. split; [exact C|].
      intros j' l' J' G E. rewrite nth_tl in G. apply (D (S j') l'); [|exact G|apply bindingKey_iff, E]. assert (SL : (S j' < length labels)%nat) by (apply nth_error_Some; congruence). lia. }
  rewrite <- Q. split; (intros [A|[A F]]; [left; exact A|right; split; [|exact F]]).
  - intros w S. apply Q in S. destruct S as (j & l & J & B & C & _). exact (A j l J B C).
  - intros j l J B C.
    assert (E : forall n, exists j l, (j + n = length labels)%nat -> True) by (intros n; exists 0%nat, l; auto). clear E.
    (* the last such column *)
    assert (M : forall n j l, (length labels - j <= n)%nat -> (1 <= j)%nat -> nth_error labels j = Some l -> bindingKey l = k -> exists w, says as_shell (tl labels) (tl row) k w).
    { clear j l J B C. induction n as [|n IH]; intros j l LN J B C; [assert ((j < length labels)%nat) by (apply nth_error_Some; congruence); lia|].
      destruct (Exists_dec (fun j' => exists l', nth_error labels j' = Some l' /\ bindingKey l' = k) (seq (S j) (length labels - S j))) as [X|X].
      { intros j'. destruct (nth_error labels j') as [l'|]; [|right; intros (l' & D & _); discriminate]. destruct (string_dec (bindingKey l') k) as [D|D]; [left; exists l'; tauto|right; intros (l'' & D1 & D2); congruence]. }
      - apply Exists_exists in X. destruct X as (j' & J' & l' & B' & C'). apply in_seq in J'. apply (IH j' l'); [lia|lia|exact B'|exact C'].
      - assert (JL : (j < length labels)%nat) by (apply nth_error_Some; congruence). destruct (nth_error row j) as [w|] eqn:W; [|exfalso; apply (CE j); [lia|exact W]]. exists w. apply Q. exists j, l.
        split; [lia|]. split; [exact B|]. split; [exact C|]. split; [exact W|]. intros j' l' J' B' C'. apply X. apply Exists_exists. exists j'. split; [apply in_seq; lia|]. exists l'. tauto. }
    destruct (M (length labels) j l) as [w S]; [lia|lia|exact B|exact C|]. exact (A w S).
Qed.

(** *** Loading *)
Lemma nth_resize {A} (d : A) n l i : (i < n)%nat -> nth_error (resize d n l) i = Some (match nth_error l i with Some x => x | None => d end).
Proof.
  intros H. unfold resize. destruct (Nat.lt_ge_cases i (length l)) as [L|L].
  - rewrite nth_error_app1 by (rewrite firstn_length; lia). destruct (nth_error l i) eqn:E; [|apply nth_error_None in E; lia].
    rewrite <- (firstn_skipn n l) in E. rewrite nth_error_app1 in E by (rewrite firstn_length; lia). exact E.
  - rewrite nth_error_app2 by (rewrite firstn_length; lia). rewrite firstn_length. replace (nth_error l i) with (@None A) by (symmetry; apply nth_error_None; exact L).
    assert (G : forall m j, (j < m)%nat -> nth_error (repeat d m) j = Some d) by (induction m as [|m IH]; intros [|j] J; cbn; try lia; [reflexivity|apply IH; lia]). apply G. lia.
Qed.
Lemma rmapM_get {A B} (f : A -> res B) : forall l v, rmapM f l = Ok v -> length v = length l /\ forall n a, nth_error l n = Some a -> exists b, nth_error v n = Some b /\ f a = Ok b.
Proof.
  induction l as [|a l IH]; intros v H; cbn [rmapM] in H; [injection H as <-; split; [reflexivity|]; intros [|n] b Hn; discriminate|].
  destruct (f a) as [b| | |] eqn:E; cbn [rbind] in H; try discriminate. destruct (rmapM f l) as [bs| | |] eqn:E2; cbn [rbind] in H; try discriminate.
  injection H as <-. destruct (IH bs eq_refl) as [L F]. split; [cbn; now rewrite L|]. intros [|n] c Hn; cbn in Hn; [injection Hn as <-; exists b; split; [reflexivity|exact E]|apply F, Hn].
Qed.
Lemma load_spec ep c ep' : loadBindingEnergies strtod ep c = (ep', Ok tt) -> exists labels rows,
  getNumberOfScans (setFileName c) = 1%nat /\ scan_is strtod c 0 labels rows /\ length (ep_binding ep') = length rows /\ rows <> [] /\
  ep_init ep' = true /\ ep_labels ep' = ep_labels ep /\ ep_index ep' = ep_index ep /\ ep_values ep' = ep_values ep /\ ep_energy ep' = ep_energy ep /\
  forall i row, nth_error rows i = Some row -> exists b, nth_error (ep_binding ep') i = Some b /\ forall k v, mfind sltb k b = Some v <->
    says as_shell (tl labels) (tl row) k v \/ (forall w, ~ says as_shell (tl labels) (tl row) k w) /\ exists old, nth_error (ep_binding ep) i = Some old /\ mfind sltb k old = Some v.
Proof.
  unfold loadBindingEnergies, scan_is. cbv zeta. generalize (setFileName c). intros sf. destruct (Nat.eqb_spec (getNumberOfScans sf) 1) as [N1|]; cbn [negb]; [|discriminate].
  destruct (getScanLabels sf 0) as [labels| | |]; try discriminate. destruct (getScanData strtod sf 0) as [rows| | |]; try discriminate.
  destruct rows as [|r0 rs] eqn:RR; [discriminate|]. rewrite <- RR. assert (NE : rows <> []) by (rewrite RR; discriminate). clear RR. destruct (negb _); [discriminate|].
  destruct (rmapM _ _) as [b| | |] eqn:E; try discriminate. intros H. injection H as <-. exists labels, rows. destruct (rmapM_get _ _ E) as [L F].
  assert (LR : length (resize (@nil (string * num)) (length rows) (ep_binding ep)) = length rows) by (unfold resize; rewrite app_length, firstn_length, repeat_length; lia).
  rewrite combine_length, LR, Nat.min_id in L.
  split; [exact N1|]. split; [split; reflexivity|]. split; [exact L|]. split; [exact NE|]. repeat (split; [reflexivity|]).
  intros i row R. assert (IL : (i < length rows)%nat) by (apply nth_error_Some; congruence).
  set (old := match nth_error (ep_binding ep) i with Some x => x | None => [] end).
  assert (O : nth_error (combine (resize [] (length rows) (ep_binding ep)) rows) i = Some (old, row)).
  { assert (X : forall {A B} (l : list A) (m : list B) i a b, nth_error l i = Some a -> nth_error m i = Some b -> nth_error (combine l m) i = Some (a, b)).
    { clear. induction l as [|x l IH]; intros [|y m] [|i] a b A1 B1; cbn in *; try discriminate; [congruence|apply IH; assumption]. }
    apply X; [apply nth_resize; exact IL|exact R]. }
  destruct (F i _ O) as (t & T & BR). exists t. split; [exact T|]. cbn [fst snd] in BR. intros k v. rewrite (bindingRow_spec _ _ _ BR k v).
  assert (Q : mfind sltb k old = Some v <-> exists o, nth_error (ep_binding ep) i = Some o /\ mfind sltb k o = Some v).
  { unfold old. destruct (nth_error (ep_binding ep) i) as [o|]; [split; [intros Q; exists o; tauto|intros (o' & Q1 & Q2); congruence]|split; [discriminate|intros (o & Q & _); discriminate]]. }
  rewrite Q. reflexivity.
Qed.

(** *** Vectors *)
Lemma queries_spec query : forall es last l ts, queries query last es = (l, Ok ts) <-> successive query last es ts l.
Proof.
  induction es as [|e es IH]; intros last l ts; cbn [queries].
  - split; [intros H; injection H as <- <-; constructor|intros H; inversion H; reflexivity].
  - destruct (query last e) as [last' r] eqn:Q. split.
    + destruct r as [t| | |]; try discriminate. destruct (queries query last' es) as [l2 [ts2| | |]] eqn:E; try discriminate. intros H. injection H as <- <-.
      apply IH in E. econstructor; [exact Q|exact E].
    + intros H. inversion H as [|? ? ? la t ts' ? Q1 S1]; subst. rewrite Q in Q1. injection Q1 as <- ->. apply IH in S1. rewrite S1. reflexivity.
Qed.
Lemma mfind_map_key {B} (f : string -> B) k : forall (t : table), mfind sltb k (map (fun kv => (fst kv, f (fst kv))) t) = option_map (fun _ => f k) (mfind sltb k t).
Proof.
  induction t as [|[a v] t IH]; cbn [map mfind fst]; [reflexivity|]. destruct (sltb a k) eqn:A; [exact IH|]. destruct (sltb k a) eqn:B1; [reflexivity|].
  rewrite (@st_total _ _ sltb_total a k A B1). reflexivity.
Qed.
Lemma columns_spec ts r : columns ts = Ok r -> match ts with [] => r = [] | t0 :: _ =>
  forall k col, mfind sltb k r = Some col <-> (exists v, mfind sltb k t0 = Some v) /\ col = map (fun t => at0 t k) ts end.
Proof.
  destruct ts as [|t0 ts']; cbn [columns]; [intros H; injection H as <-; reflexivity|]. destruct (forallb _ _); [|discriminate]. intros H. apply (f_equal (fun x => match x with Ok r => r | _ => [] end)) in H. cbv iota beta in H. subst r. intros k col.
  rewrite (@mfind_map_key _ (fun k => map (fun t => at0 t k) (t0 :: ts')) k t0). destruct (mfind sltb k t0) as [v|]; cbn [option_map].
  - split; [intros H; injection H as <-; split; [exists v; reflexivity|reflexivity]|intros [_ ->]; reflexivity].
  - split; [discriminate|intros [[v V] _]; discriminate].
Qed.
End EPDL.
