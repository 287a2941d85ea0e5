(** Extraction of the absorption edges. *)
From Coq Require Import Ascii String List ZArith Reals Bool Arith Lia Lra Sorted.
From Verif Require Import Base.Num Base.Res Base.SMap Base.Str Base.Text Model.Shell Model.Element Model.Elements
  Spec.ShellSpec Spec.MaterialSpec Spec.ElementSpec Spec.MergeSpec Spec.EdgeSpec Proofs.MathProofs Proofs.ElementProofs Proofs.ElementProofs2 Proofs.ElementProofs3 Proofs.ElementProofs4 Proofs.InitProofs Proofs.MergeProofs.
Import ListNotations.
Set Implicit Arguments.
Local Open Scope string_scope.
Local Open Scope R_scope.
Local Existing Instance RNum.

Lemma jump_tl a p energy photo x i : jump (a :: energy) (p :: photo) x (S i) <-> jump energy photo x i.
Proof. unfold jump. cbn. tauto. Qed.
Lemma jump_nil photo x i : ~ jump [] photo x i.
Proof. intros (A & _). destruct i; discriminate. Qed.
Lemma jump_one a photo x i : ~ jump [a] photo x i.
Proof. intros (_ & A & _). destruct i; discriminate. Qed.
Lemma jump_nil' energy x i : ~ jump energy [] x i.
Proof. intros (_ & _ & p & q & A & _). destruct i; discriminate. Qed.
Lemma jump_one' energy p x i : ~ jump energy [p] x i.
Proof. intros (_ & _ & q & r & _ & A & _). destruct i; discriminate. Qed.

Lemma candidates_spec : forall (es ps : list R) i m, msorted Rltb m ->
  let r := edgeCandidates i es ps m in msorted Rltb r /\
  forall x, (exists n, last_jump es ps x n /\ mfind Rltb x r = Some (i + Z.of_nat n)%Z) \/ ((forall n, ~ jump es ps x n) /\ mfind Rltb x r = mfind Rltb x m).
Proof.
  induction es as [|e0 es IH]; intros ps i m SM; cbv zeta. { cbn. split; [exact SM|]. intros x. right. split; [intros n; apply jump_nil|reflexivity]. }
  destruct es as [|e1 es]. { cbn. split; [exact SM|]. intros x. right. split; [intros n; apply jump_one|reflexivity]. }
  destruct ps as [|p0 [|p1 ps]]. { cbn. split; [exact SM|]. intros x. right. split; [intros n; apply jump_nil'|reflexivity]. }
  { cbn. split; [exact SM|]. intros x. right. split; [intros n; apply jump_one'|reflexivity]. }
  change (edgeCandidates i (e0 :: e1 :: es) (p0 :: p1 :: ps) m) with (edgeCandidates (i + 1)%Z (e1 :: es) (p1 :: ps) (if Reqb e0 e1 && Rltb p0 p1 then mset Rltb e0 i m else m)).
  set (m' := if Reqb e0 e1 && Rltb p0 p1 then mset Rltb e0 i m else m).
  assert (SM' : msorted Rltb m') by (unfold m'; destruct (Reqb e0 e1 && Rltb p0 p1); [apply (@mset_sorted _ _ _ Rltb_total), SM|exact SM]).
  destruct (IH (p1 :: ps) (i + 1)%Z m' SM') as [SR Q]. split; [exact SR|]. intros x. destruct (Q x) as [(n & [J L] & F)|[NJ F]].
  - left. exists (S n). split; [|refine (eq_trans F _); f_equal; lia]. split; [apply jump_tl, J|]. intros [|i'] J'; [lia|]. apply (proj1 (jump_tl _ _ _ _ _ _)) in J'. specialize (L _ J'). lia.
  - destruct (Reqb_spec e0 e1) as [E|E].
    + destruct (Rltb_spec p0 p1) as [P|P].
      * cbn [andb] in m'. destruct (Req_EM_T x e0) as [X|X].
        -- left. exists 0%nat. split; [|refine (eq_trans F _); unfold m'; rewrite X, (@mfind_mset_same _ _ _ Rltb_total); f_equal; lia].
           split; [subst; repeat split; exists p0, p1; auto|]. intros [|i'] J'; [lia|]. apply (proj1 (jump_tl _ _ _ _ _ _)) in J'. destruct (NJ _ J').
        -- right. split; [|refine (eq_trans F _); unfold m'; apply (@mfind_mset_other _ _ _ Rltb_total); [first [exact X|intros Y; apply X; symmetry; exact Y]|exact SM]].
           intros [|n] J; [|apply (proj1 (jump_tl _ _ _ _ _ _)) in J; exact (NJ _ J)]. destruct J as (J & _). cbn in J. congruence.
      * cbn [andb] in m'. right. split; [|exact F]. intros [|n] J; [|apply (proj1 (jump_tl _ _ _ _ _ _)) in J; exact (NJ _ J)]. destruct J as (_ & _ & p & q & A & B & C). cbn in A, B. injection A as <-. injection B as <-. contradiction.
    + cbn [andb] in m'. right. split; [|exact F]. intros [|n] J; [|apply (proj1 (jump_tl _ _ _ _ _ _)) in J; exact (NJ _ J)]. destruct J as (A & B & _). cbn in A, B. congruence.
Qed.

(** the pairing of candidates and shells *)
Definition within (be x : R) : bool := Rltb 0 be && Rltb (if Rltb (x - be) 0 then - (x - be) else x - be) (1 / 10).
Lemma within_spec be x : within be x = true <-> 0 < be /\ Rabs (x - be) < 1 / 10.
Proof.
  unfold within. rewrite andb_true_iff, !Rltb_true. unfold Rabs. destruct (Rltb_spec (x - be) 0); destruct (Rcase_abs (x - be)); split; intros [A B]; split; lra.
Qed.
Lemma edgeLoop_step en i cands k keys b out : edgeLoop ((en, i) :: cands) (k :: keys) b out =
  edgeLoop cands keys (mtouch b k) (if within (val0 b k) en then mset sltb k (en, i) out else out).
Proof.
  cbn [edgeLoop]. rewrite mtouch_val0. f_equal. unfold within, nabs'. assert (L : @nlit RNum 1 (-1) = 1 / 10) by (unfold nlit, RNum, Rlit; simpl; lra). rewrite L. reflexivity.
Qed.
Lemma edgeLoop_spec : forall (cands : list (R * Z)) keys b out, NoDup keys -> msorted sltb out ->
  let r := snd (edgeLoop cands keys b out) in msorted sltb r /\
  forall s, (exists n en i, nth_error keys n = Some s /\ nth_error cands n = Some (en, i) /\ within (val0 b s) en = true /\ mfind sltb s r = Some (en, i)) \/
    ((forall n en i, nth_error keys n = Some s -> nth_error cands n = Some (en, i) -> within (val0 b s) en = false) /\ mfind sltb s r = mfind sltb s out).
Proof.
  induction cands as [|[en i] cands IH]; intros keys b out ND SO; cbv zeta. { cbn. split; [exact SO|]. intros s. right. split; [intros [|n]; discriminate|reflexivity]. }
  destruct keys as [|k keys]. { cbn. split; [exact SO|]. intros s. right. split; [intros [|n]; discriminate|reflexivity]. }
  rewrite edgeLoop_step. inversion ND as [|? ? NI ND']; subst. set (out' := if within (val0 b k) en then _ else out).
  assert (SO' : msorted sltb out') by (unfold out'; destruct (within _ _); [apply (@mset_sorted _ _ _ sltb_total), SO|exact SO]).
  destruct (IH keys (mtouch b k) out' ND' SO') as [SR Q]. split; [exact SR|]. intros s. destruct (Q s) as [(n & en' & i' & A & B & C & F)|[A F]].
  - left. exists (S n), en', i'. rewrite mtouch_val0 in C. auto.
  - destruct (string_dec s k) as [->|D].
    + destruct (within (val0 b k) en) eqn:W.
      * left. exists 0%nat, en, i. repeat split; try assumption. rewrite F. unfold out'. apply (@mfind_mset_same _ _ _ sltb_total).
      * right. split; [|exact F]. intros [|n] en' i' X Y; [cbn in X, Y; congruence|]. cbn in X. apply nth_error_In in X. contradiction.
    + right. split; [|rewrite F; unfold out'; destruct (within (val0 b k) en); [apply (@mfind_mset_other _ _ _ sltb_total); [intros Y; apply D; symmetry; exact Y|assumption]|reflexivity]].
      intros [|n] en' i' X Y; [cbn in X; congruence|]. rewrite <- (mtouch_val0 b k). exact (A n en' i' X Y).
Qed.

(** the place of a candidate among them *)
Lemma klt_R a b : klt Rltb a b <-> a < b.
Proof. unfold klt. apply Rltb_true. Qed.
Lemma sorted_place (m : list (R * Z)) n x i : msorted Rltb m -> nth_error (rev m) n = Some (x, i) ->
  let l := map fst (firstn n (rev m)) in NoDup l /\ length l = n /\ forall y, In y l <-> x < y /\ In y (map fst m).
Proof.
  intros SM H. cbv zeta. assert (LN : (n < length (rev m))%nat) by (apply nth_error_Some; congruence).
  destruct (nth_error_split _ _ H) as (a & c & EQ & LA).
  assert (FA : firstn n (rev m) = a) by (rewrite EQ, <- LA, firstn_app, Nat.sub_diag, firstn_all, app_nil_r; reflexivity).
  assert (M : m = (rev c ++ (x, i) :: rev a)%list). { rewrite <- (rev_involutive m), EQ, rev_app_distr. cbn [rev]. rewrite <- app_assoc. reflexivity. }
  rewrite FA. assert (ND : NoDup (map fst m)) by (apply (@msorted_NoDup _ _ _ Rltb_total), SM). split; [|split; [rewrite map_length; exact LA|]].
  - assert (NR : NoDup (map fst (rev m))) by (rewrite map_rev; apply NoDup_rev, ND). rewrite EQ, map_app in NR. clear -NR. revert NR. generalize (map fst ((x, i) :: c)). induction (map fst a) as [|z l IH]; intros l2 NR; [constructor|]. inversion NR; subst. constructor; [intros Z; apply H1; apply in_or_app; left; exact Z|exact (IH _ H2)].
  - assert (SP : forall p q : list (R * Z), msorted Rltb (p ++ (x, i) :: q) -> Forall (fun z => z < x) (map fst p) /\ Forall (fun z => x < z) (map fst q)).
    { clear. induction p as [|[z w] p IH]; intros q S.
      - split; [constructor|]. apply msorted_cons_inv in S as [_ S]. revert S. apply Forall_impl. intros z Z. apply klt_R, Z.
      - apply msorted_cons_inv in S as [S1 S2]. destruct (IH q S1) as [A B]. split; [|exact B]. constructor; [|exact A]. cbn.
        unfold mkeys in S2. rewrite map_app in S2. apply Forall_app in S2 as [_ S2]. inversion S2; subst. apply klt_R. assumption. }
    rewrite M in SM. destruct (SP _ _ SM) as [LO HI]. rewrite Forall_forall in LO, HI. intros y. rewrite M, map_app. cbn [map fst]. rewrite in_app_iff. cbn. rewrite !map_rev, <- !in_rev. rewrite map_rev in LO, HI.
    split.
    + intros Y. split; [apply HI; rewrite <- in_rev; exact Y|tauto].
    + intros [X [Y|[Y|Y]]]; [|lra|exact Y]. assert (y < x) by (apply LO; rewrite <- in_rev; exact Y). lra.
Qed.

Lemma extract_run {N : Num} (e : @element N) energy photo : energy <> [] -> length photo = length energy -> el_binding e <> [] ->
  extractEdges_from e energy photo = let L := edgeLoop (rev (edgeCandidates 0 energy photo [])) shellKeys (el_binding e) [] in (with_binding e (fst L), Ok (snd L)).
Proof.
  intros NE LE NB. unfold extractEdges_from. rewrite LE, Nat.eqb_refl. cbn [negb]. destruct energy as [|a l]; [contradiction|]. destruct (el_binding e) eqn:B; [contradiction|].
  cbn [length Nat.ltb Nat.leb]. cbv zeta. destruct (edgeLoop _ _ _ _) as [b out]. reflexivity.
Qed.
