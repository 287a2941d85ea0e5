(** Proofs about the SPEC file reader. *)
From Coq Require Import Ascii String List Bool Arith Lia.
From Verif Require Import Base.Num Base.Res Base.Str Base.Text Model.Specfile Spec.SpecfileSpec.
Import ListNotations.
Set Implicit Arguments.

(** *** lines and offsets *)
Definition bytes (l : list text) : nat := fold_right (fun t n => length t + 1 + n) 0 l.
Lemma bytes_app a b : bytes (a ++ b) = bytes a + bytes b.
Proof. unfold bytes. induction a as [|x a IH]; cbn [app fold_right]; [reflexivity|]. rewrite IH. lia. Qed.
Lemma getlines_cases t : (t = [] /\ getlines t = []) \/ (~ In newline t /\ t <> [] /\ getlines t = [t]) \/
  exists l r, t = l ++ newline :: r /\ ~ In newline l /\ getlines t = l :: getlines r.
Proof.
  destruct t as [|c t]; [left; auto|right]. destruct (in_dec ascii_dec newline (c :: t)) as [I|I].
  - right. assert (S : exists l r, c :: t = l ++ newline :: r /\ ~ In newline l).
    { remember (c :: t) as u. clear Hequ c t. induction u as [|d u IH]; [destruct I|]. destruct (ascii_dec d newline) as [->|Q].
      - exists [], u. split; [reflexivity|intros []].
      - destruct I as [I|I]; [contradiction|]. destruct (IH I) as (l & r & -> & H). exists (d :: l), r. split; [reflexivity|]. intros [K|K]; contradiction. }
    destruct S as (l & r & E & H). exists l, r. split; [exact E|]. split; [exact H|]. rewrite E. apply getlines_line. exact H.
  - left. split; [exact I|]. split; [discriminate|]. rewrite getlines_last by exact I. reflexivity.
Qed.
Lemma getlines_skip a b : forall t, getlines t = a ++ b -> getlines (skipn (bytes a) t) = b.
Proof.
  induction a as [|l a IH]; intros t H; [exact H|]. cbn [app] in H.
  destruct (getlines_cases t) as [[-> E]|[(Hn & Ht & E)|(l' & r & -> & Hn & E)]]; rewrite E in H.
  - discriminate.
  - injection H as -> H. destruct a; [|discriminate]. cbn [app] in H. subst b. rewrite skipn_all2; [reflexivity|]. cbn. lia.
  - injection H as -> H. cbn [bytes fold_right]. fold (bytes a). rewrite skipn_app, skipn_all2 by lia.
    replace (length l + 1 + bytes a - length l) with (S (bytes a)) by lia. cbn [app skipn]. apply IH. exact H.
Qed.

(** *** the scan table *)
Lemma starts2_spec a b t : starts2 a b t = true <-> exists r, t = a :: b :: r.
Proof.
  destruct t as [|x [|y r]]; cbn; try (split; [discriminate|intros [r K]; discriminate]).
  rewrite andb_true_iff, !Ascii.eqb_eq. split; [intros [-> ->]; exists r; reflexivity|intros [q K]; injection K as -> -> ->; auto].
Qed.
Lemma not_scan_starts l : not_scan l -> starts2 "#" "S" l = false.
Proof. intros [H _]. destruct (starts2 "#" "S" l) eqn:E; [|reflexivity]. apply starts2_spec in E. contradiction. Qed.
Lemma set_back_app l a b e : set_back (l ++ [(a, b)]) e = l ++ [(a, e)].
Proof. induction l as [|[x y] l IH]; cbn; [reflexivity|]. destruct l as [|z l]; cbn in *; [reflexivity|]. f_equal. exact IH. Qed.
Lemma scan_skip_body b : Forall (fun l => 1 < length l /\ starts2 "#" "S" l = false) b -> forall r n o op pos offs,
  scanLines (b ++ r) n o op pos offs = scanLines r (n + length b) (o + bytes b) op pos offs.
Proof.
  induction 1 as [|l b [H1 H2] _ IH]; intros r n o op pos offs; cbn [app length bytes fold_right scanLines].
  - now rewrite !Nat.add_0_r.
  - destruct (Nat.ltb_spec 1 (length l)); [|lia]. rewrite H2, IH. fold (bytes b). f_equal; lia.
Qed.
Lemma scan_skip_gap g : Forall (fun l => starts2 "#" "S" l = false) g -> forall r n o pos offs,
  scanLines (g ++ r) n o false pos offs = scanLines r (n + length g) (o + bytes g) false pos offs.
Proof.
  induction 1 as [|l g H _ IH]; intros r n o pos offs; cbn [app length bytes fold_right scanLines].
  - now rewrite !Nat.add_0_r.
  - rewrite H. destruct (Nat.ltb 1 (length l)); rewrite IH; fold (bytes g); f_equal; lia.
Qed.
Lemma body_starts b : body_ok b -> 1 < length (body_text b) /\ starts2 "#" "S" (body_text b) = false.
Proof.
  destruct b as [t|l0 ls n cr|r]; cbn [body_ok body_text].
  - intros (H1 & H2 & _). destruct t as [|c t]; [contradiction|]. cbn in *. split; [lia|]. destruct (Ascii.eqb_spec c "S"%char); [contradiction|]. reflexivity.
  - intros _. cbn. split; [lia|reflexivity].
  - intros (_ & _ & _ & _ & H1 & H2). split; [lia|]. destruct (row_text r) as [|c [|d t]]; cbn in *; try reflexivity.
    destruct (Ascii.eqb_spec c "#"%char); [contradiction|reflexivity].
Qed.
Fixpoint table_pos (n : nat) (l : list scan) : list (nat * nat) :=
  match l with [] => [] | s :: r => (n, n + 1 + length (s_body s)) :: table_pos (n + length (scan_lines s)) r end.
Fixpoint table_off (o : nat) (l : list scan) : list nat :=
  match l with [] => [] | s :: r => o :: table_off (o + bytes (scan_lines s)) r end.
Lemma scan_table l : Forall scan_ok l -> gaps_ok l -> forall n o pos offs,
  scanLines (flat_map scan_lines l) n o false pos offs = (pos ++ table_pos n l, offs ++ table_off o l).
Proof.
  induction l as [|s l IH]; intros Hs Hg n o pos offs; [cbn; now rewrite !app_nil_r|].
  inversion Hs as [|x y Hs1 Hs2]; subst. cbn [flat_map table_pos table_off].
  destruct Hs1 as [Ht Hb]. unfold scan_lines at 1. cbn [app scanLines].
  destruct (Nat.ltb_spec 1 (length ("#"%char :: "S"%char :: s_title s))) as [_|K]; [|cbn in K; lia].
  change (starts2 "#" "S" ("#"%char :: "S"%char :: s_title s)) with true. cbv iota. rewrite <- app_assoc, scan_skip_body.
  2: { apply Forall_forall. intros t I. apply in_map_iff in I. destruct I as (b & <- & I). apply body_starts. exact (proj1 (Forall_forall _ _) Hb b I). }
  rewrite map_length.
  assert (G : gap_ok (s_gap s) -> gaps_ok l -> scanLines (s_gap s ++ flat_map scan_lines l) (S n + length (s_body s))
      (o + length ("#"%char :: "S"%char :: s_title s) + 1 + bytes (map body_text (s_body s))) true (pos ++ [(n, n)]) (offs ++ [o]) =
      (pos ++ (n, n + 1 + length (s_body s)) :: table_pos (n + length (scan_lines s)) l, offs ++ o :: table_off (o + bytes (scan_lines s)) l)).
  { intros G1 G2. unfold gap_ok in G1. destruct (s_gap s) as [|g0 g] eqn:E; [destruct G1|]. destruct G1 as [L F]. inversion F as [|x y F1 F2]; subst.
    cbn [app scanLines]. destruct (Nat.ltb_spec 1 (length g0)); [lia|]. rewrite set_back_app. rewrite scan_skip_gap.
    2: { eapply Forall_impl; [|exact F2]. intros t. apply not_scan_starts. }
    rewrite IH by assumption. rewrite <- !app_assoc. cbn [app]. unfold scan_lines. cbn [length bytes fold_right]. rewrite E, !app_length, map_length. fold (bytes (map body_text (s_body s) ++ g0 :: g)). rewrite bytes_app. cbn [length bytes fold_right]. fold (bytes g).
    apply f_equal2; apply f_equal; (apply f_equal2; [try (apply f_equal2); try lia; try reflexivity|apply f_equal2; [lia|reflexivity]]). }
  destruct l as [|s2 l].
  - cbn [gaps_ok] in Hg. destruct Hg as [Hg|Hg]; [|apply G; [exact Hg|exact I]]. rewrite Hg. cbn [flat_map app scanLines]. rewrite set_back_app. cbn [table_pos table_off]. apply f_equal2; [|reflexivity].
    apply f_equal. f_equal. apply f_equal2; [reflexivity|]. lia.
  - destruct Hg as [Hg1 Hg2]. apply G; assumption.
Qed.
Lemma table_nth l : forall n o i s, nth_error l i = Some s ->
  nth_error (table_pos n l) i = Some (n + length (flat_map scan_lines (firstn i l)), n + length (flat_map scan_lines (firstn i l)) + 1 + length (s_body s)) /\
  nth_error (table_off o l) i = Some (o + bytes (flat_map scan_lines (firstn i l))).
Proof.
  induction l as [|x l IH]; intros n o i s H; [destruct i; discriminate|]. destruct i as [|i]; cbn [nth_error] in H.
  - injection H as ->. cbn. rewrite !Nat.add_0_r. auto.
  - cbn [table_pos table_off nth_error firstn flat_map]. destruct (IH (n + length (scan_lines x)) (o + bytes (scan_lines x)) i s H) as [H1 H2].
    rewrite H1, H2, app_length, bytes_app, !Nat.add_assoc. auto.
Qed.
Lemma table_length n l : length (table_pos n l) = length l.
Proof. revert n; induction l; intros n; cbn; [reflexivity|]. f_equal. auto. Qed.
Lemma file_scans f t : file_ok f -> getlines t = file_lines f ->
  setFileName (Some t) = mkSpecfile t (table_pos (length (f_head f)) (f_scans f)) (table_off (bytes (f_head f)) (f_scans f)).
Proof.
  intros (H1 & H2 & H3) E. unfold setFileName. rewrite E. unfold file_lines. rewrite scan_skip_gap.
  2: { eapply Forall_impl; [|exact H1]. intros l. apply not_scan_starts. }
  rewrite scan_table by assumption. reflexivity.
Qed.
Lemma gaps_nth l : gaps_ok l -> forall i s, nth_error l i = Some s -> gap_ok (s_gap s) \/ (s_gap s = [] /\ skipn (S i) l = []).
Proof.
  induction l as [|x l IH]; intros H i s Hi; [destruct i; discriminate|]. destruct l as [|y l].
  - destruct i as [|i]; [|destruct i; discriminate]. injection Hi as ->. cbn [gaps_ok] in H. destruct H as [H|H]; [right; auto|left; exact H].
  - destruct H as [H1 H2]. destruct i as [|i]; [injection Hi as ->; left; exact H1|]. destruct (IH H2 i s Hi) as [K|K]; [left; exact K|right; exact K].
Qed.
(** what the queries read *)
Lemma file_scan f t i s : file_ok f -> getlines t = file_lines f -> nth_error (f_scans f) i = Some s ->
  exists first off tail, nth_error (sf_lines (setFileName (Some t))) i = Some (first, first + 1 + length (s_body s)) /\
    nth_error (sf_offsets (setFileName (Some t))) i = Some off /\
    getlines (skipn off t) = ("#"%char :: "S"%char :: s_title s) :: map body_text (s_body s) ++ tail /\
    match tail with [] => True | l :: _ => length l <= 1 end.
Proof.
  intros Hf E Hi. rewrite (@file_scans f t Hf E). cbn [sf_lines sf_offsets].
  destruct (table_nth (f_scans f) (length (f_head f)) (bytes (f_head f)) i Hi) as [H1 H2].
  eexists _, _, (s_gap s ++ flat_map scan_lines (skipn (S i) (f_scans f))). split; [exact H1|]. split; [exact H2|]. split.
  - rewrite <- bytes_app. rewrite app_assoc. change (("#"%char :: "S"%char :: s_title s) :: (map body_text (s_body s) ++ s_gap s) ++ flat_map scan_lines (skipn (S i) (f_scans f)))
      with (scan_lines s ++ flat_map scan_lines (skipn (S i) (f_scans f))).
    apply getlines_skip. rewrite E. unfold file_lines. rewrite <- app_assoc. f_equal.
    rewrite <- (firstn_skipn i (f_scans f)) at 1. rewrite flat_map_app. f_equal.
    assert (S : skipn i (f_scans f) = s :: skipn (S i) (f_scans f)).
    { clear - Hi. revert i Hi. induction (f_scans f) as [|x l IH]; intros i H; [destruct i; discriminate|]. destruct i as [|i]; cbn in H; [injection H as ->; reflexivity|]. apply IH. exact H. }
    rewrite S. reflexivity.
  - destruct Hf as (_ & _ & Hg). destruct (@gaps_nth _ Hg i s Hi) as [G|[-> ->]]; [|exact I].
    unfold gap_ok in G. destruct (s_gap s) as [|g0 g]; [destruct G|]. apply G.
Qed.

(** *** labels *)
Lemma labelLine_spec n : forall cur ls, starts2 "#" "L" cur = false ->
  labelLine n cur ls = match find (starts2 "#" "L") (firstn n ls) with Some l => l | None => last (firstn n ls) cur end.
Proof.
  induction n as [|n IH]; intros cur ls H; cbn [labelLine firstn]; [reflexivity|]. rewrite H. destruct ls as [|l ls]; [reflexivity|]. cbn [find].
  destruct (starts2 "#" "L" l) eqn:E.
  - destruct n; cbn; [reflexivity|rewrite E; reflexivity].
  - rewrite IH by exact E. destruct (find (starts2 "#" "L") (firstn n ls)); [reflexivity|].
    destruct (firstn n ls) as [|x y]; [reflexivity|]. change (last (x :: y) l = last (x :: y) cur). clear. revert x. induction y as [|z y IH]; intros x; [reflexivity|].
    change (last (z :: y) l = last (z :: y) cur). apply IH.
Qed.
Lemma find_none_last f (l : list text) d : f d = false -> find f l = None -> f (last l d) = false.
Proof.
  intros Hd H. induction l as [|x l IH]; [exact Hd|]. cbn [find] in H. destruct (f x) eqn:E; [discriminate|]. destruct l; [exact E|]. apply IH. exact H.
Qed.
Lemma trimCR_CR t : trimCR (t ++ [creturn]) = t.
Proof. unfold trimCR. rewrite rev_app_distr. cbn. apply rev_involutive. Qed.
Lemma trimCR_id t c : c <> creturn -> trimCR (t ++ [c]) = t ++ [c].
Proof. intros H. unfold trimCR. rewrite rev_app_distr. cbn [rev app]. destruct (Ascii.eqb_spec c creturn); [contradiction|reflexivity]. Qed.
Definition isblank (c : ascii) : bool := Ascii.eqb c " "%char.
Lemma spaces_blank n : Forall (fun c => isblank c = true) (spaces n).
Proof. unfold spaces. induction n; cbn; constructor; auto. Qed.
Lemma label_end t : label_ok t -> exists a c, t = a ++ [c] /\ c <> " "%char /\ c <> creturn.
Proof.
  intros (H1 & _ & H2 & H3 & _). exists (removelast t), (last t nul). split; [apply app_removelast_last; exact H1|auto].
Qed.
Lemma labels_end l0 ls : label_ok l0 -> Forall (fun nl => label_ok (snd nl)) ls -> exists a c, labels_text l0 ls = a ++ [c] /\ c <> " "%char /\ c <> creturn.
Proof.
  intros H0 H. destruct ls as [|[nx tx] ls] using rev_ind.
  - unfold labels_text. cbn. rewrite app_nil_r. apply label_end. exact H0.
  - apply Forall_app in H. destruct H as [_ H]. inversion H as [|y z Hx _]; subst. destruct (label_end Hx) as (a & c & E & H1 & H2).
    unfold labels_text. rewrite map_app, concat_app. cbn [map concat fst snd] in *. rewrite app_nil_r, E.
    eexists _, c. split; [rewrite !app_assoc; reflexivity|auto].
Qed.
Lemma labelText_spec l0 ls n cr : label_ok l0 -> Forall (fun nl => label_ok (snd nl)) ls ->
  labelText (body_text (Labels l0 ls n cr)) = labels_text l0 ls.
Proof.
  intros H0 H. destruct (labels_end H0 H) as (a & c & E & C1 & C2). set (L := labels_text l0 ls) in *.
  assert (T : trimCR (body_text (Labels l0 ls n cr)) = "#"%char :: "L"%char :: " "%char :: L ++ spaces n).
  { cbn [body_text]. fold L. destruct cr.
    - rewrite (app_assoc L). change ("#"%char :: "L"%char :: " "%char :: (L ++ spaces n) ++ [creturn]) with (("#"%char :: "L"%char :: " "%char :: L ++ spaces n) ++ [creturn]). apply trimCR_CR.
    - rewrite app_nil_r. destruct n as [|n].
      + cbn [spaces repeat]. rewrite app_nil_r, E. change ("#"%char :: "L"%char :: " "%char :: a ++ [c]) with (("#"%char :: "L"%char :: " "%char :: a) ++ [c]). apply trimCR_id. exact C2.
      + assert (S : spaces (S n) = spaces n ++ [" "%char]) by (unfold spaces; clear; induction n as [|n IH]; [reflexivity|]; cbn in *; f_equal; exact IH).
        rewrite S, app_assoc. change ("#"%char :: "L"%char :: " "%char :: (L ++ spaces n) ++ [" "%char]) with (("#"%char :: "L"%char :: " "%char :: L ++ spaces n) ++ [" "%char]). apply trimCR_id. discriminate. }
  unfold labelText. rewrite T. cbn [afterFirstSpace]. change (Ascii.eqb "#" " ") with false. change (Ascii.eqb "L" " ") with false. change (Ascii.eqb " " " ") with true. cbv iota.
  assert (R : lastNotSpace ("#"%char :: "L"%char :: " "%char :: L ++ spaces n) = 3 + length L).
  { unfold lastNotSpace. change ("#"%char :: "L"%char :: " "%char :: L ++ spaces n) with (("#"%char :: "L"%char :: " "%char :: L) ++ spaces n).
    rewrite rstrip_app by apply spaces_blank. rewrite E. change ("#"%char :: "L"%char :: " "%char :: a ++ [c]) with (("#"%char :: "L"%char :: " "%char :: a) ++ [c]).
    rewrite rstrip_last; [rewrite app_length; cbn [length]; rewrite app_length; cbn; lia|]. destruct (Ascii.eqb_spec c " "%char); [contradiction|reflexivity]. }
  rewrite R. destruct (Nat.ltb_spec (3 + length L) 3); [lia|]. cbn [skipn]. replace (3 + length L - 3) with (length L) by lia.
  rewrite firstn_app, Nat.sub_diag, firstn_all. cbn. apply app_nil_r.
Qed.
(** one label followed by spaces *)
Lemma split_label fuel : forall t cur rest, (~ exists a b, t = a ++ " "%char :: " "%char :: b) -> (exists a c, t = a ++ [c] /\ c <> " "%char) ->
  (exists n c r, rest = spaces (2 + n) ++ c :: r /\ c <> " "%char) ->
  splitLabels (length t + fuel) (t ++ rest) cur = splitLabels fuel rest (cur ++ t).
Proof.
  induction t as [|c t IH]; intros cur rest Hn He Hr.
  - destruct He as (a & d & E & _). destruct a; discriminate.
  - cbn [length plus app splitLabels]. destruct Hr as (n & d & r & -> & Hd).
    match goal with |- context [Nat.ltb 2 ?x] => destruct (Nat.ltb_spec 2 x) as [_|K]; [|exfalso; clear - K; cbn in K; rewrite ?app_length in K; cbn in K; lia] end.
    destruct t as [|e t].
    + destruct He as (a & x & E & Hx). destruct a as [|y a]; [|destruct a; discriminate]. injection E as ->. cbn [app spaces repeat plus].
      destruct (Ascii.eqb_spec x " "%char); [contradiction|]. cbn [andb]. reflexivity.
    + cbn [app]. assert (A : Ascii.eqb c " " && Ascii.eqb e " " = false).
      { destruct (Ascii.eqb_spec c " "%char) as [->|]; [|reflexivity]. destruct (Ascii.eqb_spec e " "%char) as [->|]; [|reflexivity]. exfalso. apply Hn. exists [], t. reflexivity. }
      rewrite A. assert (X : cur ++ c :: e :: t = (cur ++ [c]) ++ e :: t) by (rewrite <- app_assoc; reflexivity). rewrite X.
      rewrite <- IH; [reflexivity| | |].
      * intros (a & b & K). apply Hn. exists (c :: a), b. cbn. congruence.
      * destruct He as (a & x & E & Hx). destruct a as [|y a]; [discriminate|]. injection E as _ E. exists a, x. auto.
      * exists n, d, r. auto.
Qed.
Lemma split_spaces fuel n c r cur : c <> " "%char -> splitLabels (S fuel) (spaces (2 + n) ++ c :: r) cur = cur :: splitLabels fuel (c :: r) [].
Proof.
  intros H. cbn [spaces repeat plus app splitLabels length]. destruct (Nat.ltb_spec 2 (S (S (length (repeat " "%char n ++ c :: r))))) as [_|K]; [|rewrite app_length in K; cbn in K; lia].
  change (Ascii.eqb " " " ") with true. cbn [andb]. f_equal. f_equal.
  change (" "%char :: " "%char :: repeat " "%char n ++ c :: r) with (spaces (2 + n) ++ c :: r). rewrite drop_while_app by apply spaces_blank.
  apply drop_while_hd. destruct (Ascii.eqb_spec c " "%char); [contradiction|reflexivity].
Qed.
Lemma split_last : forall t fuel cur, length t < fuel -> (~ exists a b, t = a ++ " "%char :: " "%char :: b) -> cur ++ t <> [] -> splitLabels fuel t cur = [cur ++ t].
Proof.
  induction t as [|c t IH]; intros fuel cur Hf Hn Hc; (destruct fuel as [|fuel]; [lia|]); cbn [splitLabels].
  - rewrite app_nil_r in *. destruct cur; [contradiction|reflexivity].
  - destruct (Nat.ltb 2 (length (c :: t))).
    + assert (IH' : splitLabels fuel t (cur ++ [c]) = [cur ++ c :: t]).
      { rewrite IH; [rewrite <- app_assoc; reflexivity|cbn in Hf; lia| |].
        - intros (a & b & ->). apply Hn. exists (c :: a), b. reflexivity.
        - intros K. destruct cur; discriminate. }
      destruct t as [|d t]; [exact IH'|].
      assert (A : Ascii.eqb c " " && Ascii.eqb d " " = false).
      { destruct (Ascii.eqb_spec c " "%char) as [->|]; [|reflexivity]. destruct (Ascii.eqb_spec d " "%char) as [->|]; [|reflexivity]. exfalso. apply Hn. exists [], t. reflexivity. }
      rewrite A. exact IH'.
    + destruct fuel as [|fuel]; [cbn in Hf; lia|]. cbn [splitLabels]. destruct (cur ++ c :: t); [contradiction|reflexivity].
Qed.
Lemma label_head t : label_ok t -> exists c r, t = c :: r /\ c <> " "%char.
Proof. intros (H1 & H2 & _). destruct t as [|c r]; [contradiction|]. exists c, r. auto. Qed.
Lemma split_labels ls : Forall (fun nl => label_ok (snd nl)) ls -> forall l0 fuel, label_ok l0 -> length (labels_text l0 ls) < fuel ->
  splitLabels fuel (labels_text l0 ls) [] = l0 :: map snd ls.
Proof.
  induction 1 as [|[n l1] ls H1 _ IH]; intros l0 fuel H0 Hf.
  - unfold labels_text in *. cbn [map concat] in *. rewrite app_nil_r in *. apply split_last; [exact Hf|apply H0|apply H0].
  - unfold labels_text in *. cbn [map concat fst snd] in *. set (R := concat (map (fun nl => spaces (2 + fst nl) ++ snd nl) ls)) in *.
    destruct (label_head H1) as (c & r & E & Hc). rewrite <- app_assoc in *. rewrite !app_length in Hf.
    replace fuel with (length l0 + S (fuel - length l0 - 1)) by lia. rewrite split_label.
    + cbn [app]. assert (X : spaces (2 + n) ++ l1 ++ R = spaces (2 + n) ++ c :: (r ++ R)) by (rewrite E; reflexivity). rewrite X.
      rewrite split_spaces by exact Hc. f_equal. change (c :: r ++ R) with ((c :: r) ++ R). rewrite <- E. apply IH; [exact H1|]. fold R. rewrite app_length.
      unfold spaces in Hf. rewrite repeat_length in Hf. lia.
    + apply H0.
    + destruct (label_end H0) as (a & x & Ea & Hx & _). exists a, x. auto.
    + exists n, c, (r ++ R). split; [rewrite E; reflexivity|exact Hc].
Qed.

(** *** data rows *)
Lemma number_char_spec c : isNumber c = true <-> number_char c.
Proof.
  split.
  - destruct c as [b0 b1 b2 b3 b4 b5 b6 b7]; destruct b0, b1, b2, b3, b4, b5, b6, b7; intros H; try discriminate H; unfold number_char; cbn [In]; repeat (first [left; reflexivity|right]).
  - intros H. unfold number_char in H. cbn [In] in H. repeat (destruct H as [<-|H]; [reflexivity|]). destruct H.
Qed.
Lemma not_number c : ~ number_char c -> isNumber c = false.
Proof. intros H. destruct (isNumber c) eqn:E; [|reflexivity]. apply number_char_spec in E. contradiction. Qed.
Lemma tokens_sep s r : Forall (fun c => isNumber c = false) s -> tokens (s ++ r) [] = tokens r [].
Proof. induction 1 as [|c s H _ IH]; cbn; [reflexivity|]. rewrite H. exact IH. Qed.
Lemma tokens_run t : Forall (fun c => isNumber c = true) t -> forall cur r, tokens (t ++ r) cur = tokens r (cur ++ t).
Proof. induction 1 as [|c t H _ IH]; intros cur r; cbn; [now rewrite app_nil_r|]. rewrite H, IH. now rewrite <- app_assoc. Qed.
Lemma tokens_close cur c r : cur <> [] -> isNumber c = false -> tokens (c :: r) cur = cur :: tokens r [].
Proof. intros H1 H2. cbn. rewrite H2. destruct cur; [contradiction|reflexivity]. Qed.
Lemma tokens_seps cur s r : cur <> [] -> s <> [] -> Forall (fun c => isNumber c = false) s -> tokens (s ++ r) cur = cur :: tokens r [].
Proof.
  intros H1 H2 H. destruct H as [|c s Hc Hs]; [contradiction|]. cbn [app]. rewrite tokens_close by assumption. f_equal. apply tokens_sep. exact Hs.
Qed.
Lemma tokens_trimCR t cur : tokens (trimCR t) cur = tokens t cur.
Proof.
  destruct t as [|c t] using rev_ind; [reflexivity|]. clear IHt. destruct (ascii_dec c creturn) as [->|Q]; [|now rewrite trimCR_id].
  rewrite trimCR_CR. revert cur. induction t as [|d t IH]; intros cur; cbn.
  - destruct cur; reflexivity.
  - destruct (isNumber d); [apply IH|]. destruct cur; [apply IH|]. f_equal. apply IH.
Qed.
Lemma seps_not s : separator s -> Forall (fun c => isNumber c = false) s.
Proof. apply Forall_impl. intros c [H _]. apply not_number. exact H. Qed.
Lemma row_tokens r : row_ok r -> tokens (row_text r) [] = row_numbers r.
Proof.
  intros (H1 & H2 & H3 & H4 & _). unfold row_text, row_numbers. destruct (r_numbers r) as [|[s0 t0] l]; [contradiction|]. clear H1.
  cbn [map concat fst snd tl] in *. inversion H2 as [|x y (Hs0 & Hn0 & Ht0) H2']; subst. cbn [fst snd] in *.
  rewrite <- !app_assoc, tokens_sep by (apply seps_not; exact Hs0). rewrite tokens_run by (eapply Forall_impl; [|exact Ht0]; intros c; apply number_char_spec).
  cbn [app]. revert t0 Hn0 Ht0 H2. induction l as [|[s1 t1] l IH]; intros t0 Hn0 Ht0 H2.
  - cbn [map concat app]. apply seps_not in H4. destruct (r_end r) as [|c e] eqn:E; [cbn; destruct t0; [contradiction|reflexivity]|].
    rewrite <- (app_nil_r (c :: e)), tokens_seps by (try exact Hn0; try discriminate; exact H4). reflexivity.
  - cbn [map concat fst snd] in *. inversion H2' as [|x y (Hs1 & Hn1 & Ht1) H2'']; subst. inversion H3 as [|x y Hne H3']; subst. cbn [fst snd] in *.
    rewrite <- !app_assoc, tokens_seps by (try exact Hn0; try exact Hne; apply seps_not; exact Hs1). f_equal.
    rewrite tokens_run by (eapply Forall_impl; [|exact Ht1]; intros c; apply number_char_spec). cbn [app]. apply IH; auto.

Qed.

Lemma trimCR_head c r : c <> creturn \/ r <> [] -> exists r', trimCR (c :: r) = c :: r'.
Proof.
  intros H. destruct r as [|d r] using rev_ind.
  - destruct H as [H|H]; [|contradiction]. exists []. change [c] with ([] ++ [c]). apply trimCR_id. exact H.
  - clear IHr. change (c :: r ++ [d]) with ((c :: r) ++ [d]). destruct (ascii_dec d creturn) as [->|Q].
    + rewrite trimCR_CR. exists r. reflexivity.
    + rewrite trimCR_id by exact Q. exists (r ++ [d]). reflexivity.
Qed.
Section Data.
Context {N : Num}.
Variable strtod : text -> num.
Lemma dataLine_comment rows t : dataLine strtod rows ("#"%char :: t) = Ok rows.
Proof. unfold dataLine. destruct (@trimCR_head "#"%char t) as [r' ->]; [left; discriminate|]. reflexivity. Qed.
Lemma dataLine_row rows r : row_ok r ->
  dataLine strtod rows (row_text r) =
  match rows with
  | r0 :: _ => if Nat.eqb (length r0) (length (row_numbers r)) then Ok (rows ++ [map strtod (row_numbers r)]) else Throw RuntimeError
  | [] => Ok (rows ++ [map strtod (row_numbers r)])
  end.
Proof.
  intros H. pose proof (row_tokens H) as T. destruct H as (H1 & _ & _ & _ & H5 & H6). unfold dataLine. rewrite <- tokens_trimCR in T.
  destruct (row_text r) as [|c [|d t]]; cbn in H5; try lia. cbn [hd] in H6.
  destruct (@trimCR_head c (d :: t)) as [r' E]; [right; discriminate|]. rewrite E in *. destruct (Ascii.eqb_spec c "#"%char); [contradiction|].
  rewrite T. assert (Q : row_numbers r <> []) by (unfold row_numbers; destruct (r_numbers r); [contradiction|discriminate]).
  destruct (row_numbers r) as [|x l]; [contradiction|]. cbn [map]. destruct rows; [reflexivity|]. cbn [length]. now rewrite map_length.
Qed.
Lemma data_body body : Forall body_ok body -> forall rows,
  (forall r0 rs, rows = r0 :: rs ->
     rfold (dataLine strtod) (map body_text body) rows =
     if forallb (fun ts => Nat.eqb (length r0) (length ts)) (flat_map (fun b => match b with Row r => [row_numbers r] | _ => [] end) body)
     then Ok (rows ++ map (map strtod) (flat_map (fun b => match b with Row r => [row_numbers r] | _ => [] end) body)) else Throw RuntimeError).
Proof.
  induction 1 as [|b body Hb _ IH]; intros rows r0 rs ->; cbn [map rfold flat_map].
  - cbn. now rewrite app_nil_r.
  - destruct b as [t|l0 ls n cr|r]; cbn [body_text app].
    + rewrite dataLine_comment. cbn [rbind]. apply (IH _ r0 rs eq_refl).
    + rewrite dataLine_comment. cbn [rbind]. apply (IH _ r0 rs eq_refl).
    + rewrite dataLine_row by exact Hb. cbn [forallb]. destruct (Nat.eqb (length r0) (length (row_numbers r))); cbn [andb]; [|reflexivity].
      cbn [rbind]. rewrite (IH ((r0 :: rs) ++ [map strtod (row_numbers r)]) r0 (rs ++ [map strtod (row_numbers r)]) eq_refl).
      destruct (forallb _ _); [|reflexivity]. cbn [map]. rewrite <- app_assoc. reflexivity.
Qed.
Lemma data_body_new body : Forall body_ok body ->
  let rows := flat_map (fun b => match b with Row r => [row_numbers r] | _ => [] end) body in
  rfold (dataLine strtod) (map body_text body) [] =
  if forallb (fun ts => Nat.eqb (length (hd [] rows)) (length ts)) rows then Ok (map (map strtod) rows) else Throw RuntimeError.
Proof.
  cbv zeta. induction 1 as [|b body Hb Hbody IH]; cbn [map rfold flat_map]; [reflexivity|].
  destruct b as [t|l0 ls n cr|r]; cbn [body_text app].
  - rewrite dataLine_comment. exact IH.
  - rewrite dataLine_comment. exact IH.
  - rewrite dataLine_row by exact Hb. cbn [rbind app hd forallb]. rewrite Nat.eqb_refl. cbn [andb].
    rewrite (data_body Hbody eq_refl). rewrite map_length. destruct (forallb _ _); reflexivity.
Qed.
End Data.
