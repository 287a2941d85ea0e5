(** Proofs about the INI reader. *)
From Coq Require Import Ascii String List Bool Arith Lia.
From Verif Require Import Base.Res Base.SMap Base.Str Base.Text Model.SimpleIni Spec.IniSpec.
Import ListNotations.
Set Implicit Arguments.

Lemma blank_pad c : c <> newline -> (blank c = true <-> pad_char c).
Proof.
  intros H. unfold blank, pad_char.
  destruct (Ascii.eqb_spec c " "%char); [tauto|]. destruct (Ascii.eqb_spec c newline); [contradiction|].
  destruct (Ascii.eqb_spec c creturn); [tauto|]. destruct (Ascii.eqb_spec c tab); cbn; [tauto|]. split; [discriminate|tauto].
Qed.
Lemma pad_blank t : pad t -> Forall (fun c => blank c = true) t.
Proof.
  unfold pad. apply Forall_impl. intros c [->|[->| ->]]; reflexivity.
Qed.
Lemma pad_newline t : pad t -> ~ In newline t.
Proof. intros H K. apply (proj1 (Forall_forall _ _) H) in K. destruct K as [K|[K|K]]; discriminate. Qed.
Lemma space_blank c : isspace c = false -> blank c = false.
Proof.
  intros H. unfold blank. destruct (Ascii.eqb_spec c " "%char) as [->|]; [discriminate|]. destruct (Ascii.eqb_spec c newline) as [->|]; [discriminate|].
  destruct (Ascii.eqb_spec c creturn) as [->|]; [discriminate|]. destruct (Ascii.eqb_spec c tab) as [->|]; [discriminate|]. reflexivity.
Qed.
Lemma none_of_not_in f t c : none_of f t -> In c f -> ~ In c t.
Proof. intros H Hc K. apply (proj1 (Forall_forall _ _) H) in K. contradiction. Qed.

Lemma trim_blank t : pad t -> trim t = [].
Proof. intros H. unfold trim. rewrite <- (app_nil_l t) at 1. rewrite rstrip_app by (apply pad_blank; exact H). reflexivity. Qed.
Lemma trim_core p c core q : pad p -> pad q -> blank c = false -> (exists a d, c :: core = a ++ [d] /\ blank d = false) ->
  trim (p ++ (c :: core) ++ q) = c :: core.
Proof.
  intros Hp Hq Hc (a & d & E & Hd). unfold trim. rewrite app_assoc, rstrip_app by (apply pad_blank; exact Hq).
  rewrite E, app_assoc, rstrip_last by exact Hd. rewrite <- app_assoc, <- E. unfold lstrip.
  rewrite drop_while_app by (apply pad_blank; exact Hp). apply drop_while_hd. exact Hc.
Qed.
Lemma rstrip_prefix f t : exists b, t = rstrip f t ++ b /\ Forall (fun c => f c = true) b.
Proof.
  induction t as [|c t IH] using rev_ind; [exists []; split; [reflexivity|constructor]|].
  destruct (f c) eqn:Q.
  - rewrite rstrip_app by (constructor; [exact Q|constructor]). destruct IH as (b & E & Hb). exists (b ++ [c]). split; [rewrite app_assoc, <- E; reflexivity|].
    apply Forall_app. split; [exact Hb|constructor; [exact Q|constructor]].
  - exists []. rewrite rstrip_last by exact Q. rewrite app_nil_r. split; [reflexivity|constructor].
Qed.
Lemma rstrip_split f a c t : f c = false -> rstrip f (a ++ c :: t) = a ++ c :: rstrip f t.
Proof.
  intros H. induction t as [|d t IH] using rev_ind.
  - change (a ++ [c]) with (a ++ [c]). rewrite rstrip_last by exact H. reflexivity.
  - change (c :: t ++ [d]) with ((c :: t) ++ [d]). rewrite app_assoc. destruct (f d) eqn:Q.
    + assert (F : Forall (fun x => f x = true) [d]) by (constructor; [exact Q|constructor]).
      rewrite (rstrip_app f (a ++ c :: t) F), (rstrip_app f t F). exact IH.
    + rewrite (rstrip_last f (a ++ c :: t) d Q), (rstrip_last f t d Q). rewrite <- app_assoc. reflexivity.
Qed.
Lemma trim_header p name tail : pad p -> exists tail', trim (p ++ "["%char :: name ++ "]"%char :: tail) = "["%char :: name ++ "]"%char :: tail' /\
  (forall f, none_of f tail -> none_of f tail').
Proof.
  intros Hp. exists (rstrip blank tail). split.
  - unfold trim. change (p ++ "["%char :: name ++ "]"%char :: tail) with (p ++ ("["%char :: name) ++ "]"%char :: tail). rewrite app_assoc, rstrip_split by reflexivity.
    rewrite <- app_assoc. unfold lstrip. rewrite drop_while_app by (apply pad_blank; exact Hp). reflexivity.
  - intros f H. destruct (rstrip_prefix blank tail) as (b & E & _). rewrite E in H. apply Forall_app in H. exact (proj1 H).
Qed.

Lemma headerScan_plain t i n p r : none_of ["["; "]"; newline]%char t -> headerScan (t ++ r) i n p = headerScan r (i + length t) n p.
Proof.
  revert i; induction t as [|c t IH]; intros i H; cbn [app headerScan length]; [now rewrite Nat.add_0_r|].
  inversion H as [|x y Hc Ht]; subst. destruct (Ascii.eqb_spec c "["%char) as [->|_]; [exfalso; apply Hc; cbn; auto|].
  destruct (Ascii.eqb_spec c "]"%char) as [->|_]; [exfalso; apply Hc; cbn; auto|]. rewrite IH by exact Ht. f_equal. lia.
Qed.
Lemma header_line s p name tail : line_ok (Header p name tail) ->
  parseLine s (p ++ "["%char :: name ++ "]"%char :: tail) =
  (mkParse name (ps_key s) (mkIni (ini_sections (ps_ini s) ++ [str name]) (ini_contents (ps_ini s))), Ok tt).
Proof.
  intros (Hp & Hn & H1 & H2). destruct (trim_header name tail Hp) as (t' & E & Ht'). apply Ht' in H2.
  unfold parseLine. rewrite E. change (Ascii.eqb "["%char "["%char) with true. cbv iota.
  rewrite headerScan_plain by exact H1. cbn [headerScan]. change (Ascii.eqb "]"%char "["%char) with false. change (Ascii.eqb "]"%char "]"%char) with true. cbv iota.
  rewrite <- (app_nil_r t'), headerScan_plain by exact H2. cbn [headerScan].
  change (Nat.eqb 2 2) with true. cbn [negb orb]. replace (1 + length name - 1) with (length name) by lia.
  destruct (Nat.ltb_spec (length name) 1) as [L|_]; [destruct name; [contradiction|cbn in L; lia]|].
  rewrite firstn_app, Nat.sub_diag, firstn_all. cbn [firstn]. now rewrite app_nil_r.
Qed.

Lemma scan_key t tmp r : none_of ["="; """"; "#"; ";"; newline]%char t -> scan (t ++ r) tmp 0 0 = scan r (tmp ++ key_of t) 0 0.
Proof.
  revert tmp; induction t as [|c t IH]; intros tmp H; cbn [app scan key_of filter]; [now rewrite app_nil_r|].
  inversion H as [|x y Hc Ht]; subst.
  destruct (Ascii.eqb_spec c """"%char) as [->|_]; [exfalso; apply Hc; cbn; auto|]. change (Nat.odd 0) with false. cbv iota.
  destruct (Ascii.eqb_spec c "#"%char) as [->|_]; [exfalso; apply Hc; cbn; auto|].
  destruct (Ascii.eqb_spec c ";"%char) as [->|_]; [exfalso; apply Hc; cbn; auto|]. cbn [orb].
  destruct (Ascii.eqb_spec c "="%char) as [->|_]; [exfalso; apply Hc; cbn; auto|]. cbn [andb Nat.eqb].
  fold (key_of t). destruct (isspace c); cbn [negb]; rewrite IH by exact Ht; [reflexivity|]. now rewrite <- app_assoc.
Qed.
Lemma odd_SS n : Nat.odd (S (S n)) = Nat.odd n. Proof. reflexivity. Qed.
Lemma scan_plain t tmp q eq r : none_of [""""; "#"; ";"; newline]%char t -> Nat.odd q = false -> 0 < eq -> scan (t ++ r) tmp q eq = scan r (tmp ++ t) q eq.
Proof.
  revert tmp; induction t as [|c t IH]; intros tmp H Hq He; cbn [app scan]; [now rewrite app_nil_r|].
  inversion H as [|x y Hc Ht]; subst. rewrite Hq.
  destruct (Ascii.eqb_spec c """"%char) as [->|_]; [exfalso; apply Hc; cbn; auto|].
  destruct (Ascii.eqb_spec c "#"%char) as [->|_]; [exfalso; apply Hc; cbn; auto|].
  destruct (Ascii.eqb_spec c ";"%char) as [->|_]; [exfalso; apply Hc; cbn; auto|]. cbn [orb].
  destruct (Nat.eqb_spec eq 0) as [Z|_]; [lia|]. rewrite andb_false_r. rewrite IH by assumption. now rewrite <- app_assoc.
Qed.
Lemma scan_inside t tmp q eq r : none_of [""""; newline]%char t -> Nat.odd q = true -> scan (t ++ r) tmp q eq = scan r (tmp ++ t) q eq.
Proof.
  revert tmp; induction t as [|c t IH]; intros tmp H Hq; cbn [app scan]; [now rewrite app_nil_r|].
  inversion H as [|x y Hc Ht]; subst. rewrite Hq.
  destruct (Ascii.eqb_spec c """"%char) as [->|_]; [exfalso; apply Hc; cbn; auto|].
  rewrite IH by assumption. now rewrite <- app_assoc.
Qed.
Lemma scan_value v tmp q eq : Forall piece_ok v -> Nat.odd q = false -> 0 < eq ->
  exists q', Nat.odd q' = false /\ scan (value_text v) tmp q eq = (tmp ++ value_text v, q', eq).
Proof.
  intros H; revert tmp q; induction H as [|p v Hp Hv IH]; intros tmp q Hq He.
  - exists q. split; [exact Hq|]. cbn. now rewrite app_nil_r.
  - unfold value_text. cbn [map concat]. fold (value_text v). destruct p as [t|t]; cbn [piece_text piece_ok] in *.
    + rewrite scan_plain by assumption. destruct (IH (tmp ++ t) q Hq He) as (q' & O & E). exists q'. split; [exact O|]. rewrite E. now rewrite app_assoc.
    + cbn [app]. cbn [scan]. change (Ascii.eqb """"%char """"%char) with true. cbv iota. rewrite <- app_assoc.
      rewrite scan_inside; [|exact Hp|rewrite Nat.odd_succ, <- Nat.negb_odd, Hq; reflexivity]. cbn [app scan]. change (Ascii.eqb """"%char """"%char) with true. cbv iota.
      destruct (IH (((tmp ++ [""""%char]) ++ t) ++ [""""%char]) (S (S q))) as (q' & O & E); [exact Hq|exact He|].
      exists q'. split; [exact O|]. rewrite E. f_equal. f_equal. rewrite <- !app_assoc. reflexivity.
Qed.
Lemma filter_first (f : ascii -> bool) c r : f c = true -> 0 < length (filter f (c :: r)).
Proof. intros H. cbn. rewrite H. cbn. lia. Qed.

Lemma entry_line s p key value q : entry_ok p key value q ->
  parseLine s (entry_text p key value q) =
  (mkParse (ps_main s) (key_of key) (set_value (ps_ini s) (str (ps_main s)) (str (key_of key)) (str (value_text value))), Ok tt).
Proof.
  intros (Hp & Hq & Hk & (c & r & -> & Hc & Hb) & Hv & He). unfold entry_text. unfold space in Hc. apply not_true_is_false in Hc.
  assert (T : trim (p ++ (c :: r) ++ "="%char :: value_text value ++ q) = c :: r ++ "="%char :: value_text value).
  { change ((c :: r) ++ "="%char :: value_text value ++ q) with ((c :: r) ++ ("="%char :: value_text value) ++ q). rewrite (app_assoc (c :: r)).
    apply trim_core; [exact Hp|exact Hq|apply space_blank; exact Hc|]. destruct He as [->|(a & d & E & Hd)].
    - exists (c :: r), "="%char. split; reflexivity.
    - exists (c :: r ++ "="%char :: a), d. rewrite E. split; [cbn [app]; f_equal; rewrite <- app_assoc; reflexivity|].
      destruct (blank d) eqn:Qd; [exfalso|reflexivity]. apply Hd. apply blank_pad; [|exact Qd].
      intros ->. assert (I : In newline (value_text value)) by (rewrite E; apply in_app_iff; right; left; reflexivity).
      unfold value_text in I. apply in_concat in I. destruct I as (t & It & In1). apply in_map_iff in It. destruct It as (pc & <- & Ip).
      apply (proj1 (Forall_forall _ _) Hv) in Ip. destruct pc as [t|t]; cbn [piece_ok piece_text] in *.
      + revert In1. eapply none_of_not_in; [eassumption|cbn; auto 6].
      + destruct In1 as [In1|In1]; [discriminate|]. apply in_app_iff in In1. destruct In1 as [In1|[In1|[]]]; [|discriminate].
        revert In1. eapply none_of_not_in; [eassumption|cbn; auto 6]. }
  unfold parseLine. rewrite T. destruct (Ascii.eqb_spec c "["%char) as [->|_]; [contradiction|].
  change (c :: r ++ "="%char :: value_text value) with ((c :: r) ++ "="%char :: value_text value).
  rewrite scan_key by exact Hk. cbn [app scan]. change (Ascii.eqb "="%char """"%char) with false. change (Nat.odd 0) with false.
  change (Ascii.eqb "="%char "#"%char || Ascii.eqb "="%char ";"%char) with false. cbv iota. change (Nat.eqb 0 0) with true. change (isspace "="%char) with false. cbv iota.
  change (Ascii.eqb "="%char "="%char) with true. cbn [andb].
  assert (L : length (key_of (c :: r) ++ ["="%char]) - 1 = length (key_of (c :: r))) by (rewrite app_length; cbn [length]; lia).
  assert (P : 0 < length (key_of (c :: r))) by (apply filter_first; rewrite Hc; reflexivity).
  rewrite L. destruct (@scan_value value (key_of (c :: r) ++ ["="%char]) 0 (length (key_of (c :: r))) Hv eq_refl P) as (q' & O & ->).
  cbv zeta. rewrite O. rewrite !app_length. cbn [length]. destruct (Nat.ltb_spec (length (key_of (c :: r)) + 1 + length (value_text value)) 1); [lia|].
  destruct (Nat.ltb_spec 0 (length (key_of (c :: r)))); [|lia]. rewrite <- !app_assoc.
  rewrite firstn_app, Nat.sub_diag, firstn_all. cbn [firstn]. rewrite app_nil_r. rewrite skipn_app.
  replace (length (key_of (c :: r)) + 1 - length (key_of (c :: r))) with 1 by lia.
  rewrite (skipn_all2 (key_of (c :: r))) by lia. reflexivity.
Qed.

Lemma value_newline v : Forall piece_ok v -> ~ In newline (value_text v).
Proof.
  intros Hv I. unfold value_text in I. apply in_concat in I. destruct I as (t & It & In1). apply in_map_iff in It. destruct It as (pc & <- & Ip).
  apply (proj1 (Forall_forall _ _) Hv) in Ip. destruct pc as [t|t]; cbn [piece_ok piece_text] in *.
  - revert In1. eapply none_of_not_in; [eassumption|cbn; auto 6].
  - destruct In1 as [In1|In1]; [discriminate|]. apply in_app_iff in In1. destruct In1 as [In1|[In1|[]]]; [|discriminate].
    revert In1. eapply none_of_not_in; [eassumption|cbn; auto 6].
Qed.
Lemma entry_newline p key value q : entry_ok p key value q -> ~ In newline (entry_text p key value q).
Proof.
  intros (Hp & Hq & Hk & _ & Hv & _) I. apply in_app_iff in I. destruct I as [I|I]; [exact (pad_newline Hp I)|].
  apply in_app_iff in I. destruct I as [I|[I|I]]; [|discriminate|].
  - revert I. eapply none_of_not_in; [eassumption|cbn; auto 6].
  - apply in_app_iff in I. destruct I as [I|I]; [exact (value_newline Hv I)|exact (pad_newline Hq I)].
Qed.
Lemma more_newline m : more_ok m -> ~ In newline (more_text m).
Proof.
  destruct m as [[p v] q]. intros (Hp & Hq & Hv & _) I. unfold more_text in I. cbn [fst snd] in I. apply in_app_iff in I. destruct I as [I|I]; [exact (pad_newline Hp I)|].
  apply in_app_iff in I. destruct I as [I|I]; [exact (value_newline Hv I)|exact (pad_newline Hq I)].
Qed.
Lemma line_newline l t : line_ok l -> In t (line_texts l) -> ~ In newline t.
Proof.
  destruct l as [p|p name tail|p key value q|p key value q more]; cbn [line_ok line_texts].
  - intros H [<-|[]]. apply pad_newline, H.
  - intros (Hp & _ & H1 & H2) [<-|[]] I. apply in_app_iff in I. destruct I as [I|[I|I]]; [exact (pad_newline Hp I)|discriminate|].
    apply in_app_iff in I. destruct I as [I|[I|I]]; [|discriminate|]; revert I; [eapply (@none_of_not_in _ _ _ H1)|eapply (@none_of_not_in _ _ _ H2)]; cbn; auto.
  - intros H [<-|[]]. apply entry_newline, H.
  - intros [H M] [<-|I]; [apply entry_newline, H|]. apply in_map_iff in I. destruct I as (m & <- & I). apply more_newline. exact (proj1 (Forall_forall _ _) M m I).
Qed.
Lemma lines_of ls rest : (forall t, In t ls -> ~ In newline t) -> getlines (concat (map (fun t => t ++ [newline]) ls) ++ rest) = ls ++ getlines rest.
Proof.
  induction ls as [|l ls IH]; intros H; cbn [map concat app]; [reflexivity|]. rewrite <- !app_assoc. cbn [app]. rewrite getlines_line by (apply H; left; reflexivity).
  f_equal. apply IH. intros t I. apply H. right. exact I.
Qed.
Lemma document_newline d : Forall line_ok d -> forall t, In t (flat_map line_texts d) -> ~ In newline t.
Proof.
  intros H t I. apply in_flat_map in I. destruct I as (l & Il & I). exact (@line_newline l t (proj1 (Forall_forall _ _) H l Il) I).
Qed.
Lemma document_lines d : Forall line_ok d -> getlines (document_text d) = flat_map line_texts d.
Proof.
  intros H. unfold document_text. rewrite <- (app_nil_r (concat _)). rewrite lines_of by (apply document_newline, H). apply app_nil_r.
Qed.

(** a continuation *)
Lemma scan_free t tmp q r : none_of [""""; "#"; ";"; newline]%char t -> none_of ["="%char] t -> Nat.odd q = false -> scan (t ++ r) tmp q 0 = scan r (tmp ++ key_of t) q 0.
Proof.
  intros H E O. revert tmp. induction H as [|c t Hc _ IH]; intros tmp; [cbn; now rewrite app_nil_r|]. inversion E as [|? ? Ec Et]; subst. cbn [app scan].
  destruct (Ascii.eqb_spec c """"%char) as [->|_]; [exfalso; apply Hc; cbn; auto|]. rewrite O.
  destruct (Ascii.eqb_spec c "#"%char) as [->|_]; [exfalso; apply Hc; cbn; auto|]. destruct (Ascii.eqb_spec c ";"%char) as [->|_]; [exfalso; apply Hc; cbn; auto|]. cbn [orb].
  change (Nat.eqb 0 0) with true. cbv iota zeta. destruct (Ascii.eqb_spec c "="%char) as [->|_]; [exfalso; apply Ec; cbn; auto|]. cbn [andb].
  rewrite IH by exact Et. cbn [key_of filter]. destruct (isspace c); cbn [negb]; [reflexivity|]. now rewrite <- app_assoc.
Qed.
Lemma scan_squeeze v tmp q : Forall piece_ok v -> Forall (fun x => match x with Plain t => none_of ["="%char] t | Quoted _ => True end) v -> Nat.odd q = false ->
  exists q', Nat.odd q' = false /\ scan (value_text v) tmp q 0 = (tmp ++ squeeze v, q', 0).
Proof.
  intros H; revert tmp q; induction H as [|p v Hp Hv IH]; intros tmp q F Hq.
  - exists q. split; [exact Hq|]. cbn. now rewrite app_nil_r.
  - inversion F as [|? ? F1 F2]; subst. unfold value_text, squeeze. cbn [map concat]. fold (value_text v) (squeeze v). destruct p as [t|t]; cbn [piece_text piece_ok] in *.
    + rewrite scan_free by assumption. destruct (IH (tmp ++ key_of t) q F2 Hq) as (q' & O & E). exists q'. split; [exact O|]. rewrite E. now rewrite app_assoc.
    + cbn [app]. cbn [scan]. change (Ascii.eqb """"%char """"%char) with true. cbv iota. rewrite <- app_assoc.
      rewrite scan_inside; [|exact Hp|rewrite Nat.odd_succ, <- Nat.negb_odd, Hq; reflexivity]. cbn [app scan]. change (Ascii.eqb """"%char """"%char) with true. cbv iota.
      destruct (IH (((tmp ++ [""""%char]) ++ t) ++ [""""%char]) (S (S q)) F2) as (q' & O & E); [exact Hq|].
      exists q'. split; [exact O|]. rewrite E. f_equal. f_equal. rewrite <- !app_assoc. reflexivity.
Qed.
Lemma squeeze_first v c r : Forall piece_ok v -> value_text v = c :: r -> ~ space c -> squeeze v <> [].
Proof.
  intros _ E Hc. revert E. induction v as [|p v IH]; [discriminate|]. unfold value_text, squeeze. cbn [map concat]. fold (value_text v) (squeeze v).
  destruct p as [[|x t]|t]; cbn [piece_text app]; [exact IH| |discriminate]. intros E. injection E as -> E. unfold space in Hc. apply not_true_is_false in Hc.
  cbn [key_of filter]. rewrite Hc. discriminate.
Qed.
Lemma more_line s m : more_ok m -> ps_key s <> [] -> parseLine s (more_text m) =
  (mkParse (ps_main s) (ps_key s) (if Nat.ltb 0 (length (ps_main s)) then
      match squeeze (snd (fst m)) with [] => ps_ini s | v => append_value (ps_ini s) (str (ps_main s)) (str (ps_key s)) (str v) end else ps_ini s), Ok tt).
Proof.
  destruct m as [[p v] q]. intros (Hp & Hq & Hv & He & HF) K. unfold more_text. cbn [fst snd]. destruct HF as [E|[(c & r & E & Hc & Hb) NB]].
  - assert (SQ : squeeze v = []).
    { revert E. clear. induction v as [|x v IH]; [reflexivity|]. unfold value_text, squeeze. cbn [map concat]. fold (value_text v) (squeeze v).
      intros E. apply app_eq_nil in E. destruct E as [E1 E2]. destruct x as [t|t]; [|discriminate]. cbn [piece_text] in E1. subst t. cbn [key_of filter app]. apply IH, E2. }
    rewrite E, SQ. cbn [app]. unfold parseLine. rewrite trim_blank by (apply Forall_app; split; assumption). destruct s as [a b i]. cbn [ps_main ps_key ps_ini]. now destruct (Nat.ltb 0 (length a)).
  - pose proof (squeeze_first Hv E Hc) as SN. destruct (@scan_squeeze v [] 0 Hv He eq_refl) as (q' & O & SC). cbn [app] in SC.
    unfold space in Hc. apply not_true_is_false in Hc.
    assert (T : trim (p ++ value_text v ++ q) = c :: r).
    { rewrite E. apply trim_core; [exact Hp|exact Hq|apply space_blank; exact Hc|]. destruct NB as [NB|(a & d & NB & Hd)]; [congruence|]. exists a, d. split; [congruence|].
      destruct (blank d) eqn:Qd; [exfalso|reflexivity]. apply Hd. apply blank_pad; [|exact Qd]. intros ->. apply (value_newline Hv). rewrite NB. apply in_app_iff. right. left. reflexivity. }
    unfold parseLine. rewrite T. destruct (Ascii.eqb_spec c "["%char) as [->|_]; [contradiction|]. rewrite <- E, SC. rewrite O.
    destruct (squeeze v) as [|x y] eqn:EV; [contradiction|]. cbn [length Nat.ltb Nat.leb]. 
    destruct s as [a b i]. cbn [ps_main ps_key ps_ini] in *. destruct b as [|b0 b]; [contradiction|]. cbn [length Nat.ltb Nat.leb andb]. destruct a as [|a0 a]; reflexivity.
Qed.

(** the final newline may be missing: the last line is then read as well (or was empty) *)
Lemma getlines_final t : getlines (t ++ [newline]) = getlines t \/ getlines (t ++ [newline]) = getlines t ++ [[]].
Proof.
  induction t as [|c t IH]; [right; reflexivity|]. cbn [app getlines]. destruct (Ascii.eqb c newline).
  - destruct IH as [-> | ->]; [left|right]; reflexivity.
  - destruct IH as [-> | ->]; [left; reflexivity|]. destruct (getlines t) as [|l ls]; [left|right]; reflexivity.
Qed.
Lemma parseLines_app p a b : parseLines p (a ++ b) = match parseLines p a with (p', Ok tt) => parseLines p' b | (p', e) => (p', e) end.
Proof.
  revert p; induction a as [|l a IH]; intros p; cbn [app parseLines]; [reflexivity|].
  destruct (parseLine p l) as [p' [[]|e| |]]; auto.
Qed.
Lemma parse_final i t : readFileName i (Some (t ++ [newline])) = readFileName i (Some t).
Proof.
  unfold readFileName. destruct (getlines_final t) as [-> | ->]; [reflexivity|]. rewrite parseLines_app.
  destruct (parseLines _ (getlines t)) as [p [[]|e| |]]; reflexivity.
Qed.

(** sorted sections and sections' maps *)
Definition ini_sorted (i : ini) : Prop :=
  msorted sltb (ini_contents i) /\ Forall (fun e => msorted sltb (snd e)) (ini_contents i).
Lemma section_sorted i s : ini_sorted i -> msorted sltb (section_or_empty i s).
Proof.
  intros [H1 H2]. unfold section_or_empty. destruct (mfind sltb s (ini_contents i)) as [m|] eqn:E; [|apply smsorted_nil].
  apply (smfind_In s m H1) in E. apply (proj1 (Forall_forall _ _) H2) in E. exact E.
Qed.
Lemma set_value_sorted i s k v : ini_sorted i -> ini_sorted (set_value i s k v).
Proof.
  intros H. split; cbn [set_value ini_contents].
  - apply smset_sorted. exact (proj1 H).
  - apply Forall_forall. intros e I. apply (smset_In _ _ _ (proj1 H)) in I. destruct I as [->|[_ I]].
    + cbn. apply smset_sorted. apply section_sorted. exact H.
    + exact (proj1 (Forall_forall _ _) (proj2 H) e I).
Qed.
Lemma set_value_lookup i s k v s' k' : ini_sorted i ->
  mfind sltb k' (section_or_empty (set_value i s k v) s') = if String.eqb s s' && String.eqb k k' then Some v else mfind sltb k' (section_or_empty i s').
Proof.
  intros H. unfold section_or_empty at 1. cbn [set_value ini_contents].
  destruct (String.eqb_spec s s') as [->|Ns]; cbn [andb].
  - rewrite smfind_mset_same. destruct (String.eqb_spec k k') as [->|Nk]; [apply smfind_mset_same|].
    apply smfind_mset_other; [exact Nk|]. apply section_sorted. exact H.
  - rewrite smfind_mset_other by (try exact Ns; exact (proj1 H)). reflexivity.
Qed.

Lemma str_app a b : str (a ++ b) = (str a ++ str b)%string.
Proof. induction a as [|c a IH]; cbn; [reflexivity|]. f_equal. exact IH. Qed.
Lemma append_value_found i s k v w : mfind sltb k (section_or_empty i s) = Some v -> append_value i s k w = set_value i s k (v ++ w)%string.
Proof. intros H. unfold append_value. rewrite H. reflexivity. Qed.
Lemma more_lines more : Forall more_ok more -> forall m k i v, k <> [] -> ini_sorted i -> mfind sltb (str k) (section_or_empty i (str m)) = Some (str v) ->
  exists i', parseLines (mkParse m k i) (map more_text more) = (mkParse m k i', Ok tt) /\ ini_sorted i' /\ ini_sections i' = ini_sections i /\
    forall s' k', mfind sltb k' (section_or_empty i' s') =
      if String.eqb (str m) s' && String.eqb (str k) k' then Some (str (v ++ continuation (str m) more)) else mfind sltb k' (section_or_empty i s').
Proof.
  induction 1 as [|x more Hx _ IH]; intros m k i v K Hs F; cbn [map parseLines].
  - exists i. split; [reflexivity|]. split; [exact Hs|]. split; [reflexivity|]. intros s' k'. assert (C0 : continuation (str m) [] = []) by (unfold continuation; destruct (String.eqb (str m) ""); reflexivity).
    rewrite C0. rewrite app_nil_r. destruct (String.eqb_spec (str m) s') as [<-|_]; [|reflexivity]. destruct (String.eqb_spec (str k) k') as [<-|_]; [exact F|reflexivity].
  - rewrite (@more_line (mkParse m k i) x Hx K). cbn [ps_main ps_key ps_ini].
    assert (ST : exists i1, (if Nat.ltb 0 (length m) then match squeeze (snd (fst x)) with [] => i | _ => append_value i (str m) (str k) (str (squeeze (snd (fst x)))) end else i) = i1 /\
      ini_sorted i1 /\ ini_sections i1 = ini_sections i /\ forall s' k', mfind sltb k' (section_or_empty i1 s') =
        if String.eqb (str m) s' && String.eqb (str k) k' then Some (str (v ++ if String.eqb (str m) "" then [] else squeeze (snd (fst x)))) else mfind sltb k' (section_or_empty i s')).
    { eexists. split; [reflexivity|].
      assert (SAME : forall s' k', mfind sltb k' (section_or_empty i s') = if String.eqb (str m) s' && String.eqb (str k) k' then Some (str (v ++ [])) else mfind sltb k' (section_or_empty i s')).
      { intros s' k'. rewrite app_nil_r. destruct (String.eqb_spec (str m) s') as [<-|_]; [|reflexivity]. destruct (String.eqb_spec (str k) k') as [<-|_]; [exact F|reflexivity]. }
      destruct m as [|m0 m]; cbn [length Nat.ltb Nat.leb str string_of_list_ascii String.eqb].
      - split; [exact Hs|]. split; [reflexivity|exact SAME].
      - destruct (squeeze (snd (fst x))) as [|y ys] eqn:EV; [split; [exact Hs|]; split; [reflexivity|exact SAME]|].
        rewrite (@append_value_found _ _ _ _ _ F). split; [apply set_value_sorted, Hs|]. split; [reflexivity|]. intros s' k'. rewrite set_value_lookup by exact Hs. rewrite str_app. reflexivity. }
    destruct ST as (i1 & E1 & S1 & SEC1 & L1).
    replace (if Nat.ltb 0 (length m) then _ else i) with i1 by (rewrite <- E1; destruct (Nat.ltb 0 (length m)); [|reflexivity]; destruct (squeeze (snd (fst x))); reflexivity).
    destruct (IH m k i1 (v ++ if String.eqb (str m) "" then [] else squeeze (snd (fst x))) K S1) as (i' & P & S' & SEC & L).
    { rewrite L1, !String.eqb_refl. reflexivity. }
    exists i'. split; [exact P|]. split; [exact S'|]. split; [congruence|]. intros s' k'. rewrite L, L1. unfold continuation. cbn [map concat].
    destruct (String.eqb (str m) s' && String.eqb (str k) k'); [|reflexivity]. destruct (String.eqb (str m) ""); rewrite <- ?app_assoc; reflexivity.
Qed.

(** the invariant of the reading loop *)
Lemma document_parse d : Forall line_ok d -> forall p, ini_sorted (ps_ini p) ->
  exists main key i, parseLines p (flat_map line_texts d) = (mkParse main key i, Ok tt) /\ ini_sorted i /\
    ini_sections i = ini_sections (ps_ini p) ++ sections_of d /\
    forall s k, mfind sltb k (section_or_empty i s) =
      match last_value s k (entries_from (str (ps_main p)) d) with Some v => Some v | None => mfind sltb k (section_or_empty (ps_ini p) s) end.
Proof.
  induction 1 as [|l d Hl Hd IH]; intros [m k0 i0] Hs; cbn [flat_map parseLines ps_ini ps_main] in *.
  - exists m, k0, i0. repeat split; auto; try apply Hs. cbn. now rewrite app_nil_r.
  - destruct l as [q|q name tail|q key value q'|q key value q' more]; cbn [line_texts app parseLines].
    + cbn [line_ok] in *. unfold parseLine. rewrite trim_blank by exact Hl. cbn [sections_of flat_map app entries_from].
      destruct (IH (mkParse m k0 i0) Hs) as (m' & k' & i' & E & H1 & H2 & H3). exists m', k', i'. auto.
    + rewrite header_line by exact Hl. cbn [ps_ini ps_key].
      destruct (IH (mkParse name k0 (mkIni (ini_sections i0 ++ [str name]) (ini_contents i0))) Hs) as (m' & k' & i' & E & H1 & H2 & H3).
      exists m', k', i'. split; [exact E|]. split; [exact H1|]. split.
      * rewrite H2. cbn [ps_ini ini_sections sections_of flat_map app]. now rewrite <- app_assoc.
      * intros s k. rewrite H3. cbn [ps_ini ps_main entries_from]. reflexivity.
    + rewrite entry_line by exact Hl. cbn [ps_ini ps_key ps_main].
      destruct (IH (mkParse m (key_of key) (set_value i0 (str m) (str (key_of key)) (str (value_text value)))) (set_value_sorted _ _ _ Hs))
        as (m' & k' & i' & E & H1 & H2 & H3).
      exists m', k', i'. split; [exact E|]. split; [exact H1|]. split; [rewrite H2; reflexivity|].
      intros s k. rewrite H3. cbn [ps_ini ps_main entries_from last_value].
      destruct (last_value s k (entries_from (str m) d)); [reflexivity|]. rewrite set_value_lookup by exact Hs.
      destruct (String.eqb (str m) s && String.eqb (str (key_of key)) k); reflexivity.
    + destruct Hl as [He Hm]. rewrite entry_line by exact He. cbn [ps_ini ps_key ps_main].
      assert (K : key_of key <> []).
      { destruct He as (_ & _ & _ & (c & r & -> & Hc & _) & _). unfold space in Hc. apply not_true_is_false in Hc. cbn [key_of filter]. rewrite Hc. discriminate. }
      destruct (@more_lines more Hm m (key_of key) (set_value i0 (str m) (str (key_of key)) (str (value_text value))) (value_text value) K (set_value_sorted _ _ _ Hs)) as (i1 & P1 & S1 & SEC1 & L1).
      { rewrite set_value_lookup by exact Hs. rewrite !String.eqb_refl. reflexivity. }
      rewrite parseLines_app, P1.
      destruct (IH (mkParse m (key_of key) i1) S1) as (m' & k' & i' & E & H1 & H2 & H3).
      exists m', k', i'. split; [exact E|]. split; [exact H1|]. split; [rewrite H2; cbn [ps_ini]; rewrite SEC1; reflexivity|].
      intros s k. rewrite H3. cbn [ps_ini ps_main entries_from last_value].
      destruct (last_value s k (entries_from (str m) d)); [reflexivity|]. rewrite L1, set_value_lookup by exact Hs.
      destruct (String.eqb (str m) s && String.eqb (str (key_of key)) k); reflexivity.
Qed.
Lemma new_sorted : ini_sorted ini_new.
Proof. split; [apply smsorted_nil|constructor]. Qed.
Lemma parseLine_sorted p t : ini_sorted (ps_ini p) -> ini_sorted (ps_ini (fst (parseLine p t))).
Proof.
  intros H. unfold parseLine. destruct (trim t) as [|c r]; [exact H|]. destruct (Ascii.eqb c "["%char).
  - destruct (headerScan r 1 1 0) as [[n p1]|]; [|exact H]. destruct (negb (Nat.eqb n 2) || Nat.ltb (p1 - 1) 1); [exact H|]. exact H.
  - destruct (scan (c :: r) [] 0 0) as [[tmp nq] eq]. destruct (Nat.odd nq); [exact H|]. destruct (Nat.ltb (length tmp) 1); [exact H|].
    destruct (Nat.ltb 0 eq); [apply set_value_sorted; exact H|]. destruct (_ && _); [|exact H]. apply set_value_sorted. exact H.
Qed.
Lemma parseLines_sorted ls p : ini_sorted (ps_ini p) -> ini_sorted (ps_ini (fst (parseLines p ls))).
Proof.
  revert p; induction ls as [|l ls IH]; intros p H; cbn [parseLines]; [exact H|]. pose proof (parseLine_sorted p l H) as K.
  destruct (parseLine p l) as [p' [[]|e| |]]; auto. 
Qed.
Lemma readFileName_sorted i f : ini_sorted i -> ini_sorted (fst (readFileName i f)).
Proof.
  intros H. destruct f as [t|]; [|exact H]. unfold readFileName.
  pose proof (parseLines_sorted (getlines t) (mkParse [] [] (mkIni [] (ini_contents i))) H) as K.
  destruct (parseLines _ _). exact K.
Qed.
Lemma readSection_sorted i k cs : ini_sorted i -> ini_sorted (fst (readSection i k cs)).
Proof.
  intros H. unfold readSection. destruct (mfind sltb k (ini_contents i)); [exact H|]. destruct cs; [exact H|].
  destruct (findSection _ _); [|exact H]. split; cbn [fst ini_contents].
  - apply smset_sorted. apply H.
  - apply Forall_forall. intros e I. apply (smset_In _ _ _ (proj1 H)) in I. destruct I as [->|[_ I]].
    + cbn. apply section_sorted. exact H.
    + exact (proj1 (Forall_forall _ _) (proj2 H) e I).
Qed.
Lemma readSection_sensitive i s : snd (readSection i s true) = section_or_empty i s.
Proof. unfold readSection, section_or_empty. destruct (mfind sltb s (ini_contents i)); reflexivity. Qed.

(** *** case *)
Lemma smap_chars_length f s : String.length (smap_chars f s) = String.length s.
Proof. induction s; cbn; congruence. Qed.
Lemma differs_spec s t : String.length s = String.length t -> (differs s t = true <-> smap_chars toupper s <> t).
Proof.
  revert t; induction s as [|a s IH]; intros [|b t] H; cbn in H; try discriminate.
  - cbn. split; [discriminate|congruence].
  - cbn. destruct (Ascii.eqb_spec (toupper a) b) as [->|Q].
    + rewrite IH by congruence. split; intros K; [intros E; injection E; exact K|congruence].
    + split; [intros _ E; injection E; congruence|reflexivity].
Qed.
Lemma findSection_spec l key :
  match findSection l (toUpper key) with
  | Some s => exists a b, l = a ++ s :: b /\ String.length s = String.length key /\ ~ same_letters s key /\
                Forall (fun x => String.length x <> String.length key \/ same_letters x key) a
  | None => Forall (fun x => String.length x <> String.length key \/ same_letters x key) l
  end.
Proof.
  induction l as [|x l IH]; cbn [findSection]; [constructor|]. unfold toUpper at 1. rewrite smap_chars_length.
  destruct (Nat.eqb_spec (String.length x) (String.length key)) as [E|E]; cbn [andb].
  - assert (E' : String.length x = String.length (toUpper key)) by (unfold toUpper; rewrite smap_chars_length; exact E).
    destruct (differs x (toUpper key)) eqn:D.
    + exists [], l. split; [reflexivity|]. split; [exact E|]. split; [|constructor]. exact (proj1 (differs_spec _ _ E') D).
    + assert (S : same_letters x key).
      { unfold same_letters. destruct (string_dec (smap_chars toupper x) (smap_chars toupper key)) as [Q|Q]; [exact Q|].
        apply (differs_spec _ _ E') in Q. congruence. }
      destruct (findSection l (toUpper key)) as [s|]; [|constructor; auto].
      destruct IH as (a & b & -> & H1 & H2 & H3). exists (x :: a), b. repeat split; auto.
  - destruct (findSection l (toUpper key)) as [s|]; [|constructor; auto].
    destruct IH as (a & b & -> & H1 & H2 & H3). exists (x :: a), b. repeat split; auto.
Qed.
Lemma smap_chars_app f s t : smap_chars f (s ++ t) = (smap_chars f s ++ smap_chars f t)%string.
Proof. induction s; cbn; congruence. Qed.
Lemma substring_prefix n s : String.length (String.substring 0 n s) = n -> exists r, s = (String.substring 0 n s ++ r)%string.
Proof.
  revert s; induction n as [|n IH]; intros s H; [exists s; destruct s; reflexivity|]. destruct s as [|c s]; cbn in H; [discriminate|].
  destruct (IH s) as [r E]; [congruence|]. exists r. cbn. congruence.
Qed.
Lemma substring_app p r : String.substring 0 (String.length p) (p ++ r) = p.
Proof. induction p as [|c p IH]; cbn; [destruct r; reflexivity|congruence]. Qed.
Lemma substring_eq p s : String.substring 0 (String.length p) s = p <-> exists r, s = (p ++ r)%string.
Proof.
  split; [|intros [r ->]; apply substring_app]. intros H. destruct (@substring_prefix (String.length p) s) as [r E]; [now rewrite H|]. exists r. congruence.
Qed.

(** ** A checker for concrete documents *)
Definition none_ofb (f : list ascii) (t : text) : bool := forallb (fun c => negb (existsb (Ascii.eqb c) f)) t.
Definition padcb (c : ascii) : bool := Ascii.eqb c " "%char || Ascii.eqb c tab || Ascii.eqb c creturn.
Definition padb (t : text) : bool := forallb padcb t.
Definition pieceb (p : piece) : bool :=
  match p with Plain t => none_ofb [""""; "#"; ";"; newline]%char t | Quoted t => none_ofb [""""; newline]%char t end.
Definition endb (t : text) : bool := match rev t with [] => true | c :: _ => negb (padcb c) end.
Definition firstb (t : text) : bool := match t with [] => false | c :: _ => negb (isspace c) && negb (Ascii.eqb c "["%char) end.
Definition entryb (p key : text) (v : list piece) (q : text) : bool :=
  padb p && (padb q && (none_ofb ["="; """"; "#"; ";"; newline]%char key && (firstb key && (forallb pieceb v && endb (value_text v))))).
Definition moreb (m : text * list piece * text) : bool :=
  let '(p, v, q) := m in
  padb p && (padb q && (forallb pieceb v && (forallb (fun x => match x with Plain t => none_ofb ["="%char] t | Quoted _ => true end) v &&
   (match value_text v with [] => true | _ => false end || (firstb (value_text v) && endb (value_text v)))))).
Definition lineb (l : line) : bool :=
  match l with
  | Blank p => padb p
  | Header p name tail => padb p && (match name with [] => false | _ => true end && (none_ofb ["["; "]"; newline]%char name && none_ofb ["["; "]"; newline]%char tail))
  | Entry p key v q => entryb p key v q
  | Long p key v q more => entryb p key v q && forallb moreb more
  end.
Lemma none_ofb_ok f t : none_ofb f t = true -> none_of f t.
Proof.
  intros K. apply Forall_forall. intros c I J. unfold none_ofb in K. rewrite forallb_forall in K. specialize (K c I). apply negb_true_iff in K.
  assert (X : existsb (Ascii.eqb c) f = true) by (apply existsb_exists; exists c; split; [exact J|apply Ascii.eqb_refl]). congruence.
Qed.
Lemma padcb_iff c : padcb c = true <-> pad_char c.
Proof. unfold padcb, pad_char. rewrite !orb_true_iff, !Ascii.eqb_eq. tauto. Qed.
Lemma padb_ok t : padb t = true -> pad t.
Proof. intros H. apply Forall_forall. intros c I. unfold padb in H. rewrite forallb_forall in H. apply padcb_iff, H, I. Qed.
Lemma pieceb_ok v : forallb pieceb v = true -> Forall piece_ok v.
Proof.
  intros H. apply Forall_forall. intros p I. rewrite forallb_forall in H. specialize (H p I). destruct p; cbn in *; apply none_ofb_ok, H.
Qed.
Lemma endb_ok t : endb t = true -> no_blank_end t.
Proof.
  unfold endb. intros H. destruct (rev t) as [|c r] eqn:E; [left; apply (f_equal (@rev _)) in E; rewrite rev_involutive in E; exact E|].
  right. exists (rev r), c. split; [apply (f_equal (@rev _)) in E; rewrite rev_involutive in E; cbn in E; exact E|]. rewrite <- padcb_iff. apply negb_true_iff in H. congruence.
Qed.
Lemma firstb_ok t : firstb t = true -> exists c r, t = c :: r /\ ~ space c /\ c <> "["%char.
Proof.
  destruct t as [|c r]; [discriminate|]. cbn [firstb]. intros H. apply andb_true_iff in H. destruct H as [H1 H2]. exists c, r. split; [reflexivity|].
  split; [unfold space; apply negb_true_iff in H1; congruence|]. intros ->. discriminate.
Qed.
Lemma lineb_ok l : lineb l = true -> line_ok l.
Proof.
  assert (EN : forall p k v q, entryb p k v q = true -> entry_ok p k v q).
  { intros p k v q H. unfold entryb in H. rewrite !andb_true_iff in H. destruct H as (H1 & H2 & H3 & H4 & H5 & H6).
    split; [apply padb_ok, H1|]. split; [apply padb_ok, H2|]. split; [apply none_ofb_ok, H3|]. split; [apply firstb_ok, H4|]. split; [apply pieceb_ok, H5|apply endb_ok, H6]. }
  destruct l as [p|p n t|p k v q|p k v q more]; cbn [lineb line_ok].
  - apply padb_ok.
  - rewrite !andb_true_iff. intros (H1 & H2 & H3 & H4). split; [apply padb_ok, H1|]. split; [destruct n; [discriminate H2|discriminate]|]. split; apply none_ofb_ok; assumption.
  - apply EN.
  - rewrite andb_true_iff. intros [H1 H2]. split; [apply EN, H1|]. apply Forall_forall. intros [[a w] b] I. rewrite forallb_forall in H2. specialize (H2 _ I). cbn in H2.
    rewrite !andb_true_iff, orb_true_iff in H2. destruct H2 as (A1 & A2 & A3 & A4 & A5). cbn [more_ok]. split; [apply padb_ok, A1|]. split; [apply padb_ok, A2|]. split; [apply pieceb_ok, A3|].
    split.
    + apply Forall_forall. intros x Ix. rewrite forallb_forall in A4. specialize (A4 x Ix). destruct x; [apply none_ofb_ok, A4|exact Logic.I].
    + destruct A5 as [A5|A5]; [left; destruct (value_text w); [reflexivity|discriminate A5]|right]. apply andb_true_iff in A5. split; [apply firstb_ok, A5|apply endb_ok, A5].
Qed.
Lemma documentb_ok d : forallb lineb d = true -> Forall line_ok d.
Proof. intros H. apply Forall_forall. intros l I. rewrite forallb_forall in H. apply lineb_ok, H, I. Qed.
