(** C40, C41: INI files. *)
From Coq Require Import Ascii String List Bool Arith Lia.
From Verif Require Import Base.Res Base.SMap Base.Str Base.Text Model.SimpleIni Spec.IniSpec Proofs.IniProofs.
Import ListNotations.
Set Implicit Arguments.
Local Open Scope string_scope.

(** histories of calls on one object *)
Inductive ini_op := Read (file : option text) | Section_ (name : string) (caseSensitive : bool).
Definition ini_call (i : ini) (o : ini_op) : ini :=
  match o with Read f => fst (readFileName i f) | Section_ n cs => fst (readSection i n cs) end.
Definition ini_run (l : list ini_op) : ini := fold_left ini_call l ini_new.
Lemma ini_run_sorted l : ini_sorted (ini_run l).
Proof.
  unfold ini_run. assert (H : forall i, ini_sorted i -> ini_sorted (fold_left ini_call l i)); [|apply H; apply new_sorted].
  induction l as [|o l IH]; intros i H; cbn [fold_left]; [exact H|]. apply IH. destruct o; cbn [ini_call]; [apply readFileName_sorted|apply readSection_sorted]; exact H.
Qed.

(** ** C40 *)
(** Every well-formed document, with or without its final newline, is read without error; the
    sections are its headers in order, and every section has exactly the keys and values of the
    document, the last value winning; keys before the first header belong to the section "". *)
Theorem C40_read (d : document) (t : text) :
  Forall line_ok d -> t = document_text d \/ document_text d = (t ++ [newline])%list ->
  let r := readFileName ini_new (Some t) in
  snd r = Ok tt /\ getSections (fst r) = sections_of d /\
  forall s, let m := snd (readSection (fst r) s true) in
    msorted sltb m /\ forall k, mfind sltb k m = value_of d s k.
Proof.
  intros Hd Ht. cbv zeta.
  assert (E : readFileName ini_new (Some t) = readFileName ini_new (Some (document_text d))).
  { destruct Ht as [-> | ->]; [reflexivity|]. symmetry. apply parse_final. }
  rewrite E. unfold readFileName. rewrite document_lines by exact Hd. cbn [ini_contents ini_new].
  destruct (@document_parse d Hd (mkParse [] [] (mkIni [] [])) new_sorted) as (m & k & i & -> & H1 & H2 & H3). cbn [fst snd ps_ini].
  split; [reflexivity|]. split; [exact H2|]. intros s. rewrite readSection_sensitive. split; [apply section_sorted; exact H1|].
  intros k'. rewrite H3. cbn [ps_main ps_ini]. unfold value_of, entries_of. change (str []) with "". now destruct (last_value s k' (entries_from "" d)).
Qed.
(** On an object used before, values of sections and keys absent from the new document survive:
    the object is the union of everything ever read, newer values winning (the sections are those
    of the last file only). *)
Theorem C40_reread (h : list ini_op) (d : document) :
  Forall line_ok d ->
  let i := ini_run h in let r := readFileName i (Some (document_text d)) in
  snd r = Ok tt /\ getSections (fst r) = sections_of d /\
  forall s k, mfind sltb k (snd (readSection (fst r) s true)) =
    match value_of d s k with Some v => Some v | None => mfind sltb k (snd (readSection i s true)) end.
Proof.
  intros Hd. cbv zeta. pose proof (ini_run_sorted h) as Hs. unfold readFileName. rewrite document_lines by exact Hd.
  destruct (@document_parse d Hd (mkParse [] [] (mkIni [] (ini_contents (ini_run h)))) Hs) as (m & k & i & -> & H1 & H2 & H3).
  cbn [fst snd ps_ini]. split; [reflexivity|]. split; [exact H2|]. intros s k'. rewrite !readSection_sensitive, H3. reflexivity.
Qed.
(** So reading a file on a used object does not expose exactly that file. *)
Theorem C40_reread_refuted :
  ~ forall (h : list ini_op) (d : document), Forall line_ok d ->
    forall s k, mfind sltb k (snd (readSection (fst (readFileName (ini_run h) (Some (document_text d)))) s true)) = value_of d s k.
Proof.
  intros H. specialize (H [Read (Some (list_ascii_of_string "a=1"))] [] (Forall_nil _) "" "a"). vm_compute in H. discriminate.
Qed.
(** A file that cannot be opened throws and leaves the object unchanged. *)
Theorem C40_missing_file (i : ini) : readFileName i None = (i, Throw IosFailure).
Proof. reflexivity. Qed.

(** Headers with a second '[', with no or several ']', or with an empty name are refused, and so
    are lines with an odd number of quotes, wherever they appear after a well-formed beginning. *)
Definition bad_header (l : text) : Prop :=
  exists p t, l = (p ++ "["%char :: t)%list /\ pad p /\ ~ In newline t /\
    (In "["%char t \/ count_occ ascii_dec t "]"%char <> 1 \/ exists t', t = "]"%char :: t').
Definition odd_quotes (l : text) : Prop :=
  exists p c r, l = (p ++ c :: r)%list /\ pad p /\ ~ pad_char c /\ c <> "["%char /\ none_of ["#"; ";"; newline]%char (c :: r) /\
    Nat.odd (count_occ ascii_dec (c :: r) """"%char) = true.
Lemma headerScan_bad t : forall i n p, match headerScan t i n p with None => In "["%char t | Some (n', _) => ~ In "["%char t /\ n' = n + count_occ ascii_dec t "]"%char end.
Proof.
  induction t as [|c t IH]; intros i n p; cbn [headerScan]; [split; [intros []|cbn; lia]|].
  destruct (Ascii.eqb_spec c "["%char) as [->|Q1]; [left; reflexivity|]. destruct (Ascii.eqb_spec c "]"%char) as [->|Q2].
  - specialize (IH (S i) (S n) i). destruct (headerScan t (S i) (S n) i) as [[n' p']|]; [|right; exact IH]. destruct IH as [H1 H2]. split.
    + intros [K|K]; [discriminate|contradiction].
    + cbn [count_occ]. destruct (ascii_dec "]"%char "]"%char); [lia|contradiction].
  - specialize (IH (S i) n p). destruct (headerScan t (S i) n p) as [[n' p']|]; [|right; exact IH]. destruct IH as [H1 H2]. split.
    + intros [K|K]; [contradiction|contradiction].
    + cbn [count_occ]. destruct (ascii_dec c "]"%char); [contradiction|lia].
Qed.
Lemma headerScan_position t i p : count_occ ascii_dec t "]"%char = 0 -> ~ In "["%char t -> headerScan t i 2 p = Some (2, p).
Proof.
  revert i; induction t as [|c t IH]; intros i H H'; cbn [headerScan]; [reflexivity|]. cbn [count_occ] in H.
  destruct (ascii_dec c "]"%char) as [->|Q]; [lia|]. destruct (Ascii.eqb_spec c "["%char) as [->|Q1]; [exfalso; apply H'; left; reflexivity|].
  destruct (Ascii.eqb_spec c "]"%char); [contradiction|]. apply IH; [exact H|intros K; apply H'; right; exact K].
Qed.
Lemma rstrip_count (c : ascii) t : blank c = false -> count_occ ascii_dec (rstrip blank t) c = count_occ ascii_dec t c /\ (In c (rstrip blank t) <-> In c t).
Proof.
  intros H. destruct (rstrip_prefix blank t) as (b & E & Hb). rewrite E at 2 4. rewrite count_occ_app.
  assert (Z : ~ In c b) by (intros K; apply (proj1 (Forall_forall _ _) Hb) in K; congruence).
  rewrite (proj1 (count_occ_not_In ascii_dec b c) Z), in_app_iff. split; [lia|tauto].
Qed.
Lemma bad_header_throws p l : bad_header l -> parseLine p l = (p, Throw InvalidArgument).
Proof.
  intros (q & t & -> & Hq & Hn & H). unfold parseLine. assert (T : trim (q ++ "["%char :: t)%list = "["%char :: rstrip blank t).
  { unfold trim. rewrite rstrip_split by reflexivity. unfold lstrip. rewrite drop_while_app by (apply pad_blank; exact Hq). reflexivity. }
  rewrite T. change (Ascii.eqb "["%char "["%char) with true. cbv iota.
  destruct (rstrip_count "["%char t eq_refl) as [_ I1]. destruct (rstrip_count "]"%char t eq_refl) as [C2 _].
  pose proof (headerScan_bad (rstrip blank t) 1 1 0) as S. destruct (headerScan (rstrip blank t) 1 1 0) as [[n p1]|] eqn:E; [|reflexivity].
  destruct S as [S1 S2]. rewrite C2 in S2. destruct H as [H|[H|[t' ->]]].
  - exfalso. apply S1. apply I1. exact H.
  - destruct (Nat.eqb_spec n 2); [lia|]. reflexivity.
  - destruct (Nat.eqb_spec n 2) as [N2|]; [|reflexivity]. cbn [negb orb]. change ("]"%char :: t') with ([] ++ "]"%char :: t')%list in E. rewrite rstrip_split in E by reflexivity. cbn [app headerScan] in E.
    change (Ascii.eqb "]"%char "["%char) with false in E. change (Ascii.eqb "]"%char "]"%char) with true in E. cbv iota in E.
    cbn [count_occ] in S2. destruct (ascii_dec "]"%char "]"%char) as [_|]; [|contradiction].
    destruct (rstrip_count "]"%char t' eq_refl) as [C3 _]. rewrite headerScan_position in E; [|lia|].
    + injection E as <- <-. reflexivity.
    + intros K. apply S1. change ("]"%char :: t') with ([] ++ "]"%char :: t')%list. rewrite rstrip_split by reflexivity. right. exact K.
Qed.
Lemma scan_quotes t tmp q eq : none_of ["#"; ";"; newline]%char t -> snd (fst (scan t tmp q eq)) = q + count_occ ascii_dec t """"%char.
Proof.
  revert tmp q eq; induction t as [|c t IH]; intros tmp q eq H; cbn [scan]; [cbn; lia|]. inversion H as [|x y Hc Ht]; subst. cbn [count_occ].
  destruct (Ascii.eqb_spec c """"%char) as [->|Q]; [rewrite IH by exact Ht; destruct (ascii_dec """"%char """"%char); [lia|contradiction]|].
  destruct (ascii_dec c """"%char) as [Q'|_]; [contradiction|]. destruct (Nat.odd q); [apply IH; exact Ht|].
  destruct (Ascii.eqb_spec c "#"%char) as [->|_]; [exfalso; apply Hc; cbn; auto|]. destruct (Ascii.eqb_spec c ";"%char) as [->|_]; [exfalso; apply Hc; cbn; auto|].
  cbn [orb]. apply IH. exact Ht.
Qed.
Lemma odd_quotes_throws p l : odd_quotes l -> parseLine p l = (p, Throw InvalidArgument).
Proof.
  intros (q & c & r & -> & Hq & Hc & Hb & Hn & Ho). assert (Nc : c <> newline) by (intros ->; inversion Hn as [|x y K _]; apply K; cbn; auto).
  assert (Bc : blank c = false) by (destruct (blank c) eqn:Q; [exfalso; apply Hc; apply blank_pad; assumption|reflexivity]).
  unfold parseLine. assert (T : trim (q ++ c :: r)%list = c :: rstrip blank r).
  { unfold trim. rewrite rstrip_split by exact Bc. unfold lstrip. rewrite drop_while_app by (apply pad_blank; exact Hq). apply drop_while_hd. exact Bc. }
  rewrite T. destruct (Ascii.eqb_spec c "["%char); [contradiction|].
  assert (Hn' : none_of ["#"; ";"; newline]%char (c :: rstrip blank r)).
  { inversion Hn as [|x y K1 K2]; subst. constructor; [exact K1|]. destruct (rstrip_prefix blank r) as (b & E & _). rewrite E in K2. apply Forall_app in K2. apply K2. }
  pose proof (@scan_quotes (c :: rstrip blank r) [] 0 0 Hn') as S. destruct (scan (c :: rstrip blank r) [] 0 0) as [[tmp nq] eq]. cbn [fst snd] in S.
  assert (C : count_occ ascii_dec (c :: rstrip blank r) """"%char = count_occ ascii_dec (c :: r) """"%char) by (cbn [count_occ]; rewrite (proj1 (rstrip_count """"%char r eq_refl)); reflexivity).
  rewrite S, C. cbn [plus]. rewrite Ho. reflexivity.
Qed.
Theorem C40_bad_lines_rejected (d : document) (l rest : text) :
  Forall line_ok d -> bad_header l \/ odd_quotes l ->
  let r := readFileName ini_new (Some (document_text d ++ l ++ newline :: rest)%list) in
  snd r = Throw InvalidArgument /\ getSections (fst r) = sections_of d /\
  forall s k, mfind sltb k (snd (readSection (fst r) s true)) = value_of d s k.
Proof.
  intros Hd Hl. cbv zeta. unfold readFileName.
  assert (Nl : ~ In newline l).
  { destruct Hl as [(p & t & -> & Hp & Hn & _)|(p & c & r & -> & Hp & _ & _ & Hn & _)]; intros I; apply in_app_iff in I.
    - destruct I as [I|[I|I]]; [exact (pad_newline Hp I)|discriminate|contradiction].
    - destruct I as [I|I]; [exact (pad_newline Hp I)|]. revert I. eapply none_of_not_in; [exact Hn|cbn; auto]. }
  assert (G : getlines (document_text d ++ l ++ newline :: rest)%list = (flat_map line_texts d ++ l :: getlines rest)%list).
  { unfold document_text. rewrite lines_of by (apply document_newline, Hd). f_equal. apply getlines_line. exact Nl. }
  rewrite G, parseLines_app. cbn [ini_contents ini_new].
  destruct (@document_parse d Hd (mkParse [] [] (mkIni [] [])) new_sorted) as (m & k & i & -> & H1 & H2 & H3). cbn [parseLines].
  assert (B : parseLine (mkParse m k i) l = (mkParse m k i, Throw InvalidArgument)) by (destruct Hl; [apply bad_header_throws|apply odd_quotes_throws]; assumption).
  rewrite B. cbn [fst snd ps_ini]. split; [reflexivity|]. split; [exact H2|]. intros s k'. rewrite readSection_sensitive, H3.
  cbn [ps_main ps_ini]. unfold value_of, entries_of. change (str []) with "". now destruct (last_value s k' (entries_from "" d)).
Qed.

(** Comments are not transparent: '#' or ';' adds a NUL character to the value, both at the end of
    an entry and on a line of its own after an entry. *)
Theorem C40_comments_refuted :
  ~ forall (body comment : string),
      snd (readSection (fst (readFileName ini_new (Some (list_ascii_of_string body)))) "a" true) =
      snd (readSection (fst (readFileName ini_new (Some (list_ascii_of_string (body ++ "# " ++ comment))))) "a" true).
Proof. intros H. specialize (H ("[a]" ++ String newline "k=v") "c"). vm_compute in H. discriminate. Qed.
(** The current key survives a header: text without '=' after a new header is stored in the new
    section under the last key of the previous one. *)
Theorem C40_key_leaks_refuted :
  snd (readSection (fst (readFileName ini_new (Some (list_ascii_of_string ("[a]" ++ String newline ("k=v" ++ String newline ("[b]" ++ String newline "w"))))))) "b" true) = [("k", "w")].
Proof. vm_compute. reflexivity. Qed.

(** hypotheses met: two sections, padding, white space in a key, quotes, a comment character and an
    '=' inside a value, a redefinition, a repeated header and an entry of several lines *)
Definition T (s : string) : text := list_ascii_of_string s.
Example C40_document : document :=
  [Entry [] (T "top") [Plain (T "0")] []; Blank (T "  "); Header (T " ") (T "fit") (T " end"); Entry (T " ") (T "use key ") [Plain (T " a=b "); Quoted (T "x;#y")] [creturn];
   Header [] (T "fit.sub") []; Entry [] (T "k") [] [creturn]; Header [] (T "fit") []; Entry [] (T "k") [Plain (T "1")] []; Entry [] (T "k") [Plain (T "2")] (T " ");
   Long [] (T "list") [Plain (T " 1,")] (T " ") [(T "  ", [Plain (T "2, 3,")], []); (T " ", [], []); ([], [Quoted (T "a = b")], [])]].
Example C40_nonvacuous : Forall line_ok C40_document /\ sections_of C40_document = ["fit"; "fit.sub"; "fit"] /\
  value_of C40_document "fit" "k" = Some "2" /\ value_of C40_document "fit" "usekey" = Some " a=b ""x;#y""" /\ value_of C40_document "fit.sub" "k" = Some "" /\
  value_of C40_document "" "top" = Some "0" /\ value_of C40_document "fit" "list" = Some " 1,2,3,""a = b""".
Proof.
  split; [apply documentb_ok; vm_compute; reflexivity|vm_compute; auto 8].
Qed.

(** ** C41 *)
(** What readSection with caseSensitive = false does: contents stored under the exact name are
    returned; otherwise those of the first section of the same length that is NOT the given name up
    to letter case, and nothing if all sections of that length are. *)
Theorem C41_actual (i : ini) (name : string) :
  let r := snd (readSection i name false) in
  match mfind sltb name (ini_contents i) with
  | Some m => r = m
  | None =>
      (exists a s b, getSections i = (a ++ s :: b)%list /\ String.length s = String.length name /\ ~ same_letters s name /\
         Forall (fun x => String.length x <> String.length name \/ same_letters x name) a /\ r = snd (readSection i s true)) \/
      (Forall (fun x => String.length x <> String.length name \/ same_letters x name) (getSections i) /\ r = [])
  end.
Proof.
  cbv zeta. assert (R : mfind sltb name (ini_contents i) = None -> snd (readSection i name false) =
    match findSection (ini_sections i) (toUpper name) with Some s => section_or_empty i s | None => [] end).
  { intros E. unfold readSection. rewrite E. destruct (findSection _ _); reflexivity. }
  destruct (mfind sltb name (ini_contents i)) as [m|] eqn:E; [unfold readSection; rewrite E; reflexivity|].
  rewrite (R eq_refl). pose proof (findSection_spec (ini_sections i) name) as S. destruct (findSection (ini_sections i) (toUpper name)) as [s|].
  - left. destruct S as (a & b & H1 & H2 & H3 & H4). exists a, s, b. rewrite readSection_sensitive. auto.
  - right. auto.
Qed.
(** So a section whose name differs in case is never found: whatever is returned for a name without
    contents of its own comes from a section with a different name up to letter case. *)
Theorem C41_never_finds (d : document) (name : string) :
  Forall line_ok d ->
  let i := fst (readFileName ini_new (Some (document_text d))) in
  (forall k, value_of d name k = None) ->
  snd (readSection i name false) = [] \/
  exists s, In s (sections_of d) /\ ~ same_letters s name /\ String.length s = String.length name /\
            snd (readSection i name false) = snd (readSection i s true).
Proof.
  intros Hd i Hn. destruct (@C40_read d (document_text d) Hd (or_introl eq_refl)) as (_ & H2 & H3). fold i in H2, H3.
  pose proof (C41_actual i name) as A. cbv zeta in A. destruct (mfind sltb name (ini_contents i)) as [m|] eqn:E.
  - left. rewrite A. specialize (H3 name). cbv zeta in H3. rewrite readSection_sensitive in H3. unfold section_or_empty in H3. rewrite E in H3.
    destruct H3 as [_ H3]. destruct m as [|[k v] m]; [reflexivity|]. specialize (H3 k). rewrite Hn in H3. cbn in H3.
    rewrite (st_irrefl (StrictTotal := sltb_total)) in H3. discriminate.
  - destruct A as [(a & s & b & A1 & A2 & A3 & A4 & A5)|[A1 A2]]; [right|left; exact A2].
    exists s. repeat split; auto. rewrite <- H2, A1. apply in_app_iff. right. left. reflexivity.
Qed.
Theorem C41_refuted :
  ~ forall (d : document) (s name : string), Forall line_ok d -> In s (sections_of d) -> same_letters s name ->
      (forall s', In s' (sections_of d) -> same_letters s' name -> s' = s) ->
      snd (readSection (fst (readFileName ini_new (Some (document_text d)))) name false) =
      snd (readSection (fst (readFileName ini_new (Some (document_text d)))) s true).
Proof.
  intros H. specialize (H [Header [] (T "Fit") []; Entry [] (T "k") [] []] "Fit" "FIT").
  assert (W : Forall line_ok [Header [] (T "Fit") []; Entry [] (T "k") [] []]).
  { apply documentb_ok. vm_compute. reflexivity. }
  specialize (H W (or_introl eq_refl) eq_refl). assert (X : [] = [("k", "")]); [|discriminate].
  etransitivity; [|etransitivity; [apply H|]]; [vm_compute; reflexivity| |vm_compute; reflexivity]. intros s' [<-|[]] _. reflexivity.
Qed.
(** getSubsections with caseSensitive = false: the sections whose name starts with the parent and a
    dot up to letter case, in order; with parent "" all sections. *)
Theorem C41_subsections (i : ini) (parent : string) :
  getSubsections i "" true = getSections i /\ getSubsections i "" false = getSections i /\
  (parent <> "" -> exists f, getSubsections i parent false = filter f (getSections i) /\
     forall s, f s = true <-> exists a b, s = a ++ b /\ same_letters a (parent ++ ".")).
Proof.
  split; [reflexivity|]. split; [reflexivity|]. intros Hp. unfold getSubsections. destruct parent as [|c p]; [contradiction|]. cbn [Nat.eqb String.length].
  eexists. split; [reflexivity|]. intros s. cbv beta. set (P := String c p ++ "."). rewrite andb_true_iff, Nat.leb_le, String.eqb_eq. unfold same_letters, toUpper. rewrite !smap_chars_length.
  split.
  - intros [L E]. rewrite <- (smap_chars_length toupper P) in E. apply substring_eq in E. destruct E as [r E].
    exists (String.substring 0 (String.length P) s), (String.substring (String.length P) (String.length s - String.length P) s).
    assert (S : forall n s, n <= String.length s -> s = String.substring 0 n s ++ String.substring n (String.length s - n) s /\ String.length (String.substring 0 n s) = n).
    { clear. induction n as [|n IH]; intros s H.
      - split; [|destruct s; reflexivity]. rewrite Nat.sub_0_r. assert (forall s, String.substring 0 (String.length s) s = s) as F by (induction s0 as [|c s0 I]; cbn; congruence). rewrite F. destruct s; reflexivity.
      - destruct s as [|c s]; cbn in H; [lia|]. destruct (IH s) as [E1 E2]; [lia|]. cbn [String.length String.substring append Nat.sub]. split; [f_equal; exact E1|f_equal; exact E2]. }
    destruct (S (String.length P) s L) as [E1 E2]. split; [exact E1|].
    assert (Q : smap_chars toupper (String.substring 0 (String.length P) s) ++ smap_chars toupper (String.substring (String.length P) (String.length s - String.length P) s) = smap_chars toupper P ++ r).
    { rewrite <- smap_chars_app, <- E1. exact E. }
    assert (J : forall a b x y, String.length a = String.length b -> a ++ x = b ++ y -> a = b).
    { clear. induction a as [|c a IH]; intros [|d b] x y L E; cbn in L; try discriminate; [reflexivity|]. cbn in E. injection E as -> E. f_equal. apply (IH b x y); [congruence|exact E]. }
    apply (J _ _ _ _) in Q; [exact Q|]. rewrite !smap_chars_length. exact E2.
  - intros (a & b & -> & E). assert (L : String.length a = String.length P) by (rewrite <- (smap_chars_length toupper a), E; apply smap_chars_length).
    split; [rewrite str_app_length; lia|]. rewrite smap_chars_app, E. rewrite <- (smap_chars_length toupper P). apply substring_app.
Qed.
(** With caseSensitive = true only a section called exactly "parent." is returned: real subsections
    never are. *)
Theorem C41_subsections_sensitive_refuted (i : ini) (parent : string) (s : string) :
  parent <> "" -> In s (getSubsections i parent true) -> s = parent ++ ".".
Proof.
  intros Hp. unfold getSubsections. destruct parent as [|c p]; [contradiction|]. cbn [Nat.eqb String.length]. rewrite filter_In, andb_true_iff, Nat.eqb_eq, String.eqb_eq.
  set (P := String c p ++ "."). intros (_ & L & E). apply substring_eq in E. destruct E as [r ->]. rewrite str_app_length in L.
  destruct r; [|cbn in L; lia]. clear. induction P as [|x P IH]; cbn; congruence.
Qed.

Print Assumptions C40_read.
Print Assumptions C40_reread.
Print Assumptions C40_reread_refuted.
Print Assumptions C40_missing_file.
Print Assumptions C40_bad_lines_rejected.
Print Assumptions C40_comments_refuted.
Print Assumptions C40_key_leaks_refuted.
Print Assumptions C41_actual.
Print Assumptions C41_never_finds.
Print Assumptions C41_refuted.
Print Assumptions C41_subsections.
Print Assumptions C41_subsections_sensitive_refuted.
