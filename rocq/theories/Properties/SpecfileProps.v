(** C42: SPEC files. *)
From Coq Require Import Ascii String List Bool Arith Lia.
From Verif Require Import Base.Num Base.Res Base.Str Base.Text Model.Specfile Spec.SpecfileSpec Proofs.SpecfileProofs.
Import ListNotations.
Set Implicit Arguments.
Local Open Scope string_scope.
Local Open Scope list_scope.

(** The number of scans of a well-formed file is the number of its scans; asking beyond throws. *)
Theorem C42_number_of_scans (N : Num) (strtod : text -> num) (f : file) (t : text) (i : nat) :
  file_ok f -> getlines t = file_lines f ->
  let s := setFileName (Some t) in
  getNumberOfScans s = length (f_scans f) /\
  (length (f_scans f) <= i -> getScanLabels s i = Throw InvalidArgument /\ getScanData strtod s i = Throw InvalidArgument).
Proof.
  intros H E. cbv zeta. assert (L : getNumberOfScans (setFileName (Some t)) = length (f_scans f)) by (rewrite (@file_scans f t H E); apply table_length).
  split; [exact L|]. intros K. unfold getScanLabels, getScanData. rewrite L. destruct (Nat.leb_spec (length (f_scans f)) i); [auto|lia].
Qed.
(** The number of scans is the number of "#S" lines for every file whatsoever. *)
Theorem C42_number_of_scans_any (t : text) :
  getNumberOfScans (setFileName (Some t)) = length (filter (starts2 "#" "S") (getlines t)).
Proof.
  unfold setFileName, getNumberOfScans. assert (S : forall l e, length (set_back l e) = length l).
  { intros l e. induction l as [|[a b] l IH]; [reflexivity|]. destruct l; [reflexivity|]. cbn in *. f_equal. exact IH. }
  assert (G : forall ls n o op pos offs, length (fst (scanLines ls n o op pos offs)) = length pos + length (filter (starts2 "#" "S") ls)).
  { induction ls as [|l ls IH]; intros n o op pos offs; cbn [scanLines filter].
    - destruct op; cbn [fst length]; rewrite ?S; lia.
    - destruct (Nat.ltb_spec 1 (length l)) as [K|K].
      + destruct (starts2 "#" "S" l); rewrite IH; cbn [length]; rewrite ?app_length; cbn [length]; lia.
      + assert (F : starts2 "#" "S" l = false) by (destruct l as [|x [|y r]]; [reflexivity|reflexivity|cbn in K; lia]). rewrite F.
        destruct op; rewrite IH, ?S; reflexivity. }
  specialize (G (getlines t) 0 0 false [] []). destruct (scanLines (getlines t) 0 0 false [] []) as [pos offs]. exact G.
Qed.
(** The labels of a scan are those of its first "#L" line; without one, an error. *)
Theorem C42_labels (f : file) (t : text) (i : nat) (s : scan) :
  file_ok f -> getlines t = file_lines f -> nth_error (f_scans f) i = Some s ->
  getScanLabels (setFileName (Some t)) i = match scan_labels s with Some l => Ok l | None => Throw RuntimeError end.
Proof.
  intros H E Hi. unfold getScanLabels. destruct (@C42_number_of_scans RNum (fun _ => n0) f t i H E) as [L _]. rewrite L.
  assert (Li : i < length (f_scans f)) by (apply nth_error_Some; congruence). destruct (Nat.leb_spec (length (f_scans f)) i); [lia|].
  destruct (@file_scan f t i s H E Hi) as (first & off & tail & -> & -> & G & Ht). rewrite (@file_scans f t H E). cbn [sf_file]. rewrite G.
  assert (Hs : Forall body_ok (s_body s)) by (destruct H as (_ & H & _); apply (proj1 (Forall_forall _ _) H s (nth_error_In _ _ Hi))).
  set (h := "#"%char :: "S"%char :: s_title s). replace (1 + (first + 1 + length (s_body s)) - first) with (S (S (length (s_body s)))) by lia.
  rewrite labelLine_spec by reflexivity.
  match goal with |- context [find ?f ?l] => set (x := find f l); assert (F : x = find f (map body_text (s_body s))) end.
  { unfold x. clear x. rewrite firstn_cons. cbn [find]. change (starts2 "#" "L" h) with false. cbv iota. rewrite <- (map_length body_text (s_body s)).
    rewrite firstn_app. rewrite (firstn_all2 (n := S (length (map body_text (s_body s))))) by lia.
    replace (S (length (map body_text (s_body s))) - length (map body_text (s_body s))) with 1 by lia.
    assert (T : find (starts2 "#" "L") (firstn 1 tail) = None).
    { destruct tail as [|l0 tail]; [reflexivity|]. cbn [firstn find]. destruct l0 as [|x [|y l0]]; [reflexivity|reflexivity|cbn in Ht; lia]. }
    clear - T. induction (map body_text (s_body s)) as [|x l IH]; [exact T|]. cbn [app find]. destruct (starts2 "#" "L" x); [reflexivity|exact IH]. }
  rewrite F. clear F x. match goal with |- context [last ?l []] => set (m := l) end.
  assert (R : (find (starts2 "#" "L") (map body_text (s_body s)) = None /\ scan_labels s = None) \/
              exists l0 ls n cr, find (starts2 "#" "L") (map body_text (s_body s)) = Some (body_text (Labels l0 ls n cr)) /\
                 scan_labels s = Some (str l0 :: map (fun nl => str (snd nl)) ls) /\ label_ok l0 /\ Forall (fun nl => label_ok (snd nl)) ls).
  { unfold scan_labels. clear - Hs. induction Hs as [|b l Hb _ IH]; [left; split; reflexivity|]. cbn [map find flat_map]. destruct b as [u|l0 ls n cr|r].
    - destruct Hb as (U1 & U2 & U3 & _). destruct u as [|c u]; [contradiction|]. cbn [hd] in *. cbn [body_text starts2]. change (Ascii.eqb "#" "#") with true. destruct (Ascii.eqb_spec c "L"%char); [contradiction|]. cbn [andb labels_of app]. exact IH.
    - right. exists l0, ls, n, cr. cbn [body_text starts2]. change (Ascii.eqb "#" "#" && Ascii.eqb "L" "L") with true. cbv iota. split; [reflexivity|]. split; [reflexivity|]. exact Hb.
    - destruct Hb as (_ & _ & _ & _ & _ & Hd). cbn [body_text labels_of app]. assert (X : starts2 "#" "L" (row_text r) = false).
      { destruct (row_text r) as [|c [|d v]]; [reflexivity|reflexivity|]. cbn in *. destruct (Ascii.eqb_spec c "#"%char); [contradiction|reflexivity]. }
      rewrite X. exact IH. }
  destruct R as [[F Sl]|(l0 & ls & n & cr & F & Sl & O0 & O)]; rewrite F, Sl.
  - assert (X : starts2 "#" "L" (last m []) = false).
    { apply find_none_last; [reflexivity|]. unfold m. clear m. rewrite <- F. rewrite firstn_cons. cbn [find]. change (starts2 "#" "L" h) with false. cbv iota. rewrite <- (map_length body_text (s_body s)).
      rewrite firstn_app. rewrite (firstn_all2 (n := S (length (map body_text (s_body s))))) by lia.
      replace (S (length (map body_text (s_body s))) - length (map body_text (s_body s))) with 1 by lia.
      assert (T : find (starts2 "#" "L") (firstn 1 tail) = None).
      { destruct tail as [|x0 tail]; [reflexivity|]. cbn [firstn find]. destruct x0 as [|x [|y x0]]; [reflexivity|reflexivity|cbn in Ht; lia]. }
      clear - T. induction (map body_text (s_body s)) as [|x l IH]; [exact T|]. cbn [app find]. destruct (starts2 "#" "L" x); [reflexivity|exact IH]. }
    rewrite X. destruct (Nat.ltb (length (last m [])) 2); reflexivity.
  - destruct (Nat.ltb_spec (length (body_text (Labels l0 ls n cr))) 2) as [K|_]; [cbn in K; lia|].
    change (starts2 "#" "L" (body_text (Labels l0 ls n cr))) with true. cbv iota. rewrite labelText_spec by assumption. cbv zeta.
    rewrite split_labels by (try assumption; lia). cbn [map]. now rewrite map_map.
Qed.
(** The data of a scan are the numbers of its rows in order, if all rows have as many numbers as the
    first; otherwise an error. *)
Theorem C42_data (N : Num) (strtod : text -> num) (f : file) (t : text) (i : nat) (s : scan) :
  file_ok f -> getlines t = file_lines f -> nth_error (f_scans f) i = Some s ->
  ((forall r, In r (scan_rows s) -> length r = length (hd [] (scan_rows s))) ->
   getScanData strtod (setFileName (Some t)) i = Ok (map (map strtod) (scan_rows s))) /\
  ((exists r, In r (scan_rows s) /\ length r <> length (hd [] (scan_rows s))) ->
   getScanData strtod (setFileName (Some t)) i = Throw RuntimeError).
Proof.
  intros H E Hi. assert (R : getScanData strtod (setFileName (Some t)) i =
    if forallb (fun ts => Nat.eqb (length (hd [] (scan_rows s))) (length ts)) (scan_rows s) then Ok (map (map strtod) (scan_rows s)) else Throw RuntimeError).
  { unfold getScanData. destruct (@C42_number_of_scans N strtod f t i H E) as [L _]. rewrite L.
    assert (Li : i < length (f_scans f)) by (apply nth_error_Some; congruence). destruct (Nat.leb_spec (length (f_scans f)) i); [lia|].
    destruct (@file_scan f t i s H E Hi) as (first & off & tail & -> & -> & G & Ht). rewrite (@file_scans f t H E). cbn [sf_file]. rewrite G.
    assert (Hs : Forall body_ok (s_body s)) by (destruct H as (_ & H & _); apply (proj1 (Forall_forall _ _) H s (nth_error_In _ _ Hi))).
    replace (first + 1 + length (s_body s) - first) with (S (length (map body_text (s_body s)))) by (rewrite map_length; lia).
    cbn [firstn]. rewrite firstn_app, Nat.sub_diag, firstn_all. cbn [firstn]. rewrite app_nil_r. cbn [rfold]. rewrite dataLine_comment. cbn [rbind].
    apply data_body_new. exact Hs. }
  rewrite R. split.
  - intros A. replace (forallb _ _) with true; [reflexivity|]. symmetry. apply forallb_forall. intros r Ir. apply Nat.eqb_eq. symmetry. apply A. exact Ir.
  - intros (r & Ir & Nr). destruct (forallb _ _) eqn:Q; [|reflexivity]. rewrite forallb_forall in Q. specialize (Q r Ir). apply Nat.eqb_eq in Q. congruence.
Qed.
(** Without a blank line between two scans the first one has no data and no labels. *)
Theorem C42_blank_line_needed (N : Num) (strtod : text -> num) (title1 title2 : text) (body : list body_line) :
  ~ In newline title1 -> ~ In newline title2 -> Forall body_ok body -> Forall (fun b => ~ In newline (body_text b)) body ->
  let t := concat (map (fun l => l ++ [newline]) (("#"%char :: "S"%char :: title1) :: map body_text body ++ ["#"%char :: "S"%char :: title2])) in
  getNumberOfScans (setFileName (Some t)) = 2 /\ getScanData strtod (setFileName (Some t)) 0 = Ok [] /\
  getScanLabels (setFileName (Some t)) 0 = Throw RuntimeError.
Proof.
  intros H1 H2 Hb Hn. cbv zeta. set (ls := ("#"%char :: "S"%char :: title1) :: map body_text body ++ ["#"%char :: "S"%char :: title2]).
  assert (G : getlines (concat (map (fun l => l ++ [newline]) ls)) = ls).
  { assert (F : Forall (fun l => ~ In newline l) ls).
    { constructor; [intros [K|[K|K]]; try discriminate; contradiction|]. apply Forall_app. split.
      - apply Forall_forall. intros l I. apply in_map_iff in I. destruct I as (b & <- & I). exact (proj1 (Forall_forall _ _) Hn b I).
      - constructor; [intros [K|[K|K]]; try discriminate; contradiction|constructor]. }
    clear - F. induction F as [|l ls Hl _ IH]; [reflexivity|]. cbn [map concat]. rewrite <- app_assoc. cbn [app]. rewrite getlines_line by exact Hl. f_equal. exact IH. }
  unfold setFileName. rewrite G. unfold ls. cbn [scanLines]. destruct (Nat.ltb_spec 1 (length ("#"%char :: "S"%char :: title1))) as [_|K]; [|cbn in K; lia].
  change (starts2 "#" "S" ("#"%char :: "S"%char :: title1)) with true. cbv iota. rewrite scan_skip_body.
  2: { apply Forall_forall. intros l I. apply in_map_iff in I. destruct I as (b & <- & I). apply body_starts. exact (proj1 (Forall_forall _ _) Hb b I). }
  cbn [scanLines]. destruct (Nat.ltb_spec 1 (length ("#"%char :: "S"%char :: title2))) as [_|K]; [|cbn in K; lia].
  change (starts2 "#" "S" ("#"%char :: "S"%char :: title2)) with true. cbv iota. cbn [app scanLines set_back].
  split; [reflexivity|]. split.
  - reflexivity.
  - unfold getScanLabels, getNumberOfScans. cbn [sf_lines sf_offsets sf_file length Nat.leb nth_error skipn].
    fold ls. rewrite G. unfold ls. cbn [plus Nat.sub labelLine starts2]. reflexivity.
Qed.
(** A row of a single character ends its scan: the rows after it are lost. *)
Theorem C42_one_character_row_refuted :
  ~ forall (N : Num) (strtod : text -> num) (rows : list (list text)),
      Forall (fun r => length r = 1 /\ Forall (fun x => x <> [] /\ Forall number_char x) r) rows ->
      getScanData strtod (setFileName (Some (concat (map (fun l => l ++ [newline]) (["#"; "S"; " "; "1"]%char :: map (@concat ascii) rows))))) 0 = Ok (map (map strtod) rows).
Proof.
  intros H. specialize (H RNum (fun _ => n0) [[["5"%char]]; [["6"%char]]]). assert (X : @Ok (list (list (@num RNum))) [] = Ok [[n0]; [n0]]); [|discriminate].
  refine (eq_trans _ (H _)).
  - reflexivity.
  - assert (D : forall c, isNumber c = true -> length [[c]] = 1 /\ Forall (fun x => x <> [] /\ Forall number_char x) [[c]]).
    { intros c K. split; [reflexivity|]. constructor; [|constructor]. split; [discriminate|]. constructor; [apply number_char_spec; exact K|constructor]. }
    constructor; [apply D; reflexivity|]. constructor; [apply D; reflexivity|constructor].
Qed.

(** hypotheses met: a file header, a scan with comments, CRLF, labels with spaces and two rows, and
    a second scan that ends the file *)
Definition T (s : string) : text := list_ascii_of_string s.
Example C42_file : file := mkFile [T "#F x"; []]
  [mkScan (T " 1 a") [Comment (T "N 2"); Labels (T "Energy keV") [(1, T "K")] 2 true;
                      Row (mkRow [(T " ", T "1.0E-1"); (T " ", T "2")] [creturn]); Row (mkRow [([], T "-3"); (T "  ", T "4")] [])] [[creturn]; T "junk"];
   mkScan (T " 2") [Row (mkRow [([], T "55")] [])] []].
Example C42_nonvacuous : file_ok C42_file /\ (exists t, getlines t = file_lines C42_file) /\
  map scan_labels (f_scans C42_file) = [Some ["Energy keV"; "K"]; None] /\
  map scan_rows (f_scans C42_file) = [[[T "1.0E-1"; T "2"]; [T "-3"; T "4"]]; [[T "55"]]].
Proof.
  assert (NN : forall t, forallb isNumber t = true -> Forall number_char t).
  { intros t H. apply Forall_forall. intros c I. rewrite forallb_forall in H. apply number_char_spec. auto. }
  assert (SS : forall t, forallb (fun c => negb (isNumber c) && negb (Ascii.eqb c newline)) t = true -> separator t).
  { intros t H. apply Forall_forall. intros c I. rewrite forallb_forall in H. specialize (H c I). apply andb_true_iff in H. destruct H as [A B].
    apply negb_true_iff in A, B. split; [intros K; apply number_char_spec in K; congruence|intros ->; discriminate B]. }
  assert (NL : forall t, existsb (Ascii.eqb newline) t = false -> ~ In newline t).
  { intros t H I. assert (X : existsb (Ascii.eqb newline) t = true) by (apply existsb_exists; exists newline; split; [exact I|reflexivity]). congruence. }
  assert (NS : forall t, starts2 "#" "S" t = false -> existsb (Ascii.eqb newline) t = false -> not_scan t).
  { intros t A B. split; [intros [r ->]; discriminate A|apply NL; exact B]. }
  assert (DD : forall t, (forall a b, t <> a ++ " "%char :: " "%char :: b) -> ~ exists a b, t = a ++ " "%char :: " "%char :: b) by (intros t A (a & b & E); exact (A a b E)).
  assert (RR : forall l e, forallb (fun st => forallb (fun c => negb (isNumber c) && negb (Ascii.eqb c newline)) (fst st) && forallb isNumber (snd st) && negb (Nat.eqb (length (snd st)) 0)) l = true ->
     forallb (fun st => negb (Nat.eqb (length (fst st)) 0)) (tl l) = true -> forallb (fun c => negb (isNumber c) && negb (Ascii.eqb c newline)) e = true -> l <> [] ->
     Nat.leb 2 (length (row_text (mkRow l e))) = true -> hd nul (row_text (mkRow l e)) <> "#"%char -> row_ok (mkRow l e)).
  { intros l e A B C D F G. split; [exact D|]. split; [|split; [|split; [apply SS; exact C|split; [apply Nat.leb_le; exact F|exact G]]]]; cbn [r_numbers].
    - apply Forall_forall. intros st I. rewrite forallb_forall in A. specialize (A st I). apply andb_true_iff in A. destruct A as [A A3]. apply andb_true_iff in A. destruct A as [A1 A2].
      split; [apply SS; exact A1|]. split; [|apply NN; exact A2]. intros K. destruct st as [s0 t0]; cbn [fst snd] in *; subst t0; discriminate.
    - apply Forall_forall. intros st I. rewrite forallb_forall in B. specialize (B st I). intros K. destruct st as [s0 t0]; cbn [fst snd] in *; subst s0; discriminate. }
  assert (SP : forall t c, hd nul t <> " "%char -> last t nul = c -> c <> " "%char -> c <> creturn -> t <> [] -> existsb (Ascii.eqb newline) t = false ->
     (forall k, k < length t -> firstn 2 (skipn k t) <> [" "; " "]%char) -> label_ok t).
  { intros t c A B C D E F G. repeat split; try (rewrite B; assumption); auto. intros (a & b & K). apply (G (length a)); [rewrite K, app_length; cbn; lia|].
    rewrite K, skipn_app, skipn_all, Nat.sub_diag. reflexivity. }
  split; [|split; [|split; reflexivity]].
  - split; [|split].
    + repeat constructor; try (apply (NS (T "#F x")); reflexivity); apply (NS []); reflexivity.
    + constructor; [|constructor; [|constructor]].
      * split; [apply NL; reflexivity|]. constructor; [|constructor; [|constructor; [|constructor; [|constructor]]]]; cbn [body_ok].
        -- repeat split; try discriminate. apply NL. reflexivity.
        -- split; [|constructor; [|constructor]].
           ++ apply SP with (c := "V"%char); try reflexivity; try discriminate. cbn. intros k Hk. do 10 (destruct k as [|k]; [discriminate|]). lia.
           ++ apply SP with (c := "K"%char); try reflexivity; try discriminate. cbn. intros k Hk. destruct k as [|k]; [discriminate|lia].
        -- apply RR; try reflexivity; discriminate.
        -- apply RR; try reflexivity; discriminate.
      * split; [apply NL; reflexivity|]. constructor; [|constructor]. cbn [body_ok]. apply RR; try reflexivity; discriminate.
    + cbn [gaps_ok f_scans C42_file s_gap]. split; [|left; reflexivity]. split; [cbn; lia|]. constructor; [apply NS; reflexivity|constructor; [apply NS; reflexivity|constructor]].
  - exists (concat (map (fun l => l ++ [newline]) (file_lines C42_file))). reflexivity.
Qed.

Print Assumptions C42_number_of_scans.
Print Assumptions C42_number_of_scans_any.
Print Assumptions C42_labels.
Print Assumptions C42_data.
Print Assumptions C42_blank_line_needed.
Print Assumptions C42_one_character_row_refuted.
