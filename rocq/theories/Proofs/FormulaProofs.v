(** Lemmas on strings, numbers and the plain (parenthesis-free) parser. *)
From Coq Require Import Ascii String List ZArith Reals Bool Lia Lra DecimalString.
From Verif Require Import Base.Num Base.Res Base.RSum Base.SMap Base.Str Base.ListLemmas
  Model.Formula Spec.FormulaSpec Proofs.MathProofs.
Import ListNotations.
Local Open Scope string_scope.
Local Existing Instance RNum.

(** ** strings *)
Lemma sapp_assoc a b c : (a ++ b) ++ c = a ++ (b ++ c).
Proof. induction a; cbn; [reflexivity|f_equal; assumption]. Qed.
Lemma sapp_nil a : a ++ "" = a.
Proof. induction a; cbn; [reflexivity|f_equal; assumption]. Qed.
Lemma sub_all s : substring 0 (String.length s) s = s.
Proof. induction s; cbn; [reflexivity|f_equal; assumption]. Qed.
Lemma sub_pre a b : substring 0 (String.length a) (a ++ b) = a.
Proof. induction a; cbn; [destruct b; reflexivity|f_equal; assumption]. Qed.
Lemma sub_skip a b n k : substring (String.length a + n) k (a ++ b) = substring n k b.
Proof. induction a; cbn; [reflexivity|assumption]. Qed.
Lemma from_app a b : from (a ++ b) (String.length a) = b.
Proof.
  unfold from. rewrite str_app_length. replace (String.length a + String.length b - String.length a) with (String.length b) by lia.
  replace (String.length a) with (String.length a + 0)%nat at 1 by lia. rewrite sub_skip. apply sub_all.
Qed.

Definition chars (s : string) := list_ascii_of_string s.
Definition every (P : ascii -> bool) (s : string) : Prop := forall c, In c (chars s) -> P c = true.
Lemma every_app P a b : every P (a ++ b) <-> every P a /\ every P b.
Proof.
  unfold every, chars. rewrite list_ascii_app. split.
  - intros H. split; intros c Hc; apply H, in_or_app; [left|right]; exact Hc.
  - intros [Ha Hb] c Hc. apply in_app_or in Hc. destruct Hc; auto.
Qed.
Lemma every_cons P c s : every P (String c s) <-> P c = true /\ every P s.
Proof.
  unfold every, chars. cbn. split.
  - intros H. split; [apply H; left; reflexivity|intros d Hd; apply H; right; exact Hd].
  - intros [H1 H2] d [<-|Hd]; auto.
Qed.
Lemma every_nil P : every P "". Proof. intros c []. Qed.
Lemma every_imp (P Q : ascii -> bool) s : (forall c, P c = true -> Q c = true) -> every P s -> every Q s.
Proof. intros H HP c Hc. apply H, HP, Hc. Qed.

Lemma isupper_facts c : isupper c = true ->
  islower c = false /\ isdigit c = false /\ isspace c = false /\ eqc c 40 = false /\ eqc c 41 = false /\ eqc c 32 = false /\ eqc c 46 = false.
Proof.
  unfold isupper, islower, isdigit, isspace, eqc. rewrite andb_true_iff, !Nat.leb_le. intros [H1 H2].
  repeat split; repeat (rewrite ?orb_false_iff, ?andb_false_iff, ?Nat.eqb_neq, ?Nat.leb_gt); lia.
Qed.
Lemma islower_facts c : islower c = true ->
  isupper c = false /\ isdigit c = false /\ isspace c = false /\ eqc c 40 = false /\ eqc c 41 = false /\ eqc c 32 = false /\ eqc c 46 = false.
Proof.
  unfold isupper, islower, isdigit, isspace, eqc. rewrite andb_true_iff, !Nat.leb_le. intros [H1 H2].
  repeat split; repeat (rewrite ?orb_false_iff, ?andb_false_iff, ?Nat.eqb_neq, ?Nat.leb_gt); lia.
Qed.
(** characters of a number: digits and the point *)
Definition numc (c : ascii) : bool := isdigit c || eqc c 46.
Lemma numc_facts c : numc c = true ->
  isupper c = false /\ islower c = false /\ isspace c = false /\ eqc c 40 = false /\ eqc c 41 = false /\ eqc c 32 = false
  /\ eqc c 45 = false /\ eqc c 43 = false.
Proof.
  unfold numc, isupper, islower, isdigit, isspace, eqc. rewrite orb_true_iff, andb_true_iff, !Nat.leb_le, Nat.eqb_eq. intros H.
  repeat split; repeat (rewrite ?orb_false_iff, ?andb_false_iff, ?Nat.eqb_neq, ?Nat.leb_gt); lia.
Qed.
Lemma code_digit d : (d < 10)%nat -> code (ascii_of_nat (48 + d)) = (48 + d)%nat.
Proof. intros H. unfold code. apply nat_ascii_embedding. lia. Qed.
Lemma isdigit_digit d : (d < 10)%nat -> isdigit (ascii_of_nat (48 + d)) = true.
Proof. intros H. unfold isdigit. rewrite code_digit by exact H. rewrite andb_true_iff, !Nat.leb_le. lia. Qed.

(** ** numbers *)
Lemma powerRZ_10_neg (k : Z) : (0 <= k)%Z -> (powerRZ 10 (- k) = / powerRZ 10 k)%R.
Proof. intros H. apply powerRZ_neg'. Qed.
Lemma powerRZ_10_succ (k : Z) : (powerRZ 10 (k + 1) = powerRZ 10 k * 10)%R.
Proof. rewrite powerRZ_add by lra. rewrite powerRZ_1. reflexivity. Qed.
Lemma powerRZ_10_pos k : (0 < powerRZ 10 k)%R.
Proof. apply powerRZ_lt. lra. Qed.

Lemma read_frac_spec l m k any rest : digits_ok l -> (rest = "" \/ exists c r, rest = String c r /\ isdigit c = false) ->
  exists m', read_frac (digit_text l ++ rest) m k any =
    (m', (k + Z.of_nat (length l))%Z, (match l with [] => any | _ => true end), rest) /\
    (IZR m' = IZR m * 10 ^ length l + digits_value l)%R.
Proof.
  intros Hl Hrest. revert m k any. induction Hl as [|d l Hd Hl IH]; intros m k any.
  - exists m. cbn. split; [|lra]. destruct Hrest as [->|(c & r & -> & Hc)]; cbn [append read_frac]; [repeat f_equal; lia|].
    rewrite Hc. repeat f_equal; lia.
  - cbn [digit_text fold_right append read_frac]. rewrite isdigit_digit by exact Hd. rewrite code_digit by exact Hd.
    replace (48 + d - 48)%nat with d by lia.
    destruct (IH (10 * m + Z.of_nat d)%Z (k + 1)%Z true) as (m' & E & V). exists m'. split.
    + change (fold_right (fun d s => String (ascii_of_nat (48 + d)) s) "" l) with (digit_text l). rewrite E.
      f_equal. f_equal; [|destruct l; reflexivity]. f_equal. cbn [length]. lia.
    + rewrite V. cbn [length digits_value]. rewrite plus_IZR, mult_IZR, <- INR_IZR_INZ. cbn [pow]. ring.
Qed.
Lemma read_int_spec l m any rest : digits_ok l -> (rest = "" \/ exists c r, rest = String c r /\ isdigit c = false) ->
  exists m', read_int (digit_text l ++ rest) m any = read_int rest m' (match l with [] => any | _ => true end) /\
    (IZR m' = IZR m * 10 ^ length l + digits_value l)%R.
Proof.
  intros Hl Hrest. revert m any. induction Hl as [|d l Hd Hl IH]; intros m any.
  - exists m. cbn. split; [reflexivity|lra].
  - cbn [digit_text fold_right append read_int]. rewrite isdigit_digit by exact Hd. rewrite code_digit by exact Hd.
    replace (48 + d - 48)%nat with d by lia.
    destruct (IH (10 * m + Z.of_nat d)%Z true) as (m' & E & V). exists m'. split.
    + change (fold_right (fun d s => String (ascii_of_nat (48 + d)) s) "" l) with (digit_text l). rewrite E. destruct l; reflexivity.
    + rewrite V. cbn [length digits_value]. rewrite plus_IZR, mult_IZR, <- INR_IZR_INZ. cbn [pow]. ring.
Qed.
Lemma fraction_value_alt l : (fraction_value l = digits_value l / 10 ^ length l)%R.
Proof.
  induction l as [|d l IH]; cbn [fraction_value digits_value length pow]; [field|]. rewrite IH. field. apply pow_nonzero. lra.
Qed.

Lemma read_exp_nil : read_exp "" = Some 0%Z. Proof. reflexivity. Qed.
Lemma digit_text_numc l : digits_ok l -> every numc (digit_text l).
Proof.
  intros H. induction H as [|d l Hd Hl IH]; [apply every_nil|]. cbn [digit_text fold_right]. apply every_cons. split; [|exact IH].
  unfold numc. rewrite isdigit_digit by exact Hd. reflexivity.
Qed.
Lemma literal_text_numc l : literal_ok l -> every numc (literal_text l).
Proof.
  intros [H1 H2]. unfold literal_text. apply every_app. split; [apply digit_text_numc, H1|].
  destruct (l_frac l); [|apply every_nil]. apply every_cons. split; [reflexivity|]. apply digit_text_numc, (proj1 H2).
Qed.
Lemma literal_text_nonempty l : literal_ok l -> snonempty (literal_text l) = true.
Proof.
  intros [H1 H2]. unfold snonempty, literal_text. apply Nat.ltb_lt. rewrite str_app_length. destruct (l_frac l); cbn [String.length]; [lia|].
  destruct (l_int l) as [|d r]; [congruence|]. cbn. lia.
Qed.

(** reading a number whose first character is neither blank nor a sign *)
Lemma stringToDouble_num s : every numc s ->
  stringToDouble s = (let '(m, k, any, rest) := read_int s 0 false in
    if any : bool then match read_exp rest with Some e => Some (nlit m (e - k)) | None => None end else None).
Proof.
  intros H. unfold stringToDouble.
  assert (E : skip_space s = s).
  { destruct s as [|c r]; [reflexivity|]. cbn. destruct (numc_facts c) as (_ & _ & -> & _); [apply H; left; reflexivity|reflexivity]. }
  rewrite E. destruct s as [|c r].
  - destruct (read_int "" 0 false) as [[[m k] any] rest]. destruct any; [|reflexivity]. destruct (read_exp rest); reflexivity.
  - destruct (numc_facts c) as (_ & _ & _ & _ & _ & _ & -> & ->); [apply H; left; reflexivity|].
    destruct (read_int (String c r) 0 false) as [[[m k] any] rest]. destruct any; [|reflexivity]. destruct (read_exp rest); reflexivity.
Qed.

Lemma stringToDouble_literal l : literal_ok l -> @stringToDouble RNum (literal_text l) = Some (literal_value l).
Proof.
  intros Hok. pose proof Hok as [H1 H2]. rewrite (stringToDouble_num _ (literal_text_numc _ Hok)). unfold literal_text, literal_value.
  destruct (l_frac l) as [f|].
  - destruct H2 as [Hf Hne].
    destruct (read_int_spec (l_int l) 0 false (String "." (digit_text f)) H1) as (m' & E & V).
    { right. exists "."%char, (digit_text f). split; reflexivity. }
    rewrite E. cbn [read_int]. change (isdigit ".") with false. change (eqc "." 46) with true. cbn iota.
    destruct (read_frac_spec f m' 0 (match l_int l with [] => false | _ => true end) "" Hf (or_introl eq_refl)) as (m2 & E2 & V2).
    rewrite sapp_nil in E2. rewrite E2.
    replace (match f with [] => match l_int l with [] => false | _ :: _ => true end | _ :: _ => true end) with true
      by (destruct f; [destruct (l_int l); [destruct Hne; congruence|reflexivity]|reflexivity]).
    rewrite read_exp_nil. f_equal. change (Rlit m2 (0 - (0 + Z.of_nat (length f))) = (digits_value (l_int l) + fraction_value f)%R).
    unfold Rlit. rewrite V2, V. rewrite fraction_value_alt.
    replace (0 - (0 + Z.of_nat (length f)))%Z with (- Z.of_nat (length f))%Z by lia.
    rewrite powerRZ_10_neg by lia. rewrite <- pow_powerRZ. cbn [IZR]. field. apply pow_nonzero. lra.
  - destruct (read_int_spec (l_int l) 0 false "" H1 (or_introl eq_refl)) as (m' & E & V).
    rewrite E. cbn [read_int]. replace (match l_int l with [] => false | _ :: _ => true end) with true by (destruct (l_int l); [congruence|reflexivity]).
    rewrite read_exp_nil. f_equal. change (Rlit m' (0 - 0) = (digits_value (l_int l) + 0)%R).
    unfold Rlit. rewrite V. cbn [Z.sub Z.opp Z.add]. change (powerRZ 10 0) with 1%R. cbn [IZR]. lra.
Qed.

(** ** the plain scan *)
Lemma flatScan_lower {N : Num} r t acc k n p : every islower r ->
  flatScan (r ++ t) acc k n p = flatScan t acc (k ++ r) n p.
Proof.
  revert k. induction r as [|c r IH]; intros k H; [rewrite sapp_nil; reflexivity|].
  apply every_cons in H. destruct H as [Hc Hr]. cbn [append flatScan].
  destruct (islower_facts c Hc) as (-> & _). rewrite Hc. rewrite IH by exact Hr. rewrite sapp_assoc. reflexivity.
Qed.
Lemma flatScan_num {N : Num} x t acc k n p : every numc x -> x <> "" ->
  flatScan (x ++ t) acc k n p = flatScan t acc k (n ++ x) false.
Proof.
  intros H Hne. revert n p Hne. induction x as [|c r IH]; intros n p Hne; [congruence|].
  apply every_cons in H. destruct H as [Hc Hr]. cbn [append flatScan].
  destruct (numc_facts c Hc) as (-> & -> & _). destruct r as [|d r].
  - reflexivity.
  - rewrite IH by (assumption || discriminate). rewrite sapp_assoc. reflexivity.
Qed.

Lemma all_lower_every s : all_lower s -> every islower s. Proof. intros H c Hc. apply H, Hc. Qed.

Definition ival (i : item) : string * R := (fst i, item_count i).
Lemma ltext_ne l : literal_ok l -> literal_text l <> "".
Proof. intros H E. apply literal_text_nonempty in H. rewrite E in H. discriminate. Qed.

(** reading the text of one item when nothing (or only a complete previous item) is pending *)
Lemma flatScan_item (i : item) t acc : item_ok i ->
  flatScan (item_text i ++ t) acc "" "" false =
  flatScan t acc (fst i) (match snd i with None => "" | Some l => literal_text l end) (match snd i with None => true | _ => false end).
Proof.
  intros [(c & r & E & Hc & Hr) Hl]. unfold item_text. rewrite E. cbn [append flatScan]. rewrite Hc. cbn [snonempty String.length Nat.ltb Nat.leb].
  rewrite sapp_assoc. rewrite flatScan_lower by (apply all_lower_every; exact Hr). cbn [append].
  destruct (snd i) as [l|]; [|reflexivity].
  rewrite flatScan_num; [reflexivity|apply literal_text_numc, Hl|apply ltext_ne, Hl].
Qed.
Lemma symbol_snonempty s : symbol s -> snonempty s = true.
Proof. intros (c & r & -> & _). reflexivity. Qed.
(** the same after a pending item [j] *)
Lemma flatScan_next (j i : item) t acc : item_ok j -> item_ok i ->
  flatScan (item_text i ++ t) acc (fst j) (match snd j with None => "" | Some l => literal_text l end) (match snd j with None => true | _ => false end)
  = flatScan (item_text i ++ t) (acc ++ [ival j])%list "" "" false.
Proof.
  intros [Hj1 Hj2] [(c & r & E & Hc & Hr) Hl]. unfold item_text. rewrite E. cbn [append flatScan]. rewrite Hc.
  rewrite (symbol_snonempty _ Hj1). change (snonempty "") with false. cbv iota. unfold ival, item_count.
  destruct (snd j) as [l|].
  - rewrite (literal_text_nonempty _ Hj2). rewrite (stringToDouble_literal _ Hj2). reflexivity.
  - reflexivity.
Qed.
Lemma flatScan_pending (l : list item) : forall (j : item) acc, item_ok j -> Forall item_ok l ->
  flatScan (items_text l) acc (fst j) (match snd j with None => "" | Some l => literal_text l end) (match snd j with None => true | _ => false end)
  = Some (acc ++ ival j :: map ival l)%list.
Proof.
  induction l as [|i l IH]; intros j acc Hj Hl.
  - cbn [items_text flatScan map]. destruct j as [s [li|]]; cbn [fst snd].
    + rewrite (stringToDouble_literal _ (proj2 Hj)). reflexivity.
    + reflexivity.
  - inversion Hl as [|? ? Hi Hl']; subst. cbn [items_text map]. rewrite flatScan_next by assumption. rewrite flatScan_item by assumption.
    rewrite IH by assumption. rewrite <- app_assoc. reflexivity.
Qed.
Lemma flatScan_items (l : list item) : l <> [] -> Forall item_ok l ->
  flatScan (items_text l) [] "" "" false = Some (map ival l).
Proof.
  intros Hne Hl. destruct l as [|i l]; [congruence|]. inversion Hl as [|? ? Hi Hl']; subst. cbn [items_text].
  rewrite flatScan_item by assumption. apply flatScan_pending; assumption.
Qed.

(** ** accumulation of the counts *)
Definition acount (s : string) (l : list (string * R)) : option R :=
  match filter (fun kv => String.eqb (fst kv) s) l with [] => None | is => Some (Rsum (map snd is)) end.
Definition oadd (a b : option R) : option R :=
  match a, b with Some x, Some y => Some (x + y)%R | Some x, None => Some x | None, y => y end.
Lemma addCount_sorted (m : list (string * R)) kv : msorted sltb m -> msorted sltb (addCount m kv).
Proof. intros H. unfold addCount. match goal with |- context [match ?x with Some _ => _ | None => _ end] => destruct x end; apply smset_sorted, H. Qed.
Lemma addCount_find (m : list (string * R)) kv s : msorted sltb m ->
  mfind sltb s (addCount m kv) = if String.eqb (fst kv) s then oadd (mfind sltb s m) (Some (snd kv)) else mfind sltb s m.
Proof.
  intros Hm. destruct kv as [k v]. unfold addCount. cbn [fst snd]. destruct (String.eqb_spec k s) as [E|Hn].
  - subst s. change (@mfind string (@num RNum) sltb k m) with (@mfind string R sltb k m).
    destruct (@mfind string R sltb k m); cbn [oadd]; apply (@smfind_mset_same R).
  - change (@mfind string (@num RNum) sltb k m) with (@mfind string R sltb k m).
    destruct (@mfind string R sltb k m); apply (@smfind_mset_other R); auto.
Qed.
Lemma oadd_assoc a b c : oadd (oadd a b) c = oadd a (oadd b c).
Proof. destruct a, b, c; cbn; try reflexivity. f_equal. lra. Qed.
Lemma acount_cons s kv l : acount s (kv :: l) = if String.eqb (fst kv) s then oadd (Some (snd kv)) (acount s l) else acount s l.
Proof.
  unfold acount. cbn [filter]. destruct (String.eqb (fst kv) s); [|reflexivity].
  destruct (filter (fun kv => String.eqb (fst kv) s) l) as [|x l'] eqn:E; cbn; f_equal; lra.
Qed.
Lemma addAll_sorted l (m : list (string * R)) : msorted sltb m -> msorted sltb (fold_left addCount l m).
Proof. revert m. induction l as [|kv l IH]; intros m H; [exact H|]. cbn. apply IH, addCount_sorted, H. Qed.
Lemma addAll_find l : forall (m : list (string * R)) s, msorted sltb m ->
  mfind sltb s (fold_left addCount l m) = oadd (mfind sltb s m) (acount s l).
Proof.
  induction l as [|kv l IH]; intros m s H.
  - cbn. destruct (mfind sltb s m); reflexivity.
  - cbn [fold_left]. rewrite IH by (apply addCount_sorted; exact H). rewrite addCount_find by exact H. rewrite acount_cons.
    destruct kv as [k v]. cbn [fst snd]. destruct (String.eqb k s); [|reflexivity]. apply oadd_assoc.
Qed.

(** ** no parentheses, no blanks in a plain text *)
Definition flatc (c : ascii) : bool := isupper c || islower c || numc c.
Lemma flatc_facts c : flatc c = true -> eqc c 40 = false /\ eqc c 41 = false /\ eqc c 32 = false.
Proof.
  unfold flatc. rewrite !orb_true_iff. intros [[H|H]|H].
  - apply isupper_facts in H. tauto.
  - apply islower_facts in H. tauto.
  - apply numc_facts in H. tauto.
Qed.
Lemma symbol_flat s : symbol s -> every flatc s.
Proof.
  intros (c & r & -> & Hc & Hr). apply every_cons. unfold flatc. rewrite Hc. split; [reflexivity|].
  eapply every_imp; [|apply all_lower_every; exact Hr]. cbn. intros d ->. rewrite orb_true_r. reflexivity.
Qed.
Lemma items_flat l : Forall item_ok l -> every flatc (items_text l).
Proof.
  induction 1 as [|i l [Hs Hl] Hl' IH]; [apply every_nil|]. cbn [items_text]. apply every_app. split; [|exact IH].
  unfold item_text. apply every_app. split; [apply symbol_flat, Hs|]. destruct (snd i); [|apply every_nil].
  eapply every_imp; [|apply literal_text_numc; exact Hl]. intros c Hc. unfold flatc. rewrite Hc, !orb_true_r. reflexivity.
Qed.
Lemma positions_none n s i : every (fun c => negb (eqc c n)) s -> positions n i s = [].
Proof.
  revert i. induction s as [|c s IH]; intros i H; [reflexivity|]. apply every_cons in H. destruct H as [Hc Hs]. cbn.
  apply negb_true_iff in Hc. rewrite Hc. apply IH, Hs.
Qed.
Lemma flat_no n s : (n = 40 \/ n = 41 \/ n = 32) -> every flatc s -> every (fun c => negb (eqc c n)) s.
Proof.
  intros Hn. apply every_imp. intros c Hc. apply flatc_facts in Hc. apply negb_true_iff. destruct Hn as [->|[->| ->]]; tauto.
Qed.
Lemma parse_flat {N : Num} tostr fuel s c r : s = String c r -> isupper c = true -> every flatc s ->
  parseFormula tostr (S fuel) s = Ok (parseFlat s).
Proof.
  intros E Hc Hf. cbn [parseFormula]. unfold has_space.
  rewrite !(positions_none _ _ _ (flat_no 40 _ ltac:(auto) Hf)), !(positions_none _ _ _ (flat_no 41 _ ltac:(auto) Hf)),
    !(positions_none _ _ _ (flat_no 32 _ ltac:(auto) Hf)).
  destruct (isupper_facts c Hc) as (H1 & H2 & _). rewrite E at 1. cbn [start_ok]. rewrite H1, H2. reflexivity.
Qed.

Theorem parse_items tostr fuel (l : list item) : l <> [] -> Forall item_ok l ->
  exists m : list (string * R), @parseFormula RNum tostr (S fuel) (items_text l) = Ok m /\ msorted sltb m /\
    forall s, mfind sltb s m = atoms_of s l.
Proof.
  intros Hne Hl. destruct l as [|i l]; [congruence|]. inversion Hl as [|? ? Hi Hl']; subst.
  destruct Hi as [(c & r & E & Hc & Hr) Hi].
  assert (Es : exists r', items_text (i :: l) = String c r') by (cbn [items_text]; unfold item_text; rewrite E; eexists; reflexivity).
  destruct Es as [r' Es].
  rewrite (@parse_flat RNum tostr fuel _ _ _ Es Hc (items_flat _ Hl)).
  exists (fold_left addCount (map ival (i :: l)) []). split; [|split].
  - unfold parseFlat. rewrite Es at 1. cbv beta iota. rewrite Hc. rewrite flatScan_items by assumption. reflexivity.
  - apply addAll_sorted, smsorted_nil.
  - intros s. rewrite addAll_find by apply smsorted_nil. change (mfind sltb s []) with (@None R). cbn [oadd].
    unfold acount, atoms_of, items_of. generalize (i :: l). intros l0.
    assert (Em : filter (fun kv => String.eqb (fst kv) s) (map ival l0) = map ival (filter (fun j => String.eqb (fst j) s) l0)).
    { induction l0 as [|j l0 IH]; [reflexivity|]. cbn [map filter]. change (fst (ival j)) with (fst j). destruct (String.eqb (fst j) s); cbn; rewrite IH; reflexivity. }
    rewrite Em. destruct (filter (fun j => String.eqb (fst j) s) l0) as [|j l1]; [reflexivity|].
    cbn [map]. rewrite map_map. reflexivity.
Qed.
