(** Parenthesised formulas. *)
From Coq Require Import Ascii String List ZArith Reals Bool Lia Lra DecimalString DecimalPos DecimalFacts.
From Verif Require Import Base.Num Base.Res Base.RSum Base.SMap Base.Str Base.ListLemmas
  Model.Formula Spec.FormulaSpec Proofs.MathProofs Proofs.FormulaProofs.
Import ListNotations.
Local Open Scope string_scope.
Local Existing Instance RNum.

(** ** fuel *)
Lemma parse_mono {N : Num} tostr fuel : forall s m, parseFormula tostr fuel s = Ok m ->
  forall fuel', (fuel <= fuel')%nat -> parseFormula tostr fuel' s = Ok m.
Proof.
  induction fuel as [|fuel IH]; intros s m H fuel' Hle; [discriminate|].
  destruct fuel' as [|fuel']; [lia|]. cbn [parseFormula] in H |- *.
  destruct (negb (start_ok s)); [exact H|].
  destruct (negb (length (positions 40 0 s) =? length (positions 41 0 s))%nat); [exact H|].
  destruct (has_space s); [exact H|].
  destruct (positions 40 0 s) as [|o1 orest]; [exact H|].
  destruct (positions 41 0 s) as [|p2 crest]; [exact H|].
  destruct (p2 =? _)%nat; [exact H|].
  match type of H with rbind (parseFormula _ _ ?x) _ = _ => destruct (parseFormula tostr fuel x) as [tmp| | |] eqn:E end; try discriminate.
  rewrite (IH _ _ E fuel') by lia. cbn [rbind] in H |- *. destruct tmp as [|kv tmp]; [exact H|].
  match type of H with match ?x with Some _ => _ | None => _ end = _ => destruct x; [|exact H] end.
  apply (IH _ _ H). lia.
Qed.

(** ** decimal counts *)
Fixpoint uint_digits (d : Decimal.uint) : list nat :=
  match d with
  | Decimal.Nil => []
  | Decimal.D0 d => 0 :: uint_digits d | Decimal.D1 d => 1 :: uint_digits d | Decimal.D2 d => 2 :: uint_digits d
  | Decimal.D3 d => 3 :: uint_digits d | Decimal.D4 d => 4 :: uint_digits d | Decimal.D5 d => 5 :: uint_digits d
  | Decimal.D6 d => 6 :: uint_digits d | Decimal.D7 d => 7 :: uint_digits d | Decimal.D8 d => 8 :: uint_digits d
  | Decimal.D9 d => 9 :: uint_digits d
  end%nat.
Lemma uint_digits_text d : NilEmpty.string_of_uint d = digit_text (uint_digits d).
Proof. induction d; cbn [NilEmpty.string_of_uint uint_digits digit_text fold_right]; [reflexivity|..]; f_equal; exact IHd. Qed.
Lemma uint_digits_ok d : digits_ok (uint_digits d).
Proof. induction d; cbn [uint_digits]; constructor; try assumption; lia. Qed.
Lemma uint_acc_value d : forall acc, (IZR (Zpos (Pos.of_uint_acc d acc)) = IZR (Zpos acc) * 10 ^ length (uint_digits d) + digits_value (uint_digits d))%R.
Proof.
  induction d; intros acc; cbn [Pos.of_uint_acc uint_digits digits_value length pow]; [lra|..];
    rewrite IHd; rewrite ?Pos2Z.inj_add, ?Pos2Z.inj_mul, ?plus_IZR, ?mult_IZR; cbn [INR IZR IPR IPR_2]; ring.
Qed.
Lemma uint_value d : (IZR (Z.of_N (Pos.of_uint d)) = digits_value (uint_digits d))%R.
Proof.
  induction d; cbn [Pos.of_uint uint_digits digits_value]; [reflexivity|rewrite IHd; cbn [INR]; ring|..];
    cbn [Z.of_N]; rewrite uint_acc_value; cbn [INR IZR IPR IPR_2]; ring.
Qed.
Definition pos_literal (p : positive) : literal := mkLiteral (uint_digits (Pos.to_uint p)) None.
Lemma pos_literal_ok p : literal_ok (pos_literal p).
Proof.
  split; [apply uint_digits_ok|]. cbn. pose proof (Unsigned.to_uint_nonnil p). destruct (Pos.to_uint p); cbn; congruence.
Qed.
Lemma pos_literal_text p : literal_text (pos_literal p) = dec p.
Proof. unfold literal_text, pos_literal, dec. cbn [l_int l_frac]. rewrite sapp_nil, uint_digits_text. reflexivity. Qed.
Lemma pos_literal_value p : literal_value (pos_literal p) = IZR (Zpos p).
Proof. unfold literal_value, pos_literal. cbn [l_int l_frac]. rewrite <- uint_value, Unsigned.of_to. cbn [Z.of_N]. lra. Qed.

Definition flat_item (a : string * option positive) : item := (fst a, option_map pos_literal (snd a)).
Definition flat (A : list (string * option positive)) : list ftree := map (fun a => Atom (fst a) (snd a)) A.
Lemma flat_text A : forest_text (flat A) = items_text (map flat_item A).
Proof.
  induction A as [|[s n] A IH]; [reflexivity|]. cbn [flat map forest_text tree_text items_text item_text flat_item fst snd].
  fold (flat A). rewrite IH. f_equal. unfold item_text, flat_item. cbn [fst snd]. f_equal. destruct n; [|reflexivity]. cbn [option_map num_text]. symmetry. apply pos_literal_text.
Qed.
Lemma flat_ok A : Forall symbol (map fst A) -> Forall item_ok (map flat_item A).
Proof.
  intros H. rewrite Forall_map in H |- *. eapply Forall_impl; [|exact H]. intros [s n] Hs. split; [exact Hs|].
  destruct n; [apply pos_literal_ok|exact I].
Qed.
Lemma flat_item_count a : item_count (flat_item a) = IZR (Zpos (num_val (snd a))).
Proof. destruct a as [s [p|]]; cbn; [apply pos_literal_value|reflexivity]. Qed.
Lemma flat_atoms A s : atoms_of s (map flat_item A) =
  match forest_atoms s (flat A) with 0%N => None | n => Some (IZR (Z.of_N n)) end.
Proof.
  unfold atoms_of, items_of. 
  assert (H : match filter (fun i => String.eqb (fst i) s) (map flat_item A) with
              | [] => forest_atoms s (flat A) = 0%N
              | is => forest_atoms s (flat A) <> 0%N /\ Rsum (map item_count is) = IZR (Z.of_N (forest_atoms s (flat A))) end).
  { induction A as [|a A IH]; [reflexivity|]. cbn [map filter flat forest_atoms tree_atoms]. fold (flat A).
    change (fst (flat_item a)) with (fst a). destruct (String.eqb (fst a) s).
    - rewrite N2Z.inj_add, plus_IZR. split; [lia|]. cbn [map]. cbn [Rsum]. rewrite flat_item_count. cbn [Z.of_N].
      destruct (filter (fun i => String.eqb (fst i) s) (map flat_item A)) as [|x l].
      + rewrite IH. cbn. lra.
      + destruct IH as [_ IH]. exact (f_equal (Rplus _) IH).
    - cbn [N.add]. exact IH. }
  destruct (filter (fun i => String.eqb (fst i) s) (map flat_item A)) as [|x l]; [rewrite H; reflexivity|].
  destruct H as [H1 H2]. refine (eq_trans (f_equal Some H2) _). destruct (forest_atoms s (flat A)); [congruence|reflexivity].
Qed.

Section Groups.
Variable tostr : R -> string.
Definition parses (s : string) (m : list (string * R)) : Prop := exists fuel, @parseFormula RNum tostr fuel s = Ok m.

Lemma positions_app n a b i : positions n i (a ++ b) = (positions n i a ++ positions n (i + String.length a) b)%list.
Proof.
  revert i. induction a as [|c a IH]; intros i; cbn [append positions String.length].
  - rewrite Nat.add_0_r. reflexivity.
  - destruct (eqc c n); rewrite IH; cbn [app]; replace (S i + String.length a)%nat with (i + S (String.length a))%nat by lia; reflexivity.
Qed.
Lemma positions_bounds n s i x : In x (positions n i s) -> (i <= x < i + String.length s)%nat.
Proof.
  revert i. induction s as [|c s IH]; intros i; cbn [positions String.length]; [intros []|].
  destruct (eqc c n).
  - intros [<-|H]; [lia|]. apply IH in H. lia.
  - intros H. apply IH in H. lia.
Qed.
Lemma positions_length n s i j : length (positions n i s) = length (positions n j s).
Proof. revert i j. induction s as [|c s IH]; intros i j; cbn; [reflexivity|]. destruct (eqc c n); cbn; rewrite (IH (S i) (S j)); reflexivity. Qed.
(** number of occurrences *)
Definition occ (n : nat) (s : string) : nat := length (positions n 0 s).
Lemma occ_app n a b : occ n (a ++ b) = (occ n a + occ n b)%nat.
Proof. unfold occ. rewrite positions_app, app_length. f_equal. apply positions_length. Qed.
Lemma occ_none n s : every (fun c => negb (eqc c n)) s -> occ n s = 0%nat.
Proof. intros H. unfold occ. rewrite positions_none by exact H. reflexivity. Qed.
Lemma occ_zero_positions n s i : occ n s = 0%nat -> positions n i s = [].
Proof. intros H. apply length_zero_iff_nil. rewrite (positions_length n s i 0). exact H. Qed.

Lemma fold_last_below (p2 p : nat) a b d : Forall (fun o => (p2 <= o)%nat) b -> (p < p2)%nat ->
  fold_left (fun q o => if Nat.ltb o p2 then o else q) (a ++ p :: b) d = p.
Proof.
  intros Hb Hp. rewrite fold_left_app. cbn [fold_left]. replace (Nat.ltb p p2) with true by (symmetry; apply Nat.ltb_lt; exact Hp).
  clear d. induction Hb as [|o b Ho Hb IH]; [reflexivity|]. cbn [fold_left]. replace (Nat.ltb o p2) with false by (symmetry; apply Nat.ltb_ge; exact Ho). exact IH.
Qed.
Lemma scan_stop_num x t i : every (fun c => negb (stop_char c)) x -> (t = "" \/ exists c r, t = String c r /\ stop_char c = true) ->
  scan_stop (x ++ t) i = (i + String.length x)%nat.
Proof.
  intros Hx Ht. revert i. induction x as [|c x IH]; intros i.
  - cbn. destruct Ht as [->|(c & r & -> & Hc)]; cbn; [lia|]. rewrite Hc. lia.
  - apply every_cons in Hx. destruct Hx as [Hc Hx]. apply negb_true_iff in Hc. cbn [append scan_stop String.length]. rewrite Hc, IH by exact Hx. lia.
Qed.

(** one replacement of the first innermost group *)
Lemma group_step pre inner num post factor tmp m :
  start_ok (pre ++ "(" ++ inner ++ ")" ++ num ++ post) = true ->
  occ 40 (pre ++ "(" ++ inner ++ ")" ++ num ++ post) = occ 41 (pre ++ "(" ++ inner ++ ")" ++ num ++ post) ->
  occ 32 (pre ++ "(" ++ inner ++ ")" ++ num ++ post) = 0%nat ->
  occ 41 pre = 0%nat -> occ 40 inner = 0%nat -> occ 41 inner = 0%nat -> inner <> "" ->
  every (fun c => negb (stop_char c)) num ->
  (post = "" \/ exists c r, post = String c r /\ stop_char c = true) ->
  String.length post <> 1%nat ->
  (num = "" -> post = "" /\ factor = 1%R) ->
  (num <> "" -> @stringToDouble RNum num = Some factor) ->
  parses inner tmp -> tmp <> [] ->
  parses (pre ++ expand tostr factor tmp ++ post) m ->
  parses (pre ++ "(" ++ inner ++ ")" ++ num ++ post) m.
Proof.
  intros Hstart Hbal Hsp Hpre Hin1 Hin2 Hne Hnum Hpost Hlen Hnil Hval [f1 H1] Htmp [f2 H2].
  exists (S (f1 + f2)). set (s := pre ++ "(" ++ inner ++ ")" ++ num ++ post) in *.
  assert (Ho : positions 40 0 s = (positions 40 0 pre ++ String.length pre :: positions 40 (String.length pre + 1 + String.length inner + 1) (num ++ post))%list).
  { unfold s. rewrite positions_app. f_equal. cbn [Nat.add]. change ("(" ++ inner ++ ")" ++ num ++ post) with (String "(" (inner ++ ")" ++ num ++ post)).
    cbn [positions]. change (eqc "(" 40) with true. cbv iota. f_equal. rewrite positions_app. rewrite (occ_zero_positions _ _ _ Hin1). cbn [app].
    change (")" ++ num ++ post) with (String ")" (num ++ post)). cbn [positions]. change (eqc ")" 40) with false. cbv iota. f_equal. lia. }
  assert (Hc : positions 41 0 s = ((String.length pre + 1 + String.length inner)%nat :: positions 41 (String.length pre + 1 + String.length inner + 1) (num ++ post))%list).
  { unfold s. rewrite positions_app. rewrite (occ_zero_positions _ _ _ Hpre). cbn [app Nat.add]. change ("(" ++ inner ++ ")" ++ num ++ post) with (String "(" (inner ++ ")" ++ num ++ post)).
    cbn [positions]. change (eqc "(" 41) with false. cbv iota. rewrite positions_app. rewrite (occ_zero_positions _ _ _ Hin2). cbn [app].
    change (")" ++ num ++ post) with (String ")" (num ++ post)). cbn [positions]. change (eqc ")" 41) with true. cbv iota. f_equal; [lia|]. f_equal. lia. }
  assert (Hsize : String.length s = (String.length pre + 1 + String.length inner + 1 + String.length num + String.length post)%nat).
  { unfold s. rewrite !str_app_length. change (String.length "(") with 1%nat. change (String.length ")") with 1%nat. lia. }
  assert (Hlin : (0 < String.length inner)%nat) by (destruct inner; [congruence|cbn; lia]).
  assert (Hs : s = (pre ++ "(" ++ inner ++ ")") ++ (num ++ post)) by (unfold s; rewrite !sapp_assoc; reflexivity).
  assert (Hs2 : s = ((pre ++ "(" ++ inner ++ ")") ++ num) ++ post) by (rewrite Hs, !sapp_assoc; reflexivity).
  assert (Hl2 : String.length (pre ++ "(" ++ inner ++ ")") = (String.length pre + 1 + String.length inner + 1)%nat).
  { rewrite !str_app_length. change (String.length "(") with 1%nat. change (String.length ")") with 1%nat. lia. }
  assert (Hfrom : from s (String.length pre + 1 + String.length inner + 1) = num ++ post).
  { rewrite Hs, <- Hl2. apply from_app. }
  cbn [parseFormula]. rewrite Hstart. cbn [negb]. cbv iota.
  fold (occ 40 s) (occ 41 s). rewrite Hbal, Nat.eqb_refl. cbn [negb]. cbv iota.
  unfold has_space. rewrite (occ_zero_positions 32 s 0 Hsp). cbv iota.
  rewrite Hc.
  set (L := positions 40 (String.length pre + 1 + String.length inner + 1) (num ++ post)) in *.
  set (p1 := String.length pre) in *. set (p2 := (p1 + 1 + String.length inner)%nat) in *.
  assert (Hfold : forall d, fold_left (fun q o => if Nat.ltb o p2 then o else q) (positions 40 0 pre ++ p1 :: L)%list d = p1).
  { intros d. apply fold_last_below; [|unfold p2; lia]. apply Forall_forall. intros o Hin. unfold L in Hin. apply positions_bounds in Hin. unfold p2; lia. }
  rewrite Ho.
  destruct (positions 40 0 pre ++ p1 :: L)%list as [|o1 orest] eqn:El; [destruct (positions 40 0 pre); discriminate|].
  assert (Hp : (if Nat.ltb 0 (length orest) then fold_left (fun q o => if Nat.ltb o p2 then o else q) (o1 :: orest) 0%nat else o1) = p1).
  { destruct orest as [|o2 orest].
    - cbn. destruct (positions 40 0 pre) as [|q [|q' l']]; cbn in El; injection El; congruence.
    - cbn [length Nat.ltb Nat.leb]. apply Hfold. }
  rewrite Hp.
  replace (p2 =? S p1)%nat with false by (symmetry; apply Nat.eqb_neq; unfold p2; lia). cbv iota.
  replace (Nat.ltb p1 p2) with true by (symmetry; apply Nat.ltb_lt; unfold p2; lia). cbv iota.
  assert (Hsub : substr s (p1 + 1) (Nat.min (p2 - p1 - 1) (String.length s - (p1 + 1))) = inner).
  { replace (Nat.min (p2 - p1 - 1) (String.length s - (p1 + 1))) with (String.length inner) by (rewrite Hsize; unfold p2, p1; lia).
    unfold substr, s, p1. rewrite sub_skip. change ("(" ++ inner ++ ")" ++ num ++ post) with (String "(" (inner ++ ")" ++ num ++ post)).
    cbn [substring]. apply sub_pre. }
  rewrite Hsub. rewrite (@parse_mono RNum tostr f1 _ _ H1 (f1 + f2)) by lia. cbn [rbind].
  destruct tmp as [|kv tmp]; [congruence|].
  set (i := if (p2 + 1 =? String.length s)%nat then (if Nat.ltb 0 (length orest) then occ 41 s else String.length s) else scan_stop (from s (p2 + 1)) (p2 + 1)).
  assert (Hi : i = (p2 + 1 + String.length num)%nat).
  { unfold i. destruct (Nat.eqb_spec (p2 + 1) (String.length s)) as [E|E].
    - assert (El0 : String.length num = 0%nat /\ String.length post = 0%nat) by (rewrite Hsize in E; unfold p2, p1 in E; lia).
      destruct El0 as [Hn0 Hp0].
      assert (Enum : num = "") by (destruct num; [reflexivity|discriminate]).
      assert (Epost : post = "") by (destruct post; [reflexivity|discriminate]).
      assert (Ho1 : length (o1 :: orest) = 1%nat).
      { rewrite <- Ho. fold (occ 40 s). rewrite Hbal. unfold occ. rewrite Hc. rewrite Enum, Epost. reflexivity. }
      destruct orest; [|discriminate]. cbn [length Nat.ltb Nat.leb]. lia.
    - rewrite Hfrom, (scan_stop_num num post); [reflexivity|exact Hnum|exact Hpost]. }
  rewrite Hi.
  assert (Hfac : (if (p2 + 1 =? String.length s)%nat then Some n1 else @stringToDouble RNum (substr s (p2 + 1) (p2 + 1 + String.length num - (p2 + 1)))) = Some factor).
  { destruct (Nat.eqb_spec (p2 + 1) (String.length s)) as [E|E].
    - assert (Hn0 : String.length num = 0%nat) by (rewrite Hsize in E; unfold p2, p1 in E; lia).
      destruct Hnil as [_ ->]; [destruct num; [reflexivity|discriminate]|]. reflexivity.
    - replace (p2 + 1 + String.length num - (p2 + 1))%nat with (String.length num) by lia.
      unfold substr. rewrite Hs. rewrite <- Hl2. replace (String.length (pre ++ "(" ++ inner ++ ")")) with (String.length (pre ++ "(" ++ inner ++ ")") + 0)%nat by lia.
      rewrite sub_skip, sub_pre. apply Hval. intros ->. destruct (Hnil eq_refl) as [-> _]. rewrite Hsize in E. apply E. unfold p2, p1. cbn. lia. }
  rewrite Hfac.
  assert (Hp0 : substr s 0 p1 = pre) by (unfold substr, s, p1; apply sub_pre). rewrite Hp0.
  assert (Hnew : (if Nat.ltb (p2 + 1 + String.length num) (String.length s - 1) then
                    (pre ++ expand tostr factor (kv :: tmp)) ++ from s (p2 + 1 + String.length num)
                  else pre ++ expand tostr factor (kv :: tmp)) = pre ++ expand tostr factor (kv :: tmp) ++ post).
  { destruct (Nat.ltb_spec (p2 + 1 + String.length num) (String.length s - 1)) as [Hlt|Hge].
    - rewrite sapp_assoc. do 2 f_equal. rewrite Hs2. replace (p2 + 1 + String.length num)%nat with (String.length ((pre ++ "(" ++ inner ++ ")") ++ num)) by (rewrite str_app_length, Hl2; reflexivity).
      apply from_app.
    - assert (E : post = "") by (destruct post as [|a [|b q]]; [reflexivity|cbn in Hlen; congruence|exfalso; rewrite Hsize in Hge; unfold p2, p1 in Hge; cbn in Hge; lia]).
      rewrite E, sapp_nil. reflexivity. }
  rewrite Hnew. apply (@parse_mono RNum tostr f2 _ _ H2). lia.
Qed.

(** ** induction over formulas *)
Lemma forest_ind (P : list ftree -> Prop) : P [] -> (forall s n r, P r -> P (Atom s n :: r)) ->
  (forall g n r, P g -> P r -> P (Group g n :: r)) -> forall l, P l.
Proof.
  intros H0 H1 H2.
  assert (Ht : forall t r, P r -> P (t :: r)).
  { fix IH 1. intros [s n|g n] r Hr; [apply H1, Hr|]. apply H2; [|exact Hr].
    induction g as [|t g IHg]; [exact H0|]. apply IH. exact IHg. }
  induction l as [|t l IHl]; [exact H0|]. apply Ht, IHl.
Qed.

Lemma num_text_numc n : every numc (num_text n).
Proof.
  destruct n as [p|]; [|apply every_nil]. cbn [num_text]. rewrite <- pos_literal_text. apply literal_text_numc, pos_literal_ok.
Qed.
Lemma numc_flatc s : every numc s -> every flatc s.
Proof. apply every_imp. intros c Hc. unfold flatc. rewrite Hc, !orb_true_r. reflexivity. Qed.
Lemma flat_occ n s : (n = 40 \/ n = 41 \/ n = 32)%nat -> every flatc s -> occ n s = 0%nat.
Proof. intros Hn H. apply occ_none, flat_no; assumption. Qed.
Lemma flat_forest A : Forall symbol (map fst A) -> every flatc (forest_text (flat A)).
Proof. intros H. rewrite flat_text. apply items_flat, flat_ok, H. Qed.
Lemma forest_occ l : forest_ok l -> occ 40 (forest_text l) = occ 41 (forest_text l) /\ occ 32 (forest_text l) = 0%nat.
Proof.
  induction l as [|s n r IH|g n r IHg IHr] using forest_ind; intros Hok; [split; reflexivity| |].
  - destruct Hok as [Hs Hr]. cbn [tree_ok] in Hs. cbn [forest_text tree_text]. destruct (IH Hr) as [E1 E2].
    pose proof (symbol_flat _ Hs) as F1. pose proof (numc_flatc _ (num_text_numc n)) as F2.
    rewrite !occ_app. rewrite !(flat_occ 40 _ ltac:(auto) F1), !(flat_occ 41 _ ltac:(auto) F1), !(flat_occ 32 _ ltac:(auto) F1),
      !(flat_occ 40 _ ltac:(auto) F2), !(flat_occ 41 _ ltac:(auto) F2), !(flat_occ 32 _ ltac:(auto) F2). lia.
  - destruct Hok as [[_ Hg] Hr]. change (forest_text (Group g n :: r)) with (("(" ++ forest_text g ++ ")" ++ num_text n) ++ forest_text r).
    destruct (IHg Hg) as [E1 E2], (IHr Hr) as [E3 E4]. pose proof (numc_flatc _ (num_text_numc n)) as F2.
    rewrite !occ_app. rewrite !(flat_occ 40 _ ltac:(auto) F2), !(flat_occ 41 _ ltac:(auto) F2), !(flat_occ 32 _ ltac:(auto) F2).
    change (occ 40 "(") with 1%nat. change (occ 40 ")") with 0%nat. change (occ 41 "(") with 0%nat. change (occ 41 ")") with 1%nat.
    change (occ 32 "(") with 0%nat. change (occ 32 ")") with 0%nat. lia.
Qed.
Definition stops (s : string) : Prop := s = "" \/ exists c r, s = String c r /\ stop_char c = true.
Lemma stops_forest l post : forest_ok l -> stops post -> stops (forest_text l ++ post).
Proof.
  intros Hl Hp. destruct l as [|[s n|g n] l]; [exact Hp| |].
  - right. destruct Hl as [(c & r & -> & Hc & _) _]. cbn [forest_text tree_text append]. eexists; eexists. split; [reflexivity|].
    unfold stop_char. rewrite Hc. reflexivity.
  - right. cbn [forest_text tree_text append]. eexists; eexists. split; reflexivity.
Qed.
Lemma numc_not_stop s : every numc s -> every (fun c => negb (stop_char c)) s.
Proof.
  apply every_imp. intros c Hc. destruct (numc_facts c Hc) as (H1 & H2 & _ & H3 & H4 & _). unfold stop_char. rewrite H1, H2, H3, H4. reflexivity.
Qed.
Definition starts (s : string) : Prop := s = "" \/ start_ok s = true.
Lemma start_app a b : starts a -> a <> "" -> start_ok (a ++ b) = true.
Proof. intros [->|H] Hn; [congruence|]. destruct a as [|c a]; [congruence|]. exact H. Qed.
Lemma start_app2 a b : starts a -> start_ok b = true -> start_ok (a ++ b) = true.
Proof. intros H Hb. destruct a as [|c a]; [exact Hb|]. apply start_app; [exact H|discriminate]. Qed.
Lemma start_symbol s b : symbol s -> start_ok (s ++ b) = true.
Proof. intros (c & r & -> & Hc & _). cbn. destruct (isupper_facts c Hc) as (-> & -> & _). reflexivity. Qed.

Lemma forest_atoms_group s g n r : forest_atoms s (Group g n :: r) = (Npos (num_val n) * forest_atoms s g + forest_atoms s r)%N.
Proof. cbn [forest_atoms tree_atoms]. do 2 f_equal. induction g as [|t g IH]; [reflexivity|]. cbn [forest_atoms]. rewrite <- IH. reflexivity. Qed.
Lemma forest_atoms_le s l : (forest_atoms s l <= forest_total l)%N.
Proof.
  induction l as [|s' n r IH|g n r IHg IHr] using forest_ind; [cbn; lia| |].
  - cbn [forest_atoms forest_total tree_atoms tree_total]. destruct (String.eqb s' s); lia.
  - rewrite forest_atoms_group.
    change (forest_total (Group g n :: r)) with (Npos (num_val n) * forest_total g + forest_total r)%N. nia.
Qed.
Lemma forest_atoms_app s a b : forest_atoms s (a ++ b) = (forest_atoms s a + forest_atoms s b)%N.
Proof. induction a as [|t a IH]; [reflexivity|]. cbn [app forest_atoms]. rewrite IH. lia. Qed.
Lemma forest_text_app a b : forest_text (a ++ b) = forest_text a ++ forest_text b.
Proof. induction a as [|t a IH]; [reflexivity|]. cbn [app forest_text]. rewrite IH, sapp_assoc. reflexivity. Qed.
Lemma flat_app a b : flat (a ++ b) = (flat a ++ flat b)%list.
Proof. unfold flat. apply map_app. Qed.

(** the parsed group as counted atoms, multiplied by [n] *)
Definition pos_of (x : R) : positive := Z.to_pos (up x - 1).
Lemma pos_of_IZR p : pos_of (IZR (Zpos p)) = p.
Proof.
  unfold pos_of. replace (up (IZR (Zpos p))) with (Zpos p + 1)%Z; [rewrite Z.add_simpl_r; reflexivity|].
  apply tech_up; rewrite plus_IZR; lra.
Qed.
Lemma expand_app f a b acc : fold_left (fun a kv => a ++ (fst kv ++ tostr (snd kv * f)%R)) (a ++ b)%list acc =
  fold_left (fun a kv => a ++ (fst kv ++ tostr (snd kv * f)%R)) b (fold_left (fun a kv => a ++ (fst kv ++ tostr (snd kv * f)%R)) a acc).
Proof. apply fold_left_app. Qed.

Definition scaled (n : positive) (tmp : list (string * R)) : list (string * option positive) :=
  map (fun kv => (fst kv, Some (pos_of (snd kv) * n)%positive)) tmp.
Lemma expand_text n tmp : prints_integers tostr ->
  Forall (fun kv => exists p, snd kv = IZR (Zpos p) /\ (Zpos (p * n) <= 999999)%Z) tmp ->
  @expand RNum tostr (IZR (Zpos n)) tmp = forest_text (flat (scaled n tmp)).
Proof.
  intros Hpr. unfold expand.
  assert (H : forall acc, Forall (fun kv => exists p, snd kv = IZR (Zpos p) /\ (Zpos (p * n) <= 999999)%Z) tmp ->
    fold_left (fun a (kv : string * @num RNum) => a ++ (fst kv ++ tostr (nmul (snd kv) (IZR (Zpos n))))) tmp acc = acc ++ forest_text (flat (scaled n tmp))).
  { induction tmp as [|[k v] tmp IH]; intros acc H; [cbn; rewrite sapp_nil; reflexivity|].
    inversion H as [|? ? (p & Hv & Hle) H']; subst. cbn [fst snd] in Hv. cbn [fold_left scaled map flat forest_text tree_text fst snd num_text].
    rewrite IH by exact H'. rewrite sapp_assoc. f_equal. cbn [fst snd]. subst v. rnorm. rewrite <- mult_IZR. 
    change (Zpos p * Zpos n)%Z with (Zpos (p * n)). rewrite Hpr by exact Hle. rewrite pos_of_IZR. reflexivity. }
  intros HF. rewrite H by exact HF. reflexivity.
Qed.
Lemma scaled_atoms n tmp (cnt : string -> N) s : NoDup (map fst tmp) ->
  Forall (fun kv => exists p, snd kv = IZR (Zpos p) /\ cnt (fst kv) = Npos p) tmp ->
  forest_atoms s (flat (scaled n tmp)) = (if in_dec string_dec s (map fst tmp) then Npos n * cnt s else 0)%N.
Proof.
  induction tmp as [|[k v] tmp IH]; intros Hnd HF; [reflexivity|].
  inversion Hnd as [|? ? Hk Hnd']; subst. inversion HF as [|? ? (p & Hv & Hc) HF']; subst. cbn [fst snd] in *.
  cbn [scaled map flat forest_atoms tree_atoms fst snd num_val]. fold (scaled n tmp). fold (flat (scaled n tmp)). rewrite (IH Hnd' HF').
  destruct (String.eqb_spec k s) as [->|Hn].
  - rewrite Hv, pos_of_IZR. destruct (in_dec string_dec s (map fst tmp)) as [Hi|_]; [contradiction|].
    destruct (in_dec string_dec s (s :: map fst tmp)) as [_|Hi]; [|exfalso; apply Hi; left; reflexivity]. rewrite Hc. lia.
  - destruct (in_dec string_dec s (map fst tmp)) as [Hi|Hi]; destruct (in_dec string_dec s (k :: map fst tmp)) as [Hj|Hj]; try reflexivity.
    + exfalso. apply Hj. right. exact Hi.
    + exfalso. destruct Hj; congruence.
Qed.

Lemma stringToDouble_dec p : @stringToDouble RNum (dec p) = Some (IZR (Zpos p)).
Proof. rewrite <- pos_literal_text, (stringToDouble_literal _ (pos_literal_ok p)), pos_literal_value. reflexivity. Qed.
Lemma dec_nonempty p : dec p <> "".
Proof. rewrite <- pos_literal_text. apply ltext_ne, pos_literal_ok. Qed.

Lemma flatten (Hpr : prints_integers tostr) : forall l pre post,
  forest_ok l -> forest_tail l (String.length post) -> (forest_total l <= 999999)%N ->
  occ 41 pre = 0%nat -> occ 32 pre = 0%nat -> occ 32 post = 0%nat -> (occ 40 pre + occ 40 post = occ 41 post)%nat ->
  stops post -> starts pre ->
  exists A, Forall symbol (map fst A) /\ (l <> [] -> A <> []) /\
    (forall s, forest_atoms s (flat A) = forest_atoms s l) /\
    (forall m, parses (pre ++ forest_text (flat A) ++ post) m -> parses (pre ++ forest_text l ++ post) m).
Proof.
  induction l as [|s n r IH|g n r IHg IHr] using forest_ind; intros pre post Hok Htail Htot H41 H32 Hp32 Hbal Hstop Hstart.
  - exists []. repeat split; auto. constructor.
  - destruct Hok as [Hs Hr]. cbn [tree_ok] in Hs. destruct Htail as [_ Htail].
    cbn [forest_total tree_total] in Htot.
    pose proof (symbol_flat _ Hs) as F1. pose proof (numc_flatc _ (num_text_numc n)) as F2.
    destruct (IH (pre ++ s ++ num_text n) post) as (A & HA1 & HA2 & HA3 & HA4); try assumption.
    + lia.
    + rewrite !occ_app, H41, (flat_occ 41 _ ltac:(auto) F1), (flat_occ 41 _ ltac:(auto) F2). reflexivity.
    + rewrite !occ_app, H32, (flat_occ 32 _ ltac:(auto) F1), (flat_occ 32 _ ltac:(auto) F2). reflexivity.
    + rewrite !occ_app, (flat_occ 40 _ ltac:(auto) F1), (flat_occ 40 _ ltac:(auto) F2). lia.
    + right. apply start_app2; [exact Hstart|]. apply start_symbol, Hs.
    + exists ((s, n) :: A). split; [constructor; assumption|]. split; [discriminate|]. split.
      * intros s'. cbn [flat map forest_atoms fst snd]. fold (flat A). rewrite HA3. reflexivity.
      * intros m Hm. cbn [flat map forest_text tree_text fst snd] in Hm |- *. fold (flat A) in Hm.
        rewrite !sapp_assoc in *. specialize (HA4 m). rewrite ?sapp_assoc in HA4. apply HA4, Hm.
  - destruct Hok as [[Hgne Hg] Hr]. fold forest_ok in Hg. destruct Htail as [[Ht1 [Ht2 Ht3]] Htr]. 
    change (forest_total (Group g n :: r)) with (Npos (num_val n) * forest_total g + forest_total r)%N in Htot.
    pose proof (numc_flatc _ (num_text_numc n)) as F2.
    destruct (forest_occ _ Hg) as [Eg1 Eg2]. destruct (forest_occ _ Hr) as [Er1 Er2].
    (* the group *)
    destruct (IHg (pre ++ "(") (")" ++ num_text n ++ forest_text r ++ post)) as (Ag & HA1 & HA2 & HA3 & HA4); clear IHg.
    + exact Hg.
    + replace (String.length (")" ++ num_text n ++ forest_text r ++ post)) with (1 + String.length (num_text n) + (String.length (forest_text r) + String.length post))%nat
        by (rewrite !str_app_length; reflexivity). exact Ht3.
    + nia.
    + rewrite occ_app, H41. reflexivity.
    + rewrite occ_app, H32. reflexivity.
    + rewrite !occ_app, Er2, Hp32, (flat_occ 32 _ ltac:(auto) F2). reflexivity.
    + rewrite !occ_app, (flat_occ 40 _ ltac:(auto) F2), (flat_occ 41 _ ltac:(auto) F2).
      change (occ 40 "(") with 1%nat. change (occ 40 ")") with 0%nat. change (occ 41 ")") with 1%nat. lia.
    + right. eexists; eexists; split; [reflexivity|reflexivity].
    + right. apply start_app2; [exact Hstart|reflexivity].
    + specialize (HA2 Hgne).
      destruct (parse_items tostr 0 (map flat_item Ag)) as (tmp & Ep & Hsort & Hfind).
      { destruct Ag; [congruence|discriminate]. }
      { apply flat_ok, HA1. }
      rewrite <- flat_text in Ep.
      assert (Hent : Forall (fun kv => exists p, snd kv = IZR (Zpos p) /\ forest_atoms (fst kv) g = Npos p) tmp).
      { apply Forall_forall. intros [k v] Hin. apply (smfind_In _ _ Hsort) in Hin. rewrite Hfind, flat_atoms, HA3 in Hin.
        cbn [fst snd]. destruct (forest_atoms k g) as [|p]; [discriminate|]. injection Hin as <-. exists p. split; reflexivity. }
      assert (Hexp : @expand RNum tostr (IZR (Zpos (num_val n))) tmp = forest_text (flat (scaled (num_val n) tmp))).
      { apply expand_text; [exact Hpr|]. eapply Forall_impl; [|exact Hent]. intros [k v] (p & Hv & Hc). exists p. split; [exact Hv|].
        cbn [fst] in Hc. pose proof (forest_atoms_le k g) as Hle. rewrite Hc in Hle. nia. }
      assert (Hkeys : forall s, forest_atoms s g <> 0%N -> In s (map fst tmp)).
      { intros s Hs. destruct (in_dec string_dec s (map fst tmp)) as [Hi|Hi]; [exact Hi|exfalso].
        apply (smfind_None _ Hsort) in Hi. rewrite Hfind, flat_atoms, HA3 in Hi. destruct (forest_atoms s g); [congruence|discriminate]. }
      assert (Hsc : forall s, forest_atoms s (flat (scaled (num_val n) tmp)) = (Npos (num_val n) * forest_atoms s g)%N).
      { intros s. rewrite (scaled_atoms _ _ (fun s => forest_atoms s g) s (smsorted_NoDup Hsort) Hent).
        destruct (in_dec string_dec s (map fst tmp)) as [_|Hi]; [reflexivity|].
        destruct (N.eq_dec (forest_atoms s g) 0) as [->|Hz]; [lia|]. exfalso. apply Hi, Hkeys, Hz. }
      assert (Hsym : Forall symbol (map fst (scaled (num_val n) tmp))).
      { unfold scaled. rewrite map_map. cbn [fst]. apply Forall_forall. intros k Hk. apply in_map_iff in Hk. destruct Hk as ([k' v] & <- & Hin). cbn [fst].
        apply (smfind_In _ _ Hsort) in Hin. rewrite Hfind in Hin. unfold atoms_of, items_of in Hin.
        destruct (filter (fun i => String.eqb (fst i) k') (map flat_item Ag)) as [|x l'] eqn:E; [discriminate|].
        assert (Hx : In x (filter (fun i => String.eqb (fst i) k') (map flat_item Ag))) by (rewrite E; left; reflexivity).
        apply filter_In in Hx. destruct Hx as [Hx1 Hx2]. apply String.eqb_eq in Hx2. apply in_map_iff in Hx1. destruct Hx1 as (a & <- & Ha).
        cbn in Hx2. rewrite <- Hx2. rewrite Forall_forall in HA1. apply HA1. apply in_map, Ha. }
      assert (Htmp : tmp <> []).
      { intros ->. destruct Ag as [|[k nk] Ag]; [congruence|]. assert (Hk : forest_atoms k g <> 0%N).
        { rewrite <- HA3. cbn [flat map forest_atoms tree_atoms fst snd]. rewrite String.eqb_refl. lia. }
        destruct (Hkeys k Hk). }
      pose proof (flat_forest _ Hsym) as F3. pose proof (flat_forest _ HA1) as F4.
      (* the rest *)
      destruct (IHr (pre ++ forest_text (flat (scaled (num_val n) tmp))) post) as (Ar & HR1 & HR2 & HR3 & HR4); try assumption; clear IHr.
      * nia.
      * rewrite occ_app, H41, (flat_occ 41 _ ltac:(auto) F3). reflexivity.
      * rewrite occ_app, H32, (flat_occ 32 _ ltac:(auto) F3). reflexivity.
      * rewrite occ_app, (flat_occ 40 _ ltac:(auto) F3). lia.
      * right. apply start_app2; [exact Hstart|]. destruct tmp as [|kv tmp]; [congruence|]. cbn [scaled map flat forest_text tree_text fst snd].
        inversion Hsym as [|? ? Hx _]; subst. rewrite !sapp_assoc. apply start_symbol. exact Hx.
      * exists (scaled (num_val n) tmp ++ Ar)%list. split; [rewrite map_app; apply Forall_app; split; assumption|].
        split; [intros _; destruct tmp; [congruence|discriminate]|]. split.
        { intros s. rewrite flat_app, forest_atoms_app, Hsc, HR3, forest_atoms_group. reflexivity. }
        intros m Hm. rewrite flat_app, forest_text_app, ?sapp_assoc in Hm.
        specialize (HR4 m). rewrite ?sapp_assoc in HR4. specialize (HR4 Hm).
        change (forest_text (Group g n :: r)) with (("(" ++ forest_text g ++ ")" ++ num_text n) ++ forest_text r).
        specialize (HA4 m). rewrite ?sapp_assoc in HA4. rewrite ?sapp_assoc. apply HA4. clear HA4.
        assert (Hin1 : forest_text (flat Ag) <> "").
        { destruct Ag as [|[k nk] Ag]; [congruence|]. inversion HA1 as [|? ? Hsy _]; subst. destruct Hsy as (c & q & Ek & _). cbn [fst] in Ek. rewrite Ek. discriminate. }
        apply (group_step pre (forest_text (flat Ag)) (num_text n) (forest_text r ++ post) (IZR (Zpos (num_val n))) tmp m).
        -- apply start_app2; [exact Hstart|reflexivity].
        -- rewrite !occ_app, H41, Er1, (flat_occ 40 _ ltac:(auto) F2), (flat_occ 41 _ ltac:(auto) F2), (flat_occ 40 _ ltac:(auto) F4), (flat_occ 41 _ ltac:(auto) F4).
           change (occ 40 "(") with 1%nat. change (occ 41 "(") with 0%nat. change (occ 40 ")") with 0%nat. change (occ 41 ")") with 1%nat. lia.
        -- rewrite !occ_app, H32, Er2, Hp32, (flat_occ 32 _ ltac:(auto) F2), (flat_occ 32 _ ltac:(auto) F4). reflexivity.
        -- exact H41.
        -- apply flat_occ; auto.
        -- apply flat_occ; auto.
        -- exact Hin1.
        -- apply numc_not_stop, num_text_numc.
        -- apply stops_forest; assumption.
        -- rewrite str_app_length. exact Ht1.
        -- destruct n as [p|]; cbn [num_text num_val].
           ++ intros E. exfalso. apply (dec_nonempty p E).
           ++ intros _. specialize (Ht2 eq_refl). split; [|reflexivity]. destruct (forest_text r); [|discriminate]. destruct post; [reflexivity|discriminate].
        -- destruct n as [p|]; cbn [num_text num_val]; [intros _; apply stringToDouble_dec|congruence].
        -- exists 1%nat. exact Ep.
        -- exact Htmp.
        -- rewrite Hexp. exact HR4.
Qed.

Theorem parse_tree (Hpr : prints_integers tostr) l : l <> [] -> forest_ok l -> forest_tail l 0 -> (forest_total l <= 999999)%N ->
  exists m fuel0, (forall fuel, (fuel0 <= fuel)%nat -> @parseFormula RNum tostr fuel (forest_text l) = Ok m) /\ msorted sltb m /\
    forall s, mfind sltb s m = match forest_atoms s l with 0%N => None | n => Some (IZR (Z.of_N n)) end.
Proof.
  intros Hne Hok Htail Htot.
  destruct (flatten Hpr l "" "" Hok Htail Htot eq_refl eq_refl eq_refl eq_refl (or_introl eq_refl) (or_introl eq_refl)) as (A & H1 & H2 & H3 & H4).
  specialize (H2 Hne).
  destruct (parse_items tostr 0 (map flat_item A)) as (m & Ep & Hsort & Hfind).
  { destruct A; [congruence|discriminate]. }
  { apply flat_ok, H1. }
  rewrite <- flat_text in Ep. destruct (H4 m) as [fuel0 Hf].
  { exists 1%nat. cbn [append]. rewrite sapp_nil. exact Ep. }
  cbn [append] in Hf. rewrite sapp_nil in Hf.
  exists m, fuel0. split; [|split; [exact Hsort|]].
  - intros fuel Hle. apply (parse_mono _ _ _ _ Hf). exact Hle.
  - intros s. rewrite Hfind, flat_atoms, H3. reflexivity.
Qed.
End Groups.
