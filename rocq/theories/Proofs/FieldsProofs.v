(** Proofs about lists of values in one text and the keys of requests. *)
From Coq Require Import Ascii String List ZArith Bool Arith Lia DecimalString DecimalZ.
Require Decimal.
From Verif Require Import Base.Num Base.Res Base.SMap Base.Str Base.Text Base.ListLemmas Model.SimpleIni Model.Multilayer Spec.IniSpec Spec.FieldsSpec Proofs.IniProofs.
Import ListNotations.
Set Implicit Arguments.

Lemma split_last sep x : ~ In sep x -> split sep x = match x with [] => [] | _ => [x] end.
Proof.
  induction x as [|c x IH]; intros H; [reflexivity|]. cbn [split]. destruct (Ascii.eqb_spec c sep) as [->|_]; [exfalso; apply H; left; reflexivity|].
  rewrite IH by (intros K; apply H; right; exact K). destruct x; reflexivity.
Qed.
Lemma split_item sep x r : ~ In sep x -> split sep (x ++ sep :: r) = x :: split sep r.
Proof.
  induction x as [|c x IH]; intros H; cbn [app split]; [rewrite Ascii.eqb_refl; reflexivity|].
  destruct (Ascii.eqb_spec c sep) as [->|_]; [exfalso; apply H; left; reflexivity|]. rewrite IH by (intros K; apply H; right; exact K). reflexivity.
Qed.
Lemma join_app sep items x : join sep (items ++ [x]) = concat (map (fun i => i ++ [sep]) items) ++ x.
Proof.
  induction items as [|y items IH]; [reflexivity|]. cbn [app map concat]. rewrite <- !app_assoc. cbn [app]. rewrite <- IH. cbn [join]. destruct (items ++ [x]) eqn:E; [destruct items; discriminate|reflexivity].
Qed.
Lemma split_join sep items x : Forall (fun i => ~ In sep i) items -> ~ In sep x ->
  split sep (join sep (items ++ [x])) = items ++ match x with [] => [] | _ => [x] end.
Proof.
  intros H Hx. rewrite join_app. induction H as [|y items Hy _ IH]; cbn [map concat app]; [apply split_last, Hx|].
  rewrite <- !app_assoc. cbn [app]. rewrite split_item by exact Hy. f_equal. exact IH.
Qed.
Lemma drop_space t : exists a, t = a ++ lstrip isspace t /\ Forall space a.
Proof.
  induction t as [|c t (a & E & H)]; [exists []; split; [reflexivity|constructor]|]. unfold lstrip in *. cbn [drop_while]. destruct (isspace c) eqn:Q.
  - exists (c :: a). split; [cbn; f_equal; exact E|]. constructor; [exact Q|exact H].
  - exists []. split; [reflexivity|constructor].
Qed.
Lemma drop_head t c r : lstrip isspace t = c :: r -> isspace c = false.
Proof. induction t as [|x t IH]; [discriminate|]. unfold lstrip in *. cbn. destruct (isspace x) eqn:Q; [exact IH|]. intros E. injection E as -> _. exact Q. Qed.
Lemma word_split t : exists b, t = word t ++ b /\ Forall (fun c => ~ space c) (word t) /\ (b = [] \/ exists c r, b = c :: r /\ space c).
Proof.
  induction t as [|c t (b & E & H & B)]; [exists []; repeat split; auto; constructor|]. cbn [word]. destruct (isspace c) eqn:Q.
  - exists (c :: t). split; [reflexivity|]. split; [constructor|]. right. exists c, t. split; [reflexivity|exact Q].
  - exists b. split; [cbn; f_equal; exact E|]. split; [|exact B]. constructor; [unfold space; congruence|exact H].
Qed.
Lemma readWord_reads dflt item : reads dflt item (match readWord item with Some w => w | None => dflt end).
Proof.
  unfold readWord. destruct (drop_space item) as (a & E & A). destruct (word_split (lstrip isspace item)) as (b & E' & W & B).
  destruct (word (lstrip isspace item)) as [|c w] eqn:EW.
  - left. split; [|reflexivity]. rewrite E. apply Forall_app. split; [exact A|]. destruct (lstrip isspace item) as [|x y] eqn:EL; [constructor|].
    exfalso. cbn [word] in EW. rewrite (drop_head item EL) in EW. discriminate.
  - right. exists a, b. split; [rewrite E; f_equal; exact E'|]. split; [exact A|]. split; [discriminate|]. split; assumption.
Qed.

(** ** Keys *)
Lemma bare_word s r : Forall (fun c => ~ space c) s -> word (s ++ " "%char :: r) = s.
Proof. induction 1 as [|c s H _ IH]; cbn [app word]; [reflexivity|]. unfold space in H. apply not_true_is_false in H. rewrite H. f_equal. exact IH. Qed.
Lemma bare_word_end s : Forall (fun c => ~ space c) s -> word s = s.
Proof. induction 1 as [|c s H _ IH]; cbn [word]; [reflexivity|]. unfold space in H. apply not_true_is_false in H. rewrite H. f_equal. exact IH. Qed.
Lemma bare_strip s : Forall (fun c => ~ space c) s -> lstrip isspace s = s.
Proof. destruct 1 as [|c s H _]; [reflexivity|]. unfold lstrip. cbn. unfold space in H. apply not_true_is_false in H. rewrite H. reflexivity. Qed.
Lemma bare_read s : s <> [] -> Forall (fun c => ~ space c) s -> readWord s = Some s.
Proof. intros N H. unfold readWord. rewrite bare_strip, bare_word_end by exact H. destruct s; [contradiction|reflexivity]. Qed.
Lemma bare_nospace s : Forall (fun c => ~ space c) s -> ~ In " "%char s.
Proof. intros H I. exact (proj1 (Forall_forall _ _) H _ I eq_refl). Qed.
Lemma lst_app a b : list_ascii_of_string (a ++ b) = (list_ascii_of_string a ++ list_ascii_of_string b)%list.
Proof. induction a as [|c a IH]; cbn; [reflexivity|]. f_equal. exact IH. Qed.
Lemma parse_words (ws : list text) : ws <> [] -> Forall (fun s => s <> [] /\ Forall (fun c => ~ space c) s) ws -> parseStringAsMultipleValues (join " "%char ws) [] " "%char = ws.
Proof.
  intros N H. destruct (exists_last N) as (l & x & ->). apply Forall_app in H. destruct H as [Hl Hx]. inversion Hx as [|? ? [Nx Bx] _]; subst.
  unfold parseStringAsMultipleValues. rewrite split_join; [|eapply Forall_impl; [|exact Hl]; intros s [_ B]; apply bare_nospace, B|apply bare_nospace, Bx].
  destruct x as [|c x]; [contradiction|]. rewrite map_app. cbn [map]. rewrite bare_read by assumption. f_equal.
  clear -Hl. induction Hl as [|s l [Ns Bs] _ IH]; [reflexivity|]. cbn [map]. rewrite bare_read by assumption. f_equal. exact IH.
Qed.

(** *** Decimal numbers *)
Local Open Scope Z_scope.
Definition dfold (ds : list nat) (a : Z) : Z := fold_left (fun a d => 10 * a + Z.of_nat d) ds a.
Lemma uint_chars u : digitsOf (list_ascii_of_string (NilEmpty.string_of_uint u)) =
  (fix f u := match u with Decimal.Nil => [] | Decimal.D0 u => 0 :: f u | Decimal.D1 u => 1 :: f u | Decimal.D2 u => 2 :: f u | Decimal.D3 u => 3 :: f u | Decimal.D4 u => 4 :: f u
    | Decimal.D5 u => 5 :: f u | Decimal.D6 u => 6 :: f u | Decimal.D7 u => 7 :: f u | Decimal.D8 u => 8 :: f u | Decimal.D9 u => 9 :: f u end)%nat u.
Proof. induction u as [|u IH|u IH|u IH|u IH|u IH|u IH|u IH|u IH|u IH|u IH]; cbn [NilEmpty.string_of_uint list_ascii_of_string digitsOf]; [reflexivity|..]; (change (isdigit _) with true; cbv iota; f_equal; exact IH). Qed.
Lemma uint_acc u p : dfold (digitsOf (list_ascii_of_string (NilEmpty.string_of_uint u))) (Zpos p) = Zpos (Pos.of_uint_acc u p).
Proof.
  rewrite uint_chars. revert p. induction u as [|u IH|u IH|u IH|u IH|u IH|u IH|u IH|u IH|u IH|u IH]; intros p; cbn [Pos.of_uint_acc]; [reflexivity|..];
  unfold dfold in *; cbn [fold_left]; rewrite <- IH; f_equal; lia.
Qed.
Lemma uint_value u : dfold (digitsOf (list_ascii_of_string (NilEmpty.string_of_uint u))) 0 = Z.of_uint u.
Proof.
  unfold Z.of_uint. induction u as [|u IH|u IH|u IH|u IH|u IH|u IH|u IH|u IH|u IH|u IH]; cbn [Pos.of_uint Z.of_N]; [reflexivity|exact IH|..]; rewrite <- uint_acc; reflexivity.
Qed.
Lemma zero_empty u : u <> Decimal.Nil -> NilZero.string_of_uint u = NilEmpty.string_of_uint u.
Proof. destruct u; [contradiction|reflexivity..]. Qed.
Lemma digits_bare u : Forall (fun c => ~ space c) (list_ascii_of_string (NilEmpty.string_of_uint u)).
Proof. induction u as [|u IH|u IH|u IH|u IH|u IH|u IH|u IH|u IH|u IH|u IH]; cbn [NilEmpty.string_of_uint list_ascii_of_string]; constructor; try exact IH; discriminate. Qed.
Lemma digits_some u : u <> Decimal.Nil -> digitsOf (list_ascii_of_string (NilEmpty.string_of_uint u)) <> [].
Proof. intros N. rewrite uint_chars. destruct u; [contradiction|discriminate..]. Qed.
Lemma first_digit u c r : list_ascii_of_string (NilEmpty.string_of_uint u) = c :: r -> Ascii.eqb c "-" = false /\ Ascii.eqb c "+" = false.
Proof. destruct u; cbn; intros E; [discriminate|..]; injection E as <- _; split; reflexivity. Qed.
Lemma nz_int z : exists u, u <> Decimal.Nil /\ ((Z.to_int z = Decimal.Pos u /\ z = Z.of_uint u) \/ (Z.to_int z = Decimal.Neg u /\ z = - Z.of_uint u)).
Proof.
  pose proof (DecimalZ.of_to z) as E. destruct (Z.to_int z) as [u|u] eqn:Q; exists u; (split; [|unfold Z.of_int in E; auto]).
  - intros ->. cbn in E. subst z. discriminate Q.
  - intros ->. cbn in E. subst z. discriminate Q.
Qed.
Definition printed (z : Z) : text := list_ascii_of_string (NilZero.string_of_int (Z.to_int z)).
Lemma printed_bare z : printed z <> [] /\ Forall (fun c => ~ space c) (printed z).
Proof.
  unfold printed. destruct (nz_int z) as (u & N & [[-> _]|[-> _]]); cbn [NilZero.string_of_int]; rewrite (zero_empty N).
  - split; [|apply digits_bare]. intros E. apply (digits_some N). rewrite E. reflexivity.
  - split; [discriminate|]. cbn [list_ascii_of_string]. constructor; [discriminate|apply digits_bare].
Qed.
Lemma readInt_printed z : (-2147483648 <= z <= 2147483647) -> readInt (printed z) = Some z.
Proof.
  intros R. unfold readInt. rewrite bare_strip by apply printed_bare. unfold printed. destruct (nz_int z) as (u & N & Q).
  assert (V : forall sgn : bool, (if ((if sgn then - Z.of_uint u else Z.of_uint u) <? -2147483648) || (2147483647 <? (if sgn then - Z.of_uint u else Z.of_uint u)) then None else Some (if sgn then - Z.of_uint u else Z.of_uint u)) =
     match digitsOf (list_ascii_of_string (NilEmpty.string_of_uint u)) with [] => None | ds => let v := fold_left (fun a d => (10 * a + Z.of_nat d)%Z) ds 0%Z in
          let v := if sgn then (- v)%Z else v in if (v <? -2147483648)%Z || (2147483647 <? v)%Z then None else Some v end).
  { intros sgn. rewrite <- uint_value. unfold dfold. destruct (digitsOf _) eqn:E; [exfalso; exact (digits_some N E)|]. reflexivity. }
  destruct Q as [[-> E]|[-> E]]; cbn [NilZero.string_of_int]; rewrite (zero_empty N).
  - specialize (V false). cbv iota in V. destruct (list_ascii_of_string (NilEmpty.string_of_uint u)) as [|c r] eqn:EC; [exfalso; apply (digits_some N); rewrite EC; reflexivity|].
    destruct (first_digit _ EC) as [-> ->]. refine (eq_trans (eq_sym V) _). rewrite <- E. destruct (Z.ltb_spec z (-2147483648)); [lia|]. destruct (Z.ltb_spec 2147483647 z); [lia|]. reflexivity.
  - specialize (V true). cbv iota in V. cbn [list_ascii_of_string]. change (Ascii.eqb "-" "-") with true. cbv iota. refine (eq_trans (eq_sym V) _). rewrite <- E.
    destruct (Z.ltb_spec z (-2147483648)); [lia|]. destruct (Z.ltb_spec 2147483647 z); [lia|]. reflexivity.
Qed.

Lemma readInt_out z : (z < -2147483648 \/ 2147483647 < z) -> readInt (printed z) = None.
Proof.
  intros R. unfold readInt. rewrite bare_strip by apply printed_bare. unfold printed. destruct (nz_int z) as (u & N & Q).
  assert (V : forall sgn : bool, (if ((if sgn then - Z.of_uint u else Z.of_uint u) <? -2147483648) || (2147483647 <? (if sgn then - Z.of_uint u else Z.of_uint u)) then None else Some (if sgn then - Z.of_uint u else Z.of_uint u)) =
     match digitsOf (list_ascii_of_string (NilEmpty.string_of_uint u)) with [] => None | ds => let v := fold_left (fun a d => (10 * a + Z.of_nat d)%Z) ds 0%Z in
          let v := if sgn then (- v)%Z else v in if (v <? -2147483648)%Z || (2147483647 <? v)%Z then None else Some v end).
  { intros sgn. rewrite <- uint_value. unfold dfold. destruct (digitsOf _) eqn:E; [exfalso; exact (digits_some N E)|]. reflexivity. }
  destruct Q as [[-> E]|[-> E]]; cbn [NilZero.string_of_int]; rewrite (zero_empty N).
  - specialize (V false). cbv iota in V. destruct (list_ascii_of_string (NilEmpty.string_of_uint u)) as [|c r] eqn:EC; [exfalso; apply (digits_some N); rewrite EC; reflexivity|].
    destruct (first_digit _ EC) as [-> ->]. refine (eq_trans (eq_sym V) _). rewrite <- E. destruct (Z.ltb_spec z (-2147483648)); [reflexivity|]. destruct (Z.ltb_spec 2147483647 z); [reflexivity|lia].
  - specialize (V true). cbv iota in V. cbn [list_ascii_of_string]. change (Ascii.eqb "-" "-") with true. cbv iota. refine (eq_trans (eq_sym V) _). rewrite <- E.
    destruct (Z.ltb_spec z (-2147483648)); [reflexivity|]. destruct (Z.ltb_spec 2147483647 z); [reflexivity|lia].
Qed.

Lemma soa a : string_of_list_ascii (list_ascii_of_string a) = a.
Proof. apply string_of_list_ascii_of_string. Qed.
Lemma bare_list s : bare s -> list_ascii_of_string s <> [] /\ Forall (fun c => ~ space c) (list_ascii_of_string s).
Proof. intros [N B]. split; [|exact B]. destruct s; [contradiction|discriminate]. Qed.
Theorem parseKey_request r : request_ok r -> parseKey (key_of_request r) = Ok (request_element r, request_family r, request_layer r).
Proof.
  unfold parseKey. destruct r as [e|e f|e f z]; cbn [request_ok key_of_request request_element request_family request_layer].
  - intros B. pose proof (@parse_words [list_ascii_of_string e] ltac:(discriminate) (Forall_cons _ (bare_list B) (Forall_nil _))) as P. cbn [join] in P. rewrite P, soa. reflexivity.
  - intros [B1 B2]. pose proof (@parse_words [list_ascii_of_string e; list_ascii_of_string f] ltac:(discriminate) (Forall_cons _ (bare_list B1) (Forall_cons _ (bare_list B2) (Forall_nil _)))) as P.
    cbn [join] in P. rewrite !lst_app. cbn [list_ascii_of_string app]. rewrite P, !soa. reflexivity.
  - intros (B1 & B2 & R). pose proof (@parse_words [list_ascii_of_string e; list_ascii_of_string f; printed z] ltac:(discriminate)
      (Forall_cons _ (bare_list B1) (Forall_cons _ (bare_list B2) (Forall_cons _ (printed_bare z) (Forall_nil _))))) as P.
    cbn [join] in P. rewrite !lst_app. cbn [list_ascii_of_string app]. fold (printed z). rewrite P, readInt_printed, !soa by exact R. reflexivity.
Qed.
