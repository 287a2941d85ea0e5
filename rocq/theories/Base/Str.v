(** Strings as used by the C++ code: characters are bytes, C locale. *)
From Coq Require Import Ascii String List Bool Arith NArith ZArith Lia.
From Verif Require Import Base.Res.
Import ListNotations.
Set Implicit Arguments.

Definition code (c : ascii) : nat := nat_of_ascii c.
Definition isdigit (c : ascii) : bool := Nat.leb 48 (code c) && Nat.leb (code c) 57.
Definition isupper (c : ascii) : bool := Nat.leb 65 (code c) && Nat.leb (code c) 90.
Definition islower (c : ascii) : bool := Nat.leb 97 (code c) && Nat.leb (code c) 122.
Definition isalpha (c : ascii) : bool := isupper c || islower c.
Definition toupper (c : ascii) : ascii := if islower c then ascii_of_nat (code c - 32) else c.
Definition tolower (c : ascii) : ascii := if isupper c then ascii_of_nat (code c + 32) else c.

Fixpoint smap_chars (f : ascii -> ascii) (s : string) : string :=
  match s with EmptyString => EmptyString | String c r => String (f c) (smap_chars f r) end.

(** the one-character string of digit [i] (array [digit] of the sources) *)
Definition digit_str (i : nat) : string := String (ascii_of_nat (48 + i)) EmptyString.

(** std::istringstream(str) >> int for a one-character string (only use in Shell/Element) *)
Definition char_to_int (s : string) : option nat :=
  match s with
  | String c EmptyString => if isdigit c then Some (code c - 48) else None
  | _ => None
  end.

(** std::equal(d.rbegin(), d.rend(), k.rbegin()): stops at the first difference; reading past
    the beginning of [k] is undefined. *)
Fixpoint equal_iter (d k : list ascii) : res bool :=
  match d, k with
  | [], _ => Ok true
  | _ :: _, [] => UB
  | a :: d', b :: k' => if Ascii.eqb a b then equal_iter d' k' else Ok false
  end.
Definition suffix_match (d k : string) : res bool :=
  equal_iter (rev (list_ascii_of_string d)) (rev (list_ascii_of_string k)).

(** ** Lemmas *)
Lemma prefix_spec p s : String.prefix p s = true <-> exists r, s = (p ++ r)%string.
Proof.
  revert s; induction p as [|c p IH]; intros s; cbn.
  - split; [intros _; exists s; reflexivity|destruct s; reflexivity].
  - destruct s as [|d s]; [split; [discriminate|intros [r Hr]; discriminate]|]. cbn.
    destruct (ascii_dec c d) as [->|Hn].
    + rewrite IH. split; intros [r Hr]; exists r; [rewrite Hr; reflexivity|injection Hr as ->; reflexivity].
    + split; [discriminate|]. intros [r Hr]. injection Hr as -> _. congruence.
Qed.

Lemma list_ascii_app s t : list_ascii_of_string (s ++ t) = list_ascii_of_string s ++ list_ascii_of_string t.
Proof. induction s; cbn; [reflexivity|f_equal; assumption]. Qed.
Lemma list_ascii_length s : length (list_ascii_of_string s) = String.length s.
Proof. induction s; cbn; [reflexivity|f_equal; assumption]. Qed.
Lemma list_ascii_inj s t : list_ascii_of_string s = list_ascii_of_string t -> s = t.
Proof. intros H. rewrite <- (string_of_list_ascii_of_string s), H. apply string_of_list_ascii_of_string. Qed.
Lemma str_app_inj_l s t u : (s ++ t = s ++ u)%string -> t = u.
Proof. induction s; cbn; intros H; [assumption|injection H as H; auto]. Qed.
Lemma str_app_length s t : String.length (s ++ t) = String.length s + String.length t.
Proof. induction s; cbn; [reflexivity|f_equal; assumption]. Qed.

Lemma equal_iter_app d k : equal_iter d (d ++ k) = Ok true.
Proof. induction d as [|a d IH]; cbn; [reflexivity|]. rewrite Ascii.eqb_refl. exact IH. Qed.
Lemma equal_iter_true d k : equal_iter d k = Ok true -> exists r, k = d ++ r.
Proof.
  revert k; induction d as [|a d IH]; intros k; cbn; [intros _; exists k; reflexivity|].
  destruct k as [|b k]; [discriminate|]. destruct (Ascii.eqb_spec a b) as [->|]; [|discriminate].
  intros H. destruct (IH _ H) as [r ->]. exists r. reflexivity.
Qed.
Lemma equal_iter_long d k : length d <= length k -> exists b, equal_iter d k = Ok b.
Proof.
  revert k; induction d as [|a d IH]; intros k H; cbn; [eexists; reflexivity|].
  destruct k as [|b k]; cbn in H; [lia|]. destruct (Ascii.eqb a b); [apply IH; lia|eexists; reflexivity].
Qed.
Lemma suffix_match_true d k : suffix_match d k = Ok true <-> exists r, k = (r ++ d)%string.
Proof.
  unfold suffix_match. split.
  - intros H. apply equal_iter_true in H. destruct H as [r Hr]. exists (string_of_list_ascii (rev r)).
    apply list_ascii_inj. rewrite list_ascii_app, list_ascii_of_string_of_list_ascii.
    rewrite <- (rev_involutive (list_ascii_of_string k)), Hr, rev_app_distr, rev_involutive. reflexivity.
  - intros [r ->]. rewrite list_ascii_app, rev_app_distr. apply equal_iter_app.
Qed.
Lemma suffix_match_long d k : String.length d <= String.length k -> exists b, suffix_match d k = Ok b.
Proof. intros H. apply equal_iter_long. rewrite !rev_length, !list_ascii_length. assumption. Qed.
Lemma append_assoc_str (a b c : string) : ((a ++ b) ++ c = a ++ (b ++ c))%string.
Proof. induction a; cbn; [reflexivity|f_equal; assumption]. Qed.
