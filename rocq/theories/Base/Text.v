(** Text files as sequences of bytes, and the string helpers of the readers of text files. *)
From Coq Require Import Ascii String List Bool Arith Lia.
From Verif Require Import Base.Str.
Import ListNotations.
Set Implicit Arguments.

Definition text := list ascii.
Definition newline : ascii := "010"%char.
Definition creturn : ascii := "013"%char.
Definition tab : ascii := "009"%char.
Definition nul : ascii := "000"%char.
Definition str (t : text) : string := string_of_list_ascii t.

(** successive std::getline calls until failure: the text after the last newline is a line
    if it is not empty *)
Fixpoint getlines (t : text) : list text :=
  match t with
  | [] => []
  | c :: r =>
      if Ascii.eqb c newline then [] :: getlines r
      else match getlines r with [] => [[c]] | l :: ls => (c :: l) :: ls end
  end.

(** isspace of <cctype> in the C locale (bytes above 127 are not space) *)
Definition isspace (c : ascii) : bool := Nat.eqb (code c) 32 || (Nat.leb 9 (code c) && Nat.leb (code c) 13).

Fixpoint drop_while (f : ascii -> bool) (t : text) : text :=
  match t with [] => [] | c :: r => if f c then drop_while f r else t end.
Definition lstrip (f : ascii -> bool) (t : text) : text := drop_while f t.
Definition rstrip (f : ascii -> bool) (t : text) : text := rev (drop_while f (rev t)).

(** *** Lemmas *)
Lemma getlines_line l r : ~ In newline l -> getlines (l ++ newline :: r) = l :: getlines r.
Proof.
  induction l as [|c l IH]; intros H; cbn [app getlines].
  - rewrite Ascii.eqb_refl. reflexivity.
  - destruct (Ascii.eqb_spec c newline) as [->|Q]; [exfalso; apply H; left; reflexivity|].
    rewrite IH by (intros K; apply H; right; exact K). reflexivity.
Qed.
Lemma getlines_last l : ~ In newline l -> getlines l = match l with [] => [] | _ => [l] end.
Proof.
  induction l as [|c l IH]; intros H; cbn [getlines]; [reflexivity|].
  destruct (Ascii.eqb_spec c newline) as [->|Q]; [exfalso; apply H; left; reflexivity|].
  rewrite IH by (intros K; apply H; right; exact K). destruct l; reflexivity.
Qed.
Lemma drop_while_app f p t : Forall (fun c => f c = true) p -> drop_while f (p ++ t) = drop_while f t.
Proof. induction 1 as [|c p Hc _ IH]; cbn; [reflexivity|]. rewrite Hc. exact IH. Qed.
Lemma drop_while_all f p : Forall (fun c => f c = true) p -> drop_while f p = [].
Proof. intros H. rewrite <- (app_nil_r p), drop_while_app by exact H. reflexivity. Qed.
Lemma drop_while_hd f c t : f c = false -> drop_while f (c :: t) = c :: t.
Proof. intros H. cbn. rewrite H. reflexivity. Qed.
Lemma rstrip_app f t p : Forall (fun c => f c = true) p -> rstrip f (t ++ p) = rstrip f t.
Proof. intros H. unfold rstrip. rewrite rev_app_distr, drop_while_app; [reflexivity|]. apply Forall_rev. exact H. Qed.
Lemma rstrip_last f t c : f c = false -> rstrip f (t ++ [c]) = t ++ [c].
Proof. intros H. unfold rstrip. rewrite rev_app_distr. cbn [rev app]. rewrite drop_while_hd by exact H. cbn [rev]. now rewrite rev_involutive. Qed.
