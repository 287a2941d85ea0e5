(** Sums. [nsum] is the C++ accumulation loop [total = 0; for (...) total += v[i];];
    [Rsum] is the mathematical sum used in specifications. *)
From Coq Require Import List Reals Lra Permutation.
From Verif Require Import Base.Num.
Import ListNotations.
Set Implicit Arguments.

Definition nsum {N : Num} (l : list num) : num := fold_left nadd l n0.

Fixpoint Rsum (l : list R) : R := match l with [] => 0%R | x :: r => (x + Rsum r)%R end.

Local Open Scope R_scope.

Lemma fold_left_Rplus l a : fold_left Rplus l a = a + Rsum l.
Proof. revert a; induction l as [|x l IH]; intros a; cbn; [lra|]. rewrite IH. lra. Qed.

Lemma nsum_R l : @nsum RNum l = Rsum l.
Proof. unfold nsum. cbn. rewrite fold_left_Rplus. lra. Qed.

Lemma Rsum_app a b : Rsum (a ++ b) = Rsum a + Rsum b.
Proof. induction a as [|x a IH]; cbn; [lra|]. rewrite IH. lra. Qed.

Lemma Rsum_perm a b : Permutation a b -> Rsum a = Rsum b.
Proof. induction 1; cbn; lra. Qed.

Lemma Rsum_scale c l : Rsum (map (fun x => c * x) l) = c * Rsum l.
Proof. induction l as [|x l IH]; cbn; [lra|]. rewrite IH. lra. Qed.

Lemma Rsum_div c l : Rsum (map (fun x => x / c) l) = Rsum l / c.
Proof. unfold Rdiv. induction l as [|x l IH]; cbn; [lra|]. rewrite IH. lra. Qed.

Lemma Rsum_nonneg l : Forall (fun x => 0 <= x) l -> 0 <= Rsum l.
Proof. induction 1; cbn; lra. Qed.

Lemma Rsum_pos l : l <> [] -> Forall (fun x => 0 < x) l -> 0 < Rsum l.
Proof.
  intros Hn H. destruct H as [|x l Hx H]; [congruence|]. cbn.
  assert (0 <= Rsum l) by (apply Rsum_nonneg; eapply Forall_impl; [|exact H]; cbn; intros; lra). lra.
Qed.

Lemma Rsum_in_le x l : Forall (fun x => 0 <= x) l -> In x l -> x <= Rsum l.
Proof.
  induction l as [|y l IH]; cbn; intros H Hin; [tauto|]. inversion H; subst.
  assert (0 <= Rsum l) by (apply Rsum_nonneg; assumption).
  destruct Hin as [->|Hin]; [lra|]. specialize (IH H3 Hin). lra.
Qed.

Lemma Rsum_plus {A} (f g : A -> R) l : Rsum (map (fun a => f a + g a) l) = Rsum (map f l) + Rsum (map g l).
Proof. induction l as [|x l IH]; cbn; [lra|]. rewrite IH. lra. Qed.

Lemma Rsum_mult_l {A} c (f : A -> R) l : Rsum (map (fun a => c * f a) l) = c * Rsum (map f l).
Proof. induction l as [|x l IH]; cbn; [lra|]. rewrite IH. lra. Qed.

Lemma Rsum_ext {A} (f g : A -> R) l : (forall a, In a l -> f a = g a) -> Rsum (map f l) = Rsum (map g l).
Proof. intros H. rewrite (map_ext_in f g l H). reflexivity. Qed.

Lemma Rsum_zero {A} (f : A -> R) l : (forall a, In a l -> f a = 0) -> Rsum (map f l) = 0.
Proof. induction l as [|x l IH]; cbn; intros H; [lra|]. rewrite H, IH; auto. lra. Qed.

Lemma Rsum_le {A} (f g : A -> R) l : (forall a, In a l -> f a <= g a) -> Rsum (map f l) <= Rsum (map g l).
Proof. induction l as [|x l IH]; cbn; intros H; [lra|]. assert (f x <= g x) by auto. assert (Rsum (map f l) <= Rsum (map g l)) by auto. lra. Qed.

Lemma Rsum_map_nonneg {A} (f : A -> R) l : (forall a, In a l -> 0 <= f a) -> 0 <= Rsum (map f l).
Proof. intros H. apply Rsum_nonneg, Forall_map, Forall_forall, H. Qed.
