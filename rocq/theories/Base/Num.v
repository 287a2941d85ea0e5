(** Numbers: the model is written over an arbitrary record of double
    operations; three instances are provided.
    - [RNum]  mathematical reals (arithmetic theorems)
    - [FNum]  IEEE binary64 through Coq's primitive floats (witnesses)
    - [QNum]  exact rationals (witnesses)
    C++ [double] literals such as 0.000001 are written [nlit m e] = m * 10^e. *)
From Coq Require Import ZArith QArith Reals PrimFloat Uint63 Bool.
Set Implicit Arguments.

Class Num := {
  num : Type;
  n0 : num;
  n1 : num;
  nadd : num -> num -> num;
  nsub : num -> num -> num;
  nmul : num -> num -> num;
  ndiv : num -> num -> num;
  nopp : num -> num;
  nltb : num -> num -> bool;    (* C++ a < b  : false when a NaN is involved *)
  nleb : num -> num -> bool;    (* C++ a <= b : idem *)
  neqb : num -> num -> bool;    (* C++ a == b : idem *)
  nexp : num -> num;
  nlog : num -> num;
  nsin : num -> num;
  nsqrt : num -> num;
  npi : num;                    (* acos(-1.0) *)
  nfinite : num -> bool;        (* Math::isFiniteNumber *)
  nlit : Z -> Z -> num
}.

Declare Scope num_scope.
Delimit Scope num_scope with num.
Notation "x + y" := (nadd x y) : num_scope.
Notation "x - y" := (nsub x y) : num_scope.
Notation "x * y" := (nmul x y) : num_scope.
Notation "x / y" := (ndiv x y) : num_scope.
Notation "- x" := (nopp x) : num_scope.
Notation "x <? y" := (nltb x y) : num_scope.
Notation "x <=? y" := (nleb x y) : num_scope.
Notation "x =? y" := (neqb x y) : num_scope.
Notation "x >? y" := (nltb y x) (at level 70, no associativity, only parsing) : num_scope.
Notation "x >=? y" := (nleb y x) (at level 70, no associativity, only parsing) : num_scope.

(** ** Reals *)
Definition Rltb (x y : R) : bool := if Rlt_dec x y then true else false.
Definition Rleb (x y : R) : bool := if Rle_dec x y then true else false.
Definition Reqb (x y : R) : bool := if Req_EM_T x y then true else false.
Definition Rlit (m e : Z) : R := (IZR m * powerRZ 10 e)%R.

Canonical Structure RNum : Num := {|
  num := R; n0 := 0%R; n1 := 1%R;
  nadd := Rplus; nsub := Rminus; nmul := Rmult; ndiv := Rdiv; nopp := Ropp;
  nltb := Rltb; nleb := Rleb; neqb := Reqb;
  nexp := exp; nlog := ln; nsin := sin; nsqrt := R_sqrt.sqrt; npi := PI;
  nfinite := fun _ => true;
  nlit := Rlit |}.

Lemma Rltb_spec x y : reflect (x < y)%R (Rltb x y).
Proof. unfold Rltb; destruct (Rlt_dec x y); constructor; assumption. Qed.
Lemma Rleb_spec x y : reflect (x <= y)%R (Rleb x y).
Proof. unfold Rleb; destruct (Rle_dec x y); constructor; assumption. Qed.
Lemma Reqb_spec x y : reflect (x = y)%R (Reqb x y).
Proof. unfold Reqb; destruct (Req_EM_T x y); constructor; assumption. Qed.

Lemma Rltb_true x y : Rltb x y = true <-> (x < y)%R.
Proof. destruct (Rltb_spec x y); split; intros; try assumption; try reflexivity; try discriminate; contradiction. Qed.
Lemma Rltb_false x y : Rltb x y = false <-> ~ (x < y)%R.
Proof. destruct (Rltb_spec x y); split; intros; try assumption; try reflexivity; try discriminate; contradiction. Qed.
Lemma Rleb_true x y : Rleb x y = true <-> (x <= y)%R.
Proof. destruct (Rleb_spec x y); split; intros; try assumption; try reflexivity; try discriminate; contradiction. Qed.
Lemma Rleb_false x y : Rleb x y = false <-> ~ (x <= y)%R.
Proof. destruct (Rleb_spec x y); split; intros; try assumption; try reflexivity; try discriminate; contradiction. Qed.
Lemma Reqb_true x y : Reqb x y = true <-> x = y.
Proof. destruct (Reqb_spec x y); split; intros; try assumption; try reflexivity; try discriminate; contradiction. Qed.
Lemma Reqb_false x y : Reqb x y = false <-> x <> y.
Proof. destruct (Reqb_spec x y); split; intros; try assumption; try reflexivity; try discriminate; contradiction. Qed.

(** Case split on a real comparison, keeping the mathematical fact. *)
Ltac rcases :=
  match goal with
  | |- context [Rltb ?a ?b] => destruct (Rltb_spec a b)
  | |- context [Rleb ?a ?b] => destruct (Rleb_spec a b)
  | |- context [Reqb ?a ?b] => destruct (Reqb_spec a b)
  | H : context [Rltb ?a ?b] |- _ => destruct (Rltb_spec a b)
  | H : context [Rleb ?a ?b] |- _ => destruct (Rleb_spec a b)
  | H : context [Reqb ?a ?b] |- _ => destruct (Reqb_spec a b)
  end.

(** ** Binary64.  exp, log and sin are not available as computable binary64
    operations: the instance uses stubs returning NaN, and no witness computed at [FNum]
    depends on them. *)
Definition Fof_Z (z : Z) : float :=
  match z with
  | Z0 => 0%float
  | Zpos _ => PrimFloat.of_uint63 (Uint63.of_Z z)
  | Zneg p => PrimFloat.opp (PrimFloat.of_uint63 (Uint63.of_Z (Zpos p)))
  end.
(** Correctly rounded for |m| < 2^53 and |e| <= 22 (exact operands, one rounding). *)
Definition Flit (m e : Z) : float :=
  match e with
  | Z0 => Fof_Z m
  | Zpos p => PrimFloat.mul (Fof_Z m) (Fof_Z (10 ^ Zpos p))
  | Zneg p => PrimFloat.div (Fof_Z m) (Fof_Z (10 ^ Zpos p))
  end.
Definition Ffinite (x : float) : bool := PrimFloat.is_finite x.

Canonical Structure FNum : Num := {|
  num := float; n0 := 0%float; n1 := 1%float;
  nadd := PrimFloat.add; nsub := PrimFloat.sub; nmul := PrimFloat.mul; ndiv := PrimFloat.div;
  nopp := PrimFloat.opp;
  nltb := PrimFloat.ltb; nleb := PrimFloat.leb; neqb := PrimFloat.eqb;
  nexp := fun _ => PrimFloat.nan; nlog := fun _ => PrimFloat.nan; nsin := fun _ => PrimFloat.nan;
  nsqrt := PrimFloat.sqrt; npi := Flit 3141592653589793 (-15);
  nfinite := Ffinite;
  nlit := Flit |}.

(** ** Rationals. *)
Definition Qltb (x y : Q) : bool := negb (Qle_bool y x).
Definition Qlit (m e : Z) : Q :=
  match e with
  | Z0 => inject_Z m
  | Zpos p => inject_Z (m * 10 ^ Zpos p)
  | Zneg p => m # (10 ^ p)
  end.
Canonical Structure QNum : Num := {|
  num := Q; n0 := 0%Q; n1 := 1%Q;
  nadd := fun a b => Qred (a + b); nsub := fun a b => Qred (a - b);
  nmul := fun a b => Qred (a * b); ndiv := fun a b => Qred (a / b);
  nopp := Qopp; nltb := Qltb; nleb := Qle_bool; neqb := Qeq_bool;
  nexp := fun x => x; nlog := fun x => x; nsin := fun x => x; nsqrt := fun x => x; npi := 3 # 1;
  nfinite := fun _ => true;
  nlit := Qlit |}.

(** Reduce the operations of the real instance to those of R. *)
Ltac rnorm := cbn [num n0 n1 nadd nsub nmul ndiv nopp nltb nleb neqb nexp nlog nsin nsqrt npi nfinite RNum].
Ltac rnorm_in H := cbn [num n0 n1 nadd nsub nmul ndiv nopp nltb nleb neqb nexp nlog nsin nsqrt npi nfinite RNum] in H.
Ltac rnorm_all := cbn [num n0 n1 nadd nsub nmul ndiv nopp nltb nleb neqb nexp nlog nsin nsqrt npi nfinite RNum] in *.

(** Closed computations by VM conversion (checked by the kernel at Qed; avoids normalising type arguments). *)
Ltac vmrefl := match goal with |- ?a = ?b => vm_cast_no_check (@eq_refl _ b) end.
