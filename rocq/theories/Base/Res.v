(** Outcomes of C++ calls. *)
From Coq Require Import List.
Set Implicit Arguments.

(** Exceptions of the standard hierarchy thrown by fisx. *)
Inductive exn : Type :=
| InvalidArgument | RuntimeError | DomainError | OutOfRange | IosFailure | LengthError.

(** [UB]: the C++ behaviour is undefined (out-of-range read, end() or null dereference,
    uninitialised read). [Diverge]: unbounded recursion (stack overflow in practice). *)
Inductive res (A : Type) : Type :=
| Ok (a : A)
| Throw (e : exn)
| UB
| Diverge.
Arguments Ok {A} a.
Arguments Throw {A} e.
Arguments UB {A}.
Arguments Diverge {A}.

Definition rbind {A B} (r : res A) (f : A -> res B) : res B :=
  match r with Ok a => f a | Throw e => Throw e | UB => UB | Diverge => Diverge end.
Definition rmap {A B} (f : A -> B) (r : res A) : res B := rbind r (fun a => Ok (f a)).
Declare Scope res_scope.
Delimit Scope res_scope with res.
Notation "'let?' x := r 'in' b" := (rbind r (fun x => b))
  (at level 200, x pattern, r at level 100, b at level 200) : res_scope.

Definition of_opt {A} (o : option A) : res A := match o with Some a => Ok a | None => UB end.

(** v[i] on a std::vector: undefined when out of range. *)
Definition vget {A} (v : list A) (i : nat) : res A := of_opt (nth_error v i).

Fixpoint rmapM {A B} (f : A -> res B) (l : list A) : res (list B) :=
  match l with
  | nil => Ok nil
  | a :: r => rbind (f a) (fun b => rbind (rmapM f r) (fun bs => Ok (b :: bs)))
  end.

Fixpoint rfold {A B} (f : B -> A -> res B) (l : list A) (b : B) : res B :=
  match l with
  | nil => Ok b
  | a :: r => rbind (f b a) (fun b' => rfold f r b')
  end.

Definition is_ok {A} (r : res A) : bool := match r with Ok _ => true | _ => false end.
