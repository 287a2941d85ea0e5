(** Model of class Math (src/fisx_math.h, src/fisx_math.cpp). deBoerY and deBoerW are declared
    in the header (lines 125-133) but never defined or used. *)
From Coq Require Import List ZArith Bool.
From Verif Require Import Base.Num Base.Res.
Import ListNotations.
Set Implicit Arguments.
Local Open Scope num_scope.

Section Math.
Context {N : Num}.

(** integer converted to double *)
Definition nofZ (z : Z) : num := nlit z 0.
(** std::fabs / std::abs; differs from C++ only in the sign of zero *)
Definition nabs (x : num) : num := if x <? n0 then - x else x.
(** std::pow(x, n) for a positive integer n, as a product (simplification: C++ pow is a library call) *)
Fixpoint npow (x : num) (n : nat) : num := match n with O => n1 | S k => x * npow x k end.

(** Math::isFiniteNumber, fisx_math.cpp 499-502, is [nfinite]; Math::isNumber, 494-497 *)
Definition isNumber (x : num) : bool := x =? x.

(** Math::AS_5_1_53, fisx_math.cpp 115-135 *)
Definition AS_5_1_53 (x : num) : res num :=
  if x >? n1 then Throw InvalidArgument else
  Ok (fold_left (fun r a => (r + a) * x)
        [nlit (-976004) (-8); nlit 5519968 (-8); nlit (-24991055) (-8); nlit 99999193 (-8)]
        (nlit 107857 (-8) * x) + nlit (-57721566) (-8)).

(** Math::AS_5_1_56, fisx_math.cpp 137-157 *)
Definition AS_5_1_56 (x : num) : res num :=
  if x <? n1 then Throw InvalidArgument else
  let horner (l : list num) (r : num) := fold_left (fun r a => (r * x) + a) l r in
  Ok (horner [nlit 86347608925 (-10); nlit 180590169730 (-10); nlit 85733287401 (-10)] (nlit 2677737343 (-10) * x) /
      horner [nlit 210996530827 (-10); nlit 256329561486 (-10); nlit 95733223454 (-10)] (nlit 39584969228 (-10) * x)).

(** loop of Math::_deBoerD, fisx_math.cpp 529-548; None: maxIter reached *)
Fixpoint lentz (eps : num) (fuel : nat) (i : Z) (b f C D : num) : option num :=
  match fuel with
  | O => None
  | S k =>
      let b := b + nlit 2 0 in
      let a := nofZ (- (i * i)) in
      let C := b + a / C in
      let D := n1 / (b + a * D) in
      let delta := C * D in
      let f := f * delta in
      if nabs (delta - n1) <? eps then Some (n1 / f) else lentz eps k (i + 1) b f C D
  end.

(** Math::_deBoerD, fisx_math.cpp 504-556 *)
Definition deBoerD_cf (x eps : num) (maxIter : nat) : res num :=
  if x <=? n1 then Throw RuntimeError else
  let b := n1 + x in
  match lentz eps (maxIter - 1) 1 b b b n0 with
  | Some r => Ok r
  | None => Ok (nlit 5 (-1) * ((nlit 5 (-1) * nlog (n1 + nlit 2 0 / x)) + nlog (n1 + n1 / x)))
  end.
(** default arguments, fisx_math.h 173-175 *)
Definition deBoerD_default (x : num) : res num := deBoerD_cf x (nlit 1 (-7)) 100.

(** series of Math::E1 for x < 0, fisx_math.cpp 59-65 *)
Definition factorials : list Z := [1; 2; 6; 24; 120; 720; 5040; 40320; 362880; 3628800]%Z.
Definition E1_series (x : num) : num :=
  fold_left (fun r nf => r - npow (- x) (fst nf) / (nofZ (Z.of_nat (fst nf)) * nofZ (snd nf)))
    (rev (combine (seq 1 10) factorials)) (nlit (-577215664901532860) (-18)) - nlog (- x).

(** Math::E1, fisx_math.cpp 37-83 *)
Definition E1 (x : num) : res num :=
  if x =? n0 then Throw InvalidArgument
  else if x <? n0 then Ok (E1_series x)
  else if x <? n1 then rbind (AS_5_1_53 x) (fun r => Ok (r - nlog x))
  else rbind (deBoerD_default x) (fun r => Ok (nexp (- x) * r)).

(** Math::En, fisx_math.cpp 85-112; the recursion has depth n *)
Fixpoint En_pos (n : nat) (x : num) : res num :=
  match n with
  | O => Throw RuntimeError
  | S O => E1 x
  | S k => if x =? n0 then Ok (n1 / nofZ (Z.of_nat k))
           else rbind (En_pos k x) (fun r => Ok ((nexp (- x) - x * r) / nofZ (Z.of_nat k)))
  end.
Definition En (n : Z) (x : num) : res num :=
  if Z.ltb n 1 then Throw RuntimeError else En_pos (Z.to_nat n) x.

(** Math::deBoerD, fisx_math.cpp 159-204. [debug]: compiled without NDEBUG (lines 162-191). *)
Definition deBoerD (debug : bool) (x : num) : res num :=
  if x <? n0 then rbind (E1 x) (fun r => Ok (nexp x * r))
  else
    let main := if x >? n1 then deBoerD_default x
                else rbind (AS_5_1_53 x) (fun r => Ok (nexp x * (r - nlog x))) in
    if debug then
      rbind main (fun r =>
        let limit0 := nlit 5 (-1) * nlog (n1 + nlit 2 0 / x) in
        let limit1 := nlog (n1 + n1 / x) in
        if orb (r <? limit0) (r >? limit1)
        then rbind (AS_5_1_56 x) (fun _ => deBoerD_cf x (nlit 1 (-5)) 100)  (* 185: AS_5_1_56 is evaluated for the message *)
        else Ok r)
    else main.

(** Math::deBoerL0, fisx_math.cpp 207-313 (diagnostic printing omitted) *)
Definition deBoerL0 (debug : bool) (mu1 mu2 muj density thickness : num) : res num :=
  if negb (nfinite mu1) then Throw RuntimeError else
  if negb (nfinite mu2) then Throw RuntimeError else
  if negb (nfinite muj) then Throw RuntimeError else
  if orb (orb (mu1 <=? n0) (mu2 <=? n0)) (muj <=? n0) then Throw RuntimeError else
  let d := thickness * density in
  if (mu1 + mu2) * d >? nlit 10 0 then
    let t := (muj / mu1) * nlog (n1 + mu1 / muj) / ((mu1 + mu2) * muj) in
    if negb (nfinite t) then Throw RuntimeError else Ok t
  else if (mu1 + mu2) * d <? nlit 1 (-2) then Ok n0
  else
    rbind (deBoerD debug ((muj - mu2) * d)) (fun r1 =>
    rbind (deBoerD debug (muj * d)) (fun r2 =>
    rbind (deBoerD debug ((muj + mu1) * d)) (fun r3 =>
    let t := r1 / (mu2 * (mu1 + mu2)) in
    let t := t - (r2 / (mu1 * mu2)) + (r3 / (mu1 * (mu1 + mu2))) in
    let t := t * nexp (- (mu1 + muj) * d) in
    let t := t + nlog (n1 + (mu1 / muj)) / (mu1 * (mu1 + mu2)) in
    let t := if mu2 <? muj
             then t + (nexp (- (mu1 + mu2) * d) / (mu2 * (mu1 + mu2))) * nlog (n1 - (mu2 / muj))
             else t + (nexp (- (mu1 + mu2) * d) / (mu2 * (mu1 + mu2))) * nlog ((mu2 / muj) - n1) in
    if t <? n0 then Throw RuntimeError
    else if negb (nfinite t) then Throw RuntimeError else Ok t))).

(** Math::deBoerV, fisx_math.cpp 384-492 (diagnostic printing omitted) *)
Definition deBoerV (debug : bool) (p q d1 d2 mu1j mu2j mubjdt : num) : res num :=
  if andb (andb (mubjdt =? n0) (d1 =? n0)) (d2 =? n0) then
    let t1 := nabs (n1 - q / mu1j) in
    let t2 := nabs (n1 + p / mu2j) in
    let h := (mu2j / p) * nlog t2 + (mu1j / q) * nlog t1 in
    let h := (- h) / (p * mu1j + q * mu2j) in
    if negb (nfinite h) then Throw RuntimeError else Ok h
  else
    rbind (deBoerD debug ((n1 + p / mu2j) * (mu1j * d1 + mubjdt + mu2j * d2))) (fun r1 =>
    let t1 := (mu2j / (p * (p * mu1j + q * mu2j))) * r1 in
    if negb (nfinite t1) then Throw RuntimeError else
    let h := mu1j * d1 + mubjdt + mu2j * d2 in
    rbind (deBoerD debug ((n1 - q / mu1j) * h)) (fun r2 =>
    let t2 := (mu1j / (q * (p * mu1j + q * mu2j))) * r2 in
    if negb (nfinite t2) then Throw RuntimeError else
    rbind (deBoerD debug h) (fun r3 =>
    let t2 := t2 - r3 / (p * q) in
    if negb (nfinite t2) then Throw RuntimeError else
    let v := nexp ((q - mu1j) * d1 - (p + mu2j) * d2 - mubjdt) * (t1 + t2) in
    if negb (nfinite v) then Throw RuntimeError else Ok v))).

(** Math::deBoerX, fisx_math.cpp 315-382 (the live branch 374-381) *)
Definition deBoerX (debug : bool) (p q d1 d2 mu1j mu2j mubjdt : num) : res num :=
  rbind (deBoerV debug p q d1 d2 mu1j mu2j mubjdt) (fun a =>
  rbind (deBoerV debug p q d1 n0 mu1j mu2j mubjdt) (fun b =>
  rbind (deBoerV debug p q n0 d2 mu1j mu2j mubjdt) (fun c =>
  rbind (deBoerV debug p q n0 n0 mu1j mu2j mubjdt) (fun d =>
  Ok (a - b - c + d))))).

(** Math::getFWHM, fisx_math.cpp 558-562 *)
Definition getFWHM (energy noise fano quantumEnergy : num) : num :=
  nsqrt (noise * noise + energy * fano * nlit 23548 (-4) * nlit 23548 (-4) * quantumEnergy).

(** Math::erf / Math::erfc, fisx_math.cpp 565-599 *)
Definition erf_core (x : num) : num :=
  let z := nabs x in
  let t := n1 / (n1 + nlit 5 (-1) * z) in
  let r := t * nexp (- z * z - nlit 126551223 (-8) +
     fold_right (fun c acc => t * (c + acc)) (t * nlit 17087277 (-8))
       [nlit 100002368 (-8); nlit 3740916 (-7); nlit 9678418 (-8); nlit (-18628806) (-8);
        nlit 27886807 (-8); nlit (-113520398) (-8); nlit 148851587 (-8); nlit (-82215223) (-8)]) in
  if x <? n0 then nlit 2 0 - r else r.
Definition erf (x : num) : num := n1 - erf_core x.
Definition erfc (x : num) : num := erf_core x.

End Math.
