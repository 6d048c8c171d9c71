(** The part of IEEE-754 binary64 arithmetic ([f64]) the repository uses on non-negative
    values: every operation is the exact rational result rounded to 53 significant bits, ties
    to even.  Simplification: no overflow, underflow, infinities or NaN; all values modelled
    lie between 2^-100 and 2^130, far inside the range of [f64]. *)
From Coq Require Import QArith Qround.
From Verif Require Import Base.

Definition f64 := Q.

(** Nearest integer to [a / b], ties to even ([b] > 0). *)
Definition div_nearest_even (a b : Z) : Z :=
  let m := (a / b)%Z in
  let r := (a mod b)%Z in
  if (2 * r <? b)%Z then m else if (b <? 2 * r)%Z then (m + 1)%Z else if Z.even m then m else (m + 1)%Z.
(** [a/b] is in [2^52, 2^53) after scaling by [2^-e]. *)
Definition scaled_num (n e : Z) : Z := if (0 <=? e)%Z then n else (n * 2 ^ (- e))%Z.
Definition scaled_den (d e : Z) : Z := if (0 <=? e)%Z then (d * 2 ^ e)%Z else d.
Definition exponent (n d : Z) : Z :=
  let e := (Z.log2 n - Z.log2 d - 53)%Z in
  if (scaled_den d e * 2 ^ 53 <=? scaled_num n e)%Z then (e + 1)%Z else e.
Definition scale_back (m e : Z) : Q := if (0 <=? e)%Z then inject_Z (m * 2 ^ e) else Qmake m (Z.to_pos (2 ^ (- e))).
Definition round53 (q : Q) : f64 :=
  let n := Qnum q in let d := Zpos (Qden q) in
  if (n <=? 0)%Z then 0%Q
  else let e := exponent n d in scale_back (div_nearest_even (scaled_num n e) (scaled_den d e)) e.

(** [n as f64], [+], [*], [/] *)
Definition f64_of (n : N) : f64 := round53 (inject_Z (Z.of_N n)).
Definition fadd (a b : f64) : f64 := round53 (a + b)%Q.
Definition fmul (a b : f64) : f64 := round53 (a * b)%Q.
Definition fdiv (a b : f64) : f64 := round53 (a / b)%Q.
(** A decimal literal, [1. + x] and [1. - x]. *)
Definition flit (q : Q) : f64 := round53 q.
Definition fsub (a b : f64) : f64 := round53 (a - b)%Q.
(** [x as u64]: truncates and saturates.  [x.floor()] and [x.round()] (half away from zero)
    are exact. *)
Definition as_u64 (x : f64) : N := N.min (Z.to_N (Qfloor x)) (2 ^ 64 - 1).
Definition ffloor (x : f64) : f64 := inject_Z (Qfloor x).
Definition fround (x : f64) : f64 := inject_Z (Qfloor (x + (1#2))).
