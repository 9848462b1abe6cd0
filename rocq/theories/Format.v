(** Model of Python's "{0:.1f}".format and its like on doubles: the exact value, rounded to [k] decimals, halves to the
    even digit (float.__format__, type 'f', used in figure.py 12, 218, 236, 276, 296 of /repo/raytracing). *)
From Coq Require Import ZArith List Bool String Ascii Floats DecimalString.
Open Scope string_scope.

(** [n / d] rounded to the nearest integer, ties to even; [d > 0] *)
Definition round_even (n d : Z) : Z :=
  let q := (n / d)%Z in
  let r := (n mod d)%Z in
  match (2 * r ?= d)%Z with
  | Lt => q
  | Gt => (q + 1)%Z
  | Eq => if Z.even q then q else (q + 1)%Z
  end.

Definition decimal (n : N) : string := NilZero.string_of_uint (N.to_uint n).
Fixpoint zeros (k : nat) : string := match k with O => "" | S j => "0" ++ zeros j end.
(** [k] digits after the point of the number [n] / 10^[k] *)
Definition with_point (k : nat) (n : N) : string :=
  let s := decimal n in
  let s := zeros (S k - String.length s) ++ s in
  let i := (String.length s - k)%nat in
  substring 0 i s ++ "." ++ substring i k s.

Definition sign (s : bool) : string := if s then "-" else "".
Definition fixed (k : nat) (x : float) : string :=
  match Prim2SF x with
  | S754_zero s => sign s ++ with_point k 0
  | S754_infinity s => sign s ++ "inf"
  | S754_nan => "nan"
  | S754_finite s m e =>
      let n := (Zpos m * 10 ^ Z.of_nat k * 2 ^ Z.max 0 e)%Z in
      sign s ++ with_point k (Z.to_N (round_even n (2 ^ Z.max 0 (- e))))
  end.
