(** Exceptions as values, the numeric interface and Python list helpers used by
    every model file.  Nothing here mirrors one function of the repository; the
    file fixes how Python's semantics is represented. *)
From Coq Require Import ZArith List Bool.
Import ListNotations.

(** ** Exceptions (Python [raise]) *)
Inductive exn :=
| ValueError | TypeError | ZeroDivisionError | RuntimeError | IndexError
| AttributeError | AssertionError | IOError | NotImplementedError | KeyError | OutOfFuel.

Inductive res (A : Type) :=
| Ok (a : A)
| Err (e : exn).
Arguments Ok {A} a.
Arguments Err {A} e.

Definition bind {A B} (m : res A) (k : A -> res B) : res B :=
  match m with Ok a => k a | Err e => Err e end.

Notation "x <- m ;; k" := (bind m (fun x => k))
  (at level 100, m at next level, right associativity).

Definition is_ok {A} (m : res A) : bool :=
  match m with Ok _ => true | Err _ => false end.

(** ** Numbers: what the code needs from Python floats *)
Class Num (T : Type) := {
  nadd : T -> T -> T;
  nsub : T -> T -> T;
  nmul : T -> T -> T;
  ndiv : T -> T -> T;      (* IEEE division, never raises *)
  nopp : T -> T;
  nabs : T -> T;
  nsqrt : T -> T;
  neqb : T -> T -> bool;   (* Python == *)
  nltb : T -> T -> bool;   (* Python <  *)
  nleb : T -> T -> bool;   (* Python <= *)
  nofZ : Z -> T;
  ninf : T;                (* float("+Inf") *)
  npi : T                  (* math.pi *)
}.

Declare Scope num_scope.
Delimit Scope num_scope with num.
Notation "x + y" := (nadd x y) : num_scope.
Notation "x - y" := (nsub x y) : num_scope.
Notation "x * y" := (nmul x y) : num_scope.
Notation "- x" := (nopp x) : num_scope.
Notation "x =? y" := (neqb x y) : num_scope.
Notation "x <? y" := (nltb x y) : num_scope.
Notation "x <=? y" := (nleb x y) : num_scope.

Section Num.
  Context {T : Type} {N : Num T}.
  Definition c0 : T := nofZ 0.
  Definition c1 : T := nofZ 1.
  Definition c2 : T := nofZ 2.
  (** decimal literal m / 10^k; for IEEE doubles this is the correctly rounded
      literal as long as m < 2^53 and k <= 22 *)
  Definition ndec (m : Z) (k : Z) : T := ndiv (nofZ m) (nofZ (10 ^ k)).

  (** Python [/] on floats: raises ZeroDivisionError on a zero divisor *)
  Definition pdiv (a b : T) : res T :=
    if neqb b c0 then Err ZeroDivisionError else Ok (ndiv a b).

  (** Python [math.sqrt]: raises ValueError on negative arguments *)
  Definition psqrt (a : T) : res T :=
    if nltb a c0 then Err ValueError else Ok (nsqrt a).
End Num.

(** ** Python lists *)
Section PyList.
  Context {A : Type}.

  (** effective index of [l[i]] for a possibly negative [i]; [None] raises IndexError *)
  Definition pyindex (len : nat) (i : Z) : option nat :=
    let j := if Z.ltb i 0 then (i + Z.of_nat len)%Z else i in
    if (Z.leb 0 j && Z.ltb j (Z.of_nat len))%bool then Some (Z.to_nat j) else None.

  (** clamped bound of a slice [l[i:j]] *)
  Definition pybound (len : nat) (i : Z) : nat :=
    let j := if Z.ltb i 0 then (i + Z.of_nat len)%Z else i in
    Z.to_nat (Z.min (Z.max j 0) (Z.of_nat len)).

  (** [l[:i]] and [l[i:]] *)
  Definition pytake (i : Z) (l : list A) : list A := firstn (pybound (length l) i) l.
  Definition pydrop (i : Z) (l : list A) : list A := skipn (pybound (length l) i) l.

  Definition remove_nth (i : nat) (l : list A) : list A := firstn i l ++ skipn (S i) l.

  Fixpoint set_nth (i : nat) (x : A) (l : list A) : list A :=
    match l, i with
    | [], _ => []
    | _ :: t, O => x :: t
    | h :: t, S i => h :: set_nth i x t
    end.

  Fixpoint last_opt (l : list A) : option A :=
    match l with
    | [] => None
    | [x] => Some x
    | _ :: t => last_opt t
    end.
End PyList.
