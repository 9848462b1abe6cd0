(** Model of the command line of the package, python -m raytracing: __main__.py 25-86 and examples/__init__.py 19-68 in
    /repo/raytracing.  Reading, colouring and printing the source of an example is left out; int() reads ASCII digits
    without underscores. *)
From Coq Require Import ZArith List Bool String Ascii.
From Verif Require Import Base Zemax.
Import ListNotations.
Open Scope string_scope.
Open Scope list_scope.

(** ** examples/__init__.py *)
(** allFiles.sort() *)
Fixpoint put (x : string) (l : list string) : list string :=
  match l with [] => [x] | y :: t => if String.leb x y then x :: l else y :: put x t end.
Definition sort (l : list string) : list string := fold_right put [] l.

(** the text before [.py] at the end; None if the name does not end so or has nothing before *)
Fixpoint stem (s : string) : option string :=
  match s with
  | EmptyString => None
  | String a t =>
      if String.eqb t ".py" then Some (String a EmptyString)
      else match stem t with Some u => Some (String a u) | None => None end
  end.
Definition is_digit_char (a : ascii) : bool := match digit a with Some _ => true | None => false end.
Fixpoint all_digits (s : string) : bool :=
  match s with EmptyString => true | String a t => is_digit_char a && all_digits t end.
(** examples/__init__.py 27-28: ex\d+ or fig.+ *)
Definition is_short (name : string) : bool :=
  match name with
  | String "e" (String "x" (String a t)) => is_digit_char a && all_digits t
  | String "f" (String "i" (String "g" (String _ _))) => true
  | _ => false
  end.
(** examples/__init__.py 56 *)
Definition left_out (name : string) : bool :=
  String.eqb name "__init__" || String.eqb name "template" || String.eqb name "envexamples".
(** examples/__init__.py 26-68: the names in [short] and in [long], from os.listdir *)
Definition stems (files : list string) : list string :=
  flat_map (fun f => match stem f with Some n => [n] | None => [] end) (sort files).
Definition short_examples (files : list string) : list string := filter is_short (stems files).
Definition long_examples (files : list string) : list string :=
  filter (fun n => negb (is_short n) && negb (left_out n)) (stems files).

(** ** __main__.py *)
(** __main__.py 25-33; -e is 'all' when it is not given *)
Record args := mkArgs { a_examples : string; a_classes : bool; a_list : bool; a_tests : bool }.

(** str.split(',') *)
Fixpoint split (s : string) : list string :=
  match s with
  | EmptyString => [EmptyString]
  | String a t =>
      match split t with
      | w :: l => if Ascii.eqb a ","%char then EmptyString :: w :: l else String a w :: l
      | [] => []
      end
  end.
(** int(s) ignores white space on both sides *)
Definition is_space (a : ascii) : bool :=
  let n := nat_of_ascii a in (Nat.leb 9 n && Nat.leb n 13) || (Nat.leb 28 n && Nat.leb n 32).
Fixpoint lstrip (s : string) : string :=
  match s with String a t => if is_space a then lstrip t else s | EmptyString => s end.
Fixpoint rstrip (s : string) : string :=
  match s with
  | EmptyString => EmptyString
  | String a t => match rstrip t with
                  | EmptyString => if is_space a then EmptyString else String a EmptyString
                  | u => String a u
                  end
  end.
Definition int_of (s : string) : res Z := py_int (rstrip (lstrip s)).
Fixpoint ints (l : list string) : res (list Z) :=
  match l with [] => Ok [] | w :: t => i <- int_of w;; r <- ints t;; Ok (i :: r) end.
(** range(1, n+1) *)
Definition one_to (n : nat) : list Z := map Z.of_nat (seq 1 n).
(** __main__.py 41-46 *)
Definition runExamples (n : nat) (text : string) : res (list Z) :=
  if String.eqb text "all" then Ok (one_to n)
  else if String.eqb text "" then Ok []
  else ints (split text).

Section Main.
Variable E : Type.
(** what is done, in order: 48-50, 51-53, 54-65, 78, 79-86 *)
Inductive action := Classes | Tests | Listed (l : list (Z * E)) | Announced (l : list Z) | Ran (e : E).
(** examples.short[i]: a negative index counts from the end *)
Definition item (l : list E) (i : Z) : option E :=
  let n := Z.of_nat (List.length l) in
  if (0 <=? i)%Z then nth_error l (Z.to_nat i)
  else if (0 <=? n + i)%Z then nth_error l (Z.to_nat (n + i)) else None.
(** __main__.py 79-86; [raises] is the exception an example ends with *)
Fixpoint run (short : list E) (raises : E -> option exn) (l : list Z) : list action * option exn :=
  match l with
  | [] => ([], None)
  | i :: t =>
      match item short (i - 1) with
      | None => ([], Some IndexError)
      | Some e =>
          match raises e with
          | Some x => ([Ran e], Some x)
          | None => let (a, x) := run short raises t in (Ran e :: a, x)
          end
      end
  end.
(** __main__.py 36-86 *)
Definition main (short : list E) (raises : E -> option exn) (a : args) : list action * option exn :=
  match runExamples (List.length short) (a_examples a) with
  | Err x => ([], Some x)
  | Ok l =>
      if a_classes a then ([Classes], None)
      else if a_tests a then ([Tests], None)
      else if a_list a then ([Listed (combine (one_to (List.length short)) short)], None)
      else match l with
           | [] => ([], None)
           | _ => let (r, x) := run short raises l in (Announced l :: r, x)
           end
  end.
End Main.
Arguments Classes {E}. Arguments Tests {E}. Arguments Listed {E}. Arguments Announced {E}. Arguments Ran {E}.
Arguments item {E}. Arguments run {E}. Arguments main {E}.
