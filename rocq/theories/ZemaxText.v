(** Model of how a Zemax file is turned into lines of words: zemax.py 32-41 and 66-75 in /repo/raytracing, with the parts of
    Python they use (the codecs utf-16 and utf-8, universal newlines, str.strip and re.split of white space).  A byte and a
    character are numbers; a Python string is kept in Coq as its bytes in UTF-8. *)
From Coq Require Import ZArith List Bool String Ascii.
From Verif Require Import Base Zemax.
Import ListNotations.
Open Scope list_scope.
Open Scope Z_scope.

(** ** Codecs *)
(** what a Python string decoded from a file is made of *)
Definition scalar (c : Z) : bool := ((0 <=? c) && (c <? 55296)) || ((57344 <=? c) && (c <=? 1114111)).
Definition cont (x : Z) : bool := (128 <=? x) && (x <? 192).
Definition keep (low c : Z) (r : res (list Z)) : res (list Z) :=
  if (low <=? c) && scalar c then s <- r;; Ok (c :: s) else Err ValueError.
(** bytes.decode("utf-8"): UnicodeDecodeError is a ValueError *)
Fixpoint utf8 (b : list Z) : res (list Z) :=
  match b with
  | [] => Ok []
  | a :: t =>
      if a <? 128 then keep 0 a (utf8 t)
      else if a <? 224 then
        match t with
        | x :: t => if (192 <=? a) && cont x then keep 128 ((a - 192) * 64 + (x - 128)) (utf8 t) else Err ValueError
        | _ => Err ValueError
        end
      else if a <? 240 then
        match t with
        | x :: y :: t => if cont x && cont y then keep 2048 (((a - 224) * 64 + (x - 128)) * 64 + (y - 128)) (utf8 t)
                         else Err ValueError
        | _ => Err ValueError
        end
      else
        match t with
        | x :: y :: z :: t =>
            if (a <? 248) && cont x && cont y && cont z
            then keep 65536 ((((a - 240) * 64 + (x - 128)) * 64 + (y - 128)) * 64 + (z - 128)) (utf8 t)
            else Err ValueError
        | _ => Err ValueError
        end
  end.
(** two bytes, the first one high or low *)
Definition unit16 (big : bool) (x y : Z) : Z := if big then x * 256 + y else y * 256 + x.
(** utf-16-le and utf-16-be *)
Fixpoint utf16 (big : bool) (b : list Z) : res (list Z) :=
  match b with
  | [] => Ok []
  | x :: y :: t =>
      let u := unit16 big x y in
      if (u <? 55296) || (57344 <=? u) then s <- utf16 big t;; Ok (u :: s)
      else
        match t with
        | x' :: y' :: t =>
            let v := unit16 big x' y' in
            if (u <? 56320) && (56320 <=? v) && (v <? 57344)
            then s <- utf16 big t;; Ok ((u - 55296) * 1024 + (v - 56320) + 65536 :: s)
            else Err ValueError
        | _ => Err ValueError
        end
  | _ => Err ValueError
  end.
(** encoding='utf-16' in open: the byte order mark is needed (UnicodeError, a ValueError, without), only an empty file has
    none *)
Definition py_utf16 (b : list Z) : res (list Z) :=
  match b with
  | [] => Ok []
  | x :: y :: t =>
      if (x =? 255) && (y =? 254) then utf16 false t
      else if (x =? 254) && (y =? 255) then utf16 true t
      else Err ValueError
  | _ => Err ValueError
  end.

(** ** zemax.py 66-75 *)
Inductive encoding := UTF16 | UTF8.
(** simplified: the code tries to decode a first part of the file, not all of it.  It makes no difference: a file with a byte
    order mark that is wrong later is refused as UTF-16 there and as UTF-8 here, both with UnicodeDecodeError. *)
Definition determineEncoding (b : list Z) : encoding := match py_utf16 b with Ok _ => UTF16 | Err _ => UTF8 end.
Definition decode (e : encoding) (b : list Z) : res (list Z) := match e with UTF16 => py_utf16 b | UTF8 => utf8 b end.

(** ** zemax.py 34-41 *)
(** open(..., "r"): \r\n and \r are read as \n *)
Fixpoint newlines (s : list Z) : list Z :=
  match s with
  | [] => []
  | c :: t =>
      if c =? 13 then match t with d :: u => if d =? 10 then newlines t else 10 :: newlines t | [] => [10] end
      else c :: newlines t
  end.
(** readline until the end of the file, without the \n, which strip() removes *)
Fixpoint lines (s : list Z) : list (list Z) :=
  match s with
  | [] => []
  | c :: t => if c =? 10 then [] :: lines t else match lines t with [] => [[c]] | l :: r => (c :: l) :: r end
  end.
(** str.isspace of a character, used by strip() and by \s *)
Definition space (c : Z) : bool :=
  ((9 <=? c) && (c <=? 13)) || ((28 <=? c) && (c <=? 32)) || (c =? 133) || (c =? 160) || (c =? 5760) ||
  ((8192 <=? c) && (c <=? 8202)) || (c =? 8232) || (c =? 8233) || (c =? 8239) || (c =? 8287) || (c =? 12288).
Fixpoint lstrip (s : list Z) : list Z := match s with c :: t => if space c then lstrip t else s | [] => [] end.
Fixpoint rstrip (s : list Z) : list Z :=
  match s with
  | [] => []
  | c :: t => match rstrip t with [] => if space c then [] else [c] | u => c :: u end
  end.
(** re.split(r"\s+", s) *)
Fixpoint resplit (s : list Z) : list (list Z) :=
  match s with
  | [] => [[]]
  | c :: t =>
      if space c then
        match t with d :: _ => if space d then resplit t else [] :: resplit t | [] => [[]; []] end
      else match resplit t with w :: l => (c :: w) :: l | [] => [[c]] end
  end.
(** a Python string as a Coq one: each character as its bytes in UTF-8 *)
Definition byte (z : Z) : ascii := ascii_of_nat (Z.to_nat z).
Definition char_bytes (c : Z) : list Z :=
  if c <? 128 then [c]
  else if c <? 2048 then [192 + c / 64; 128 + c mod 64]
  else if c <? 65536 then [224 + c / 64 / 64; 128 + (c / 64) mod 64; 128 + c mod 64]
  else [240 + c / 64 / 64 / 64; 128 + (c / 64 / 64) mod 64; 128 + (c / 64) mod 64; 128 + c mod 64].
Definition str (s : list Z) : string := fold_right (fun z r => String (byte z) r) EmptyString (flat_map char_bytes s).
(** zemax.py 40-41 *)
Definition line_of (s : list Z) : line :=
  match resplit (rstrip (lstrip s)) with
  | w :: l => mkLine (str w) (map str l)
  | [] => mkLine EmptyString []
  end.
(** zemax.py 32-41: [self.lines] *)
Definition file_lines (b : list Z) : res (list line) :=
  s <- decode (determineEncoding b) b;; Ok (map line_of (lines (newlines s))).

(** zemax.py 27-51: the reader of a file with these bytes *)
Definition ZMXReader_file {T} {N : Num T} (b : list Z) : res (@reader T) := ls <- file_lines b;; ZMXReader_init ls.
