(** zemax.py: reading a lens from the lines of a Zemax file. *)
From Coq Require Import ZArith List Bool String Ascii.
From Verif Require Import Base Optics Materials.
Import ListNotations.
Open Scope list_scope.

(** ** float() and int() of a word *)
Definition digit (a : ascii) : option Z :=
  let n := nat_of_ascii a in
  if (Nat.leb 48 n && Nat.leb n 57)%bool then Some (Z.of_nat (n - 48)) else None.
(** value and number of the leading digits, and the rest *)
Fixpoint digits (s : string) (v : Z) (k : Z) : Z * Z * string :=
  match s with
  | String a t => match digit a with Some d => digits t (10 * v + d)%Z (k + 1)%Z | None => (v, k, s) end
  | EmptyString => (v, k, s)
  end.
Definition sign (s : string) : Z * string :=
  match s with
  | String a t => if Ascii.eqb a "-" then ((-1)%Z, t) else if Ascii.eqb a "+" then (1%Z, t) else (1%Z, s)
  | EmptyString => (1%Z, s)
  end.
Definition py_int (s : string) : res Z :=
  let (sg, t) := sign s in
  match digits t 0 0 with
  | (v, k, EmptyString) => if (k =? 0)%Z then Err ValueError else Ok (sg * v)%Z
  | _ => Err ValueError
  end.

Section Zemax.
Context {T : Type} {N : Num T}.
Open Scope num_scope.

(** m * 10^e *)
Definition scaled (m e : Z) : T := if (e <? 0)%Z then ndec m (- e) else nofZ (m * 10 ^ e).
(** decimal literals, inf, infinity and nan; Python also takes underscores between digits *)
Definition py_float (w : string) : res T :=
  let (sg, s) := sign (lower w) in
  if (String.eqb s "inf" || String.eqb s "infinity")%bool then Ok (if (sg <? 0)%Z then - ninf else ninf)
  else if String.eqb s "nan" then Ok (c0 * ninf)
  else
    let '(v, k, r) := digits s 0 0 in
    let '(v2, k2, r2) :=
      match r with
      | String a t => if Ascii.eqb a "." then digits t v 0 else (v, 0%Z, r)
      | EmptyString => (v, 0%Z, r)
      end in
    if (k + k2 =? 0)%Z then Err ValueError
    else match r2 with
         | EmptyString => Ok (scaled (sg * v2) (- k2))
         | String a t => if Ascii.eqb a "e" then e <- py_int t;; Ok (scaled (sg * v2) (e - k2))
                         else Err ValueError
         end.

(** ** The file *)
(** zemax.py 40-41: a line split into words *)
Record line := mkLine { l_name : string; l_par : list string }.

(** zemax.py 241-255: a word if one line matches, else the list of words *)
Inductive pyval := One (w : string) | Many (l : list string).
Fixpoint values (ls : list line) (key : string) (index : nat) : res (list string) :=
  match ls with
  | [] => Ok []
  | l :: t =>
      if areTheSame (l_name l) key then
        match nth_error (l_par l) index with
        | Some w => r <- values t key index;; Ok (w :: r)
        | None => Err IndexError
        end
      else values t key index
  end.
Definition value_of (ls : list line) (key : string) (index : nat) : res pyval :=
  vs <- values ls key index;; Ok (match vs with [w] => One w | _ => Many vs end).

(** zemax.py 60-61 on the reversed list: drop trailing 0.55 *)
Fixpoint pop_055 (rev_l : list string) : res (list string) :=
  match rev_l with
  | [] => Err IndexError
  | w :: t => x <- py_float w;; if x =? ndec 55 2 then pop_055 t else Ok rev_l
  end.
Fixpoint floats (l : list string) : res (list T) :=
  match l with
  | [] => Ok []
  | w :: t => x <- py_float w;; r <- floats t;; Ok (x :: r)
  end.
(** zemax.py 53-64 *)
Definition designWavelengths (ls : list line) : res (list T) :=
  v <- value_of ls "WAVM" 1;;
  match v with
  | One w => x <- py_float w;; Ok [x]
  | Many l => r <- pop_055 (rev l);; floats (rev r)
  end.

(** zemax.py 43-51: the unit factor and the design wavelength *)
Record reader := mkReader { z_lines : list line; z_factor : T; z_wavelength : T }.
Definition ZMXReader_init (ls : list line) : res reader :=
  u <- value_of ls "UNIT" 0;;
  f <- match u with
       | One w => Ok (if areTheSame "IN" w then ndec 254 1 else c1)
       | Many _ => Err AttributeError   (* a list has no lower() *)
       end;;
  ws <- designWavelengths ls;;
  match nth_error ws (Nat.div (List.length ws) 2) with
  | Some w => Ok (mkReader ls f w)
  | None => Err IndexError
  end.

(** zemax.py 212-239: the lines after SURF index, up to the next SURF line; a key that comes twice keeps
    its last value *)
Fixpoint block (ls : list line) : list line :=
  match ls with
  | [] => []
  | l :: t => if String.eqb (l_name l) "SURF" then [] else l :: block t
  end.
Fixpoint rawSurfaceInfo (ls : list line) (index : Z) : res (option (list line)) :=
  match ls with
  | [] => Ok None
  | l :: t =>
      if String.eqb (l_name l) "SURF" then
        match l_par l with
        | w :: _ => i <- py_int w;; if (i =? index)%Z then Ok (Some (block t)) else rawSurfaceInfo t index
        | [] => Err IndexError
        end
      else rawSurfaceInfo t index
  end.
Fixpoint lookup (b : list line) (key : string) : option (list string) :=
  match b with
  | [] => None
  | l :: t => match lookup t key with
              | Some p => Some p
              | None => if String.eqb (l_name l) key then Some (l_par l) else None
              end
  end.
Definition first_word (p : list string) : res string :=
  match p with w :: _ => Ok w | [] => Err IndexError end.

(** zemax.py 5-11; materials are catalogue entries *)
Record surface := mkSurface {
  sf_R : T; sf_diam : T; sf_mat : string * dispersion T; sf_spacing : T }.

(** zemax.py 170-210 *)
Definition surfaceInfo (z : reader) (index : Z) : res (option surface) :=
  raw <- rawSurfaceInfo (z_lines z) index;;
  match raw with
  | None => Ok None
  | Some b =>
      mat <- match lookup b "GLAS" with
             | Some p => w <- first_word p;; findByName (Some w)
             | None => Ok ("Air"%string, DAir)
             end;;
      cp <- match lookup b "CURV" with Some p => Ok p | None => Err KeyError end;;
      cw <- first_word cp;; curvature <- py_float cw;;
      R <- (if curvature =? c0 then Ok ninf
            else q <- pdiv c1 curvature;; Ok (q * z_factor z));;
      diam <- match lookup b "DIAM" with
              | Some p => w <- first_word p;; d <- py_float w;; Ok (c2 * d * z_factor z)
              | None => Ok ninf
              end;;
      sp <- match lookup b "DISZ" with Some p => Ok p | None => Err KeyError end;;
      sw <- first_word sp;; s <- py_float sw;;
      Ok (Some (mkSurface R diam mat (s * z_factor z)))
  end.
(** zemax.py 152-168 *)
Fixpoint surfaces_loop (z : reader) (fuel : nat) (i : Z) : res (list surface) :=
  match fuel with
  | O => Ok []
  | S f => s <- surfaceInfo z i;;
           match s with
           | None => Ok []
           | Some s => r <- surfaces_loop z f (i + 1)%Z;; Ok (s :: r)
           end
  end.
Definition surfaces (z : reader) : res (list surface) := surfaces_loop z (Z.to_nat 1000) 0.

(** isinstance(mat, Air) *)
Definition is_air (s : surface) : bool :=
  match snd (sf_mat s) with DAir => true | _ => false end.
(** zemax.py 122-150; [found] is firstSurfaceFound *)
Fixpoint lens_loop (found : bool) (l : list surface) : list surface :=
  match l with
  | [] => []
  | s :: t =>
      if is_air s then (if found then [s] else lens_loop found t)
      else s :: lens_loop true t
  end.
Definition lensSurfaces (z : reader) : res (list surface) :=
  l <- surfaces z;; Ok (lens_loop false l).

(** a real index.  With a complex one Python goes on with complex matrices; the model stops. *)
Definition real_index (s : string * dispersion T) (w : T) : res T :=
  v <- index_of (snd s) w;; match v with PReal x => Ok x | PComplex => Err NotImplementedError end.

(** zemax.py 91-104 *)
Fixpoint group_loop (g : grp) (w : T) (prev : string * dispersion T) (l : list surface) : res grp :=
  match l with
  | [] => Ok g
  | s :: t =>
      n1 <- real_index prev w;;
      n2 <- real_index (sf_mat s) w;;
      i <- DielectricInterface n1 n2 (sf_R s) (sf_diam s);;
      g1 <- append g i;;
      g2 <- (if is_air s then Ok g1
             else n <- real_index (sf_mat s) w;;
                  sp <- Space (sf_spacing s) n ninf;;
                  append g1 sp);;
      group_loop g2 w (sf_mat s) t
  end.
(** zemax.py 77-106 *)
Definition matrixGroup (z : reader) : res grp :=
  g <- MatrixGroup_new [] "";;
  l <- lensSurfaces z;;
  group_loop g (z_wavelength z) ("Air"%string, DAir) l.
End Zemax.
Arguments reader T : clear implicits.
Arguments surface T : clear implicits.
