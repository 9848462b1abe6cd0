(** Files written by Rays.save and MatrixGroup.save and read by load (rays.py 405-463, matrixgroup.py 498-557).
    Pickling itself is trusted: unpickling a complete file gives what was pickled. *)
From Coq Require Import ZArith List Bool.
From Verif Require Import Base Nums Optics Group RaysModel.
Import ListNotations.
Open Scope list_scope.

(** ** Contents *)
(** what a pickle may hold: a list or a tuple of rays (elements), an iterable with something else in it, or
    something that is not iterable *)
Inductive boxed (A : Type) := BList (l : list A) | BTuple (l : list A) | BMixed | BScalar.
Arguments BList {A}. Arguments BTuple {A}. Arguments BMixed {A}. Arguments BScalar {A}.
(** a file: not there, empty or incomplete, or complete *)
Inductive disk (A : Type) := Absent | Torn | Pickled (b : boxed A).
Arguments Absent {A}. Arguments Torn {A}. Arguments Pickled {A}.
(** FileNotFoundError, EOFError of the unpickler, the IOError raised by load, AttributeError of tuple.append *)
Inductive fexn := NotFound | EndOfFile | WrongContent | NoSuchMethod.

(** the attribute _rays: a list, or the tuple that load put there *)
Record held (A : Type) := mkHeld { is_list : bool; things : list A }.
Arguments mkHeld {A}. Arguments is_list {A}. Arguments things {A}.

(** pickle.Pickler(outfile).dump(self._rays) *)
Definition box {A} (o : held A) : boxed A := if is_list o then BList (things o) else BTuple (things o).

(** rays.py 440-441: open(filePath, 'wb') empties the file, dump fills it; the contents the file passes through *)
Definition saving {A} (o : held A) : list (disk A) := [Torn; Pickled (box o)].
Definition saved {A} (o : held A) : disk A := last (saving o) Absent.

(** rays.py 418-427, matrixgroup.py 545-550: what is read, or the exception *)
Definition read {A} (d : disk A) : boxed A + fexn :=
  match d with
  | Absent => inr NotFound
  | Torn => inr EndOfFile
  | Pickled BScalar => inr WrongContent
  | Pickled BMixed => inr WrongContent
  | Pickled b => inl b
  end.
Definition unbox {A} (b : boxed A) : list A := match b with BList l => l | BTuple l => l | _ => [] end.
Definition list_box {A} (b : boxed A) : bool := match b with BTuple _ => false | _ => true end.

(** rays.py 405-427 *)
Definition load_rays {A} (o : held A) (app : bool) (d : disk A) : held A * option fexn :=
  match read d with
  | inr x => (o, Some x)
  | inl b =>
      if app then if is_list o then (mkHeld true (things o ++ unbox b), None) else (o, Some NoSuchMethod)
      else (mkHeld (list_box b) (unbox b), None)
  end.
(** rays.py 378-390 *)
Definition append_ray {A} (o : held A) (r : A) : held A * option fexn :=
  if is_list o then (mkHeld true (things o ++ [r]), None) else (o, Some NoSuchMethod).

(** several objects and one file *)
Inductive fop (A : Type) := FSave (i : nat) | FLoad (i : nat) (app : bool) | FAppend (i : nat) (a : A).
Arguments FSave {A}. Arguments FLoad {A}. Arguments FAppend {A}.
Definition put {A} (l : list (held A)) (i : nat) (o : held A) : list (held A) := firstn i l ++ o :: skipn (S i) l.
Definition fstep {A} (s : list (held A) * disk A) (op : fop A) : list (held A) * disk A :=
  let get i := nth i (fst s) (mkHeld true []) in
  match op with
  | FSave i => (fst s, saved (get i))
  | FLoad i app => (put (fst s) i (fst (load_rays (get i) app (snd s))), snd s)
  | FAppend i a => (put (fst s) i (fst (append_ray (get i) a)), snd s)
  end.
Definition frun {A} (s : list (held A) * disk A) (ops : list (fop A)) : list (held A) * disk A := fold_left fstep ops s.

(** matrixgroup.py 533-557; the exception of load, or that of append *)
Definition load_group {T} {N : Num T} (g : @grp T) (app : bool) (d : disk (@elem T)) : @grp T * option (fexn + exn) :=
  match read d with
  | inr x => (g, Some (inl x))
  | inl b => match load_st g app (unbox b) with (g', x) => (g', option_map inr x) end
  end.

(** a random source saves the rays it has produced so far (rays.py 633: _rays starts empty) *)
Definition saved_random {T} (q : @random_rays T) : disk (@ray T) := saved (mkHeld true (q_rays q)).

(** ** Waiting for the file (rays.py 443-463, matrixgroup.py 511-531) *)
(** [there i]: the i-th answer of os.path.exists; [size i]: the i-th answer of os.path.getsize, None when it raises.
    Returns the number of questions asked and the time slept, in tenths of a second. *)
Fixpoint wait_exists (fuel : nat) (there : nat -> bool) (i : nat) (t : Z) : option (nat * Z) :=
  match fuel with
  | O => None
  | S fuel => if there i then Some (i, t) else wait_exists fuel there (S i) (t + 1)
  end.
Fixpoint wait_size (fuel : nat) (size : nat -> option Z) (i : nat) (old : option Z) (t : Z) : option (nat * Z) :=
  match fuel with
  | O => None
  | S fuel =>
      match size i with
      | Some s =>
          match old with
          | Some s' => if (s =? s')%Z then Some (i, t) else wait_size fuel size (S i) (Some s) (t + 10)
          | None => wait_size fuel size (S i) (Some s) (t + 10)
          end
      | None => wait_size fuel size (S i) old (t + 1)
      end
  end.
Definition waiting (fuel : nat) (there : nat -> bool) (size : nat -> option Z) : option Z :=
  match wait_exists fuel there 0 0 with
  | None => None
  | Some (_, t) => option_map snd (wait_size fuel size 0 None t)
  end.

(** rays.py 426-427 on a random source: the list is replaced, maxCount stays (rays.py 635-636) *)
Definition load_random {T} (q : @random_rays T) (l : list (@ray T)) : @random_rays T :=
  mkRandom l (q_used q) (q_max q) (q_pos q) (q_ymin q) (q_ymax q) (q_thmin q) (q_thmax q).
