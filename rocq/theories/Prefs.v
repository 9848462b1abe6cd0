(** preferences.py: Preferences objects sharing one JSON file.  Objects are dictionaries; the file
    holds a JSON object, or text that json.load rejects (after an interrupted or failed save), or
    does not exist. *)
From Coq Require Import ZArith List Bool String DecimalString.
Import ListNotations.
Open Scope list_scope.

(** Python keys; JSON turns an int into its decimal string (json.dump) *)
Inductive key := KStr (s : string) | KInt (z : Z).
(** Python values; [VBad] is one that json.dump refuses with a TypeError *)
Inductive value := VJson (z : Z) | VBad.
(** KeyError, TypeError of json.dump, AttributeError for self.path *)
Inductive pexn := NoSuchKey | JsonTypeError | NoPathError.

Definition key_eqb (a b : key) : bool :=
  match a, b with
  | KStr s, KStr t => String.eqb s t
  | KInt x, KInt y => Z.eqb x y
  | _, _ => false
  end.
Definition json_key (k : key) : key :=
  match k with
  | KStr s => KStr s
  | KInt z => KStr (NilZero.string_of_int (Z.to_int z))
  end.

(** a dict, in insertion order *)
Definition dict := list (key * value).
Fixpoint dget (d : dict) (k : key) : option value :=
  match d with
  | [] => None
  | (k', v) :: t => if key_eqb k k' then Some v else dget t k
  end.
Fixpoint dset (d : dict) (k : key) (v : value) : dict :=
  match d with
  | [] => [(k, v)]
  | (k', v') :: t => if key_eqb k k' then (k', v) :: t else (k', v') :: dset t k v
  end.
Definition ddel (d : dict) (k : key) : dict := filter (fun kv => negb (key_eqb k (fst kv))) d.

(** [Torn]: empty or incomplete text, rejected by json.load *)
Inductive content := Whole (d : dict) | Torn.
Definition file := option content.

Definition jsonable (v : value) : bool := match v with VJson _ => true | VBad => false end.
(** what json.load reads from the text json.dump wrote for [d]; later keys win *)
Definition reread (d : dict) : dict := fold_left (fun a kv => dset a (json_key (fst kv)) (snd kv)) d [].

(** What an operation leaves: the contents the file passes through (newest last), the object's own
    dictionary, and its result. *)
Record outcome (A : Type) := mkOut { o_files : list file; o_dict : dict; o_result : A + pexn }.
Arguments mkOut {A}. Arguments o_files {A}. Arguments o_dict {A}. Arguments o_result {A}.

(** preferences.py 62-64: open(..., "w+") empties the file, then json.dump writes *)
Definition writeToDisk (d : dict) : list file * option pexn :=
  if forallb (fun kv => jsonable (snd kv)) d
  then ([Some Torn; Some (Whole (reread d))], None)
  else ([Some Torn], Some JsonTypeError).

(** preferences.py 38-40 *)
Definition setitem (d : dict) (k : key) (v : value) : outcome unit :=
  let d' := dset d k v in
  let (fs, x) := writeToDisk d' in
  mkOut fs d' (match x with None => inl tt | Some e => inr e end).

(** preferences.py 30-32: one save per key *)
Fixpoint update (d : dict) (l : dict) : outcome unit :=
  match l with
  | [] => mkOut [] d (inl tt)
  | (k, v) :: t =>
      let o := setitem d k v in
      match o_result o with
      | inr e => o
      | inl _ =>
          let o' := update (o_dict o) t in
          mkOut (o_files o ++ o_files o') (o_dict o') (o_result o')
      end
  end.

(** preferences.py 50-60 *)
Definition readFromDisk (f : file) (d : dict) : outcome unit :=
  match f with
  | Some (Whole data) => update d data
  | Some Torn => mkOut [] d (inl tt)
  | None =>
      let (fs, x) := writeToDisk [] in
      mkOut fs [] (match x with None => inl tt | Some e => inr e end)
  end.

(** preferences.py 34-36 *)
Definition getitem (f : file) (d : dict) (k : key) : outcome value :=
  let o := readFromDisk f d in
  match o_result o with
  | inr e => mkOut (o_files o) (o_dict o) (inr e)
  | inl _ =>
      mkOut (o_files o) (o_dict o)
        (match dget (o_dict o) k with Some v => inl v | None => inr NoSuchKey end)
  end.

(** preferences.py 42-48 *)
Definition resetPreferences : outcome unit :=
  let (fs, x) := writeToDisk [] in
  mkOut (None :: fs) [] (match x with None => inl tt | Some e => inr e end).

(** preferences.py 6-28: keyword arguments are stored before self.path exists (lines 7 and 27), which raises
    AttributeError in writeToDisk *)
Definition new_object (kwargs : dict) (f : file) : outcome unit :=
  match kwargs with
  | [] => readFromDisk f []
  | _ => mkOut [] [] (inr NoPathError)
  end.

(** inherited from dict: no disk access *)
Definition contains (d : dict) (k : key) : bool := match dget d k with Some _ => true | None => false end.
Definition delitem (d : dict) (k : key) : outcome unit :=
  match dget d k with
  | Some _ => mkOut [] (ddel d k) (inl tt)
  | None => mkOut [] d (inr NoSuchKey)
  end.

(** ** Several objects *)
Record world := mkWorld { w_file : file; w_objs : list dict }.
Inductive op :=
| New (kwargs : dict)
| Get (i : nat) (k : key)
| Set_ (i : nat) (k : key) (v : value)
| Reset (i : nat)
| Del (i : nat) (k : key)
| Contains (i : nat) (k : key).
Inductive answer := Value (v : value) | Bool (b : bool) | Done | Raised (e : pexn) | NoObject.

Definition set_obj (l : list dict) (i : nat) (d : dict) : list dict := firstn i l ++ d :: skipn (S i) l.
Definition last_file (f : file) (fs : list file) : file := List.last fs f.
Definition finish {A} (w : world) (i : nat) (o : outcome A) (r : A -> answer) : list file * world * answer :=
  (o_files o, mkWorld (last_file (w_file w) (o_files o)) (set_obj (w_objs w) i (o_dict o)),
   match o_result o with inl a => r a | inr e => Raised e end).

(** the contents the file passes through, the world afterwards, the answer *)
Definition step (w : world) (o : op) : list file * world * answer :=
  match o with
  | New kw =>
      let o := new_object kw (w_file w) in
      match o_result o with
      | inl _ => (o_files o, mkWorld (last_file (w_file w) (o_files o)) (w_objs w ++ [o_dict o]), Done)
      | inr e => (o_files o, mkWorld (last_file (w_file w) (o_files o)) (w_objs w), Raised e)
      end
  | Get i k =>
      match nth_error (w_objs w) i with
      | None => ([], w, NoObject)
      | Some d => finish w i (getitem (w_file w) d k) Value
      end
  | Set_ i k v =>
      match nth_error (w_objs w) i with
      | None => ([], w, NoObject)
      | Some d => finish w i (setitem d k v) (fun _ => Done)
      end
  | Reset i =>
      match nth_error (w_objs w) i with
      | None => ([], w, NoObject)
      | Some d => finish w i resetPreferences (fun _ => Done)
      end
  | Del i k =>
      match nth_error (w_objs w) i with
      | None => ([], w, NoObject)
      | Some d => finish w i (delitem d k) (fun _ => Done)
      end
  | Contains i k =>
      match nth_error (w_objs w) i with
      | None => ([], w, NoObject)
      | Some d => ([], w, Bool (contains d k))
      end
  end.
Fixpoint run (w : world) (l : list op) : world * list answer :=
  match l with
  | [] => (w, [])
  | o :: t =>
      let '(_, w', a) := step w o in
      let (w'', r) := run w' t in (w'', a :: r)
  end.
