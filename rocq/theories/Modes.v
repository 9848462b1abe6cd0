(** Model of the warning modes: utils.py 17-83 and __init__.py 90-107 in /repo/raytracing, together with what they use of
    Python's warnings module (filterwarnings, warn): the list of filters, the registry of each module and the registry of
    the action "once".  The printed format (utils.py 22-24) and the preferences file (Preferences.v) are left out. *)
From Coq Require Import List Bool String Arith.
From Verif Require Import Base.
Import ListNotations.
Open Scope string_scope.
Open Scope list_scope.

(** utils.py 16-20; CUserOther are other subclasses of UserWarning, COther other subclasses of Warning *)
Inductive category := CWarning | CUser | CDeprecation | CHint | CNote | CUserOther (n : nat) | COther (n : nat).
Definition category_eqb (a b : category) : bool :=
  match a, b with
  | CWarning, CWarning | CUser, CUser | CDeprecation, CDeprecation | CHint, CHint | CNote, CNote => true
  | CUserOther n, CUserOther m | COther n, COther m => Nat.eqb n m
  | _, _ => false
  end.
(** issubclass(a, b) *)
Definition subclass (a b : category) : bool :=
  category_eqb a b ||
  match b with
  | CWarning => true
  | CUser => match a with CHint | CNote | CUserOther _ => true | _ => false end
  | _ => false
  end.

Inductive action := AError | AIgnore | AAlways | ADefault | AModule | AOnce.
Definition action_eqb (a b : action) : bool :=
  match a, b with
  | AError, AError | AIgnore, AIgnore | AAlways, AAlways | ADefault, ADefault | AModule, AModule | AOnce, AOnce => true
  | _, _ => false
  end.
Definition ostring_eqb (a b : option string) : bool :=
  match a, b with None, None => true | Some a, Some b => String.eqb a b | _, _ => false end.
(** an item of warnings.filters; the patterns of messages and modules are regular expressions *)
Record filter := mkFilter { f_action : action; f_msg : option string; f_cat : category; f_mod : option string; f_line : nat }.
Definition filter_eqb (a b : filter) : bool :=
  action_eqb (f_action a) (f_action b) && ostring_eqb (f_msg a) (f_msg b) && category_eqb (f_cat a) (f_cat b) &&
  ostring_eqb (f_mod a) (f_mod b) && Nat.eqb (f_line a) (f_line b).

(** a call of warnings.warn as warn_explicit sees it *)
Record warning := mkWarning { w_text : string; w_cat : category; w_line : nat; w_module : string }.
(** the keys of the registry of a module *)
Definition key := (string * category * nat)%type.
Definition key_eqb (a b : key) : bool :=
  String.eqb (fst (fst a)) (fst (fst b)) && category_eqb (snd (fst a)) (snd (fst b)) && Nat.eqb (snd a) (snd b).
Definition once_eqb (a b : string * category) : bool := String.eqb (fst a) (fst b) && category_eqb (snd a) (snd b).
(** filters and their version, the registries (by module: version and keys), onceregistry *)
Record world := mkWorld { filters : list filter; version : nat; registries : string -> nat * list key; once : list (string * category) }.
Inductive outcome := Shown | Hidden | Raised.
Definition outcome_eqb (a b : outcome) : bool :=
  match a, b with Shown, Shown | Hidden, Hidden | Raised, Raised => true | _, _ => false end.

(** _add_filter of warnings.py: remove an equal filter, insert at the front, count the change *)
Fixpoint remove_first (x : filter) (l : list filter) : list filter :=
  match l with
  | [] => []
  | a :: t => if filter_eqb a x then t else a :: remove_first x t
  end.
Definition add_filter (x : filter) (w : world) : world :=
  mkWorld (x :: remove_first x (filters w)) (S (version w)) (registries w) (once w).
(** warnings.filterwarnings(action, category=...) *)
Definition filterwarnings (a : action) (c : category) (w : world) : world := add_filter (mkFilter a None c None 0) w.

(** utils.py 38-41 *)
Definition beginnerMode (w : world) : world :=
  filterwarnings ADefault CUser (filterwarnings ADefault CDeprecation
    (filterwarnings ADefault CNote (filterwarnings AAlways CHint w))).
(** utils.py 57-60 *)
Definition expertMode (w : world) : world :=
  filterwarnings AOnce CUser (filterwarnings AOnce CDeprecation
    (filterwarnings AOnce CNote (filterwarnings AIgnore CHint w))).
(** utils.py 76-79 *)
Definition silentMode (w : world) : world :=
  filterwarnings AIgnore CUser (filterwarnings AIgnore CDeprecation
    (filterwarnings AIgnore CNote (filterwarnings AIgnore CHint w))).

Section Warn.
(** does the pattern match *)
Variable matches : string -> string -> bool.
Definition applies (x : warning) (f : filter) : bool :=
  match f_msg f with None => true | Some p => matches p (w_text x) end &&
  subclass (w_cat x) (f_cat f) &&
  match f_mod f with None => true | Some p => matches p (w_module x) end &&
  (Nat.eqb (f_line f) 0 || Nat.eqb (w_line x) (f_line f)).
(** the first filter that applies, or defaultaction *)
Definition action_of (fs : list filter) (x : warning) : action :=
  match find (applies x) fs with Some f => f_action f | None => ADefault end.
(** the registry of the module, emptied when the filters have changed *)
Definition registry_of (w : world) (m : string) : list key :=
  let r := registries w m in if Nat.eqb (fst r) (version w) then snd r else [].
Definition set_registry (w : world) (m : string) (ks : list key) (os : list (string * category)) : world :=
  mkWorld (filters w) (version w) (fun m' => if String.eqb m' m then (version w, ks) else registries w m') os.
(** warnings.warn_explicit *)
Definition warn (w : world) (x : warning) : world * outcome :=
  let ks := registry_of w (w_module x) in
  let k := (w_text x, w_cat x, w_line x) in
  let same := set_registry w (w_module x) ks (once w) in
  if existsb (key_eqb k) ks then (same, Hidden)
  else match action_of (filters w) x with
       | AIgnore => (same, Hidden)
       | AError => (same, Raised)
       | AOnce =>
           let o := (w_text x, w_cat x) in
           if existsb (once_eqb o) (once w) then (set_registry w (w_module x) (k :: ks) (once w), Hidden)
           else (set_registry w (w_module x) (k :: ks) (o :: once w), Shown)
       | AAlways => (same, Shown)
       | AModule =>
           let k0 := (w_text x, w_cat x, 0) in
           if existsb (key_eqb k0) (k :: ks) then (set_registry w (w_module x) (k :: ks) (once w), Hidden)
           else (set_registry w (w_module x) (k0 :: k :: ks) (once w), Shown)
       | ADefault => (set_registry w (w_module x) (k :: ks) (once w), Shown)
       end.
Fixpoint warn_all (w : world) (l : list warning) : world * list outcome :=
  match l with
  | [] => (w, [])
  | x :: t => let r := warn w x in let s := warn_all (fst r) t in (fst s, snd r :: snd s)
  end.
End Warn.

(** __init__.py 90-107: the mode chosen when the package is imported, and the mode in the preferences afterwards;
    [env] says whether RAYTRACING_EXPERT is set.  (The except branch is only for preferences that raise: Preferences.v.) *)
Inductive mode := Beginner | Expert | Silent.
Definition mode_name (m : mode) : string := match m with Beginner => "beginner" | Expert => "expert" | Silent => "silent" end.
Definition set_mode (m : mode) : world -> world :=
  match m with Beginner => beginnerMode | Expert => expertMode | Silent => silentMode end.
Definition import_mode (saved : option string) (env : bool) : mode * option string :=
  let saved := if env then Some "expert" else saved in
  match saved with
  | Some s => (if String.eqb s "silent" then Silent else if String.eqb s "expert" then Expert else Beginner, saved)
  | None => (Beginner, Some "beginner")
  end.
