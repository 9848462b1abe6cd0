(** Model of the check for a new version made at each import: __init__.py 69-88 and utils.py 233-262 in /repo/raytracing.
    The preferences (Preferences.v), the network and the printed messages are left out. *)
From Coq Require Import List Bool String Ascii ZArith NArith DecimalString Decimal.
From Verif Require Import Base Format.
Import ListNotations.
Open Scope string_scope.
Open Scope list_scope.
Open Scope Z_scope.

(** a datetime: seconds since a fixed date, microseconds from 0 to 999999 *)
Record datetime := mkTime { t_s : Z; t_us : Z }.
Definition instant (t : datetime) : Z := t_s t * 1000000 + t_us t.
(** timedelta.days of now - then *)
Definition days_between (now then_ : datetime) : Z := (instant now - instant then_) / 86400000000.

(** %f of strptime: one to six digits, as many microseconds as the digits say *)
Definition is_digit (a : ascii) : bool := let n := nat_of_ascii a in (48 <=? n)%nat && (n <=? 57)%nat.
Fixpoint all_digits (s : string) : bool := match s with EmptyString => true | String a t => is_digit a && all_digits t end.
Definition fraction (s : string) : option Z :=
  if (1 <=? String.length s)%nat && (String.length s <=? 6)%nat && all_digits s then
    match NilEmpty.uint_of_string s with
    | Some u => Some (Z.of_N (N.of_uint u) * 10 ^ Z.of_nat (6 - String.length s))
    | None => None
    end
  else None.

Section Check.
(** "YYYY-MM-DDTHH:MM:SS" and back: 19 characters *)
Variable date : Z -> string.
Variable undate : string -> option Z.

(** datetime.isoformat: no fraction when there are no microseconds *)
Definition isoformat (t : datetime) : string :=
  if Z.eqb (t_us t) 0 then date (t_s t)
  else let f := decimal (Z.to_N (t_us t)) in (date (t_s t) ++ "." ++ zeros (6 - String.length f) ++ f)%string.
(** datetime.strptime(s, "%Y-%m-%dT%H:%M:%S.%f") *)
Definition strptime (s : string) : res datetime :=
  match undate (substring 0 19 s), substring 19 (String.length s - 19) s with
  | Some secs, String "." f => match fraction f with Some us => Ok (mkTime secs us) | None => Err ValueError end
  | _, _ => Err ValueError
  end.
(** __init__.py 72-82; [pref] is prefs["lastVersionCheck"] *)
Definition lastCheckMoreThanADay (pref : option string) (now : datetime) : res bool :=
  match pref with
  | Some s => t <- strptime s;; Ok (Z.ltb 1 (days_between now t))
  | None => Ok true
  end.
(** __init__.py 85-88: the preference after an import at [now]; an exception stops the import *)
Definition at_import (pref : option string) (now : datetime) : res (option string) :=
  b <- lastCheckMoreThanADay pref now;;
  Ok (if b then Some (isoformat now) else pref).
(** one import after the other: the preference stays when an import fails *)
Fixpoint imports (pref : option string) (l : list datetime) : option string * list bool :=
  match l with
  | [] => (pref, [])
  | now :: t =>
      match at_import pref now with
      | Ok p => let r := imports p t in (fst r, true :: snd r)
      | Err _ => let r := imports pref t in (fst r, false :: snd r)
      end
  end.
End Check.

(** release numbers, compared as packaging.version does for final releases: trailing zeros do not count *)
Fixpoint release_ltb (a b : list N) : bool :=
  match a, b with
  | [], [] => false
  | [], y :: b => (0 <? y)%N || release_ltb [] b
  | _ :: _, [] => false
  | x :: a, y :: b => (x <? y)%N || ((x =? y)%N && release_ltb a b)
  end.
(** utils.py 246-254; [releases] are the keys of data["releases"] in the order of the answer, None one that
    packaging.version refuses (an exception, caught at 259): is a new version announced *)
Fixpoint all_some {A} (l : list (option A)) : option (list A) :=
  match l with
  | [] => Some []
  | Some a :: t => match all_some t with Some r => Some (a :: r) | None => None end
  | None :: _ => None
  end.
Definition checkLatestVersion (current : list N) (releases : list (option (list N))) : bool :=
  match all_some releases with
  | None => false
  | Some [] => false
  | Some (v :: t) => release_ltb current (last t v)
  end.
