(** Model of the lens viewer: lensViewer.py 84-112 and 189-217 in /repo/raytracing.  The widgets of tkinter are left out;
    what the menu lists and which lens is shown when an entry is selected is kept. *)
From Coq Require Import List Bool String Ascii.
From Verif Require Import Base Optics Materials Zemax Catalogue Scene.
Import ListNotations.
Open Scope string_scope.
Open Scope list_scope.

(** name.replace("_", "-") *)
Fixpoint dashes (s : string) : string :=
  match s with
  | EmptyString => EmptyString
  | String a t => String (if Ascii.eqb a "_"%char then "-"%char else a) (dashes t)
  end.
(** is the class one of eo.py: PN_33_921 and so on (eo.py 3-105) *)
Definition is_eo (name : string) : bool := String.prefix "PN_" name.
(** the label= argument of the 328 classes: "AC254-050-A" for AC254_050_A, "EO #33-921" for PN_33_921, and the singlets of
    thorlabs.py 1019-1173 keep their name, "LA1608_A" *)
Definition lens_label (name : string) : string :=
  if String.prefix "LA" name then name
  else if is_eo name then String.append "EO #" (dashes (String.substring 3 (String.length name) name)) else dashes name.

Section Viewer.
Context {T : Type} {N : Num T}.
Notation disp := (dispersion T).
(** "{1:.1f}" *)
Variable fmt : T -> string.
(** a module: its lens classes *)
Definition module_ := list (string * lens_class T disp).
(** the lens object kept for an entry: its label and what was built *)
Definition shown : Type := string * built T.

(** lensViewer.py 196, 201-203: the loop variable [lens] holds the name first and the object once it was made *)
Inductive lens_var := VName (s : string) | VLens (l : shown).

(** lensViewer.py 204: "{0:s} [f={1:.1f} mm]" *)
Definition entry_text (label : string) (f : T) : string :=
  String.append label (String.append " [f=" (String.append (fmt f) " mm]")).

(** lensViewer.py 200-207: one module; whatever is raised is ignored.  getattr(module, lens) raises TypeError when
    [lens] is no string any more. *)
Definition try_module (st : lens_var * dict shown) (m : module_) : lens_var * dict shown :=
  match fst st with
  | VLens _ => st
  | VName s =>
      match assoc s m with
      | None => st
      | Some c =>
          match construct c None with
          | Err _ => st
          | Ok b =>
              let l := (lens_label s, b) in
              match effectiveFocalLengths (emat (b_elem b)) with
              | Err _ => (VLens l, snd st)
              | Ok (f1, _) => (VLens l, dset (snd st) (entry_text (fst l) f1) l)
              end
          end
      end
  end.
(** lensViewer.py 196-207; [names] is rt.CompoundLens.all(), [modules] is [thorlabs, eo] *)
Definition build_lens_dict (names : list string) (modules : list module_) : dict shown :=
  fold_left (fun d name => snd (fold_left try_module modules (VName name, d))) names [].

(** lensViewer.py 192, 101-105: the entries of the menu *)
Definition menu_items (lenses : dict shown) : list string := map fst lenses.
(** lensViewer.py 107-112, 209-212: selecting entry [i]; the text of the menu button and the lens that is drawn *)
Definition selection (lenses : dict shown) (i : nat) : res (string * shown) :=
  match nth_error (menu_items lenses) i with
  | None => Err IndexError
  | Some k => match dget lenses k with Some l => Ok (k, l) | None => Err KeyError end
  end.
End Viewer.
Arguments module_ T : clear implicits.
Arguments shown T : clear implicits.

(** the two modules *)
Definition thorlabs {T} {N : Num T} : module_ T := filter (fun p => negb (is_eo (fst p))) lenses.
Definition eo {T} {N : Num T} : module_ T := filter (fun p => is_eo (fst p)) lenses.
