(** Model of the lists of classes: utils.py 187-219 and specialtylenses.py 99-101 in /repo/raytracing. *)
From Coq Require Import List String Ascii.
Import ListNotations.
Open Scope string_scope.
Open Scope list_scope.

(** a class with its __name__ and its __subclasses__(); a class with several bases occurs below each of them *)
Inductive class := Class (name : string) (subs : list class).
Definition class_name (c : class) : string := match c with Class n _ => n end.
Definition subclasses (c : class) : list class := match c with Class _ l => l end.

(** utils.py 187-208 *)
Fixpoint allSubclasses (c : class) : list string :=
  match c with
  | Class _ subs =>
      flat_map (fun child => match subclasses child with [] => [class_name child] | _ => allSubclasses child end) subs
  end.
(** utils.py 211-214: the lines printed, as pairs of names *)
Fixpoint printAllChilds (c : class) : list (string * string) :=
  match c with
  | Class n subs => flat_map (fun child => (n, class_name child) :: printAllChilds child) subs
  end.
(** utils.py 210-219 *)
Definition edge_text (e : string * string) : string :=
  let q := String "034"%char "" in q ++ fst e ++ q ++ " -> " ++ q ++ snd e ++ q.
Definition printClassHierarchy (c : class) : list string :=
  ["# Paste this in the text field of http://www.graphviz.org"; "digraph G {";
   ("  rankdir=" ++ String "034"%char "" ++ "LR" ++ String "034"%char "" ++ ";")%string]
  ++ map edge_text (printAllChilds c) ++ ["}"].
