(** Warnings that are shown or hidden against the filter meant for them (utils.py 38-41, 57-60). *)
From Coq Require Import List Bool String.
From Verif Require Import Base Modes ModeProofs.
Import ListNotations.
Open Scope string_scope.
Open Scope list_scope.

Definition no_patterns (p s : string) : bool := false.
Definition hint : warning := mkWarning "Rays start on the axis" CHint 130 "figure".
(** expert mode has a filter "ignore" for hints; a hint is shown nevertheless *)
Lemma expert_hint_shown : In (mkFilter AIgnore None CHint None 0) (filters (set_mode Expert (start []))) /\ w_cat hint = CHint /\
  snd (warn no_patterns (set_mode Expert (start [])) hint) = Shown.
Proof. split; [|split]; vm_compute; auto. Qed.
(** beginner mode has a filter "always" for hints; the second hint is hidden nevertheless *)
Lemma beginner_hint_hidden : In (mkFilter AAlways None CHint None 0) (filters (set_mode Beginner (start []))) /\ w_cat hint = CHint /\
  snd (warn_all no_patterns (set_mode Beginner (start [])) [hint; hint]) = [Shown; Hidden].
Proof. split; [|split]; vm_compute; auto. Qed.
(** the environment variable of one session decides the mode of the next session, in which it is not set *)
Lemma expert_sticks : fst (import_mode None false) = Beginner /\
  fst (import_mode (snd (import_mode None true)) false) = Expert.
Proof. split; reflexivity. Qed.
