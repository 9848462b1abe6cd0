(** Files that do not give back what was saved. *)
From Coq Require Import ZArith List Bool Floats.
From Verif Require Import Base Nums Optics Group RaysModel RaysMore GroupRefutations Saving.
Import ListNotations.
Open Scope list_scope.

(** killed while it saves over an older file: the older rays are gone too *)
Lemma old_file_lost : exists (old new : list (@ray float)) d, In d (saving (mkHeld true new)) /\ old <> [] /\
  load_rays (mkHeld true []) false (saved (mkHeld true old)) = (mkHeld true old, None) /\
  load_rays (mkHeld true []) false d = (mkHeld true [], Some EndOfFile).
Proof.
  exists [Ray_new (fz 1) (fz 0)], [Ray_new (fz 2) (fz 0)], Torn. split; [now left|]. split; [discriminate|]. split; reflexivity.
Qed.
(** a file with a tuple of rays loads; then neither append nor load(append=True) work *)
Lemma tuple_loaded : exists (d : disk (@ray float)) o o', load_rays (mkHeld true []) false d = (o, None) /\ o' = o /\ length (things o) = 2%nat /\
  append_ray o (Ray_new (fz 1) (fz 0)) = (o', Some NoSuchMethod) /\ load_rays o true d = (o', Some NoSuchMethod).
Proof.
  exists (Pickled (BTuple [Ray_new (fz 1) (fz 0); Ray_new (fz 2) (fz 0)])). do 2 eexists. repeat split.
Qed.
(** a source of 1000 rays, saved and loaded: no ray; and after looking at one ray: one *)
Definition thousand : @random_rays float := RandomUniformRays (fz 1) None (fz 1) None 1000.
Definition no_dice (n : nat) : float := ndec 5 1.
Lemma source_saved_empty : exists q : @random_rays float, random_len q = 1000%Z /\
  load_rays (mkHeld true []) false (saved_random q) = (mkHeld true [], None) /\
  exists r, load_rays (mkHeld true []) false (saved_random (snd (random_get no_dice q 0))) = (mkHeld true [r], None).
Proof.
  exists thousand. split; [reflexivity|]. split; [reflexivity|]. eexists. vm_compute. reflexivity.
Qed.
(** three rays loaded into a source of two rays: two are visited; one ray into a source of two: a second one is made up *)
Lemma source_keeps_count : exists (q : @random_rays float) l l', length l = 3%nat /\ length l' = 1%nat /\
  random_for no_dice 10 (load_random q l) = map Ok (firstn 2 l) /\
  exists r, random_for no_dice 10 (load_random q l') = map Ok (l' ++ [r]).
Proof.
  exists (RandomUniformRays (fz 1) None (fz 1) None 2), [Ray_new (fz 1) (fz 0); Ray_new (fz 2) (fz 0); Ray_new (fz 3) (fz 0)], [Ray_new (fz 7) (fz 0)].
  split; [reflexivity|]. split; [reflexivity|]. split; [vm_compute; reflexivity|]. eexists. vm_compute. reflexivity.
Qed.
