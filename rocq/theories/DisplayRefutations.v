(** Bit-exact runs in which figures do not show what was asked for (C89, C90). *)
From Coq Require Import ZArith List Bool String Floats.
From Verif Require Import Base Nums Optics Group Spec GroupProofs TraceProofs Imaging FieldMore
  GroupRefutations ImagingRefutations EfficiencyRefutations Display DisplayProofs.
Import ListNotations.
Set Warnings "-inexact-float".
Open Scope string_scope.
Open Scope list_scope.

(** display() without arguments, and with a list of rays *)
Definition plain : @args float := mkArgs None None true None None.
Definition with_list (l : list (@shown float)) : @args float := mkArgs None (Some l) true None None.
Definition shows (r : option exn * @path float * list (@shown float) * option (@drawn float)) : option (list (@shown float)) :=
  match snd r with Some d => Some (d_rays d) | None => None end.
Definition colours (r : option exn * @path float * list (@shown float) * option (@drawn float)) (k : key) : option (@setting float) :=
  match snd r with Some d => Some (d_params d k) | None => None end.
Definition purple : @setting float := SList ["purple"].

(** the object height chosen by the user is that of the first figure only *)
Lemma height_second_figure : exists e f, is_two_apertures e /\ fieldOfView 100 e = Ok f /\
  neqb f (fz 4) = false /\ forall dr tan, dr = Ok (fz 30) ->
  let first := run e 100 dr tan [OHeight (fz 4)] in
  let second := run e 100 dr tan [OHeight (fz 4); ODisplay plain] in
  shows (display e 100 dr tan first plain) = Some [Obj (fz 4)] /\
  shows (display e 100 dr tan second plain) = Some [Obj f].
Proof.
  exists two_apertures. eexists. split; [exact two_apertures_built|].
  split; [vm_compute; reflexivity|]. split; [vm_compute; reflexivity|]. intros dr tan ->. cbv zeta.
  split; vm_compute; reflexivity.
Qed.

(** a style chosen afterwards undoes the object height *)
Lemma height_then_style : exists e f, is_two_apertures e /\ fieldOfView 100 e = Ok f /\
  neqb f (fz 4) = false /\ forall dr tan, dr = Ok (fz 30) ->
  let p := run e 100 dr tan [OHeight (fz 4); ODesign (Some "publication") []] in
  shows (display e 100 dr tan p plain) = Some [Obj f].
Proof.
  exists two_apertures. eexists. split; [exact two_apertures_built|].
  split; [vm_compute; reflexivity|]. split; [vm_compute; reflexivity|]. intros dr tan ->. cbv zeta.
  vm_compute. reflexivity.
Qed.

(** colours are lost after a figure and cannot be set again *)
Lemma colours_second_figure : exists e, is_two_apertures e /\ forall dr tan, dr = Ok (fz 30) ->
  let ask := ODesign None [(RayColors, purple)] in
  let first := run e 100 dr tan [ask] in
  let second := run e 100 dr tan [ask; ODisplay plain] in
  colours (display e 100 dr tan first plain) RayColors = Some purple /\
  colours (display e 100 dr tan second plain) RayColors = Some (SList ["b"; "r"; "g"]) /\
  design second None [(RayColors, purple)] = Err TypeError.
Proof.
  exists two_apertures. split; [exact two_apertures_built|]. intros dr tan ->. cbv zeta.
  split; [vm_compute; reflexivity|]. split; vm_compute; reflexivity.
Qed.

(** choosing the style 'default' does not restore it *)
Lemma style_not_restored : exists e, is_two_apertures e /\ forall dr tan, dr = Ok (fz 30) ->
  let p := run e 100 dr tan [ODesign None [(RayColors, purple)]; ODesign (Some "default") []] in
  colours (display e 100 dr tan p plain) RayColors = Some purple.
Proof.
  exists two_apertures. split; [exact two_apertures_built|]. intros dr tan ->. cbv zeta.
  vm_compute. reflexivity.
Qed.

(** the object of the first figure stays in the list of the caller *)
Lemma list_keeps_object : exists e, is_two_apertures e /\ forall dr tan, dr = Ok (fz 30) ->
  let p := run e 100 dr tan [OHeight (fz 4)] in
  let after := snd (fst (display e 100 dr tan p (with_list [Other 0]))) in
  after = [Other 0; Obj (fz 4)] /\
  let p2 := run e 100 dr tan [OHeight (fz 4); ODisplay (with_list [Other 0]); OHeight (fz 8)] in
  p_height p2 = fz 8 /\ shows (display e 100 dr tan p2 (with_list after)) = Some [Other 0; Obj (fz 4)].
Proof.
  exists two_apertures. split; [exact two_apertures_built|]. intros dr tan ->. cbv zeta.
  split; [vm_compute; reflexivity|]. split; vm_compute; reflexivity.
Qed.

(** a path without length cannot be displayed *)
Lemma lens_alone : exists (e : @elem float) s, Lens (fz 10) (fz 25) = Ok s /\ built [s] e /\
  forall tan, fst (fst (fst (display e 100 (Ok (fz 25)) tan ImagingPath_new plain))) = Some ZeroDivisionError.
Proof.
  eexists (fpath [the (Lens (fz 10) (fz 25))]), (the (Lens (fz 10) (fz 25))). split; [vm_compute; reflexivity|]. split; [is_built|].
  intros tan. vm_compute. reflexivity.
Qed.
