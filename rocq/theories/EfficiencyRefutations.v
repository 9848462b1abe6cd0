(** Bit-exact runs in which reportEfficiency, NA or hasApertureStop mislead. *)
From Coq Require Import ZArith List Bool String Floats.
From Verif Require Import Base Nums Optics Group Spec GroupProofs TraceProofs Imaging FieldMore
  GroupRefutations ImagingRefutations RaysModel RaysMore Efficiency.
Import ListNotations.
Set Warnings "-inexact-float".

(** the stream of random numbers that starts with [l] *)
Definition stream (l : list float) (k : nat) : float := nth k l 0%float.
Definition two_apertures : @elem float :=
  fpath [fspace 10; fap (fz 10); fspace 10; fap (fz 30)].
Definition is_two_apertures (e : @elem float) : Prop :=
  exists s a1 a2, Space (fz 10) c1 ninf = Ok s /\ Aperture (fz 10) ninf = Ok a1 /\
    Aperture (fz 30) ninf = Ok a2 /\ built [s; a1; s; a2] e.
Lemma two_apertures_built : is_two_apertures two_apertures.
Proof.
  exists (fspace 10), (fap (fz 10)), (fap (fz 30)).
  split; [vm_compute; reflexivity|]. split; [vm_compute; reflexivity|]. split; [vm_compute; reflexivity|].
  is_built.
Qed.

Definition all_pass (e : @elem float) (l : list (res (@ray float))) : bool :=
  forallb (fun x => match x with Ok r => negb (rblk (traceThrough e r)) | Err _ => false end) l.

(** C86: both rays of an object of diameter 40 get through, the report says 50 percent *)
Lemma outside_counted_blocked : exists e, is_two_apertures e /\
  let g := stream [0.5; 0.5; 0.175; 0.9]%float in
  all_pass e (sourceRays g (fz 20) (fz 2) 2) = true /\
  forall sin hp, exists r, reportEfficiency sin hp 100 g e (Some (fz 40)) (Some (fz 2)) 2 = Ok (Some r) /\
    rp_efficiency r = fz 50 /\ List.length (t_expected (rp_tally r)) = 1.
Proof.
  exists two_apertures. split; [exact two_apertures_built|]. cbv zeta.
  split; [vm_compute; reflexivity|]. intros sin hp. eexists. split; [vm_compute; reflexivity|].
  split; vm_compute; reflexivity.
Qed.

(** C86: when no ray gets through there is no report *)
Lemma report_without_light : exists e, is_two_apertures e /\ forall sin hp,
  reportEfficiency sin hp 100 (stream [0; 0.5]%float) e None (Some (fz 2)) 1 = Err ZeroDivisionError /\
  reportEfficiency sin hp 100 (stream [0.05; 0.95]%float) e None (Some (fz 2)) 1 = Err ValueError.
Proof.
  exists two_apertures. split; [exact two_apertures_built|]. intros sin hp.
  split; vm_compute; reflexivity.
Qed.

(** C86: half of the rays are vignetted, and "No losses to vignetting" *)
Lemma one_vignetted : exists e, is_two_apertures e /\ forall sin hp, exists r,
  reportEfficiency sin hp 100 (stream [0.5; 0.5; 0.05; 0.95]%float) e None (Some (fz 2)) 2 = Ok (Some r) /\
  rp_relative r = fz 50 /\ rp_loss r = None /\ t_places (rp_tally r) = [fz 20].
Proof.
  exists two_apertures. split; [exact two_apertures_built|]. intros sin hp. eexists.
  split; [vm_compute; reflexivity|]. repeat split; vm_compute; reflexivity.
Qed.

(** C87: NA raises where fNumber returns None *)
Lemma NA_without_aperture : exists (e : @elem float) s, Space (fz 10) c1 ninf = Ok s /\ built [s] e /\
  fNumber e = Ok None /\ forall sin, NA sin e = Err AttributeError.
Proof.
  exists (fpath [fspace 10]), (fspace 10). split; [vm_compute; reflexivity|]. split; [is_built|].
  split; [vm_compute; reflexivity|]. intros sin. vm_compute. reflexivity.
Qed.

(** C87: an aperture in the object plane limits no ray from the axis, yet there is an aperture stop *)
Lemma stop_in_object_plane : exists (e : @elem float) a s,
  Aperture (fz 10) ninf = Ok a /\ Space (fz 10) c1 ninf = Ok s /\ built [a; s] e /\
  hasApertureStop e = Ok true /\ apertureStop e = Ok (mkStop (Some c0) (Some ninf)) /\
  rblk (traceThrough e (Ray_new c0 (fz 1000000))) = false /\
  forall sin, NA sin e = Err AttributeError.
Proof.
  exists (fpath [fap (fz 10); fspace 10]), (fap (fz 10)), (fspace 10).
  split; [vm_compute; reflexivity|]. split; [vm_compute; reflexivity|]. split; [is_built|].
  split; [vm_compute; reflexivity|]. split; [vm_compute; reflexivity|]. split; [vm_compute; reflexivity|].
  intros sin. vm_compute. reflexivity.
Qed.
