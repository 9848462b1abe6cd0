(** Texts that say something else than the object, on doubles. *)
From Coq Require Import ZArith List Bool String Ascii Floats.
From Verif Require Import Base Nums Optics Group Beam Format Printing GroupRefutations BeamRefutations.
Import ListNotations.
Set Warnings "-inexact-float".
Open Scope string_scope.

(** GaussianBeam(w=0.1), of 632.8e-6 mm = 632.8 nm: the text says 632800.0 nm *)
Theorem wavelength_thousandfold : exists b, GaussianBeam None (Some 0.1%float) ninf 1%float wl_default 0%float = Ok b /\
  bwl b = 632.8e-6%float /\
  forall cfmt3 cfmt, exists post,
    beam_str cfmt3 cfmt b = Ok ("Complex radius: " ++ cfmt3 (bq b) ++ newline ++
      "w(z): 0.100, R(z): inf, z: 0.000, λ: 632800.0 nm" ++ post).
Proof.
  eexists. split; [vm_compute; reflexivity|]. split; [vm_compute; reflexivity|].
  intros cfmt3 cfmt. eexists. vm_compute. reflexivity.
Qed.
(** Lens(f=200000): the text gives a focal length, effectiveFocalLengths() has none *)
Theorem weak_lens_both : exists e pre, Lens 200000%float ninf = Ok e /\
  matrix_str (emat e) = Ok (pre ++ "f=200000.000") /\ effectiveFocalLengths (emat e) = Ok (infinity, infinity).
Proof.
  eexists. exists (substring 0 60 match matrix_str (emat (the (Lens 200000%float ninf))) with Ok s => s | Err _ => "" end).
  split; [vm_compute; reflexivity|]. split; vm_compute; reflexivity.
Qed.
(** System4f(f1=3, f2=7), which is afocal: the text gives a focal length *)
Theorem afocal_with_f : exists e pre, System4f 3%float 7%float ninf ninf = Ok e /\ hasPower (emat e) = false /\
  matrix_str (emat e) = Ok (pre ++ "f=18014398509481984.000").
Proof.
  eexists. exists (substring 0 60 match matrix_str (emat (the (System4f 3%float 7%float ninf ninf))) with Ok s => s | Err _ => "" end).
  split; [vm_compute; reflexivity|]. split; vm_compute; reflexivity.
Qed.
