(** Assertions of the unit tests in /repo/raytracing/tests about numbers, replayed on the model with doubles.  These are
    tests of the model against the code's own tests, not proofs about it.  Each example names the test. *)
From Coq Require Import ZArith List Bool String Floats.
From Verif Require Import Base Nums Optics Group GroupRefutations Imaging Efficiency Beam Materials Zemax ZemaxRefutations Catalogue Format Printing Documented.
Import ListNotations.
Set Warnings "-inexact-float".
Open Scope string_scope.
Open Scope list_scope.

(** assertAlmostEqual(x, y, k): round(x - y, k) == 0 *)
Definition near (k : Z) (x y : float) : bool := nltb (nabs (nsub x y)) (ndiv (ndec 5 1) (nofZ (10 ^ k))).
Definition nearR (k : Z) (x : res float) (y : float) : bool := match x with Ok v => near k v y | Err _ => false end.
Definition sys2f (f d : float) := the (System2f f d).
Definition sys4f (f1 f2 d1 d2 : float) := the (System4f f1 f2 d1 d2).
(** ImagingPath(group): the elements of the group *)
Definition of_group (e : @elem float) := match e with Group _ _ es => path es | e => path [e] end.
Definition ap (d : Z) := the (Aperture (fz d) ninf).
Definition inf : float := ninf.
Definition fuel : nat := 300.

(** ** testsImagingPath.py *)
Example testApertureStopInfiniteAperture : let p := path [fspace 10; the (DielectricSlab 1.45%float (fz 125) inf); the (CurvedMirror (fz 10) inf)] in
  apertureStop p = Ok (mkStop None (Some inf)) /\ hasApertureStop p = Ok false.
Proof. vm_compute. repeat split. Qed.
Example testApertureStop : let p := path [fspace 10; dlens 10 1000; fspace 30; dlens 20 700; fspace 20] in
  apertureStop p = Ok (mkStop (Some (fz 40)) (Some (fz 700))) /\ hasApertureStop p = Ok true.
Proof. vm_compute. repeat split. Qed.
Example testEntrancePupilInfiniteApertureDiam : let p := path [fspace 2; the (ThickLens c1 (fz 10) (fz (-9)) (fz 2) inf); fspace 10; flens 4] in
  entrancePupil p = Ok (mkStop None None) /\ hasApertureStop p = Ok false.
Proof. vm_compute. repeat split. Qed.
Example testEntrancePupilAIs0 : entrancePupil (path [fspace 2; dlens 10 110; the (Space (fz 10) c1 (fz 50))]) = Ok (mkStop (Some (nopp inf)) (Some inf)).
Proof. vm_compute. reflexivity. Qed.
Example testEntrancePupil : entrancePupil (path [fspace 2; dlens 10 110; fspace 10; the (ThickLens (fz 4) (fz 12) (fz (-4)) (fz 2) (fz 600))]) =
  Ok (mkStop (Some (fz 2)) (Some (fz 110))).
Proof. vm_compute. reflexivity. Qed.
Example testFieldStopInfiniteDiameter : let p := path [fspace 10; flens 10; fspace 20; flens 10; fspace 10] in
  fieldStop fuel p = Ok (mkStop None (Some inf)) /\ hasFieldStop fuel p = Ok false /\ hasApertureStop p = Ok false.
Proof. vm_compute. repeat split. Qed.
Example testFieldStopInfiniteDiameterWithOneFiniteDiameter : let p := path [dlens 10 450; fspace 20; flens 10; fspace 10] in
  fieldStop fuel p = Ok (mkStop None (Some inf)) /\ hasFieldStop fuel p = Ok false /\ hasApertureStop p = Ok true.
Proof. vm_compute. repeat split. Qed.
Example testFieldStop_1 : let p := path [fspace 10; dlens 10 100; fspace 20; dlens 10 50; fspace 10] in
  fieldStop fuel p = Ok (mkStop (Some (fz 10)) (Some (fz 100))) /\ hasFieldStop fuel p = Ok true.
Proof. vm_compute. repeat split. Qed.
Example testFieldStop_2 : let p := path [fspace 10; dlens 10 25; fspace 20; dlens 10 50; fspace 10] in
  fieldStop fuel p = Ok (mkStop (Some (fz 30)) (Some (fz 50))) /\ hasFieldStop fuel p = Ok true.
Proof. vm_compute. repeat split. Qed.
Example testEntrancePupilNoBackwardConjugate : fieldOfView fuel (path [sys2f (fz 10) inf]) = Ok inf.
Proof. vm_compute. reflexivity. Qed.
Example testImagingPathInfiniteFieldOfView2 : fieldOfView fuel (path [sys2f (fz 10) (fz 10)]) = Ok inf.
Proof. vm_compute. reflexivity. Qed.
Example testImagingPathInfiniteFieldOfView3 : fieldOfView fuel (path [sys2f (fz 10) (fz 20000); ap 23000]) = Ok inf.
Proof. vm_compute. reflexivity. Qed.
Definition finite_field := path [sys2f (fz 10) (fz 10); ap 20].
Example testImagingPathFiniteFieldOfView : nearR 2 (fieldOfView fuel finite_field) (fz 20) = true.
Proof. vm_compute. reflexivity. Qed.
Example testImageSizeDIs0 : imageSize fuel (path [fspace 10; dlens 10 10; fspace 10; ap 20]) false (fz 10) = Ok inf.
Proof. vm_compute. reflexivity. Qed.
Example testImageSizeInfinite : imageSize fuel (of_group (sys4f (fz 10) (fz 2) (fz 10) inf)) false (fz 10) = Ok inf.
Proof. vm_compute. reflexivity. Qed.
Example testFiniteImageSizeWithObject : let p := path [fspace 200; flens 50] in
  match imageSize fuel p true (fz 10) with Ok x => nltb x inf | Err _ => false end = true /\ imageSize fuel p false (fz 10) = Ok inf.
Proof. vm_compute. repeat split. Qed.
Example testImageSize : nearR 2 (imageSize fuel (of_group (sys4f (fz 10) (fz 20) (fz 10) (fz 20))) false (fz 10)) (nmul (frac 20 3) c2) = true.
Proof. vm_compute. reflexivity. Qed.
Example testChiefRayNoApertureStop : chiefRayDefault fuel (of_group (sys2f (fz 10) inf)) = Ok None.
Proof. vm_compute. reflexivity. Qed.
Example testChiefRayBIs0 : chiefRayDefault fuel (path [fspace 10; flens 10; fspace 20; flens 10; fspace 10; ap 10]) = Ok None.
Proof. vm_compute. reflexivity. Qed.
Example testChiefRayYIsNone : match chiefRayDefault fuel finite_field with Ok (Some r) => near 2 (ry r) (fz 10) && near 3 (rth r) (fz (-1)) | _ => false end = true.
Proof. vm_compute. reflexivity. Qed.
Example testPrincipalRayIsNone : principalRay fuel (path [sys2f (fz 10) inf; ap 20]) = Ok None.
Proof. vm_compute. reflexivity. Qed.
Example testPrincipalRayIsNotNone : match principalRay fuel finite_field with Ok (Some r) => near 2 (ry r) (fz 10) && near 3 (rth r) (fz (-1)) | _ => false end = true.
Proof. vm_compute. reflexivity. Qed.
Example testMarginalRaysNoApertureStop : marginalRays (of_group (sys4f (fz 10) (fz 10) inf inf)) c0 = Ok None.
Proof. vm_compute. reflexivity. Qed.
Example testMarginalRaysIsImaging : marginalRays (path [sys4f (fz 10) (fz 10) inf inf; ap 10]) c0 = Ok None.
Proof. vm_compute. reflexivity. Qed.
Example testMarginalRays : match marginalRays (of_group (sys2f (fz 10) (fz 10))) (fz 10) with
  | Ok (Some (a, b)) => [ry a; rth a; ry b; rth b] | _ => [] end = [fz 10; (-0.5)%float; fz 10; (-1.5)%float].
Proof. vm_compute. reflexivity. Qed.
Example testMarginalRaysThetaUpAndDownFlipped :
  match marginalRays (path [sys2f (fz 5) inf; the (ThickLens 1.1%float 0.1%float (-0.1)%float (fz 10) inf); ap 5]) (fz 10) with
  | Ok (Some (a, b)) => neqb (ry a) (fz 10) && neqb (ry b) (fz 10) && near 5 (rth a) (-0.38764)%float && near 4 (rth b) (-0.5112)%float | _ => false end = true.
Proof. vm_compute. reflexivity. Qed.
Example testAxialRay : match axialRay (of_group (sys2f (fz 10) (fz 100))) with Ok (Some r) => (ry r, rth r) | _ => (c1, c1) end = (c0, fz 5).
Proof. vm_compute. reflexivity. Qed.
Example testfNumber : match fNumber (of_group (sys2f (fz 10) (fz 10))), fNumber (of_group (sys2f (fz 10) (fz 2))) with
  | Ok (Some a), Ok (Some b) => near 4 a c1 && near 4 b (fz 5) | _, _ => false end = true.
Proof. vm_compute. reflexivity. Qed.
Example testLagrangeImagingPathNoApertureIsInfinite : lagrangeInvariant fuel (path [fspace 50; flens 50; fspace 50]) = Ok inf.
Proof. vm_compute. reflexivity. Qed.
Example testLagrangeImagingPathNoFieldStopIsInfinite : lagrangeInvariant fuel (path [fspace 50; dlens 50 50; fspace 50]) = Ok inf.
Proof. vm_compute. reflexivity. Qed.
Definition lagrange_path := path [fspace 50; dlens 50 50; the (Space (fz 50) c1 (fz 40))].
Example testLagrangeImagingPath : match principalRay fuel lagrange_path, axialRay lagrange_path with
  | Ok (Some p), Ok (Some a) => match opticalInvariant lagrange_path a p c0, opticalInvariant lagrange_path a p (fz 150) with
                                | Ok x, Ok y => near 7 x y | _, _ => false end
  | _, _ => false end = true.
Proof. vm_compute. reflexivity. Qed.
Example testLagrangeInvariantBothNotNone : match opticalInvariant lagrange_path (Ray_new c0 c0) (Ray_new c0 0.1%float) (fz 10),
    opticalInvariant lagrange_path (Ray_new c0 c0) (Ray_new c0 0.1%float) (fz 70) with Ok x, Ok y => near 7 x y | _, _ => false end = true.
Proof. vm_compute. reflexivity. Qed.
Example testChiefRayInfiniteFOVNoY : chiefRayDefault fuel (of_group (sys2f (fz 10) (fz 10))) = Err ValueError.
Proof. vm_compute. reflexivity. Qed.

(** ** testsGaussian.py *)
Definition hene : float := 632.8e-6%float.
Definition bm (w R n wl : float) := GaussianBeam None (Some w) R n wl c0.
Example testBeam : (b <- bm c1 inf c1 hene;; w <- bw b;; r <- bR b;; Ok (w, r, bwl b)) = Ok (c1, inf, 0.0006328%float).
Proof. vm_compute. reflexivity. Qed.
Example testBeamWAndQGiven : match GaussianBeam (Some (mkC c0 4.96459e3%float)) (Some c1) inf c1 hene c0 with Ok _ => true | Err _ => false end = true.
Proof. vm_compute. reflexivity. Qed.
Example testBeamWAndQGivenMismatch : GaussianBeam (Some (mkC c0 (nadd 4.96459e3%float (nmul 4.96459e3%float 0.007%float)))) (Some c1) inf c1 hene c0 = Err ValueError.
Proof. vm_compute. reflexivity. Qed.
Example testIsInFinite : (b <- bm inf (fz 2) c1 hene;; isFinite b) = Ok false /\ (b <- bm 0.1%float (fz 20) c1 hene;; isFinite b) = Ok true.
Proof. vm_compute. repeat split. Qed.
Example testFiniteW : nearR 7 (b <- bm 0.1%float inf c1 hene;; bw b) 0.1%float = true.
Proof. vm_compute. reflexivity. Qed.
Example testInfiniteW : (b <- bm inf (fz 10) c1 hene;; bw b) = Ok inf.
Proof. vm_compute. reflexivity. Qed.
Example testNull : (b <- GaussianBeam (Some (mkC c0 c0)) None inf c1 hene c0;; f <- isFinite b;; w <- bw b;; r <- bR b;; Ok (f, w, r)) = Ok (false, inf, inf).
Proof. vm_compute. reflexivity. Qed.
Example testZ0is0 : (b <- bm inf c1 c1 hene;; Ok (neqb (bzo b) c0)) = Ok true.
Proof. vm_compute. reflexivity. Qed.
Example testZ0isNot0 : let a := ndiv hene npi in nearR 7 (b <- bm c1 c1 c1 hene;; Ok (bzo b)) (ndiv a (nadd c1 (nmul a a))) = true.
Proof. vm_compute. reflexivity. Qed.
Example testWo : (b <- bm c1 inf c1 hene;; w <- bw b;; o <- bwo b;; Ok (match o with Some x => near 3 w x | None => false end)) = Ok true.
Proof. vm_compute. reflexivity. Qed.
Example testWoIsNone : (b <- bm inf c1 c1 hene;; bwo b) = Ok None.
Proof. vm_compute. reflexivity. Qed.
Example testInvalidParameters : @GaussianBeam float _ None None inf c1 hene c0 = Err ValueError /\ match bm c1 c0 c1 hene with Err _ => true | Ok _ => false end = true.
Proof. vm_compute. repeat split. Qed.
Example testMultiplicationBeam : (b <- bm 0.01%float c1 1.5%float 0.400e-3%float;; s <- Space c0 1.5%float inf;; b' <- mul_beam (emat s) b;;
  w <- bw b;; w' <- bw b';; r <- bR b;; r' <- bR b';; Ok (ceqb (bq b) (bq b') && neqb w w' && neqb r r' && neqb (bn b) (bn b') && neqb (bwl b) (bwl b'))) = Ok true.
Proof. vm_compute. reflexivity. Qed.
Example testDielectricInterfaceBeam : (b <- bm (fz 10) inf 1.5%float 0.400e-3%float;; i <- DielectricInterface 1.5%float c1 (fz (-20)) inf;; b' <- mul_beam (emat i) b;;
  w <- bw b;; w' <- bw b';; Ok (neqb w w', bn b', neqb (bwl b) (bwl b'))) = Ok (true, c1, true).
Proof. vm_compute. reflexivity. Qed.
Example testPointBeam : (b <- bm 0.0000001%float inf c1 hene;; s <- Space (fz 100) c1 inf;; b' <- mul_beam (emat s) b;; r <- bR b';;
  Ok (r, neqb (bzo b) (bzo b'))) = Ok (fz 100, true).
Proof. vm_compute. reflexivity. Qed.
Example testFocalSpot : (b <- bm 0.1%float inf c1 hene;; s <- Space (fz 100) c1 inf;; b' <- mul_beam (emat s) b;; Ok (waistPosition b')) = Ok (fz (-100)).
Proof. vm_compute. reflexivity. Qed.

(** ** testsLaserPath.py *)
Definition modes (l : list (@elem float)) := laserModes (emat (path l)).
Example testEigenModesNoPower : eigenModes (emat (path [fspace 10])) = Ok None /\ modes [fspace 10] = Ok [].
Proof. vm_compute. repeat split. Qed.
Example testEigenModes : match eigenModes (emat (path [fspace 10; flens 10])) with
  | Ok (Some (a, b)) => neqb (re (bq a)) (fz (-5)) && neqb (re (bq b)) (fz (-5)) && near 7 (im (bq a)) (nmul (fz (-5)) (nsqrt (fz 3))) && near 7 (im (bq b)) (nmul (fz 5) (nsqrt (fz 3)))
  | _ => false end = true.
Proof. vm_compute. reflexivity. Qed.
Example testEigenModesQIs0 : match eigenModes (emat (path [flens 10])) with
  | Ok (Some (a, b)) => ceqb (bq a) (bq b) && ceqb (bq a) (cof c0) | _ => false end = true.
Proof. vm_compute. reflexivity. Qed.
Example testLaserModesOneModeQ1isNone : match modes [fspace 10; flens 10] with Ok [b] => neqb (re (bq b)) (fz (-5)) && near 7 (im (bq b)) (nmul (fz 5) (nsqrt (fz 3))) | _ => false end = true.
Proof. vm_compute. reflexivity. Qed.
Example testLaserModesOneModeQ2isNone : match modes [the (Space c1 1.33%float inf); the (DielectricInterface 1.33%float c1 c1 inf); the (ThickLens 1.33%float (fz (-10)) (fz (-5)) (fz (-20)) inf)] with
  | Ok [b] => near 7 (re (bq b)) (-5.90770102)%float && near 7 (im (bq b)) 1.52036515%float | _ => false end = true.
Proof. vm_compute. reflexivity. Qed.
Example testLaserModesNoModeInfineElements : modes [fspace 10; the (CurvedMirror (fz 5) inf)] = Ok [] /\ modes [] = Ok [] /\ modes [fspace 10; flens 5; fspace 10] = Ok [].
Proof. vm_compute. repeat split. Qed.
Example testLaserStableCavity : match modes [fspace 10; flens 20; fspace 10] with Ok [_] => true | _ => false end = true.
Proof. vm_compute. reflexivity. Qed.

(** ** testsComponents.py *)
Definition abcd (e : @elem float) := let m := emat e in [mA m; mB m; mC m; mD m; mL m].
Example test4fSystem : map (fun p => neqb (fst p) (snd p)) (combine (abcd (sys4f (fz 10) (fz 5) inf inf)) [(-0.5)%float; c0; c0; fz (-2); fz 30]) = repeat true 5 /\
  isImaging (emat (sys4f (fz 10) (fz 5) inf inf)) = true.
Proof. vm_compute. repeat split. Qed.
Example test2fSystem : map (fun p => neqb (fst p) (snd p)) (combine (abcd (sys2f (fz 10) inf)) [c0; fz 10; frac (-1) 10; c0; fz 20]) = repeat true 5 /\
  isImaging (emat (sys2f (fz 10) inf)) = false.
Proof. vm_compute. repeat split. Qed.
Definition parts (e : @elem float) := match e with Group _ _ es => es | e => [e] end.
Definition same (l l' : list float) : bool := (Nat.eqb (List.length l) (List.length l') && forallb (fun p => neqb (fst p) (snd p)) (combine l l'))%bool.
Example test4fIsTwo2f : same (abcd (sys4f (fz 10) (fz 12) inf inf)) (abcd (path (parts (sys2f (fz 10) inf) ++ parts (sys2f (fz 12) inf)))) = true.
Proof. vm_compute. reflexivity. Qed.

(** ** testsMatrix.py *)
Definition m0 := Matrix_default.
Definition M (a b c d : float) := mx a b c d c0 None None.
Definition MI (a b c d n1 n2 : float) := match Matrix_init a b c d c0 None None n1 n2 inf inf "" with Ok m => m | Err _ => M c0 c0 c0 c0 end.
Definition with_ap (l diam na : float) := match Matrix_init c1 c0 c0 c1 l None None c1 c1 diam na "" with Ok m => m | Err _ => M c0 c0 c0 c0 end.
Definition hits (m : @mat float) (y th : float) := rblk (mul_ray_v KMatrix m (Ray_new y th)).
Example testNullApertureDiameter : (exists e, Matrix_init c1 c0 c0 c1 c0 None None c1 c1 c0 inf "" = Err e) /\ (exists e, Matrix_init c1 c0 c0 c1 c0 None None c1 c1 (-0.1)%float inf "" = Err e) /\
  (exists e, Matrix_init c1 c0 c0 c1 c0 None None c1 c1 inf c0 "" = Err e).
Proof. vm_compute. repeat split; exists ValueError; reflexivity. Qed.
Example testApertureNA : hits (with_ap c0 inf 0.25%float) c0 0.5%float = true /\ hits (with_ap c0 inf 0.5%float) c0 0.25%float = false /\
  hits (with_ap c0 inf 0.5%float) c0 0.5%float = false /\ hits (with_ap c0 c1 0.5%float) c0 0.6%float = true /\ hits (with_ap c0 0.5%float 0.5%float) c1 c0 = true /\
  hits (with_ap c0 0.5%float 0.5%float) c1 0.6%float = true /\ hits (with_ap c0 c1 0.5%float) 0.5%float 0.5%float = false /\
  hits (with_ap c0 (fz 10) inf) (fz 6) 0.1%float = true /\ hits (with_ap c0 (fz 10) inf) (fz (-6)) 0.1%float = true /\ hits (with_ap c0 (fz 10) inf) (fz (-1)) 0.1%float = false.
Proof. vm_compute. repeat split. Qed.
Example testMatrixProductMath : (m <- mul_matrix (M c1 c1 (fz 3) (fz 4)) (M (fz 4) (fz 3) c1 c1);; Ok (map (fun f => f m) [mA; mB; mC; mD])) = Ok (map fz [5; 4; 16; 13]%Z).
Proof. vm_compute. reflexivity. Qed.
Definition idx (m : res (@mat float)) := match m with Ok m => Some (mfi m, mbi m) | Err _ => None end.
Example testMatrixProductIndices : idx (mul_matrix (M c1 c0 c0 c1) (MI c1 (fz 10) c0 c1 1.5%float 1.5%float)) = Some (1.5%float, 1.5%float) /\
  idx (mul_matrix (MI c1 (fz 10) c0 c1 1.5%float 1.5%float) (M c1 c0 c0 c1)) = Some (1.5%float, 1.5%float) /\
  idx (mul_matrix (MI 1.33%float (fz 10) c0 c1 1.33%float c1) (MI c1 (fz 10) c0 0.7518796992%float c1 1.33%float)) = Some (c1, c1).
Proof. vm_compute. repeat split. Qed.
Example testMatrixProductWithRayMath : let r := mul_ray_v KMatrix (M c1 c1 (fz 3) (fz 4)) (Ray_new c1 0.1%float) in (ry r, rth r) = (1.1%float, 3.4%float).
Proof. vm_compute. reflexivity. Qed.
Definition vertices (a b : @mat float) := match mul_matrix a b with Ok m => Some (mfv m, mbv m, mL m) | Err _ => None end.
Definition V (l : Z) (f b : option Z) : @mat float := mx c1 c0 c0 c1 (fz l) (option_map fz f) (option_map fz b).
Example testMatrixProductVertices : vertices (V 0 None None) (V 0 None None) = Some (None, None, c0) /\
  vertices (V 0 None None) (V 10 (Some 0%Z) (Some 10%Z)) = Some (Some c0, Some (fz 10), fz 10) /\
  vertices (V 10 (Some 0%Z) (Some 10%Z)) (V 0 None None) = Some (Some c0, Some (fz 10), fz 10) /\
  vertices (V 10 (Some 0%Z) (Some 10%Z)) (V 5 (Some 0%Z) (Some 5%Z)) = Some (Some c0, Some (fz 15), fz 15) /\
  vertices (V 10 (Some 2%Z) (Some 9%Z)) (V 5 (Some 1%Z) (Some 4%Z)) = Some (Some c1, Some (fz 14), fz 15) /\
  vertices (V 5 (Some 1%Z) (Some 4%Z)) (V 10 (Some 2%Z) (Some 9%Z)) = Some (Some (fz 2), Some (fz 14), fz 15).
Proof. vm_compute. repeat split. Qed.
Example testEffectiveFocalLengths : effectiveFocalLengths (M c1 c0 (fz 3) c1) = Ok (frac (-1) 3, frac (-1) 3) /\ effectiveFocalLengths (M c1 c0 c0 c1) = Ok (inf, inf) /\
  backFocalLength (M c1 c0 c0 c1) = Ok None /\ frontFocalLength (M c1 c0 c0 c1) = Ok None.
Proof. vm_compute. repeat split. Qed.
Example testPrincipalPlanePositions : principalPlanePositions (mx c1 c0 c1 c1 c1 None None) c0 = Ok (Some (c0, c1)) /\ principalPlanePositions (M c1 c0 c0 c1) c0 = Ok None.
Proof. vm_compute. repeat split. Qed.
Example testFocusPositions : focusPositions (mx (frac 1 3) c0 (fz 10) (fz 3) c1 None None) c0 = Ok (Some (nsub 0.2%float (-0.1)%float, nadd (frac 16 15) (-0.1)%float)).
Proof. vm_compute. reflexivity. Qed.
Example testDielectricInterfaceEffectiveFocalLengths : effectiveFocalLengths (emat (the (DielectricInterface c1 1.5%float (fz 10) inf))) = Ok (fz 20, fz 30).
Proof. vm_compute. reflexivity. Qed.
Definition conj (m : res (@mat float)) := (m <- m;; p <- forwardConjugate m;; Ok (fst p, match snd p with Some t => isImaging t | None => false end)).
Example testForwardConjugate : conj (mul_matrix (emat (flens 5)) (emat (fspace 10))) = Ok (fz 10, true) /\
  conj (t <- mul_matrix (M c1 (fz 5) c0 c1) (M c1 c0 (frac (-1) 5) c1);; mul_matrix t (M c1 (fz 10) c0 c1)) = Ok (fz 5, true) /\
  conj (mul_matrix (M c1 c0 (frac (-1) 5) c1) (M c1 (fz 5) c0 c1)) = Ok (inf, false).
Proof. vm_compute. repeat split. Qed.
Definition back (m : res (@mat float)) := (m <- m;; p <- backwardConjugate m;; Ok (fst p)).
Example testBackwardConjugate : back (Ok (M c0 c1 (fz (-1)) c0)) = Ok inf /\ back (mul_matrix (M c1 (fz 10) c0 c1) (M c1 c0 (frac (-1) 5) c1)) = Ok (fz 10) /\
  back (t <- mul_matrix (M c1 (fz 10) c0 c1) (M c1 c0 (frac (-1) 5) c1);; mul_matrix t (M c1 (fz 5) c0 c1)) = Ok (fz 5).
Proof. vm_compute. repeat split. Qed.
Example testMagnification : magnification (M c1 c0 c0 c1) = Some (c1, c1) /\ magnification (M c1 c1 c0 c1) = None.
Proof. vm_compute. repeat split. Qed.
Example testDisplayHalfHeight : displayHalfHeight (Leaf KMatrix (with_ap c0 (fz 10) inf)) = fz 5 /\ displayHalfHeight (Leaf KMatrix (with_ap c0 inf inf)) = fz 4.
Proof. vm_compute. repeat split. Qed.
Example testStrRepresentation : matrix_str (M c1 c0 c1 c1) = Ok (text ["|  1.000    0.000 |"; "|                 |"; "|  1.000    1.000 |"; "f=-1.000"]).
Proof. vm_compute. reflexivity. Qed.

(** ** testsMatrixSubclasses.py *)
Definition focal (e : @elem float) := (effectiveFocalLengths (emat e), backFocalLength (emat e), frontFocalLength (emat e)).
Example testLensFocalLengths : focal (flens 5) = (Ok (fz 5, fz 5), Ok (Some (fz 5)), Ok (Some (fz 5))).
Proof. vm_compute. reflexivity. Qed.
Example testCurvedMirror : same (abcd (the (CurvedMirror inf inf))) (map fz [1; 0; 0; 1; 0]%Z) = true /\ same (abcd (the (CurvedMirror 0.2%float inf))) (map fz [1; 0; 10; 1; 0]%Z) = true /\
  same (abcd (the (CurvedMirror (-0.2)%float (fz 9)))) (map fz [1; 0; -10; 1; 0]%Z) = true.
Proof. vm_compute. repeat split. Qed.
Example testSpaceMatrix : same (abcd (fspace (-10))) (map fz [1; -10; 0; 1; -10]%Z) = true /\
  match mul_matrix (emat (fspace 10)) (emat (fspace 5)) with Ok m => (mB m, mL m, mfv m, mbv m) | Err _ => (c0, c0, None, None) end = (fz 15, fz 15, None, None) /\
  match transferMatrix (the (Space inf c1 inf)) (fz 2) with Ok e => same (abcd e) (map fz [1; 2; 0; 1; 2]%Z) | Err _ => false end = true.
Proof. vm_compute. repeat split. Qed.
Definition n133 := 1.33%float.
Example testDielectricInterface : let di := the (DielectricInterface c1 n133 (fz 2) (fz 2)) in
  same (abcd di) [c1; c0; ndiv (nopp (nsub n133 c1)) (nmul (fz 2) n133); ndiv c1 n133; c0] = true /\
  match flip di with Ok e => same [mC (emat e); mD (emat e)] [ndiv (nopp (nsub c1 n133)) (nmul (fz (-2)) c1); n133] | Err _ => false end = true.
Proof. vm_compute. repeat split. Qed.
Example testThickLens : let tl := the (ThickLens n133 (fz 5) (fz 10) (fz 2) (fz 10)) in
  same (abcd tl) [nadd (ndiv (nmul (fz 2) (nsub c1 n133)) (nmul n133 (fz 5))) c1; ndiv (fz 2) n133;
    nmul (nopp (nsub n133 c1)) (nadd (nsub (frac 1 5) (frac 1 10)) (ndiv (nmul (fz 2) (nsub n133 c1)) (nmul (nmul n133 (fz 5)) (fz 10))));
    nadd (ndiv (nmul (fz 2) (nsub n133 c1)) (nmul n133 (fz 10))) c1; fz 2] = true /\ mbv (emat tl) = Some (fz 2).
Proof. vm_compute. repeat split. Qed.
Definition lensf (n a b t : float) := the (ThickLens n a b t inf).
Definition n155 := 1.55%float.
Example testThickConvergingLensFlip : let m1 := lensf n155 (fz 200) (fz (-100)) (fz 3) in
  match flip (lensf n155 (fz 100) (fz (-200)) (fz 3)) with Ok m2 => forallb (fun p => near 4 (fst p) (snd p)) (combine (abcd m1) (abcd m2)) | Err _ => false end = true /\
  near 4 (determinant (emat m1)) c1 = true.
Proof. vm_compute. repeat split. Qed.
Example testTransferMatrixPartialThickLens : match transferMatrix (the (ThickLens n133 (fz (-100)) (fz 100) (fz 4) (fz 120))) (fz 2),
    mul_matrix (emat (the (Space (fz 2) n133 inf))) (emat (the (DielectricInterface c1 n133 (fz (-100)) (fz 120)))) with
  | Ok e, Ok m => (same (abcd e) (abcd (Leaf KMatrix m)) && neqb (mfi (emat e)) (mfi m) && neqb (mbi (emat e)) (mbi m) && neqb (mdiam (emat e)) (mdiam m))%bool | _, _ => false end = true.
Proof. vm_compute. reflexivity. Qed.
Example testDielectricSlab : same (abcd (the (DielectricSlab n133 (fz 2) inf))) [c1; ndiv (fz 2) n133; c0; c1; fz 2] = true.
Proof. vm_compute. reflexivity. Qed.
Definition distance (e : res (@elem float)) := match e with Ok e => Some (mB (emat e)) | Err _ => None end.
Example testToConjugateToFocus : distance (ToConjugate (emat (path [fspace 10; flens 5]))) = Some (fz 10) /\ distance (ToConjugate (emat (fspace 10))) = Some (fz (-10)) /\
  ToConjugate (emat (path [fspace 5; flens 5])) = Err ValueError /\ distance (ToFocus (emat (flens 5))) = Some (fz 5) /\ ToFocus (emat (fspace 5)) = Err ValueError.
Proof. vm_compute. repeat split. Qed.
Example testFromFocusToFocus : match fromFocusToFocus (flens 5) with Ok e => same (firstn 4 (abcd e)) [c0; fz 5; frac (-1) 5; c0] | Err _ => false end = true.
Proof. vm_compute. reflexivity. Qed.

(** ** testsMatrixGroup.py *)
Example testTransferMatrixUpToInGroup : match transferMatrix (path [fspace 2; the (DielectricSlab c1 (fz 12) inf)]) (fz 10),
    (s <- transferMatrix (the (DielectricSlab c1 (fz 12) inf)) (fz 8);; mul_matrix (emat s) (emat (fspace 2))) with
  | Ok e, Ok m => (same (abcd e) (abcd (Leaf KMatrix m)) && neqb (mfi (emat e)) (mfi m) && neqb (mbi (emat e)) (mbi m))%bool | _, _ => false end = true.
Proof. vm_compute. reflexivity. Qed.
Example testAppendNotSpaceIndexOfRefractionMismatch : MatrixGroup_new [fspace 10; the (DielectricInterface n133 1.22%float inf inf)] "" = Err ValueError.
Proof. vm_compute. reflexivity. Qed.
Example testAppendSpaceMustAdoptIndexOfRefraction : match MatrixGroup_new [the (DielectricInterface c1 n155 (fz 100) inf); fspace 3; the (DielectricInterface n155 c1 (fz (-100)) inf)] "" with
  | Ok g => map (fun e => (mfi (emat e), mbi (emat e))) (gelems g) | Err _ => [] end = [(c1, n155); (n155, n155); (n155, c1)].
Proof. vm_compute. reflexivity. Qed.
Example testTrace : let s := the (Space (fz 2) c1 (fz 5)) in let l := dlens 6 5 in
  map (fun r => (ry r, rth r, rblk r)) (trace_values (path [s; l]) (Ray_new (fz 2) (fz 2))) =
  [(fz 2, fz 2, false); (fz 2, fz 2, false); (fz 6, fz 2, false); (fz 6, c1, true)].
Proof. vm_compute. reflexivity. Qed.
Example testIntermediateConjugatesDuplicates : intermediateConjugates (path [fspace 10; flens 10; fspace 15; flens 5; fspace 5]) = Ok [(fz 30, (-0.5)%float)].
Proof. vm_compute. reflexivity. Qed.
Example testIntermediateConjugates : match intermediateConjugates (path [fspace 10; flens 9]) with
  | Ok [(d, m)] => near 7 d (fz 100) && near 7 m (fz (-9)) | _ => false end = true.
Proof. vm_compute. reflexivity. Qed.
Example testIntermediateConjugatesNoThickness : intermediateConjugates (path [flens 4; the (DielectricInterface c1 n133 c1 inf)]) = Ok [] /\ intermediateConjugates (path []) = Ok [].
Proof. vm_compute. repeat split. Qed.
Example testLargestDiameter : largestDiameter (path [the (Space (fz 14) c1 (fz 10)); flens 5; the (Space (fz 5) c1 (fz 25))]) = fz 25 /\
  largestDiameter (path [fspace 10; flens 5]) = fz 8 /\ largestDiameter (path []) = inf.
Proof. vm_compute. repeat split. Qed.
Example testFlipOrientation_2 : match flip (path [fspace 10; the (DielectricSlab c1 (fz 10) inf); the (DielectricInterface c1 n133 inf inf)]),
    (t <- mul_matrix (emat (fspace 10)) (emat (the (DielectricSlab c1 (fz 10) inf)));; i <- flip (the (DielectricInterface c1 n133 inf inf));; mul_matrix t (emat i)) with
  | Ok e, Ok m => same (abcd e) (abcd (Leaf KMatrix m)) | _, _ => false end = true.
Proof. vm_compute. reflexivity. Qed.
Definition sp := fspace 10.
Definition ln := flens 10.
Definition grp_of (l : list (@elem float)) : @grp float := match MatrixGroup_new l "" with Ok g => g | Err _ => mkGrp (M c0 c0 c0 c0) [] end.
Definition lengths (r : @grp float * option exn) := (map (fun e => (mB (emat e), mC (emat e))) (gelems (fst r)), snd r).
Definition expect (l : list (@elem float)) := (map (fun e => (mB (emat e), mC (emat e))) l, @None exn).
Example testPopElements : let g := grp_of [fspace 5; flens 5; fspace 5; sp; ln; sp] in
  lengths (pop_st (fst (pop_st g 3)) (-1)) = expect [fspace 5; flens 5; fspace 5; ln] /\ snd (pop_st (grp_of [ln]) 2) = Some IndexError /\ snd (pop_st (grp_of [ln]) (-2)) = Some IndexError.
Proof. vm_compute. repeat split. Qed.
Example testInsert : let g := grp_of [sp; ln; sp; fspace 20; flens 20; fspace 20; fspace 5; flens 5; fspace 5] in let n := [flens 15; fspace 15; flens 15] in
  lengths (insert_st g 0 n) = expect (n ++ [sp; ln; sp; fspace 20; flens 20; fspace 20; fspace 5; flens 5; fspace 5]) /\
  lengths (insert_st g 10 n) = expect ([sp; ln; sp; fspace 20; flens 20; fspace 20; fspace 5; flens 5; fspace 5] ++ n) /\
  lengths (insert_st (grp_of []) (-1000) [sp]) = expect [sp] /\ lengths (insert_st (grp_of [sp; sp]) 1 [ln]) = expect [sp; ln; sp].
Proof. vm_compute. repeat split. Qed.
Example testSetItem : snd (setitem_st (grp_of []) 0 [ln]) = Some IndexError /\
  lengths (setslice_st (grp_of []) (Some 0%Z) (Some 2%Z) [sp; ln; sp]) = expect [sp; ln; sp] /\
  lengths (setslice_st (grp_of [fspace 20; flens 20; sp]) None (Some 2%Z) [sp; ln]) = expect [sp; ln; sp] /\
  lengths (setslice_st (grp_of [sp; flens 20; fspace 20]) (Some 1%Z) None [ln; sp]) = expect [sp; ln; sp] /\
  lengths (setitem_st (grp_of [the (CurvedMirror (fz 10) inf); ln; sp]) 0 [sp]) = expect [sp; ln; sp].
Proof. vm_compute. repeat split. Qed.

(** ** testsRay.py, testsAxicon.py *)
Definition thetas (l : res (list (@ray float))) := match l with Ok l => map (fun r => rth r) l | Err _ => [] end.
Example testFan : hd c0 (thetas (fan c0 (-0.1)%float 0.1%float 5)) = (-0.1)%float /\ last (thetas (fan c0 (-0.1)%float 0.1%float 5)) c0 = 0.1%float /\
  thetas (fan c0 (-0.1)%float 0.1%float 1) = [(-0.1)%float] /\ match fan c0 (-0.1)%float 0.1%float 0 with Ok _ => false | Err _ => true end = true.
Proof. vm_compute. repeat split. Qed.
Example testRayAt : map (fun p => ray_eqb (ray_at (fst (fst p)) (snd (fst p))) (snd p))
  [(Ray_new c0 0.1%float, c1, Ray_new 0.1%float 0.1%float); (Ray_new c0 0.1%float, fz (-1), Ray_new (-0.1)%float 0.1%float); (Ray_new c1 0.1%float, c1, Ray_new 1.1%float 0.1%float);
   (Ray_new (fz (-1)) 0.1%float, c1, Ray_new (-0.9)%float 0.1%float); (Ray_new (fz (-1)) 0.1%float, fz (-1), Ray_new (-1.1)%float 0.1%float)] = repeat true 5.
Proof. vm_compute. reflexivity. Qed.
Definition rayAt (y th z : float) : @ray float := mkRay y th z false inf None.
Definition rayTrace := [Ray_new c0 0.1%float; rayAt 0.1%float 0.2%float c1; rayAt 0.3%float c0 (fz 2)].
Example testRayTrace : map (fun p => match along rayTrace (fst p) with Ok r => ray_eqb r (snd p) | Err _ => false end)
  [(c0, Ray_new c0 0.1%float); (0.5%float, Ray_new 0.05%float 0.1%float); (c1, Ray_new 0.1%float 0.2%float); (1.5%float, Ray_new 0.2%float 0.2%float); (fz 2, Ray_new 0.3%float c0)] = repeat true 5.
Proof. vm_compute. reflexivity. Qed.

(** ** testsZemax.py *)
Definition zmx := ZMXReader_init ac254_100.
Example testSurface1Info : match (z <- zmx;; surfaceInfo z 1) with Ok (Some s) => near 1 (sf_R s) 62.75%float && near 7 (sf_spacing s) (fz 4) | _ => false end = true.
Proof. vm_compute. reflexivity. Qed.
Example testSurfaces : match (z <- zmx;; surfaces z) with Ok l => List.length l | Err _ => O end = 5%nat.
Proof. vm_compute. reflexivity. Qed.
Example testWAVM : designWavelengths ac254_100 = Ok [0.4861%float; 0.5876%float; 0.6563%float].
Proof. vm_compute. reflexivity. Qed.
