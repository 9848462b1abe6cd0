(** Zemax files: two of the project's own files, and files on which reading goes wrong. *)
From Coq Require Import ZArith List Bool String Floats.
From Verif Require Import Base Nums Optics Materials Zemax.
Import ListNotations.
Set Warnings "-inexact-float".
Open Scope list_scope.
Open Scope string_scope.

(** ** The project's files *)
(** raytracing/specifications/AC254-100-A-Zemax(ZMX).zmx: the lines the reader looks at *)
Definition ac254_100 : list line := [
  mkLine "UNIT" ["MM"; "X"; "W"; "X"; "CM"; "MR"; "CPMM"];
  mkLine "WAVM" ["1"; "4.861E-1"; "1"];
  mkLine "WAVM" ["2"; "5.876E-1"; "1"];
  mkLine "WAVM" ["3"; "6.563E-1"; "1"];
  mkLine "WAVM" ["4"; "5.5E-1"; "1"];
  mkLine "WAVM" ["5"; "5.5E-1"; "1"];
  mkLine "WAVM" ["6"; "5.5E-1"; "1"];
  mkLine "WAVM" ["7"; "5.5E-1"; "1"];
  mkLine "WAVM" ["8"; "5.5E-1"; "1"];
  mkLine "WAVM" ["9"; "5.5E-1"; "1"];
  mkLine "WAVM" ["10"; "5.5E-1"; "1"];
  mkLine "WAVM" ["11"; "5.5E-1"; "1"];
  mkLine "WAVM" ["12"; "5.5E-1"; "1"];
  mkLine "WAVM" ["13"; "5.5E-1"; "1"];
  mkLine "WAVM" ["14"; "5.5E-1"; "1"];
  mkLine "WAVM" ["15"; "5.5E-1"; "1"];
  mkLine "WAVM" ["16"; "5.5E-1"; "1"];
  mkLine "WAVM" ["17"; "5.5E-1"; "1"];
  mkLine "WAVM" ["18"; "5.5E-1"; "1"];
  mkLine "WAVM" ["19"; "5.5E-1"; "1"];
  mkLine "WAVM" ["20"; "5.5E-1"; "1"];
  mkLine "WAVM" ["21"; "5.5E-1"; "1"];
  mkLine "WAVM" ["22"; "5.5E-1"; "1"];
  mkLine "WAVM" ["23"; "5.5E-1"; "1"];
  mkLine "WAVM" ["24"; "5.5E-1"; "1"];
  mkLine "SURF" ["0"];
  mkLine "CURV" ["0.0"; "0"; "0"; "0"; "0"; """"""];
  mkLine "DISZ" ["INFINITY"];
  mkLine "DIAM" ["0"; "0"; "0"; "0"; "1"; """"""];
  mkLine "SURF" ["1"];
  mkLine "CURV" ["1.593625498007969800E-002"; "0"; "0"; "0"; "0"; """"""];
  mkLine "DISZ" ["4.0"];
  mkLine "GLAS" ["N-BK7"; "0"; "0"; "0"; "0"; "0"; "0"; "0"; "0"; "0"; "0"];
  mkLine "DIAM" ["1.27E+1"; "1"; "0"; "0"; "1"; """"""];
  mkLine "SURF" ["2"];
  mkLine "CURV" ["-2.187705097352880100E-002"; "0"; "0"; "0"; "0"; """"""];
  mkLine "DISZ" ["2.5"];
  mkLine "GLAS" ["SF5"; "0"; "0"; "0"; "0"; "0"; "0"; "0"; "0"; "0"; "0"];
  mkLine "DIAM" ["1.27E+1"; "1"; "0"; "0"; "1"; """"""];
  mkLine "SURF" ["3"];
  mkLine "CURV" ["-7.798487093503899700E-003"; "0"; "0"; "0"; "0"; """"""];
  mkLine "DISZ" ["9.706800996493E+1"];
  mkLine "DIAM" ["1.27E+1"; "1"; "0"; "0"; "1"; """"""];
  mkLine "SURF" ["4"];
  mkLine "CURV" ["0.0"; "0"; "0"; "0"; "0"; """"""];
  mkLine "DISZ" ["0"];
  mkLine "DIAM" ["6.803919974926E-3"; "0"; "0"; "0"; "1"; """"""]].
(** raytracing/specifications/zmax_49270.zmx, "LENS ACH 3 X 4.5" *)
Definition edmund_49270 : list line := [
  mkLine "UNIT" ["MM"; "X"; "W"; "X"; "CM"; "MR"; "CPMM"];
  mkLine "WAVM" ["1"; "0.58760000000000001"; "1"];
  mkLine "SURF" ["0"];
  mkLine "CURV" ["0.0"];
  mkLine "DISZ" ["INFINITY"];
  mkLine "SURF" ["1"];
  mkLine "CURV" ["3.164556962025319997E-01"];
  mkLine "DISZ" ["2"];
  mkLine "GLAS" ["N-LAK22"];
  mkLine "DIAM" ["1.25"; "1"; "0"; "0"; "1"; """"""];
  mkLine "SURF" ["2"];
  mkLine "CURV" ["-4.484304932735430071E-01"];
  mkLine "DISZ" ["1"];
  mkLine "GLAS" ["N-SF6"];
  mkLine "DIAM" ["1.25"; "1"; "0"; "0"; "1"; """"""];
  mkLine "SURF" ["3"];
  mkLine "CURV" ["-1.269035532994919890E-01"];
  mkLine "DISZ" ["2.9932047030897055"];
  mkLine "DIAM" ["1.25"; "1"; "0"; "0"; "1"; """"""];
  mkLine "SURF" ["4"];
  mkLine "CURV" ["0.0"];
  mkLine "DISZ" ["0"]].

Definition read (l : list line) : res (@grp float) := z <- ZMXReader_init l;; matrixGroup z.
(** focal length, length, number of elements and index behind *)
Definition summary (l : list line) : res (float * float * nat * float) :=
  g <- read l;; p <- effectiveFocalLengths (gmat g);;
  Ok (snd p, mL (gmat g), List.length (gelems g), mbi (gmat g)).
Definition between (a x b : float) : bool := (PrimFloat.leb a x && PrimFloat.leb x b)%bool.
Lemma ac254_100_read : exists f, summary ac254_100 = Ok (f, 6.5%float, 5%nat, 1%float) /\
  between 100.06%float f 100.08%float = true.
Proof.
  eexists. split; [vm_compute; reflexivity|]. vm_compute. reflexivity.
Qed.
(** sold as a 4.5 mm lens; it reads as 4.13 mm because N_SF6 in the catalogue has the coefficients
    of SF1 (index 1.717 instead of 1.805) *)
Lemma edmund_read : exists f, summary edmund_49270 = Ok (f, 3%float, 5%nat, 1%float) /\
  between 4.12%float f 4.13%float = true.
Proof.
  eexists. split; [vm_compute; reflexivity|]. vm_compute. reflexivity.
Qed.

(** ** Files on which reading goes wrong *)
Definition w_ (n : string) (p : list string) := mkLine n p.
Definition header := [w_ "UNIT" ["MM"]; w_ "WAVM" ["1"; "0.5876"; "1"]].
Definition surf (i c d : string) (more : list line) : list line :=
  [w_ "SURF" [i]; w_ "CURV" [c]; w_ "DISZ" [d]] ++ more.
Definition glas (g : string) := w_ "GLAS" [g].
Definition doublet : list line := surf "1" "0.02" "4.0" [glas "N-BK7"] ++ surf "2" "-0.02" "0.0" [].
Definition object := surf "0" "0.0" "INFINITY" [].

(** an open aperture written as 0 *)
Lemma diam_zero : read (header ++ object ++ surf "1" "0.02" "4.0" [glas "N-BK7"; w_ "DIAM" ["0"]] ++
    surf "2" "-0.02" "0.0" []) = Err ValueError.
Proof. vm_compute. reflexivity. Qed.
(** no UNIT line, although 44-47 provide for it *)
Lemma no_unit : read (tl header ++ object ++ doublet) = Err AttributeError.
Proof. vm_compute. reflexivity. Qed.
(** a lens designed at 0.55 um only, given on two WAVM lines *)
Lemma only_055 : read ([w_ "UNIT" ["MM"]; w_ "WAVM" ["1"; "0.55"; "1"]; w_ "WAVM" ["2"; "0.55"; "1"]] ++
    object ++ doublet) = Err IndexError.
Proof. vm_compute. reflexivity. Qed.
(** two lenses with air between them: the second one is dropped *)
Definition air_spaced : list line := header ++ object ++
  surf "1" "0.02" "4.0" [glas "N-BK7"] ++ surf "2" "-0.02" "10.0" [] ++
  surf "3" "0.02" "4.0" [glas "N-BK7"] ++ surf "4" "-0.02" "0.0" [].
Lemma second_lens_dropped : exists z s g, @ZMXReader_init float _ air_spaced = Ok z /\
  surfaces z = Ok s /\ List.length (filter (fun x => negb (is_air x)) s) = 2%nat /\
  matrixGroup z = Ok g /\ List.length (gelems g) = 3%nat /\
  read (header ++ object ++ doublet) = Ok g.
Proof.
  eexists _, _, _. split; [vm_compute; reflexivity|]. split; [vm_compute; reflexivity|].
  split; [vm_compute; reflexivity|]. split; [vm_compute; reflexivity|].
  split; vm_compute; reflexivity.
Qed.
(** a glass the catalogue does not have *)
Lemma unknown_glass : read (header ++ object ++ surf "1" "0.02" "4.0" [glas "N-FK5"] ++
    surf "2" "-0.02" "0.0" []) = Err ValueError.
Proof. vm_compute. reflexivity. Qed.
(** lenses in inches *)
Lemma inches : exists a b, summary (header ++ object ++ doublet) = Ok (a, 4%float, 3%nat, 1%float) /\
  summary (w_ "UNIT" ["IN"] :: tl header ++ object ++ doublet) = Ok (b, 101.6%float, 3%nat, 1%float) /\
  between (25.39 * a)%float b (25.41 * a)%float = true.
Proof.
  eexists _, _. split; [vm_compute; reflexivity|]. split; [vm_compute; reflexivity|].
  vm_compute; reflexivity.
Qed.
(** a prescription in centimetres is taken to be in millimetres *)
Lemma centimetres : exists z, read (w_ "UNIT" ["CM"] :: tl header ++ object ++ doublet) = Ok z /\
  read (w_ "UNIT" ["MM"] :: tl header ++ object ++ doublet) = Ok z.
Proof. eexists. split; vm_compute; reflexivity. Qed.
