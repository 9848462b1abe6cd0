(** specialtylenses.py: AchromatDoubletLens and SingletLens as they are constructed, the lenses of
    thorlabs.py and eo.py, focalShifts, and the search of materials.py by index. *)
From Coq Require Import ZArith List Bool String.
From Verif Require Import Base Optics RaysModel Materials Zemax.
Import ListNotations.
Open Scope list_scope.

(** ** The arguments of the two constructors: A the numbers, M the materials *)
(** specialtylenses.py 158-170; a radius is None for float("+inf") *)
Record doublet (A M : Type) := mkDoublet {
  d_fa : A; d_fb : A; d_R1 : option A; d_R2 : option A; d_R3 : option A; d_tc1 : A; d_tc2 : A; d_te : A; d_diam : A;
  d_n1 : option A; d_n2 : option A; d_mat1 : option M; d_mat2 : option M; d_ref : option A }.
Arguments mkDoublet {A M}. Arguments d_fa {A M}. Arguments d_fb {A M}. Arguments d_R1 {A M}.
Arguments d_R2 {A M}. Arguments d_R3 {A M}. Arguments d_tc1 {A M}. Arguments d_tc2 {A M}.
Arguments d_te {A M}. Arguments d_diam {A M}. Arguments d_n1 {A M}. Arguments d_n2 {A M}.
Arguments d_mat1 {A M}. Arguments d_mat2 {A M}. Arguments d_ref {A M}.
(** specialtylenses.py 274-284 *)
Record singlet (A M : Type) := mkSinglet {
  s_f : A; s_fb : A; s_R1 : option A; s_R2 : option A; s_tc : A; s_te : A; s_diam : A;
  s_n : option A; s_mat : option M; s_ref : option A }.
Arguments mkSinglet {A M}. Arguments s_f {A M}. Arguments s_fb {A M}. Arguments s_R1 {A M}.
Arguments s_R2 {A M}. Arguments s_tc {A M}. Arguments s_te {A M}. Arguments s_diam {A M}.
Arguments s_n {A M}. Arguments s_mat {A M}. Arguments s_ref {A M}.
(** a lens class: the call of the base constructor, and whether __init__ has a [wavelength] argument *)
Inductive lens_class (A M : Type) :=
| LDoubletD (d : doublet A M) (takes : bool)
| LSingletD (s : singlet A M) (takes : bool).
Arguments LDoubletD {A M}. Arguments LSingletD {A M}.

(** the ExpertNote warnings of the constructors *)
Inductive warning := WThickness | WFocal | WBack | WEdge.

Section Init.
Context {T : Type} {N : Num T}.
Open Scope num_scope.
Notation disp := (dispersion T).

(** the lens object: elements, warnings raised while building, designFocalLength *)
Record built := mkBuilt { b_elem : @elem T; b_warn : list warning; b_design : T }.

(** a real index, see Zemax.v: a complex one stops the model *)
Definition glass_index (d : disp) (w : T) : res T := real_index (EmptyString, d) w.

(** abs((x - y) / y) > 0.01: specialtylenses.py 202, 207, 313, 318 *)
Definition off_by_1pct (x y : T) : res bool :=
  r <- pdiv (x - y) y;; Ok (ndec 1 2 <? nabs r).
(** math.cos(math.asin(x)); asin raises ValueError outside [-1, 1].  Modelled as sqrt(1 - x*x). *)
Definition cos_asin (x : T) : res T :=
  if c1 <? nabs x then Err ValueError else Ok (nsqrt (c1 - x * x)).
(** vertex + R * (1.0 - math.cos(math.asin(h / abs(R)))): specialtylenses.py 213-217, 324-328 *)
Definition corner (vertex : option T) (R h : T) : res T :=
  q <- pdiv h (nabs R);;
  c <- cos_asin q;;
  match vertex with Some v => Ok (v + R * (c1 - c)) | None => Err TypeError end.
(** a radius argument *)
Definition radius (r : option T) : T := match r with Some r => r | None => ninf end.
Definition warn_if (b : bool) (w : warning) : list warning := if b then [w] else [].

(** specialtylenses.py 195-221 and 306-332: what both constructors do once the elements are there.
    Formatting the messages has no effect, except that a SingletLens has no tc1 (307-308). *)
Definition verify (e : elem) (thickness_warning : res warning) (tc f fb Rfirst Rlast te : T)
    : res (list warning) :=
  let m := emat e in
  t <- pdiv (nabs (tc - mL m)) (mL m);;
  w1 <- (if ndec 2 2 <? t then w <- thickness_warning;; Ok [w] else Ok []);;
  fs <- effectiveFocalLengths m;;
  o1 <- off_by_1pct (snd fs) f;;
  ob <- backFocalLength m;;
  match ob with
  | None => Err TypeError
  | Some b =>
      o2 <- off_by_1pct b fb;;
      let h := ndiv (largestDiameter e) c2 in
      k1 <- corner (mfv m) Rfirst h;;
      k3 <- corner (mbv m) Rlast h;;
      q <- pdiv (k3 - k1) te;;
      Ok (w1 ++ warn_if o1 WFocal ++ warn_if o2 WBack ++ warn_if (ndec 5 2 <? nabs (q - c1)) WEdge)
  end.

(** specialtylenses.py 172-181 *)
Definition doublet_indices (d : doublet T disp) (wavelength : option T) : res (T * T) :=
  p <- match d_mat1 d, d_mat2 d with
       | Some m1, Some m2 =>
           match wavelength, d_ref d with
           | Some w, _ | None, Some w =>
               n1 <- glass_index m1 w;; n2 <- glass_index m2 w;; Ok (Some n1, Some n2)
           | None, None => Ok (d_n1 d, d_n2 d)
           end
       | _, _ => Ok (d_n1 d, d_n2 d)
       end;;
  match p with
  | (Some n1, Some n2) => Ok (n1, n2)
  | _ => Err ValueError
  end.
(** specialtylenses.py 158-221 *)
Definition AchromatDoubletLens (d : doublet T disp) (wavelength : option T) : res built :=
  n <- doublet_indices d wavelength;;
  e <- AchromatDoublet (radius (d_R1 d)) (radius (d_R2 d)) (radius (d_R3 d)) (d_tc1 d) (d_tc2 d)
         (fst n) (snd n) (d_diam d);;
  ws <- verify e (Ok WThickness) (d_tc1 d + d_tc2 d) (d_fa d) (d_fb d) (radius (d_R1 d))
         (radius (d_R3 d)) (d_te d);;
  Ok (mkBuilt e ws (d_fa d)).

(** specialtylenses.py 286-293 *)
Definition singlet_index (s : singlet T disp) (wavelength : option T) : res T :=
  p <- match s_mat s with
       | Some m =>
           match wavelength, s_ref s with
           | Some w, _ | None, Some w => n <- glass_index m w;; Ok (Some n)
           | None, None => Ok (s_n s)
           end
       | None => Ok (s_n s)
       end;;
  match p with Some n => Ok n | None => Err ValueError end.
(** specialtylenses.py 274-332 *)
Definition SingletLensC (s : singlet T disp) (wavelength : option T) : res built :=
  n <- singlet_index s wavelength;;
  e <- SingletLens (radius (s_R1 s)) (radius (s_R2 s)) (s_tc s) n (s_diam s);;
  ws <- verify e (Err AttributeError) (s_tc s) (s_f s) (s_fb s) (radius (s_R1 s)) (radius (s_R2 s)) (s_te s);;
  Ok (mkBuilt e ws (s_f s)).

(** calling a lens class: [None] is Class(), [Some w] is Class(wavelength=w).  The classes of eo.py
    have no such argument: TypeError. *)
Definition construct (c : lens_class T disp) (wavelength : option T) : res built :=
  match c with
  | LDoubletD d takes =>
      match takes, wavelength with
      | false, Some _ => Err TypeError
      | _, _ => AchromatDoubletLens d wavelength
      end
  | LSingletD s takes =>
      match takes, wavelength with
      | false, Some _ => Err TypeError
      | _, _ => SingletLensC s wavelength
      end
  end.

(** ** focalShifts *)
(** the argument: None, a Python list, or a numpy array *)
Inductive wavelengths := WDefault | WList (l : list T) | WArray (l : list T).

(** specialtylenses.py 75-79: type(self)(wavelength=l) for each wavelength.  [c] is None for a direct
    instance of AchromatDoubletLens or SingletLens, whose constructor then lacks arguments. *)
Fixpoint shifts_loop (c : option (lens_class T disp)) (design : T) (l : list T) : res (list T) :=
  match l with
  | [] => Ok []
  | w :: t =>
      b <- match c with Some c => construct c (Some w) | None => Err TypeError end;;
      fs <- effectiveFocalLengths (emat (b_elem b));;
      r <- shifts_loop c design t;;
      Ok ((snd fs - design) :: r)
  end.
(** wavelengths*1000: a list is repeated, an array is multiplied *)
Fixpoint repeat_list {A} (n : nat) (l : list A) : list A :=
  match n with O => [] | S n => l ++ repeat_list n l end.
(** specialtylenses.py 57-81; [design] None: raise("...") raises a TypeError *)
Definition focalShifts (c : option (lens_class T disp)) (design : option T) (ws : wavelengths)
    : res (list T * list T) :=
  match design with
  | None => Err TypeError
  | Some f =>
      match ws with
      | WDefault =>
          l <- linspace (ndec 4 1) (ndec 8 1) 100;;
          r <- shifts_loop c f l;; Ok (map (fun w => w * nofZ 1000) l, r)
      | WArray l => r <- shifts_loop c f l;; Ok (map (fun w => w * nofZ 1000) l, r)
      | WList l => r <- shifts_loop c f l;; Ok (repeat_list (Z.to_nat 1000) l, r)
      end
  end.
End Init.
Arguments built T : clear implicits.
Arguments wavelengths T : clear implicits.

(** ** The classes *)
(** a name of materials.py used as a class: the last definition counts.  Every name used below exists. *)
Definition assoc {A} (name : string) (l : list (string * A)) : option A :=
  match find (fun p => String.eqb (fst p) name) l with Some p => Some (snd p) | None => None end.
Definition material {A} (l : list (string * A)) (name : string) : option A := assoc name (rev l).

Definition omap {A B} (f : A -> B) (o : option A) : option B :=
  match o with Some x => Some (f x) | None => None end.
(** the arguments as numbers and materials *)
Definition resolve_class {A B M P} (f : A -> B) (g : M -> option P) (c : lens_class A M) : lens_class B P :=
  let get o := match o with Some m => g m | None => None end in
  match c with
  | LDoubletD d t =>
      LDoubletD (mkDoublet (f (d_fa d)) (f (d_fb d)) (omap f (d_R1 d)) (omap f (d_R2 d)) (omap f (d_R3 d)) (f (d_tc1 d))
        (f (d_tc2 d)) (f (d_te d)) (f (d_diam d)) (omap f (d_n1 d)) (omap f (d_n2 d))
        (get (d_mat1 d)) (get (d_mat2 d)) (omap f (d_ref d))) t
  | LSingletD s t =>
      LSingletD (mkSinglet (f (s_f s)) (f (s_fb s)) (omap f (s_R1 s)) (omap f (s_R2 s)) (f (s_tc s)) (f (s_te s))
        (f (s_diam s)) (omap f (s_n s)) (get (s_mat s)) (omap f (s_ref s))) t
  end.

Local Open Scope string_scope.
(** thorlabs.py and eo.py, printed by tools/lenses.py: the arguments given to the base constructor (lines
    at the right).  Fourteen class names are defined twice; only the later definition is a class of the
    module.  [dec m k] is m / 10^k. *)
Definition lens_data : list (string * lens_class (Z * Z) string) :=
  [ ("AC254_060_A", LDoubletD (mkDoublet (dec 601 1) (dec 543 1) (Some (dec 417 1)) (Some (dec (-259) 1)) (Some (dec (-2307) 1)) (dec 8 0) (dec 25 1) (dec 82 1) (dec 254 1) None None (Some "E_BAF11") (Some "E_FD10") (Some (dec 5876 4))) true)  (* thorlabs.py 323-326 *)
  ; ("AC254_075_A", LDoubletD (mkDoublet (dec 749 1) (dec 703 1) (Some (dec 465 1)) (Some (dec (-339) 1)) (Some (dec (-955) 1)) (dec 70 1) (dec 25 1) (dec 69 1) (dec 254 1) None None (Some "N_BK7") (Some "SF5") (Some (dec 5876 4))) true)  (* thorlabs.py 354-357 *)
  ; ("AC254_080_A", LDoubletD (mkDoublet (dec 800 1) (dec 753 1) (Some (dec 496 1)) (Some (dec (-355) 1)) (Some (dec (-1012) 1)) (dec 70 1) (dec 30 1) (dec 73 1) (dec 254 1) None None (Some "N_BK7") (Some "N_SF5") (Some (dec 5876 4))) true)  (* thorlabs.py 385-388 *)
  ; ("AC254_100_A", LDoubletD (mkDoublet (dec 1001 1) (dec 971 1) (Some (dec 6275 2)) (Some (dec (-4571) 2)) (Some (dec (-12823) 2)) (dec 40 1) (dec 25 1) (dec 47 1) (dec 254 1) None None (Some "N_BK7") (Some "SF5") (Some (dec 5876 4))) true)  (* thorlabs.py 416-419 *)
  ; ("AC254_125_A", LDoubletD (mkDoublet (dec 1250 1) (dec 1220 1) (Some (dec 7763 2)) (Some (dec (-5592) 2)) (Some (dec (-16082) 2)) (dec 40 1) (dec 283 2) (dec 53 1) (dec 254 1) None None (Some "N_BK7") (Some "N_SF5") (Some (dec 5876 4))) true)  (* thorlabs.py 455-458 *)
  ; ("AC254_150_A", LDoubletD (mkDoublet (dec 150 0) (dec 1461 1) (Some (dec 916 1)) (Some (dec (-667) 1)) (Some (dec (-1977) 1)) (dec 57 1) (dec 22 1) (dec 66 1) (dec 254 1) None None (Some "N_BK7") (Some "SF5") (Some (dec 5876 4))) true)  (* thorlabs.py 486-489 *)
  ; ("AC254_200_A", LDoubletD (mkDoublet (dec 2002 1) (dec 1940 1) (Some (dec 774 1)) (Some (dec (-876) 1)) (Some (dec 2911 1)) (dec 40 1) (dec 25 1) (dec 57 1) (dec 254 1) None None (Some "N_SSK5") (Some "LAFN7") (Some (dec 5876 4))) true)  (* thorlabs.py 517-520 *)
  ; ("AC254_250_A", LDoubletD (mkDoublet (dec 250 0) (dec 2467 1) (Some (dec 1371 1)) (Some (dec (-1115) 1)) (Some (dec (-4592) 1)) (dec 40 1) (dec 20 1) (dec 52 1) (dec 254 1) None None (Some "N_BK7") (Some "SF2") (Some (dec 5876 4))) true)  (* thorlabs.py 548-551 *)
  ; ("AC254_300_A", LDoubletD (mkDoublet (dec 3002 1) (dec 2970 1) (Some (dec 1652 1)) (Some (dec (-1371) 1)) (Some (dec (-5574) 1)) (dec 40 1) (dec 20 1) (dec 54 1) (dec 254 1) None None (Some "N_BK7") (Some "SF2") (Some (dec 5876 4))) true)  (* thorlabs.py 579-582 *)
  ; ("AC254_400_A", LDoubletD (mkDoublet (dec 3993 1) (dec 3960 1) (Some (dec 2198 1)) (Some (dec (-1816) 1)) (Some (dec (-7385) 1)) (dec 40 1) (dec 20 1) (dec 55 1) (dec 254 1) None None (Some "N_BK7") (Some "SF2") (Some (dec 5876 4))) true)  (* thorlabs.py 610-613 *)
  ; ("AC254_500_A", LDoubletD (mkDoublet (dec 5025 1) (dec 4999 1) (Some (dec 3373 1)) (Some (dec (-1868) 1)) (Some (dec (-5574) 1)) (dec 40 1) (dec 20 1) (dec 56 1) (dec 254 1) None None (Some "N_BK7") (Some "SF2") (Some (dec 5876 4))) true)  (* thorlabs.py 641-644 *)
  ; ("AC508_200_B", LDoubletD (mkDoublet (dec 2000 1) (dec 1932 1) (Some (dec 1340 1)) (Some (dec (-1092) 1)) (Some (dec (-5152) 1)) (dec 82 1) (dec 50 1) (dec 101 1) (dec 508 1) None None (Some "N_LAK22") (Some "N_SF6HT") (Some (dec 855 3))) true)  (* thorlabs.py 828-831 *)
  ; ("AC508_250_B", LDoubletD (mkDoublet (dec 2500 1) (dec 2432 1) (Some (dec 1212 1)) (Some (dec (-1461) 1)) (Some (dec 12359 1)) (dec 66 1) (dec 26 1) (dec 68 1) (dec 508 1) None None (Some "N_BAF10") (Some "N_SF6HT") (Some (dec 855 3))) true)  (* thorlabs.py 859-862 *)
  ; ("AC508_300_B", LDoubletD (mkDoublet (dec 3000 1) (dec 2951 1) (Some (dec 2018 1)) (Some (dec (-1615) 1)) (Some (dec (-7600) 1)) (dec 66 1) (dec 26 1) (dec 72 1) (dec 508 1) None None (Some "N_LAK22") (Some "N_SF6HT") (Some (dec 855 3))) true)  (* thorlabs.py 890-893 *)
  ; ("AC508_400_B", LDoubletD (mkDoublet (dec 4000 1) (dec 3936 1) (Some (dec 2806 1)) (Some (dec (-2080) 1)) (Some (dec (-8590) 1)) (dec 45 1) (dec 26 1) (dec 56 1) (dec 508 1) None None (Some "N_LAK22") (Some "N_SF6HT") (Some (dec 855 3))) true)  (* thorlabs.py 921-924 *)
  ; ("AC508_500_B", LDoubletD (mkDoublet (dec 5000 1) (dec 4970 1) (Some (dec 3467 1)) (Some (dec (-2594) 1)) (Some (dec (-11324) 1)) (dec 45 1) (dec 26 1) (dec 59 1) (dec 508 1) None None (Some "N_LAK22") (Some "N_SF6HT") (Some (dec 855 3))) true)  (* thorlabs.py 952-955 *)
  ; ("AC508_750_B", LDoubletD (mkDoublet (dec 7500 1) (dec 7450 1) (Some (dec 3768 1)) (Some (dec (-2911) 1)) (Some (dec 29100 1)) (dec 42 1) (dec 25 1) (dec 60 1) (dec 508 1) None None (Some "N_BAF10") (Some "N_SF10") (Some (dec 855 3))) true)  (* thorlabs.py 983-986 *)
  ; ("AC508_1000_B", LDoubletD (mkDoublet (dec 10000 1) (dec 9930 1) (Some (dec 4943 1)) (Some (dec (-3981) 1)) (Some (dec 34400 1)) (dec 42 1) (dec 28 1) (dec 64 1) (dec 508 1) None None (Some "N_BAF10") (Some "N_SF10") (Some (dec 855 3))) true)  (* thorlabs.py 1014-1017 *)
  ; ("LA1608_A", LSingletD (mkSinglet (dec 750 1) (dec 720 1) (Some (dec 386 1)) None (dec 41 1) (dec 20 1) (dec 254 1) None (Some "N_BK7") (Some (dec 5876 4))) true)  (* thorlabs.py 1041-1043 *)
  ; ("LA1134_A", LSingletD (mkSinglet (dec 600 1) (dec 567 1) (Some (dec 309 1)) None (dec 47 1) (dec 20 1) (dec 254 1) None (Some "N_BK7") (Some (dec 5876 4))) true)  (* thorlabs.py 1067-1069 *)
  ; ("LA1131_A", LSingletD (mkSinglet (dec 500 1) (dec 463 1) (Some (dec 258 1)) None (dec 53 1) (dec 20 1) (dec 254 1) None (Some "N_BK7") (Some (dec 5876 4))) true)  (* thorlabs.py 1093-1095 *)
  ; ("LA1422_A", LSingletD (mkSinglet (dec 400 1) (dec 357 1) (Some (dec 206 1)) None (dec 64 1) (dec 20 1) (dec 254 1) None (Some "N_BK7") (Some (dec 5876 4))) true)  (* thorlabs.py 1119-1121 *)
  ; ("LA1805_A", LSingletD (mkSinglet (dec 300 1) (dec 242 1) (Some (dec 155 1)) None (dec 86 1) (dec 20 1) (dec 254 1) None (Some "N_BK7") (Some (dec 5876 4))) true)  (* thorlabs.py 1145-1147 *)
  ; ("LA1274_A", LSingletD (mkSinglet (dec 400 1) (dec 340 1) (Some (dec 206 1)) None (dec 90 1) (dec 25 1) (dec 300 1) None (Some "N_BK7") (Some (dec 5876 4))) true)  (* thorlabs.py 1171-1173 *)
  ; ("AC020_004_A", LDoubletD (mkDoublet (dec 40 1) (dec 292 2) (Some (dec 238 2)) (Some (dec (-218) 2)) (Some (dec (-787) 2)) (dec 111 2) (dec 13 1) (dec 213 2) (dec 20 1) None None (Some "N_SK16") (Some "N_LASF9") (Some (dec 5876 4))) true)  (* thorlabs.py 1178-1181 *)
  ; ("AC050_008_A", LDoubletD (mkDoublet (dec 75 1) (dec 52 1) (Some (dec 53 1)) (Some (dec (-39) 1)) (Some (dec (-171) 1)) (dec 28 1) (dec 17 1) (dec 37 1) (dec 50 1) None None (Some "N_BAF10") (Some "N_SF6HT") (Some (dec 5876 4))) true)  (* thorlabs.py 1185-1188 *)
  ; ("AC050_010_A", LDoubletD (mkDoublet (dec 100 1) (dec 79 1) (Some (dec 66 1)) (Some (dec (-43) 1)) (Some (dec (-154) 1)) (dec 25 1) (dec 19 1) (dec 37 1) (dec 50 1) None None (Some "N_BAK4") (Some "SF5") (Some (dec 5876 4))) true)  (* thorlabs.py 1192-1195 *)
  ; ("AC050_015_A", LDoubletD (mkDoublet (dec 150 1) (dec 136 1) (Some (dec 125 1)) (Some (dec (-53) 1)) (Some (dec (-121) 1)) (dec 27 1) (dec 21 1) (dec 43 1) (dec 50 1) None None (Some "N_BK7") (Some "SF2") (Some (dec 5876 4))) true)  (* thorlabs.py 1199-1202 *)
  ; ("AC060_010_A", LDoubletD (mkDoublet (dec 100 1) (dec 79 1) (Some (dec 62 1)) (Some (dec (-46) 1)) (Some (dec (-196) 1)) (dec 25 1) (dec 15 1) (dec 30 1) (dec 60 1) None None (Some "N_BAK4") (Some "SF5") (Some (dec 5876 4))) true)  (* thorlabs.py 1206-1209 *)
  ; ("AC064_013_A", LDoubletD (mkDoublet (dec 127 1) (dec 103 1) (Some (dec 71 1)) (Some (dec (-59) 1)) (Some (dec (-404) 1)) (dec 25 1) (dec 15 1) (dec 31 1) (dec 635 2) None None (Some "N_BAK4") (Some "SF5") (Some (dec 5876 4))) true)  (* thorlabs.py 1213-1216 *)
  ; ("AC064_015_A", LDoubletD (mkDoublet (dec 150 1) (dec 130 1) (Some (dec 88 1)) (Some (dec (-66) 1)) (Some (dec (-217) 1)) (dec 25 1) (dec 15 1) (dec 32 1) (dec 635 2) None None (Some "N_BK7") (Some "SF2") (Some (dec 5876 4))) true)  (* thorlabs.py 1220-1223 *)
  ; ("AC080_010_A", LDoubletD (mkDoublet (dec 100 1) (dec 67 1) (Some (dec 71 1)) (Some (dec (-53) 1)) (Some (dec (-227) 1)) (dec 45 1) (dec 20 1) (dec 49 1) (dec 80 1) None None (Some "N_BAF10") (Some "N_SF6HT") (Some (dec 5876 4))) true)  (* thorlabs.py 1227-1230 *)
  ; ("AC080_016_A", LDoubletD (mkDoublet (dec 160 1) (dec 139 1) (Some (dec 110 1)) (Some (dec (-92) 1)) (Some (dec (-468) 1)) (dec 25 1) (dec 15 1) (dec 31 1) (dec 80 1) None None (Some "N_BAF10") (Some "N_SF6HT") (Some (dec 5876 4))) true)  (* thorlabs.py 1234-1237 *)
  ; ("AC080_020_A", LDoubletD (mkDoublet (dec 200 1) (dec 178 1) (Some (dec 111 1)) (Some (dec (-92) 1)) (Some (dec (-348) 1)) (dec 25 1) (dec 15 1) (dec 30 1) (dec 80 1) None None (Some "N_BK7") (Some "SF2") (Some (dec 5876 4))) true)  (* thorlabs.py 1241-1244 *)
  ; ("AC080_030_A", LDoubletD (mkDoublet (dec 300 1) (dec 278 1) (Some (dec 160 1)) (Some (dec (-135) 1)) (Some (dec (-594) 1)) (dec 25 1) (dec 15 1) (dec 34 1) (dec 80 1) None None (Some "N_BK7") (Some "N_SF2") (Some (dec 5876 4))) true)  (* thorlabs.py 1248-1251 *)
  ; ("AC127_019_A", LDoubletD (mkDoublet (dec 190 1) (dec 157 1) (Some (dec 129 1)) (Some (dec (-110) 1)) (Some (dec (-593) 1)) (dec 45 1) (dec 15 1) (dec 40 1) (dec 127 1) None None (Some "N_BAF10") (Some "N_SF6HT") (Some (dec 5876 4))) true)  (* thorlabs.py 1255-1258 *)
  ; ("AC127_025_A", LDoubletD (mkDoublet (dec 250 1) (dec 215 1) (Some (dec 188 1)) (Some (dec (-106) 1)) (Some (dec (-681) 1)) (dec 50 1) (dec 20 1) (dec 56 1) (dec 127 1) None None (Some "N_BAF10") (Some "N_SF10") (Some (dec 5876 4))) true)  (* thorlabs.py 1262-1265 *)
  ; ("AC127_030_A", LDoubletD (mkDoublet (dec 300 1) (dec 275 1) (Some (dec 179 1)) (Some (dec (-135) 1)) (Some (dec (-442) 1)) (dec 35 1) (dec 15 1) (dec 34 1) (dec 127 1) None None (Some "N_BK7") (Some "SF2") (Some (dec 5876 4))) true)  (* thorlabs.py 1269-1272 *)
  ; ("AC127_050_A", LDoubletD (mkDoublet (dec 500 1) (dec 472 1) (Some (dec 274 1)) (Some (dec (-225) 1)) (Some (dec (-918) 1)) (dec 35 1) (dec 15 1) (dec 40 1) (dec 127 1) None None (Some "N_BK7") (Some "SF2") (Some (dec 5876 4))) true)  (* thorlabs.py 1276-1279 *)
  ; ("AC127_075_A", LDoubletD (mkDoublet (dec 750 1) (dec 729 1) (Some (dec 413 1)) (Some (dec (-340) 1)) (Some (dec (-1371) 1)) (dec 25 1) (dec 15 1) (dec 34 1) (dec 127 1) None None (Some "N_BK7") (Some "SF2") (Some (dec 5876 4))) true)  (* thorlabs.py 1283-1286 *)
  ; ("AC254_030_A", LDoubletD (mkDoublet (dec 300 1) (dec 229 1) (Some (dec 209 1)) (Some (dec (-167) 1)) (Some (dec (-798) 1)) (dec 120 1) (dec 20 1) (dec 88 1) (dec 254 1) None None (Some "N_BAF10") (Some "N_SF6HT") (Some (dec 5876 4))) true)  (* thorlabs.py 1290-1293 *)
  ; ("AC254_035_A", LDoubletD (mkDoublet (dec 352 1) (dec 273 1) (Some (dec 240 1)) (Some (dec (-191) 1)) (Some (dec (-1021) 1)) (dec 120 1) (dec 20 1) (dec 96 1) (dec 254 1) None None (Some "N_BAF10") (Some "N_SF6HT") (Some (dec 5876 4))) true)  (* thorlabs.py 1297-1300 *)
  ; ("AC254_040_A", LDoubletD (mkDoublet (dec 401 1) (dec 334 1) (Some (dec 237 1)) (Some (dec (-201) 1)) (Some (dec (-577) 1)) (dec 100 1) (dec 25 1) (dec 74 1) (dec 254 1) None None (Some "N_BK7") (Some "SF5") (Some (dec 5876 4))) true)  (* thorlabs.py 1304-1307 *)
  ; ("AC254_045_A", LDoubletD (mkDoublet (dec 450 1) (dec 402 1) (Some (dec 312 1)) (Some (dec (-259) 1)) (Some (dec (-1306) 1)) (dec 70 1) (dec 20 1) (dec 57 1) (dec 254 1) None None (Some "N_BAF10") (Some "N_SF6HT") (Some (dec 5876 4))) true)  (* thorlabs.py 1311-1314 *)
  ; ("AC254_050_A", LDoubletD (mkDoublet (dec 502 1) (dec 434 1) (Some (dec 333 1)) (Some (dec (-223) 1)) (Some (dec (-2911) 1)) (dec 90 1) (dec 25 1) (dec 87 1) (dec 254 1) None None (Some "N_BAF10") (Some "N_SF10") (Some (dec 5876 4))) true)  (* thorlabs.py 1318-1321 *)
  ; ("AC300_050_A", LDoubletD (mkDoublet (dec 500 1) (dec 443 1) (Some (dec 340 1)) (Some (dec (-294) 1)) (Some (dec (-1615) 1)) (dec 85 1) (dec 20 1) (dec 63 1) (dec 300 1) None None (Some "N_BAF10") (Some "N_SF6HT") (Some (dec 5876 4))) true)  (* thorlabs.py 1325-1328 *)
  ; ("AC300_080_A", LDoubletD (mkDoublet (dec 800 1) (dec 743 1) (Some (dec 560 1)) (Some (dec (-442) 1)) (Some (dec (-2198) 1)) (dec 85 1) (dec 20 1) (dec 79 1) (dec 300 1) None None (Some "N_BAF10") (Some "N_SF6HT") (Some (dec 5876 4))) true)  (* thorlabs.py 1332-1335 *)
  ; ("AC300_100_A", LDoubletD (mkDoublet (dec 1000 1) (dec 964 1) (Some (dec 700 1)) (Some (dec (-570) 1)) (Some (dec (-2844) 1)) (dec 50 1) (dec 20 1) (dec 50 1) (dec 300 1) None None (Some "N_BAF10") (Some "N_SF6HT") (Some (dec 5876 4))) true)  (* thorlabs.py 1339-1342 *)
  ; ("AC508_075_A", LDoubletD (mkDoublet (dec 749 1) (dec 618 1) (Some (dec 508 1)) (Some (dec (-417) 1)) (Some (dec (-2477) 1)) (dec 200 1) (dec 30 1) (dec 149 1) (dec 508 1) None None (Some "E_BAF11") (Some "N_SF11") (Some (dec 5876 4))) true)  (* thorlabs.py 1346-1349 *)
  ; ("AC508_080_A", LDoubletD (mkDoublet (dec 800 1) (dec 699 1) (Some (dec 549 1)) (Some (dec (-464) 1)) (Some (dec (-2472) 1)) (dec 160 1) (dec 20 1) (dec 105 1) (dec 508 1) None None (Some "N_BAF10") (Some "N_SF6HT") (Some (dec 5876 4))) true)  (* thorlabs.py 1353-1356 *)
  ; ("AC508_100_A", LDoubletD (mkDoublet (dec 1000 1) (dec 890 1) (Some (dec 711 1)) (Some (dec (-442) 1)) (Some (dec (-3631) 1)) (dec 160 1) (dec 40 1) (dec 144 1) (dec 508 1) None None (Some "N_BAF10") (Some "N_SF10") (Some (dec 5876 4))) true)  (* thorlabs.py 1360-1363 *)
  ; ("AC508_150_A", LDoubletD (mkDoublet (dec 1500 1) (dec 1404 1) (Some (dec 832 1)) (Some (dec (-721) 1)) (Some (dec (-2477) 1)) (dec 120 1) (dec 30 1) (dec 97 1) (dec 508 1) None None (Some "N_BK7") (Some "SF5") (Some (dec 5876 4))) true)  (* thorlabs.py 1367-1370 *)
  ; ("AC508_180_Ag", LDoubletD (mkDoublet (dec 1800 1) (dec 1727 1) (Some (dec 1097 1)) (Some (dec (-807) 1)) (Some (dec (-2385) 1)) (dec 120 1) (dec 20 1) (dec 94 1) (dec 508 1) None None (Some "N_BK7") (Some "N_SF5") (Some (dec 5876 4))) true)  (* thorlabs.py 1374-1377 *)
  ; ("ACN127_020_A", LDoubletD (mkDoublet (dec (-200) 1) (dec (-223) 1) (Some (dec (-135) 1)) (Some (dec 143 1)) (Some (dec 879 1)) (dec 15 1) (dec 30 1) (dec 63 1) (dec 127 1) None None (Some "N_BAF10") (Some "N_SF6HT") (Some (dec 5876 4))) true)  (* thorlabs.py 1381-1384 *)
  ; ("ACN127_025_A", LDoubletD (mkDoublet (dec (-250) 1) (dec (-270) 1) (Some (dec (-169) 1)) (Some (dec 165 1)) (Some (dec 977 1)) (dec 15 1) (dec 25 1) (dec 54 1) (dec 127 1) None None (Some "N_BAF10") (Some "N_SF6HT") (Some (dec 5876 4))) true)  (* thorlabs.py 1388-1391 *)
  ; ("ACN127_030_A", LDoubletD (mkDoublet (dec (-300) 1) (dec (-322) 1) (Some (dec (-162) 1)) (Some (dec 165 1)) (Some (dec 1542 1)) (dec 15 1) (dec 23 1) (dec 52 1) (dec 127 1) None None (Some "N_BAK4") (Some "SF5") (Some (dec 5876 4))) true)  (* thorlabs.py 1395-1398 *)
  ; ("ACN127_050_A", LDoubletD (mkDoublet (dec (-500) 1) (dec (-523) 1) (Some (dec (-256) 1)) (Some (dec 256 1)) (Some (dec 3727 1)) (dec 15 1) (dec 22 1) (dec 46 1) (dec 127 1) None None (Some "N_BAK4") (Some "SF5") (Some (dec 5876 4))) true)  (* thorlabs.py 1402-1405 *)
  ; ("ACN254_040_A", LDoubletD (mkDoublet (dec (-401) 1) (dec (-436) 1) (Some (dec (-271) 1)) (Some (dec 271 1)) (Some (dec 1892 1)) (dec 20 1) (dec 50 1) (dec 106 1) (dec 254 1) None None (Some "N_BAF10") (Some "N_SF11") (Some (dec 5876 4))) true)  (* thorlabs.py 1409-1412 *)
  ; ("ACN254_050_A", LDoubletD (mkDoublet (dec (-500) 1) (dec (-532) 1) (Some (dec (-340) 1)) (Some (dec 325 1)) (Some (dec 1892 1)) (dec 20 1) (dec 45 1) (dec 94 1) (dec 254 1) None None (Some "N_BAF10") (Some "N_SF6HT") (Some (dec 5876 4))) true)  (* thorlabs.py 1416-1419 *)
  ; ("ACN254_075_A", LDoubletD (mkDoublet (dec (-751) 1) (dec (-788) 1) (Some (dec (-390) 1)) (Some (dec 392 1)) (Some (dec 4898 1)) (dec 20 1) (dec 43 1) (dec 86 1) (dec 254 1) None None (Some "N_BAK4") (Some "SF5") (Some (dec 5876 4))) true)  (* thorlabs.py 1423-1426 *)
  ; ("ACN254_100_A", LDoubletD (mkDoublet (dec (-1001) 1) (dec (-1036) 1) (Some (dec (-520) 1)) (Some (dec 499 1)) (Some (dec 6000 1)) (dec 20 1) (dec 40 1) (dec 77 1) (dec 254 1) None None (Some "N_BAK4") (Some "SF5") (Some (dec 5876 4))) true)  (* thorlabs.py 1430-1433 *)
  ; ("ACT508_200_Ag", LDoubletD (mkDoublet (dec 2000 1) (dec 1906 1) (Some (dec 1062 1)) (Some (dec (-921) 1)) (Some (dec (-4094) 1)) (dec 106 1) (dec 60 1) (dec 128 1) (dec 508 1) None None (Some "N_BK7") (Some "N_SF2") (Some (dec 5876 4))) true)  (* thorlabs.py 1437-1440 *)
  ; ("ACT508_250_A", LDoubletD (mkDoublet (dec 2500 1) (dec 2414 1) (Some (dec 1312 1)) (Some (dec (-1160) 1)) (Some (dec (-5381) 1)) (dec 93 1) (dec 60 1) (dec 123 1) (dec 508 1) None None (Some "N_BK7") (Some "N_SF2") (Some (dec 5876 4))) true)  (* thorlabs.py 1444-1447 *)
  ; ("ACT508_300_A", LDoubletD (mkDoublet (dec 3000 1) (dec 2913 1) (Some (dec 1537 1)) (Some (dec (-1399) 1)) (Some (dec (-7068) 1)) (dec 84 1) (dec 70 1) (dec 124 1) (dec 508 1) None None (Some "N_BK7") (Some "N_SF2") (Some (dec 5876 4))) true)  (* thorlabs.py 1451-1454 *)
  ; ("ACT508_400_A", LDoubletD (mkDoublet (dec 4000 1) (dec 3946 1) (Some (dec 2923 1)) (Some (dec (-1489) 1)) (Some (dec (-3985) 1)) (dec 80 1) (dec 80 1) (dec 141 1) (dec 508 1) None None (Some "N_BK7") (Some "N_SF2") (Some (dec 5876 4))) true)  (* thorlabs.py 1458-1461 *)
  ; ("ACT508_500_A", LDoubletD (mkDoublet (dec 5000 1) (dec 4963 1) (Some (dec 3825 1)) (Some (dec (-1821) 1)) (Some (dec (-4712) 1)) (dec 60 1) (dec 60 1) (dec 105 1) (dec 508 1) None None (Some "N_BK7") (Some "N_SF2") (Some (dec 5876 4))) true)  (* thorlabs.py 1465-1468 *)
  ; ("ACT508_750_A", LDoubletD (mkDoublet (dec 7500 1) (dec 7439 1) (Some (dec 3986 1)) (Some (dec (-3437) 1)) (Some (dec (-15445) 1)) (dec 60 1) (dec 60 1) (dec 110 1) (dec 508 1) None None (Some "N_BK7") (Some "N_SF2") (Some (dec 5876 4))) true)  (* thorlabs.py 1472-1475 *)
  ; ("ACT508_1000_A", LDoubletD (mkDoublet (dec 10000 1) (dec 9964 1) (Some (dec 7579 1)) (Some (dec (-3647) 1)) (Some (dec (-9542) 1)) (dec 60 1) (dec 60 1) (dec 113 1) (dec 508 1) None None (Some "N_BK7") (Some "N_SF2") (Some (dec 5876 4))) true)  (* thorlabs.py 1479-1482 *)
  ; ("AC127_019_AB", LDoubletD (mkDoublet (dec 190 1) (dec 1629 2) (Some (dec 143 1)) (Some (dec (-138) 1)) (Some (dec (-685) 1)) (dec 40 1) (dec 10 1) (dec 32 1) (dec 127 1) None None (Some "N_LAK10") (Some "N_SF57") (Some (dec 5876 4))) true)  (* thorlabs.py 1486-1489 *)
  ; ("AC127_025_AB", LDoubletD (mkDoublet (dec 250 1) (dec 2189 2) (Some (dec 191 1)) (Some (dec (-178) 1)) (Some (dec (-823) 1)) (dec 40 1) (dec 20 1) (dec 46 1) (dec 127 1) None None (Some "N_LAK10") (Some "N_SF57") (Some (dec 5876 4))) true)  (* thorlabs.py 1493-1496 *)
  ; ("AC127_030_AB", LDoubletD (mkDoublet (dec 300 1) (dec 2716 2) (Some (dec 167 1)) (Some (dec (-138) 1)) (Some (dec (-521) 1)) (dec 40 1) (dec 10 1) (dec 33 1) (dec 127 1) None None (Some "N_BK7") (Some "N_SF2") (Some (dec 5876 4))) true)  (* thorlabs.py 1500-1503 *)
  ; ("AC127_050_AB", LDoubletD (mkDoublet (dec 500 1) (dec 4656 2) (Some (dec 263 1)) (Some (dec (-226) 1)) (Some (dec (-1024) 1)) (dec 40 1) (dec 20 1) (dec 50 1) (dec 127 1) None None (Some "N_BK7") (Some "N_SF2") (Some (dec 5876 4))) true)  (* thorlabs.py 1507-1510 *)
  ; ("AC127_075_AB", LDoubletD (mkDoublet (dec 750 1) (dec 7267 2) (Some (dec 384 1)) (Some (dec (-350) 1)) (Some (dec (-1773) 1)) (dec 25 1) (dec 15 1) (dec 33 1) (dec 127 1) None None (Some "N_BK7") (Some "N_SF2") (Some (dec 5876 4))) true)  (* thorlabs.py 1514-1517 *)
  ; ("AC254_030_AB", LDoubletD (mkDoublet (dec 300 1) (dec 2122 2) (Some (dec 200 1)) (Some (dec (-174) 1)) (Some (dec (-931) 1)) (dec 120 1) (dec 30 1) (dec 95 1) (dec 254 1) None None (Some "S_BAH11") (Some "S_TIH6") (Some (dec 5876 4))) true)  (* thorlabs.py 1521-1524 *)
  ; ("AC254_050_AB", LDoubletD (mkDoublet (dec 500 1) (dec 4339 2) (Some (dec 349 1)) (Some (dec (-288) 1)) (Some (dec (-1375) 1)) (dec 90 1) (dec 35 1) (dec 95 1) (dec 254 1) None None (Some "N_BAF10") (Some "N_SF6") (Some (dec 5876 4))) true)  (* thorlabs.py 1528-1531 *)
  ; ("AC254_075_AB", LDoubletD (mkDoublet (dec 750 1) (dec 6872 2) (Some (dec 520 1)) (Some (dec (-434) 1)) (Some (dec (-2174) 1)) (dec 80 1) (dec 40 1) (dec 100 1) (dec 254 1) None None (Some "N_BAF10") (Some "N_SF6") (Some (dec 5876 4))) true)  (* thorlabs.py 1535-1538 *)
  ; ("AC254_100_AB", LDoubletD (mkDoublet (dec 1000 1) (dec 9503 2) (Some (dec 924 1)) (Some (dec (-482) 1)) (Some (dec (-1528) 1)) (dec 80 1) (dec 40 1) (dec 105 1) (dec 254 1) None None (Some "N_LAK22") (Some "N_SF10") (Some (dec 5876 4))) true)  (* thorlabs.py 1542-1545 *)
  ; ("AC254_150_AB", LDoubletD (mkDoublet (dec 1500 1) (dec 14368 2) (Some (dec 879 1)) (Some (dec (-1056) 1)) None (dec 60 1) (dec 30 1) (dec 80 1) (dec 254 1) None None (Some "N_LAK22") (Some "N_SF10") (Some (dec 5876 4))) true)  (* thorlabs.py 1549-1552 *)
  ; ("AC254_200_AB", LDoubletD (mkDoublet (dec 2000 1) (dec 19415 2) (Some (dec 1171 1)) (Some (dec (-1421) 1)) None (dec 50 1) (dec 30 1) (dec 73 1) (dec 254 1) None None (Some "N_LAK22") (Some "N_SF10") (Some (dec 5876 4))) true)  (* thorlabs.py 1556-1559 *)
  ; ("AC508_080_AB", LDoubletD (mkDoublet (dec 800 1) (dec 7273 2) (Some (dec 636 1)) (Some (dec (-806) 1)) (Some (dec (-1817) 1)) (dec 120 1) (dec 30 1) (dec 78 1) (dec 508 1) None None (Some "N_LAK22") (Some "N_SF6") (Some (dec 5876 4))) true)  (* thorlabs.py 1563-1566 *)
  ; ("AC508_180_AB", LDoubletD (mkDoublet (dec 1800 1) (dec 17352 2) (Some (dec 1444 1)) (Some (dec (-1154) 1)) (Some (dec (-3282) 1)) (dec 95 1) (dec 40 1) (dec 102 1) (dec 508 1) None None (Some "N_LAK22") (Some "N_SF6") (Some (dec 5876 4))) true)  (* thorlabs.py 1570-1573 *)
  ; ("AC508_300_AB", LDoubletD (mkDoublet (dec 3000 1) (dec 28981 2) (Some (dec 1677 1)) (Some (dec (-2858) 1)) None (dec 90 1) (dec 40 1) (dec 110 1) (dec 508 1) None None (Some "N_LAK22") (Some "N_SF6") (Some (dec 5876 4))) true)  (* thorlabs.py 1577-1580 *)
  ; ("AC508_400_AB", LDoubletD (mkDoublet (dec 4000 1) (dec 38856 2) (Some (dec 1843 1)) (Some (dec (-2740) 1)) None (dec 90 1) (dec 40 1) (dec 112 1) (dec 508 1) None None (Some "N_BAK4") (Some "N_SF10") (Some (dec 5876 4))) true)  (* thorlabs.py 1584-1587 *)
  ; ("AC508_500_AB", LDoubletD (mkDoublet (dec 5000 1) (dec 48804 2) (Some (dec 2303 1)) (Some (dec (-3439) 1)) None (dec 90 1) (dec 40 1) (dec 115 1) (dec 508 1) None None (Some "N_BAK4") (Some "N_SF10") (Some (dec 5876 4))) true)  (* thorlabs.py 1591-1594 *)
  ; ("AC508_600_AB", LDoubletD (mkDoublet (dec 6000 1) (dec 59052 2) (Some (dec 2764 1)) (Some (dec (-4139) 1)) None (dec 90 1) (dec 40 1) (dec 118 1) (dec 508 1) None None (Some "N_BAK4") (Some "N_SF10") (Some (dec 5876 4))) true)  (* thorlabs.py 1598-1601 *)
  ; ("AC020_004_B", LDoubletD (mkDoublet (dec 40 1) (dec 312 2) (Some (dec 319 2)) (Some (dec (-177) 2)) (Some (dec (-523) 2)) (dec 124 2) (dec 95 2) (dec 193 2) (dec 20 1) None None (Some "N_LAK22") (Some "N_SF6HT") (Some (dec 5876 4))) true)  (* thorlabs.py 1605-1608 *)
  ; ("AC050_008_B", LDoubletD (mkDoublet (dec 75 1) (dec 48 1) (Some (dec 46 1)) (Some (dec (-39) 1)) (Some (dec (-360) 1)) (dec 28 1) (dec 18 1) (dec 38 1) (dec 50 1) None None (Some "N_BAF10") (Some "N_SF6HT") (Some (dec 5876 4))) true)  (* thorlabs.py 1612-1615 *)
  ; ("AC050_010_B", LDoubletD (mkDoublet (dec 100 1) (dec 80 1) (Some (dec 66 1)) (Some (dec (-53) 1)) (Some (dec (-249) 1)) (dec 22 1) (dec 16 1) (dec 32 1) (dec 50 1) None None (Some "N_LAK22") (Some "N_SF6HT") (Some (dec 5876 4))) true)  (* thorlabs.py 1619-1622 *)
  ; ("AC050_015_B", LDoubletD (mkDoublet (dec 150 1) (dec 130 1) (Some (dec 103 1)) (Some (dec (-76) 1)) (Some (dec (-321) 1)) (dec 23 1) (dec 17 1) (dec 36 1) (dec 50 1) None None (Some "N_LAK22") (Some "N_SF6HT") (Some (dec 5876 4))) true)  (* thorlabs.py 1626-1629 *)
  ; ("AC060_010_B", LDoubletD (mkDoublet (dec 100 1) (dec 81 1) (Some (dec 71 1)) (Some (dec (-53) 1)) (Some (dec (-195) 1)) (dec 25 1) (dec 15 1) (dec 23 1) (dec 60 1) None None (Some "N_LAK22") (Some "N_SF6HT") (Some (dec 5876 4))) true)  (* thorlabs.py 1633-1636 *)
  ; ("AC064_013_B", LDoubletD (mkDoublet (dec 127 1) (dec 107 1) (Some (dec 86 1)) (Some (dec (-67) 1)) (Some (dec (-290) 1)) (dec 25 1) (dec 14 1) (dec 31 1) (dec 635 2) None None (Some "N_LAK22") (Some "N_SF6HT") (Some (dec 5876 4))) true)  (* thorlabs.py 1640-1643 *)
  ; ("AC064_015_B", LDoubletD (mkDoublet (dec 150 1) (dec 131 1) (Some (dec 103 1)) (Some (dec (-78) 1)) (Some (dec (-329) 1)) (dec 24 1) (dec 15 1) (dec 32 1) (dec 635 2) None None (Some "N_LAK22") (Some "N_SF6HT") (Some (dec 5876 4))) true)  (* thorlabs.py 1647-1650 *)
  ; ("AC080_010_B", LDoubletD (mkDoublet (dec 100 1) (dec 70 1) (Some (dec 76 1)) (Some (dec (-46) 1)) (Some (dec (-306) 1)) (dec 45 1) (dec 13 1) (dec 44 1) (dec 80 1) None None (Some "N_LAK10") (Some "N_SF6HT") (Some (dec 5876 4))) true)  (* thorlabs.py 1654-1657 *)
  ; ("AC080_016_B", LDoubletD (mkDoublet (dec 160 1) (dec 140 1) (Some (dec 110 1)) (Some (dec (-86) 1)) (Some (dec (-358) 1)) (dec 25 1) (dec 15 1) (dec 30 1) (dec 80 1) None None (Some "N_LAK22") (Some "N_SF6HT") (Some (dec 5876 4))) true)  (* thorlabs.py 1661-1664 *)
  ; ("AC080_020_B", LDoubletD (mkDoublet (dec 200 1) (dec 182 1) (Some (dec 135 1)) (Some (dec (-106) 1)) (Some (dec (-478) 1)) (dec 23 1) (dec 13 1) (dec 28 1) (dec 80 1) None None (Some "N_LAK22") (Some "N_SF6HT") (Some (dec 5876 4))) true)  (* thorlabs.py 1668-1671 *)
  ; ("AC080_030_B", LDoubletD (mkDoublet (dec 300 1) (dec 277 1) (Some (dec 185 1)) (Some (dec (-162) 1)) (Some (dec (-1060) 1)) (dec 25 1) (dec 15 1) (dec 35 1) (dec 80 1) None None (Some "N_LAK22") (Some "N_SF6") (Some (dec 5876 4))) true)  (* thorlabs.py 1675-1678 *)
  ; ("ACN127_020_B", LDoubletD (mkDoublet (dec (-200) 1) (dec (-225) 1) (Some (dec (-123) 1)) (Some (dec 140 1)) (Some (dec 1528 1)) (dec 15 1) (dec 30 1) (dec 64 1) (dec 127 1) None None (Some "N_BAF10") (Some "N_SF6HT") (Some (dec 5876 4))) true)  (* thorlabs.py 1682-1685 *)
  ; ("ACN127_025_B", LDoubletD (mkDoublet (dec (-250) 1) (dec (-277) 1) (Some (dec (-136) 1)) (Some (dec 171 1)) (Some (dec (-8590) 1)) (dec 15 1) (dec 28 1) (dec 59 1) (dec 127 1) None None (Some "N_BAF10") (Some "N_SF6HT") (Some (dec 5876 4))) true)  (* thorlabs.py 1689-1692 *)
  ; ("ACN127_030_B", LDoubletD (mkDoublet (dec (-300) 1) (dec (-320) 1) (Some (dec (-193) 1)) (Some (dec 184 1)) (Some (dec 1064 1)) (dec 15 1) (dec 25 1) (dec 53 1) (dec 127 1) None None (Some "N_LAK22") (Some "N_SF6HT") (Some (dec 5876 4))) true)  (* thorlabs.py 1696-1699 *)
  ; ("ACN127_050_B", LDoubletD (mkDoublet (dec (-500) 1) (dec (-525) 1) (Some (dec (-244) 1)) (Some (dec 304 1)) (Some (dec (-2911) 1)) (dec 15 1) (dec 20 1) (dec 43 1) (dec 127 1) None None (Some "N_BAF10") (Some "N_SF6HT") (Some (dec 5876 4))) true)  (* thorlabs.py 1703-1706 *)
  ; ("AC127_019_B", LDoubletD (mkDoublet (dec 190 1) (dec 155 1) (Some (dec 122 1)) (Some (dec (-106) 1)) (Some (dec (-774) 1)) (dec 45 1) (dec 15 1) (dec 39 1) (dec 127 1) None None (Some "N_BAF10") (Some "N_SF6HT") (Some (dec 5876 4))) true)  (* thorlabs.py 1710-1713 *)
  ; ("AC127_025_B", LDoubletD (mkDoublet (dec 250 1) (dec 211 1) (Some (dec 162 1)) (Some (dec (-133) 1)) (Some (dec (-685) 1)) (dec 50 1) (dec 20 1) (dec 54 1) (dec 127 1) None None (Some "N_LAK22") (Some "N_SF6HT") (Some (dec 5876 4))) true)  (* thorlabs.py 1717-1720 *)
  ; ("AC127_030_B", LDoubletD (mkDoublet (dec 300 1) (dec 273 1) (Some (dec 198 1)) (Some (dec (-162) 1)) (Some (dec (-791) 1)) (dec 35 1) (dec 15 1) (dec 37 1) (dec 127 1) None None (Some "N_LAK22") (Some "N_SF6HT") (Some (dec 5876 4))) true)  (* thorlabs.py 1724-1727 *)
  ; ("AC127_050_B", LDoubletD (mkDoublet (dec 500 1) (dec 462 1) (Some (dec 242 1)) (Some (dec (-268) 1)) (Some (dec 2500 1)) (dec 35 1) (dec 15 1) (dec 42 1) (dec 127 1) None None (Some "N_BAF10") (Some "N_SF6HT") (Some (dec 5876 4))) true)  (* thorlabs.py 1731-1734 *)
  ; ("AC127_075_B", LDoubletD (mkDoublet (dec 750 1) (dec 720 1) (Some (dec 362 1)) (Some (dec (-404) 1)) (Some (dec 3981 1)) (dec 25 1) (dec 15 1) (dec 35 1) (dec 127 1) None None (Some "N_BAF10") (Some "N_SF6HT") (Some (dec 5876 4))) true)  (* thorlabs.py 1738-1741 *)
  ; ("ACN254_040_B", LDoubletD (mkDoublet (dec (-400) 1) (dec (-434) 1) (Some (dec (-2443) 2)) (Some (dec 2786 2)) (Some (dec 33230 2)) (dec 20 1) (dec 40 1) (dec 98 1) (dec 254 1) None None (Some "N_BAF10") (Some "N_SF6HT") (Some (dec 5876 4))) true)  (* thorlabs.py 1745-1748 *)
  ; ("ACN254_050_B", LDoubletD (mkDoublet (dec (-500) 1) (dec (-538) 1) (Some (dec (-2705) 2)) (Some (dec 3391 2)) (Some (dec (-133050) 2)) (dec 20 1) (dec 40 1) (dec 91 1) (dec 254 1) None None (Some "N_BAF10") (Some "N_SF6HT") (Some (dec 5876 4))) true)  (* thorlabs.py 1752-1755 *)
  ; ("ACN254_075_B", LDoubletD (mkDoublet (dec (-750) 1) (dec (-789) 1) (Some (dec (-3714) 2)) (Some (dec 4639 2)) (Some (dec (-4943) 1)) (dec 20 1) (dec 38 1) (dec 79 1) (dec 254 1) None None (Some "N_BAF10") (Some "N_SF6HT") (Some (dec 5876 4))) true)  (* thorlabs.py 1759-1762 *)
  ; ("ACN254_100_B", LDoubletD (mkDoublet (dec (-1001) 1) (dec (-1039) 1) (Some (dec (-488) 1)) (Some (dec 590 1)) (Some (dec (-5808) 1)) (dec 20 1) (dec 34 1) (dec 69 1) (dec 254 1) None None (Some "N_BAF10") (Some "N_SF6HT") (Some (dec 5876 4))) true)  (* thorlabs.py 1766-1769 *)
  ; ("AC254_030_B", LDoubletD (mkDoublet (dec 300 1) (dec 230 1) (Some (dec 2109 2)) (Some (dec (-1618) 2)) (Some (dec (-7908) 2)) (dec 120 1) (dec 15 1) (dec 82 1) (dec 254 1) None None (Some "N_BAF10") (Some "N_SF6HT") (Some (dec 5876 4))) true)  (* thorlabs.py 1773-1776 *)
  ; ("AC254_035_B", LDoubletD (mkDoublet (dec 350 1) (dec 284 1) (Some (dec 2399 2)) (Some (dec (-1862) 2)) (Some (dec (-9727) 2)) (dec 105 1) (dec 15 1) (dec 75 1) (dec 254 1) None None (Some "N_BAF10") (Some "N_SF6HT") (Some (dec 5876 4))) true)  (* thorlabs.py 1780-1783 *)
  ; ("AC254_040_B", LDoubletD (mkDoublet (dec 400 1) (dec 328 1) (Some (dec 2612 2)) (Some (dec (-2128) 2)) (Some (dec (-13709) 2)) (dec 100 1) (dec 25 1) (dec 86 1) (dec 254 1) None None (Some "N_BAF10") (Some "N_SF6HT") (Some (dec 5876 4))) true)  (* thorlabs.py 1787-1790 *)
  ; ("AC254_045_B", LDoubletD (mkDoublet (dec 450 1) (dec 396 1) (Some (dec 2938 2)) (Some (dec (-2505) 2)) (Some (dec (-12706) 2)) (dec 78 1) (dec 16 1) (dec 59 1) (dec 254 1) None None (Some "N_LAK22") (Some "N_SF6HT") (Some (dec 5876 4))) true)  (* thorlabs.py 1794-1797 *)
  ; ("AC254_050_B", LDoubletD (mkDoublet (dec 500 1) (dec 450 1) (Some (dec 3355 2)) (Some (dec (-2705) 2)) (Some (dec (-12560) 2)) (dec 75 1) (dec 18 1) (dec 62 1) (dec 254 1) None None (Some "N_LAK22") (Some "N_SF6HT") (Some (dec 5876 4))) true)  (* thorlabs.py 1801-1804 *)
  ; ("AC254_060_B", LDoubletD (mkDoublet (dec 600 1) (dec 558 1) (Some (dec 3948 2)) (Some (dec (-330) 1)) (Some (dec (-16520) 2)) (dec 60 1) (dec 17 1) (dec 51 1) (dec 254 1) None None (Some "N_LAK22") (Some "N_SF6HT") (Some (dec 5876 4))) true)  (* thorlabs.py 1808-1811 *)
  ; ("AC254_075_B", LDoubletD (mkDoublet (dec 750 1) (dec 699 1) (Some (dec 369 1)) (Some (dec (-4217) 2)) (Some (dec 4178 1)) (dec 50 1) (dec 16 1) (dec 45 1) (dec 254 1) None None (Some "N_BAF10") (Some "N_SF6HT") (Some (dec 5876 4))) true)  (* thorlabs.py 1815-1818 *)
  ; ("AC254_080_B", LDoubletD (mkDoublet (dec 803 1) (dec 735 1) (Some (dec 387 1)) (Some (dec (-432) 1)) (Some (dec 3740 1)) (dec 66 1) (dec 20 1) (dec 64 1) (dec 254 1) None None (Some "N_BAF10") (Some "N_SF6HT") (Some (dec 5876 4))) true)  (* thorlabs.py 1822-1825 *)
  ; ("AC254_100_B", LDoubletD (mkDoublet (dec 1000 1) (dec 971 1) (Some (dec 6668 2)) (Some (dec (-537) 1)) (Some (dec (-25941) 2)) (dec 40 1) (dec 15 1) (dec 40 1) (dec 254 1) None None (Some "N_LAK22") (Some "N_SF6HT") (Some (dec 5876 4))) true)  (* thorlabs.py 1829-1832 *)
  ; ("AC254_125_B", LDoubletD (mkDoublet (dec 1250 1) (dec 1154 1) (Some (dec 445 1)) (Some (dec (-553) 1)) (Some (dec 9305 1)) (dec 60 1) (dec 60 1) (dec 100 1) (dec 254 1) None None (Some "N_BK7") (Some "N_SF8") (Some (dec 5876 4))) true)  (* thorlabs.py 1836-1839 *)
  ; ("AC254_150_B", LDoubletD (mkDoublet (dec 1500 1) (dec 1446 1) (Some (dec 836 1)) (Some (dec (-8933) 2)) (Some (dec (-133050) 2)) (dec 40 1) (dec 35 1) (dec 65 1) (dec 254 1) None None (Some "N_LAK22") (Some "N_SF6HT") (Some (dec 5876 4))) true)  (* thorlabs.py 1843-1846 *)
  ; ("AC254_200_B", LDoubletD (mkDoublet (dec 2000 1) (dec 1948 1) (Some (dec 1064 1)) (Some (dec (-966) 1)) (Some (dec 20000 1)) (dec 40 1) (dec 40 1) (dec 73 1) (dec 254 1) None None (Some "N_LAK22") (Some "N_SF10") (Some (dec 5876 4))) true)  (* thorlabs.py 1850-1853 *)
  ; ("AC254_250_B", LDoubletD (mkDoublet (dec 2500 1) (dec 2375 1) (Some (dec 520 1)) (Some (dec (-6531) 2)) (Some (dec 11151 2)) (dec 40 1) (dec 15 1) (dec 47 1) (dec 254 1) None None (Some "SF5") (Some "N_SF6HT") (Some (dec 5876 4))) true)  (* thorlabs.py 1857-1860 *)
  ; ("AC254_300_B", LDoubletD (mkDoublet (dec 3000 1) (dec 2900 1) (Some (dec 624 1)) (Some (dec (-774) 1)) (Some (dec 13400 2)) (dec 40 1) (dec 20 1) (dec 53 1) (dec 254 1) None None (Some "SF5") (Some "N_SF6HT") (Some (dec 5876 4))) true)  (* thorlabs.py 1864-1867 *)
  ; ("AC254_400_B", LDoubletD (mkDoublet (dec 4000 1) (dec 3911 1) (Some (dec 836 1)) (Some (dec (-10641) 2)) (Some (dec 18155 2)) (dec 35 1) (dec 18 1) (dec 48 1) (dec 254 1) None None (Some "SF5") (Some "N_SF6HT") (Some (dec 5876 4))) true)  (* thorlabs.py 1871-1874 *)
  ; ("AC254_500_B", LDoubletD (mkDoublet (dec 5000 1) (dec 4808 1) (Some (dec 606 1)) (Some (dec (-6275) 2)) (Some (dec 8757 2)) (dec 40 1) (dec 20 1) (dec 56 1) (dec 254 1) None None (Some "N_SF10") (Some "N_SF6HT") (Some (dec 5876 4))) true)  (* thorlabs.py 1878-1881 *)
  ; ("AC300_050_B", LDoubletD (mkDoublet (dec 500 1) (dec 429 1) (Some (dec 308 1)) (Some (dec (-279) 1)) (Some (dec (-2729) 1)) (dec 95 1) (dec 20 1) (dec 72 1) (dec 300 1) None None (Some "N_BAF10") (Some "N_SF6HT") (Some (dec 5876 4))) true)  (* thorlabs.py 1885-1888 *)
  ; ("AC300_080_B", LDoubletD (mkDoublet (dec 800 1) (dec 753 1) (Some (dec 525 1)) (Some (dec (-427) 1)) (Some (dec (-2163) 1)) (dec 65 1) (dec 20 1) (dec 58 1) (dec 300 1) None None (Some "N_LAK22") (Some "N_SF6HT") (Some (dec 5876 4))) true)  (* thorlabs.py 1892-1895 *)
  ; ("AC300_100_B", LDoubletD (mkDoublet (dec 1000 1) (dec 940 1) (Some (dec 491 1)) (Some (dec (-553) 1)) (Some (dec 5574 1)) (dec 60 1) (dec 20 1) (dec 59 1) (dec 300 1) None None (Some "N_BAF10") (Some "N_SF6HT") (Some (dec 5876 4))) true)  (* thorlabs.py 1899-1902 *)
  ; ("AC508_075_B", LDoubletD (mkDoublet (dec 750 1) (dec 657 1) (Some (dec 518 1)) (Some (dec (-931) 1)) (Some (dec (-2911) 1)) (dec 120 1) (dec 50 1) (dec 92 1) (dec 508 1) None None (Some "N_LAK22") (Some "N_SF6HT") (Some (dec 5876 4))) true)  (* thorlabs.py 1906-1909 *)
  ; ("AC508_080_B", LDoubletD (mkDoublet (dec 800 1) (dec 695 1) (Some (dec 518 1)) (Some (dec (-446) 1)) (Some (dec (-3126) 1)) (dec 160 1) (dec 20 1) (dec 103 1) (dec 508 1) None None (Some "N_BAF10") (Some "N_SF6HT") (Some (dec 5876 4))) true)  (* thorlabs.py 1913-1916 *)
  ; ("AC508_100_B", LDoubletD (mkDoublet (dec 1000 1) (dec 915 1) (Some (dec 658 1)) (Some (dec (-560) 1)) (Some (dec (-2806) 1)) (dec 130 1) (dec 20 1) (dec 87 1) (dec 508 1) None None (Some "N_LAK22") (Some "N_SF6HT") (Some (dec 5876 4))) true)  (* thorlabs.py 1920-1923 *)
  ; ("AC508_150_B", LDoubletD (mkDoublet (dec 1500 1) (dec 1453 1) (Some (dec 1122 1)) (Some (dec (-959) 1)) (Some (dec (-3251) 1)) (dec 82 1) (dec 50 1) (dec 93 1) (dec 508 1) None None (Some "N_LAK22") (Some "N_SF6HT") (Some (dec 5876 4))) true)  (* thorlabs.py 1927-1930 *)
  ; ("ACT508_200_B", LDoubletD (mkDoublet (dec 2000 1) (dec 1932 1) (Some (dec 1210 1)) (Some (dec (-1187) 1)) (Some (dec (-4222) 1)) (dec 82 1) (dec 50 1) (dec 98 1) (dec 508 1) None None (Some "N_SK2") (Some "N_SF57") (Some (dec 5876 4))) true)  (* thorlabs.py 1934-1937 *)
  ; ("ACT508_250_B", LDoubletD (mkDoublet (dec 2500 1) (dec 2418 1) (Some (dec 1377 1)) (Some (dec (-1377) 1)) (Some (dec (-9304) 1)) (dec 81 1) (dec 60 1) (dec 114 1) (dec 508 1) None None (Some "N_SK2") (Some "N_SF11") (Some (dec 5876 4))) true)  (* thorlabs.py 1941-1944 *)
  ; ("ACT508_300_B", LDoubletD (mkDoublet (dec 3000 1) (dec 2914 1) (Some (dec 1581 1)) (Some (dec (-1711) 1)) (Some (dec (-15299) 1)) (dec 80 1) (dec 60 1) (dec 118 1) (dec 508 1) None None (Some "N_SK2") (Some "N_SF11") (Some (dec 5876 4))) true)  (* thorlabs.py 1948-1951 *)
  ; ("ACT508_400_B", LDoubletD (mkDoublet (dec 4000 1) (dec 3895 1) (Some (dec 1898 1)) (Some (dec (-1528) 1)) (Some (dec (-22909) 1)) (dec 80 1) (dec 60 1) (dec 125 1) (dec 508 1) None None (Some "N_SK2") (Some "N_SF5") (Some (dec 5876 4))) true)  (* thorlabs.py 1955-1958 *)
  ; ("ACT508_500_B", LDoubletD (mkDoublet (dec 5000 1) (dec 4911 1) (Some (dec 2338 1)) (Some (dec (-1928) 1)) (Some (dec (-24711) 1)) (dec 60 1) (dec 60 1) (dec 108 1) (dec 508 1) None None (Some "N_SK2") (Some "N_SF5") (Some (dec 5876 4))) true)  (* thorlabs.py 1962-1965 *)
  ; ("ACT508_750_B", LDoubletD (mkDoublet (dec 7500 1) (dec 7424 1) (Some (dec 3867 1)) (Some (dec (-2696) 1)) None (dec 60 1) (dec 50 1) (dec 102 1) (dec 508 1) None None (Some "N_SK2") (Some "N_SF5") (Some (dec 5876 4))) true)  (* thorlabs.py 1969-1972 *)
  ; ("ACT508_1000_B", LDoubletD (mkDoublet (dec 10000 1) (dec 9911 1) (Some (dec 4652 1)) (Some (dec (-3887) 1)) (Some (dec (-47262) 1)) (dec 60 1) (dec 60 1) (dec 114 1) (dec 508 1) None None (Some "N_SK2") (Some "N_SF5") (Some (dec 5876 4))) true)  (* thorlabs.py 1976-1979 *)
  ; ("AC020_004_C", LDoubletD (mkDoublet (dec 399 2) (dec 245 2) (Some (dec 189 2)) (Some (dec (-20) 1)) (Some (dec (-1971) 2)) (dec 135 2) (dec 10 1) (dec 204 2) (dec 20 1) None None (Some "S_PHM52") (Some "S_NPH2") (Some (dec 5876 4))) true)  (* thorlabs.py 1983-1986 *)
  ; ("AC050_008_C", LDoubletD (mkDoublet (dec 75 1) (dec 52 1) (Some (dec 46 1)) (Some (dec (-39) 1)) (Some (dec (-239) 1)) (dec 25 1) (dec 15 1) (dec 31 1) (dec 50 1) None None (Some "N_LAK22") (Some "N_SF6") (Some (dec 5876 4))) true)  (* thorlabs.py 1990-1993 *)
  ; ("AC050_010_C", LDoubletD (mkDoublet (dec 100 1) (dec 69 1) (Some (dec 46 1)) (Some (dec (-46) 1)) (Some (dec 360 1)) (dec 25 1) (dec 15 1) (dec 34 1) (dec 50 1) None None (Some "N_LAK22") (Some "N_SF6") (Some (dec 5876 4))) true)  (* thorlabs.py 1997-2000 *)
  ; ("AC050_015_C", LDoubletD (mkDoublet (dec 150 1) (dec 116 1) (Some (dec 53 1)) (Some (dec (-55) 1)) (Some (dec 152 1)) (dec 20 1) (dec 13 1) (dec 29 1) (dec 50 1) None None (Some "N_BAF10") (Some "N_SF6") (Some (dec 5876 4))) true)  (* thorlabs.py 2004-2007 *)
  ; ("AC060_010_C", LDoubletD (mkDoublet (dec 100 1) (dec 85 1) (Some (dec 104 1)) (Some (dec (-36) 1)) (Some (dec (-92) 1)) (dec 35 1) (dec 13 1) (dec 39 1) (dec 60 1) None None (Some "N_LAK22") (Some "N_SF6") (Some (dec 5876 4))) true)  (* thorlabs.py 2011-2014 *)
  ; ("AC064_013_C", LDoubletD (mkDoublet (dec 127 1) (dec 114 1) (Some (dec 132 1)) (Some (dec (-49) 1)) (Some (dec (-124) 1)) (dec 28 1) (dec 13 1) (dec 33 1) (dec 635 2) None None (Some "N_LAK22") (Some "N_SF6") (Some (dec 5876 4))) true)  (* thorlabs.py 2018-2021 *)
  ; ("AC064_015_C", LDoubletD (mkDoublet (dec 150 1) (dec 144 1) (Some (dec 227 1)) (Some (dec (-49) 1)) (Some (dec (-113) 1)) (dec 23 1) (dec 13 1) (dec 29 1) (dec 635 2) None None (Some "N_LAK22") (Some "N_SF6") (Some (dec 5876 4))) true)  (* thorlabs.py 2025-2028 *)
  ; ("AC080_010_C", LDoubletD (mkDoublet (dec 100 1) (dec 72 1) (Some (dec 71 1)) (Some (dec (-49) 1)) (Some (dec (-209) 1)) (dec 42 1) (dec 13 1) (dec 39 1) (dec 80 1) None None (Some "N_BAF10") (Some "N_SF6") (Some (dec 5876 4))) true)  (* thorlabs.py 2032-2035 *)
  ; ("AC080_016_C", LDoubletD (mkDoublet (dec 160 1) (dec 123 1) (Some (dec 75 1)) (Some (dec (-78) 1)) (Some (dec 685 1)) (dec 35 1) (dec 13 1) (dec 38 1) (dec 80 1) None None (Some "N_LAK22") (Some "N_SF6") (Some (dec 5876 4))) true)  (* thorlabs.py 2039-2042 *)
  ; ("AC080_020_C", LDoubletD (mkDoublet (dec 200 1) (dec 157 1) (Some (dec 78 1)) (Some (dec (-86) 1)) (Some (dec 319 1)) (dec 33 1) (dec 13 1) (dec 37 1) (dec 80 1) None None (Some "N_LAK22") (Some "N_SF6") (Some (dec 5876 4))) true)  (* thorlabs.py 2046-2049 *)
  ; ("AC080_030_C", LDoubletD (mkDoublet (dec 300 1) (dec 273 1) (Some (dec 123 1)) (Some (dec (-160) 1)) (Some (dec (-704) 1)) (dec 23 1) (dec 23 1) (dec 37 1) (dec 80 1) None None (Some "N_PK52A") (Some "N_SF6") (Some (dec 5876 4))) true)  (* thorlabs.py 2053-2056 *)
  ; ("AC127_019_C", LDoubletD (mkDoublet (dec 190 1) (dec 154 1) (Some (dec 124 1)) (Some (dec (-100) 1)) (Some (dec (-488) 1)) (dec 50 1) (dec 15 1) (dec 44 1) (dec 127 1) None None (Some "N_LAK22") (Some "N_SF6") (Some (dec 5876 4))) true)  (* thorlabs.py 2060-2063 *)
  ; ("AC127_025_C", LDoubletD (mkDoublet (dec 250 1) (dec 203 1) (Some (dec 120 1)) (Some (dec (-129) 1)) (Some (dec 1517 1)) (dec 47 1) (dec 15 1) (dec 46 1) (dec 127 1) None None (Some "N_LAK22") (Some "N_SF6") (Some (dec 5876 4))) true)  (* thorlabs.py 2067-2070 *)
  ; ("AC127_030_C", LDoubletD (mkDoublet (dec 300 1) (dec 245 1) (Some (dec 124 1)) (Some (dec (-140) 1)) (Some (dec 653 1)) (dec 47 1) (dec 15 1) (dec 48 1) (dec 127 1) None None (Some "N_LAK22") (Some "N_SF6") (Some (dec 5876 4))) true)  (* thorlabs.py 2074-2077 *)
  ; ("AC127_050_C", LDoubletD (mkDoublet (dec 499 1) (dec 435 1) (Some (dec 160 1)) (Some (dec (-184) 1)) (Some (dec 446 1)) (dec 40 1) (dec 15 1) (dec 47 1) (dec 127 1) None None (Some "N_BAF10") (Some "N_SF6") (Some (dec 5876 4))) true)  (* thorlabs.py 2081-2084 *)
  ; ("AC127_075_C", LDoubletD (mkDoublet (dec 751 1) (dec 698 1) (Some (dec 232 1)) (Some (dec (-279) 1)) (Some (dec 667 1)) (dec 30 1) (dec 15 1) (dec 39 1) (dec 127 1) None None (Some "N_BAF10") (Some "N_SF6") (Some (dec 5876 4))) true)  (* thorlabs.py 2088-2091 *)
  ; ("AC254_030_C", LDoubletD (mkDoublet (dec 304 1) (dec 222 1) (Some (dec 211 1)) (Some (dec (-152) 1)) (Some (dec (-711) 1)) (dec 130 1) (dec 18 1) (dec 95 1) (dec 254 1) None None (Some "N_BAF10") (Some "N_SF6") (Some (dec 5876 4))) true)  (* thorlabs.py 2095-2098 *)
  ; ("AC254_035_C", LDoubletD (mkDoublet (dec 351 1) (dec 274 1) (Some (dec 232 1)) (Some (dec (-179) 1)) (Some (dec (-1052) 1)) (dec 115 1) (dec 18 1) (dec 88 1) (dec 254 1) None None (Some "N_BAF10") (Some "N_SF6") (Some (dec 5876 4))) true)  (* thorlabs.py 2102-2105 *)
  ; ("AC254_040_C", LDoubletD (mkDoublet (dec 400 1) (dec 328 1) (Some (dec 244 1)) (Some (dec (-211) 1)) (Some (dec (-1439) 1)) (dec 100 1) (dec 18 1) (dec 78 1) (dec 254 1) None None (Some "N_LAK22") (Some "N_SF6") (Some (dec 5876 4))) true)  (* thorlabs.py 2109-2112 *)
  ; ("AC254_045_C", LDoubletD (mkDoublet (dec 450 1) (dec 367 1) (Some (dec 229 1)) (Some (dec (-237) 1)) (Some (dec 9000 1)) (dec 96 1) (dec 18 1) (dec 77 1) (dec 254 1) None None (Some "N_LAK22") (Some "N_SF6") (Some (dec 5876 4))) true)  (* thorlabs.py 2116-2119 *)
  ; ("AC254_050_C", LDoubletD (mkDoublet (dec 500 1) (dec 412 1) (Some (dec 229 1)) (Some (dec (-259) 1)) (Some (dec 1945 1)) (dec 90 1) (dec 18 1) (dec 73 1) (dec 254 1) None None (Some "N_LAK22") (Some "N_SF6") (Some (dec 5876 4))) true)  (* thorlabs.py 2123-2126 *)
  ; ("AC254_060_C", LDoubletD (mkDoublet (dec 600 1) (dec 505 1) (Some (dec 239 1)) (Some (dec (-281) 1)) (Some (dec 1121 1)) (dec 83 1) (dec 18 1) (dec 72 1) (dec 254 1) None None (Some "N_LAK22") (Some "N_SF6") (Some (dec 5876 4))) true)  (* thorlabs.py 2130-2133 *)
  ; ("AC254_075_C", LDoubletD (mkDoublet (dec 751 1) (dec 650 1) (Some (dec 264 1)) (Some (dec (-294) 1)) (Some (dec 849 1)) (dec 76 1) (dec 18 1) (dec 71 1) (dec 254 1) None None (Some "N_BAF10") (Some "N_SF6") (Some (dec 5876 4))) true)  (* thorlabs.py 2137-2140 *)
  ; ("AC254_100_C", LDoubletD (mkDoublet (dec 1001 1) (dec 904 1) (Some (dec 321 1)) (Some (dec (-380) 1)) (Some (dec 935 1)) (dec 65 1) (dec 18 1) (dec 66 1) (dec 254 1) None None (Some "N_BAF10") (Some "N_SF6") (Some (dec 5876 4))) true)  (* thorlabs.py 2144-2147 *)
  ; ("AC254_125_C", LDoubletD (mkDoublet (dec 1250 1) (dec 11535 2) (Some (dec 369 1)) (Some (dec (-475) 1)) (Some (dec 1086 1)) (dec 50 1) (dec 30 1) (dec 65 1) (dec 254 1) None None (Some "N_LAK22") (Some "N_SF6") (Some (dec 5876 4))) true)  (* thorlabs.py 2151-2154 *)
  ; ("AC254_150_C", LDoubletD (mkDoublet (dec 1505 1) (dec 1408 1) (Some (dec 427 1)) (Some (dec (-520) 1)) (Some (dec 1115 1)) (dec 50 1) (dec 25 1) (dec 63 1) (dec 254 1) None None (Some "N_BAF10") (Some "N_SF6") (Some (dec 5876 4))) true)  (* thorlabs.py 2158-2161 *)
  ; ("AC254_200_C", LDoubletD (mkDoublet (dec 2001 1) (dec 1931 1) (Some (dec 700 1)) (Some (dec (-959) 1)) (Some (dec 2743 1)) (dec 40 1) (dec 30 1) (dec 62 1) (dec 254 1) None None (Some "N_LAK22") (Some "N_SF6") (Some (dec 5876 4))) true)  (* thorlabs.py 2165-2168 *)
  ; ("AC254_250_C", LDoubletD (mkDoublet (dec 2492 1) (dec 2352 1) (Some (dec 440 1)) (Some (dec (-577) 1)) (Some (dec 931 1)) (dec 45 1) (dec 25 1) (dec 60 1) (dec 254 1) None None (Some "N_SF2") (Some "N_SF6") (Some (dec 5876 4))) true)  (* thorlabs.py 2172-2175 *)
  ; ("AC254_300_C", LDoubletD (mkDoublet (dec 2999 1) (dec 2858 1) (Some (dec 525 1)) (Some (dec (-685) 1)) (Some (dec 1122 1)) (dec 45 1) (dec 25 1) (dec 62 1) (dec 254 1) None None (Some "N_SF2") (Some "N_SF6") (Some (dec 5876 4))) true)  (* thorlabs.py 2179-2182 *)
  ; ("AC254_400_C", LDoubletD (mkDoublet (dec 4001 1) (dec 3867 1) (Some (dec 700 1)) (Some (dec (-931) 1)) (Some (dec 1514 1)) (dec 42 1) (dec 25 1) (dec 61 1) (dec 254 1) None None (Some "N_SF2") (Some "N_SF6") (Some (dec 5876 4))) true)  (* thorlabs.py 2186-2189 *)
  ; ("AC254_500_C", LDoubletD (mkDoublet (dec 4976 1) (dec 4867 1) (Some (dec 879 1)) (Some (dec (-1155) 1)) (Some (dec 1945 1)) (dec 35 1) (dec 20 1) (dec 50 1) (dec 254 1) None None (Some "N_SF2") (Some "N_SF6") (Some (dec 5876 4))) true)  (* thorlabs.py 2193-2196 *)
  ; ("AC300_050_C", LDoubletD (mkDoublet (dec 501 1) (dec 447 1) (Some (dec 417 1)) (Some (dec (-227) 1)) (Some (dec (-757) 1)) (dec 100 1) (dec 20 1) (dec 77 1) (dec 300 1) None None (Some "N_BAF10") (Some "N_SF6") (Some (dec 5876 4))) true)  (* thorlabs.py 2200-2203 *)
  ; ("AC300_080_C", LDoubletD (mkDoublet (dec 805 1) (dec 685 1) (Some (dec 294 1)) (Some (dec (-339) 1)) (Some (dec 977 1)) (dec 95 1) (dec 20 1) (dec 85 1) (dec 300 1) None None (Some "N_BAF10") (Some "N_SF6") (Some (dec 5876 4))) true)  (* thorlabs.py 2207-2210 *)
  ; ("AC300_100_C", LDoubletD (mkDoublet (dec 999 1) (dec 878 1) (Some (dec 335 1)) (Some (dec (-392) 1)) (Some (dec 1007 1)) (dec 85 1) (dec 22 1) (dec 83 1) (dec 300 1) None None (Some "N_BAF10") (Some "N_SF6") (Some (dec 5876 4))) true)  (* thorlabs.py 2214-2217 *)
  ; ("AC508_075_C", LDoubletD (mkDoublet (dec 754 1) (dec 630 1) (Some (dec 499 1)) (Some (dec (-391) 1)) (Some (dec (-2307) 1)) (dec 190 1) (dec 25 1) (dec 131 1) (dec 508 1) None None (Some "N_BAF10") (Some "N_SF6") (Some (dec 5876 4))) true)  (* thorlabs.py 2221-2224 *)
  ; ("AC508_080_C", LDoubletD (mkDoublet (dec 803 1) (dec 669 1) (Some (dec 472 1)) (Some (dec (-432) 1)) (Some (dec (-6407) 1)) (dec 180 1) (dec 25 1) (dec 126 1) (dec 508 1) None None (Some "N_BAF10") (Some "N_SF6") (Some (dec 5876 4))) true)  (* thorlabs.py 2228-2231 *)
  ; ("AC508_100_C", LDoubletD (mkDoublet (dec 997 1) (dec 830 1) (Some (dec 447 1)) (Some (dec (-483) 1)) (Some (dec 2594 1)) (dec 170 1) (dec 25 1) (dec 128 1) (dec 508 1) None None (Some "N_BAF10") (Some "N_SF6") (Some (dec 5876 4))) true)  (* thorlabs.py 2235-2238 *)
  ; ("AC508_150_C", LDoubletD (mkDoublet (dec 1502 1) (dec 1177 1) (Some (dec 395 1)) (Some (dec (-499) 1)) (Some (dec 836 1)) (dec 180 1) (dec 50 1) (dec 177 1) (dec 508 1) None None (Some "N_LAK22") (Some "N_SF6") (Some (dec 5876 4))) true)  (* thorlabs.py 2242-2245 *)
  ; ("AC508_200_C", LDoubletD (mkDoublet (dec 1992 1) (dec 1827 1) (Some (dec 671 1)) (Some (dec (-876) 1)) (Some (dec 2343 1)) (dec 120 1) (dec 30 1) (dec 114 1) (dec 508 1) None None (Some "N_LAK22") (Some "N_SF6") (Some (dec 5876 4))) true)  (* thorlabs.py 2249-2252 *)
  ; ("ACT508_250_C", LDoubletD (mkDoublet (dec 2500 1) (dec 2357 1) (Some (dec 1047 1)) (Some (dec (-1101) 1)) (Some (dec 3495 1)) (dec 100 1) (dec 50 1) (dec 128 1) (dec 508 1) None None (Some "H_LAF3B") (Some "H_ZF52GT") (Some (dec 5876 4))) true)  (* thorlabs.py 2256-2259 *)
  ; ("ACT508_300_C", LDoubletD (mkDoublet (dec 3000 1) (dec 2908 1) (Some (dec 1997 1)) (Some (dec (-914) 1)) None (dec 100 1) (dec 50 1) (dec 134 1) (dec 508 1) None None (Some "H_LAF3B") (Some "H_ZF13") (Some (dec 5876 4))) true)  (* thorlabs.py 2263-2266 *)
  ; ("ACT508_400_C", LDoubletD (mkDoublet (dec 4000 1) (dec 3897 1) (Some (dec 2287 1)) (Some (dec (-649) 1)) None (dec 100 1) (dec 60 1) (dec 146 1) (dec 508 1) None None (Some "H_ZK50") (Some "H_F4") (Some (dec 5876 4))) true)  (* thorlabs.py 2270-2273 *)
  ; ("AC508_500_C", LDoubletD (mkDoublet (dec 4997 1) (dec 4743 1) (Some (dec 861 1)) (Some (dec (-1032) 1)) (Some (dec 1660 1)) (dec 88 1) (dec 30 1) (dec 99 1) (dec 508 1) None None (Some "N_SF5") (Some "N_SF6") (Some (dec 5876 4))) true)  (* thorlabs.py 2277-2280 *)
  ; ("AC508_750_C", LDoubletD (mkDoublet (dec 7489 1) (dec 7106 1) (Some (dec 916 1)) (Some (dec (-959) 1)) (Some (dec 1306 1)) (dec 88 1) (dec 30 1) (dec 107 1) (dec 508 1) None None (Some "N_SF10") (Some "N_SF6") (Some (dec 5876 4))) true)  (* thorlabs.py 2284-2287 *)
  ; ("AC508_1000_C", LDoubletD (mkDoublet (dec 10100 1) (dec 9903 1) (Some (dec 1730 1)) (Some (dec (-2343) 1)) (Some (dec 3360 1)) (dec 60 1) (dec 30 1) (dec 81 1) (dec 508 1) None None (Some "N_SF5") (Some "N_SF6") (Some (dec 5876 4))) true)  (* thorlabs.py 2291-2294 *)
  ; ("AC050_008_A_ML", LDoubletD (mkDoublet (dec 75 1) (dec 52 1) (Some (dec 53 1)) (Some (dec (-39) 1)) (Some (dec (-171) 1)) (dec 28 1) (dec 17 1) (dec 37 1) (dec 50 1) None None (Some "N_BAF10") (Some "N_SF6HT") (Some (dec 5876 4))) true)  (* thorlabs.py 2298-2301 *)
  ; ("AC050_010_A_ML", LDoubletD (mkDoublet (dec 100 1) (dec 79 1) (Some (dec 66 1)) (Some (dec (-43) 1)) (Some (dec (-154) 1)) (dec 25 1) (dec 19 1) (dec 37 1) (dec 50 1) None None (Some "N_BAK4") (Some "SF5") (Some (dec 5876 4))) true)  (* thorlabs.py 2305-2308 *)
  ; ("AC050_015_A_ML", LDoubletD (mkDoublet (dec 150 1) (dec 136 1) (Some (dec 125 1)) (Some (dec (-53) 1)) (Some (dec (-121) 1)) (dec 27 1) (dec 21 1) (dec 43 1) (dec 50 1) None None (Some "N_BK7") (Some "SF2") (Some (dec 5876 4))) true)  (* thorlabs.py 2312-2315 *)
  ; ("AC060_010_A_ML", LDoubletD (mkDoublet (dec 100 1) (dec 79 1) (Some (dec 62 1)) (Some (dec (-46) 1)) (Some (dec (-196) 1)) (dec 25 1) (dec 15 1) (dec 30 1) (dec 60 1) None None (Some "N_BAK4") (Some "SF5") (Some (dec 5876 4))) true)  (* thorlabs.py 2319-2322 *)
  ; ("AC064_013_A_ML", LDoubletD (mkDoublet (dec 127 1) (dec 103 1) (Some (dec 71 1)) (Some (dec (-59) 1)) (Some (dec (-404) 1)) (dec 25 1) (dec 15 1) (dec 31 1) (dec 635 2) None None (Some "N_BAK4") (Some "SF5") (Some (dec 5876 4))) true)  (* thorlabs.py 2326-2329 *)
  ; ("AC064_015_A_ML", LDoubletD (mkDoublet (dec 150 1) (dec 130 1) (Some (dec 88 1)) (Some (dec (-66) 1)) (Some (dec (-217) 1)) (dec 25 1) (dec 15 1) (dec 32 1) (dec 635 2) None None (Some "N_BK7") (Some "SF2") (Some (dec 5876 4))) true)  (* thorlabs.py 2333-2336 *)
  ; ("AC080_010_A_ML", LDoubletD (mkDoublet (dec 100 1) (dec 67 1) (Some (dec 71 1)) (Some (dec (-53) 1)) (Some (dec (-227) 1)) (dec 45 1) (dec 20 1) (dec 49 1) (dec 80 1) None None (Some "N_BAF10") (Some "N_SF6HT") (Some (dec 5876 4))) true)  (* thorlabs.py 2340-2343 *)
  ; ("AC080_016_A_ML", LDoubletD (mkDoublet (dec 160 1) (dec 139 1) (Some (dec 110 1)) (Some (dec (-92) 1)) (Some (dec (-468) 1)) (dec 25 1) (dec 15 1) (dec 31 1) (dec 80 1) None None (Some "N_BAF10") (Some "N_SF6HT") (Some (dec 5876 4))) true)  (* thorlabs.py 2347-2350 *)
  ; ("AC080_020_A_ML", LDoubletD (mkDoublet (dec 200 1) (dec 178 1) (Some (dec 111 1)) (Some (dec (-92) 1)) (Some (dec (-348) 1)) (dec 25 1) (dec 15 1) (dec 30 1) (dec 80 1) None None (Some "N_BK7") (Some "SF2") (Some (dec 5876 4))) true)  (* thorlabs.py 2354-2357 *)
  ; ("AC080_030_A_ML", LDoubletD (mkDoublet (dec 300 1) (dec 278 1) (Some (dec 160 1)) (Some (dec (-135) 1)) (Some (dec (-594) 1)) (dec 25 1) (dec 15 1) (dec 34 1) (dec 80 1) None None (Some "N_BK7") (Some "N_SF2") (Some (dec 5876 4))) true)  (* thorlabs.py 2361-2364 *)
  ; ("AC127_019_A_ML", LDoubletD (mkDoublet (dec 190 1) (dec 157 1) (Some (dec 129 1)) (Some (dec (-110) 1)) (Some (dec (-593) 1)) (dec 45 1) (dec 15 1) (dec 40 1) (dec 127 1) None None (Some "N_BAF10") (Some "N_SF6HT") (Some (dec 5876 4))) true)  (* thorlabs.py 2368-2371 *)
  ; ("AC127_025_A_ML", LDoubletD (mkDoublet (dec 250 1) (dec 215 1) (Some (dec 188 1)) (Some (dec (-106) 1)) (Some (dec (-681) 1)) (dec 50 1) (dec 20 1) (dec 56 1) (dec 127 1) None None (Some "N_BAF10") (Some "N_SF10") (Some (dec 5876 4))) true)  (* thorlabs.py 2375-2378 *)
  ; ("AC127_030_A_ML", LDoubletD (mkDoublet (dec 300 1) (dec 275 1) (Some (dec 179 1)) (Some (dec (-135) 1)) (Some (dec (-442) 1)) (dec 35 1) (dec 15 1) (dec 34 1) (dec 127 1) None None (Some "N_BK7") (Some "SF2") (Some (dec 5876 4))) true)  (* thorlabs.py 2382-2385 *)
  ; ("AC127_050_A_ML", LDoubletD (mkDoublet (dec 500 1) (dec 472 1) (Some (dec 274 1)) (Some (dec (-225) 1)) (Some (dec (-918) 1)) (dec 35 1) (dec 15 1) (dec 40 1) (dec 127 1) None None (Some "N_BK7") (Some "SF2") (Some (dec 5876 4))) true)  (* thorlabs.py 2389-2392 *)
  ; ("AC127_075_A_ML", LDoubletD (mkDoublet (dec 750 1) (dec 729 1) (Some (dec 413 1)) (Some (dec (-340) 1)) (Some (dec (-1371) 1)) (dec 25 1) (dec 15 1) (dec 34 1) (dec 127 1) None None (Some "N_BK7") (Some "SF2") (Some (dec 5876 4))) true)  (* thorlabs.py 2396-2399 *)
  ; ("AC254_030_A_ML", LDoubletD (mkDoublet (dec 300 1) (dec 229 1) (Some (dec 209 1)) (Some (dec (-167) 1)) (Some (dec (-798) 1)) (dec 120 1) (dec 20 1) (dec 88 1) (dec 254 1) None None (Some "N_BAF10") (Some "N_SF6HT") (Some (dec 5876 4))) true)  (* thorlabs.py 2403-2406 *)
  ; ("AC254_035_A_ML", LDoubletD (mkDoublet (dec 350 1) (dec 273 1) (Some (dec 240 1)) (Some (dec (-191) 1)) (Some (dec (-1021) 1)) (dec 120 1) (dec 20 1) (dec 96 1) (dec 254 1) None None (Some "N_BAF10") (Some "N_SF6HT") (Some (dec 5876 4))) true)  (* thorlabs.py 2410-2413 *)
  ; ("AC254_040_A_ML", LDoubletD (mkDoublet (dec 400 1) (dec 334 1) (Some (dec 237 1)) (Some (dec (-201) 1)) (Some (dec (-577) 1)) (dec 100 1) (dec 25 1) (dec 74 1) (dec 254 1) None None (Some "N_BK7") (Some "SF5") (Some (dec 5876 4))) true)  (* thorlabs.py 2417-2420 *)
  ; ("AC254_045_A_ML", LDoubletD (mkDoublet (dec 450 1) (dec 402 1) (Some (dec 312 1)) (Some (dec (-259) 1)) (Some (dec (-1306) 1)) (dec 70 1) (dec 20 1) (dec 57 1) (dec 254 1) None None (Some "N_BAF10") (Some "N_SF6HT") (Some (dec 5876 4))) true)  (* thorlabs.py 2424-2427 *)
  ; ("AC254_050_A_ML", LDoubletD (mkDoublet (dec 500 1) (dec 434 1) (Some (dec 333 1)) (Some (dec (-223) 1)) (Some (dec (-2911) 1)) (dec 90 1) (dec 25 1) (dec 87 1) (dec 254 1) None None (Some "N_BAF10") (Some "N_SF10") (Some (dec 5876 4))) true)  (* thorlabs.py 2431-2434 *)
  ; ("AC254_075_A_ML", LDoubletD (mkDoublet (dec 750 1) (dec 703 1) (Some (dec 465 1)) (Some (dec (-339) 1)) (Some (dec (-955) 1)) (dec 70 1) (dec 25 1) (dec 69 1) (dec 254 1) None None (Some "N_BK7") (Some "SF5") (Some (dec 5876 4))) true)  (* thorlabs.py 2445-2448 *)
  ; ("AC254_080_A_ML", LDoubletD (mkDoublet (dec 800 1) (dec 753 1) (Some (dec 496 1)) (Some (dec (-355) 1)) (Some (dec (-1012) 1)) (dec 70 1) (dec 30 1) (dec 73 1) (dec 254 1) None None (Some "N_BK7") (Some "N_SF5") (Some (dec 5876 4))) true)  (* thorlabs.py 2452-2455 *)
  ; ("AC254_100_A_ML", LDoubletD (mkDoublet (dec 1000 1) (dec 971 1) (Some (dec 628 1)) (Some (dec (-457) 1)) (Some (dec (-1282) 1)) (dec 40 1) (dec 25 1) (dec 47 1) (dec 254 1) None None (Some "N_BK7") (Some "SF5") (Some (dec 5876 4))) true)  (* thorlabs.py 2459-2462 *)
  ; ("AC254_125_A_ML", LDoubletD (mkDoublet (dec 1250 1) (dec 1220 1) (Some (dec 776 1)) (Some (dec (-559) 1)) (Some (dec (-1608) 1)) (dec 40 1) (dec 28 1) (dec 50 1) (dec 254 1) None None (Some "N_BK7") (Some "N_SF5") (Some (dec 5876 4))) true)  (* thorlabs.py 2466-2469 *)
  ; ("AC254_150_A_ML", LDoubletD (mkDoublet (dec 1500 1) (dec 1461 1) (Some (dec 916 1)) (Some (dec (-667) 1)) (Some (dec (-1977) 1)) (dec 57 1) (dec 22 1) (dec 66 1) (dec 254 1) None None (Some "N_BK7") (Some "SF5") (Some (dec 5876 4))) true)  (* thorlabs.py 2473-2476 *)
  ; ("AC254_200_A_ML", LDoubletD (mkDoublet (dec 2000 1) (dec 1940 1) (Some (dec 774 1)) (Some (dec (-876) 1)) (Some (dec 2911 1)) (dec 40 1) (dec 25 1) (dec 57 1) (dec 254 1) None None (Some "N_SSK5") (Some "LAFN7") (Some (dec 5876 4))) true)  (* thorlabs.py 2480-2483 *)
  ; ("AC254_250_A_ML", LDoubletD (mkDoublet (dec 2500 1) (dec 2467 1) (Some (dec 1371 1)) (Some (dec (-1115) 1)) (Some (dec (-4592) 1)) (dec 40 1) (dec 20 1) (dec 52 1) (dec 254 1) None None (Some "N_BK7") (Some "SF2") (Some (dec 5876 4))) true)  (* thorlabs.py 2487-2490 *)
  ; ("AC254_300_A_ML", LDoubletD (mkDoublet (dec 3000 1) (dec 2970 1) (Some (dec 1652 1)) (Some (dec (-1371) 1)) (Some (dec (-5574) 1)) (dec 40 1) (dec 20 1) (dec 54 1) (dec 254 1) None None (Some "N_BK7") (Some "SF2") (Some (dec 5876 4))) true)  (* thorlabs.py 2494-2497 *)
  ; ("AC254_400_A_ML", LDoubletD (mkDoublet (dec 4000 1) (dec 3960 1) (Some (dec 2198 1)) (Some (dec (-1816) 1)) (Some (dec (-7385) 1)) (dec 40 1) (dec 20 1) (dec 55 1) (dec 254 1) None None (Some "N_BK7") (Some "SF2") (Some (dec 5876 4))) true)  (* thorlabs.py 2501-2504 *)
  ; ("AC254_500_A_ML", LDoubletD (mkDoublet (dec 5000 1) (dec 4999 1) (Some (dec 3373 1)) (Some (dec (-1868) 1)) (Some (dec (-5574) 1)) (dec 40 1) (dec 20 1) (dec 56 1) (dec 254 1) None None (Some "N_BK7") (Some "SF2") (Some (dec 5876 4))) true)  (* thorlabs.py 2508-2511 *)
  ; ("AC508_075_A_ML", LDoubletD (mkDoublet (dec 750 1) (dec 617 1) (Some (dec 508 1)) (Some (dec (-417) 1)) (Some (dec (-2477) 1)) (dec 200 1) (dec 30 1) (dec 149 1) (dec 508 1) None None (Some "E_BAF11") (Some "N_SF11") (Some (dec 5876 4))) true)  (* thorlabs.py 2515-2518 *)
  ; ("AC508_080_A_ML", LDoubletD (mkDoublet (dec 800 1) (dec 699 1) (Some (dec 549 1)) (Some (dec (-464) 1)) (Some (dec (-2472) 1)) (dec 160 1) (dec 20 1) (dec 105 1) (dec 508 1) None None (Some "N_BAF10") (Some "N_SF6HT") (Some (dec 5876 4))) true)  (* thorlabs.py 2522-2525 *)
  ; ("AC508_100_A_ML", LDoubletD (mkDoublet (dec 1000 1) (dec 890 1) (Some (dec 711 1)) (Some (dec (-442) 1)) (Some (dec (-3631) 1)) (dec 160 1) (dec 40 1) (dec 144 1) (dec 508 1) None None (Some "N_BAF10") (Some "N_SF10") (Some (dec 5876 4))) true)  (* thorlabs.py 2529-2532 *)
  ; ("AC508_150_A_ML", LDoubletD (mkDoublet (dec 1500 1) (dec 1404 1) (Some (dec 832 1)) (Some (dec (-721) 1)) (Some (dec (-2477) 1)) (dec 120 1) (dec 30 1) (dec 97 1) (dec 508 1) None None (Some "N_BK7") (Some "SF5") (Some (dec 5876 4))) true)  (* thorlabs.py 2536-2539 *)
  ; ("AC508_180_A_MLd", LDoubletD (mkDoublet (dec 1800 1) (dec 1727 1) (Some (dec 1097 1)) (Some (dec (-807) 1)) (Some (dec (-2385) 1)) (dec 120 1) (dec 20 1) (dec 94 1) (dec 508 1) None None (Some "N_BK7") (Some "N_SF5") (Some (dec 5876 4))) true)  (* thorlabs.py 2543-2546 *)
  ; ("ACT508_200_A_MLd", LDoubletD (mkDoublet (dec 2000 1) (dec 1906 1) (Some (dec 1062 1)) (Some (dec (-921) 1)) (Some (dec (-4094) 1)) (dec 106 1) (dec 60 1) (dec 128 1) (dec 508 1) None None (Some "N_BK7") (Some "N_SF2") (Some (dec 5876 4))) true)  (* thorlabs.py 2550-2553 *)
  ; ("ACT508_250_A_ML", LDoubletD (mkDoublet (dec 2500 1) (dec 2414 1) (Some (dec 1312 1)) (Some (dec (-1160) 1)) (Some (dec (-5381) 1)) (dec 93 1) (dec 60 1) (dec 123 1) (dec 508 1) None None (Some "N_BK7") (Some "N_SF2") (Some (dec 5876 4))) true)  (* thorlabs.py 2557-2560 *)
  ; ("ACT508_300_A_ML", LDoubletD (mkDoublet (dec 3000 1) (dec 2913 1) (Some (dec 1537 1)) (Some (dec (-1399) 1)) (Some (dec (-7068) 1)) (dec 84 1) (dec 70 1) (dec 124 1) (dec 508 1) None None (Some "N_BK7") (Some "N_SF2") (Some (dec 5876 4))) true)  (* thorlabs.py 2564-2567 *)
  ; ("ACT508_400_A_ML", LDoubletD (mkDoublet (dec 4000 1) (dec 3946 1) (Some (dec 2923 1)) (Some (dec (-1489) 1)) (Some (dec (-3985) 1)) (dec 80 1) (dec 80 1) (dec 141 1) (dec 508 1) None None (Some "N_BK7") (Some "N_SF2") (Some (dec 5876 4))) true)  (* thorlabs.py 2571-2574 *)
  ; ("ACT508_500_A_ML", LDoubletD (mkDoublet (dec 5000 1) (dec 4963 1) (Some (dec 3825 1)) (Some (dec (-1821) 1)) (Some (dec (-4712) 1)) (dec 60 1) (dec 60 1) (dec 105 1) (dec 508 1) None None (Some "N_BK7") (Some "N_SF2") (Some (dec 5876 4))) true)  (* thorlabs.py 2578-2581 *)
  ; ("ACT508_750_A_ML", LDoubletD (mkDoublet (dec 7500 1) (dec 7439 1) (Some (dec 3986 1)) (Some (dec (-3437) 1)) (Some (dec (-15445) 1)) (dec 60 1) (dec 60 1) (dec 110 1) (dec 508 1) None None (Some "N_BK7") (Some "N_SF2") (Some (dec 5876 4))) true)  (* thorlabs.py 2585-2588 *)
  ; ("ACT508_1000_A_ML", LDoubletD (mkDoublet (dec 10000 1) (dec 9964 1) (Some (dec 7579 1)) (Some (dec (-3647) 1)) (Some (dec (-9542) 1)) (dec 60 1) (dec 60 1) (dec 113 1) (dec 508 1) None None (Some "N_BK7") (Some "N_SF2") (Some (dec 5876 4))) true)  (* thorlabs.py 2592-2595 *)
  ; ("AC127_019_AB_ML", LDoubletD (mkDoublet (dec 190 1) (dec 1629 2) (Some (dec 143 1)) (Some (dec (-138) 1)) (Some (dec (-685) 1)) (dec 40 1) (dec 10 1) (dec 32 1) (dec 127 1) None None (Some "N_LAK10") (Some "N_SF57") (Some (dec 5876 4))) true)  (* thorlabs.py 2599-2602 *)
  ; ("AC127_025_AB_ML", LDoubletD (mkDoublet (dec 250 1) (dec 2189 2) (Some (dec 191 1)) (Some (dec (-178) 1)) (Some (dec (-823) 1)) (dec 40 1) (dec 20 1) (dec 46 1) (dec 127 1) None None (Some "N_LAK10") (Some "N_SF57") (Some (dec 5876 4))) true)  (* thorlabs.py 2606-2609 *)
  ; ("AC127_030_AB_ML", LDoubletD (mkDoublet (dec 300 1) (dec 2716 2) (Some (dec 167 1)) (Some (dec (-138) 1)) (Some (dec (-521) 1)) (dec 40 1) (dec 10 1) (dec 33 1) (dec 127 1) None None (Some "N_BK7") (Some "N_SF2") (Some (dec 5876 4))) true)  (* thorlabs.py 2613-2616 *)
  ; ("AC127_050_AB_ML", LDoubletD (mkDoublet (dec 500 1) (dec 4656 2) (Some (dec 233 1)) (Some (dec (-226) 1)) (Some (dec (-1024) 1)) (dec 40 1) (dec 20 1) (dec 50 1) (dec 127 1) None None (Some "N_BK7") (Some "N_SF2") (Some (dec 5876 4))) true)  (* thorlabs.py 2620-2623 *)
  ; ("AC127_075_AB_ML", LDoubletD (mkDoublet (dec 750 1) (dec 7267 2) (Some (dec 384 1)) (Some (dec (-350) 1)) (Some (dec (-1773) 0)) (dec 25 1) (dec 15 1) (dec 33 1) (dec 127 1) None None (Some "N_BK7") (Some "N_SF2") (Some (dec 5876 4))) true)  (* thorlabs.py 2627-2630 *)
  ; ("AC254_030_AB_ML", LDoubletD (mkDoublet (dec 300 1) (dec 2122 2) (Some (dec 200 1)) (Some (dec (-174) 1)) (Some (dec (-931) 1)) (dec 120 1) (dec 30 1) (dec 95 1) (dec 254 1) None None (Some "S_BAH11") (Some "S_TIH6") (Some (dec 5876 4))) true)  (* thorlabs.py 2634-2637 *)
  ; ("AC254_050_AB_ML", LDoubletD (mkDoublet (dec 500 1) (dec 4339 2) (Some (dec 349 1)) (Some (dec (-288) 1)) (Some (dec (-1375) 1)) (dec 90 1) (dec 35 1) (dec 95 1) (dec 254 1) None None (Some "N_BAF10") (Some "N_SF6") (Some (dec 5876 4))) true)  (* thorlabs.py 2641-2644 *)
  ; ("AC254_075_AB_ML", LDoubletD (mkDoublet (dec 750 1) (dec 6872 2) (Some (dec 520 1)) (Some (dec (-434) 1)) (Some (dec (-2174) 1)) (dec 80 1) (dec 40 1) (dec 100 1) (dec 254 1) None None (Some "N_BAF10") (Some "N_SF6") (Some (dec 5876 4))) true)  (* thorlabs.py 2648-2651 *)
  ; ("AC254_100_AB_ML", LDoubletD (mkDoublet (dec 1000 1) (dec 9503 2) (Some (dec 924 1)) (Some (dec (-482) 1)) (Some (dec (-1528) 1)) (dec 80 1) (dec 40 1) (dec 105 1) (dec 254 1) None None (Some "N_LAK22") (Some "N_SF10") (Some (dec 5876 4))) true)  (* thorlabs.py 2655-2658 *)
  ; ("AC254_150_AB_ML", LDoubletD (mkDoublet (dec 1500 1) (dec 14368 2) (Some (dec 879 1)) (Some (dec (-1056) 1)) None (dec 60 1) (dec 30 1) (dec 80 1) (dec 254 1) None None (Some "N_LAK22") (Some "N_SF10") (Some (dec 5876 4))) true)  (* thorlabs.py 2662-2665 *)
  ; ("AC254_200_AB_ML", LDoubletD (mkDoublet (dec 2000 1) (dec 19415 2) (Some (dec 1171 1)) (Some (dec (-1421) 1)) None (dec 50 1) (dec 30 1) (dec 73 1) (dec 254 1) None None (Some "N_LAK22") (Some "N_SF10") (Some (dec 5876 4))) true)  (* thorlabs.py 2669-2672 *)
  ; ("AC508_080_AB_ML", LDoubletD (mkDoublet (dec 800 1) (dec 7273 2) (Some (dec 636 1)) (Some (dec (-806) 1)) (Some (dec (-1817) 1)) (dec 120 1) (dec 30 1) (dec 78 1) (dec 508 1) None None (Some "N_LAK22") (Some "N_SF6") (Some (dec 5876 4))) true)  (* thorlabs.py 2676-2679 *)
  ; ("AC508_180_AB_ML", LDoubletD (mkDoublet (dec 1800 1) (dec 17352 2) (Some (dec 1444 1)) (Some (dec (-1154) 1)) (Some (dec (-3282) 1)) (dec 95 1) (dec 40 1) (dec 102 1) (dec 508 1) None None (Some "N_LAK22") (Some "N_SF6") (Some (dec 5876 4))) true)  (* thorlabs.py 2683-2686 *)
  ; ("AC508_300_AB_ML", LDoubletD (mkDoublet (dec 3000 1) (dec 28981 2) (Some (dec 1677 1)) (Some (dec (-2858) 1)) None (dec 90 1) (dec 40 1) (dec 110 1) (dec 508 1) None None (Some "N_LAK22") (Some "N_SF6") (Some (dec 5876 4))) true)  (* thorlabs.py 2690-2693 *)
  ; ("AC508_400_AB_ML", LDoubletD (mkDoublet (dec 4000 1) (dec 38856 2) (Some (dec 1843 1)) (Some (dec (-2740) 1)) None (dec 90 1) (dec 40 1) (dec 112 1) (dec 508 1) None None (Some "N_BAK4") (Some "N_SF10") (Some (dec 5876 4))) true)  (* thorlabs.py 2697-2700 *)
  ; ("AC508_500_AB_ML", LDoubletD (mkDoublet (dec 5000 1) (dec 48804 2) (Some (dec 2303 1)) (Some (dec (-3439) 1)) None (dec 90 1) (dec 40 1) (dec 115 1) (dec 508 1) None None (Some "N_BAK4") (Some "N_SF10") (Some (dec 5876 4))) true)  (* thorlabs.py 2704-2707 *)
  ; ("AC508_600_AB_ML", LDoubletD (mkDoublet (dec 6000 1) (dec 59052 2) (Some (dec 2764 1)) (Some (dec (-4139) 1)) None (dec 90 1) (dec 40 1) (dec 118 1) (dec 508 1) None None (Some "N_BAK4") (Some "N_SF10") (Some (dec 5876 4))) true)  (* thorlabs.py 2711-2714 *)
  ; ("AC050_008_B_ML", LDoubletD (mkDoublet (dec 75 1) (dec 48 1) (Some (dec 46 1)) (Some (dec (-39) 1)) (Some (dec (-360) 1)) (dec 28 1) (dec 18 1) (dec 38 1) (dec 50 1) None None (Some "N_BAF10") (Some "N_SF6HT") (Some (dec 5876 4))) true)  (* thorlabs.py 2718-2721 *)
  ; ("AC050_010_B_ML", LDoubletD (mkDoublet (dec 100 1) (dec 80 1) (Some (dec 66 1)) (Some (dec (-53) 1)) (Some (dec (-249) 1)) (dec 22 1) (dec 16 1) (dec 32 1) (dec 50 1) None None (Some "N_LAK22") (Some "N_SF6HT") (Some (dec 5876 4))) true)  (* thorlabs.py 2725-2728 *)
  ; ("AC050_015_B_ML", LDoubletD (mkDoublet (dec 150 1) (dec 130 1) (Some (dec 103 1)) (Some (dec (-76) 1)) (Some (dec (-321) 1)) (dec 23 1) (dec 17 1) (dec 36 1) (dec 50 1) None None (Some "N_LAK22") (Some "N_SF6HT") (Some (dec 5876 4))) true)  (* thorlabs.py 2732-2735 *)
  ; ("AC060_010_B_ML", LDoubletD (mkDoublet (dec 100 1) (dec 81 1) (Some (dec 71 1)) (Some (dec (-53) 1)) (Some (dec (-195) 1)) (dec 25 1) (dec 15 1) (dec 23 1) (dec 60 1) None None (Some "N_LAK22") (Some "N_SF6HT") (Some (dec 5876 4))) true)  (* thorlabs.py 2739-2742 *)
  ; ("AC064_013_B_ML", LDoubletD (mkDoublet (dec 127 1) (dec 107 1) (Some (dec 86 1)) (Some (dec (-67) 1)) (Some (dec (-290) 1)) (dec 25 1) (dec 14 1) (dec 31 1) (dec 635 2) None None (Some "N_LAK22") (Some "N_SF6HT") (Some (dec 5876 4))) true)  (* thorlabs.py 2746-2749 *)
  ; ("AC064_015_B_ML", LDoubletD (mkDoublet (dec 150 1) (dec 131 1) (Some (dec 103 1)) (Some (dec (-78) 1)) (Some (dec (-329) 1)) (dec 24 1) (dec 15 1) (dec 32 1) (dec 635 2) None None (Some "N_LAK22") (Some "N_SF6HT") (Some (dec 5876 4))) true)  (* thorlabs.py 2753-2756 *)
  ; ("AC080_010_B_ML", LDoubletD (mkDoublet (dec 100 1) (dec 70 1) (Some (dec 76 1)) (Some (dec (-46) 1)) (Some (dec (-306) 1)) (dec 45 1) (dec 13 1) (dec 44 1) (dec 80 1) None None (Some "N_LAK10") (Some "N_SF6HT") (Some (dec 5876 4))) true)  (* thorlabs.py 2760-2763 *)
  ; ("AC080_016_B_ML", LDoubletD (mkDoublet (dec 160 1) (dec 140 1) (Some (dec 110 1)) (Some (dec (-86) 1)) (Some (dec (-358) 1)) (dec 25 1) (dec 15 1) (dec 30 1) (dec 80 1) None None (Some "N_LAK22") (Some "N_SF6HT") (Some (dec 5876 4))) true)  (* thorlabs.py 2767-2770 *)
  ; ("AC080_020_B_ML", LDoubletD (mkDoublet (dec 200 1) (dec 182 1) (Some (dec 135 1)) (Some (dec (-106) 1)) (Some (dec (-478) 1)) (dec 23 1) (dec 13 1) (dec 28 1) (dec 80 1) None None (Some "N_LAK22") (Some "N_SF6HT") (Some (dec 5876 4))) true)  (* thorlabs.py 2774-2777 *)
  ; ("AC080_030_B_ML", LDoubletD (mkDoublet (dec 300 1) (dec 277 1) (Some (dec 185 1)) (Some (dec (-162) 1)) (Some (dec (-1060) 1)) (dec 25 1) (dec 15 1) (dec 35 1) (dec 80 1) None None (Some "N_LAK22") (Some "N_SF6") (Some (dec 5876 4))) true)  (* thorlabs.py 2781-2784 *)
  ; ("AC127_019_B_ML", LDoubletD (mkDoublet (dec 190 1) (dec 155 1) (Some (dec 122 1)) (Some (dec (-106) 1)) (Some (dec (-774) 1)) (dec 45 1) (dec 15 1) (dec 39 1) (dec 127 1) None None (Some "N_BAF10") (Some "N_SF6HT") (Some (dec 5876 4))) true)  (* thorlabs.py 2788-2791 *)
  ; ("AC127_025_B_ML", LDoubletD (mkDoublet (dec 250 1) (dec 211 1) (Some (dec 162 1)) (Some (dec (-133) 1)) (Some (dec (-685) 1)) (dec 50 1) (dec 20 1) (dec 54 1) (dec 127 1) None None (Some "N_LAK22") (Some "N_SF6HT") (Some (dec 5876 4))) true)  (* thorlabs.py 2795-2798 *)
  ; ("AC127_030_B_ML", LDoubletD (mkDoublet (dec 300 1) (dec 273 1) (Some (dec 198 1)) (Some (dec (-162) 1)) (Some (dec (-798) 1)) (dec 35 1) (dec 15 1) (dec 37 1) (dec 127 1) None None (Some "N_LAK22") (Some "N_SF6HT") (Some (dec 5876 4))) true)  (* thorlabs.py 2802-2805 *)
  ; ("AC127_050_B_ML", LDoubletD (mkDoublet (dec 500 1) (dec 462 1) (Some (dec 242 1)) (Some (dec (-268) 1)) (Some (dec 2500 1)) (dec 35 1) (dec 15 1) (dec 42 1) (dec 127 1) None None (Some "N_BAF10") (Some "N_SF6HT") (Some (dec 5876 4))) true)  (* thorlabs.py 2809-2812 *)
  ; ("AC127_075_B_ML", LDoubletD (mkDoublet (dec 750 1) (dec 720 1) (Some (dec 362 1)) (Some (dec (-404) 1)) (Some (dec 3981 1)) (dec 25 1) (dec 15 1) (dec 35 1) (dec 127 1) None None (Some "N_BAF10") (Some "N_SF6HT") (Some (dec 5876 4))) true)  (* thorlabs.py 2816-2819 *)
  ; ("AC254_030_B_ML", LDoubletD (mkDoublet (dec 300 1) (dec 230 1) (Some (dec 2109 2)) (Some (dec (-1618) 2)) (Some (dec (-7908) 2)) (dec 120 1) (dec 15 1) (dec 82 1) (dec 254 1) None None (Some "N_BAF10") (Some "N_SF6HT") (Some (dec 5876 4))) true)  (* thorlabs.py 2823-2826 *)
  ; ("AC254_035_B_ML", LDoubletD (mkDoublet (dec 350 1) (dec 284 1) (Some (dec 2399 2)) (Some (dec (-1862) 2)) (Some (dec (-9727) 2)) (dec 105 1) (dec 15 1) (dec 75 1) (dec 254 1) None None (Some "N_BAF10") (Some "N_SF6HT") (Some (dec 5876 4))) true)  (* thorlabs.py 2830-2833 *)
  ; ("AC254_040_B_ML", LDoubletD (mkDoublet (dec 400 1) (dec 328 1) (Some (dec 2612 2)) (Some (dec (-2128) 2)) (Some (dec (-13709) 2)) (dec 100 1) (dec 25 1) (dec 86 1) (dec 254 1) None None (Some "N_BAF10") (Some "N_SF6HT") (Some (dec 5876 4))) true)  (* thorlabs.py 2837-2840 *)
  ; ("AC254_045_B_ML", LDoubletD (mkDoublet (dec 450 1) (dec 396 1) (Some (dec 2938 2)) (Some (dec (-2505) 2)) (Some (dec (-12706) 2)) (dec 78 1) (dec 16 1) (dec 59 1) (dec 254 1) None None (Some "N_LAK22") (Some "N_SF6HT") (Some (dec 5876 4))) true)  (* thorlabs.py 2844-2847 *)
  ; ("AC254_050_B_ML", LDoubletD (mkDoublet (dec 500 1) (dec 450 1) (Some (dec 3355 2)) (Some (dec (-2705) 2)) (Some (dec (-12560) 2)) (dec 75 1) (dec 18 1) (dec 62 1) (dec 254 1) None None (Some "N_LAK22") (Some "N_SF6HT") (Some (dec 5876 4))) true)  (* thorlabs.py 2851-2854 *)
  ; ("AC254_060_B_ML", LDoubletD (mkDoublet (dec 600 1) (dec 558 1) (Some (dec 3948 2)) (Some (dec (-330) 1)) (Some (dec (-16520) 2)) (dec 60 1) (dec 17 1) (dec 51 1) (dec 254 1) None None (Some "N_LAK22") (Some "N_SF6HT") (Some (dec 5876 4))) true)  (* thorlabs.py 2858-2861 *)
  ; ("AC254_075_B_ML", LDoubletD (mkDoublet (dec 750 1) (dec 699 1) (Some (dec 369 1)) (Some (dec (-4217) 2)) (Some (dec 4178 1)) (dec 50 1) (dec 16 1) (dec 45 1) (dec 254 1) None None (Some "N_BAF10") (Some "N_SF6HT") (Some (dec 5876 4))) true)  (* thorlabs.py 2865-2868 *)
  ; ("AC254_080_B_ML", LDoubletD (mkDoublet (dec 803 1) (dec 735 1) (Some (dec 387 1)) (Some (dec (-432) 1)) (Some (dec 3740 1)) (dec 66 1) (dec 20 1) (dec 64 1) (dec 254 1) None None (Some "N_BAF10") (Some "N_SF6HT") (Some (dec 5876 4))) true)  (* thorlabs.py 2872-2875 *)
  ; ("AC254_100_B_ML", LDoubletD (mkDoublet (dec 1000 1) (dec 971 1) (Some (dec 6668 2)) (Some (dec (-537) 1)) (Some (dec (-25941) 2)) (dec 40 1) (dec 15 1) (dec 40 1) (dec 254 1) None None (Some "N_LAK22") (Some "N_SF6HT") (Some (dec 5876 4))) true)  (* thorlabs.py 2879-2882 *)
  ; ("AC254_125_B_ML", LDoubletD (mkDoublet (dec 1250 1) (dec 1154 1) (Some (dec 445 1)) (Some (dec (-553) 1)) (Some (dec 9305 1)) (dec 60 1) (dec 60 1) (dec 100 1) (dec 254 1) None None (Some "N_BK7") (Some "N_SF8") (Some (dec 5876 4))) true)  (* thorlabs.py 2886-2889 *)
  ; ("AC254_150_B_ML", LDoubletD (mkDoublet (dec 1500 1) (dec 1446 1) (Some (dec 836 1)) (Some (dec (-8933) 2)) (Some (dec (-13305) 1)) (dec 40 1) (dec 35 1) (dec 65 1) (dec 254 1) None None (Some "N_LAK22") (Some "N_SF6HT") (Some (dec 5876 4))) true)  (* thorlabs.py 2893-2896 *)
  ; ("AC254_200_B_ML", LDoubletD (mkDoublet (dec 2000 1) (dec 1948 1) (Some (dec 1064 1)) (Some (dec (-966) 1)) (Some (dec 20000 1)) (dec 40 1) (dec 40 1) (dec 73 1) (dec 254 1) None None (Some "N_LAK22") (Some "N_SF10") (Some (dec 5876 4))) true)  (* thorlabs.py 2900-2903 *)
  ; ("AC254_250_B_ML", LDoubletD (mkDoublet (dec 2500 1) (dec 2375 1) (Some (dec 520 1)) (Some (dec (-6531) 2)) (Some (dec 11151 2)) (dec 40 1) (dec 15 1) (dec 47 1) (dec 254 1) None None (Some "SF5") (Some "N_SF6HT") (Some (dec 5876 4))) true)  (* thorlabs.py 2907-2910 *)
  ; ("AC254_300_B_ML", LDoubletD (mkDoublet (dec 3000 1) (dec 2900 1) (Some (dec 624 1)) (Some (dec (-774) 1)) (Some (dec 13400 2)) (dec 40 1) (dec 20 1) (dec 53 1) (dec 254 1) None None (Some "SF5") (Some "N_SF6HT") (Some (dec 5876 4))) true)  (* thorlabs.py 2914-2917 *)
  ; ("AC254_400_B_ML", LDoubletD (mkDoublet (dec 4000 1) (dec 3911 1) (Some (dec 836 1)) (Some (dec (-10641) 2)) (Some (dec 18155 2)) (dec 35 1) (dec 18 1) (dec 48 1) (dec 254 1) None None (Some "SF5") (Some "N_SF6HT") (Some (dec 5876 4))) true)  (* thorlabs.py 2921-2924 *)
  ; ("AC254_500_B_ML", LDoubletD (mkDoublet (dec 5000 1) (dec 4808 1) (Some (dec 606 1)) (Some (dec (-6275) 2)) (Some (dec 8757 2)) (dec 40 1) (dec 20 1) (dec 56 1) (dec 254 1) None None (Some "N_SF10") (Some "N_SF6HT") (Some (dec 5876 4))) true)  (* thorlabs.py 2928-2931 *)
  ; ("AC508_075_B_ML", LDoubletD (mkDoublet (dec 750 1) (dec 657 1) (Some (dec 518 1)) (Some (dec (-931) 1)) (Some (dec (-2911) 1)) (dec 120 1) (dec 50 1) (dec 92 1) (dec 508 1) None None (Some "N_LAK22") (Some "N_SF6HT") (Some (dec 5876 4))) true)  (* thorlabs.py 2935-2938 *)
  ; ("AC508_080_B_ML", LDoubletD (mkDoublet (dec 800 1) (dec 695 1) (Some (dec 518 1)) (Some (dec (-446) 1)) (Some (dec (-3126) 1)) (dec 160 1) (dec 20 1) (dec 103 1) (dec 508 1) None None (Some "N_BAF10") (Some "N_SF6HT") (Some (dec 5876 4))) true)  (* thorlabs.py 2942-2945 *)
  ; ("AC508_100_B_ML", LDoubletD (mkDoublet (dec 1000 1) (dec 915 1) (Some (dec 658 1)) (Some (dec (-560) 1)) (Some (dec (-2806) 1)) (dec 130 1) (dec 20 1) (dec 87 1) (dec 508 1) None None (Some "N_LAK22") (Some "N_SF6HT") (Some (dec 5876 4))) true)  (* thorlabs.py 2949-2952 *)
  ; ("AC508_150_B_ML", LDoubletD (mkDoublet (dec 1500 1) (dec 1453 1) (Some (dec 1122 1)) (Some (dec (-959) 1)) (Some (dec (-3251) 1)) (dec 82 1) (dec 50 1) (dec 93 1) (dec 508 1) None None (Some "N_LAK22") (Some "N_SF6HT") (Some (dec 5876 4))) true)  (* thorlabs.py 2956-2959 *)
  ; ("ACT508_200_B_ML", LDoubletD (mkDoublet (dec 2000 1) (dec 1932 1) (Some (dec 1210 1)) (Some (dec (-1187) 1)) (Some (dec (-4224) 1)) (dec 82 1) (dec 50 1) (dec 98 1) (dec 508 1) None None (Some "N_SK2") (Some "N_SF57") (Some (dec 5876 4))) true)  (* thorlabs.py 2963-2966 *)
  ; ("ACT508_250_B_ML", LDoubletD (mkDoublet (dec 2500 1) (dec 2418 1) (Some (dec 1377 1)) (Some (dec (-1377) 1)) (Some (dec (-9304) 1)) (dec 81 1) (dec 60 1) (dec 114 1) (dec 508 1) None None (Some "N_SK2") (Some "N_SF11") (Some (dec 5876 4))) true)  (* thorlabs.py 2970-2973 *)
  ; ("ACT508_300_B_ML", LDoubletD (mkDoublet (dec 3000 1) (dec 2914 1) (Some (dec 1581 1)) (Some (dec (-1711) 1)) (Some (dec (-15299) 1)) (dec 80 1) (dec 60 1) (dec 118 1) (dec 508 1) None None (Some "N_SK2") (Some "N_SF11") (Some (dec 5876 4))) true)  (* thorlabs.py 2977-2980 *)
  ; ("ACT508_400_B_ML", LDoubletD (mkDoublet (dec 4000 1) (dec 3895 1) (Some (dec 1898 1)) (Some (dec (-1528) 1)) (Some (dec (-22909) 1)) (dec 80 1) (dec 60 1) (dec 125 1) (dec 508 1) None None (Some "N_SK2") (Some "N_SF5") (Some (dec 5876 4))) true)  (* thorlabs.py 2984-2987 *)
  ; ("ACT508_500_B_ML", LDoubletD (mkDoublet (dec 5000 1) (dec 4911 1) (Some (dec 2338 1)) (Some (dec (-1928) 1)) (Some (dec (-24711) 1)) (dec 60 1) (dec 60 1) (dec 108 1) (dec 508 1) None None (Some "N_SK2") (Some "N_SF5") (Some (dec 5876 4))) true)  (* thorlabs.py 2991-2994 *)
  ; ("ACT508_750_B_ML", LDoubletD (mkDoublet (dec 7500 1) (dec 7424 1) (Some (dec 3867 1)) (Some (dec (-2696) 1)) None (dec 60 1) (dec 50 1) (dec 102 1) (dec 508 1) None None (Some "N_SK2") (Some "N_SF5") (Some (dec 5876 4))) true)  (* thorlabs.py 2998-3001 *)
  ; ("ACT508_1000_B_ML", LDoubletD (mkDoublet (dec 10000 1) (dec 9911 1) (Some (dec 4652 1)) (Some (dec (-3887) 1)) (Some (dec (-47262) 1)) (dec 60 1) (dec 60 1) (dec 114 1) (dec 508 1) None None (Some "N_SK2") (Some "N_SF5") (Some (dec 5876 4))) true)  (* thorlabs.py 3005-3008 *)
  ; ("AC050_008_C_ML", LDoubletD (mkDoublet (dec 75 1) (dec 52 1) (Some (dec 46 1)) (Some (dec (-39) 1)) (Some (dec (-239) 1)) (dec 25 1) (dec 15 1) (dec 31 1) (dec 50 1) None None (Some "N_LAK22") (Some "N_SF6HT") (Some (dec 5876 4))) true)  (* thorlabs.py 3012-3015 *)
  ; ("AC050_010_C_ML", LDoubletD (mkDoublet (dec 100 1) (dec 69 1) (Some (dec 46 1)) (Some (dec (-46) 1)) (Some (dec 360 1)) (dec 25 1) (dec 15 1) (dec 33 1) (dec 50 1) None None (Some "N_LAK22") (Some "N_SF6HT") (Some (dec 5876 4))) true)  (* thorlabs.py 3019-3022 *)
  ; ("AC050_015_C_ML", LDoubletD (mkDoublet (dec 150 1) (dec 116 1) (Some (dec 53 1)) (Some (dec (-55) 1)) (Some (dec 152 1)) (dec 20 1) (dec 13 1) (dec 29 1) (dec 50 1) None None (Some "N_BAF10") (Some "N_SF6HT") (Some (dec 5876 4))) true)  (* thorlabs.py 3026-3029 *)
  ; ("AC060_010_C_ML", LDoubletD (mkDoublet (dec 100 1) (dec 85 1) (Some (dec 104 1)) (Some (dec (-36) 1)) (Some (dec (-92) 1)) (dec 35 1) (dec 13 1) (dec 39 1) (dec 60 1) None None (Some "N_LAK22") (Some "N_SF6HT") (Some (dec 5876 4))) true)  (* thorlabs.py 3033-3036 *)
  ; ("AC064_013_C_ML", LDoubletD (mkDoublet (dec 127 1) (dec 114 1) (Some (dec 132 1)) (Some (dec (-49) 1)) (Some (dec (-124) 1)) (dec 28 1) (dec 13 1) (dec 33 1) (dec 635 2) None None (Some "N_LAK22") (Some "N_SF6HT") (Some (dec 5876 4))) true)  (* thorlabs.py 3040-3043 *)
  ; ("AC064_015_C_ML", LDoubletD (mkDoublet (dec 150 1) (dec 144 1) (Some (dec 227 1)) (Some (dec (-49) 1)) (Some (dec (-113) 1)) (dec 23 1) (dec 13 1) (dec 29 1) (dec 635 2) None None (Some "N_LAK22") (Some "N_SF6HT") (Some (dec 5876 4))) true)  (* thorlabs.py 3047-3050 *)
  ; ("AC080_010_C_ML", LDoubletD (mkDoublet (dec 100 1) (dec 72 1) (Some (dec 71 1)) (Some (dec (-49) 1)) (Some (dec (-200) 1)) (dec 42 1) (dec 13 1) (dec 39 1) (dec 80 1) None None (Some "N_BAF10") (Some "N_SF6HT") (Some (dec 5876 4))) true)  (* thorlabs.py 3054-3057 *)
  ; ("AC080_016_C_ML", LDoubletD (mkDoublet (dec 160 1) (dec 123 1) (Some (dec 75 1)) (Some (dec (-78) 1)) (Some (dec 685 1)) (dec 35 1) (dec 13 1) (dec 38 1) (dec 80 1) None None (Some "N_LAK22") (Some "N_SF6HT") (Some (dec 5876 4))) true)  (* thorlabs.py 3061-3064 *)
  ; ("AC080_020_C_ML", LDoubletD (mkDoublet (dec 200 1) (dec 157 1) (Some (dec 78 1)) (Some (dec (-86) 1)) (Some (dec 319 1)) (dec 33 1) (dec 13 1) (dec 37 1) (dec 80 1) None None (Some "N_LAK22") (Some "N_SF6HT") (Some (dec 5876 4))) true)  (* thorlabs.py 3068-3071 *)
  ; ("AC080_030_C_ML", LDoubletD (mkDoublet (dec 300 1) (dec 273 1) (Some (dec 123 1)) (Some (dec (-160) 1)) (Some (dec (-704) 1)) (dec 23 1) (dec 23 1) (dec 37 1) (dec 80 1) None None (Some "N_PK52A") (Some "N_SF6") (Some (dec 5876 4))) true)  (* thorlabs.py 3075-3078 *)
  ; ("AC127_019_C_ML", LDoubletD (mkDoublet (dec 190 1) (dec 154 1) (Some (dec 124 1)) (Some (dec (-100) 1)) (Some (dec (-488) 1)) (dec 50 1) (dec 15 1) (dec 43 1) (dec 127 1) None None (Some "N_LAK22") (Some "N_SF6") (Some (dec 5876 4))) true)  (* thorlabs.py 3082-3085 *)
  ; ("AC127_025_C_ML", LDoubletD (mkDoublet (dec 250 1) (dec 203 1) (Some (dec 120 1)) (Some (dec (-129) 1)) (Some (dec 1517 1)) (dec 47 1) (dec 15 1) (dec 45 1) (dec 127 1) None None (Some "N_LAK22") (Some "N_SF6HT") (Some (dec 5876 4))) true)  (* thorlabs.py 3089-3092 *)
  ; ("AC127_030_C_ML", LDoubletD (mkDoublet (dec 300 1) (dec 245 1) (Some (dec 124 1)) (Some (dec (-140) 1)) (Some (dec 653 1)) (dec 47 1) (dec 15 1) (dec 48 1) (dec 127 1) None None (Some "N_LAK22") (Some "N_SF6HT") (Some (dec 5876 4))) true)  (* thorlabs.py 3096-3099 *)
  ; ("AC127_050_C_ML", LDoubletD (mkDoublet (dec 500 1) (dec 435 1) (Some (dec 160 1)) (Some (dec (-184) 1)) (Some (dec 446 1)) (dec 40 1) (dec 15 1) (dec 46 1) (dec 127 1) None None (Some "N_BAF10") (Some "N_SF6HT") (Some (dec 5876 4))) true)  (* thorlabs.py 3103-3106 *)
  ; ("AC127_075_C_ML", LDoubletD (mkDoublet (dec 750 1) (dec 698 1) (Some (dec 232 1)) (Some (dec (-279) 1)) (Some (dec 667 1)) (dec 30 1) (dec 15 1) (dec 39 1) (dec 127 1) None None (Some "N_BAF10") (Some "N_SF6HT") (Some (dec 5876 4))) true)  (* thorlabs.py 3110-3113 *)
  ; ("AC254_030_C_ML", LDoubletD (mkDoublet (dec 300 1) (dec 222 1) (Some (dec 211 1)) (Some (dec (-152) 1)) (Some (dec (-711) 1)) (dec 130 1) (dec 18 1) (dec 94 1) (dec 254 1) None None (Some "N_BAF10") (Some "N_SF6HT") (Some (dec 5876 4))) true)  (* thorlabs.py 3117-3120 *)
  ; ("AC254_035_C_ML", LDoubletD (mkDoublet (dec 350 1) (dec 274 1) (Some (dec 232 1)) (Some (dec (-179) 1)) (Some (dec (-1052) 1)) (dec 115 1) (dec 18 1) (dec 87 1) (dec 254 1) None None (Some "N_BAF10") (Some "N_SF6HT") (Some (dec 5876 4))) true)  (* thorlabs.py 3124-3127 *)
  ; ("AC254_040_C_ML", LDoubletD (mkDoublet (dec 400 1) (dec 328 1) (Some (dec 244 1)) (Some (dec (-211) 1)) (Some (dec (-1439) 1)) (dec 100 1) (dec 18 1) (dec 77 1) (dec 254 1) None None (Some "N_LAK22") (Some "N_SF6HT") (Some (dec 5876 4))) true)  (* thorlabs.py 3131-3134 *)
  ; ("AC254_045_C_ML", LDoubletD (mkDoublet (dec 450 1) (dec 367 1) (Some (dec 229 1)) (Some (dec (-237) 1)) (Some (dec 9000 1)) (dec 96 1) (dec 18 1) (dec 77 1) (dec 254 1) None None (Some "N_LAK22") (Some "N_SF6HT") (Some (dec 5876 4))) true)  (* thorlabs.py 3138-3141 *)
  ; ("AC254_050_C_ML", LDoubletD (mkDoublet (dec 500 1) (dec 412 1) (Some (dec 229 1)) (Some (dec (-259) 1)) (Some (dec 1945 1)) (dec 90 1) (dec 18 1) (dec 74 1) (dec 254 1) None None (Some "N_LAK22") (Some "N_SF6HT") (Some (dec 5876 4))) true)  (* thorlabs.py 3145-3148 *)
  ; ("AC254_060_C_ML", LDoubletD (mkDoublet (dec 600 1) (dec 505 1) (Some (dec 239 1)) (Some (dec (-281) 1)) (Some (dec 1121 1)) (dec 83 1) (dec 18 1) (dec 72 1) (dec 254 1) None None (Some "N_LAK22") (Some "N_SF6HT") (Some (dec 5876 4))) true)  (* thorlabs.py 3152-3155 *)
  ; ("AC254_075_C_ML", LDoubletD (mkDoublet (dec 750 1) (dec 649 1) (Some (dec 264 1)) (Some (dec (-294) 1)) (Some (dec 849 1)) (dec 76 1) (dec 18 1) (dec 71 1) (dec 254 1) None None (Some "N_BAF10") (Some "N_SF6HT") (Some (dec 5876 4))) true)  (* thorlabs.py 3159-3162 *)
  ; ("AC254_100_C_ML", LDoubletD (mkDoublet (dec 1000 1) (dec 903 1) (Some (dec 321 1)) (Some (dec (-380) 1)) (Some (dec 935 1)) (dec 65 1) (dec 18 1) (dec 66 1) (dec 254 1) None None (Some "N_BAF10") (Some "N_SF6HT") (Some (dec 5876 4))) true)  (* thorlabs.py 3166-3169 *)
  ; ("AC254_150_C_ML", LDoubletD (mkDoublet (dec 1500 1) (dec 1408 1) (Some (dec 427 1)) (Some (dec (-520) 1)) (Some (dec 1115 1)) (dec 50 1) (dec 25 1) (dec 63 1) (dec 254 1) None None (Some "N_BAF10") (Some "N_SF6HT") (Some (dec 5876 4))) true)  (* thorlabs.py 3173-3176 *)
  ; ("AC254_200_C_ML", LDoubletD (mkDoublet (dec 2000 1) (dec 1931 1) (Some (dec 700 1)) (Some (dec (-959) 1)) (Some (dec 2743 1)) (dec 40 1) (dec 30 1) (dec 61 1) (dec 254 1) None None (Some "N_LAK22") (Some "N_SF6HT") (Some (dec 5876 4))) true)  (* thorlabs.py 3180-3183 *)
  ; ("AC254_250_C_ML", LDoubletD (mkDoublet (dec 2500 1) (dec 2352 1) (Some (dec 440 1)) (Some (dec (-577) 1)) (Some (dec 931 1)) (dec 45 1) (dec 25 1) (dec 60 1) (dec 254 1) None None (Some "SF2") (Some "N_SF6HT") (Some (dec 5876 4))) true)  (* thorlabs.py 3187-3190 *)
  ; ("AC254_300_C_ML", LDoubletD (mkDoublet (dec 3000 1) (dec 2858 1) (Some (dec 525 1)) (Some (dec (-685) 1)) (Some (dec 1122 1)) (dec 45 1) (dec 25 1) (dec 62 1) (dec 254 1) None None (Some "SF2") (Some "N_SF6HT") (Some (dec 5876 4))) true)  (* thorlabs.py 3194-3197 *)
  ; ("AC254_400_C_ML", LDoubletD (mkDoublet (dec 4000 1) (dec 3868 1) (Some (dec 700 1)) (Some (dec (-931) 1)) (Some (dec 1514 1)) (dec 42 1) (dec 25 1) (dec 61 1) (dec 254 1) None None (Some "SF2") (Some "N_SF6HT") (Some (dec 5876 4))) true)  (* thorlabs.py 3201-3204 *)
  ; ("AC254_500_C_ML", LDoubletD (mkDoublet (dec 5000 1) (dec 4867 1) (Some (dec 879 1)) (Some (dec (-1155) 1)) (Some (dec 1945 1)) (dec 35 1) (dec 20 1) (dec 50 1) (dec 254 1) None None (Some "SF2") (Some "N_SF6HT") (Some (dec 5876 4))) true)  (* thorlabs.py 3208-3211 *)
  ; ("AC508_075_C_ML", LDoubletD (mkDoublet (dec 750 1) (dec 630 1) (Some (dec 499 1)) (Some (dec (-391) 1)) (Some (dec (-2307) 1)) (dec 190 1) (dec 25 1) (dec 131 1) (dec 508 1) None None (Some "N_BAF10") (Some "N_SF6HT") (Some (dec 5876 4))) true)  (* thorlabs.py 3215-3218 *)
  ; ("AC508_080_C_ML", LDoubletD (mkDoublet (dec 800 1) (dec 669 1) (Some (dec 472 1)) (Some (dec (-432) 1)) (Some (dec (-6407) 1)) (dec 180 1) (dec 25 1) (dec 126 1) (dec 508 1) None None (Some "N_BAF10") (Some "N_SF6HT") (Some (dec 5876 4))) true)  (* thorlabs.py 3222-3225 *)
  ; ("AC508_100_C_ML", LDoubletD (mkDoublet (dec 1000 1) (dec 830 1) (Some (dec 447 1)) (Some (dec (-483) 1)) (Some (dec 2594 1)) (dec 170 1) (dec 25 1) (dec 128 1) (dec 508 1) None None (Some "N_BAF10") (Some "N_SF6HT") (Some (dec 5876 4))) true)  (* thorlabs.py 3229-3232 *)
  ; ("AC508_150_C_ML", LDoubletD (mkDoublet (dec 1500 1) (dec 1177 1) (Some (dec 395 1)) (Some (dec (-499) 1)) (Some (dec 836 1)) (dec 180 1) (dec 50 1) (dec 177 1) (dec 508 1) None None (Some "N_LAK22") (Some "N_SF6HT") (Some (dec 5876 4))) true)  (* thorlabs.py 3236-3239 *)
  ; ("AC508_200_C_ML", LDoubletD (mkDoublet (dec 2000 1) (dec 1827 1) (Some (dec 671 1)) (Some (dec (-876) 1)) (Some (dec 2343 1)) (dec 120 1) (dec 30 1) (dec 114 1) (dec 508 1) None None (Some "N_LAK22") (Some "N_SF6HT") (Some (dec 5876 4))) true)  (* thorlabs.py 3243-3246 *)
  ; ("ACT508_250_C_ML", LDoubletD (mkDoublet (dec 2500 1) (dec 2357 1) (Some (dec 1047 1)) (Some (dec (-1101) 1)) (Some (dec 3495 1)) (dec 100 1) (dec 50 1) (dec 128 1) (dec 508 1) None None (Some "H_LAF3B") (Some "H_ZF52GT") (Some (dec 5876 4))) true)  (* thorlabs.py 3250-3253 *)
  ; ("ACT508_300_C_ML", LDoubletD (mkDoublet (dec 3000 1) (dec 2908 1) (Some (dec 1997 1)) (Some (dec (-914) 1)) None (dec 100 1) (dec 50 1) (dec 134 1) (dec 508 1) None None (Some "H_LAF3B") (Some "H_ZF13") (Some (dec 5876 4))) true)  (* thorlabs.py 3257-3260 *)
  ; ("ACT508_400_C_ML", LDoubletD (mkDoublet (dec 4000 1) (dec 3897 1) (Some (dec 2287 1)) (Some (dec (-649) 1)) None (dec 100 1) (dec 60 1) (dec 146 1) (dec 508 1) None None (Some "H_ZK50") (Some "H_F4") (Some (dec 5876 4))) true)  (* thorlabs.py 3264-3267 *)
  ; ("AC508_500_C_ML", LDoubletD (mkDoublet (dec 5000 1) (dec 4743 1) (Some (dec 861 1)) (Some (dec (-1032) 1)) (Some (dec 1660 1)) (dec 88 1) (dec 30 1) (dec 99 1) (dec 508 1) None None (Some "SF5") (Some "N_SF6HT") (Some (dec 5876 4))) true)  (* thorlabs.py 3271-3274 *)
  ; ("AC508_1000_C_ML", LDoubletD (mkDoublet (dec 10000 1) (dec 9903 1) (Some (dec 1730 1)) (Some (dec (-2343) 1)) (Some (dec 3360 1)) (dec 60 1) (dec 30 1) (dec 81 1) (dec 508 1) None None (Some "SF5") (Some "N_SF6HT") (Some (dec 5876 4))) true)  (* thorlabs.py 3285-3288 *)
  ; ("PN_33_921", LDoubletD (mkDoublet (dec 10000 2) (dec 7832 2) (Some (dec 6467 2)) (Some (dec (-6467) 2)) (Some (dec (-34359) 2)) (dec 2600 2) (dec 127 1) (dec 2466 2) (dec 75 0) (Some (dec 16700 4)) (Some (dec 18467 4)) None None None) false)  (* eo.py 24-27 *)
  ; ("PN_33_922", LDoubletD (mkDoublet (dec 15000 2) (dec 12646 2) (Some (dec 9205 2)) (Some (dec (-7285) 2)) (Some (dec (-30587) 2)) (dec 232 1) (dec 231 1) (dec 3601 2) (dec 75 0) None None (Some "N_BAK1") (Some "N_SF8") (Some (dec 5876 4))) false)  (* eo.py 50-54 *)
  ; ("PN_88_593", LDoubletD (mkDoublet (dec 20000 2) (dec 18769 2) (Some (dec 11881 2)) (Some (dec (-9637) 2)) (Some (dec (-28897) 2)) (dec 1794 2) (dec 600 2) (dec 1542 2) (dec 75 0) (Some (dec 15168 4)) (Some (dec 16727 4)) None None None) false)  (* eo.py 76-79 *)
  ; ("PN_85_877", LDoubletD (mkDoublet (dec (-100) 1) (dec (-1192) 2) (Some (dec (-655) 2)) (Some (dec 510 2)) (Some (dec 8910 2)) (dec 10 1) (dec 25 1) (dec 42 1) (dec 625 2) None None (Some "N_BAF10") (Some "N_SF10") (Some (dec 5876 4))) false)  (* eo.py 101-105 *)
  ].
Local Close Scope string_scope.

Definition lenses {T} {N : Num T} : list (string * lens_class T (dispersion T)) :=
  map (fun p => (fst p, resolve_class lit (material catalogue) (snd p))) lens_data.

(** materials.py: abbeNumber() of the classes in order of definition (lines at the right) *)
Local Open Scope string_scope.
Definition abbe_data : list (string * (Z * Z)) :=
  [ ("Air", dec 0 1)  (* 134 *)
  ; ("N_BK7", dec 6417 2)  (* 149 *)
  ; ("N_SF2", dec 3382 2)  (* 164 *)
  ; ("N_SF8", dec 3131 2)  (* 178 *)
  ; ("SF2", dec 3385 2)  (* 193 *)
  ; ("SF5", dec 3221 2)  (* 208 *)
  ; ("N_SF5", dec 3225 2)  (* 223 *)
  ; ("N_SF6", dec 2951 2)  (* 237 *)
  ; ("N_SF6HT", dec 2536 2)  (* 252 *)
  ; ("N_SF10", dec 2853 2)  (* 266 *)
  ; ("N_SF11", dec 2568 2)  (* 280 *)
  ; ("N_SF57", dec 2378 2)  (* 294 *)
  ; ("N_BAF10", dec 4711 2)  (* 308 *)
  ; ("E_BAF11", dec 4648 2)  (* 322 *)
  ; ("N_BAK1", dec 5755 2)  (* 336 *)
  ; ("N_BAK4", dec 5597 2)  (* 350 *)
  ; ("FK51A", dec 8447 2)  (* 364 *)
  ; ("LAFN7", dec 3495 2)  (* 379 *)
  ; ("N_LASF9", dec 3217 2)  (* 393 *)
  ; ("N_LAK22", dec 5589 2)  (* 407 *)
  ; ("N_SSK5", dec 5088 2)  (* 422 *)
  ; ("E_FD10", dec 2832 2)  (* 436 *)
  ; ("FusedSilica", dec 6782 2)  (* 450 *)
  ; ("N_SK16", dec 6032 2)  (* 464 *)
  ; ("E_BAF11", dec 4831 2)  (* 478 *)
  ; ("N_LAK10", dec 5062 2)  (* 492 *)
  ; ("S_BAH11", dec 4832 2)  (* 506 *)
  ; ("S_TIH6", dec 2542 2)  (* 520 *)
  ; ("N_SK2", dec 5665 2)  (* 535 *)
  ; ("S_PHM52", dec 6333 2)  (* 550 *)
  ; ("S_NPH2", dec 1890 2)  (* 565 *)
  ; ("N_PK52A", dec 8161 2)  (* 580 *)
  ; ("H_LAF3B", dec 4490 2)  (* 594 *)
  ; ("H_ZF52GT", dec 2378 2)  (* 609 *)
  ; ("H_ZF13", dec 2572 2)  (* 624 *)
  ; ("H_ZK50", dec 5665 2)  (* 639 *)
  ; ("H_F4", dec 3635 2)  (* 653 *)
  ].
Local Close Scope string_scope.
Definition abbeNumber {T} {N : Num T} (name : string) : option T := omap lit (material abbe_data name).

Section Find.
Context {T : Type} {N : Num T}.
Open Scope num_scope.
(** materials.py 78-86: Material.all() has a name twice when it is defined twice and the first class is still in
    memory ([collected] = false); globals() has the later class *)
Fixpoint live_names (collected : bool) (l : list string) : list string :=
  match l with
  | [] => []
  | n :: t => if (collected && existsb (String.eqb n) t)%bool then live_names collected t
              else n :: live_names collected t
  end.
(** materials.py 114-123 *)
Fixpoint index_loop (names : list string) (n w tol : T) : res (list (string * T * T)) :=
  match names with
  | [] => Ok []
  | c :: t =>
      match material catalogue c, abbeNumber c with
      | Some d, Some v =>
          nm <- glass_index d w;;
          r <- index_loop t n w tol;;
          Ok (if nabs (n - nm) <? tol then (c, nm, v) :: r else r)
      | _, _ => Err KeyError
      end
  end.
Definition findByIndex (collected : bool) (n w tol : T) : res (list (string * T * T)) :=
  index_loop (live_names collected (map fst catalogue_data)) n w tol.
End Find.
