(** materials.py: the glass catalogue, its refractive indices and the search by name. *)
From Coq Require Import ZArith List Bool String Ascii.
From Verif Require Import Base.
Import ListNotations.
Open Scope list_scope.

(** ** Indices *)
Section Materials.
Context {T : Type} {N : Num T}.
Open Scope num_scope.

(** Python numbers that n() can return: [(negative) ** .5] is a complex number *)
Inductive pynum := PReal (x : T) | PComplex.

(** the formulas of the catalogue *)
Inductive dispersion :=
| DAir
| DSell (l : list (T * T))      (* 1 + sum of B/(1-C/x**2) *)
| DSellSq (l : list (T * T))    (* 1 + sum of B/(1-(C/x)**2) *)
| DPoly (a0 a1 a2 a3 a4 a5 : T) (* a0-a1*x**2+a2*x**-2+a3*x**-4-a4*x**-6+a5*x**-8 *).

(** x ** 2 and x ** -2k; x is never 0 here *)
Definition sq (x : T) : T := x * x.
Definition isq (x : T) : T := ndiv c1 (sq x).

Fixpoint sell_sum (acc : T) (l : list (T * T)) (q : T -> res T) : res T :=
  match l with
  | [] => Ok acc
  | (B, C) :: t =>
      r <- q C;;
      v <- pdiv B (c1 - r);;
      sell_sum (acc + v) t q
  end.
Definition radicand (d : dispersion) (x : T) : res T :=
  match d with
  | DAir => Ok c1
  | DSell l => sell_sum c1 l (fun C => pdiv C (sq x))
  | DSellSq l => sell_sum c1 l (fun C => r <- pdiv C x;; Ok (sq r))
  | DPoly a0 a1 a2 a3 a4 a5 =>
      let u := isq x in
      Ok (a0 - a1 * sq x + a2 * u + a3 * (u * u) - a4 * (u * u * u) + a5 * (u * u * u * u))
  end.
(** the n(wavelength) of every material: materials.py 125-129 for Air, 136-145 and alike for the glasses *)
Definition index_of (d : dispersion) (x : T) : res pynum :=
  if ((nofZ 10 <? x) || (x <? ndec 1 2))%bool then Err ValueError
  else match d with
       | DAir => Ok (PReal c1)
       | _ => r <- radicand d x;; Ok (if r <? c0 then PComplex else PReal (nsqrt r))
       end.

End Materials.
Arguments dispersion T : clear implicits.
Arguments pynum T : clear implicits.

(** the subclasses of Material in order of definition (lines of materials.py at the right).
    E_BAF11 is defined twice, with the same formula.  Decimal literals: [dec m k] is m / 10^k. *)
Local Open Scope string_scope.
Definition dec (m k : Z) : Z * Z := (m, k).
Definition catalogue_data : list (string * dispersion (Z * Z)) :=
  [ ("Air", DAir)
  ; ("N_BK7", DSell [(dec 103961212 8, dec 600069867 11); (dec 231792344 9, dec 200179144 10); (dec 101046945 8, dec 103560653 6)])  (* 144 *)
  ; ("N_SF2", DSell [(dec 147343127 8, dec 109019098 10); (dec 163681849 9, dec 585683687 10); (dec 136920899 8, dec 127404933 6)])  (* 159 *)
  ; ("N_SF8", DSell [(dec 155075812 8, dec 114338344 10); (dec 209816918 9, dec 582725652 10); (dec 146205491 8, dec 13324165 5)])  (* 173 *)
  ; ("SF2", DSell [(dec 140301821 8, dec 105795466 10); (dec 231767504 9, dec 493226978 10); (dec 939056586 9, dec 112405955 6)])  (* 188 *)
  ; ("SF5", DSell [(dec 146141885 8, dec 111826126 10); (dec 247713019 9, dec 508594669 10); (dec 949995832 9, dec 112041888 6)])  (* 203 *)
  ; ("N_SF5", DSell [(dec 152481889 8, dec 11254756 9); (dec 187085527 9, dec 588995392 10); (dec 142729015 8, dec 129141675 6)])  (* 218 *)
  ; ("N_SF6", DSell [(dec 155912923 8, dec 121481001 10); (dec 284246288 9, dec 534549042 10); (dec 968842926 9, dec 112174809 6)])  (* 232 *)
  ; ("N_SF6HT", DSell [(dec 177931763 8, dec 133714182 10); (dec 338149866 9, dec 617533621 10); (dec 208734474 8, dec 17401759 5)])  (* 247 *)
  ; ("N_SF10", DSell [(dec 162153902 8, dec 122241457 10); (dec 256287842 9, dec 595736775 10); (dec 164447552 8, dec 147468793 6)])  (* 261 *)
  ; ("N_SF11", DSell [(dec 173759695 8, dec 13188707 9); (dec 313747346 9, dec 623068142 10); (dec 189878101 8, dec 15523629 5)])  (* 275 *)
  ; ("N_SF57", DSell [(dec 187543831 8, dec 141749518 10); (dec 37375749 8, dec 640509927 10); (dec 230001797 8, dec 177389795 6)])  (* 289 *)
  ; ("N_BAF10", DSell [(dec 15851495 7, dec 926681282 11); (dec 143559385 9, dec 424489805 10); (dec 108521269 8, dec 105613573 6)])  (* 303 *)
  ; ("E_BAF11", DPoly (dec 271954649 8) (dec 100472501 10) (dec 200301385 10) (dec 465868302 12) (dec 751633336 14) (dec 177544989 14))  (* 317 *)
  ; ("N_BAK1", DSell [(dec 112365662 8, dec 644742752 11); (dec 309276848 9, dec 222284402 10); (dec 881511957 9, dec 107297751 6)])  (* 331 *)
  ; ("N_BAK4", DSell [(dec 128834642 8, dec 779980626 11); (dec 132817724 9, dec 315631177 10); (dec 945395373 9, dec 105965875 6)])  (* 345 *)
  ; ("FK51A", DSell [(dec 971247817 9, dec 472301995 11); (dec 216901417 9, dec 153575612 10); (dec 904651666 9, dec 16868133 5)])  (* 359 *)
  ; ("LAFN7", DSell [(dec 166842615 8, dec 103159999 10); (dec 298512803 9, dec 469216348 10); (dec 10774376 7, dec 825078509 7)])  (* 374 *)
  ; ("N_LASF9", DSell [(dec 200029547 8, dec 121426017 10); (dec 298926886 9, dec 538736236 10); (dec 180691843 8, dec 156530829 6)])  (* 388 *)
  ; ("N_LAK22", DSell [(dec 114229781 8, dec 585778594 11); (dec 535138441 9, dec 198546147 10); (dec 104088385 8, dec 100834017 6)])  (* 402 *)
  ; ("N_SSK5", DSell [(dec 159222659 8, dec 920284626 11); (dec 103520774 9, dec 423530072 10); (dec 105174016 8, dec 106927374 6)])  (* 417 *)
  ; ("E_FD10", DPoly (dec 2881518 6) (dec 13228312 9) (dec 3145559 8) (dec 26851666 10) (dec 22577544 11) (dec 24693268 12))  (* 431 *)
  ; ("FusedSilica", DSellSq [(dec 6961663 7, dec 684043 7); (dec 4079426 7, dec 1162414 7); (dec 8974794 7, dec 9896161 6)])  (* 445 *)
  ; ("N_SK16", DSell [(dec 134317774 8, dec 704687339 11); (dec 241144399 9, dec 229005 7); (dec 994317969 9, dec 927508526 7)])  (* 458-459 *)
  ; ("E_BAF11", DPoly (dec 271954649 8) (dec 100472501 10) (dec 200301385 10) (dec 465868302 12) (dec 751633336 14) (dec 177544989 14))  (* 472 *)
  ; ("N_LAK10", DSell [(dec 172878017 8, dec 886014635 11); (dec 169257825 9, dec 363416509 10); (dec 119386956 8, dec 829009069 7)])  (* 486-487 *)
  ; ("S_BAH11", DSell [(dec 15713886 7, dec 910807936 11); (dec 147869313 9, dec 402401684 10); (dec 128092846 8, dec 130399367 6)])  (* 500-501 *)
  ; ("S_TIH6", DSell [(dec 177227611 8, dec 131182633 10); (dec 34569125 8, dec 614479619 10); (dec 240788501 8, dec 200753254 6)])  (* 514-515 *)
  ; ("N_SK2", DSell [(dec 128189012 8, dec 72719164 10); (dec 257738258 9, dec 242823527 10); (dec 96818604 8, dec 110377773 6)])  (* 528-529 *)
  ; ("S_PHM52", DSell [(dec 10996655 7, dec 132718559 10); (dec 478125422 9, dec (-601649685) 12); (dec 113214074 8, dec 130595472 6)])  (* 543-544 *)
  ; ("S_NPH2", DSell [(dec 20386951 7, dec 170796224 10); (dec 437269641 9, dec 749254813 10); (dec 296711461 8, dec 174155354 6)])  (* 558-559 *)
  ; ("N_PK52A", DSell [(dec 1029607 6, dec 516800155 11); (dec 1880506 7, dec 166658798 10); (dec 736488165 9, dec 138964129 6)])  (* 574-575 *)
  ; ("H_LAF3B", DSell [(dec 166486969 8, dec 895646712 11); (dec 30162248 8, dec 350299695 10); (dec 11973888 7, dec 123334438 6)])  (* 588-589 *)
  ; ("H_ZF52GT", DSell [(dec 409982615 9, dec 621421199 10); (dec 237517176 8, dec 185055134 6); (dec 183913582 8, dec 136093459 10)])  (* 603-604 *)
  ; ("H_ZF13", DSell [(dec 173521591 8, dec 131087904 10); (dec 316277446 9, dec 621421663 10); (dec 216384634 8, dec 178845558 6)])  (* 618-619 *)
  ; ("H_ZK50", DSell [(dec 434311306 9, dec (-192252587) 11); (dec 110560033 8, dec 147271072 10); (dec 988776159 9, dec 11041165 5)])  (* 633-634 *)
  ; ("H_F4", DSell [(dec 131898794 9, dec 5793195 8); (dec 142441827 8, dec 106270032 10); (dec 121746316 8, dec 117376535 6)])  (* 647-648 *)
  ].
Local Close Scope string_scope.

Definition map_disp {A B} (f : A -> B) (d : dispersion A) : dispersion B :=
  match d with
  | DAir => DAir
  | DSell l => DSell (map (fun p => (f (fst p), f (snd p))) l)
  | DSellSq l => DSellSq (map (fun p => (f (fst p), f (snd p))) l)
  | DPoly a0 a1 a2 a3 a4 a5 => DPoly (f a0) (f a1) (f a2) (f a3) (f a4) (f a5)
  end.
Definition lit {T} {N : Num T} (p : Z * Z) : T := ndec (fst p) (snd p).
Definition catalogue {T} {N : Num T} : list (string * dispersion T) :=
  map (fun p => (fst p, map_disp lit (snd p))) catalogue_data.


(** ** Names *)
(** str.replace(c, '') *)
Fixpoint drop (c : ascii) (s : string) : string :=
  match s with
  | EmptyString => EmptyString
  | String a t => if Ascii.eqb a c then drop c t else String a (drop c t)
  end.
(** str.lower(), for ASCII letters *)
Definition lower_char (a : ascii) : ascii :=
  let n := nat_of_ascii a in
  if (Nat.leb 65 n && Nat.leb n 90)%bool then ascii_of_nat (n + 32) else a.
Fixpoint lower (s : string) : string :=
  match s with EmptyString => EmptyString | String a t => String (lower_char a) (lower t) end.
(** utils.py 173-175 *)
Definition areTheSame (a b : string) : bool := String.eqb (lower a) (lower b).
(** str.replace('_', '-'), used by __str__ (materials.py 87-94) *)
Fixpoint printed (s : string) : string :=
  match s with
  | EmptyString => EmptyString
  | String a t => String (if Ascii.eqb a "_" then "-"%char else a) (printed t)
  end.

(** materials.py 96-108: the loop over Material.all(); [name] None gives Air *)
Fixpoint find_loop {D} (l : list (string * D)) (simplified : string) : res (string * D) :=
  match l with
  | [] => Err ValueError
  | (c, d) :: t => if areTheSame simplified (drop "_" c) then Ok (c, d) else find_loop t simplified
  end.
Definition findByName {T} {N : Num T} (name : option string) : res (string * dispersion T) :=
  match name with
  | None => Ok ("Air"%string, DAir)
  | Some s => find_loop catalogue (drop "-" s)
  end.
