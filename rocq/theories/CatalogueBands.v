(** The focal length over the band of the coating, by interval arithmetic checked by the kernel. *)
From Coq Require Import ZArith Reals Lra Lia List Bool String Ascii.
From Verif Require Import Base Nums Optics Spec MatrixProofs Materials MaterialsProofs DispersionProofs Zemax
  Catalogue Interval LensProofs CatalogueProofs CatalogueLens CatalogueChecks.
Import ListNotations.
Open Scope list_scope.
Open Scope R_scope.

(** ** Names of the lenses with a coating *)
Local Open Scope string_scope.
Definition coated (suffixes : list string) (name : string) : Prop :=
  exists stem s, In s suffixes /\ name = "AC" ++ stem ++ s.
Definition coat_A := ["_A"; "_Ag"; "_A_ML"; "_A_MLd"].
Definition coat_B := ["_B"; "_B_ML"].
Definition coat_C := ["_C"; "_C_ML"].
Fixpoint endsb (s name : string) : bool :=
  (String.eqb s name || match name with EmptyString => false | String _ t => endsb s t end)%bool.
Definition coatedb (suffixes : list string) (name : string) : bool :=
  match name with
  | String a (String b rest) => (Ascii.eqb a "A"%char && Ascii.eqb b "C"%char && existsb (fun s => endsb s rest) suffixes)%bool
  | _ => false
  end.
Local Close Scope string_scope.
Lemma endsb_app s : forall stem, endsb s (stem ++ s)%string = true.
Proof.
  assert (E : endsb s s = true) by (destruct s; [reflexivity|]; cbn [endsb]; now rewrite String.eqb_refl).
  induction stem as [|a t IH]; [exact E|]. change (String a t ++ s)%string with (String a (t ++ s)).
  cbn [endsb]. rewrite IH. apply orb_true_r.
Qed.
Lemma coated_b l name : coated l name -> coatedb l name = true.
Proof.
  intros (stem & s & H & ->). cbn. apply existsb_exists. exists s. split; auto. apply endsb_app.
Qed.

(** ** A check over a band gives a bound for every wavelength of the band *)
Definition is_doublet {A M} (c : lens_class A M) : bool := match c with LDoubletD _ _ => true | _ => false end.
Definition band_one (suffixes : list string) (ok : itv -> bool) (g : list (Z * Z)) (t : list (string * list itv))
    (p : string * dlens) : bool :=
  if coatedb suffixes (fst p) then
    let c := snd p in let i := rangeC t g c in
    (is_doublet c && readyb c && takes c && strong i && ok (ratioI i (design c)))%bool
  else true.
Definition band_check (suffixes : list string) (ok : itv -> bool) (g : list (Z * Z)) : bool :=
  forallb (band_one suffixes ok g (table g)) lens_data.

(** the lens of this class at w has focal length f *)
Definition focal_at (c : lens_class XR (dispersion XR)) (w f : R) : Prop :=
  exists b, construct c (Some (Fin w)) = Ok b /\ focal b f.

Lemma band_ok suffixes ok k a l name c :
  band_check suffixes ok (in_units k (a :: l)) = true ->
  (0 <= k)%Z -> increasing a l = true -> 28/100 <= litR (a, k) -> litR (last l a, k) <= 7 ->
  In (name, c) (@lenses XR _) -> coated suffixes name ->
  exists i f0, design c = Fin f0 /\ f0 <> 0 /\ ok i = true /\
    forall w, litR (a, k) <= w <= litR (last l a, k) -> exists f, focal_at c w f /\ inI (f / f0) i.
Proof.
  intros K Hk Hi Ha H7 H Hn. apply lens_in in H as (d & H & ->). apply coated_b in Hn.
  pose proof (proj1 (forallb_forall _ _) K _ H) as K'. clear K. rename K' into K. unfold band_one in K.
  cbn [fst snd] in K. rewrite Hn in K. cbv zeta in K.
  rewrite !andb_true_iff in K. destruct K as ((((_ & Kr) & Kt) & Ks) & K).
  destruct (has_ixs_ok _ _ H) as (is & Ei).
  destruct (ready_fields d Kr) as (E1 & N1 & _).
  exists (ratioI (rangeC (table (in_units k (a :: l))) (in_units k (a :: l)) d) (design d)), (litR (design d)).
  split; [exact E1|]. split; [exact N1|]. split; [exact K|]. intros w Hw.
  destruct (built_in_range k a l d is (Some w) w Hk Hi Ha H7 Kr Ei (conj Kt eq_refl) Hw Ks)
    as (b & f & Hb & Hf & _ & _ & HI).
  exists f. split; [|exact HI]. exists b. destruct Hb as (Hc & _). now split.
Qed.
Lemma focal_at_fun c w f g : focal_at c w f -> focal_at c w g -> f = g.
Proof. intros (b & H1 & H2) (b' & H3 & H4). congruence. Qed.

Definition width (p : Z * Z) (i : itv) : bool := narrow i p.
Definition about (lo hi p : Z * Z) (i : itv) : bool := (above i lo && below i hi && narrow i p)%bool.
Definition band_A := steps 19 403 3 ++ steps 12 460 5 ++ steps 10 520 8 ++ steps 11 600 10.
Definition band_B := steps 20 655 5 ++ steps 13 758 8 ++ steps 13 868 14 ++ [1050]%Z.
Definition band_C := steps 26 1075 25.
Lemma check_A : band_check coat_A (about (983, 3) (1017, 3) (13, 3))%Z (in_units 3 (400%Z :: band_A)) = true.
Proof. vm_compute. reflexivity. Qed.
Lemma check_B : band_check coat_B (width (21, 3)%Z) (in_units 3 (650%Z :: band_B)) = true.
Proof. vm_compute. reflexivity. Qed.
Lemma check_C : band_check coat_C (width (19, 3)%Z) (in_units 3 (1050%Z :: band_C)) = true.
Proof. vm_compute. reflexivity. Qed.
