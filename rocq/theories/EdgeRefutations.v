(** Lenses whose edge thickness contradicts their surfaces, and one that is not reported. *)
From Coq Require Import ZArith Reals Lra List Bool String Floats.
From Verif Require Import Base Nums Optics Spec Materials Zemax Catalogue CatalogueProofs CatalogueLens CatalogueChecks EdgeProofs.
Import ListNotations.
Open Scope string_scope.
Open Scope list_scope.

Open Scope R_scope.
Lemma edge_contradicts : exists name c D te first mid last z z', In (name, c) (@lenses XR _) /\ diameter c = Fin D /\ edge c = Fin te /\
  glass_surfaces c = first :: mid ++ [last] /\ on_surface first z (D / 2) /\ on_surface last z' (D / 2) /\ 5/100 < Rabs ((z' - z) / te - 1).
Proof.
  assert (exists d, In ("AC060_010_B", d) lens_data) as (d & Hd).
  { assert (existsb (fun p => String.eqb (fst p) "AC060_010_B") lens_data = true) as K by (vm_compute; reflexivity).
    apply existsb_exists in K as ([n d] & H & E). cbn in E. apply String.eqb_eq in E. subst n. now exists d. }
  pose proof (in_map (fun p => (fst p, resolved (snd p))) _ _ Hd) as Hl. cbn [fst snd] in Hl.
  destruct (glass "AC060_010_B" (resolved d) Hl) as (D & te & ED & EE & HD & Hte & H1 & _ & H3).
  assert (exists first mid lst, glass_surfaces (resolved d) = first :: mid ++ [lst]) as (first & mid & lst & E).
  { destruct d as [d t|s t]; cbn.
    - do 2 eexists. exists (nadd (lit (d_tc1 d)) (lit (d_tc2 d)), omap lit (d_R3 d)). match goal with |- _ = ?a :: ?b ++ _ => unify b [(@lit XR _ (d_tc1 d), omap (@lit XR _) (d_R2 d))] end. reflexivity.
    - do 2 eexists. exists (lit (s_tc s), omap lit (s_R2 s)). match goal with |- _ = ?a :: ?b ++ _ => unify b (@nil (XR * option XR)) end. reflexivity. }
  assert (Rabs (D / 2) <= D / 2) as Hh by (rewrite Rabs_right; lra).
  destruct (H1 first (D / 2)) as (z & Hz & _); [rewrite E; now left|exact Hh|].
  destruct (H1 lst (D / 2)) as (z' & Hz' & _); [rewrite E; right; apply in_app_iff; right; now left|exact Hh|].
  exists "AC060_010_B", (resolved d), D, te, first, mid, lst, z, z'. do 6 (split; [assumption|]).
  apply (H3 first mid lst z z' E Hz Hz'). now left.
Qed.

(** a plano-convex lens like LA1608_A with an edge of 20.0 mm where it is 4.1 mm thick: no warning at all *)
Definition la1608 (te : Z * Z) : dlens :=
  LSingletD (mkSinglet (dec 750 1) (dec 720 1) (Some (dec 386 1)) None (dec 41 1) te (dec 254 1) None (Some "N_BK7") (Some (dec 5876 4))) true.
Lemma plane_unnoticed : In ("LA1608_A", la1608 (dec 20 1)) lens_data /\
  exists b : built float, construct (resolve_class lit (material catalogue) (la1608 (dec 200 1))) None = Ok b /\ b_warn b = [].
Proof.
  split.
  - assert (exists l l', lens_data = l ++ ("LA1608_A", la1608 (dec 20 1)) :: l') as (l & l' & ->).
    { pose (n := (fix at_ (l : list (string * dlens)) := match l with [] => 0%nat | p :: t => if String.eqb (fst p) "LA1608_A" then 0%nat else S (at_ t) end) lens_data).
      exists (firstn n lens_data), (skipn (S n) lens_data). vm_compute. reflexivity. }
    apply in_app_iff. right. now left.
  - eexists. split; [vm_compute; reflexivity|reflexivity].
Qed.
