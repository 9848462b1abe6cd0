(** Wavelengths and names for which the catalogue fails. *)
From Coq Require Import ZArith List Bool String Ascii.
From Verif Require Import Base Nums Materials MaterialsProofs NamesProofs.
Import ListNotations.
Open Scope list_scope.

(** wavelengths in thousandths of a micron *)
Definition mil (k : Z) : float := ndec k 3.
Definition grid : list Z := [54; 67; 69; 70; 60; 55; 59; 49; 62; 64; 52; 57; 56; 87; 75; 51; 58; 90; 66]%Z.
Definition complex_at (d : dispersion float) (k : Z) : bool :=
  match index_of d (mil k) with Ok PComplex => true | _ => false end.

Lemma complex_somewhere : forallb (fun p => polynomial (snd p) || existsb (complex_at (snd p)) grid)
  (@catalogue float _) = true.
Proof. vm_compute. reflexivity. Qed.
(** every glass given by a Sellmeier formula returns a complex number at an accepted wavelength *)
Lemma complex_index name d : In (name, d) (@catalogue float _) -> polynomial d = false ->
  exists w, index_of d w = Ok PComplex.
Proof.
  intros H Hp. pose proof complex_somewhere as F. rewrite forallb_forall in F.
  specialize (F _ H). cbn [snd] in F. rewrite Hp in F. cbn [orb] in F.
  apply existsb_exists in F as (k & _ & Hk). exists (mil k).
  unfold complex_at in Hk. destruct (index_of d (mil k)) as [[x|]|]; try discriminate. reflexivity.
Qed.
(** in the infrared too: N-BK7 at 8.5 microns *)
Lemma bk7_infrared : exists d, findByName (Some "N-BK7"%string) = Ok ("N_BK7"%string, d) /\
  index_of d (mil 8500) = Ok PComplex.
Proof. eexists. split; [vm_compute; reflexivity|]. vm_compute. reflexivity. Qed.
Lemma bk7_below_one : exists d n, findByName (Some "N-BK7"%string) = Ok ("N_BK7"%string, d) /\
  index_of d (mil 10) = Ok (PReal n) /\ nltb n c1 = true.
Proof.
  eexists. eexists. split; [vm_compute; reflexivity|]. split; [vm_compute; reflexivity|].
  vm_compute. reflexivity.
Qed.

(** a class name, as listed by Material.all(), that findByName rejects *)
Lemma class_name_not_found : exists c, In c (map fst (@catalogue float _)) /\
  @findByName float _ (Some c) = Err ValueError.
Proof. exists "N_BK7"%string. vm_compute. auto. Qed.
