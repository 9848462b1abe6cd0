(** Preferences after which the package cannot be imported, checks that are not made, versions that are not announced. *)
From Coq Require Import List Bool String ZArith NArith.
From Verif Require Import Base Format Version VersionProofs.
Import ListNotations.
Open Scope string_scope.
Open Scope list_scope.
Open Scope Z_scope.

(** dates written as 19 digits, as an example of a text that can be read back *)
Definition digits19 (s : Z) : string := let d := decimal (Z.to_N s) in (zeros (19 - String.length d) ++ d)%string.
Definition undigits19 (s : string) : option Z :=
  match DecimalString.NilEmpty.uint_of_string s with Some u => Some (Z.of_N (N.of_uint u)) | None => None end.
Definition noon : datetime := mkTime 1700000000 250000.
Definition noon_sharp : datetime := mkTime 1700000000 0.
Lemma noon_readable : readable digits19 undigits19 noon /\ readable digits19 undigits19 noon_sharp.
Proof. split; split; vm_compute; reflexivity. Qed.
(** 47 hours later no check is made *)
Lemma no_check_after_a_day : exists t now, readable digits19 undigits19 t /\ 86400000000 < instant now - instant t /\
  lastCheckMoreThanADay undigits19 (Some (isoformat digits19 t)) now = Ok false.
Proof.
  exists noon, (mkTime (1700000000 + 47 * 3600) 250000). split; [apply noon_readable|]. split; vm_compute; reflexivity.
Qed.
(** the newest version is not the last of the list *)
Lemma newer_not_announced : exists current releases v, In (Some v) releases /\ older current v /\
  checkLatestVersion current releases = false.
Proof.
  exists [1; 3; 10]%N, [Some [1; 3; 9]%N; Some [1; 3; 12]%N; Some [1; 2; 9]%N], [1; 3; 12]%N.
  split; [right; left; reflexivity|]. split; [apply release_ltb_older; reflexivity|vm_compute; reflexivity].
Qed.
(** one release with a name that is not a version hides all others *)
Lemma unreadable_hides : exists current releases v, In (Some v) releases /\ older current v /\
  checkLatestVersion current releases = false.
Proof.
  exists [1; 3; 12]%N, [None; Some [1; 4; 0]%N], [1; 4; 0]%N.
  split; [right; left; reflexivity|]. split; [apply release_ltb_older; reflexivity|vm_compute; reflexivity].
Qed.
