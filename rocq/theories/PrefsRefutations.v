(** Histories of Preferences objects that lose what was stored. *)
From Coq Require Import ZArith List Bool String.
From Verif Require Import Prefs PrefsProofs.
Import ListNotations.
Open Scope list_scope.

Definition a := KStr "a". Definition b := KStr "b".
Definition v (z : Z) := VJson z.
Definition w0 := mkWorld None [].
(** the answer to [o] after [l], starting without a file *)
Definition asked (l : list op) (o : op) : answer := answer_of (step (fst (run w0 l)) o).
(** what was stored under [k] *)
Definition stored (l : list op) (k : key) : option value := expected (fun _ => None) l k.

Lemma lost_update : exists l i k, stored l k = Some (v 1) /\ asked l (Get i k) = Raised NoSuchKey.
Proof. exists [New []; New []; Set_ 0 a (v 1); Set_ 1 b (v 2)], 1, a. vm_compute. auto. Qed.
Lemma old_value_back : exists l i k, stored l k = Some (v 2) /\ asked l (Get i k) = Value (v 1).
Proof.
  exists [New []; New []; Set_ 0 a (v 1); Set_ 1 a (v 2); Set_ 0 b (v 3)], 1, a. vm_compute. auto.
Qed.
(** after a reset another object still answers with the old value, and puts it back for all
    when it stores anything *)
Lemma reset_undone : exists l i j k, stored l k = None /\ asked l (Get i k) = Value (v 1) /\
  asked l (Get j k) = Raised NoSuchKey /\ asked (l ++ [Set_ i b (v 2)]) (Get j k) = Value (v 1).
Proof.
  exists [New []; New []; Set_ 0 a (v 1); Get 1 a; Reset 0], 1, 0, a. vm_compute. auto.
Qed.
Lemma delete_undone : exists l i k, asked l (Del i k) = Done /\
  asked (l ++ [Del i k]) (Get i k) = Value (v 1).
Proof. exists [New []; Set_ 0 a (v 1)], 0, a. vm_compute. auto. Qed.
Lemma int_key_lost : exists l i k, stored l k = Some (v 5) /\ asked l (Get i k) = Raised NoSuchKey.
Proof. exists [New []; Set_ 0 (KInt 1) (v 5); New []], 1, (KInt 1). vm_compute. auto. Qed.
Lemma contains_stale : exists l i k, stored l k = Some (v 1) /\ asked l (Contains i k) = Bool false /\
  asked l (Get i k) = Value (v 1).
Proof. exists [New []; New []; Set_ 0 a (v 1)], 1, a. vm_compute. auto. Qed.

(** ** Crashes *)
(** the contents of the file during [o] after [l] *)
Definition during (l : list op) (o : op) : list file := files_of (step (fst (run w0 l)) o).

Lemma crash_in_save : exists l o f k, In f (during l o) /\
  stored l k = Some (v 1) /\ stored (l ++ [o]) k = Some (v 1) /\ seen_after f k = Raised NoSuchKey.
Proof.
  exists [New []; Set_ 0 a (v 1)], (Set_ 0 b (v 2)), (Some Torn), a. vm_compute. auto.
Qed.
(** reading a preference is enough *)
Lemma crash_in_get : exists l i k f, In f (during l (Get i k)) /\
  asked l (Get i k) = Value (v 1) /\ seen_after f k = Raised NoSuchKey.
Proof. exists [New []; Set_ 0 a (v 1)], 0, a, (Some Torn). vm_compute. auto. Qed.
(** creating an object is enough, and may lose some keys only *)
Lemma crash_in_new : exists l f, In f (during l (New [])) /\
  seen_after f a = Value (v 1) /\ stored l b = Some (v 2) /\ seen_after f b = Raised NoSuchKey.
Proof.
  exists [New []; Set_ 0 a (v 1); Set_ 0 b (v 2)], (Some (Whole [(a, v 1)])). vm_compute. auto 6.
Qed.
(** a value JSON refuses destroys the file and leaves the object unable to save *)
Lemma bad_value : exists l, stored l a = Some (v 1) /\
  asked l (Set_ 0 b VBad) = Raised JsonTypeError /\
  seen_after (w_file (fst (run w0 (l ++ [Set_ 0 b VBad])))) a = Raised NoSuchKey /\
  asked (l ++ [Set_ 0 b VBad]) (Set_ 0 a (v 2)) = Raised JsonTypeError.
Proof. exists [New []; Set_ 0 a (v 1)]. vm_compute. auto. Qed.
