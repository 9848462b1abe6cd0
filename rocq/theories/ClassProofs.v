(** Proofs about the lists of classes (Classes.v). *)
From Coq Require Import List String Lia.
From Verif Require Import Classes.
Import ListNotations.
Open Scope list_scope.

Lemma class_rect' (P : class -> Prop) : (forall n l, (forall c, In c l -> P c) -> P (Class n l)) -> forall c, P c.
Proof.
  intros H. fix IH 1. intros [n l]. apply H. induction l as [|c l K]; intros d Hd; [destruct Hd|].
  destruct Hd as [<-|Hd]; [apply IH|exact (K d Hd)].
Qed.
(** [d] is derived from [c], directly or not *)
Inductive derived (c : class) : class -> Prop :=
| derived_child d : In d (subclasses c) -> derived c d
| derived_below d e : In d (subclasses c) -> derived d e -> derived c e.

(** the names returned are those of the derived classes from which no class is derived *)
Lemma allSubclasses_leaves : forall c n, In n (allSubclasses c) <-> exists d, derived c d /\ subclasses d = [] /\ class_name d = n.
Proof.
  induction c as [m l IH] using class_rect'. intros n. cbn [allSubclasses]. rewrite in_flat_map. split.
  - intros (d & Hd & H). destruct (subclasses d) as [|x t] eqn:E.
    + destruct H as [<-|[]]. exists d. split; [now apply derived_child|auto].
    + apply (IH d Hd) in H as (f & K & L). exists f. split; [now apply (derived_below (Class m l) d)|exact L].
  - intros (d & H & E & <-). inversion H as [x Hx|x y Hx Hy]; subst.
    + exists d. split; [exact Hx|]. rewrite E. now left.
    + exists x. split; [exact Hx|]. destruct (subclasses x) as [|y t] eqn:F.
      * exfalso. inversion Hy as [z Hz|z w Hz]; rewrite F in Hz; destruct Hz.
      * apply (IH x Hx). exists d. auto.
Qed.
Lemma printed_edges : forall c a b, In (a, b) (printAllChilds c) <->
  exists p d, (p = c \/ derived c p) /\ In d (subclasses p) /\ class_name p = a /\ class_name d = b.
Proof.
  induction c as [m l IH] using class_rect'. intros a b. cbn [printAllChilds]. rewrite in_flat_map. split.
  - intros (d & Hd & [H|H]).
    + injection H as <- <-. exists (Class m l), d. auto.
    + apply (IH d Hd) in H as (p & q & H & K). exists p, q. split; [|exact K]. right. destruct H as [->|H].
      * now apply derived_child.
      * now apply (derived_below (Class m l) d).
  - intros (p & d & H & Hd & <- & <-). destruct H as [->|H].
    + exists d. split; [exact Hd|now left].
    + inversion H as [x Hx|x y Hx Hy]; subst.
      * exists p. split; [exact Hx|]. right. apply (IH p Hx). exists p, d. auto.
      * exists x. split; [exact Hx|]. right. apply (IH x Hx). exists p, d. auto.
Qed.
(** every derived class is on the right of an arrow *)
Lemma printed_all c d : derived c d -> exists a, In (a, class_name d) (printAllChilds c).
Proof.
  intros H. assert (G : exists p, (p = c \/ derived c p) /\ In d (subclasses p)).
  { induction H as [c d H|c x d H K IH]; [exists c; auto|]. destruct IH as (p & [->|L] & M).
    - exists x. split; [right; now apply derived_child|exact M].
    - exists p. split; [right; now apply (derived_below c x)|exact M]. }
  destruct G as (p & G & K). exists (class_name p). apply printed_edges. exists p, d. auto.
Qed.
