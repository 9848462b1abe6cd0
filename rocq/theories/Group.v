(** List-like operations of MatrixGroup (/repo/raytracing/matrixgroup.py) on values.
    Every operation returns the state of the group afterwards together with the
    exception it raised, if any, so that failed operations can be studied.
    Elements are values: sharing of element objects is modelled in Store.v. *)
From Coq Require Import ZArith List Bool String.
From Verif Require Import Base Optics.
Import ListNotations.

Section Model.
Context {T : Type} {N : Num T}.
Local Notation elem := (@elem T).
Local Notation grp := (@grp T).

(** matrixgroup.py 29-30, 175-176, 223-224, 552-557: append one element after the other,
    stopping at the first exception *)
Fixpoint append_all_st (g : grp) (l : list elem) : grp * option exn :=
  match l with
  | [] => (g, None)
  | e :: t =>
      match append_st g e with
      | (g', None) => append_all_st g' t
      | (g', Some x) => (g', Some x)
      end
  end.

(** clear the element list, then append [es] again (matrixgroup.py 174-176, 222-224) *)
Definition rebuild (g : grp) (es : list elem) : grp * option exn :=
  append_all_st (mkGrp (gmat g) []) es.

(** matrixgroup.py 147-177 *)
Definition pop_st (g : grp) (i : Z) : grp * option exn :=
  match pyindex (List.length (gelems g)) i with
  | None => (g, Some IndexError)
  | Some k => rebuild g (remove_nth k (gelems g))
  end.

(** matrixgroup.py 179-224; [l] is the inserted element alone, or the elements of the
    inserted iterable *)
Definition insert_st (g : grp) (i : Z) (l : list elem) : grp * option exn :=
  match MatrixGroup_new l "" with
  | Err x => (g, Some x)
  | Ok tmp =>
      rebuild g (pytake i (gelems g) ++ gelems tmp ++ pydrop i (gelems g))
  end.

(** matrixgroup.py 269-271: group[i] = e *)
Definition setitem_st (g : grp) (i : Z) (l : list elem) : grp * option exn :=
  match pop_st g i with
  | (g', None) => insert_st g' i l
  | (g', Some x) => (g', Some x)
  end.

(** matrixgroup.py 260-268: group[start:stop] = l; the step is ignored *)
Definition setslice_st (g : grp) (start stop : option Z) (l : list elem)
    : grp * option exn :=
  let start := match start with Some z => z | None => 0%Z end in
  let stop := match stop with
              | Some z => z | None => Z.of_nat (List.length (gelems g)) end in
  let cut := mkGrp (gmat g) (pytake start (gelems g) ++ pydrop stop (gelems g)) in
  insert_st cut start l.

(** matrixgroup.py 551-557: load, the file already unpickled to [l] *)
Definition load_st (g : grp) (app : bool) (l : list elem) : grp * option exn :=
  if app then append_all_st g l else append_all_st (mkGrp (gmat g) []) l.

(** matrixgroup.py 470-483; elements are flipped and appended one at a time, last first *)
Fixpoint flip_each (g : grp) (l : list elem) : grp * option exn :=
  match l with
  | [] => (g, None)
  | e :: t =>
      match flip e with
      | Err x => (g, Some x)
      | Ok e' =>
          match append_st g e' with
          | (g', None) => flip_each g' t
          | (g', Some x) => (g', Some x)
          end
      end
  end.
Definition flip_st (g : grp) : grp * option exn :=
  flip_each (mkGrp (set_flip (gmat g) (negb (mflip (gmat g)))) []) (rev (gelems g)).

(** the operations a user can perform on a group *)
Inductive gop :=
| OAppend (e : elem)
| OPop (i : Z)
| OInsert (i : Z) (l : list elem)
| OSetItem (i : Z) (l : list elem)
| OSetSlice (start stop : option Z) (l : list elem)
| OLoad (app : bool) (l : list elem)
| OFlip.

Definition gstep (g : grp) (o : gop) : grp * option exn :=
  match o with
  | OAppend e => append_st g e
  | OPop i => pop_st g i
  | OInsert i l => insert_st g i l
  | OSetItem i l => setitem_st g i l
  | OSetSlice a b l => setslice_st g a b l
  | OLoad app l => load_st g app l
  | OFlip => flip_st g
  end.

(** a whole history; exceptions are caught by the user, who carries on *)
Definition grun (g : grp) (os : list gop) : grp := fold_left (fun g o => fst (gstep g o)) os g.

(** a group just created, MatrixGroup() (matrixgroup.py 19-36) *)
Definition empty_group : res grp := MatrixGroup_new [] "".

End Model.
