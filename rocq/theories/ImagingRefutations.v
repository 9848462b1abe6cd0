(** Bit-exact runs on IEEE doubles in which a property of imaging paths fails. *)
From Coq Require Import ZArith List Bool String Floats.
From Verif Require Import Base Nums Optics Group Spec GroupProofs TraceProofs Imaging FieldMore
  GroupRefutations.
Import ListNotations.

(** an ImagingPath built from a list of elements *)
Definition built (l : list (@elem float)) (e : @elem float) : Prop :=
  exists g, MatrixGroup_new l "" = Ok g /\ gelems g = l /\ e = Group GGroup (gmat g) (gelems g).
Definition fpath (l : list (@elem float)) : @elem float :=
  match MatrixGroup_new l "" with
  | Ok g => Group GGroup (gmat g) (gelems g)
  | Err _ => Leaf KMatrix dummy
  end.
Definition fap (d : float) := the (Aperture d ninf).

Ltac is_built := eexists; split; [vm_compute; reflexivity|split; vm_compute; reflexivity].

(** C32: the probe of apertureStop is lost at the first aperture; the second one lets less light
    through but is not considered: the on-axis ray towards the edge of the reported stop is
    blocked. *)
Lemma stop_not_limiting :
  exists (e : @elem float) s a1 a2 a,
    Space (fz 10) c1 ninf = Ok s /\ Aperture (ndec 19 1) ninf = Ok a1 /\
    Aperture (ndec 1 1) ninf = Ok a2 /\ built [s; a1; s; a2] e /\
    apertureStop e = Ok (mkStop (Some (fz 10)) (Some (ndec 19 1))) /\
    axialRay e = Ok (Some a) /\ rblk (traceThrough e a) = true /\
    (* a thousand times less inclined it is still blocked, by the second aperture *)
    rblk (traceThrough e (Ray_new c0 (ndec 1 2))) = true /\
    rdiam (traceThrough e (Ray_new c0 (ndec 1 2))) = ndec 1 1.
Proof.
  pose (e := fpath [fspace 10; fap (ndec 19 1); fspace 10; fap (ndec 1 1)]).
  exists e, (fspace 10), (fap (ndec 19 1)), (fap (ndec 1 1)),
    (match axialRay e with Ok (Some a) => a | _ => probe end).
  split; [vm_compute; reflexivity|]. split; [vm_compute; reflexivity|].
  split; [vm_compute; reflexivity|]. split; [is_built|]. vm_compute. repeat split.
Qed.

(** C32: when the only aperture is in an image plane of the object, there is no aperture at the
    reported place (a lens imaging on a screen of diameter 10) *)
Lemma stop_at_the_object :
  exists (e : @elem float) s l a,
    Space (fz 20) c1 ninf = Ok s /\ Lens (fz 10) ninf = Ok l /\ Aperture (fz 10) ninf = Ok a /\
    built [s; l; s; a] e /\ hasFiniteApertureDiameter e = true /\
    apertureStop e = Ok (mkStop (Some c0) (Some ninf)).
Proof.
  exists (fpath [fspace 20; flens 10; fspace 20; fap (fz 10)]), (fspace 20), (flens 10), (fap (fz 10)).
  split; [vm_compute; reflexivity|]. split; [vm_compute; reflexivity|].
  split; [vm_compute; reflexivity|]. split; [is_built|]. vm_compute. repeat split.
Qed.

(** C34: an aperture limited in angle stops the axial ray *)
Lemma axial_ray_blocked_na :
  exists (e : @elem float) s a r,
    Space (fz 10) c1 ninf = Ok s /\ Aperture (fz 10) (ndec 1 1) = Ok a /\ built [s; a] e /\
    axialRay e = Ok (Some r) /\ rblk (traceThrough e r) = true.
Proof.
  pose (e := fpath [fspace 10; the (Aperture (fz 10) (ndec 1 1))]).
  exists e, (fspace 10), (the (Aperture (fz 10) (ndec 1 1))),
    (match axialRay e with Ok (Some a) => a | _ => probe end).
  split; [vm_compute; reflexivity|]. split; [vm_compute; reflexivity|].
  split; [is_built|]. vm_compute. repeat split.
Qed.

(** C34: rounding alone stops the axial ray of [Space(7), Aperture(29)]: 7 * (14.5 / 7) > 14.5 *)
Lemma axial_ray_blocked_rounding :
  exists (e : @elem float) s a r,
    Space (fz 7) c1 ninf = Ok s /\ Aperture (fz 29) ninf = Ok a /\ built [s; a] e /\
    axialRay e = Ok (Some r) /\ rblk (traceThrough e r) = true.
Proof.
  pose (e := fpath [fspace 7; fap (fz 29)]).
  exists e, (fspace 7), (fap (fz 29)), (match axialRay e with Ok (Some a) => a | _ => probe end).
  split; [vm_compute; reflexivity|]. split; [vm_compute; reflexivity|].
  split; [is_built|]. vm_compute. repeat split.
Qed.

(** C35: entrancePupil raises when the object is in glass *)
Lemma entrance_pupil_glass :
  exists (e : @elem float) s i,
    Space (fz 10) n15 ninf = Ok s /\ DielectricInterface n15 c1 ninf (fz 4) = Ok i /\
    built [s; i] e /\ apertureStop e = Ok (mkStop (Some (fz 10)) (Some (fz 4))) /\
    entrancePupil e = Err ValueError.
Proof.
  exists (fpath [the (Space (fz 10) n15 ninf); the (DielectricInterface n15 c1 ninf (fz 4))]),
    (the (Space (fz 10) n15 ninf)), (the (DielectricInterface n15 c1 ninf (fz 4))).
  split; [vm_compute; reflexivity|]. split; [vm_compute; reflexivity|].
  split; [is_built|]. vm_compute. repeat split.
Qed.

(** ** C36: the search does not return *)
Section Cycle.
Context {T : Type} {N : Num T}.

Fixpoint steps (n : nat) (e : @elem T) (w : bool) (s : @search_state T) : option (@search_state T) :=
  match n with
  | O => Some s
  | S n =>
      if nltb precision (nabs (s_dy s)) || negb (Bool.eqb (s_was s) w) then
        match search_step e s with
        | Ok s' => if nltb maxHeight (nabs (s_y s')) && negb (s_was s') then None else steps n e w s'
        | Err _ => None
        end
      else None
  end.

Lemma search_steps n e w : forall s s' fuel, steps n e w s = Some s' ->
  search (n + fuel) e w s = search fuel e w s'.
Proof.
  induction n as [|n IH]; cbn [steps Nat.add]; intros s s' fuel; [now intros [= ->]|].
  cbn [search]. destruct (_ || _); [|discriminate]. destruct (search_step e s) as [s1|]; [|discriminate].
  cbn [bind]. destruct (_ && _); [discriminate|]. apply IH.
Qed.

Lemma search_fixpoint e w s : steps 1 e w s = Some s -> forall fuel, search fuel e w s = Err OutOfFuel.
Proof.
  intros H. induction fuel as [|fuel IH]; [reflexivity|].
  change (S fuel) with (1 + fuel)%nat. now rewrite (search_steps 1 e w s s fuel H).
Qed.

Lemma steps_out e w s n : (forall m, (m < n)%nat -> steps (S m) e w s <> None) ->
  forall m, (m <= n)%nat -> search m e w s = Err OutOfFuel.
Proof.
  revert s. induction n as [|n IH]; intros s H m Hm.
  - assert (m = 0)%nat as -> by (destruct m; [reflexivity|inversion Hm]). reflexivity.
  - destruct m as [|m]; [reflexivity|]. cbn [search].
    assert (steps 1 e w s <> None) as H0 by (apply (H 0%nat), Nat.lt_0_succ).
    assert (forall k, (k < n)%nat -> steps (S (S k)) e w s <> None) as H1.
    { intros k Hk. apply (H (S k)). now apply -> Nat.succ_lt_mono. }
    cbn [steps] in H0. change (forall k, (k < n)%nat ->
      (if nltb precision (nabs (s_dy s)) || negb (Bool.eqb (s_was s) w) then
        match search_step e s with
        | Ok s' => if nltb maxHeight (nabs (s_y s')) && negb (s_was s') then None else steps (S k) e w s'
        | Err _ => None
        end else None) <> None) in H1.
    destruct (_ || _); [|congruence].
    destruct (search_step e s) as [s1|]; [|congruence]. cbn [bind].
    destruct (_ && _); [congruence|]. apply IH; auto. now apply le_S_n.
Qed.

Lemma steps_prefix n e w : forall s, steps n e w s <> None ->
  forall m, (m < n)%nat -> steps (S m) e w s <> None.
Proof.
  induction n as [|n IH]; intros s H m Hm; [inversion Hm|].
  cbn [steps] in *. destruct (_ || _); [|congruence].
  destruct (search_step e s) as [s1|]; [|congruence].
  destruct (_ && _); [congruence|]. destruct m as [|m]; [discriminate|].
  apply (IH s1 H m). now apply Nat.succ_lt_mono.
Qed.

Lemma search_cycles n e w s s' : steps n e w s = Some s' -> steps 1 e w s' = Some s' ->
  forall fuel, search fuel e w s = Err OutOfFuel.
Proof.
  intros H H1 fuel. destruct (Nat.le_gt_cases fuel n) as [L|L].
  - apply (steps_out e w s n); auto. apply steps_prefix. congruence.
  - assert (fuel = n + (fuel - n))%nat as ->.
    { rewrite Nat.add_comm, Nat.sub_add; auto. now apply Nat.lt_le_incl. }
    rewrite (search_steps n e w s s' _ H). now apply search_fixpoint.
Qed.
End Cycle.

(** [Aperture(5e-5), Space(10), Aperture(10)]: the first height tried above the field is outside
    the field; the search then runs away downwards and stays at minus infinity *)
Definition e36 : @elem float := fpath [fap (ndec 5 5); fspace 10; fap (fz 10)].
Definition s36 : option (@search_state float) := steps 2000 e36 true (search_start (Ray_new c0 c0)).

Lemma e36_cycles fuel : fieldStop fuel e36 = Err OutOfFuel.
Proof.
  unfold fieldStop.
  assert (apertureStop e36 = Ok (mkStop (Some (fz 10)) (Some (fz 10)))) as -> by (vm_compute; reflexivity).
  cbn [bind].
  assert (hasFiniteApertureDiameter e36 && negb (match st_z (mkStop (Some (fz 10)) (Some (fz 10))) with
     Some z => neqb z c0 | None => false end) = true) as -> by (vm_compute; reflexivity).
  assert (exists s, s36 = Some s /\ steps 1 e36 true s = Some s) as (s & Es & Ec).
  { destruct s36 as [s|] eqn:E; [|vm_compute in E; discriminate].
    exists s. split; auto. assert (match s36 with Some s => steps 1 e36 true s = Some s | None => False end) as H
      by (vm_compute; reflexivity). rewrite E in H. exact H. }
  now rewrite (search_cycles 2000 e36 true _ s Es Ec fuel).
Qed.

Lemma field_search_hangs :
  exists (e : @elem float) a1 s a2,
    Aperture (ndec 5 5) ninf = Ok a1 /\ Space (fz 10) c1 ninf = Ok s /\ Aperture (fz 10) ninf = Ok a2 /\
    built [a1; s; a2] e /\
    forall fuel, fieldStop fuel e = Err OutOfFuel /\ halfFieldOfView fuel e = Err OutOfFuel /\
      fieldOfView fuel e = Err OutOfFuel /\ principalRay fuel e = Err OutOfFuel.
Proof.
  exists e36, (fap (ndec 5 5)), (fspace 10), (fap (fz 10)).
  split; [vm_compute; reflexivity|]. split; [vm_compute; reflexivity|].
  split; [vm_compute; reflexivity|]. split; [is_built|]. intros fuel.
  assert (halfFieldOfView fuel e36 = Err OutOfFuel) as H.
  { unfold halfFieldOfView. now rewrite e36_cycles. }
  split; [apply e36_cycles|]. split; auto. unfold fieldOfView, principalRay. now rewrite H.
Qed.

(** C36: a lens imaging the object on a screen of diameter 10: rounding makes the stop appear at
    the screen, chiefRay returns None and the search raises TypeError *)
Lemma field_search_raises :
  exists (e : @elem float) s1 l s2 a,
    Space n15 c1 ninf = Ok s1 /\ Lens c1 ninf = Ok l /\ Space (fz 3) c1 ninf = Ok s2 /\
    Aperture (fz 10) ninf = Ok a /\ built [s1; l; s2; a] e /\
    forall fuel, fieldStop (S fuel) e = Err TypeError /\ halfFieldOfView (S fuel) e = Err TypeError /\
      fieldOfView (S fuel) e = Err TypeError /\ principalRay (S fuel) e = Err TypeError.
Proof.
  pose (e := fpath [the (Space n15 c1 ninf); the (Lens c1 ninf); fspace 3; fap (fz 10)]).
  exists e, (the (Space n15 c1 ninf)), (the (Lens c1 ninf)), (fspace 3), (fap (fz 10)).
  split; [vm_compute; reflexivity|]. split; [vm_compute; reflexivity|].
  split; [vm_compute; reflexivity|]. split; [vm_compute; reflexivity|]. split; [is_built|].
  intros fuel. split; [vm_compute; reflexivity|]. split; [vm_compute; reflexivity|].
  split; vm_compute; reflexivity.
Qed.

(** C37: a half field of 8000 is reported infinite *)
Lemma large_field_infinite :
  exists (e : @elem float) a1 s a2 r,
    Aperture (fz 16000) ninf = Ok a1 /\ Space (fz 10) c1 ninf = Ok s /\ Aperture (fz 10) ninf = Ok a2 /\
    built [a1; s; a2] e /\
    halfFieldOfView 100 e = Ok ninf /\
    chiefRayAt e (fz 8001) = Ok (Some r) /\ rblk (traceThrough e r) = true.
Proof.
  pose (e := fpath [fap (fz 16000); fspace 10; fap (fz 10)]).
  exists e, (fap (fz 16000)), (fspace 10), (fap (fz 10)),
    (match chiefRayAt e (fz 8001) with Ok (Some r) => r | _ => probe end).
  split; [vm_compute; reflexivity|]. split; [vm_compute; reflexivity|].
  split; [vm_compute; reflexivity|]. split; [is_built|]. vm_compute. repeat split.
Qed.

(** C38: the entrance of a thick element is the field stop, the diameter reported is that of the
    element before it *)
Lemma field_stop_wrong_diameter :
  exists (e : @elem float) s a t v r,
    Space (fz 10) c1 ninf = Ok s /\ Aperture (fz 4) ninf = Ok a /\ Space (fz 5) c1 (fz 10) = Ok t /\
    built [s; a; s; t] e /\
    fieldStop 100 e = Ok (mkStop (Some (fz 20)) (Some ninf)) /\
    halfFieldOfView 100 e = Ok v /\ chiefRayAt e (nadd v (ndec 1 5)) = Ok (Some r) /\
    (* lost at the entrance of the last element *)
    rblk (traceThrough (fpath [s; a; s]) r) = false /\ rblk (traceThrough e r) = true.
Proof.
  pose (t := the (Space (fz 5) c1 (fz 10))).
  pose (e := fpath [fspace 10; fap (fz 4); fspace 10; t]).
  pose (v := match halfFieldOfView 100 e with Ok v => v | Err _ => c0 end).
  exists e, (fspace 10), (fap (fz 4)), t, v,
    (match chiefRayAt e (nadd v (ndec 1 5)) with Ok (Some r) => r | _ => probe end).
  split; [vm_compute; reflexivity|]. split; [vm_compute; reflexivity|].
  split; [vm_compute; reflexivity|]. split; [is_built|]. vm_compute. repeat split.
Qed.

(** C39: with the object in glass lagrangeInvariant leaves the index out; the value further on in
    the same glass is 1.5 times larger *)
Lemma lagrange_invariant_glass :
  exists (e : @elem float) s i a2 s2 a p v v5,
    Space (fz 10) n15 ninf = Ok s /\ DielectricInterface n15 c1 ninf (fz 4) = Ok i /\
    Space (fz 10) c1 ninf = Ok s2 /\ Aperture (fz 10) ninf = Ok a2 /\ built [s; i; s2; a2] e /\
    axialRay e = Ok (Some a) /\ principalRay 100 e = Ok (Some p) /\
    lagrangeInvariant 100 e = Ok v /\ v = nmul (rth a) (ry p) /\ nltb c0 v = true /\
    opticalInvariant e a p (fz 5) = Ok v5 /\ nltb (nmul (ndec 149 2) v) v5 = true.
Proof.
  pose (e := fpath [the (Space (fz 10) n15 ninf); the (DielectricInterface n15 c1 ninf (fz 4));
    fspace 10; fap (fz 10)]).
  pose (a := match axialRay e with Ok (Some r) => r | _ => probe end).
  pose (p := match principalRay 100 e with Ok (Some r) => r | _ => probe end).
  exists e, (the (Space (fz 10) n15 ninf)), (the (DielectricInterface n15 c1 ninf (fz 4))),
    (fap (fz 10)), (fspace 10), a, p,
    (match lagrangeInvariant 100 e with Ok v => v | Err _ => c0 end),
    (match opticalInvariant e a p (fz 5) with Ok v => v | Err _ => c0 end).
  split; [vm_compute; reflexivity|]. split; [vm_compute; reflexivity|].
  split; [vm_compute; reflexivity|]. split; [vm_compute; reflexivity|].
  split; [is_built|]. vm_compute. repeat split.
Qed.

(** C40: a cut inside glass raises, or changes the index *)
Lemma subPath_glass :
  exists (i1 s i2 : @elem float) g g' x,
    DielectricInterface c1 n15 ninf ninf = Ok i1 /\ Space (fz 10) n15 ninf = Ok s /\
    DielectricInterface n15 c1 ninf ninf = Ok i2 /\
    subPath [i1; s; i2] (fz 5) false = Err ValueError /\
    subPath [i1; s; i2] (fz 5) true = Ok g' /\ gelems g' = [x; i1] /\
    subPath [i1; s] (fz 5) false = Ok g /\ gelems g = [x] /\
    mfi (emat s) = n15 /\ mfi (emat x) = c1.
Proof.
  exists (the (DielectricInterface c1 n15 ninf ninf)), (the (Space (fz 10) n15 ninf)),
    (the (DielectricInterface n15 c1 ninf ninf)),
    (theg (subPath [the (DielectricInterface c1 n15 ninf ninf); the (Space (fz 10) n15 ninf)] (fz 5) false)),
    (theg (subPath [the (DielectricInterface c1 n15 ninf ninf); the (Space (fz 10) n15 ninf);
      the (DielectricInterface n15 c1 ninf ninf)] (fz 5) true)),
    (fspace 5).
  vm_compute. repeat split.
Qed.

(** C40: backwards=True does not turn the elements round: a ray sent back along its own path
    does not return *)
Lemma subPath_backwards_not_reversed :
  exists (s t s2 : @elem float) g r,
    Space (fz 10) c1 ninf = Ok s /\ ThickLens n15 (fz 10) ninf (fz 5) ninf = Ok t /\
    Space (fz 20) c1 ninf = Ok s2 /\
    subPath [s; t; s2] (fz 25) true = Ok g /\
    traceThrough (fpath [s; t; s]) (Ray_new c1 c0) = r /\ rz r = fz 25 /\
    let back := traceThrough (Group GGroup (gmat g) (gelems g)) (Ray_new (ry r) (nopp (rth r))) in
    nltb (ndec 1 3) (nabs (nsub (rth back) c0)) = true /\ nltb (ndec 1 2) (nsub c1 (ry back)) = true.
Proof.
  pose (t := the (ThickLens n15 (fz 10) ninf (fz 5) ninf)).
  exists (fspace 10), t, (fspace 20), (theg (subPath [fspace 10; t; fspace 20] (fz 25) true)),
    (traceThrough (fpath [fspace 10; t; fspace 10]) (Ray_new c1 c0)).
  vm_compute. repeat split.
Qed.

(** C40: zStart on the boundary between two elements raises *)
Lemma subPath_boundary :
  exists (s l : @elem float), Space (fz 10) c1 ninf = Ok s /\ Lens (fz 5) ninf = Ok l /\
    subPath [s; l; s] (fz 10) false = Err ValueError.
Proof. exists (fspace 10), (flens 5). vm_compute. repeat split. Qed.

(** the hypothesis of [half_field_transmitted] holds of doubles *)
Lemma precise_start_float : @precise_start float _.
Proof. vm_compute. reflexivity. Qed.
