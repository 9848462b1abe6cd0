(** Property theorems C117-C118: saved files, and images of images.  Each theorem is closed by a lemma proved elsewhere;
    the examples show that its hypotheses can be met. *)
From Coq Require Import Reals Lra List Bool String ZArith Floats Lia.
From Verif Require Import Base Nums Optics Group Imaging Spec MatrixProofs ElementProofs GroupProofs TraceProofs RayProofs CardinalProofs StrictProofs
  TransferProofs Samples RaysModel RaysMore GroupRefutations Saving SavingProofs SavingRefutations CompoundProofs.
Import ListNotations.
Set Warnings "-inexact-float".
Open Scope list_scope.

Open Scope nat_scope.
(** ** C117 *)
(** load gives what the last save saved, whichever object saved it and whatever happened before and since *)
Theorem C117_round_trip :
  forall {A} n (s : list (held A) * disk A) before i since j,
  plain n s -> Forall (fun op => who op < n) (before ++ since) -> i < n -> j < n -> forallb (fun op => negb (is_save op)) since = true ->
  let s1 := frun s before in
  let s2 := frun s (before ++ FSave i :: since) in
  load_rays (obj s2 j) false (snd s2) = (mkHeld true (things (obj s1 i)), None) /\
  load_rays (obj s2 j) true (snd s2) = (mkHeld true (things (obj s2 j) ++ things (obj s1 i)), None).
Proof. exact @load_last_saved. Qed.
Print Assumptions C117_round_trip.

(** an operation on one object leaves the other objects as they were *)
Theorem C117_others :
  forall {A} n (s : list (held A) * disk A) op j,
  plain n s -> who op < n -> j <> who op -> obj (fstep s op) j = obj s j.
Proof. exact @others_untouched. Qed.
Print Assumptions C117_others.

(** a load that raises leaves the object as it was *)
Theorem C117_failed_load :
  forall {A} (o : held A) app d x,
  snd (load_rays o app d) = Some x -> fst (load_rays o app d) = o.
Proof. exact @failed_load. Qed.
Print Assumptions C117_failed_load.

(** exactly the complete files with an iterable of rays are accepted *)
Theorem C117_accepts :
  forall {A} (o : held A) d,
  snd (load_rays o false d) = None <-> exists l, d = Pickled (BList l) \/ d = Pickled (BTuple l).
Proof. exact @load_accepts. Qed.
Print Assumptions C117_accepts.

(** a group is left as it was by a file that is refused *)
Theorem C117_groups :
  forall {T} {N : Num T} (g : @grp T) app d x,
  snd (load_group g app d) = Some (inl x) -> fst (load_group g app d) = g.
Proof. exact @group_refuses. Qed.
Print Assumptions C117_groups.

(** a program killed while it saves leaves the old file, the new one, or one that load refuses *)
Theorem C117_killed :
  forall {A} (o : held A) old d,
  In d (old :: saving o) ->
  d = old \/ d = saved o \/ forall o' app, load_rays o' app d = (o', Some EndOfFile).
Proof. exact @killed_while_saving. Qed.
Print Assumptions C117_killed.

(** partial: the file of a random source has the rays up to the highest one that was asked for *)
Theorem C117_random_partial :
  forall {T} {N : Num T} (rnd : nat -> T) ymax ymin thmax thmin mc os,
  (0 <= mc)%Z ->
  let q := qrun rnd (RandomUniformRays ymax ymin thmax thmin mc) os in
  exists n, (Z.of_nat n <= mc)%Z /\
    saved_random q = Pickled (BList (map (fun k => kth rnd (lower ymax ymin) ymax (lower thmax thmin) thmax k) (seq 0 n))) /\
    (forall i r, fst (random_get rnd q i) = Ok r ->
       exists m, ((if (i <? 0)%Z then i + mc else i) < Z.of_nat m <= mc)%Z /\
         saved_random (snd (random_get rnd q i)) = Pickled (BList (map (fun k => kth rnd (lower ymax ymin) ymax (lower thmax thmin) thmax k) (seq 0 m)))).
Proof. exact @random_saved. Qed.
Print Assumptions C117_random_partial.

(** save returns exactly when the file appears and two successive answers to the question for its size agree *)
Theorem C117_returns :
  forall there size,
  (exists fuel t, waiting fuel there size = Some t) <-> (exists i, there i = true) /\ (exists i j, agree size i j).
Proof. exact save_returns. Qed.
Print Assumptions C117_returns.

(** and it takes a second at least *)
Theorem C117_second :
  forall fuel there size t,
  waiting fuel there size = Some t -> (10 <= t)%Z.
Proof. exact save_takes_a_second. Qed.
Print Assumptions C117_second.

(** a file that another program keeps writing to is waited for forever *)
Theorem C117_forever :
  forall there size,
  (forall i, exists s s', size i = Some s /\ size (S i) = Some s' /\ (s < s')%Z) -> forall fuel, waiting fuel there size = None.
Proof. exact save_waits_forever. Qed.
Print Assumptions C117_forever.

(** a source of 1000 rays is saved without any ray, or with the rays that were looked at *)
Theorem C117_random_refuted :
  exists q : @random_rays float, random_len q = 1000%Z /\
  load_rays (mkHeld true []) false (saved_random q) = (mkHeld true [], None) /\
  exists r, load_rays (mkHeld true []) false (saved_random (snd (random_get no_dice q 0))) = (mkHeld true [r], None).
Proof. exact source_saved_empty. Qed.
Print Assumptions C117_random_refuted.

(** a random source that loads a file visits as many rays as before: it drops some of those in the file or makes up others *)
Theorem C117_count_refuted :
  exists (q : @random_rays float) l l', List.length l = 3%nat /\ List.length l' = 1%nat /\
  random_for no_dice 10 (load_random q l) = map Ok (firstn 2 l) /\
  exists r, random_for no_dice 10 (load_random q l') = map Ok (l' ++ [r]).
Proof. exact source_keeps_count. Qed.
Print Assumptions C117_count_refuted.

(** a file with a tuple of rays is accepted, and no ray can be appended afterwards *)
Theorem C117_tuple_refuted :
  exists (d : disk (@ray float)) o o', load_rays (mkHeld true []) false d = (o, None) /\ o' = o /\ List.length (things o) = 2%nat /\
  append_ray o (Ray_new (fz 1) (fz 0)) = (o', Some NoSuchMethod) /\ load_rays o true d = (o', Some NoSuchMethod).
Proof. exact tuple_loaded. Qed.
Print Assumptions C117_tuple_refuted.

(** a program killed while it saves over an older file loses both *)
Theorem C117_killed_refuted :
  exists (old new : list (@ray float)) d, In d (saving (mkHeld true new)) /\ old <> [] /\
  load_rays (mkHeld true []) false (saved (mkHeld true old)) = (mkHeld true old, None) /\
  load_rays (mkHeld true []) false d = (mkHeld true [], Some EndOfFile).
Proof. exact old_file_lost. Qed.
Print Assumptions C117_killed_refuted.

(** two objects; the first saves, gets another ray, and the second loads *)
Example C117_example : exists s : list (held (@ray float)) * disk (@ray float), plain 2 s /\
  let s' := frun s ([FAppend 0 (Ray_new (fz 1) (fz 0))] ++ FSave 0 :: [FAppend 0 (Ray_new (fz 2) (fz 0)); FLoad 1 false]) in
  List.length (things (obj s' 0)) = 2 /\ things (obj s' 1) = [Ray_new (fz 1) (fz 0)].
Proof.
  exists ([mkHeld true []; mkHeld true [Ray_new (fz 9) (fz 0)]], Absent). split; [split; [reflexivity|]; split; [repeat constructor|now left]|].
  cbn zeta. split; reflexivity.
Qed.
Example C117_failed_example : exists (o : held nat) d, o = mkHeld true [1; 2; 3] /\ snd (load_rays o false d) = Some EndOfFile /\
  In d (Pickled (BList [4]) :: saving (mkHeld true [5])).
Proof. exists (mkHeld true [1; 2; 3]), Torn. repeat split. right. now left. Qed.
Example C117_groups_example : exists g : @grp float, snd (load_group g true (Pickled BMixed)) = Some (inl WrongContent) /\ gelems g = [fspace 10].
Proof. exists (theg (MatrixGroup_new [fspace 10] "")). split; vm_compute; reflexivity. Qed.
Example C117_random_example : (0 <= 1000)%Z /\ exists r, fst (random_get no_dice (qrun no_dice thousand [QNext; QGet 3]) (-998)) = Ok r.
Proof. split; [lia|]. eexists. vm_compute. reflexivity. Qed.
(** the file is not there at first, grows, cannot be asked once, and is complete *)
Example C117_waiting_example : waiting 10 (fun i => 2 <=? i)%nat (fun i => nth i [Some 0; Some 4096; None; Some 8192] (Some 8192))%Z = Some 33%Z.
Proof. reflexivity. Qed.
Example C117_forever_example : forall i, exists s s', Some (Z.of_nat i) = Some s /\ Some (Z.of_nat (S i)) = Some s' /\ (s < s')%Z.
Proof. intros i. do 2 eexists. repeat split. lia. Qed.

Open Scope R_scope.
(** ** C118 *)
(** the image formed by a whole system is the one found by following the image from element to element, each stage asked from
    forwardConjugate, and the magnifications multiply; images in front of an element (virtual) or behind the next one (virtual objects) included *)
Theorem C118_stages :
  forall n x es os d m,
  es <> [] -> Forall2 (fun e o => describes (emat e) o) es os -> n <> 0 -> matched n os -> imaged n x es d m ->
  exists s g c, Space (Fin x) (Fin n) PInf = Ok s /\ MatrixGroup_new (s :: es) "" = Ok g /\ forwardConjugate (gmat g) = Ok (Fin d, Some c) /\ mA c = Fin m.
Proof. exact image_of_images. Qed.
Print Assumptions C118_stages.

(** an object 150 in front of a lens of 50: image 75 behind it, which is 25 behind a second lens of 50 that is 50 behind the first, a
    virtual object; the last image is 50/3 behind the second lens *)
Example C118_example : exists l1 sp l2, Lens (Fin 50) PInf = Ok l1 /\ Space (Fin 50) (Fin 1) PInf = Ok sp /\ Lens (Fin 50) PInf = Ok l2 /\
  Forall2 (fun e o => describes (emat e) o) [l1; sp; l2] [o_lens 50; o_space 50 1; o_lens 50] /\ matched 1 [o_lens 50; o_space 50 1; o_lens 50] /\
  imaged 1 150 [l1; sp; l2] (50 / 3) (- (1 / 3)).
Proof.
  do 3 eexists. split; [apply Lens_ok; [lra|exact I]|]. split; [apply Space_ok; [lra|exact I]|]. split; [apply Lens_ok; [lra|exact I]|].
  assert (forall (e : @elem XR) o n x, describes (emat e) o -> physical o -> onf o = n -> n <> 0 -> C_ (oM o) * x + D_ (oM o) <> 0 ->
    exists s p c, SpaceM (Fin x) (Fin n) PInf = Ok s /\ mul_matrix (emat e) s = Ok p /\
      forwardConjugate p = Ok (Fin (- (A_ (oM o) * x + B_ (oM o)) / (C_ (oM o) * x + D_ (oM o))), Some c) /\
      mA c = Fin (A_ (oM o) - (A_ (oM o) * x + B_ (oM o)) / (C_ (oM o) * x + D_ (oM o)) * C_ (oM o))) as K.
  { intros e o n x De Po Hf Hn HD. eexists. rewrite SpaceM_ok by (try exact I; exact Hn).
    destruct (mul_matrix_matched (emat e) (mat_of (o_space x n) PInf PInf false "") o (o_space x n) De (mat_of_describes _ _ _ _ _) Po (p_space _ _ Hn) Hf) as (p & E & Dp & _).
    assert (physical (ocomp o (o_space x n))) as Pp by (apply physical_ocomp; [exact Po|apply p_space; exact Hn|exact Hf]).
    assert (D_ (oM (ocomp o (o_space x n))) = C_ (oM o) * x + D_ (oM o)) as ED by (cbn; ring).
    assert (B_ (oM (ocomp o (o_space x n))) = A_ (oM o) * x + B_ (oM o)) as EB by (cbn; ring).
    destruct (forward_ok _ _ Dp Pp ltac:(rewrite ED; exact HD)) as (c & F & Dc). rewrite ED, EB in F, Dc.
    exists p, c. split; [reflexivity|]. split; [exact E|]. split; [exact F|]. rewrite (d_A _ _ Dc). f_equal. cbn. field. exact HD. }
  split; [repeat apply Forall2_cons; try apply Forall2_nil; apply mat_of_describes|].
  split; [split; [reflexivity|split; [apply p_lens|split; [reflexivity|split; [apply p_space; cbn; lra|split; [reflexivity|split; [apply p_lens|exact I]]]]]]|].
  destruct (K (Leaf (KLens (Fin 50) (Fin 4)) (mat_of (o_lens 50) PInf PInf false "")) (o_lens 50) 1 150 (mat_of_describes _ _ _ _ _) (p_lens 50) eq_refl ltac:(lra) ltac:(cbn; lra)) as (s1 & p1 & c1 & A1 & A2 & A3 & A4).
  destruct (K (Leaf KSpace (mat_of (o_space 50 1) PInf PInf false "")) (o_space 50 1) 1 (- 75) (mat_of_describes _ _ _ _ _) (p_space 50 1 ltac:(lra)) eq_refl ltac:(lra) ltac:(cbn; lra)) as (s2 & p2 & c2 & B1 & B2 & B3 & B4).
  destruct (K (Leaf (KLens (Fin 50) (Fin 4)) (mat_of (o_lens 50) PInf PInf false "")) (o_lens 50) 1 (- 25) (mat_of_describes _ _ _ _ _) (p_lens 50) eq_refl ltac:(lra) ltac:(cbn; lra)) as (s3 & p3 & c3 & C1 & C2 & C3 & C4).
  cbn [o_lens o_space oM A_ B_ C_ D_ thin free] in *.
  replace (- (1 / 3)) with (- (1 / 2) * (1 * (2 / 3 * 1))) by field.
  eapply (im_cons 1 150 _ _ s1 p1 75 c1 (- (1 / 2)) 1); [exact A1|exact A2|rewrite A3; do 2 f_equal; f_equal; field|rewrite A4; f_equal; field|reflexivity|].
  eapply (im_cons 1 (- 75) _ _ s2 p2 25 c2 1 1); [exact B1|exact B2|rewrite B3; do 2 f_equal; f_equal; field|rewrite B4; f_equal; field|reflexivity|].
  eapply (im_cons 1 (- 25) _ _ s3 p3 (50 / 3) c3 (2 / 3) 1); [exact C1|exact C2|rewrite C3; do 2 f_equal; f_equal; field|rewrite C4; f_equal; field|reflexivity|].
  replace (50 / 3) with (- (- (50 / 3))) at 2 by lra. constructor.
Qed.
