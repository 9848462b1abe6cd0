(** Property theorems C16, C17, C63, C65, C70: hidden state of element objects.  Objects are
    numbers into a store; [tree fuel s i] is the element object [i] stands for, [groups fuel s i]
    lists the groups below it, [strace] traces with the cache of the groups, [shist] creates and
    traces the given rays one after the other, [srun] runs operations on paths. *)
From Coq Require Import ZArith Reals Lra Lia List Bool String Floats.
From Verif Require Import Base Nums Optics Group Spec MatrixProofs ElementProofs GroupProofs TraceProofs
  TransferProofs Samples Store StoreProofs StoreTrace StoreHistory StoreNested StoreMore GroupRefutations
  ImagingRefutations StoreRefutations.
Import ListNotations.
Open Scope list_scope.

(** ** C16 *)
(** the first trace through a path is right, whatever rays and objects exist *)
Theorem C16_first_trace :
  forall T (N : Num T) fuel (s : @store T) i e rid (h : @heap T),
  tree fuel s i = Some e -> NoDup (groups fuel s i) ->
  (forall j, In j (groups fuel s i) -> cache_of s j = None) -> (rid < List.length h)%nat ->
  exists tr s' h', strace fuel s i rid h = Some (tr, s', h') /\
    map (hget h') tr = trace_values e (hget h rid) /\
    caches_only s s' /\ (forall j, ~ In j (groups fuel s i) -> oget s' j = oget s j).
Proof.
  intros T N fuel s i e rid h Ht Hd Hc Hr. destruct (cold_trace fuel s i e rid h Ht Hd Hc) as (s' & A & B & C).
  exists (fst (trace e rid h)), s', (snd (trace e rid h)). split; [exact A|]. split; [|auto].
  now apply trace_values_anywhere.
Qed.
Print Assumptions C16_first_trace.

(** any history of traces through paths that contain no groups (blocked rays included): every
    trace has the values of a trace without a cache, and still has them at the end *)
Theorem C16_history_partial :
  forall T (N : Num T) l (s : @store T) (h : @heap T),
  flat s -> (forall j, cache_of s j = None) ->
  (forall j e, tree 2 s j = Some e -> Forall not_axicon (leaves e)) ->
  (forall i r j r', In (i, r) l -> In (j, r') l -> ray_eq r r' = true -> r = r') ->
  Forall (fun ir => tree 2 s (fst ir) <> None) l ->
  exists trs s' h', shist 2 s h l = Some (trs, s', h') /\ caches_only s s' /\
    (forall j, (j < List.length h)%nat -> hget h' j = hget h j) /\
    Forall2 (fun ir tr => exists e, tree 2 s (fst ir) = Some e /\ map (hget h') tr = trace_values e (snd ir)) l trs.
Proof.
  intros T N l s h Hf Hc Hax HR HF.
  destruct (flat_history (fun r => exists i, In (i, r) l) l s h) as (trs & s' & h' & A & B & _ & C & D); auto.
  - intros r r' (i & Hi) (j & Hj). eauto.
  - intros i e last tr _ E. rewrite Hc in E. discriminate.
  - rewrite Forall_forall in *. intros [i r] Hi. split; [exists i; exact Hi|now apply HF].
  - exists trs, s', h'. auto.
Qed.
Print Assumptions C16_history_partial.

Definition demo : @store float :=
  snd (new_path (objects [fap (fz 8); fspace 10; flens 10; fspace 10]) [0; 1; 2; 3]%nat).
Example C16_example : exists e, tree 2 demo 4 = Some e /\ flat demo /\ (forall j, cache_of demo j = None) /\
  (forall j e, tree 2 demo j = Some e -> Forall not_axicon (leaves e)) /\
  exists trs s' h', shist 2 demo [] [(4, fray0 (fz 1) c0); (4, fray0 (fz 5) c0); (4, fray0 (fz 1) c0)]%nat = Some (trs, s', h') /\
    (* the second ray is blocked, the third is answered from the history *)
    map (fun tr => map (fun i => ry (hget h' i)) tr) trs =
      [[fz 1; fz 1; fz 1; fz 1; fz 1; fz 1; fz 0]; [fz 5; fz 5; fz 5; fz 5; fz 5; fz 5; fz 5]; [fz 1; fz 1; fz 1; fz 1; fz 1; fz 1; fz 0]].
Proof.
  assert (forall j o, oget demo j = Some o -> In o demo) as Hin by (intros; eapply nth_error_In; eauto).
  exists (match tree 2 demo 4 with Some e => e | None => fspace 1 end). split; [vm_compute; reflexivity|].
  split.
  { intros i gk m kids c it E. do 5 (destruct i as [|i]; [vm_compute in E; try discriminate E|]).
    - injection E as _ _ <- _ _. repeat constructor; eexists; eexists; vm_compute; reflexivity.
    - vm_compute in E. destruct i; discriminate. }
  split. { intros j. do 5 (destruct j as [|j]; [reflexivity|]). vm_compute. destruct j; reflexivity. }
  split. { intros j e E. do 5 (destruct j as [|j]; [vm_compute in E; injection E as <-; repeat constructor|]).
           vm_compute in E. destruct j; discriminate. }
  destruct (shist 2 demo [] [(4, fray0 (fz 1) c0); (4, fray0 (fz 5) c0); (4, fray0 (fz 1) c0)]%nat) as [[[trs s'] h']|] eqn:E.
  - exists trs, s', h'. split; [reflexivity|]. vm_compute in E. injection E as <- _ <-. vm_compute. reflexivity.
  - vm_compute in E. discriminate.
Qed.

Theorem C16_refuted :
  exists (s : @store float) g i r tr s1 h1 s2 e tr2 s3 h2,
    objects [fspace 10; flens 10] = firstn 2 s /\ onew_group (firstn 2 s) [0%nat] = (g, (s, None)) /\ i = 1%nat /\
    r = Ray_new (fz 1) c0 /\
    strace 2 s g 0 [r] = Some (tr, s1, h1) /\ oappend s1 g i = (s2, None) /\
    tree 2 s2 g = Some e /\ strace 2 s2 g (List.length h1) (h1 ++ [r]) = Some (tr2, s3, h2) /\
    tr2 = tr /\ (List.length tr2 < List.length (trace_values e r))%nat.
Proof. exact stale_after_append. Qed.
Print Assumptions C16_refuted.
Theorem C16_moved_ray_refuted :
  exists (s : @store float) g r r' tr s1 h1 e,
    tree 2 s g = Some e /\ cache_of s g = None /\ r = Ray_new (fz 1) c0 /\ r' = Ray_new (fz 2) c0 /\
    strace 2 s g 0 [r] = Some (tr, s1, h1) /\
    strace 2 s1 g 0 (hset h1 0 r') = Some (tr, s1, hset h1 0 r') /\
    ry (hget (hset h1 0 r') (List.last tr 0%nat)) = fz 1 /\ ry (traceThrough e r') = fz 2.
Proof. exact stale_after_moving_ray. Qed.
Print Assumptions C16_moved_ray_refuted.
Theorem C16_position_refuted :
  exists (s : @store float) g r r' tr s1 h1 tr2 s2 h2 e,
    tree 2 s g = Some e /\ cache_of s g = None /\ r = Ray_new (fz 1) c0 /\
    r' = mkRay (fz 1) c0 (fz 5) false ninf None /\
    strace 2 s g 0 [r] = Some (tr, s1, h1) /\
    strace 2 s1 g (List.length h1) (h1 ++ [r']) = Some (tr2, s2, h2) /\
    map rz (map (hget h2) tr2) = [fz 0; fz 0; fz 10] /\
    map rz (trace_values e r') = [fz 5; fz 5; fz 15].
Proof. exact stale_position. Qed.
Print Assumptions C16_position_refuted.

(** ** C17 *)
(** nested groups, each object used once, any history of new rays none of which is blocked; in
    exact arithmetic *)
Theorem C17_nested_history_partial :
  forall fuel l (s : @store XR) i e (h : @heap XR),
  tree fuel s i = Some e -> NoDup (groups fuel s i) ->
  (forall j, In j (groups fuel s i) -> cache_of s j = None) ->
  Forall (fun r => (exists y th, r = Ray_new y th) /\ rblk (traceThrough e r) = false) l ->
  exists trs s' h', shist fuel s h (map (pair i) l) = Some (trs, s', h') /\ caches_only s s' /\
    (forall j, (j < List.length h)%nat -> hget h' j = hget h j) /\
    Forall2 (fun r tr => map (hget h') tr = trace_values e r) l trs.
Proof.
  intros fuel l s i e h Ht Hd Hc HF.
  destruct (nested_history exact_xr fuel l s i e h Ht Hd) as (trs & s' & h' & A & B & (_ & C) & D).
  - now apply ninv_cold.
  - eapply Forall_impl; [|exact HF]. cbn. intros r ((y & th & ->) & Hb). rewrite traceThrough_through in Hb.
    split; [repeat split|exact Hb].
  - exists trs, s', h'. auto.
Qed.
Print Assumptions C17_nested_history_partial.

Definition nested_demo : @store XR :=
  [leaf_obj (x_space 10 1); OGroup GGroup (emat (x_space 10 1)) [0%nat] None 0;
   OGroup GGroup (emat (x_space 10 1)) [1; 0]%nat None 0].
Example C17_example : exists e, tree 3 nested_demo 2 = Some e /\ NoDup (groups 3 nested_demo 2) /\
  groups 3 nested_demo 2 = [2; 1]%nat /\
  (forall j, In j (groups 3 nested_demo 2) -> cache_of nested_demo j = None) /\
  forall y th, rblk (traceThrough e (Ray_new (Fin y) (Fin th))) = false.
Proof.
  exists (Group GGroup (emat (x_space 10 1)) [Group GGroup (emat (x_space 10 1)) [x_space 10 1]; x_space 10 1]).
  split; [reflexivity|]. replace (groups 3 nested_demo 2) with [2; 1]%nat by reflexivity.
  split; [repeat constructor; cbn; intuition discriminate|]. split; [reflexivity|].
  split; [intros j [<-|[<-|[]]]; reflexivity|]. intros y th. rewrite traceThrough_through, through_flatten.
  cbn [leaves flat_map app x_space]. unfold through_leaves. cbn [fold_left fst snd].
  rewrite through_leaf_blocks.
  assert (misses (mat_of (o_space 10 1) PInf PInf false "") (Ray_new (Fin y) (Fin th)) = false) as M1
    by (eapply open_misses; reflexivity).
  pose proof (through_leaf_free (KSpace, mat_of (o_space 10 1) PInf PInf false ""%string) (Ray_new (Fin y) (Fin th)) eq_refl M1) as E.
  cbn [fst snd] in E. rewrite E. cbn [orb]. apply orb_false_iff. split; [reflexivity|].
  eapply open_misses; reflexivity.
Qed.

Theorem C17_group_twice_refuted :
  exists (s : @store float) g outer r tr s1 h1 e,
    oget s outer = Some (OGroup GGroup (emat e) [g; g] None 0) /\ tree 3 s outer = Some e /\
    cache_of s g = None /\ r = Ray_new (fz 1) c0 /\
    strace 3 s outer 0 [r] = Some (tr, s1, h1) /\
    rz (hget h1 (List.last tr 0%nat)) = fz 10 /\ rz (traceThrough e r) = fz 20 /\ mL (emat e) = fz 20.
Proof. exact group_twice. Qed.
Print Assumptions C17_group_twice_refuted.
Theorem C17_blocked_ray_revived_refuted :
  exists (s : @store float) outer e r1 r2 tr1 s1 h1 tr2 s2 h2,
    tree 3 s outer = Some e /\ NoDup (groups 3 s outer) /\
    (forall j, In j (groups 3 s outer) -> cache_of s j = None) /\
    r1 = Ray_new c0 (ndec 5 1) /\ r2 = Ray_new (fz 5) (ndec 5 1) /\
    strace 3 s outer 0 [r1] = Some (tr1, s1, h1) /\ rblk (hget h1 (List.last tr1 0%nat)) = false /\
    strace 3 s1 outer (List.length h1) (h1 ++ [r2]) = Some (tr2, s2, h2) /\
    existsb (fun i => rblk (hget h2 i)) tr2 = true /\
    rblk (hget h2 (List.last tr2 0%nat)) = false /\ rblk (traceThrough e r2) = true.
Proof. exact blocked_ray_revived. Qed.
Print Assumptions C17_blocked_ray_revived_refuted.
Theorem C17_inner_trace_refuted :
  exists (s : @store float) inner outer e r tr1 s1 h1 tr2 s2 h2,
    tree 2 s inner = Some e /\ cache_of s inner = None /\ r = Ray_new (fz 5) c0 /\
    strace 3 s outer 0 [r] = Some (tr1, s1, h1) /\
    strace 2 s1 inner (List.length h1) (h1 ++ [r]) = Some (tr2, s2, h2) /\
    rblk (hget h2 (List.last tr2 0%nat)) = true /\ rblk (traceThrough e r) = false.
Proof. exact inner_trace_spoiled. Qed.
Print Assumptions C17_inner_trace_refuted.

(** ** C63 *)
(** [modifies o] is the group operation [o] is called on, if it is meant to change it.  Whatever
    the history (exceptions included), every other object that existed keeps everything, except
    that the index of a Space may change *)
Theorem C63_others_partial :
  forall T (N : Num T) (s : @store T) l,
  (List.length s <= List.length (srun s l))%nat /\
  forall j, (j < List.length s)%nat -> (forall o, In o l -> ~ modifies o j) ->
    oget (srun s l) j = oget s j \/
    exists m n, oget s j = Some (OLeaf KSpace m) /\
      oget (srun s l) j = Some (OLeaf KSpace (mkMat (mA m) (mB m) (mC m) (mD m) (mL m) (mfv m) (mbv m) n n
                                                     (mdiam m) (mna m) (mflip m) (mlabel m))).
Proof.
  intros T N s l. destruct (srun_alone l s) as (A & B). split; [exact A|]. intros j Hj Hn.
  destruct (B j Hj) as [E|(m & n & E1 & E2)].
  - intros (o & Ho & Hm). exact (Hn o Ho Hm).
  - left. congruence.
  - right. exists m, n. auto.
Qed.
Print Assumptions C63_others_partial.
(** in air nothing else changes at all *)
Theorem C63_in_air_partial :
  forall (s : @store XR) l, Forall finite_cut l -> in_air s ->
  in_air (srun s l) /\
  forall j, (j < List.length s)%nat -> (forall o, In o l -> ~ modifies o j) -> oget (srun s l) j = oget s j.
Proof.
  intros s l Hf Ha. destruct (srun_air l s Hf Ha) as (A & _ & B). split; [exact A|].
  intros j Hj Hn. apply B; auto. intros (o & Ho & Hm). exact (Hn o Ho Hm).
Qed.
Print Assumptions C63_in_air_partial.
(** flipping changes nothing but the flipped object and what it contains *)
Theorem C63_flip_partial :
  forall T (N : Num T) fuel (s : @store T) i j,
  (j < List.length s)%nat -> ~ In j (reach fuel s i) -> oget (fst (oflip fuel s i)) j = oget s j.
Proof. intros T N fuel s i j Hj Hn. destruct (oflip_frame fuel s i) as ((_ & U) & _). now apply U. Qed.
Print Assumptions C63_flip_partial.
Definition shared_demo : @store XR :=
  [leaf_obj (x_space 10 1); leaf_obj (x_lens 50 25); OGroup GGroup (emat (x_space 10 1)) [0%nat] None 0;
   OGroup GGroup (emat (x_space 10 1)) [0%nat] None 0].
Example C63_example : in_air shared_demo /\ Forall finite_cut [SAppend 3 1; SPop 3 0; SSubPath 3 (Fin 5) true] /\
  (forall o, In o [SAppend 3 1; SPop 3 0; SSubPath 3 (Fin 5) true]%nat -> ~ modifies o 2%nat) /\
  reach 2 shared_demo 3 = [3; 0]%nat.
Proof.
  split.
  { intros i o E. do 4 (destruct i as [|i]; [injection E as <-; split; [reflexivity|split; [reflexivity|eexists; reflexivity]]|]).
    destruct i; discriminate. }
  split. { repeat constructor. eexists. reflexivity. }
  split; [|reflexivity]. intros o [<-|[<-|[<-|[]]]]; cbn; try discriminate; auto.
Qed.

Theorem C63_refuted :
  exists (s s' : @store float) a b m m',
    oget s 2 = Some (OGroup GGroup (omat a) [0%nat] None 0) /\ a = OGroup GGroup (omat a) [0%nat] None 0 /\
    oget s 0 = Some (OLeaf KSpace m) /\ onew_group s [1; 0]%nat = (b, (s', None)) /\
    oget s' 2 = oget s 2 /\ oget s' 0 = Some (OLeaf KSpace m') /\
    mfi m = fz 1 /\ mfi m' = ndec 15 1 /\ mfi (omat a) = fz 1.
Proof. exact shared_space_changed. Qed.
Print Assumptions C63_refuted.
Theorem C63_flip_refuted :
  exists (s s' : @store float) a b e e',
    kids_of s a = [0%nat] /\ kids_of s b = [0%nat] /\ a <> b /\
    tree 2 s b = Some e /\ oflip 2 s a = (s', None) /\ tree 2 s' b = Some e' /\
    emat e' = emat e /\
    map (fun km => mA (snd km)) (leaves e) = [mA (emat e)] /\
    map (fun km => PrimFloat.eqb (mA (snd km)) (mA (emat e'))) (leaves e') = [false].
Proof. exact shared_element_flipped. Qed.
Print Assumptions C63_flip_refuted.
Theorem C63_subPath_refuted :
  exists (s s' : @store float) g n e e',
    tree 2 s g = Some e /\ osubPath s g (fz 5) false = (n, (s', None)) /\ tree 2 s' g = Some e' /\
    map (fun km => mfi (snd km)) (leaves e) = [ndec 15 1; ndec 15 1] /\
    map (fun km => mfi (snd km)) (leaves e') = [ndec 15 1; fz 1].
Proof. exact subPath_changes_path. Qed.
Print Assumptions C63_subPath_refuted.
Theorem C63_element_twice_refuted :
  exists (s s' : @store float) g k m m',
    kids_of s g = [0; 0]%nat /\ oget s 0 = Some (OLeaf k m) /\ oflip 2 s g = (s', None) /\
    oget s' 0 = Some (OLeaf k m') /\ (mA m', mB m', mC m', mD m') = (mA m, mB m, mC m, mD m) /\ mflip m' = false /\
    PrimFloat.eqb (mA m) (mD m) = false.
Proof. exact element_twice_not_flipped. Qed.
Print Assumptions C63_element_twice_refuted.

(** ** C65 *)
(** groups of equal elements, never traced or iterated over, are equal *)
Theorem C65_equal_partial :
  forall T (N : Num T) fuel (s : @store T) (h : @heap T) i j e,
  tree fuel s i = Some e -> tree fuel s j = Some e -> unused fuel s i -> unused fuel s j -> self_equal e ->
  oeq fuel s h i j = Some true.
Proof. intros. eapply equal_elements_equal_groups; eauto. Qed.
Print Assumptions C65_equal_partial.
Example C65_example : exists e, tree 2 shared_demo 2 = Some e /\ tree 2 shared_demo 3 = Some e /\
  unused 2 shared_demo 2 /\ unused 2 shared_demo 3 /\ self_equal e.
Proof.
  exists (Group GGroup (emat (x_space 10 1)) [x_space 10 1]). split; [reflexivity|]. split; [reflexivity|].
  split; [intros j [<-|[]]; split; reflexivity|]. split; [intros j [<-|[]]; split; reflexivity|].
  assert (mat_eq (emat (x_space 10 1)) (emat (x_space 10 1)) = true) as E.
  { unfold mat_eq. cbn [emat x_space mat_of mA mB mC mD mL mfv mbv mfi mbi mdiam mna mflip mlabel o_space oM oL onf onb ofv obv A_ B_ C_ D_ option_map opt_eq].
    change (@neqb XR _) with xeqb. cbn [xeqb]. rewrite !Reqb_refl. reflexivity. }
  cbn [self_equal]. split; [reflexivity|]. split; [exact E|]. split; [split; [reflexivity|exact E]|exact I].
Qed.
Theorem C65_refuted :
  exists (s : @store float) a b r tr s1 h1,
    onew_group (objects [fspace 10; fspace 10]) [0%nat] = (a, (firstn 3 s, None)) /\
    onew_group (firstn 3 s) [1%nat] = (b, (s, None)) /\
    oeq 2 s [r] a b = Some true /\ strace 2 s a 0 [r] = Some (tr, s1, h1) /\ oeq 2 s1 h1 a b = Some false.
Proof. exact equality_changes_with_trace. Qed.
Print Assumptions C65_refuted.
Theorem C65_iteration_refuted :
  exists (s : @store float) a b,
    oeq 2 s [] a b = Some true /\ oeq 2 (oiterate s a) [] a b = Some false.
Proof. exact equality_changes_with_iteration. Qed.
Print Assumptions C65_iteration_refuted.

(** ** C70 *)
(** [product_ok s g]: the attributes of [g] are those of the product of what its elements are now.
    So it is after every successful operation on a group that does not contain itself and is not
    left empty *)
Theorem C70_modified_group_partial :
  forall T (N : Num T) (s : @store T) o g s',
  sstep s o = (s', None) -> modifies o g -> kids_of s' g <> [] -> ~ In g (kids_of s' g) -> product_ok s' g.
Proof. exact @modified_group_product. Qed.
Print Assumptions C70_modified_group_partial.
Example C70_modified_example : exists s', sstep demo (SPop 4 1) = (s', None) /\ modifies (@SPop float 4 1) 4%nat /\
  kids_of s' 4 = [0; 2; 3]%nat.
Proof. exists (fst (sstep demo (SPop 4 1))). split; [vm_compute; reflexivity|]. split; vm_compute; reflexivity. Qed.
(** and it stays so while neither the group nor one of its elements is modified, in air *)
Theorem C70_history_partial :
  forall (s : @store XR) l j, Forall finite_cut l -> in_air s -> product_ok s j ->
  (forall o, In o l -> ~ modifies o j /\ forall x, In x (kids_of s j) -> ~ modifies o x) ->
  product_ok (srun s l) j.
Proof. exact history_product. Qed.
Print Assumptions C70_history_partial.
Example C70_history_example : exists s : @store XR, in_air s /\ product_ok s 2%nat /\ kids_of s 2 = [0; 1]%nat /\
  (forall o, In o [SAppend 3 1; SPop 3 0]%nat -> ~ modifies o 2%nat /\ forall x, In x (kids_of s 2) -> ~ @modifies XR o x).
Proof.
  destruct (group_transfer_inf (x_space 10 1) [x_lens 50 25] (o_space 10 1) [o_lens 50]) as (p & G1 & G2 & _).
  { constructor; [apply mat_of_describes|]. constructor; [apply mat_of_describes|constructor]. }
  { split; [apply p_space; lra|]. split; [reflexivity|]. split; [apply p_lens|exact I]. }
  pose (s := [leaf_obj (x_space 10 1); leaf_obj (x_lens 50 25); OGroup GGroup p [0; 1]%nat None 0;
              OGroup GGroup (emat (x_space 10 1)) [0%nat] None 0]).
  exists s. split.
  { assert (forall e, air_mat e -> air_mat e) as _ by auto.
    intros i o E. destruct i as [|i]; [injection E as <-; split; [reflexivity|split; [reflexivity|eexists; reflexivity]]|].
    destruct i as [|i]; [injection E as <-; split; [reflexivity|split; [reflexivity|eexists; reflexivity]]|].
    destruct i as [|i].
    - injection E as <-. cbn [omat]. unfold group_transfer in G1. destruct (@Matrix_default XR _) as [t0|] eqn:E0; [|discriminate].
      cbn [bind] in G1. apply (transfer_loop_air [x_space 10 1; x_lens 50 25] t0); auto.
      + constructor; [|constructor; [|constructor]]; (split; [reflexivity|split; [reflexivity|eexists; reflexivity]]).
      + exact (default_air _ E0).
    - destruct i as [|i]; [injection E as <-; split; [reflexivity|split; [reflexivity|eexists; reflexivity]]|].
      destruct i; discriminate. }
  split.
  { exists GGroup, p, [0; 1]%nat, None, 0%nat, [leaf_obj (x_space 10 1); leaf_obj (x_lens 50 25)], p.
    split; [reflexivity|]. split; [reflexivity|]. split; [exact G1|]. split; reflexivity. }
  split; [reflexivity|].
  intros o [<-|[<-|[]]]; cbn; (split; [discriminate|]); intros x [<-|[<-|[]]]; discriminate.
Qed.
Theorem C70_refuted :
  exists (s s' : @store float) inner outer e e',
    kids_of s outer = [inner] /\ kids_of s inner = [0%nat] /\ tree 3 s outer = Some e /\
    oappend s inner 1 = (s', None) /\ tree 3 s' outer = Some e' /\ emat e' = emat e /\
    mC (emat e') = fz 0 /\ mC (match oget s' inner with Some o => omat o | None => dummy end) = ndec (-1) 1.
Proof. exact outer_matrix_stale. Qed.
Print Assumptions C70_refuted.
