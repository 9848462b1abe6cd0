(** Property theorems C55-C59, C71, C72: preferences, glasses, Zemax files, histograms.  Each
    theorem is closed by a lemma proved elsewhere; the examples show that its hypotheses can be
    met. *)
From Coq Require Import Reals Lra List Bool String ZArith Floats Lia.
From Verif Require Import Base Nums Optics Spec ElementProofs RaysModel RaysProofs RaysMore HistProofs Prefs PrefsProofs
  PrefsRefutations Materials MaterialsProofs NamesProofs MaterialsRefutations DispersionProofs Zemax ZemaxProofs
  ZemaxRefutations.
Import ListNotations.
Set Warnings "-inexact-float".
Open Scope list_scope.
Open Scope R_scope.

(** ** C55 *)
(** [expected M l]: what is stored after the history [l] when [M] was stored before; [says]: the
    answer to prefs[k] when that is stored; [polite 0 [] l]: an object stores a value only when,
    since its creation, its last prefs[k] or its last store, no other object stored anything
    (see PrefsProofs).  Any number of objects and of operations. *)
Theorem C55_gets_partial : forall f l i k,
  sound_file f -> polite 0 [] l = true -> (i < objects_end 0 l)%nat ->
  answer_of (step (fst (run (mkWorld f []) l)) (Get i k)) = says (expected (dget (fdict f)) l k).
Proof. exact polite_gets. Qed.
Print Assumptions C55_gets_partial.

(** [key in prefs] of the objects that are up to date *)
Theorem C55_contains_partial : forall f l i k,
  sound_file f -> polite 0 [] l = true -> mem i (up_end 0 [] l) = true ->
  answer_of (step (fst (run (mkWorld f []) l)) (Contains i k)) =
  Bool (match expected (dget (fdict f)) l k with Some _ => true | None => false end).
Proof. exact polite_contains. Qed.
Print Assumptions C55_contains_partial.

(** one object: any history of stores of JSON values under strings, reads, resets and [in] *)
Theorem C55_alone_partial : forall f l k,
  sound_file f -> forallb plain l = true ->
  answer_of (step (fst (run (mkWorld f []) (New [] :: l))) (Get 0 k)) =
  says (expected (dget (fdict f)) l k).
Proof. exact alone_gets. Qed.
Print Assumptions C55_alone_partial.

(** del prefs[k] in any state: it does not touch the file, it takes [k] and nothing else out of this object and out of
    no other object; without [k] it raises KeyError and changes nothing *)
Theorem C55_del : forall w i k,
  let x := step w (Del i k) in
  files_of x = [] /\ w_file (w_of x) = w_file w /\
  (answer_of (step w (Contains i k)) = Bool true -> answer_of x = Done /\
    answer_of (step (w_of x) (Contains i k)) = Bool false /\
    forall j k', (j, k') <> (i, k) ->
      answer_of (step (w_of x) (Contains j k')) = answer_of (step w (Contains j k'))) /\
  (answer_of (step w (Contains i k)) = Bool false -> answer_of x = Raised NoSuchKey /\
    forall j k', answer_of (step (w_of x) (Contains j k')) = answer_of (step w (Contains j k'))).
Proof. exact del_item. Qed.
Print Assumptions C55_del.
Example C55_del_example :
  let w := fst (run (mkWorld None []) [New []; Set_ 0 a (v 1); Set_ 0 b (v 2); New []]) in
  answer_of (step w (Contains 0 a)) = Bool true /\ answer_of (step w (Contains 1 (KStr "c"))) = Bool false /\
  answer_of (step w (Contains 1 a)) = Bool true.
Proof. vm_compute. repeat split. Qed.

Example C55_example :
  let l := [New []; Set_ 0 a (v 1); New []; Set_ 0 b (v 2); Get 1 a; Set_ 1 a (v 3)] in
  sound_file None /\ polite 0 [] l = true /\ objects_end 0 l = 2%nat /\
  answer_of (step (fst (run (mkWorld None []) l)) (Get 0 a)) = Value (v 3) /\
  answer_of (step (fst (run (mkWorld None []) l)) (Get 0 b)) = Value (v 2) /\
  answer_of (step (fst (run (mkWorld None []) l)) (Get 1 (KStr "c"))) = Raised NoSuchKey.
Proof. cbv zeta. split; [exact wf_nil|]. vm_compute. repeat split. Qed.

(** Preferences(key=value) always fails *)
Theorem C55_kwargs_refuted : forall w kv t, step w (New (kv :: t)) = ([], w, Raised NoPathError).
Proof. exact kwargs_fail. Qed.
(** stale objects lose what others stored *)
Theorem C55_lost_update_refuted :
  exists l i k, stored l k = Some (v 1) /\ asked l (Get i k) = Raised NoSuchKey.
Proof. exact lost_update. Qed.
Theorem C55_old_value_refuted :
  exists l i k, stored l k = Some (v 2) /\ asked l (Get i k) = Value (v 1).
Proof. exact old_value_back. Qed.
Theorem C55_reset_refuted :
  exists l i j k, stored l k = None /\ asked l (Get i k) = Value (v 1) /\
  asked l (Get j k) = Raised NoSuchKey /\ asked (l ++ [Set_ i b (v 2)]) (Get j k) = Value (v 1).
Proof. exact reset_undone. Qed.
Theorem C55_delete_refuted :
  exists l i k, asked l (Del i k) = Done /\ asked (l ++ [Del i k]) (Get i k) = Value (v 1).
Proof. exact delete_undone. Qed.
Theorem C55_int_key_refuted :
  exists l i k, stored l k = Some (v 5) /\ asked l (Get i k) = Raised NoSuchKey.
Proof. exact int_key_lost. Qed.
Theorem C55_contains_refuted :
  exists l i k, stored l k = Some (v 1) /\ asked l (Contains i k) = Bool false /\
  asked l (Get i k) = Value (v 1).
Proof. exact contains_stale. Qed.
Print Assumptions C55_kwargs_refuted.
Print Assumptions C55_lost_update_refuted.
Print Assumptions C55_old_value_refuted.
Print Assumptions C55_reset_refuted.
Print Assumptions C55_delete_refuted.
Print Assumptions C55_int_key_refuted.
Print Assumptions C55_contains_refuted.

(** ** C56 *)
(** [seen_after g k]: prefs[k] in a process started on the file [g]; [files_of (step w o)]: the
    contents the file goes through during [o].  A crash at any point of an operation of an
    object that is up to date leaves the old values, the new values, or nothing at all. *)
Theorem C56_crash_partial : forall f l o,
  sound_file f -> polite 0 [] (l ++ [o]) = true -> by_up (up_end 0 [] l) o = true ->
  let w := fst (run (mkWorld f []) l) in
  let old := expected (dget (fdict f)) l in
  Forall (fun g => (forall k, seen_after g k = says (old k)) \/
                   (forall k, seen_after g k = says (expect old o k)) \/
                   (forall k, seen_after g k = Raised NoSuchKey)) (w_file w :: files_of (step w o)).
Proof. exact crash_polite. Qed.
Print Assumptions C56_crash_partial.
Example C56_example :
  let l := [New []; Set_ 0 a (v 1); Set_ 0 b (v 2)] in
  polite 0 [] (l ++ [Set_ 0 a (v 3)]) = true /\ by_up (up_end 0 [] l) (Set_ 0 a (v 3)) = true /\
  files_of (step (fst (run (mkWorld None []) l)) (Set_ 0 a (v 3))) =
    [Some Torn; Some (Whole [(a, v 3); (b, v 2)])].
Proof. vm_compute. repeat split. Qed.

Theorem C56_crash_in_save_refuted :
  exists l o f k, In f (during l o) /\
  stored l k = Some (v 1) /\ stored (l ++ [o]) k = Some (v 1) /\ seen_after f k = Raised NoSuchKey.
Proof. exact crash_in_save. Qed.
Theorem C56_crash_in_get_refuted :
  exists l i k f, In f (during l (Get i k)) /\
  asked l (Get i k) = Value (v 1) /\ seen_after f k = Raised NoSuchKey.
Proof. exact crash_in_get. Qed.
Theorem C56_crash_in_new_refuted :
  exists l f, In f (during l (New [])) /\
  seen_after f a = Value (v 1) /\ stored l b = Some (v 2) /\ seen_after f b = Raised NoSuchKey.
Proof. exact crash_in_new. Qed.
(** a value JSON refuses empties the file without any crash *)
Theorem C56_bad_value_refuted :
  exists l, stored l a = Some (v 1) /\
  asked l (Set_ 0 b VBad) = Raised JsonTypeError /\
  seen_after (w_file (fst (run w0 (l ++ [Set_ 0 b VBad])))) a = Raised NoSuchKey /\
  asked (l ++ [Set_ 0 b VBad]) (Set_ 0 a (v 2)) = Raised JsonTypeError.
Proof. exact bad_value. Qed.
Print Assumptions C56_crash_in_save_refuted.
Print Assumptions C56_crash_in_get_refuted.
Print Assumptions C56_crash_in_new_refuted.
Print Assumptions C56_bad_value_refuted.

(** ** C57 *)
(** from 0.28 to 7 microns for every material, on the whole accepted range for those given by a
    polynomial *)
Theorem C57_index_partial : forall name d w,
  In (name, d) (@catalogue XR _) ->
  28/100 <= w <= 7 \/ (polynomial d = true /\ 1/100 <= w <= 10) ->
  exists n, index_of d (Fin w) = Ok (PReal (Fin n)) /\ 1 <= n.
Proof. exact catalogue_good. Qed.
Print Assumptions C57_index_partial.
Theorem C57_out_of_range : forall (d : dispersion XR) w,
  w < 1/100 \/ 10 < w -> index_of d (Fin w) = Err ValueError.
Proof. exact out_of_range. Qed.
Print Assumptions C57_out_of_range.
Example C57_example : exists d, findByName (Some "n-bk7"%string) = Ok ("N_BK7"%string, d) /\
  In ("N_BK7"%string, d) (@catalogue XR _) /\ List.length (@catalogue XR _) = 37%nat.
Proof. eexists. split; [vm_compute; reflexivity|]. split; [|reflexivity]. right. left. reflexivity. Qed.
Theorem C57_complex_refuted : forall name d,
  In (name, d) (@catalogue float _) -> polynomial d = false -> exists w, index_of d w = Ok PComplex.
Proof. exact complex_index. Qed.
Theorem C57_infrared_refuted :
  exists d, findByName (Some "N-BK7"%string) = Ok ("N_BK7"%string, d) /\ index_of d (mil 8500) = Ok PComplex.
Proof. exact bk7_infrared. Qed.
Theorem C57_below_one_refuted :
  exists d n, findByName (Some "N-BK7"%string) = Ok ("N_BK7"%string, d) /\
  index_of d (mil 10) = Ok (PReal n) /\ nltb n c1 = true.
Proof. exact bk7_below_one. Qed.
Print Assumptions C57_complex_refuted.
Print Assumptions C57_infrared_refuted.
Print Assumptions C57_below_one_refuted.

(** ** C58 *)
(** [same_name s t]: the names differ by letter case and by dashes only; [printed c]: the name of
    class [c] as str() shows it *)
Theorem C58_found : forall T (N : Num T) s c d,
  findByName (Some s) = Ok (c, d) <-> In (c, d) (@catalogue T N) /\ same_name s (printed c).
Proof. exact @find_iff. Qed.
Print Assumptions C58_found.
Theorem C58_not_found : forall T (N : Num T) s,
  (forall c d, In (c, d) (@catalogue T N) -> ~ same_name s (printed c)) <->
  @findByName T N (Some s) = Err ValueError.
Proof. exact @find_none. Qed.
Print Assumptions C58_not_found.
Example C58_example :
  (exists d, @findByName XR _ (Some "-n-B-k7-"%string) = Ok ("N_BK7"%string, d)) /\
  printed "N_BK7" = "N-BK7"%string /\ @findByName XR _ (Some "N-FK5"%string) = Err ValueError.
Proof.
  split; [eexists; vm_compute; reflexivity|]. split; [reflexivity|]. vm_compute. reflexivity.
Qed.
(** the names of the classes themselves are not found *)
Theorem C58_class_name_raises : exists c, In c (map fst (@catalogue float _)) /\
  @findByName float _ (Some c) = Err ValueError.
Proof. exact class_name_not_found. Qed.
Print Assumptions C58_class_name_raises.

(** ** C59 *)
(** [prescription n ns ls]: for each surface the interface from the index before it to the index
    of its material and, behind glass, the space up to the next surface; [index_is w s n]: [n] is
    the index of the material of [s]; [sound_surface]: radius infinite or not zero, positive
    diameter, finite thickness of glass.  The surfaces in front of the lens are air, the lens is
    closed by a surface whose material is air, anything may follow. *)
Theorem C59_lens : forall (z : reader XR) w pre glass air rest,
  z_wavelength z = Fin w -> 28/100 <= w <= 7 ->
  surfaces z = Ok (pre ++ glass ++ air :: rest) ->
  Forall (fun s => is_air s = true) pre -> Forall (fun s => is_air s = false) glass ->
  glass <> [] -> is_air air = true -> Forall sound_surface (glass ++ [air]) ->
  exists g ns, matrixGroup z = Ok g /\ Forall2 (index_is (Fin w)) (glass ++ [air]) ns /\
    Forall (fun n => 1 <= n) ns /\
    map Ok (gelems g) = prescription (Fin 1) (map Fin ns) (glass ++ [air]) /\
    mfi (gmat g) = Fin 1 /\ mbi (gmat g) = Fin 1 /\
    mL (gmat g) = Fin (fold_right Rplus 0 (map spacing glass)).
Proof. exact lens_group. Qed.
Print Assumptions C59_lens.
Theorem C59_lens_not_closed : forall (z : reader XR) w pre glass,
  z_wavelength z = Fin w -> 28/100 <= w <= 7 -> surfaces z = Ok (pre ++ glass) ->
  Forall (fun s => is_air s = true) pre -> Forall (fun s => is_air s = false) glass ->
  glass <> [] -> Forall sound_surface glass ->
  exists g ns, matrixGroup z = Ok g /\ Forall2 (index_is (Fin w)) glass ns /\
    Forall (fun n => 1 <= n) ns /\
    map Ok (gelems g) = prescription (Fin 1) (map Fin ns) glass /\
    mfi (gmat g) = Fin 1 /\ mL (gmat g) = Fin (fold_right Rplus 0 (map spacing glass)).
Proof. exact lens_group_open. Qed.
Print Assumptions C59_lens_not_closed.
Theorem C59_no_glass : forall (z : reader XR) l,
  surfaces z = Ok l -> Forall (fun s => is_air s = true) l ->
  exists g, matrixGroup z = Ok g /\ gelems g = [].
Proof. exact no_lens. Qed.
Print Assumptions C59_no_glass.
(** the lines of a file for a lens *)
Example C59_example :
  ZMXReader_init singlet = Ok singlet_reader /\ 28/100 <= 5876/10000 <= 7 /\
  z_wavelength singlet_reader = Fin (5876/10000) /\
  exists pre glass air, surfaces singlet_reader = Ok (pre ++ glass ++ air :: []) /\
    Forall (fun s => is_air s = true) pre /\ Forall (fun s => is_air s = false) glass /\
    List.length glass = 1%nat /\ is_air air = true /\ Forall sound_surface (glass ++ [air]).
Proof.
  split; [exact singlet_read|]. split; [lra|].
  split; [cbn [z_wavelength singlet_reader]; rewrite ndec_xr by lia; reflexivity|].
  exists [mkSurface PInf PInf ("Air"%string, DAir) PInf], [mkSurface (Fin 50) (Fin (254 / 10)) bk7 (Fin 4)],
    (mkSurface (Fin (-50)) (Fin (254 / 10)) ("Air"%string, DAir) (Fin (955 / 10))).
  split; [exact singlet_ok|]. split; [auto|]. split; [auto|]. split; [auto|]. split; [auto|].
  constructor; [|constructor; [|constructor]]; constructor; cbn; try lra; eauto; discriminate.
Qed.
(** a file of the project *)
Example C59_file : exists f, summary ac254_100 = Ok (f, 6.5%float, 5%nat, 1%float) /\
  between 100.06%float f 100.08%float = true.
Proof. exact ac254_100_read. Qed.
(** air-spaced lenses lose all but the first lens *)
Theorem C59_air_spaced_refuted :
  exists z s g, @ZMXReader_init float _ air_spaced = Ok z /\
  surfaces z = Ok s /\ List.length (filter (fun x => negb (is_air x)) s) = 2%nat /\
  matrixGroup z = Ok g /\ List.length (gelems g) = 3%nat /\
  read (header ++ object ++ doublet) = Ok g.
Proof. exact second_lens_dropped. Qed.
Print Assumptions C59_air_spaced_refuted.
(** an unlimited diameter written as 0 *)
Theorem C59_diameter_refuted :
  read (header ++ object ++ surf "1" "0.02" "4.0" [glas "N-BK7"; w_ "DIAM" ["0"%string]] ++
    surf "2" "-0.02" "0.0" []) = Err ValueError.
Proof. exact diam_zero. Qed.
Print Assumptions C59_diameter_refuted.
(** no UNIT line, and wavelengths of 0.55 micron only *)
Theorem C59_reader_refuted :
  read (tl header ++ object ++ doublet) = Err AttributeError /\
  read ([w_ "UNIT" ["MM"%string]; w_ "WAVM" ["1"; "0.55"; "1"]%string; w_ "WAVM" ["2"; "0.55"; "1"]%string] ++
    object ++ doublet) = Err IndexError.
Proof. exact (conj no_unit only_055). Qed.
Print Assumptions C59_reader_refuted.

(** ** C71 *)
(** shorter wavelengths have larger indices *)
Theorem C71_normal_dispersion : forall name d w1 w2,
  In (name, d) (@catalogue XR _) -> d <> DAir -> 28/100 <= w1 -> w1 < w2 -> w2 <= 7 ->
  exists n1 n2, index_of d (Fin w1) = Ok (PReal (Fin n1)) /\ index_of d (Fin w2) = Ok (PReal (Fin n2)) /\
    1 <= n2 /\ n2 < n1.
Proof. intros name d w1 w2 H Hd. exact (catalogue_blue name d H Hd w1 w2). Qed.
Print Assumptions C71_normal_dispersion.
Example C71_example : exists d, In ("H_ZK50"%string, d) (@catalogue XR _) /\ d <> DAir /\
  28/100 <= 486/1000 /\ 486/1000 < 656/1000 /\ 656/1000 <= 7.
Proof.
  destruct (@findByName XR _ (Some "H-ZK50"%string)) as [[c d]|] eqn:E; [|vm_compute in E; discriminate].
  exists d. assert (c = "H_ZK50"%string /\ d <> DAir) as [-> Hd].
  { vm_compute in E. injection E as <- <-. split; [reflexivity|discriminate]. }
  split; [exact (proj1 (proj1 (find_iff _ _ _) E))|split; [exact Hd|lra]].
Qed.

(** ** C72 *)
(** [is_histogram vals bins lo hi xs cs]: [bins] bins of equal width from [lo] to [hi], [xs] their
    centres, [cs] the numbers of values that fall in them.  By default the bins reach from the
    smallest to the largest value, and every ray is counted once; after any history without a
    load behind a query. *)
Theorem C72_count_histogram : forall l os bins vals,
  let nb := match bins with Some b => b | None => 40%Z end in
  asked_before_load false os = true -> map ry (contents l os) = map Fin vals -> vals <> [] -> (0 < nb)%Z ->
  exists mn mx lo hi xs cs, In mn vals /\ In mx vals /\ (forall v, In v vals -> mn <= v <= mx) /\
    (mn < mx -> lo = mn /\ hi = mx) /\ (mn = mx -> lo = mn - 1/2 /\ hi = mn + 1/2) /\
    fst (rayCountHistogram np_histogram (srun np_histogram (stats_new l) os) bins None None) = Ok (Some (xs, cs)) /\
    is_histogram vals nb lo hi xs cs /\ zsum cs = Z.of_nat (List.length (contents l os)).
Proof. exact count_histogram. Qed.
Print Assumptions C72_count_histogram.
Theorem C72_angles_histogram : forall l os bins vals,
  let nb := match bins with Some b => b | None => 40%Z end in
  asked_before_load false os = true -> map rth (contents l os) = map Fin vals -> vals <> [] -> (0 < nb)%Z ->
  exists mn mx lo hi xs cs, In mn vals /\ In mx vals /\ (forall v, In v vals -> mn <= v <= mx) /\
    (mn < mx -> lo = mn /\ hi = mx) /\ (mn = mx -> lo = mn - 1/2 /\ hi = mn + 1/2) /\
    fst (rayAnglesHistogram np_histogram (srun np_histogram (stats_new l) os) bins None None) = Ok (Some (xs, cs)) /\
    is_histogram vals nb lo hi xs cs /\ zsum cs = Z.of_nat (List.length (contents l os)).
Proof. exact angles_histogram. Qed.
Print Assumptions C72_angles_histogram.
(** bounds given by the caller *)
Theorem C72_bounds : forall l os bins vals mn mx,
  let nb := match bins with Some b => b | None => 40%Z end in
  asked_before_load false os = true -> map ry (contents l os) = map Fin vals -> (0 < nb)%Z -> mn < mx ->
  exists xs cs, fst (rayCountHistogram np_histogram (srun np_histogram (stats_new l) os) bins (Some (Fin mn)) (Some (Fin mx)))
      = Ok (Some (xs, cs)) /\ is_histogram vals nb mn mx xs cs.
Proof. exact count_histogram_bounds. Qed.
Print Assumptions C72_bounds.
Theorem C72_angle_bounds : forall l os bins vals mn mx,
  let nb := match bins with Some b => b | None => 40%Z end in
  asked_before_load false os = true -> map rth (contents l os) = map Fin vals -> (0 < nb)%Z -> mn < mx ->
  exists xs cs, fst (rayAnglesHistogram np_histogram (srun np_histogram (stats_new l) os) bins (Some (Fin mn)) (Some (Fin mx)))
      = Ok (Some (xs, cs)) /\ is_histogram vals nb mn mx xs cs.
Proof. exact angles_histogram_bounds. Qed.
Print Assumptions C72_angle_bounds.
Example C72_example :
  let l := [Ray_new (Fin 1) (Fin 0); Ray_new (Fin 3) (Fin (1/10))] in
  let os := [SCount None None None; SAppend (Ray_new (Fin (-2)) (Fin 0))] in
  asked_before_load false os = true /\ map ry (contents l os) = map Fin [1; 3; -2] /\
  map rth (contents l os) = map Fin [0; 1/10; 0].
Proof. repeat split. Qed.
(** computed *)
Example C72_computed :
  np_histogram [0; 1; 2; 3; 4]%float 2%Z 0%float 4%float = Ok ([2; 3]%Z, [0; 2; 4]%float).
Proof. vm_compute. reflexivity. Qed.
