(** Property theorems C88-C91: Lambertian and Gaussian sources, the settings of figures, and the lines drawn for
    rays.  Each theorem is closed by a lemma proved elsewhere; the examples show that its hypotheses can be met. *)
From Coq Require Import Reals Lra List Bool String ZArith Floats Lia.
From Verif Require Import Base Nums Optics Group Spec GroupProofs TraceProofs Imaging FieldMore Drawing RaysModel
  RaysMore MiscProofs Sources SourceProofs SourceRegular GroupRefutations ImagingRefutations EfficiencyRefutations
  Display DisplayProofs DisplayRefutations RayLines RayLineProofs RayLineRefutations.
Import ListNotations.
Set Warnings "-inexact-float".
Open Scope string_scope.
Open Scope list_scope.
Open Scope R_scope.

(** ** C88 *)
(** the rays of LambertianRays: heights and angles evenly spaced, the number of rays per angle and height follows
    Lambert's law, is symmetric and vanishes at grazing incidence *)
Theorem C88_lambertian : forall ylo yhi m n count,
  (2 <= m)%Z -> (2 <= n)%Z -> (0 <= count)%Z ->
  let angle := spaced (- (PI / 2)) (PI / 2) n in
  let height := spaced ylo yhi m in
  exists number : Z -> Z,
    (forall k, (0 <= k < n)%Z ->
       (0 <= number k)%Z /\ IZR (number k) <= IZR count * cos (angle k) < IZR (number k) + 1 /\
       number (n - 1 - k)%Z = number k) /\
    number 0%Z = 0%Z /\
    let rays := flat_map (fun k => flat_map (fun j =>
         repeat (Ray_new (Fin (height j)) (Fin (angle k))) (Z.to_nat (number k))) (zrange m)) (zrange n) in
    LambertianRays xcos xtrunc (Fin yhi) (Some (Fin ylo)) m n count = Ok rays /\
    Z.of_nat (List.length rays) = (m * sumZ (map number (zrange n)))%Z.
Proof. exact lambertian_rays. Qed.
Print Assumptions C88_lambertian.
(** the rays of RandomLambertianRays do not depend on the order of access; ray k is the first of the candidates drawn
    after the previous ray whose test number is below the cosine of its angle *)
Theorem C88_random_lambertian : forall (g : nat -> R) ylo yhi mc,
  (forall n, 0 <= g n < 1) -> ylo <= yhi -> (0 <= mc)%Z ->
  (forall u, exists n, g (S (u + 2 * n)) <
                       cos (between (- (PI / 2)) (PI / 2) (g (u + 2 * n)%nat))) ->
  let angle := between (- (PI / 2)) (PI / 2) in
  exists (used pick : nat -> nat) (enough : nat),
    drawn_by g angle cos used pick /\
    (forall k, let y := between ylo yhi (g (pick k + 2)%nat) in let th := angle (g (pick k)) in
       ylo <= y <= yhi /\ - (PI / 2) < th < PI / 2) /\
    forall fuel, (enough <= fuel)%nat ->
      always_gives (lambertian xcos (fun n => Fin (g n)) fuel)
        (RandomLambertianRays (Fin yhi) (Some (Fin ylo)) mc) mc
        (fun k => Ray_new (Fin (between ylo yhi (g (pick k + 2)%nat))) (Fin (angle (g (pick k))))).
Proof. exact random_lambertian. Qed.
Print Assumptions C88_random_lambertian.
(** the same for GaussianProfileUniformRays *)
Theorem C88_gaussian : forall (g : nat -> R) w mc,
  (forall n, 0 <= g n < 1) -> 0 < w -> (0 <= mc)%Z ->
  let law y := exp (- (y / w) ^ 2) in
  let height := between (- 4 * w) (4 * w) in
  (forall u, exists n, g (S (u + 2 * n)) < law (height (g (u + 2 * n)%nat))) ->
  exists (used pick : nat -> nat) (enough : nat),
    drawn_by g height law used pick /\
    (forall k, let y := height (g (pick k)) in
       let th := between (- (PI / 2)) (PI / 2) (g (pick k + 2)%nat) in
       - 4 * w <= y <= 4 * w /\ - (PI / 2) <= th <= PI / 2) /\
    forall fuel, (enough <= fuel)%nat ->
      always_gives (gaussian xexp (fun n => Fin (g n)) (Fin w) fuel)
        (GaussianProfileUniformRays (Fin w) mc) mc
        (fun k => Ray_new (Fin (height (g (pick k))))
                          (Fin (between (- (PI / 2)) (PI / 2) (g (pick k + 2)%nat)))).
Proof. exact random_gaussian. Qed.
Print Assumptions C88_gaussian.
(** a stream whose first pair is rejected by both laws *)
Example C88_example : exists g : nat -> R, (forall n, 0 <= g n < 1) /\
  cos (between (- (PI / 2)) (PI / 2) (g 0%nat)) <= g 1%nat /\
  (forall u, exists n, g (S (u + 2 * n)) < cos (between (- (PI / 2)) (PI / 2) (g (u + 2 * n)%nat))) /\
  (forall u, exists n, g (S (u + 2 * n)) < exp (- (between (- 4 * 3) (4 * 3) (g (u + 2 * n)%nat) / 3) ^ 2)).
Proof.
  exists (fun n => match n with O => 0 | _ => 1/2 end). split; [intros [|n]; lra|].
  split; [|split].
  - unfold between. replace (- (PI / 2) + 0 * (PI / 2 - - (PI / 2))) with (- (PI / 2)) by lra.
    rewrite cos_neg, cos_PI2. lra.
  - intros u. exists 1%nat. replace (u + 2 * 1)%nat with (S (S u)) by lia. cbv iota beta. unfold between.
    replace (- (PI / 2) + 1 / 2 * (PI / 2 - - (PI / 2))) with 0 by lra. rewrite cos_0. lra.
  - intros u. exists 1%nat. replace (u + 2 * 1)%nat with (S (S u)) by lia. cbv iota beta. unfold between.
    replace (- ((- 4 * 3 + 1 / 2 * (4 * 3 - - 4 * 3)) / 3) ^ 2) with 0 by lra. rewrite exp_0. lra.
Qed.
(** one angle: no rays at all *)
Theorem C88_one_angle_refuted : exists ylo yhi m count, (0 < m)%Z /\ (0 < count)%Z /\
  LambertianRays xcos xtrunc (Fin yhi) (Some (Fin ylo)) m 1 count = Ok [].
Proof. exists (-1), 1, 10%Z, 100%Z. split; [lia|]. split; [lia|]. now apply lambertian_one_angle. Qed.
Print Assumptions C88_one_angle_refuted.
(** N is not the number of rays of a point: three angles give I rays in one direction *)
Theorem C88_three_angles_refuted : exists ylo yhi, LambertianRays xcos xtrunc (Fin yhi) (Some (Fin ylo)) 2 3 100 =
  Ok (repeat (Ray_new (Fin ylo) (Fin 0)) 100 ++ repeat (Ray_new (Fin yhi) (Fin 0)) 100).
Proof.
  exists (-1), 1. rewrite lambertian_three_angles by lia. f_equal. unfold zrange. cbn [Z.to_nat Pos.to_nat Pos.iter_op].
  change (Pos.to_nat 2) with 2%nat. cbn [seq map flat_map]. rewrite app_nil_r.
  change (Z.of_nat 0) with 0%Z. change (Z.of_nat 1) with (2 - 1)%Z.
  now rewrite spaced_first, spaced_last by lia.
Qed.
Print Assumptions C88_three_angles_refuted.
(** one height: all rays start at the bottom of the source *)
Theorem C88_one_height : forall ylo yhi n count rays,
  LambertianRays xcos xtrunc (Fin yhi) (Some (Fin ylo)) 1 n count = Ok rays ->
  Forall (fun r => ry r = Fin ylo) rays.
Proof. exact lambertian_one_height. Qed.
Print Assumptions C88_one_height.

(** ** C89 *)
(** [run os]: a new path after the operations os; the settings of the first figure are those last asked for in the
    style in force *)
Theorem C89_first_figure : forall T (N : Num T) e fuel drange pytan os a x (p' : @path T) l d k,
  existsb is_display os = false -> display e fuel drange pytan (run e fuel drange pytan os) a = (x, p', l, Some d) ->
  user_key k = true ->
  let st := style_in_force (rev os) in
  d_params d k = match last_given st k (rev os) with Some v => v | None => style_params st k end.
Proof. exact @first_figure. Qed.
Print Assumptions C89_first_figure.
(** an object height is shown if the figure follows, with at most changes of single settings in between *)
Theorem C89_height : forall T (N : Num T) e fuel drange pytan (p : @path T) h os a x p' l d,
  nltb h c0 = false -> Forall (fun o => exists name kw, o = ODesign name kw /\ name = None) os ->
  a_limit a <> Some true ->
  display e fuel drange pytan (fold_left (step e fuel drange pytan) os (step e fuel drange pytan p (OHeight h))) a
    = (x, p', l, Some d) ->
  p_height p' = h /\ (existsb is_obj (callers a) = false -> d_rays d = callers a ++ [Obj h]).
Proof. exact @height_shown. Qed.
Print Assumptions C89_height.
(** without a finite field of view it is never changed *)
Theorem C89_no_field : forall T (N : Num T) e fuel drange pytan os f,
  fieldOfView fuel e = Ok f -> neqb f ninf = true ->
  p_height (@run T N e fuel drange pytan os) = last_height (rev os).
Proof. exact @height_without_field. Qed.
Print Assumptions C89_no_field.
(** after a figure design() always raises, and later figures have the default settings *)
Theorem C89_forgotten : forall T (N : Num T) e fuel drange pytan (p : @path T) a x p' l d os,
  display e fuel drange pytan p a = (x, p', l, Some d) ->
  (forall name kw, design (fold_left (step e fuel drange pytan) os p') name kw = Err TypeError) /\
  (forall a2 x2 p2 l2 d2 k,
     display e fuel drange pytan (fold_left (step e fuel drange pytan) os p') a2 = (x2, p2, l2, Some d2) ->
     user_key k = true -> d_params d2 k = default_params k).
Proof. exact @forgotten. Qed.
Print Assumptions C89_forgotten.
(** and every object height is replaced by the field of view *)
Theorem C89_height_lost : forall T (N : Num T) e fuel drange pytan (p : @path T) a1 x1 p1 l1 d1 a2 x2 p2 l2 d2 f,
  fieldOfView fuel e = Ok f -> neqb f ninf = false -> nltb f c0 = false ->
  display e fuel drange pytan p a1 = (x1, p1, l1, Some d1) -> a_limit a2 = None ->
  display e fuel drange pytan p1 a2 = (x2, p2, l2, Some d2) ->
  p_height p2 = f /\ (existsb is_obj (callers a2) = false -> d_rays d2 = callers a2 ++ [Obj f]).
Proof. exact @height_lost. Qed.
Print Assumptions C89_height_lost.
Example C89_example : exists e f, is_two_apertures e /\ fieldOfView 100 e = Ok f /\ neqb f ninf = false /\
  nltb f c0 = false /\
  let show := display e 100 (Ok (fz 30)) (fun x => x) in
  snd (show (run e 100 (Ok (fz 30)) (fun x => x) [OHeight (fz 4); ODesign None [(RayColors, purple)]]) plain) <> None /\
  snd (show (run e 100 (Ok (fz 30)) (fun x => x) [OHeight (fz 4); ODisplay plain]) plain) <> None.
Proof.
  exists two_apertures. eexists. split; [exact two_apertures_built|].
  split; [vm_compute; reflexivity|]. split; [vm_compute; reflexivity|]. split; [vm_compute; reflexivity|].
  cbv zeta. split; vm_compute; discriminate.
Qed.
Theorem C89_height_refuted : exists e f, is_two_apertures e /\ fieldOfView 100 e = Ok f /\
  neqb f (fz 4) = false /\ forall dr tan, dr = Ok (fz 30) ->
  let first := run e 100 dr tan [OHeight (fz 4)] in
  let second := run e 100 dr tan [OHeight (fz 4); ODisplay plain] in
  shows (display e 100 dr tan first plain) = Some [Obj (fz 4)] /\
  shows (display e 100 dr tan second plain) = Some [Obj f].
Proof. exact height_second_figure. Qed.
Print Assumptions C89_height_refuted.
Theorem C89_height_style_refuted : exists e f, is_two_apertures e /\ fieldOfView 100 e = Ok f /\
  neqb f (fz 4) = false /\ forall dr tan, dr = Ok (fz 30) ->
  let p := run e 100 dr tan [OHeight (fz 4); ODesign (Some "publication") []] in
  shows (display e 100 dr tan p plain) = Some [Obj f].
Proof. exact height_then_style. Qed.
Print Assumptions C89_height_style_refuted.
Theorem C89_colours_refuted : exists e, is_two_apertures e /\ forall dr tan, dr = Ok (fz 30) ->
  let ask := ODesign None [(RayColors, purple)] in
  let first := run e 100 dr tan [ask] in
  let second := run e 100 dr tan [ask; ODisplay plain] in
  colours (display e 100 dr tan first plain) RayColors = Some purple /\
  colours (display e 100 dr tan second plain) RayColors = Some (SList ["b"; "r"; "g"]) /\
  design second None [(RayColors, purple)] = Err TypeError.
Proof. exact colours_second_figure. Qed.
Print Assumptions C89_colours_refuted.
Theorem C89_default_style_refuted : exists e, is_two_apertures e /\ forall dr tan, dr = Ok (fz 30) ->
  let p := run e 100 dr tan [ODesign None [(RayColors, purple)]; ODesign (Some "default") []] in
  colours (display e 100 dr tan p plain) RayColors = Some purple.
Proof. exact style_not_restored. Qed.
Print Assumptions C89_default_style_refuted.

(** ** C90 *)
(** the only change to the list of the caller is an object added at its end *)
Theorem C90_list : forall T (N : Num T) e fuel drange pytan (p : @path T) a x p' l d,
  display e fuel drange pytan p a = (x, p', l, d) ->
  exists rest, l = callers a ++ rest /\ (rest = [] \/ rest = [Obj (p_height p')]) /\
    (existsb is_obj (callers a) = true -> rest = []) /\
    (d <> None -> existsb is_obj (callers a) = false -> rest = [Obj (p_height p')]).
Proof. exact @list_only_grows. Qed.
Print Assumptions C90_list.
(** a path of zero length is never shown unless the caller gives the object or the fan angle *)
Theorem C90_no_length : forall T (N : Num T) e fuel drange pytan (p : @path T) a x p' l d,
  neqb (mL (emat e)) c0 = true -> p_fan p = None ->
  existsb is_obj (callers a) = false -> display e fuel drange pytan p a = (x, p', l, d) -> x <> None /\ d = None.
Proof. exact @no_length. Qed.
Print Assumptions C90_no_length.
Theorem C90_list_refuted : exists e, is_two_apertures e /\ forall dr tan, dr = Ok (fz 30) ->
  let p := run e 100 dr tan [OHeight (fz 4)] in
  let after := snd (fst (display e 100 dr tan p (with_list [Other 0]))) in
  after = [Other 0; Obj (fz 4)] /\
  let p2 := run e 100 dr tan [OHeight (fz 4); ODisplay (with_list [Other 0]); OHeight (fz 8)] in
  p_height p2 = fz 8 /\ shows (display e 100 dr tan p2 (with_list after)) = Some [Other 0; Obj (fz 4)].
Proof. exact list_keeps_object. Qed.
Print Assumptions C90_list_refuted.
Theorem C90_lens_refuted : exists (e : @elem float) s, Lens (fz 10) (fz 25) = Ok s /\ built [s] e /\
  forall tan, fst (fst (fst (display e 100 (Ok (fz 25)) tan ImagingPath_new plain))) = Some ZeroDivisionError.
Proof. exact lens_alone. Qed.
Print Assumptions C90_lens_refuted.
Example C90_example : exists (e : @elem float) s, Lens (fz 10) (fz 25) = Ok s /\ built [s] e /\
  neqb (mL (emat e)) c0 = true /\ p_fan (@ImagingPath_new float _) = None /\ existsb is_obj (callers plain) = false.
Proof.
  eexists (fpath [the (Lens (fz 10) (fz 25))]), (the (Lens (fz 10) (fz 25))).
  split; [vm_compute; reflexivity|]. split; [is_built|]. split; [vm_compute; reflexivity|]. split; reflexivity.
Qed.

(** ** C91 *)
(** with at least two colours every trace that has a point to show gives one line, in order, through its points, and
    nothing else is drawn; [line_for] gives its colour *)
Theorem C91_lines : forall rm cs dz ts, finite_starts rm ts -> (2 <= List.length cs)%nat ->
  exists m ls, 0 <= m /\ greatest rm ts m /\
    lines_of_traces xround rm (Colours cs) (Fin dz) ts = Ok ls /\
    Forall2 (line_for rm dz m cs) (filter (is_drawn rm) ts) ls.
Proof. exact ray_lines. Qed.
Print Assumptions C91_lines.
(** the colours follow the starting height: from the first for the lowest ray to the last for the highest, in order
    and evenly *)
Theorem C91_colours : forall n m, (1 <= n)%nat -> 0 < m ->
  (forall y, Rabs y <= m -> (shade n m y < n)%nat /\
     Rabs (INR (shade n m y) - (y + m) / (2 * m) * (INR n - 1)) <= 1 / 2) /\
  (forall y1 y2, - m <= y1 <= y2 -> y2 <= m -> (shade n m y1 <= shade n m y2)%nat) /\
  shade n m (- m) = 0%nat /\ shade n m m = (n - 1)%nat.
Proof. exact shade_facts. Qed.
Print Assumptions C91_colours.
(** a single colour: the figure fails exactly when there is a ray to draw and all start on the axis *)
Theorem C91_one_colour : forall rm c dz ts, finite_starts rm ts ->
  (exists m ls, 0 < m /\ greatest rm ts m /\
    lines_of_traces xround rm (Colours [c]) (Fin dz) ts = Ok ls /\
    Forall2 (line_for rm dz m [c]) (filter (is_drawn rm) ts) ls) \/
  ((forall t y, In t ts -> start rm t = Some y -> y = 0) /\
   lines_of_traces xround rm (Colours [c]) (Fin dz) ts =
     (if existsb (is_drawn rm) ts then Err IndexError else Ok [])).
Proof. exact one_colour_lines. Qed.
Print Assumptions C91_one_colour.
(** a source inside the path: first the lines after it, then those before it, on its left *)
Theorem C91_inside : forall rm d1 d2 e es own lamp dz rays f b cs,
  dz <> 0 -> colours_for own lamp d1 d2 = Colours cs -> (2 <= List.length cs)%nat ->
  subPath es (Fin dz) false = Ok f -> subPath es (Fin dz) true = Ok b ->
  let after := map (trace_values (Group GGroup (gmat f) (gelems f))) rays in
  let before := map (trace_values (Group GGroup (gmat b) (gelems b))) rays in
  finite_starts rm after -> finite_starts rm before ->
  exists m la lb, rayTraceLines xround rm d1 d2 e es own lamp (Fin dz) rays = Ok (la ++ lb) /\
    greatest rm (after ++ before) m /\
    Forall2 (line_for rm dz m cs) (filter (is_drawn rm) after) la /\
    Forall2 (fun t l => l_y l = map snd (points rm t) /\
                        l_x l = map (fun p => nadd (nopp (nabs (fst p))) (Fin dz)) (points rm t) /\
                        (forall x, In (Fin x) (l_x l) -> x <= dz))
            (filter (is_drawn rm) before) lb.
Proof. exact source_inside. Qed.
Print Assumptions C91_inside.
Example C91_example : exists rm ts, finite_starts rm ts /\ (1 < List.length (filter (is_drawn rm) ts))%nat /\
  start rm (nth 0 ts []) = Some (-1) /\ start rm (nth 1 ts []) = Some 2.
Proof.
  pose (at_ := fun y z => mkRay (T := XR) (Fin y) (Fin 0) (Fin z) false PInf None).
  exists true, [[at_ (-1) 0; at_ (-1) 5]; [at_ 2 0; at_ 2 5]].
  split; [|split; [cbn; lia|split; reflexivity]].
  intros t [<-|[<-|[]]] _; discriminate.
Qed.
Theorem C91_point_lamp_refuted : exists rays, rays <> [] /\ shown_lines None true rays = Err IndexError.
Proof. exact point_lamp. Qed.
Print Assumptions C91_point_lamp_refuted.
Theorem C91_one_colour_refuted : exists rays, rays <> [] /\
  shown_lines (Some (Colours ["k"])) false rays = Err IndexError.
Proof. exact one_colour_point. Qed.
Print Assumptions C91_one_colour_refuted.
Theorem C91_colour_name_refuted : exists rays,
  match shown_lines (Some (OneString "red")) false rays with
  | Ok ls => map l_color ls = ["r"; "e"; "d"]
  | Err _ => False
  end.
Proof. exact colour_name. Qed.
Print Assumptions C91_colour_name_refuted.
Theorem C91_no_colour_refuted : exists rays, shown_lines (Some (Colours [])) false rays = Err ZeroDivisionError.
Proof. exact no_colour. Qed.
Print Assumptions C91_no_colour_refuted.
