(** Property theorems C123: assembling paths in double precision.  The determinant of every
    product is compared with the ratio of the indices; [exact_det l] is the determinant of the
    product of the elements in exact arithmetic and [slack l] what rounding may do to it: 5 parts
    in 2^50 for every element, of the terms of the determinant all counted as positive. *)
From Coq Require Import ZArith Reals Lra Lia List Bool String Floats.
From Verif Require Import Base Nums Optics Spec GroupProofs TraceProofs Rounding RoundingOps Exact FloatTrace FloatGroup FloatSamples FloatBuild BuildSamples.
Import ListNotations.
Open Scope list_scope.
Open Scope R_scope.

(** Elements in air can be put together when every beginning of the path has, rounding included,
    a determinant within 0.99e-5 of one: no exception, and the group has the elements. *)
Theorem C123_assembled :
  forall (es : list (@elem float)) label, Forall in_air es -> Forall tame (members es) -> INR (List.length es) <= p2 50 ->
  modest (members es) unit_y -> modest (members es) unit_th ->
  (forall a b, es = a ++ b -> a <> [] -> Rabs (exact_det (members a) - 1) + slack (members a) <= 99 / 10 ^ 7) ->
  exists g, MatrixGroup_new es label = Ok g /\ gelems g = es.
Proof. exact assembles. Qed.
Print Assumptions C123_assembled.

(** Lenses, mirrors, spaces and apertures in air have determinant one exactly, so that only
    the rounding counts. *)
Theorem C123_thin_elements_assembled :
  forall (es : list (@elem float)) label,
  Forall (fun e => (exists f d, Lens f d = Ok e) \/ (exists r d, CurvedMirror r d = Ok e) \/
    (exists d diam, Space d (@c1 float _) diam = Ok e) \/ (exists d na, Aperture d na = Ok e)) es ->
  Forall tame (members es) -> INR (List.length es) <= p2 50 ->
  modest (members es) unit_y -> modest (members es) unit_th ->
  (forall a b, es = a ++ b -> a <> [] -> slack (members a) <= 99 / 10 ^ 7) ->
  exists g, MatrixGroup_new es label = Ok g /\ gelems g = es.
Proof.
  intros es label He. apply assembles_unit; (eapply Forall_impl; [|exact He]); intros e H; now destruct (thin_elements e H).
Qed.
Print Assumptions C123_thin_elements_assembled.

(** Conversely a group in air that exists has a determinant within 1.01e-5 of one, but for rounding. *)
Theorem C123_accepted_are_consistent :
  forall (g : @grp float), let l := members (gelems g) in in_step g -> gelems g <> [] -> Forall in_air (gelems g) ->
  Forall tame l -> INR (List.length l) <= p2 50 -> modest l unit_y -> modest l unit_th -> slack l <= p2 900 ->
  Rabs (exact_det l - 1) <= 101 / 10 ^ 7 + slack l.
Proof. exact built_consistent. Qed.
Print Assumptions C123_accepted_are_consistent.

(** Rounding can make a path of perfectly good elements impossible: a telescope of 900 mm that
    looks at Jupiter, with lengths in mm *)
Theorem C123_refuted : exists s o t : @elem float,
  Space (fofZ 600000000000000) (fofZ 1) infinity = Ok s /\ Lens (fofZ 900) infinity = Ok o /\ Space (fofZ 910) (fofZ 1) infinity = Ok t /\
  Forall in_air [s; o; t] /\ Forall unit_det [s; o; t] /\ MatrixGroup_new [s; o; t] ""%string = Err ValueError.
Proof.
  exists far_space, objective_900, tube. destruct far_refused as (E1 & E2 & E3 & E4).
  assert (Forall (fun e => in_air e /\ unit_det e) [far_space; objective_900; tube]) as F.
  { repeat (apply Forall_cons; [apply thin_elements; eauto 8|]). apply Forall_nil. }
  repeat (split; [assumption|]). split; [|split; [|exact E4]]; (eapply Forall_impl; [|exact F]); intros e [H1 H2]; assumption.
Qed.
Print Assumptions C123_refuted.

(** the bench of C121 (8 mm, a lens of 64 mm, 128 mm) meets the hypotheses *)
Example C123_example : Forall in_air (gelems bench) /\ Forall unit_det (gelems bench) /\ Forall tame (members (gelems bench)) /\
  INR (List.length (gelems bench)) <= p2 50 /\ modest (members (gelems bench)) unit_y /\ modest (members (gelems bench)) unit_th /\
  (forall a b, gelems bench = a ++ b -> a <> [] -> slack (members a) <= 99 / 10 ^ 7) /\
  exists g, MatrixGroup_new (gelems bench) ""%string = Ok g /\ gelems g = gelems bench.
Proof.
  assert (Forall tame (members (gelems bench))) as H1 by (rewrite bench_members_leaves; apply drop_tame, bench_tame).
  destruct bench_modest as (M1 & M2 & _). apply drop_modest in M1, M2. rewrite <- bench_members_leaves in M1, M2.
  pose proof bench_few as HF. change (List.length (leaves (grp_elem bench))) with (List.length (gelems bench)) in HF.
  split; [apply bench_air|]. split; [apply bench_units|]. split; [exact H1|]. split; [exact HF|]. split; [exact M1|]. split; [exact M2|]. split; [apply bench_slack|].
  apply assembles_unit; auto using bench_air, bench_units. exact bench_slack.
Qed.
