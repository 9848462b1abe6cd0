(** Proofs about the printed texts: the numbers can be read from them, to the last decimal shown. *)
From Coq Require Import ZArith NArith List Bool String Ascii Reals Lra Lia Floats Decimal DecimalString.
From Verif Require Import Base Nums Optics Beam Materials Zemax MatrixProofs BeamProofs Format FormatProofs Printing.
Import ListNotations.
Set Warnings "-inexact-float".
Open Scope string_scope.

(** ** Specification *)
(** the text [t] is a number with [k] decimals, with spaces in front, and within half a unit of the last one from [x] *)
Definition says (k : nat) (t : string) (x : float) : Prop :=
  exists j s neg n, t = spaces j ++ s /\ reads k s neg n /\
    Rabs ((if neg then - (IZR (Z.of_N n) / 10 ^ k) else IZR (Z.of_N n) / 10 ^ k) - value x) <= / (2 * 10 ^ k).
Definition close (k : nat) (x y : float) : Prop := Rabs (value x - value y) <= / 10 ^ k.

(** ** The characters of numbers *)
Fixpoint every (p : ascii -> bool) (s : string) : bool :=
  match s with EmptyString => true | String a t => p a && every p t end.
Lemma every_app p : forall a b, every p (a ++ b) = every p a && every p b.
Proof. induction a; intros; cbn; [auto|]. rewrite IHa. apply andb_assoc. Qed.
Lemma every_sub p : forall s i j, every p s = true -> every p (substring i j s) = true.
Proof.
  induction s as [|a s IH]; intros i j H; [destruct i, j; reflexivity|]. cbn in H. apply andb_prop in H as [Ha Hs].
  destruct i as [|i]; [destruct j as [|j]; [reflexivity|]; cbn; rewrite Ha; apply IH, Hs|cbn; apply IH, Hs].
Qed.
Lemma every_impl (p q : ascii -> bool) : (forall a, p a = true -> q a = true) -> forall s, every p s = true -> every q s = true.
Proof.
  intros H. induction s as [|a s IH]; cbn; [auto|]. intros E. apply andb_prop in E as [Ea Es]. rewrite (H _ Ea). apply IH, Es.
Qed.
Definition plain (a : ascii) : bool :=
  negb (Ascii.eqb a " " || Ascii.eqb a "(" || Ascii.eqb a "," || Ascii.eqb a "010" || Ascii.eqb a "009" || Ascii.eqb a "|").
Lemma uint_plain : forall u, every plain (NilEmpty.string_of_uint u) = true.
Proof. induction u; cbn; auto. Qed.
Lemma decimal_plain n : every plain (decimal n) = true.
Proof. unfold decimal, NilZero.string_of_uint. destruct (N.to_uint n) eqn:E; [reflexivity|..]; rewrite <- E; apply uint_plain. Qed.
Lemma zeros_plain k : every plain (zeros k) = true.
Proof. induction k; cbn; auto. Qed.
Lemma with_point_plain k n : every plain (with_point k n) = true.
Proof.
  unfold with_point. assert (every plain (zeros (S k - String.length (decimal n)) ++ decimal n) = true) as H
    by (rewrite every_app, zeros_plain; apply decimal_plain).
  rewrite !every_app, !every_sub by exact H. reflexivity.
Qed.
Lemma fixed_plain k x : every plain (fixed k x) = true.
Proof.
  unfold fixed. destruct (Prim2SF x) as [s|s| |s m e]; try reflexivity; try (rewrite every_app, with_point_plain); destruct s; reflexivity.
Qed.
Lemma fixed_nonempty k x : fixed k x <> "".
Proof.
  unfold fixed. assert (forall n, with_point k n <> "") as W.
  { intros n E. apply (f_equal String.length) in E. unfold with_point in E. rewrite !length_app in E. cbn in E. lia. }
  assert (forall s t, t <> "" -> sign s ++ t <> "") as S by (intros [] t H; cbn; [discriminate|exact H]).
  destruct (Prim2SF x) as [s|s| |s m e]; [apply S, W|apply S; discriminate|discriminate|apply S, W].
Qed.

(** ** Taking texts apart *)
Lemma app_assoc_s : forall a b c : string, (a ++ b) ++ c = a ++ b ++ c.
Proof. induction a; intros; cbn; [auto|]. now rewrite IHa. Qed.
Lemma cut_at c : forall a a' b b', every (fun x => negb (Ascii.eqb x c)) a = true -> every (fun x => negb (Ascii.eqb x c)) a' = true ->
  a ++ String c b = a' ++ String c b' -> a = a' /\ b = b'.
Proof.
  induction a as [|x a IH]; intros [|x' a'] b b' H H' E; cbn in *.
  - injection E as ->. auto.
  - injection E as -> E. rewrite Ascii.eqb_refl in H'. discriminate.
  - injection E as -> E. rewrite Ascii.eqb_refl in H. discriminate.
  - injection E as -> E. apply andb_prop in H as [_ H]. apply andb_prop in H' as [_ H']. destruct (IH a' b b' H H' E) as [-> ->]. auto.
Qed.
Lemma plain_not c : plain c = false -> forall a, plain a = true -> negb (Ascii.eqb a c) = true.
Proof. intros Hc a Ha. destruct (Ascii.eqb_spec a c) as [->|]; [congruence|reflexivity]. Qed.
(** numbers with spaces in front, up to a character that is not in a number *)
Definition number_like (s : string) : Prop := s <> "" /\ every plain s = true.
Lemma fixed_number k x : number_like (fixed k x).
Proof. split; [apply fixed_nonempty|apply fixed_plain]. Qed.
Lemma spaces_off : forall j j' s s' r r', number_like s -> number_like s' ->
  spaces j ++ s ++ r = spaces j' ++ s' ++ r' -> s ++ r = s' ++ r'.
Proof.
  induction j as [|j IH]; intros [|j'] s s' r r' H H' E; cbn in E; [exact E| | |].
  - destruct H as [N P]. destruct s as [|a s]; [easy|]. cbn in E. injection E as -> _. discriminate.
  - destruct H' as [N P]. destruct s' as [|a s']; [easy|]. cbn in E. injection E as <- _. discriminate.
  - injection E as E. apply (IH j' s s' r r'); auto.
Qed.
Lemma field c j j' s s' r r' : plain c = false -> number_like s -> number_like s' ->
  (spaces j ++ s) ++ String c r = (spaces j' ++ s') ++ String c r' -> s = s' /\ r = r'.
Proof.
  intros Hc H H' E. rewrite !app_assoc_s in E. apply spaces_off in E; auto. apply cut_at in E; auto.
  - eapply every_impl; [apply plain_not, Hc|apply H].
  - eapply every_impl; [apply plain_not, Hc|apply H'].
Qed.
Lemma pad_field c w w' x x' k k' r r' : plain c = false ->
  pad w (fixed k x) ++ String c r = pad w' (fixed k' x') ++ String c r' -> fixed k x = fixed k' x' /\ r = r'.
Proof. intros Hc. apply field; auto using fixed_number. Qed.
Lemma pad_says w k x : finite x -> says k (pad w (fixed k x)) x.
Proof. intros F. destruct (fixed_close k x F) as (neg & n & H & C). exists (w - String.length (fixed k x))%nat, (fixed k x), neg, n. auto. Qed.
Lemma bare_says k x : finite x -> says k (fixed k x) x.
Proof. intros F. destruct (fixed_close k x F) as (neg & n & H & C). exists 0%nat, (fixed k x), neg, n. auto. Qed.

(** ** Rays *)
Theorem ray_printed (r : @ray float) : finite (ry r) -> finite (rth r) -> finite (rz r) ->
  exists y t z, ray_str r = "y = " ++ y ++ newline ++ "theta = " ++ t ++ newline ++ "z = " ++ z ++ (if rblk r then " (blocked)" else "") /\
    says 3 y (ry r) /\ says 3 t (rth r) /\ says 3 z (rz r).
Proof.
  intros. exists (pad 6 (fixed 3 (ry r))), (pad 6 (fixed 3 (rth r))), (pad 4 (fixed 3 (rz r))).
  split; [reflexivity|]. auto using pad_says.
Qed.
Lemma no_bracket w k x : every (fun a => negb (Ascii.eqb a "(")) (pad w (fixed k x)) = true.
Proof.
  unfold pad. rewrite every_app. rewrite (every_impl plain _ (plain_not "(" eq_refl) _ (fixed_plain k x)). rewrite andb_true_r.
  induction (w - String.length (fixed k x))%nat; cbn; auto.
Qed.
Lemma same_tail : forall a b c : string, a ++ c = b ++ c -> a = b.
Proof.
  intros a b c E. apply append_same_length in E; [tauto|]. apply (f_equal String.length) in E. rewrite !length_app in E. lia.
Qed.
Lemma every_blocked (s t : string) : every (fun a => negb (Ascii.eqb a "(")) s = true -> t ++ " (blocked)" <> s.
Proof. intros H <-. rewrite every_app, andb_comm in H. discriminate. Qed.
Lemma pad_same w k x w' x' : pad w (fixed k x) = pad w' (fixed k x') -> fixed k x = fixed k x'.
Proof.
  unfold pad. intros E. destruct (field " " (w - String.length (fixed k x)) (w' - String.length (fixed k x')) (fixed k x) (fixed k x') "" "") as [H _];
    auto using fixed_number. now rewrite E.
Qed.
(** rays that are printed alike are alike *)
Theorem rays_printed_alike (r r' : @ray float) : finite (ry r) -> finite (rth r) -> finite (rz r) -> finite (ry r') -> finite (rth r') -> finite (rz r') ->
  ray_str r = ray_str r' ->
  close 3 (ry r) (ry r') /\ close 3 (rth r) (rth r') /\ close 3 (rz r) (rz r') /\ rblk r = rblk r'.
Proof.
  intros F1 F2 F3 G1 G2 G3 E. unfold ray_str in E. cbn [append] in E. injection E as E.
  change (newline ++ ?x) with (String "010" x) in E.
  apply pad_field in E as [Ey E]; [|reflexivity]. injection E as E.
  apply pad_field in E as [Et E]; [|reflexivity]. injection E as E.
  assert (fixed 3 (rz r) = fixed 3 (rz r') /\ rblk r = rblk r') as [Ez Eb].
  { revert E. destruct (rblk r), (rblk r'); intros E.
    - apply same_tail in E. apply pad_same in E. auto.
    - exfalso. revert E. apply every_blocked. rewrite every_app, no_bracket. reflexivity.
    - exfalso. symmetry in E. revert E. apply every_blocked. rewrite every_app, no_bracket. reflexivity.
    - apply same_tail in E. apply pad_same in E. auto. }
  unfold close. auto using fixed_same.
Qed.

(** ** Elements *)
Lemma Ok_inj {A} (a b : A) : Ok a = Ok b -> a = b.
Proof. congruence. Qed.
Theorem matrix_printed (m : @mat float) : finite (mA m) -> finite (mB m) -> finite (mC m) -> finite (mD m) ->
  exists a b c d f, matrix_str m = Ok ("| " ++ a ++ "   " ++ b ++ " |" ++ newline ++ "|                 |" ++ newline ++
      "| " ++ c ++ "   " ++ d ++ " |" ++ newline ++ f) /\
    says 3 a (mA m) /\ says 3 b (mB m) /\ says 3 c (mC m) /\ says 3 d (mD m) /\
    if PrimFloat.eqb (mC m) 0 then f = "f = +inf (afocal)"
    else exists t, f = "f=" ++ t /\ (finite (PrimFloat.div (-1) (mC m)) -> says 3 t (PrimFloat.div (-1) (mC m))).
Proof.
  intros FA FB FC FD. exists (pad 6 (fixed 3 (mA m))), (pad 6 (fixed 3 (mB m))), (pad 6 (fixed 3 (mC m))), (pad 6 (fixed 3 (mD m))).
  unfold matrix_str, pdiv. change (neqb (mC m) c0) with (PrimFloat.eqb (mC m) 0). destruct (PrimFloat.eqb (mC m) 0) eqn:E; cbn [negb bind].
  - exists "f = +inf (afocal)". rewrite !app_assoc_s. split; [reflexivity|]. repeat (split; [now apply pad_says|]). reflexivity.
  - change (ndiv (nopp c1) (mC m)) with (PrimFloat.div (-1) (mC m)).
    exists ("f=" ++ fixed 3 (PrimFloat.div (-1) (mC m))). rewrite !app_assoc_s. split; [reflexivity|].
    repeat (split; [now apply pad_says|]). eexists. split; [reflexivity|]. apply bare_says.
Qed.
Theorem matrices_printed_alike (m m' : @mat float) s : finite (mA m) -> finite (mB m) -> finite (mC m) -> finite (mD m) ->
  finite (mA m') -> finite (mB m') -> finite (mC m') -> finite (mD m') ->
  matrix_str m = Ok s -> matrix_str m' = Ok s ->
  close 3 (mA m) (mA m') /\ close 3 (mB m) (mB m') /\ close 3 (mC m) (mC m') /\ close 3 (mD m) (mD m') /\
  (PrimFloat.eqb (mC m) 0 = PrimFloat.eqb (mC m') 0).
Proof.
  intros. assert (forall m : @mat float, finite (mA m) -> finite (mB m) -> finite (mC m) -> finite (mD m) -> matrix_str m = Ok s -> exists f,
    s = "| " ++ pad 6 (fixed 3 (mA m)) ++ "   " ++ pad 6 (fixed 3 (mB m)) ++ " |" ++ newline ++ "|                 |" ++ newline ++
      "| " ++ pad 6 (fixed 3 (mC m)) ++ "   " ++ pad 6 (fixed 3 (mD m)) ++ " |" ++ newline ++ "f" ++ f /\
    PrimFloat.eqb (mC m) 0 = match f with String " " _ => true | _ => false end) as K.
  { clear. intros m FA FB FC FD. unfold matrix_str, pdiv. change (neqb (mC m) c0) with (PrimFloat.eqb (mC m) 0).
    destruct (PrimFloat.eqb (mC m) 0) eqn:E; cbn [negb bind]; intros K; apply Ok_inj in K; subst s.
    - exists " = +inf (afocal)". rewrite !app_assoc_s. split; reflexivity.
    - exists ("=" ++ fixed 3 (ndiv (nopp c1) (mC m))). rewrite !app_assoc_s. split; reflexivity. }
  destruct (K m) as (f & E & B); auto. destruct (K m') as (f' & E' & B'); auto. clear K. rewrite E in E'. clear E.
  cbn [append] in E'. injection E' as E.
  apply pad_field in E as [EA E]; [|reflexivity]. change ("  " ++ ?x) with (spaces 2 ++ x) in E.
  injection E as E. apply pad_field in E as [EB E]; [|reflexivity]. injection E as E.
  apply pad_field in E as [EC E]; [|reflexivity]. injection E as E.
  apply pad_field in E as [ED E]; [|reflexivity]. injection E as ->.
  unfold close. rewrite B, B'. auto 10 using fixed_same.
Qed.

(** ** Beams *)
Theorem beam_printed (cfmt3 cfmt : @cx float -> string) (b : @beam float) (wo w R : float) : bwo b = Ok (Some wo) -> bw b = Ok w -> bR b = Ok R ->
  finite wo -> finite w -> finite (bz b) -> finite (bzo b) -> finite (waistPosition b) ->
  exists tw tR tz tl tzo two tp, beam_str cfmt3 cfmt b = Ok ("Complex radius: " ++ cfmt3 (bq b) ++ newline ++
      "w(z): " ++ tw ++ ", " ++ "R(z): " ++ tR ++ ", " ++ "z: " ++ tz ++ ", " ++ "λ: " ++ tl ++ " nm" ++ newline ++
      "zo: " ++ tzo ++ ", " ++ "wo: " ++ two ++ ", " ++ "wo position: " ++ tp) /\
    says 3 tw w /\ (finite R -> says 3 tR R) /\ says 3 tz (bz b) /\ says 3 tzo (bzo b) /\ says 3 two wo /\ says 3 tp (waistPosition b).
Proof.
  intros Eo Ew ER Fo Fw Fz Fzo Fp. unfold beam_str. rewrite Eo, Ew, ER. cbn [bind].
  do 7 eexists. split; [reflexivity|]. auto 10 using bare_says.
Qed.
Theorem beam_not_finite (cfmt3 cfmt : @cx float -> string) (b : @beam float) : bwo b = Ok None -> beam_str cfmt3 cfmt b = Ok ("Beam is not finite: q=" ++ cfmt (bq b)).
Proof. intros E. unfold beam_str. now rewrite E. Qed.

(** ** Prescriptions *)
Lemma fold_lines {A} (f : A -> string) : forall l p, fold_left (fun p s => p ++ f s) l p = p ++ String.concat "" (map f l).
Proof.
  assert (forall l, String.concat "" (map f l) = match l with [] => "" | a :: t => f a ++ String.concat "" (map f t) end) as C.
  { intros [|a [|b t]]; [reflexivity|cbn; induction (f a); cbn; congruence|reflexivity]. }
  induction l as [|a l IH]; intros p; cbn [fold_left].
  - cbn. induction p; cbn; congruence.
  - rewrite IH, app_assoc_s, (C (a :: l)). reflexivity.
Qed.
Definition line_says (t : string) (s : surface float) : Prop :=
  exists r j d w, t = r ++ tab ++ (spaces j ++ printed (fst (sf_mat s))) ++ tab ++ d ++ tab ++ w ++ newline /\
    (finite (sf_R s) -> says 2 r (sf_R s)) /\ (finite (sf_spacing s) -> says 2 d (sf_spacing s)) /\ (finite (sf_diam s) -> says 2 w (sf_diam s)).
Theorem prescription_printed z l : lensSurfaces z = Ok l ->
  exists ts, prescription z = Ok (prescription_head ++ String.concat "" ts) /\ Forall2 line_says ts l.
Proof.
  intros E. unfold prescription. rewrite E. cbn [bind]. exists (map prescription_line l).
  split; [unfold prescription_of; now rewrite fold_lines|]. clear E. induction l as [|s l IH]; constructor; [|exact IH].
  exists (pad 10 (fixed 2 (sf_R s))), (10 - String.length (printed (fst (sf_mat s))))%nat, (pad 10 (fixed 2 (sf_spacing s))), (pad 10 (fixed 2 (sf_diam s))).
  split; [reflexivity|]. auto using pad_says.
Qed.

(** the focal length in the text is the effective focal length *)
Theorem matrix_printed_f (m : @mat float) f1 f2 : hasPower m = true -> effectiveFocalLengths m = Ok (f1, f2) ->
  exists pre, matrix_str m = Ok (pre ++ "f=" ++ fixed 3 f2).
Proof.
  intros Hp E. unfold effectiveFocalLengths in E. rewrite Hp in E. unfold matrix_str, pdiv in *.
  change (neqb (mC m) (nofZ 0)) with (neqb (mC m) c0) in E.
  destruct (neqb (mC m) c0) eqn:E0; [discriminate|]. cbn [bind negb] in *.
  destruct (neqb (mbi m) _); [discriminate|]. cbn [bind] in E. injection E as _ <-. eexists. reflexivity.
Qed.
(** a beam is printed as not finite when it is not (exact arithmetic) *)
Theorem not_finite_iff x y wl z n cl : 0 < wl ->
  let b := mkBeam (mkC (Fin x) (Fin y)) (Fin wl) (Fin z) (Fin n) cl in
  (bwo b = Ok None <-> isFinite b = Ok false).
Proof.
  intros Hl b. change (isFinite b) with (isFinite (fbeam (x, y) wl z n cl)). rewrite isFinite_fin. cbn [snd].
  unfold bwo, b, bzo. cbn [bq im bwl]. change (nltb c0 (Fin y)) with (Rltb 0 y).
  destruct (Rlt_dec 0 y) as [H|H].
  - rewrite Rltb_lt by exact H. change (@npi XR _) with (Fin PI). change (nmul (Fin y) (Fin wl)) with (Fin (y * wl)).
    pose proof PI_RGT_0. rewrite pdiv_fin by lra. cbn [bind]. unfold psqrt. change (nltb (Fin (y * wl / PI)) c0) with (Rltb (y * wl / PI) 0).
    assert (0 <= y * wl / PI) by (apply Rmult_le_pos; [apply Rmult_le_pos; lra|left; apply Rinv_0_lt_compat; lra]).
    rewrite Rltb_ge by lra. cbn [bind]. split; discriminate.
  - rewrite Rltb_ge by lra. split; auto.
Qed.
