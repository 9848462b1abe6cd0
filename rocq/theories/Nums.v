(** The two instances of [Num]: extended reals (exact arithmetic with Python's
    inf/nan conventions) and IEEE-754 binary64 primitive floats. *)
From Coq Require Import ZArith Reals Lra Bool.
From Coq Require PrimFloat Uint63.
From Verif Require Import Base.
Open Scope R_scope.

(** ** Exact arithmetic with infinities *)
Inductive XR := Fin (r : R) | PInf | NInf | NaN.

Definition Rltb (x y : R) : bool := if Rlt_dec x y then true else false.
Definition Rleb (x y : R) : bool := if Rle_dec x y then true else false.
Definition Reqb (x y : R) : bool := if Req_EM_T x y then true else false.

(** infinity with the sign of [r] ([NaN] for zero) *)
Definition xsgninf (r : R) : XR :=
  if Rlt_dec 0 r then PInf else if Rlt_dec r 0 then NInf else NaN.

Definition xopp (x : XR) : XR :=
  match x with Fin r => Fin (- r) | PInf => NInf | NInf => PInf | NaN => NaN end.

Definition xadd (x y : XR) : XR :=
  match x, y with
  | Fin a, Fin b => Fin (a + b)
  | NaN, _ | _, NaN => NaN
  | PInf, NInf | NInf, PInf => NaN
  | PInf, _ | _, PInf => PInf
  | NInf, _ | _, NInf => NInf
  end.

Definition xsub (x y : XR) : XR := xadd x (xopp y).

Definition xmul (x y : XR) : XR :=
  match x, y with
  | Fin a, Fin b => Fin (a * b)
  | NaN, _ | _, NaN => NaN
  | PInf, PInf | NInf, NInf => PInf
  | PInf, NInf | NInf, PInf => NInf
  | Fin a, PInf | PInf, Fin a => xsgninf a
  | Fin a, NInf | NInf, Fin a => xopp (xsgninf a)
  end.

Definition xdiv (x y : XR) : XR :=
  match x, y with
  | Fin a, Fin b => if Req_EM_T b 0 then xsgninf a else Fin (a / b)
  | NaN, _ | _, NaN => NaN
  | Fin _, _ => Fin 0
  | PInf, Fin b => if Rlt_dec b 0 then NInf else PInf
  | NInf, Fin b => if Rlt_dec b 0 then PInf else NInf
  | _, _ => NaN
  end.

Definition xabs (x : XR) : XR :=
  match x with Fin r => Fin (Rabs r) | PInf | NInf => PInf | NaN => NaN end.

Definition xsqrt (x : XR) : XR :=
  match x with
  | Fin r => if Rlt_dec r 0 then NaN else Fin (sqrt r)
  | PInf => PInf | _ => NaN
  end.

Definition xeqb (x y : XR) : bool :=
  match x, y with
  | Fin a, Fin b => Reqb a b
  | PInf, PInf | NInf, NInf => true
  | _, _ => false
  end.

Definition xltb (x y : XR) : bool :=
  match x, y with
  | Fin a, Fin b => Rltb a b
  | Fin _, PInf | NInf, Fin _ | NInf, PInf => true
  | _, _ => false
  end.

Definition xleb (x y : XR) : bool :=
  match x, y with
  | Fin a, Fin b => Rleb a b
  | Fin _, PInf | NInf, Fin _ | NInf, PInf | PInf, PInf | NInf, NInf => true
  | _, _ => false
  end.

#[global] Instance NumXR : Num XR := {
  nadd := xadd; nsub := xsub; nmul := xmul; ndiv := xdiv; nopp := xopp;
  nabs := xabs; nsqrt := xsqrt; neqb := xeqb; nltb := xltb; nleb := xleb;
  nofZ := fun z => Fin (IZR z); ninf := PInf; npi := Fin PI }.

(** ** IEEE-754 binary64 *)
Definition float := PrimFloat.float.
(** int to float: correctly rounded below 2^62, within an ulp or so above *)
Fixpoint fofP (p : positive) : float :=
  if Pos.ltb p 4611686018427387904 then PrimFloat.of_uint63 (Uint63.of_Z (Zpos p))
  else match p with
       | xH => PrimFloat.one
       | xO q => PrimFloat.mul PrimFloat.two (fofP q)
       | xI q => PrimFloat.add (PrimFloat.mul PrimFloat.two (fofP q)) PrimFloat.one
       end.
Definition fofZ (z : Z) : float :=
  match z with
  | Z0 => PrimFloat.zero
  | Zpos p => fofP p
  | Zneg p => PrimFloat.opp (fofP p)
  end.

#[global] Instance NumF : Num float := {
  nadd := PrimFloat.add; nsub := PrimFloat.sub; nmul := PrimFloat.mul;
  ndiv := PrimFloat.div; nopp := PrimFloat.opp; nabs := PrimFloat.abs;
  nsqrt := PrimFloat.sqrt; neqb := PrimFloat.eqb; nltb := PrimFloat.ltb;
  nleb := PrimFloat.leb; nofZ := fofZ; ninf := PrimFloat.infinity;
  npi := PrimFloat.div (fofZ 884279719003555) (fofZ 281474976710656) }.

(** ** Basic facts about the exact instance *)
Lemma Rltb_true x y : Rltb x y = true <-> x < y.
Proof. unfold Rltb; destruct (Rlt_dec x y); split; intros; auto; discriminate. Qed.
Lemma Rltb_false x y : Rltb x y = false <-> y <= x.
Proof. unfold Rltb; destruct (Rlt_dec x y); split; intros; auto; try discriminate; lra. Qed.
Lemma Rleb_true x y : Rleb x y = true <-> x <= y.
Proof. unfold Rleb; destruct (Rle_dec x y); split; intros; auto; discriminate. Qed.
Lemma Rleb_false x y : Rleb x y = false <-> y < x.
Proof. unfold Rleb; destruct (Rle_dec x y); split; intros; auto; try discriminate; lra. Qed.
Lemma Reqb_true x y : Reqb x y = true <-> x = y.
Proof. unfold Reqb; destruct (Req_EM_T x y); split; intros; auto; discriminate. Qed.
Lemma Reqb_false x y : Reqb x y = false <-> x <> y.
Proof. unfold Reqb; destruct (Req_EM_T x y); split; intros; auto; congruence. Qed.
Lemma Reqb_refl x : Reqb x x = true.
Proof. now apply Reqb_true. Qed.
Lemma Reqb_neq x y : x <> y -> Reqb x y = false.
Proof. apply Reqb_false. Qed.
Lemma Rltb_lt x y : x < y -> Rltb x y = true.
Proof. apply Rltb_true. Qed.
Lemma Rltb_ge x y : y <= x -> Rltb x y = false.
Proof. apply Rltb_false. Qed.
Lemma Rleb_le x y : x <= y -> Rleb x y = true.
Proof. apply Rleb_true. Qed.
Lemma Rleb_gt x y : y < x -> Rleb x y = false.
Proof. apply Rleb_false. Qed.

Lemma xdiv_fin a b : b <> 0 -> xdiv (Fin a) (Fin b) = Fin (a / b).
Proof. intros Hb; unfold xdiv; destruct (Req_EM_T b 0); congruence. Qed.

Lemma pdiv_fin (a b : R) : b <> 0 -> pdiv (Fin a) (Fin b) = Ok (Fin (a / b)).
Proof.
  intros Hb; unfold pdiv, c0; cbn.
  rewrite Reqb_neq by exact Hb. destruct (Req_EM_T b 0); congruence.
Qed.

Lemma pdiv_fin_inf (a : R) : pdiv (Fin a) PInf = Ok (Fin 0).
Proof. reflexivity. Qed.

Lemma pdiv_zero (a : XR) : pdiv a (Fin 0) = Err ZeroDivisionError.
Proof. unfold pdiv, c0; cbn. now rewrite Reqb_refl. Qed.
