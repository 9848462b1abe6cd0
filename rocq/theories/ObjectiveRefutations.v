(** Objectives that do not reach their numerical aperture. *)
From Coq Require Import ZArith List Bool String Floats.
From Verif Require Import Base Nums Optics Objectives.
Import ListNotations.
Set Warnings "-inexact-float".

Definition get (name : string) : option (objective float) :=
  option_map snd (find (fun x => String.eqb (fst x) name) objectives).
(** a ray from the focus at this angle, through the objective turned around *)
Definition from_sample (name : string) (th : float) : option (bool * bool) :=
  match get name with
  | Some o =>
      match build o with
      | Ok e => match flip e with
                | Ok e1 => Some (PrimFloat.leb th (ob_NA o), rblk (traceThrough e1 (Ray_new c0 th)))
                | Err _ => None end
      | Err _ => None end
  | None => None
  end.
Lemma not_reached name th : from_sample name th = Some (true, true) ->
  exists o e e1 th, In (name, o) objectives /\ build o = Ok e /\ flip e = Ok e1 /\
    PrimFloat.leb th (ob_NA o) = true /\ rblk (traceThrough e1 (Ray_new 0%float th)) = true.
Proof.
  unfold from_sample, get. destruct (find _ _) as [[n o]|] eqn:F; [|discriminate]. cbn [option_map snd].
  apply find_some in F. destruct F as [F En]. cbn [fst] in En. apply String.eqb_eq in En. subst n.
  destruct (build o) as [e|] eqn:E; [|discriminate]. destruct (flip e) as [e1|] eqn:E1; [|discriminate].
  intros H. exists o, e, e1, th. split; [exact F|]. split; [exact E|]. split; [exact E1|].
  injection H as H1 H2. split; [exact H1|exact H2].
Qed.
Lemma na_40x : from_sample "LUMPlanFL40X" 0.78%float = Some (true, true).
Proof. vm_compute. reflexivity. Qed.
Lemma na_16x : from_sample "LWD16X" 0.81%float = Some (true, true).
Proof. vm_compute. reflexivity. Qed.
Lemma na_fine : from_sample "XLUMPlanFLN20X" 1%float = Some (true, false) /\ from_sample "MVPlapo2XC" 0.5%float = Some (true, false) /\
  from_sample "UMPLFN20XW" 0.5%float = Some (true, false) /\ from_sample "XLPLN25X" 1.05%float = Some (true, false).
Proof. vm_compute. auto. Qed.
Lemma no_invariant : match get "LWD16X" with Some o => maximumOpticalInvariant o = Err AttributeError | None => False end.
Proof. vm_compute. reflexivity. Qed.
