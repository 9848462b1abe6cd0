(** Model of LambertianRays, RandomLambertianRays and GaussianProfileUniformRays
    (raytracing/rays.py 540-834).  np.cos, np.exp and int() are parameters; the numbers drawn by
    np.random.random() are a stream [g]. *)
From Coq Require Import ZArith List Bool.
From Verif Require Import Base Nums Optics RaysModel.
Import ListNotations.
Open Scope list_scope.
Open Scope num_scope.

Section Model.
Context {T : Type} {N : Num T}.
Local Notation ray := (@ray T).
Local Notation random_rays := (@random_rays T).
(** np.cos, np.exp and int() of a finite double (truncation) *)
Variables (pycos pyexp : T -> T) (toint : T -> Z).

(** np.pi / 2 and -np.pi / 2 *)
Definition pi_2 : T := ndiv npi c2.
Definition mpi_2 : T := ndiv (- npi) c2.

(** rays.py 577-595: LambertianRays.  [range] of a negative number is empty *)
Definition LambertianRays (ymax : T) (ymin : option T) (M' N' I' : Z) : res (list ray) :=
  let ylo := match ymin with Some v => v | None => - ymax end in
  ths <- linspace mpi_2 pi_2 N';;
  (fix each (ths : list T) : res (list ray) :=
     match ths with
     | [] => Ok []
     | th :: ths' =>
         let intensity := toint (nofZ I' * pycos th) in
         hs <- linspace ylo ymax M';;
         rest <- each ths';;
         Ok (flat_map (fun y => repeat (Ray_new y th) (Z.to_nat intensity)) hs ++ rest)
     end) ths.

(** ** Random sources *)
Variable (g : nat -> T).

(** the [while (True)] loop of rays.py 767-772 and 823-828: values are drawn between [lo] and
    [hi] until a second number is below [law] of the value; [u] numbers were drawn before *)
Fixpoint reject (law : T -> res T) (lo hi : T) (fuel u : nat) : res (T * nat) :=
  match fuel with
  | O => Err OutOfFuel
  | S fuel =>
      let v := lo + g u * (hi - lo) in
      i <- law v;;
      if g (S u) <? i then Ok (v, S (S u)) else reject law lo hi fuel (S (S u))
  end.

(** rays.py 767-775: the ray drawn by RandomLambertianRays and the numbers used *)
Definition lambertian (fuel : nat) (q : random_rays) : res (ray * nat) :=
  s <- reject (fun th => Ok (pycos th)) (q_thmin q) (q_thmax q) fuel (q_used q);;
  let '(th, u) := s in
  Ok (Ray_new (q_ymin q + g u * (q_ymax q - q_ymin q)) th, S u).

(** rays.py 825: np.exp(-y*y/self.intensityWidth/self.intensityWidth) *)
Definition gaussian_law (w y : T) : res T :=
  a <- pdiv ((- y) * y) w;; b <- pdiv a w;; Ok (pyexp b).
(** rays.py 823-832 *)
Definition gaussian (w : T) (fuel : nat) (q : random_rays) : res (ray * nat) :=
  s <- reject (gaussian_law w) (q_ymin q) (q_ymax q) fuel (q_used q);;
  let '(y, u) := s in
  Ok (Ray_new y (q_thmin q + g u * (q_thmax q - q_thmin q)), S u).

(** rays.py 758-760: RandomLambertianRays(...) *)
Definition RandomLambertianRays (ymax : T) (ymin : option T) (maxCount : Z) : random_rays :=
  mkRandom [] 0 maxCount 0 (match ymin with Some v => v | None => - ymax end) ymax mpi_2 pi_2.
(** rays.py 808-811: GaussianProfileUniformRays(...) *)
Definition GaussianProfileUniformRays (w : T) (maxCount : Z) : random_rays :=
  mkRandom [] 0 maxCount 0 (nofZ (-4) * w) (nofZ 4 * w) mpi_2 pi_2.

(** ** Access to the rays, for any subclass *)
Variable (draw : random_rays -> res (ray * nat)).

(** rays.py 762-777 and 813-834: randomRay *)
Definition drawRay (q : random_rays) : res ray * random_rays :=
  if (Z.of_nat (List.length (q_rays q)) =? q_max q)%Z then (Err AttributeError, q)
  else match draw q with
       | Err x => (Err x, q)
       | Ok (r, u) => (Ok r, q_push q r u)
       end.

(** rays.py 646-650: generate rays until [item] exists *)
Fixpoint draw_fill (fuel : nat) (q : random_rays) (item : Z) : option exn * random_rays :=
  if (Z.of_nat (List.length (q_rays q)) <=? item)%Z then
    match fuel with
    | O => (Some OutOfFuel, q)
    | S fuel =>
        match drawRay q with
        | (Err x, q') => (Some x, q')
        | (Ok _, q') => draw_fill fuel q' item
        end
    end
  else (None, q).

(** rays.py 638-652: __getitem__ *)
Definition draw_get (q : random_rays) (item : Z) : res ray * random_rays :=
  let item := if (item <? 0)%Z then (item + q_max q)%Z else item in
  if ((item <? 0) || (q_max q <=? item))%Z then (Err IndexError, q)
  else
    match draw_fill (S (Z.to_nat item)) q item with
    | (Some x, q') => (Err x, q')
    | (None, q') =>
        (match nth_error (q_rays q') (Z.to_nat item) with
         | Some r => Ok r | None => Err IndexError end, q')
    end.

(** rays.py 654-660: __next__; [None] raises StopIteration *)
Definition draw_next (q : random_rays) : option (res ray) * random_rays :=
  if (q_max q <=? q_pos q)%Z then (None, q)
  else match draw_get q (q_pos q) with
       | (Ok r, q') => (Some (Ok r), q_set_pos q' (q_pos q' + 1))
       | (Err x, q') => (Some (Err x), q')
       end.

Definition draw_step (q : random_rays) (o : qop) : random_rays :=
  match o with
  | QGet i => snd (draw_get q i)
  | QIter => q_set_pos q 0
  | QNext => snd (draw_next q)
  | QRandom => snd (drawRay q)
  end.
Definition draw_run (q : random_rays) (os : list qop) : random_rays := fold_left draw_step os q.

(** a for loop over the object *)
Fixpoint draw_for (fuel : nat) (q : random_rays) : list (res ray) :=
  match fuel with
  | O => []
  | S fuel => match draw_next q with
              | (Some r, q') => r :: draw_for fuel q'
              | (None, _) => []
              end
  end.
End Model.
