(** Model of /repo/raytracing/rays.py and of the ray-list functions of matrix.py
    (traceMany, traceManyThrough, traceManyThroughInParallel, profileFromRayTraces). *)
From Coq Require Import ZArith List Bool.
From Verif Require Import Base Optics.
Import ListNotations.
Open Scope num_scope.
Open Scope list_scope.

Section Model.
Context {T : Type} {N : Num T}.
Local Notation ray := (@ray T).
Local Notation elem := (@elem T).
Local Notation heap := (@heap T).

(** ** A Rays object used as an iterator over ray objects *)
(** rays.py 62-91: the attributes used while iterating *)
Record rays_it := mkIt { it_ids : list nat; it_pos : Z; it_log : Z }.

(** rays.py 359-362: __iter__ *)
Definition it_iter (o : rays_it) : rays_it := mkIt (it_ids o) 0 10000.
(** rays.py 364-373: __next__, [None] raises StopIteration *)
Definition it_next (o : rays_it) : option (nat * rays_it) :=
  if (it_pos o <? Z.of_nat (List.length (it_ids o)))%Z then
    match nth_error (it_ids o) (Z.to_nat (it_pos o)) with
    | Some i => Some (i, mkIt (it_ids o) (it_pos o + 1) (it_log o))
    | None => None
    end
  else None.
(** rays.py 348-357: displayProgress; [%] and [/] raise on zero *)
Definition displayProgress (o : rays_it) : res rays_it :=
  let n := Z.of_nat (List.length (it_ids o)) in
  if (it_log o =? 0)%Z then Err ZeroDivisionError
  else if (it_pos o mod it_log o =? 0)%Z then
    let l := (it_log o * 3)%Z in
    let l := if (n <? l)%Z then n else l in
    if (n =? 0)%Z then Err ZeroDivisionError else Ok (mkIt (it_ids o) (it_pos o) l)
  else Ok o.

(** matrix.py 821-829: the loop of traceManyThrough; the ray objects kept, and the heap *)
Fixpoint tmt_loop (fuel : nat) (e : elem) (progress : bool) (o : rays_it) (acc : list nat)
    (h : heap) : res (list nat) * heap :=
  match fuel with
  | O => (Err OutOfFuel, h)
  | S fuel =>
      match it_next o with
      | None => (Ok acc, h)
      | Some (rid, o1) =>
          let (tr, h1) := trace e rid h in
          let lst := List.last tr rid in
          let acc' := if rblk (hget h1 lst) then acc else acc ++ [lst] in
          match (if progress then displayProgress o1 else Ok o1) with
          | Err x => (Err x, h1)
          | Ok o2 => tmt_loop fuel e progress o2 acc' h1
          end
      end
  end.

(** matrix.py 765-831 for a Rays object *)
Definition traceManyThrough (e : elem) (progress : bool) (o : rays_it) (h : heap)
    : res (list nat) * heap :=
  tmt_loop (S (List.length (it_ids o))) e progress (it_iter o) [] h.

(** ** Parallel tracing (matrix.py 833-888) *)
(** [l[skip::p]] *)
Fixpoint pystep {A} (skip p : nat) (l : list A) : list A :=
  match l with
  | [] => []
  | x :: t => match skip with
              | O => x :: pystep (p - 1) p t
              | S s => pystep s p t
              end
  end.

(** what one worker process returns for its share: it works on a pickled copy of the rays
    (a heap of its own) and its result is pickled back *)
Definition worker (e : elem) (progress : bool) (share : list ray) : res (list ray) :=
  match traceManyThrough e progress (mkIt (seq 0 (List.length share)) 0 10000) share with
  | (Ok ids, h) => Ok (map (hget h) ids)
  | (Err x, _) => Err x
  end.

(** pool.starmap: workers finish in the order [sched]; the result of worker [i] goes in slot
    [i] of the list that is returned *)
Fixpoint pool {A B} (f : A -> B) (tasks : list A) (sched : list nat)
    (slots : list (option B)) : list (option B) :=
  match sched with
  | [] => slots
  | i :: t =>
      match nth_error tasks i with
      | Some a => pool f tasks t (set_nth i (Some (f a)) slots)
      | None => pool f tasks t slots
      end
  end.

(** matrix.py 876-882: concatenate the lists of all workers *)
Fixpoint gather {A} (slots : list (option (res (list A)))) : res (list A) :=
  match slots with
  | [] => Ok []
  | None :: _ => Err RuntimeError
  | Some (Err x) :: _ => Err x
  | Some (Ok l) :: t => r <- gather t;; Ok (l ++ r)
  end.

(** matrix.py 868-888: shares, pool, concatenation; any exception falls back on the serial
    version, as does Pool(processes) for processes < 1 *)
Definition traceInParallel (e : elem) (progress : bool) (processes : Z) (sched : list nat)
    (rays : list ray) : res (list ray) :=
  let p := Z.to_nat processes in
  let shares := map (fun i => pystep i p rays) (seq 0 p) in
  if (processes <=? 0)%Z then worker e progress rays
  else match gather (pool (worker e progress) shares sched (map (fun _ => None) shares)) with
       | Ok l => Ok l
       | Err _ => worker e progress rays
       end.

(** ** Ray statistics and their caches *)
(** the part of a Rays object used for statistics (rays.py 62-91) *)
Record stats := mkStats {
  s_rays : list ray;
  s_pos : Z;                               (* iteration *)
  s_y : option (list T);                   (* _yValues *)
  s_th : option (list T);                  (* _thetaValues *)
  s_cpar : option (Z * T * T);             (* _countHistogramParameters *)
  s_chist : option (list T * list Z);      (* _xValuesCountHistogram, _yHistogram *)
  s_apar : option (Z * T * T);             (* _anglesHistogramParameters *)
  s_ahist : option (list T * list Z)       (* _xValuesAnglesHistogram, _thetaHistogram *)
}.

(** rays.py 62-91: Rays(rays) *)
Definition stats_new (l : list ray) : stats :=
  mkStats l 0 None None None None None None.

(** rays.py 111-119; computing the list iterates over the object itself, which leaves its
    iteration counter at the end *)
Definition yValues (s : stats) : list T * stats :=
  match s_y s with
  | Some l => (l, s)
  | None =>
      let l := map ry (s_rays s) in
      (l, mkStats (s_rays s) (Z.of_nat (List.length (s_rays s))) (Some l) (s_th s)
                  (s_cpar s) (s_chist s) (s_apar s) (s_ahist s))
  end.
(** rays.py 121-129 *)
Definition thetaValues (s : stats) : list T * stats :=
  match s_th s with
  | Some l => (l, s)
  | None =>
      let l := map rth (s_rays s) in
      (l, mkStats (s_rays s) (Z.of_nat (List.length (s_rays s))) (s_y s) (Some l)
                  (s_cpar s) (s_chist s) (s_apar s) (s_ahist s))
  end.

(** Python's min and max of a list; ValueError on an empty one *)
Definition pymin (l : list T) : res T :=
  match l with
  | [] => Err ValueError
  | x :: t => Ok (fold_left (fun m v => if v <? m then v else m) t x)
  end.
Definition pymax (l : list T) : res T :=
  match l with
  | [] => Err ValueError
  | x :: t => Ok (fold_left (fun m v => if m <? v then v else m) t x)
  end.

(** np.histogram(values, bins, range) as its documentation describes it: [bins] bins of equal width,
    half-open except the last one, values out of range left out, a range of width zero widened by
    1/2 on both sides; ValueError for a number of bins below 1, a range that is not finite or
    has its ends exchanged.  numpy finds the bin of a value by dividing and then corrects it
    against the edges. *)
Definition edge (lo hi : T) (bins i : Z) : T :=
  if (i =? bins)%Z then hi else lo + nofZ i * ndiv (hi - lo) (nofZ bins).
Definition in_bin (lo hi : T) (bins i : Z) (v : T) : bool :=
  ((edge lo hi bins i <=? v) &&
   (if (i =? bins - 1)%Z then v <=? hi else v <? edge lo hi bins (i + 1)))%bool.
Definition finite (x : T) : bool := ((x <? ninf) && (- ninf <? x))%bool.
Definition np_histogram (values : list T) (bins : Z) (mn mx : T) : res (list Z * list T) :=
  if (bins <? 1)%Z then Err ValueError
  else if (mx <? mn) then Err ValueError
  else if negb (finite mn && finite mx) then Err ValueError
  else
    let half := ndiv c1 c2 in
    let lo := if neqb mn mx then mn - half else mn in
    let hi := if neqb mn mx then mx + half else mx in
    Ok (map (fun i => Z.of_nat (List.length (filter (in_bin lo hi bins i) values))) (zrange bins),
        map (edge lo hi bins) (zrange (bins + 1))).

Section Hist.
(** np.histogram(values, bins, range): counts and bin edges, or an exception *)
Context (histogram : list T -> Z -> T -> T -> res (list Z * list T)).

(** rays.py 200-203: centres of the bins *)
Fixpoint centres (edges : list T) : list T :=
  match edges with
  | a :: ((b :: _) as t) => ndiv (a + b) c2 :: centres t
  | _ => []
  end.

Definition hist_of (values : list T) (bins : Z) (mn mx : T) : res (list T * list Z) :=
  h <- histogram values bins mn mx;; Ok (centres (snd h), fst h).

(** tuples of Python numbers compared with [!=] *)
Definition par_eqb (p q : option (Z * T * T)) : bool :=
  match p, q with
  | Some (b, x, y), Some (b', x', y') => ((b =? b')%Z && neqb x x' && neqb y y')%bool
  | None, None => true
  | _, _ => false
  end.

(** rays.py 184-191, 264-271: default arguments.  When a bound is missing the values are read,
    which may fill their cache. *)
Definition bounds (values : list T * stats) (s : stats) (mn mx : option T)
    : res (T * T) * stats :=
  match mn, mx with
  | Some a, Some b => (Ok (a, b), s)
  | Some a, None => (b <- pymax (fst values);; Ok (a, b), snd values)
  | None, Some b => (a <- pymin (fst values);; Ok (a, b), snd values)
  | None, None => (a <- pymin (fst values);; b <- pymax (fst values);; Ok (a, b), snd values)
  end.

(** rays.py 131-205.  The parameters are stored before np.histogram is called. *)
Definition rayCountHistogram (s : stats) (bins : option Z) (mn mx : option T)
    : res (option (list T * list Z)) * stats :=
  let b := match bins with Some b => b | None => 40%Z end in
  match bounds (yValues s) s mn mx with
  | (Err x, s1) => (Err x, s1)
  | (Ok (lo, hi), s1) =>
      if par_eqb (s_cpar s1) (Some (b, lo, hi)) then (Ok (s_chist s1), s1)
      else
        let (ys, s2) := yValues s1 in
        match hist_of ys b lo hi with
        | Ok hh => (Ok (Some hh), mkStats (s_rays s2) (s_pos s2) (s_y s2) (s_th s2)
                                    (Some (b, lo, hi)) (Some hh) (s_apar s2) (s_ahist s2))
        | Err x => (Err x, mkStats (s_rays s2) (s_pos s2) (s_y s2) (s_th s2)
                                    (Some (b, lo, hi)) (s_chist s2) (s_apar s2) (s_ahist s2))
        end
  end.
(** rays.py 207-283 *)
Definition rayAnglesHistogram (s : stats) (bins : option Z) (mn mx : option T)
    : res (option (list T * list Z)) * stats :=
  let b := match bins with Some b => b | None => 40%Z end in
  match bounds (thetaValues s) s mn mx with
  | (Err x, s1) => (Err x, s1)
  | (Ok (lo, hi), s1) =>
      if par_eqb (s_apar s1) (Some (b, lo, hi)) then (Ok (s_ahist s1), s1)
      else
        let (ths, s2) := thetaValues s1 in
        match hist_of ths b lo hi with
        | Ok hh => (Ok (Some hh), mkStats (s_rays s2) (s_pos s2) (s_y s2) (s_th s2) (s_cpar s2)
                                    (s_chist s2) (Some (b, lo, hi)) (Some hh))
        | Err x => (Err x, mkStats (s_rays s2) (s_pos s2) (s_y s2) (s_th s2) (s_cpar s2)
                                    (s_chist s2) (Some (b, lo, hi)) (s_ahist s2))
        end
  end.

(** rays.py 378-403: append *)
Definition stats_append (s : stats) (r : ray) : stats :=
  mkStats (s_rays s ++ [r]) (s_pos s) None None None None None None.
(** rays.py 405-427: load, the file already unpickled to [l] *)
Definition stats_load (s : stats) (app : bool) (l : list ray) : stats :=
  mkStats (if app then s_rays s ++ l else l) (s_pos s) (s_y s) (s_th s)
          (s_cpar s) (s_chist s) (s_apar s) (s_ahist s).
(** rays.py 359-373: __iter__ and __next__ *)
Definition stats_iter (s : stats) : stats :=
  mkStats (s_rays s) 0 (s_y s) (s_th s) (s_cpar s) (s_chist s) (s_apar s) (s_ahist s).
Definition stats_next (s : stats) : option (ray * stats) :=
  if (s_pos s <? Z.of_nat (List.length (s_rays s)))%Z then
    match nth_error (s_rays s) (Z.to_nat (s_pos s)) with
    | Some r => Some (r, mkStats (s_rays s) (s_pos s + 1) (s_y s) (s_th s) (s_cpar s)
                                 (s_chist s) (s_apar s) (s_ahist s))
    | None => None
    end
  else None.

(** operations of a user on a Rays object *)
Inductive sop :=
| SAppend (r : ray)
| SLoad (app : bool) (l : list ray)
| SIter | SNext
| SY | STheta
| SCount (bins : option Z) (mn mx : option T)
| SAngles (bins : option Z) (mn mx : option T).

Definition sstep (s : stats) (o : sop) : stats :=
  match o with
  | SAppend r => stats_append s r
  | SLoad app l => stats_load s app l
  | SIter => stats_iter s
  | SNext => match stats_next s with Some (_, s') => s' | None => s end
  | SY => snd (yValues s)
  | STheta => snd (thetaValues s)
  | SCount b mn mx => snd (rayCountHistogram s b mn mx)
  | SAngles b mn mx => snd (rayAnglesHistogram s b mn mx)
  end.
Definition srun (s : stats) (os : list sop) : stats := fold_left sstep os s.
End Hist.

(** ** for loops over an object that is its own iterator *)
(** [for x in obj: body] where [obj.__iter__()] returns [obj]; [body] may do anything to the
    object.  Used for Rays (rays.py 359-373) and MatrixGroup (matrixgroup.py 485-496). *)
Fixpoint for_loop {A S} (fuel : nat) (next : S -> option (A * S)) (body : A -> S -> S)
    (s : S) (seen : list A) : res (list A) * S :=
  match fuel with
  | O => (Err OutOfFuel, s)
  | Datatypes.S fuel =>
      match next s with
      | None => (Ok seen, s)
      | Some (x, s1) => for_loop fuel next body (body x s1) (seen ++ [x])
      end
  end.

(** the rays visited by [for x in rays: body] *)
Definition for_rays (fuel : nat) (body : ray -> stats -> stats) (s : stats)
    : res (list ray) * stats :=
  for_loop fuel stats_next body (stats_iter s) [].

(** [x in rays]: Python iterates until an equal item is found (Ray.__eq__, ray.py 258-268) *)
Fixpoint member_loop (fuel : nat) (x : ray) (s : stats) : bool * stats :=
  match fuel with
  | O => (false, s)
  | S fuel =>
      match stats_next s with
      | None => (false, s)
      | Some (r, s1) => if ray_eqb r x then (true, s1) else member_loop fuel x s1
      end
  end.
Definition member (x : ray) (s : stats) : bool * stats :=
  member_loop (S (List.length (s_rays s))) x (stats_iter s).

(** MatrixGroup as an iterator over its elements (matrixgroup.py 485-496) *)
Record group_it := mkGit { gi_elems : list elem; gi_pos : nat }.
Definition gi_iter (g : group_it) : group_it := mkGit (gi_elems g) 0.
Definition gi_next (g : group_it) : option (elem * group_it) :=
  match nth_error (gi_elems g) (gi_pos g) with
  | Some e => Some (e, mkGit (gi_elems g) (S (gi_pos g)))
  | None => None
  end.
Definition for_group (fuel : nat) (body : elem -> group_it -> group_it) (g : group_it)
    : res (list elem) * group_it :=
  for_loop fuel gi_next body (gi_iter g) [].

(** ** Random rays (rays.py 598-719) *)
(** [rnd] numbers come from a stream [g] of values of np.random.random(); [q_used] have been
    drawn so far *)
Record random_rays := mkRandom {
  q_rays : list ray; q_used : nat; q_max : Z; q_pos : Z;
  q_ymin : T; q_ymax : T; q_thmin : T; q_thmax : T
}.
(** rays.py 623-633, 707-709 *)
Definition RandomUniformRays (ymax : T) (ymin : option T) (thmax : T) (thmin : option T)
    (maxCount : Z) : random_rays :=
  mkRandom [] 0 maxCount 0
    (match ymin with Some v => v | None => - ymax end) ymax
    (match thmin with Some v => v | None => - thmax end) thmax.

Section Random.
Context (g : nat -> T).

Definition q_push (q : random_rays) (r : ray) (used : nat) : random_rays :=
  mkRandom (q_rays q ++ [r]) used (q_max q) (q_pos q)
           (q_ymin q) (q_ymax q) (q_thmin q) (q_thmax q).

(** rays.py 711-719: RandomUniformRays.randomRay *)
Definition randomRay (q : random_rays) : res ray * random_rays :=
  if (Z.of_nat (List.length (q_rays q)) =? q_max q)%Z then (Err AttributeError, q)
  else
    let th := q_thmin q + g (q_used q) * (q_thmax q - q_thmin q) in
    let y := q_ymin q + g (S (q_used q)) * (q_ymax q - q_ymin q) in
    let r := Ray_new y th in
    (Ok r, q_push q r (S (S (q_used q)))).

(** rays.py 646-650: generate rays until [item] exists *)
Fixpoint fill (fuel : nat) (q : random_rays) (item : Z) : option exn * random_rays :=
  if (Z.of_nat (List.length (q_rays q)) <=? item)%Z then
    match fuel with
    | O => (Some OutOfFuel, q)
    | S fuel =>
        match randomRay q with
        | (Err x, q') => (Some x, q')
        | (Ok _, q') => fill fuel q' item
        end
    end
  else (None, q).

(** rays.py 638-652: __getitem__ *)
Definition random_get (q : random_rays) (item : Z) : res ray * random_rays :=
  let item := if (item <? 0)%Z then (item + q_max q)%Z else item in
  if ((item <? 0) || (q_max q <=? item))%Z then (Err IndexError, q)
  else
    match fill (S (Z.to_nat item)) q item with
    | (Some x, q') => (Err x, q')
    | (None, q') =>
        (match nth_error (q_rays q') (Z.to_nat item) with
         | Some r => Ok r | None => Err IndexError end, q')
    end.

Definition q_set_pos (q : random_rays) (p : Z) : random_rays :=
  mkRandom (q_rays q) (q_used q) (q_max q) p (q_ymin q) (q_ymax q) (q_thmin q) (q_thmax q).

(** rays.py 654-660: __next__; [None] raises StopIteration *)
Definition random_next (q : random_rays) : option (res ray) * random_rays :=
  if (q_max q <=? q_pos q)%Z then (None, q)
  else match random_get q (q_pos q) with
       | (Ok r, q') => (Some (Ok r), q_set_pos q' (q_pos q' + 1))
       | (Err x, q') => (Some (Err x), q')
       end.

Inductive qop := QGet (i : Z) | QIter | QNext | QRandom.
Definition qstep (q : random_rays) (o : qop) : random_rays :=
  match o with
  | QGet i => snd (random_get q i)
  | QIter => q_set_pos q 0
  | QNext => snd (random_next q)
  | QRandom => snd (randomRay q)
  end.
Definition qrun (q : random_rays) (os : list qop) : random_rays := fold_left qstep os q.

(** rays.py 93-109 and 635: len, count and the list [rays] *)
Definition random_len (q : random_rays) : Z := q_max q.
End Random.

(** ** Regular rays *)
(** np.linspace(start, stop, num, endpoint=True): ValueError for num < 0 *)
Definition linspace (start stop : T) (num : Z) : res (list T) :=
  if (num <? 0)%Z then Err ValueError
  else if (num =? 1)%Z then Ok [nofZ 0 * (stop - start) + start]
  else
    let step := ndiv (stop - start) (nofZ (num - 1)) in
    Ok (map (fun i => if (i =? num - 1)%Z then stop else nofZ i * step + start) (zrange num)).

(** rays.py 514-536: UniformRays *)
Definition UniformRays (ymax : T) (ymin : option T) (thmax : T) (thmin : option T) (M' N' : Z)
    : res (list ray) :=
  let ylo := match ymin with Some v => v | None => - ymax end in
  let tlo := match thmin with Some v => v | None => - thmax end in
  hs <- (if (M' =? 1)%Z then Ok [c0] else linspace ylo ymax M');;
  match hs with
  | [] => Ok []
  | _ =>
      ths <- linspace tlo thmax N';;
      Ok (flat_map (fun y => map (fun th => Ray_new y th) ths) hs)
  end.
(** rays.py 866-871: ObjectRays *)
Definition ObjectRays (diameter halfAngle : T) (H' T' : Z) : res (list ray) :=
  UniformRays (ndiv diameter c2) (Some (ndiv (- diameter) c2)) halfAngle (Some (- halfAngle)) H' T'.
(** rays.py 910-923: LampRays(random=False) *)
Definition LampRays (diameter na : T) (N' T' : Z) : res (list ray) :=
  hs <- linspace (ndiv (- diameter) c2) (ndiv diameter c2) N';;
  ths <- linspace (- na) na T';;
  Ok (flat_map (fun y => map (fun th => Ray_new y th) ths) hs).

(** ** Iterables *)
(** an argument of Rays(...): a sequence can be read any number of times, a one-shot iterator
    (generator, map, file...) only once.  [None] items are objects that are not rays. *)
Inductive iterable :=
| Sequence (l : list (option ray))
| OneShot (l : list (option ray))
| NotIterable.

(** reading all items *)
Definition consume (it : iterable) : list (option ray) * iterable :=
  match it with
  | Sequence l => (l, Sequence l)
  | OneShot l => (l, OneShot [])
  | NotIterable => ([], NotIterable)
  end.
Definition isRay (x : option ray) : bool := match x with Some _ => true | None => false end.
Definition keepRays (l : list (option ray)) : list ray :=
  flat_map (fun x => match x with Some r => [r] | None => [] end) l.

(** rays.py 62-72: Rays(rays); the items are checked in a first pass, stored in a second *)
Definition Rays_new (it : iterable) : res (list ray) :=
  match it with
  | NotIterable => Err TypeError
  | _ =>
      let (l1, it1) := consume it in
      if forallb isRay l1 then
        let (l2, _) := consume it1 in Ok (keepRays l2)
      else Err TypeError
  end.

(** matrix.py 810-831 for an argument that is not a Rays object *)
Definition traceManyThrough_it (e : elem) (progress : bool) (it : iterable) : res (list ray) :=
  l <- Rays_new it;; worker e progress l.
(** matrix.py 868-888 for any iterable: list(inputRays) reads it in one pass; when a worker
    raises, the fallback receives the iterable as it is left *)
Definition traceInParallel_it (e : elem) (progress : bool) (processes : Z) (sched : list nat)
    (it : iterable) : res (list ray) :=
  match it with
  | NotIterable => Err TypeError
  | _ =>
      let (l, it1) := consume it in
      if ((processes <=? 0)%Z || negb (forallb isRay l))%bool
      then traceManyThrough_it e progress it1
      else traceInParallel e progress processes sched (keepRays l)
  end.

End Model.
