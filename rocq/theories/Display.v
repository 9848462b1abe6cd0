(** Model of the settings used by ImagingPath.display: objectHeight, design() and the parameters of
    the figure (raytracing/imagingpath.py 86-122, 952-1062 and raytracing/figure.py 20-147,
    532-588).  The drawing itself (graphics, matplotlib) is left out; sets of rays are known by their
    class, an object by its diameter.  All objects are at z = 0. *)
From Coq Require Import ZArith List Bool String.
From Verif Require Import Base Nums Optics Imaging.
Import ListNotations.
Open Scope string_scope.
Open Scope list_scope.

(** figure.py 35-40: the keys of designParams *)
Inductive key := RayColors | LampRayColors | OnlyAxialRay | ImageColor | FillImage | ObjectColor
  | FillObject | OnlyPrincipalAndAxialRays | LimitObjectToFieldOfView
  | RemoveBlockedRaysCompletely | FontScale | ShowFOV | ShowObjectImage | FOVColors.
Scheme Equality for key.
Definition keyb (a b : key) : bool := if key_eq_dec a b then true else false.

Section Model.
Context {T : Type} {N : Num T}.
Local Notation elem := (@elem T).

Inductive setting := SBool (b : bool) | SText (s : string) | SList (l : list string) | SNum (x : T).
(** truth value of a setting; only booleans are tested *)
Definition truthy (s : setting) : bool := match s with SBool b => b | _ => true end.

Definition params := key -> setting.
Definition upd (p : params) (k : key) (v : setting) : params :=
  fun k' => if keyb k k' then v else p k'.

Inductive style := Default | Publication | Presentation.
Definition styleb (a b : style) : bool :=
  match a, b with
  | Default, Default | Publication, Publication | Presentation, Presentation => true
  | _, _ => false
  end.
(** the style with a given name *)
Definition style_named (s : string) : option style :=
  if string_dec s "default" then Some Default
  else if string_dec s "publication" then Some Publication
  else if string_dec s "presentation" then Some Presentation
  else None.

(** figure.py 34-44: the table of styles of a new figure *)
Definition default_params : params := fun k =>
  match k with
  | RayColors => SList ["b"; "r"; "g"]
  | LampRayColors => SList ["y"]
  | OnlyAxialRay => SBool false
  | ImageColor => SText "r"
  | FillImage => SBool true
  | ObjectColor => SText "b"
  | FillObject => SBool true
  | OnlyPrincipalAndAxialRays => SBool true
  | LimitObjectToFieldOfView => SBool true
  | RemoveBlockedRaysCompletely => SBool false
  | FontScale => SNum (ndec 12 1)
  | ShowFOV => SBool false
  | ShowObjectImage => SBool true
  | FOVColors => SList ["blue"; "red"]
  end.
Definition style_params (s : style) : params :=
  match s with
  | Publication => upd (upd (upd default_params RayColors (SList ["0.4"; "0.2"; "0.6"]))
                          ImageColor (SText "0.3")) ObjectColor (SText "0.1")
  | _ => default_params
  end.

(** figure.py 25-46: designParams is one of the dictionaries of [styles] itself *)
Record figure := mkFig { f_styles : style -> params; f_current : style }.
Definition Figure_new : figure := mkFig style_params Default.
Definition designParams (f : figure) : params := f_styles f (f_current f).
Definition set_param (f : figure) (k : key) (v : setting) : figure :=
  mkFig (fun s => if styleb s (f_current f) then upd (f_styles f s) k v else f_styles f s) (f_current f).

(** figure.py 59-64: the keyword arguments of design *)
Definition design_key (k : key) : bool :=
  match k with
  | OnlyPrincipalAndAxialRays | LimitObjectToFieldOfView | RemoveBlockedRaysCompletely | ShowFOV => false
  | _ => true
  end.
(** figure.py 59-107: [kw] holds the keyword arguments that are not None *)
Definition fig_design (f : figure) (name : option string) (kw : list (key * setting)) : res figure :=
  if negb (forallb (fun kv => design_key (fst kv)) kw) then Err TypeError
  else
    f <- match name with
         | None => Ok f
         | Some s => match style_named s with
                     | Some st => Ok (mkFig (f_styles f) st)
                     | None => Err ValueError
                     end
         end;;
    Ok (fold_left (fun f kv => set_param f (fst kv) (snd kv)) kw f).

(** the attribute [design] of a path: the method of its figure, or a dictionary *)
Inductive designer := Method | Dict (p : params).

(** imagingpath.py 86-106 *)
Record path := mkPath { p_height : T; p_fan : option T; p_fig : figure; p_design : designer }.
Definition ImagingPath_new : path := mkPath (nofZ 10) None Figure_new Method.

(** path.design(...): calling a dictionary raises TypeError *)
Definition design (p : path) (name : option string) (kw : list (key * setting)) : res path :=
  match p_design p with
  | Dict _ => Err TypeError
  | Method => f <- fig_design (p_fig p) name kw;; Ok (mkPath (p_height p) (p_fan p) f Method)
  end.

Definition path_param (p : path) (k : key) (v : setting) : path :=
  mkPath (p_height p) (p_fan p) (set_param (p_fig p) k v) (p_design p).
Definition flag (p : path) (k : key) : bool := truthy (designParams (p_fig p) k).

(** imagingpath.py 115-122 *)
Definition set_objectHeight (p : path) (h : T) : res path :=
  if nltb h c0 then Err ValueError
  else Ok (path_param (mkPath h (p_fan p) (p_fig p) (p_design p)) LimitObjectToFieldOfView (SBool false)).

(** the sets of rays given to display *)
Inductive shown := Obj (diameter : T) | Lamp (id : nat) | Other (id : nat).
Definition is_obj (s : shown) : bool := match s with Obj _ => true | _ => false end.
Definition is_lamp (s : shown) : bool := match s with Lamp _ => true | _ => false end.

(** what a figure shows: its parameters, its rays, and whether the groups "Principal/axial rays"
    and "Object/Image" are visible *)
Record drawn := mkDrawn { d_params : params; d_rays : list shown; d_principal : bool; d_object : bool }.

Record args := mkArgs { a_rays : option shown; a_list : option (list shown); a_remove : bool;
                        a_only : option bool; a_limit : option bool }.

(** the optical system, the number of steps allowed in the field search, and the displayRange of the
    figure *)
Variables (e : elem) (fuel : nat) (drange : res T) (pytan : T -> T).

(** figure.py 113-139: the state is changed even if an exception is raised.  The note and the
    warnings are left out; imageSize has no effect besides its exceptions *)
Definition applyDesign (p : path) : option exn * path :=
  let limit :=
    if flag p LimitObjectToFieldOfView then
      match fieldOfView fuel e with
      | Err x => (Some x, p)
      | Ok fov =>
          let after :=
            if negb (neqb fov ninf) then set_objectHeight p fov
            else Ok (path_param p LimitObjectToFieldOfView (SBool false)) in
          match after with
          | Err x => (Some x, p)
          | Ok p' => match imageSize fuel e false (p_height p') with
                     | Err x => (Some x, p')
                     | Ok _ => (None, p')
                     end
          end
      end
    else (None, p) in
  match limit with
  | (Some x, p) => (Some x, p)
  | (None, p) =>
      if flag p OnlyPrincipalAndAxialRays then
        match apertureStop e with
        | Err x => (Some x, p)
        | Ok s =>
            match st_z s with
            | None => (None, path_param p OnlyPrincipalAndAxialRays (SBool false))
            | Some _ =>
                match principalRay fuel e with
                | Err x => (Some x, p)
                | Ok None => (None, path_param p OnlyPrincipalAndAxialRays (SBool false))
                | Ok (Some _) => (None, p)
                end
            end
        end
      else (None, p)
  end.

(** imagingpath.py 994-997: the fan angle of the default object *)
Definition default_fan (p : path) : res T :=
  match p_fan p with
  | Some a => Ok a
  | None =>
      d <- drange;;
      a <- pdiv d c2;; b <- pdiv a (mL (emat e));; c <- pdiv b (nofZ 5);;
      Ok (pytan c)
  end.

(** figure.py 221-240 and 551-562: the flags while the rays are drawn *)
Definition figure_flags (p : path) (rays : list shown) : path :=
  let p := if existsb is_lamp rays then path_param p ShowObjectImage (SBool false) else p in
  if flag p ShowFOV then path_param p ShowObjectImage (SBool false) else p.

(** figure.py 148-168: the special rays that are computed while drawing *)
Definition special_rays : res unit :=
  s <- apertureStop e;;
  match st_z s with
  | None => Ok tt
  | Some _ => _ <- principalRay fuel e;; _ <- axialRay e;; Ok tt
  end.

(** imagingpath.py 952-1008.  Result: the exception, the path, the list given by the caller after the
    call, and the figure *)
Definition display (p : path) (a : args) : option exn * path * list shown * option drawn :=
  let p := match a_limit a with Some b => path_param p LimitObjectToFieldOfView (SBool b) | None => p end in
  let p := match a_only a with Some b => path_param p OnlyPrincipalAndAxialRays (SBool b) | None => p end in
  let p := path_param p RemoveBlockedRaysCompletely (SBool (a_remove a)) in
  let l := match a_list a with Some l => l | None => [] end in
  let l := match a_rays a with Some r => l ++ [r] | None => l end in
  match applyDesign p with
  | (Some x, p) => (Some x, p, l, None)
  | (None, p) =>
      let empty := match l with [] => true | _ => false end in
      let p := if empty
               then path_param p ShowFOV (SBool (flag p OnlyPrincipalAndAxialRays))
               else p in
      match (if empty && flag p OnlyPrincipalAndAxialRays
             then r <- principalRay fuel e;; match r with None => _ <- axialRay e;; Ok tt | Some _ => Ok tt end
             else Ok tt) with
      | Err x => (Some x, p, l, None)
      | Ok _ =>
          match (if existsb is_obj l then Ok (l, path_param p ShowObjectImage (SBool true))
                 else a <- default_fan p;; Ok (l ++ [Obj (p_height p)], p)) with
          | Err x => (Some x, p, l, None)
          | Ok (l, p) =>
              match special_rays with
              | Err x => (Some x, p, l, None)
              | Ok _ =>
                  let p := figure_flags p l in
                  let d := mkDrawn (designParams (p_fig p)) l (flag p ShowFOV) (flag p ShowObjectImage) in
                  (None, mkPath (p_height p) (p_fan p) Figure_new (Dict (designParams (p_fig p))), l, Some d)
              end
          end
      end
  end.

(** imagingpath.py 1036-1062: displayWithObject; [fan] is the argument fanAngle *)
Definition displayWithObject (p : path) (diameter : T) (fan : option T) (remove : bool)
    : option exn * path * list shown * option drawn :=
  let p := mkPath diameter (p_fan p) (p_fig p) (p_design p) in
  match default_fan (mkPath diameter fan (p_fig p) (p_design p)) with
  | Err x => (Some x, p, [], None)
  | Ok _ => display p (mkArgs (Some (Obj diameter)) None remove (Some false) (Some false))
  end.

(** ** Histories *)
Inductive op := ODesign (name : option string) (kw : list (key * setting)) | OHeight (h : T) | ODisplay (a : args).
Definition step (p : path) (o : op) : path :=
  match o with
  | ODesign name kw => match design p name kw with Ok p' => p' | Err _ => p end
  | OHeight h => match set_objectHeight p h with Ok p' => p' | Err _ => p end
  | ODisplay a => snd (fst (fst (display p a)))
  end.
Definition run (os : list op) : path := fold_left step os ImagingPath_new.
End Model.
