(** Reading the text of a Zemax file: numbers, surfaces, units and wavelengths. *)
From Coq Require Import ZArith List Bool String Ascii Lia Reals Lra.
From Verif Require Import Base Nums Optics Materials MaterialsProofs Zemax ZemaxProofs.
Import ListNotations.
Open Scope list_scope.

(** ** Numbers *)
(** the digits as a word *)
Definition digit_char (d : nat) : ascii := ascii_of_nat (48 + d).
Fixpoint numeral (ds : list nat) (rest : string) : string :=
  match ds with [] => rest | d :: t => String (digit_char d) (numeral t rest) end.
Definition is_digit (d : nat) : Prop := (d < 10)%nat.
(** the number they write *)
Definition number (ds : list nat) : Z := fold_left (fun v d => (10 * v + Z.of_nat d)%Z) ds 0%Z.

Lemma digit_of_char d : is_digit d -> digit (digit_char d) = Some (Z.of_nat d) .
Proof.
  intros H. unfold is_digit in H. do 10 (destruct d as [|d]; [reflexivity|]). lia.
Qed.
Definition no_digit (s : string) : Prop :=
  match s with EmptyString => True | String a _ => digit a = None end.
Lemma digits_numeral ds rest v k : Forall is_digit ds -> no_digit rest ->
  digits (numeral ds rest) v k =
    (fold_left (fun v d => (10 * v + Z.of_nat d)%Z) ds v, (k + Z.of_nat (List.length ds))%Z, rest).
Proof.
  intros H Hr. revert v k. induction H as [|d ds Hd H IH]; intros v k.
  - cbn [numeral fold_left List.length]. rewrite Z.add_0_r. destruct rest as [|a t]; [reflexivity|].
    cbn [digits]. cbn in Hr. now rewrite Hr.
  - cbn [numeral digits fold_left List.length]. rewrite (digit_of_char _ Hd), IH. f_equal. f_equal. lia.
Qed.

(** sign of a number as written *)
Inductive sgn := Plain | Plus | Minus.
Definition sgn_word (g : sgn) (s : string) : string :=
  match g with Plain => s | Plus => String "+" s | Minus => String "-" s end.
Definition sgn_val (g : sgn) : Z := match g with Minus => -1 | _ => 1 end.

Lemma numeral_sign ds rest : Forall is_digit ds -> ds <> [] -> sign (numeral ds rest) = (1%Z, numeral ds rest).
Proof.
  intros H Hn. destruct H as [|d ds Hd H]; [congruence|]. cbn [numeral sign].
  unfold is_digit in Hd. do 10 (destruct d as [|d]; [reflexivity|]). lia.
Qed.
Lemma py_int_numeral g ds : Forall is_digit ds -> ds <> [] ->
  py_int (sgn_word g (numeral ds "")) = Ok (sgn_val g * number ds)%Z.
Proof.
  intros H Hn. unfold py_int.
  assert (sign (sgn_word g (numeral ds "")) = (sgn_val g, numeral ds "")) as ->.
  { destruct g; [apply numeral_sign; auto|reflexivity|reflexivity]. }
  rewrite digits_numeral by (auto; exact I). destruct ds as [|d ds]; [congruence|].
  cbn [List.length]. rewrite (proj2 (Z.eqb_neq _ _)) by lia. reflexivity.
Qed.

(** a number with an optional fraction and an optional exponent *)
Record numword := mkNum { nw_sign : sgn; nw_int : list nat; nw_frac : option (list nat); nw_exp : option (sgn * list nat) }.
Definition exp_word (e : option (sgn * list nat)) : string :=
  match e with None => "" | Some (g, ds) => String "E" (sgn_word g (numeral ds "")) end.
Definition num_word (n : numword) : string :=
  sgn_word (nw_sign n)
    (numeral (nw_int n) (match nw_frac n with None => exp_word (nw_exp n) | Some fs => String "." (numeral fs (exp_word (nw_exp n))) end)).
Definition frac_digits (n : numword) : list nat := match nw_frac n with None => [] | Some fs => fs end.
Definition good_num (n : numword) : Prop :=
  Forall is_digit (nw_int n) /\ Forall is_digit (frac_digits n) /\ nw_int n ++ frac_digits n <> [] /\
  match nw_exp n with None => True | Some (_, ds) => Forall is_digit ds /\ ds <> [] end.
(** its value *)
Definition num_val (n : numword) : R :=
  (IZR (sgn_val (nw_sign n) * number (nw_int n ++ frac_digits n)) *
   powerRZ 10 ((match nw_exp n with None => 0 | Some (g, ds) => sgn_val g * number ds end) - Z.of_nat (List.length (frac_digits n))))%R.

(** *** lower case *)
Lemma lower_numeral ds rest : Forall is_digit ds -> lower (numeral ds rest) = numeral ds (lower rest).
Proof.
  intros H. induction H as [|d ds Hd H IH]; [reflexivity|]. cbn [numeral lower]. rewrite IH. f_equal.
  unfold is_digit in Hd. do 10 (destruct d as [|d]; [reflexivity|]). lia.
Qed.
Lemma lower_sgn g s : lower (sgn_word g s) = sgn_word g (lower s).
Proof. now destruct g. Qed.
Definition exp_low (e : option (sgn * list nat)) : string :=
  match e with None => "" | Some (g, ds) => String "e" (sgn_word g (numeral ds "")) end.
Lemma lower_exp e : match e with None => True | Some (_, ds) => Forall is_digit ds /\ ds <> [] end ->
  lower (exp_word e) = exp_low e.
Proof.
  destruct e as [[g ds]|]; [|reflexivity]. intros [H _]. cbn [exp_word exp_low lower].
  rewrite lower_sgn, lower_numeral by auto. reflexivity.
Qed.

Lemma scaled_xr m e : @scaled XR _ m e = Fin (IZR m * powerRZ 10 e).
Proof.
  unfold scaled. destruct (e <? 0)%Z eqn:E.
  - apply Z.ltb_lt in E. rewrite ndec_xr by lia. f_equal. unfold Rdiv. f_equal.
    replace e with (- (- e))%Z at 2 by lia. rewrite powerRZ_neg' by lra. f_equal.
    rewrite <- (Z2Nat.id (- e)) by lia. rewrite <- pow_IZR, <- pow_powerRZ. reflexivity.
  - apply Z.ltb_ge in E. change (Fin (IZR (m * 10 ^ e)) = Fin (IZR m * powerRZ 10 e)). f_equal.
    rewrite mult_IZR. f_equal. rewrite <- (Z2Nat.id e) by lia. rewrite <- pow_IZR, <- pow_powerRZ. reflexivity.
Qed.

Lemma exp_no_digit e : no_digit (exp_low e).
Proof. destruct e as [[g ds]|]; [reflexivity|exact I]. Qed.
Lemma no_inf (ds : list nat) rest w : Forall is_digit ds -> ds <> [] ->
  (match w with String a _ => digit a = None | EmptyString => True end) -> String.eqb (numeral ds rest) w = false.
Proof.
  intros H Hn Hw. destruct H as [|d ds Hd H]; [congruence|]. cbn [numeral].
  destruct w as [|a w]; [reflexivity|]. cbn [String.eqb]. destruct (Ascii.eqb (digit_char d) a) eqn:E; [|reflexivity].
  apply Ascii.eqb_eq in E. subst. rewrite digit_of_char in Hw by auto. discriminate.
Qed.

Theorem float_of_word (n : numword) : good_num n -> @py_float XR _ (num_word n) = Ok (Fin (num_val n)).
Proof.
  destruct n as [g ds fo ex]. unfold good_num, num_word, num_val, frac_digits. cbn [nw_sign nw_int nw_frac nw_exp].
  intros (Hd & Hf & Hne & He). unfold py_float. rewrite lower_sgn, lower_numeral by auto.
  set (tailw := match fo with None => exp_low ex | Some fs => String "." (numeral fs (exp_low ex)) end).
  assert (lower (match fo with None => exp_word ex | Some fs => String "." (numeral fs (exp_word ex)) end) = tailw) as ->.
  { unfold tailw. destruct fo as [fs|]; [|now apply lower_exp]. cbn [lower]. rewrite lower_numeral, lower_exp by auto. reflexivity. }
  set (body := numeral ds tailw).
  assert (ds <> [] \/ exists fs, ds = [] /\ fo = Some fs /\ fs <> []) as Hc.
  { destruct ds; [right|now left]. destruct fo as [fs|]; [|now cbn in Hne]. exists fs. auto. }
  assert (sign (sgn_word g body) = (sgn_val g, body)) as ->.
  { destruct g; [|reflexivity|reflexivity]. cbn [sgn_word sgn_val]. unfold body.
    destruct Hc as [Hc|(fs & -> & -> & Hc)]; [apply numeral_sign; auto|]. unfold tailw. reflexivity. }
  assert (String.eqb body "inf" = false /\ String.eqb body "infinity" = false /\ String.eqb body "nan" = false) as (-> & -> & ->).
  { unfold body. destruct Hc as [Hc|(fs & -> & -> & Hc)].
    - split; [|split]; apply no_inf; auto; reflexivity.
    - unfold tailw. cbn [numeral]. auto. }
  cbn [orb]. unfold body. rewrite digits_numeral; [|auto|].
  2:{ unfold tailw. destruct fo; [reflexivity|apply exp_no_digit]. }
  rewrite Z.add_0_l. fold (number ds).
  set (fs := match fo with None => [] | Some fs => fs end) in *.
  assert (match tailw with
          | EmptyString => (number ds, 0%Z, tailw)
          | String a t => if Ascii.eqb a "." then digits t (number ds) 0 else (number ds, 0%Z, tailw)
          end = (number (ds ++ fs), Z.of_nat (List.length fs), exp_low ex)) as ->.
  { unfold tailw, fs. destruct fo as [fs0|].
    - cbn [Ascii.eqb]. change (Ascii.eqb "." ".") with true. cbn match.
      rewrite digits_numeral by (auto; apply exp_no_digit). rewrite Z.add_0_l. unfold number. now rewrite fold_left_app.
    - rewrite app_nil_r. destruct ex as [[g' es]|]; reflexivity. }
  rewrite (proj2 (Z.eqb_neq _ _)).
  2:{ intros E. apply Hne. fold fs. destruct ds; [|cbn [List.length] in E; lia].
      destruct fs; [reflexivity|cbn [List.length] in E; lia]. }
  destruct ex as [[g' es]|]; cbn [exp_low].
  - change (Ascii.eqb "e" "e") with true. cbn match. destruct He as [He1 He2].
    rewrite py_int_numeral by auto. cbn [bind]. rewrite scaled_xr. reflexivity.
  - rewrite scaled_xr. reflexivity.
Qed.

(** ** A surface *)
(** the last line with this keyword *)
Definition says (b : list line) (key : string) (p : list string) : Prop :=
  exists b1 b2, b = b1 ++ mkLine key p :: b2 /\ Forall (fun l => l_name l <> key) b2.
Definition silent (b : list line) (key : string) : Prop := Forall (fun l => l_name l <> key) b.

Lemma lookup_silent b key : silent b key -> lookup b key = None.
Proof.
  induction 1 as [|l b H _ IH]; [reflexivity|]. cbn [lookup]. rewrite IH.
  now rewrite (proj2 (String.eqb_neq _ _) H).
Qed.
Lemma lookup_says b key p : says b key p -> lookup b key = Some p.
Proof.
  intros (b1 & b2 & -> & H). induction b1 as [|l b1 IH]; cbn [app lookup].
  - rewrite (lookup_silent _ _ H). cbn [l_name l_par]. now rewrite String.eqb_refl.
  - now rewrite IH.
Qed.

(** what the lines of a surface mean with lengths in units of [f] *)
Definition radius_of (f c : R) (r : XR) : Prop := (c = 0%R /\ r = PInf) \/ (c <> 0%R /\ r = Fin (f / c)).
Definition diameter_of (f : R) (b : list line) (d : XR) : Prop :=
  (silent b "DIAM" /\ d = PInf) \/
  exists w p h, says b "DIAM" (w :: p) /\ py_float w = Ok (Fin h) /\ d = Fin (2 * h * f).
Definition glass_of (b : list line) (m : string * dispersion XR) : Prop :=
  (silent b "GLAS" /\ m = ("Air"%string, DAir)) \/
  exists w p, says b "GLAS" (w :: p) /\ findByName (Some w) = Ok m.
Definition spacing_of (f : R) (b : list line) (d : XR) : Prop :=
  exists w p, says b "DISZ" (w :: p) /\
    ((exists t, py_float w = Ok (Fin t) /\ d = Fin (t * f)) \/ (py_float w = Ok PInf /\ d = PInf)).
Record means (f : R) (b : list line) (s : surface XR) : Prop := {
  means_R : exists w p c, says b "CURV" (w :: p) /\ py_float w = Ok (Fin c) /\ radius_of f c (sf_R s);
  means_diam : diameter_of f b (sf_diam s);
  means_mat : glass_of b (sf_mat s);
  means_spacing : spacing_of f b (sf_spacing s) }.

Lemma surface_read (z : reader XR) i b f s : (0 < f)%R -> z_factor z = Fin f ->
  rawSurfaceInfo (z_lines z) i = Ok (Some b) -> means f b s -> surfaceInfo z i = Ok (Some s).
Proof.
  intros Hf Ef Hb [(cw & cp & c & HC & Ec & HR) HD HM (sw & sp & HS & Es)]. destruct s as [r d m sc].
  cbn [sf_R sf_diam sf_mat sf_spacing] in *.
  assert (exists x, py_float sw = Ok x /\ nmul x (z_factor z) = sc) as (x & Ex & Es').
  { rewrite Ef. destruct Es as [(t & E1 & ->)|(E1 & ->)]; eexists; (split; [exact E1|]); [reflexivity|].
    cbn. unfold xsgninf. destruct (Rlt_dec 0 f); [|lra]. destruct (Req_EM_T f 0); [lra|]. reflexivity. }
  rewrite <- Es'. apply (surface_info z i b m cw cp (Fin c) r d sw sp x); auto.
  - destruct HM as [(H & ->)|(w & p & H & E)].
    + now rewrite (lookup_silent _ _ H).
    + rewrite (lookup_says _ _ _ H). cbn [first_word bind]. exact E.
  - now apply lookup_says.
  - change c0 with (Fin 0). rewrite Ef. destruct HR as [(-> & ->)|(Hc & ->)]; cbn [neqb NumXR xeqb].
    + rewrite Reqb_refl. reflexivity.
    + rewrite Reqb_neq by auto. unfold pdiv. change c1 with (Fin 1). change c0 with (Fin 0). cbn [neqb NumXR xeqb]. rewrite Reqb_neq by auto.
      cbn. destruct (Req_EM_T c 0); [lra|]. cbn. apply (f_equal (fun x => Ok (Fin x))). now field.
  - rewrite Ef. destruct HD as [(H & ->)|(w & p & h & H & E & ->)].
    + now rewrite (lookup_silent _ _ H).
    + rewrite (lookup_says _ _ _ H). cbn [first_word bind]. rewrite E. cbn. reflexivity.
  - now apply lookup_says.
Qed.

(** ** All surfaces *)
(** the lines of surfaces, each with its number and what follows *)
Definition section (x : string * list string * list line) : list line :=
  mkLine "SURF" (fst (fst x) :: snd (fst x)) :: snd x.
Definition no_surf (b : list line) : Prop := Forall (fun l => l_name l <> "SURF"%string) b.
Fixpoint numbered (i : Z) (l : list (string * list string * list line)) : Prop :=
  match l with [] => True | x :: t => py_int (fst (fst x)) = Ok i /\ no_surf (snd x) /\ numbered (i + 1)%Z t end.

Lemma raw_skip hd ls i : no_surf hd -> rawSurfaceInfo (hd ++ ls) i = rawSurfaceInfo ls i.
Proof.
  induction 1 as [|l hd H _ IH]; [reflexivity|]. cbn [app rawSurfaceInfo].
  now rewrite (proj2 (String.eqb_neq _ _) H).
Qed.
Lemma block_body b rest : no_surf b -> block (b ++ flat_map section rest) = b.
Proof.
  induction 1 as [|l b H _ IH].
  - destruct rest as [|x r]; reflexivity.
  - cbn [app block]. rewrite (proj2 (String.eqb_neq _ _) H). now rewrite IH.
Qed.
Lemma raw_first y ls i : rawSurfaceInfo (section y ++ ls) i =
  (j <- py_int (fst (fst y));; if (j =? i)%Z then Ok (Some (block (snd y ++ ls))) else rawSurfaceInfo (snd y ++ ls) i).
Proof. reflexivity. Qed.
Lemma raw_section l : forall k i x, numbered k l -> nth_error l i = Some x ->
  rawSurfaceInfo (flat_map section l) (k + Z.of_nat i) = Ok (Some (snd x)).
Proof.
  induction l as [|y l IH]; intros k i x H E; [destruct i; discriminate|]. destruct H as (H1 & H2 & H3).
  cbn [flat_map]. rewrite raw_first, H1. cbn [bind]. destruct i as [|i].
  - injection E as <-. rewrite Z.add_0_r, Z.eqb_refl. now rewrite block_body.
  - rewrite (proj2 (Z.eqb_neq _ _)) by lia. rewrite raw_skip by auto.
    replace (k + Z.of_nat (S i))%Z with (k + 1 + Z.of_nat i)%Z by lia. apply IH; auto.
Qed.
Lemma raw_none l : forall k i, numbered k l -> (k + Z.of_nat (List.length l) <= i)%Z ->
  rawSurfaceInfo (flat_map section l) i = Ok None.
Proof.
  induction l as [|y l IH]; intros k i H Hi; [reflexivity|]. destruct H as (H1 & H2 & H3). cbn [List.length] in Hi.
  cbn [flat_map]. rewrite raw_first, H1. cbn [bind].
  rewrite (proj2 (Z.eqb_neq _ _)) by lia. rewrite raw_skip by auto. apply (IH (k + 1)%Z); auto. lia.
Qed.

Lemma surfaces_loop_read (z : reader XR) f hd l : (0 < f)%R -> z_factor z = Fin f ->
  z_lines z = hd ++ flat_map section l -> no_surf hd -> numbered 0 l ->
  forall done rest ss fuel, l = done ++ rest -> Forall2 (fun x s => means f (snd x) s) rest ss ->
  (List.length rest < fuel)%nat -> surfaces_loop z fuel (Z.of_nat (List.length done)) = Ok ss.
Proof.
  intros Hf Ef El Hh Hn done rest ss fuel E F. revert done fuel E.
  induction F as [|x s rest ss M F IH]; intros done fuel E Hfu; (destruct fuel as [|fuel]; [lia|]); cbn [surfaces_loop].
  - assert (surfaceInfo z (Z.of_nat (List.length done)) = Ok None) as ->; [|reflexivity].
    unfold surfaceInfo. rewrite El, raw_skip by auto. rewrite (raw_none l 0); auto. rewrite E, app_nil_r. lia.
  - rewrite (surface_read z _ (snd x) f s); auto.
    + cbn [bind]. replace (Z.of_nat (List.length done) + 1)%Z with (Z.of_nat (List.length (done ++ [x])))
        by (rewrite app_length; cbn [List.length]; lia).
      rewrite (IH (done ++ [x])); [reflexivity|now rewrite <- app_assoc|cbn [List.length] in Hfu; lia].
    + rewrite El, raw_skip by auto.
      replace (Z.of_nat (List.length done)) with (0 + Z.of_nat (List.length done))%Z by lia.
      apply raw_section; auto. rewrite E, nth_error_app2 by lia. now rewrite Nat.sub_diag.
Qed.
Theorem surfaces_read (z : reader XR) f hd l ss : (0 < f)%R -> z_factor z = Fin f ->
  z_lines z = hd ++ flat_map section l -> no_surf hd -> numbered 0 l -> (Z.of_nat (List.length l) < 1000)%Z ->
  Forall2 (fun x s => means f (snd x) s) l ss -> surfaces z = Ok ss.
Proof.
  intros Hf Ef El Hh Hn Hl F.
  exact (surfaces_loop_read z f hd l Hf Ef El Hh Hn [] l ss (Z.to_nat 1000) eq_refl F ltac:(lia)).
Qed.

(** ** Units and wavelengths *)
Lemma values_filter ls key index : forall ws,
  Forall2 (fun l w => nth_error (l_par l) index = Some w) (filter (fun l => areTheSame (l_name l) key) ls) ws ->
  values ls key index = Ok ws.
Proof.
  induction ls as [|l ls IH]; intros ws H; cbn [filter values] in *.
  - inversion H. reflexivity.
  - destruct (areTheSame (l_name l) key); [|now apply IH]. inversion H as [|? ? ? ? E F]; subst. rewrite E.
    rewrite (IH _ F). reflexivity.
Qed.
Definition named (key : string) (ls : list line) : list line := filter (fun l => areTheSame (l_name l) key) ls.

Lemma Forall2_len {A B} (P : A -> B -> Prop) l l' : Forall2 P l l' -> List.length l = List.length l'.
Proof. induction 1; cbn; auto. Qed.
Definition last_not_055 (xs : list R) : Prop := exists a x, xs = a ++ [x] /\ x <> (55/100)%R.
Lemma pop_055_ok l xs : Forall2 (fun w x => py_float w = Ok (Fin x)) l xs ->
  forall k, last_not_055 k -> forall n, xs = k ++ repeat (55/100)%R n ->
  exists l', pop_055 (T:=XR) (rev l) = Ok (rev l') /\ Forall2 (fun w x => py_float w = Ok (Fin x)) l' k.
Proof.
  intros F k Hk n. revert l xs F. induction n as [|n IH]; intros l xs F E.
  - cbn in E. rewrite app_nil_r in E. subst. exists l. split; [|auto]. destruct Hk as (a & x & -> & Hx).
    apply Forall2_app_inv_r in F as (l1 & l2 & F1 & F2 & ->). inversion F2 as [|w ? ? ? Hw F3]; subst. inversion F3; subst.
    rewrite rev_app_distr. cbn [rev app pop_055]. rewrite Hw. cbn [bind]. rewrite ndec_xr by lia.
    cbn [neqb NumXR xeqb]. rewrite Reqb_neq; [reflexivity|]. exact Hx.
  - cbn [repeat] in E. rewrite repeat_cons, app_assoc in E. subst. apply Forall2_app_inv_r in F as (l1 & l2 & F1 & F2 & ->).
    inversion F2 as [|w ? ? ? Hw F3]; subst. inversion F3; subst.
    destruct (IH _ _ F1 eq_refl) as (l' & E' & F'). exists l'. split; [|auto].
    rewrite rev_app_distr. cbn [rev app pop_055]. rewrite Hw. cbn [bind]. rewrite ndec_xr by lia.
    cbn [neqb NumXR xeqb]. rewrite Reqb_refl. exact E'.
Qed.
Lemma floats_ok l xs : Forall2 (fun w x => py_float w = Ok (Fin x)) l xs -> @floats XR _ l = Ok (map Fin xs).
Proof. induction 1 as [|w x l xs H _ IH]; [reflexivity|]. cbn [floats map]. now rewrite H, IH. Qed.

Definition second_word (l : line) (x : R) : Prop := exists a w p, l_par l = a :: w :: p /\ py_float w = Ok (Fin x).
Lemma second_words ls xs : Forall2 second_word ls xs ->
  exists ws, Forall2 (fun l w => nth_error (l_par l) 1 = Some w) ls ws /\
             Forall2 (fun w x => py_float w = Ok (Fin x)) ws xs.
Proof.
  induction 1 as [|l x ls xs (a & w & p & E1 & E2) _ (ws & IH1 & IH2)]; [exists []; auto|].
  exists (w :: ws). split; constructor; auto. now rewrite E1.
Qed.
Lemma wavelengths_one ls x : (exists l, named "WAVM" ls = [l] /\ second_word l x) ->
  designWavelengths ls = Ok [Fin x].
Proof.
  intros (l & E & H). destruct (second_words [l] [x]) as (ws & F1 & F2); [auto|].
  unfold designWavelengths, value_of. rewrite (values_filter ls "WAVM" 1 ws) by (unfold named in E; now rewrite E).
  inversion F1 as [|? ? ? ? _ F3]; subst. inversion F3; subst. inversion F2 as [|? ? ? ? Hw _]; subst.
  cbn [bind]. now rewrite Hw.
Qed.
Lemma wavelengths_many ls k n : last_not_055 k -> (2 <= List.length (named "WAVM" ls))%nat ->
  Forall2 second_word (named "WAVM" ls) (k ++ repeat (55/100)%R n) ->
  designWavelengths ls = Ok (map Fin k).
Proof.
  intros Hk Hl F. destruct (second_words _ _ F) as (ws & F1 & F2).
  unfold designWavelengths, value_of. rewrite (values_filter ls "WAVM" 1 ws) by auto. cbn [bind].
  apply Forall2_len in F1. destruct ws as [|w1 [|w2 ws]]; try (cbn [List.length] in F1; lia).
  destruct (pop_055_ok _ _ F2 k Hk n eq_refl) as (l' & -> & F'). cbn [bind]. rewrite rev_involutive. now apply floats_ok.
Qed.

Definition unit_factor (u : string) : R := if areTheSame "IN" u then 254/10 else 1.
Lemma unit_read ls u p l : named "UNIT" ls = [l] -> l_par l = u :: p ->
  (v <- value_of ls "UNIT" 0;;
   match v with One w => Ok (if areTheSame "IN" w then ndec 254 1 else c1) | Many _ => Err AttributeError end)
  = Ok (Fin (unit_factor u)).
Proof.
  intros E1 E2. unfold value_of. rewrite (values_filter ls "UNIT" 0 [u]).
  - cbn [bind]. unfold unit_factor. destruct (areTheSame "IN" u); [|reflexivity]. now rewrite ndec_xr by lia.
  - unfold named in E1. rewrite E1. constructor; [now rewrite E2|constructor].
Qed.
(** the wavelengths of a file *)
Definition wavelengths_of (ls : list line) (k : list R) : Prop :=
  (exists l x, named "WAVM" ls = [l] /\ second_word l x /\ k = [x]) \/
  ((2 <= List.length (named "WAVM" ls))%nat /\ last_not_055 k /\
   exists n, Forall2 second_word (named "WAVM" ls) (k ++ repeat (55/100)%R n)).
Theorem reader_ok ls u p l k w : named "UNIT" ls = [l] -> l_par l = u :: p -> wavelengths_of ls k ->
  nth_error k (Nat.div (List.length k) 2) = Some w ->
  ZMXReader_init ls = Ok (mkReader ls (Fin (unit_factor u)) (Fin w)).
Proof.
  intros E1 E2 HW Ew. unfold ZMXReader_init.
  pose proof (unit_read _ _ _ _ E1 E2) as U. destruct (value_of ls "UNIT" 0) as [v|]; [|discriminate]. cbn [bind] in *.
  rewrite U. cbn [bind].
  assert (designWavelengths ls = Ok (map Fin k)) as ->.
  { destruct HW as [(l' & x & H1 & H2 & ->)|(H1 & H2 & n & H3)].
    - cbn [map]. apply wavelengths_one. eauto.
    - eapply wavelengths_many; eauto. }
  cbn [bind]. rewrite map_length, nth_error_map, Ew. reflexivity.
Qed.

Theorem file_read hd l u p ul k w ss :
  let ls := hd ++ flat_map section l in
  no_surf hd -> numbered 0 l -> (Z.of_nat (List.length l) < 1000)%Z ->
  named "UNIT" ls = [ul] -> l_par ul = u :: p -> wavelengths_of ls k ->
  nth_error k (Nat.div (List.length k) 2) = Some w ->
  Forall2 (fun x s => means (unit_factor u) (snd x) s) l ss ->
  exists z, ZMXReader_init ls = Ok z /\ z_wavelength z = Fin w /\ surfaces z = Ok ss.
Proof.
  intros ls Hh Hn Hl E1 E2 HW Ew F. exists (mkReader ls (Fin (unit_factor u)) (Fin w)).
  split; [eapply reader_ok; eauto|]. split; [reflexivity|].
  eapply surfaces_read; eauto; try reflexivity. unfold unit_factor. destruct (areTheSame _ _); lra.
Qed.

(** ** A file in inches *)
Open Scope string_scope.
Definition inch_head : list line :=
  [words "VERS" ["90812"]; words "UNIT" ["IN"; "X"; "W"]; words "WAVM" ["1"; "0.4861"; "1"];
   words "WAVM" ["2"; "0.5876"; "1"]; words "WAVM" ["3"; "0.6563"; "1"]; words "WAVM" ["4"; "5.5E-1"; "1"]].
Definition inch_body : list (string * list string * list line) :=
  [("0", [], [words "CURV" ["0.0"]; words "DISZ" ["INFINITY"]]);
   ("1", [], [words "COMM" ["front"]; words "CURV" ["5.0E-1"]; words "DISZ" ["0.2"]; words "GLAS" ["N-BK7"]; words "DIAM" ["0.5"]]);
   ("2", [], [words "CURV" ["-.5"]; words "DISZ" ["3"]; words "DIAM" ["+0.5"]])].
Definition inch_surfaces : list (surface XR) :=
  [mkSurface PInf PInf ("Air", DAir) PInf;
   mkSurface (Fin (254/10 / (5/10))) (Fin (2 * (5/10) * (254/10))) bk7 (Fin (2/10 * (254/10)));
   mkSurface (Fin (254/10 / (-5/10))) (Fin (2 * (5/10) * (254/10))) ("Air", DAir) (Fin (3 * (254/10)))].
Ltac lit m k := match goal with |- @py_float XR _ ?w = _ =>
  change (@py_float XR _ w) with (Ok (@ndec XR _ m k)); rewrite ndec_xr by lia; apply (f_equal (fun x => Ok (Fin x))); lra end.
Ltac absent := unfold silent; repeat (first [apply Forall_nil | apply Forall_cons; [cbn; discriminate|]]).
Ltac at_line b1 b2 := exists b1, b2; split; [reflexivity|absent].
Lemma inch_means : Forall2 (fun x s => means (254/10) (snd x) s) inch_body inch_surfaces.
Proof.
  unfold inch_body, inch_surfaces. constructor; [|constructor; [|constructor; [|constructor]]];
    constructor; cbn [snd sf_R sf_diam sf_mat sf_spacing].
  - exists "0.0", [], 0%R. split; [at_line (@nil line) [words "DISZ" ["INFINITY"]]|]. split; [lit 0%Z 1%Z|left; auto].
  - left. split; [absent|reflexivity].
  - left. split; [absent|reflexivity].
  - exists "INFINITY", []. split; [at_line [words "CURV" ["0.0"]] (@nil line)|]. right. auto.
  - exists "5.0E-1", [], (5/10)%R. split; [at_line [words "COMM" ["front"]] [words "DISZ" ["0.2"]; words "GLAS" ["N-BK7"]; words "DIAM" ["0.5"]]|].
    split; [lit 50%Z 2%Z|]. right. split; [lra|reflexivity].
  - right. exists "0.5", [], (5/10)%R.
    split; [at_line [words "COMM" ["front"]; words "CURV" ["5.0E-1"]; words "DISZ" ["0.2"]; words "GLAS" ["N-BK7"]] (@nil line)|].
    split; [lit 5%Z 1%Z|reflexivity].
  - right. exists "N-BK7", [].
    split; [at_line [words "COMM" ["front"]; words "CURV" ["5.0E-1"]; words "DISZ" ["0.2"]] [words "DIAM" ["0.5"]]|reflexivity].
  - exists "0.2", []. split; [at_line [words "COMM" ["front"]; words "CURV" ["5.0E-1"]] [words "GLAS" ["N-BK7"]; words "DIAM" ["0.5"]]|].
    left. exists (2/10)%R. split; [lit 2%Z 1%Z|reflexivity].
  - exists "-.5", [], (-5/10)%R. split; [at_line (@nil line) [words "DISZ" ["3"]; words "DIAM" ["+0.5"]]|].
    split; [lit (-5)%Z 1%Z|]. right. split; [lra|reflexivity].
  - right. exists "+0.5", [], (5/10)%R. split; [at_line [words "CURV" ["-.5"]; words "DISZ" ["3"]] (@nil line)|].
    split; [lit 5%Z 1%Z|reflexivity].
  - left. split; [absent|reflexivity].
  - exists "3", []. split; [at_line [words "CURV" ["-.5"]] [words "DIAM" ["+0.5"]]|].
    left. exists 3%R. split; [reflexivity|reflexivity].
Qed.
Lemma inch_waves : wavelengths_of (inch_head ++ flat_map section inch_body) [(4861/10000)%R; (5876/10000)%R; (6563/10000)%R].
Proof.
  assert (named "WAVM" (inch_head ++ flat_map section inch_body) = [words "WAVM" ["1"; "0.4861"; "1"]; words "WAVM" ["2"; "0.5876"; "1"];
    words "WAVM" ["3"; "0.6563"; "1"]; words "WAVM" ["4"; "5.5E-1"; "1"]]) as E by (vm_compute; reflexivity).
  right. rewrite E. split; [cbn [List.length]; lia|]. split; [exists [(4861/10000)%R; (5876/10000)%R], (6563/10000)%R; split; [reflexivity|lra]|].
  exists 1%nat. cbn [app repeat].
  constructor; [exists "1", "0.4861", ["1"]; split; [reflexivity|lit 4861%Z 4%Z]|].
  constructor; [exists "2", "0.5876", ["1"]; split; [reflexivity|lit 5876%Z 4%Z]|].
  constructor; [exists "3", "0.6563", ["1"]; split; [reflexivity|lit 6563%Z 4%Z]|].
  constructor; [exists "4", "5.5E-1", ["1"]; split; [reflexivity|lit 55%Z 2%Z]|]. constructor.
Qed.
Lemma inch_factor : unit_factor "IN" = (254/10)%R.
Proof. reflexivity. Qed.
