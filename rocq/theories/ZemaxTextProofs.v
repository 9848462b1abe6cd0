(** Zemax files read the same in any of the usual encodings, with any line ends and any spacing. *)
From Coq Require Import ZArith List Bool String Ascii Lia ZifyBool.
From Verif Require Import Base Zemax ZemaxText.
Import ListNotations.
Open Scope list_scope.
Open Scope Z_scope.

(** ** Specification *)
(** Unicode: code points without the surrogates *)
Definition code_point (c : Z) : Prop := 0 <= c < 55296 \/ 57344 <= c <= 1114111.
Definition text (s : list Z) : Prop := Forall code_point s.
(** RFC 3629 *)
Definition utf8_char (c : Z) : list Z :=
  if c <? 128 then [c]
  else if c <? 2048 then [192 + c / 64; 128 + c mod 64]
  else if c <? 65536 then [224 + c / 64 / 64; 128 + (c / 64) mod 64; 128 + c mod 64]
  else [240 + c / 64 / 64 / 64; 128 + (c / 64 / 64) mod 64; 128 + (c / 64) mod 64; 128 + c mod 64].
Definition in_utf8 (s : list Z) : list Z := flat_map utf8_char s.
(** RFC 2781, low byte first or high byte first *)
Definition pair_of (big : bool) (u : Z) : list Z := if big then [u / 256; u mod 256] else [u mod 256; u / 256].
Definition utf16_char (big : bool) (c : Z) : list Z :=
  if c <? 65536 then pair_of big c
  else pair_of big (55296 + (c - 65536) / 1024) ++ pair_of big (56320 + (c - 65536) mod 1024).
Definition in_utf16 (big : bool) (s : list Z) : list Z := flat_map (utf16_char big) s.
(** a file with the text [s]: UTF-8, or UTF-16 after a byte order mark *)
Definition file_of (s b : list Z) : Prop :=
  b = in_utf8 s \/ b = [255; 254] ++ in_utf16 false s \/ b = [254; 255] ++ in_utf16 true s.
Definition bytes (b : list Z) : Prop := Forall (fun x => 0 <= x < 256) b.

(** ** Codecs *)
Lemma scalar_spec c : scalar c = true <-> code_point c.
Proof. unfold scalar, code_point. lia. Qed.
Lemma keep_ok low c r s : keep low c r = Ok s <-> low <= c /\ code_point c /\ exists t, r = Ok t /\ s = c :: t.
Proof.
  unfold keep. rewrite <- scalar_spec. destruct (Z.leb_spec low c); cbn [andb]; [|split; [discriminate|lia]].
  destruct (scalar c); [|split; [discriminate|intros (_ & A & _); discriminate]].
  destruct r as [t|e]; cbn [bind].
  - split; [intros E; injection E as <-; eauto 6|]. intros (_ & _ & u & E & ->). injection E as ->. reflexivity.
  - split; [discriminate|]. intros (_ & _ & u & E & _). discriminate.
Qed.
Lemma d64 q r : 0 <= r < 64 -> (q * 64 + r) / 64 = q /\ (q * 64 + r) mod 64 = r.
Proof. intros H. rewrite Z.add_comm, Z.div_add, Z.mod_add, Z.div_small, Z.mod_small by lia. lia. Qed.
Lemma m64 c : c = c / 64 * 64 + c mod 64 /\ 0 <= c mod 64 < 64.
Proof. pose proof (Z.div_mod c 64). pose proof (Z.mod_pos_bound c 64). lia. Qed.

Lemma utf8_step c s : code_point c -> forall r, utf8 s = r -> utf8 (utf8_char c ++ s) = (x <- r;; Ok (c :: x)).
Proof.
  intros Hc r <-. assert (K : forall low, low <= c -> keep low c (utf8 s) = (x <- utf8 s;; Ok (c :: x))).
  { intros low Hl. unfold keep. rewrite (proj2 (scalar_spec c) Hc). destruct (Z.leb_spec low c); [reflexivity|lia]. }
  pose proof (m64 c) as [E1 B1]. pose proof (m64 (c / 64)) as [E2 B2]. pose proof (m64 (c / 64 / 64)) as [E3 B3].
  unfold utf8_char. unfold code_point in Hc.
  destruct (Z.ltb_spec c 128) as [H1|H1]; [|destruct (Z.ltb_spec c 2048) as [H2|H2]; [|destruct (Z.ltb_spec c 65536) as [H3|H3]]];
    cbn [app utf8]; unfold cont.
  - destruct (Z.ltb_spec c 128); [|lia]. apply K. lia.
  - destruct (Z.ltb_spec (192 + c / 64) 128); [lia|]. destruct (Z.ltb_spec (192 + c / 64) 224); [|lia].
    replace ((192 <=? _) && _) with true by lia. replace ((192 + c / 64 - 192) * 64 + (128 + c mod 64 - 128)) with c by lia. apply K. lia.
  - destruct (Z.ltb_spec (224 + c / 64 / 64) 128); [lia|]. destruct (Z.ltb_spec (224 + c / 64 / 64) 224); [lia|].
    destruct (Z.ltb_spec (224 + c / 64 / 64) 240); [|lia]. replace (_ && _) with true by lia.
    replace (((224 + c / 64 / 64 - 224) * 64 + (128 + (c / 64) mod 64 - 128)) * 64 + (128 + c mod 64 - 128)) with c by lia. apply K. lia.
  - destruct (Z.ltb_spec (240 + c / 64 / 64 / 64) 128); [lia|]. destruct (Z.ltb_spec (240 + c / 64 / 64 / 64) 224); [lia|].
    destruct (Z.ltb_spec (240 + c / 64 / 64 / 64) 240); [lia|]. replace (_ && _ && _ && _) with true by lia.
    replace ((((240 + c / 64 / 64 / 64 - 240) * 64 + (128 + (c / 64 / 64) mod 64 - 128)) * 64 + (128 + (c / 64) mod 64 - 128)) * 64 + (128 + c mod 64 - 128))
      with c by lia. apply K. lia.
Qed.
Lemma utf8_decode s : text s -> utf8 (in_utf8 s) = Ok s.
Proof.
  induction 1 as [|c s Hc Hs IH]; [reflexivity|]. change (in_utf8 (c :: s)) with (utf8_char c ++ in_utf8 s).
  rewrite (utf8_step c _ Hc _ IH). reflexivity.
Qed.

Lemma utf8_encode : forall n b s, (List.length b <= n)%nat -> bytes b -> utf8 b = Ok s -> text s /\ b = in_utf8 s.
Proof.
  induction n as [|n IH]; intros b s Hn Hb E.
  { destruct b; [|cbn in Hn; lia]. injection E as <-. split; [constructor|reflexivity]. }
  destruct b as [|a t]; [injection E as <-; split; [constructor|reflexivity]|]. cbn [utf8] in E. cbn [List.length] in Hn.
  inversion Hb as [|? ? Ha Ht]; subst.
  assert (F : forall l c r rest, bytes rest -> (List.length rest <= n)%nat -> keep l c (utf8 rest) = Ok s -> l <= c ->
     utf8_char c = r -> text s /\ r ++ rest = in_utf8 s).
  { intros l c r rest H1 H2 H3 H4 H5. apply keep_ok in H3 as (_ & H3 & u & H6 & ->). destruct (IH rest u H2 H1 H6) as [H7 ->].
    split; [now constructor|]. subst r. reflexivity. }
  assert (G : forall l c, keep l c (utf8 t) = Ok s -> l <= c) by (intros l c H; now apply keep_ok in H as (H & _)).
  destruct (Z.ltb_spec a 128) as [H1|H1].
  { apply (F 0 a [a] t Ht ltac:(lia) E ltac:(lia)). unfold utf8_char. destruct (Z.ltb_spec a 128); [reflexivity|lia]. }
  destruct (Z.ltb_spec a 224) as [H2|H2]; [|destruct (Z.ltb_spec a 240) as [H3|H3]].
  - destruct t as [|x t]; [discriminate|]. destruct (Z.leb_spec 192 a); cbn [andb] in E; [|discriminate].
    destruct (cont x) eqn:Cx; [|discriminate]. unfold cont in Cx. inversion Ht as [|? ? Hx Ht']; subst. cbn [List.length] in Hn.
    pose proof E as E'. apply keep_ok in E' as (L & _).
    apply (F _ _ [a; x] t Ht' ltac:(lia) E L). set (c := (a - 192) * 64 + (x - 128)) in *. destruct (d64 (a - 192) (x - 128)) as [D1 D2]; [lia|]. fold c in D1, D2.
    unfold utf8_char. destruct (Z.ltb_spec c 128); [lia|]. destruct (Z.ltb_spec c 2048); [|subst c; lia]. rewrite D1, D2. repeat f_equal; lia.
  - destruct t as [|x [|y t]]; [discriminate..|]. destruct (cont x) eqn:Cx; cbn [andb] in E; [|discriminate].
    destruct (cont y) eqn:Cy; [|discriminate]. unfold cont in Cx, Cy. inversion Ht as [|? ? Hx Ht']; subst. inversion Ht' as [|? ? Hy Ht'']; subst.
    cbn [List.length] in Hn. pose proof E as E'. apply keep_ok in E' as (L & _).
    apply (F _ _ [a; x; y] t Ht'' ltac:(lia) E L). set (d := (a - 224) * 64 + (x - 128)) in *. set (c := d * 64 + (y - 128)) in *.
    destruct (d64 d (y - 128)) as [D1 D2]; [lia|]. fold c in D1, D2. destruct (d64 (a - 224) (x - 128)) as [D3 D4]; [lia|]. fold d in D3, D4.
    unfold utf8_char. destruct (Z.ltb_spec c 128); [lia|]. destruct (Z.ltb_spec c 2048); [lia|]. destruct (Z.ltb_spec c 65536); [|subst c d; lia].
    rewrite D1, D2, D3, D4. repeat f_equal; lia.
  - destruct t as [|x [|y [|z t]]]; [discriminate..|]. destruct (Z.ltb_spec a 248); cbn [andb] in E; [|discriminate].
    destruct (cont x) eqn:Cx; cbn [andb] in E; [|discriminate].
    destruct (cont y) eqn:Cy; cbn [andb] in E; [|discriminate]. destruct (cont z) eqn:Cz; [|discriminate]. unfold cont in Cx, Cy, Cz.
    inversion Ht as [|? ? Hx Ht']; subst. inversion Ht' as [|? ? Hy Ht'']; subst. inversion Ht'' as [|? ? Hz Ht3]; subst.
    cbn [List.length] in Hn. pose proof E as E'. apply keep_ok in E' as (L & _).
    apply (F _ _ [a; x; y; z] t Ht3 ltac:(lia) E L). set (e := (a - 240) * 64 + (x - 128)) in *. set (d := e * 64 + (y - 128)) in *. set (c := d * 64 + (z - 128)) in *.
    destruct (d64 d (z - 128)) as [D1 D2]; [lia|]. fold c in D1, D2. destruct (d64 e (y - 128)) as [D3 D4]; [lia|]. fold d in D3, D4.
    destruct (d64 (a - 240) (x - 128)) as [D5 D6]; [lia|]. fold e in D5, D6.
    unfold utf8_char. destruct (Z.ltb_spec c 128); [lia|]. destruct (Z.ltb_spec c 2048); [lia|]. destruct (Z.ltb_spec c 65536); [lia|].
    rewrite D1, D2, D3, D4, D5, D6. repeat f_equal; lia.
Qed.

Lemma unit_pair big u : unit16 big (nth 0 (pair_of big u) 0) (nth 1 (pair_of big u) 0) = u.
Proof. destruct big; cbn; pose proof (Z.div_mod u 256); lia. Qed.
Lemma pair_unit big x y : 0 <= x < 256 -> 0 <= y < 256 -> pair_of big (unit16 big x y) = [x; y].
Proof.
  intros Hx Hy. destruct big; cbn; rewrite Z.add_comm, Z.div_add, Z.mod_add, Z.div_small, Z.mod_small by lia; reflexivity.
Qed.
Lemma unit_bound big x y : 0 <= x < 256 -> 0 <= y < 256 -> 0 <= unit16 big x y < 65536.
Proof. destruct big; cbn; lia. Qed.
Lemma utf16_step big c s : code_point c -> utf16 big (utf16_char big c ++ s) = (x <- utf16 big s;; Ok (c :: x)).
Proof.
  intros Hc. unfold code_point in Hc. unfold utf16_char.
  assert (P : forall u, exists x y, pair_of big u = [x; y] /\ unit16 big x y = u).
  { intros u. pose proof (unit_pair big u) as E. destruct big; cbn in *; eexists _, _; (split; [reflexivity|exact E]). }
  destruct (Z.ltb_spec c 65536) as [H|H].
  - destruct (P c) as (x & y & -> & E). cbn [app utf16]. rewrite E. replace (_ || _) with true by lia. reflexivity.
  - destruct (P (55296 + (c - 65536) / 1024)) as (x & y & -> & E). destruct (P (56320 + (c - 65536) mod 1024)) as (x' & y' & -> & E').
    pose proof (Z.div_mod (c - 65536) 1024 ltac:(lia)) as D. pose proof (Z.mod_pos_bound (c - 65536) 1024 ltac:(lia)) as B.
    cbn [app utf16]. rewrite E, E'. replace (_ || _) with false by lia. replace (_ && _ && _) with true by lia.
    replace ((55296 + (c - 65536) / 1024 - 55296) * 1024 + (56320 + (c - 65536) mod 1024 - 56320) + 65536) with c by lia. reflexivity.
Qed.
Lemma utf16_decode big s : text s -> utf16 big (in_utf16 big s) = Ok s.
Proof.
  induction 1 as [|c s Hc Hs IH]; [reflexivity|]. change (in_utf16 big (c :: s)) with (utf16_char big c ++ in_utf16 big s).
  rewrite (utf16_step big c _ Hc), IH. reflexivity.
Qed.
Lemma utf16_encode big : forall n b s, (List.length b <= n)%nat -> bytes b -> utf16 big b = Ok s -> text s /\ b = in_utf16 big s.
Proof.
  induction n as [|n IH]; intros b s Hn Hb E.
  { destruct b; [|cbn in Hn; lia]. injection E as <-. split; [constructor|reflexivity]. }
  destruct b as [|x [|y t]]; [injection E as <-; split; [constructor|reflexivity]|discriminate|]. cbn [utf16] in E. cbn [List.length] in Hn.
  inversion Hb as [|? ? Hx Hb']; subst. inversion Hb' as [|? ? Hy Ht]; subst.
  pose proof (unit_bound big x y Hx Hy) as U. pose proof (pair_unit big x y Hx Hy) as Pu. set (u := unit16 big x y) in *.
  destruct ((u <? 55296) || (57344 <=? u)) eqn:C.
  - destruct (utf16 big t) as [s'|] eqn:E'; [|discriminate]. injection E as <-. destruct (IH t s' ltac:(lia) Ht E') as [T ->].
    split; [constructor; [unfold code_point; lia|exact T]|]. change (in_utf16 big (u :: s')) with (utf16_char big u ++ in_utf16 big s').
    unfold utf16_char. destruct (Z.ltb_spec u 65536); [|lia]. rewrite Pu. reflexivity.
  - destruct t as [|x' [|y' t]]; [discriminate..|]. inversion Ht as [|? ? Hx' Ht']; subst. inversion Ht' as [|? ? Hy' Ht'']; subst.
    pose proof (pair_unit big x' y' Hx' Hy') as Pv. set (v := unit16 big x' y') in *.
    destruct ((u <? 56320) && (56320 <=? v) && (v <? 57344)) eqn:C'; [|discriminate].
    destruct (utf16 big t) as [s'|] eqn:E'; [|discriminate]. injection E as <-. cbn [List.length] in Hn.
    destruct (IH t s' ltac:(lia) Ht'' E') as [T ->]. set (c := _ + 65536).
    split; [constructor; [unfold code_point; subst c; lia|exact T]|]. change (in_utf16 big (c :: s')) with (utf16_char big c ++ in_utf16 big s').
    unfold utf16_char. destruct (Z.ltb_spec c 65536); [subst c; lia|].
    replace (c - 65536) with ((u - 55296) * 1024 + (v - 56320)) by (subst c; lia).
    rewrite (Z.add_comm (_ * _)), Z.div_add, Z.mod_add, Z.div_small, Z.mod_small by lia.
    replace (55296 + _) with u by lia. replace (56320 + _) with v by lia. rewrite Pu, Pv. reflexivity.
Qed.

(** no text in UTF-8 looks like a byte order mark *)
Lemma head8 c s : code_point c -> exists a t, utf8_char c ++ s = a :: t /\ a < 254.
Proof.
  intros H. unfold code_point in H. unfold utf8_char.
  pose proof (m64 c) as [E1 B1]. pose proof (m64 (c / 64)) as [E2 B2]. pose proof (m64 (c / 64 / 64)) as [E3 B3].
  destruct (Z.ltb_spec c 128); [|destruct (Z.ltb_spec c 2048); [|destruct (Z.ltb_spec c 65536)]]; eexists _, _; (split; [reflexivity|lia]).
Qed.
Definition zmx_text (b : list Z) : res (list Z) := decode (determineEncoding b) b.
Lemma text_utf8 s : text s -> zmx_text (in_utf8 s) = Ok s.
Proof.
  intros Hs. unfold zmx_text, determineEncoding. destruct Hs as [|c s Hc Hs]; [reflexivity|].
  pose proof (utf8_decode (c :: s) ltac:(now constructor)) as E. change (in_utf8 (c :: s)) with (utf8_char c ++ in_utf8 s) in *.
  destruct (head8 c (in_utf8 s) Hc) as (a & t & Ea & Ha). rewrite Ea in *.
  assert (py_utf16 (a :: t) = Err ValueError) as ->; [|exact E].
  destruct t as [|y t]; [reflexivity|]. cbn [py_utf16]. replace (_ && _) with false by lia. replace (_ && _) with false by lia. reflexivity.
Qed.
(** which text a file has *)
Theorem text_spec b s : bytes b -> (zmx_text b = Ok s <-> text s /\ file_of s b).
Proof.
  intros Hb. split.
  - unfold zmx_text, determineEncoding. destruct (py_utf16 b) as [u|] eqn:E; cbn [decode].
    + rewrite E. intros Q. injection Q as ->. unfold file_of. destruct b as [|x [|y t]]; [|discriminate|].
      * injection E as <-. split; [constructor|now left].
      * cbn [py_utf16] in E. inversion Hb as [|? ? Hx Hb']; subst. inversion Hb' as [|? ? Hy Ht]; subst.
        destruct ((x =? 255) && (y =? 254)) eqn:C1; [|destruct ((x =? 254) && (y =? 255)) eqn:C2; [|discriminate]];
          destruct (utf16_encode _ _ t s (le_n _) Ht E) as [T ->]; (split; [exact T|right]).
        -- left. replace x with 255 by lia. replace y with 254 by lia. reflexivity.
        -- right. replace x with 254 by lia. replace y with 255 by lia. reflexivity.
    + intros Q. destruct (utf8_encode _ b s (le_n _) Hb Q) as [T ->]. split; [exact T|now left].
  - intros [T [->|[->| ->]]].
    + now apply text_utf8.
    + unfold zmx_text, determineEncoding. cbn [app py_utf16]. change ((255 =? 255) && (254 =? 254)) with true. cbn iota.
      rewrite utf16_decode by auto. cbn [decode py_utf16]. change ((255 =? 255) && (254 =? 254)) with true. cbn iota. now rewrite utf16_decode.
    + unfold zmx_text, determineEncoding. cbn [app py_utf16]. change ((254 =? 255) && (255 =? 254)) with false.
      change ((254 =? 254) && (255 =? 255)) with true. cbn iota.
      rewrite utf16_decode by auto. cbn [decode py_utf16]. change ((254 =? 255) && (255 =? 254)) with false.
      change ((254 =? 254) && (255 =? 255)) with true. cbn iota. now rewrite utf16_decode.
Qed.
(** everything else is refused *)
Lemma keep_err l c r e : (forall x, r = Err x -> x = ValueError) -> keep l c r = Err e -> e = ValueError.
Proof. intros H. unfold keep. destruct (_ && _); [|congruence]. destruct r; cbn [bind]; [discriminate|]. intros E. injection E as <-. auto. Qed.
Lemma utf8_err : forall n b e, (List.length b <= n)%nat -> utf8 b = Err e -> e = ValueError.
Proof.
  induction n as [|n IH]; intros b e Hn E. { destruct b; [discriminate|cbn in Hn; lia]. }
  destruct b as [|a t]; [discriminate|]. cbn [utf8] in E. cbn [List.length] in Hn.
  destruct (a <? 128). { eapply keep_err; [|exact E]. intros. apply (IH t); [lia|auto]. }
  destruct (a <? 224). { destruct t as [|x t]; [congruence|]. destruct (_ && _); [|congruence]. cbn [List.length] in Hn.
    eapply keep_err; [|exact E]. intros. apply (IH t); [lia|auto]. }
  destruct (a <? 240). { destruct t as [|x [|y t]]; [congruence..|]. destruct (_ && _); [|congruence]. cbn [List.length] in Hn.
    eapply keep_err; [|exact E]. intros. apply (IH t); [lia|auto]. }
  destruct t as [|x [|y [|z t]]]; [congruence..|]. destruct (_ && _); [|congruence]. cbn [List.length] in Hn.
  eapply keep_err; [|exact E]. intros. apply (IH t); [lia|auto].
Qed.
Theorem text_refused b : bytes b -> (forall s, text s -> ~ file_of s b) -> zmx_text b = Err ValueError.
Proof.
  intros Hb H. destruct (zmx_text b) as [s|e] eqn:E. { apply text_spec in E as [T F]; auto. now destruct (H s T). }
  unfold zmx_text, determineEncoding in E. destruct (py_utf16 b) eqn:E'; cbn [decode] in E; [congruence|]. now rewrite (utf8_err _ b e (le_n _) E).
Qed.

(** ** Lines *)
Definition plain (t : list Z) : Prop := Forall (fun c => c <> 10 /\ c <> 13) t.
Definition line_end (e : list Z) : Prop := e = [10] \/ e = [13; 10] \/ e = [13].
Lemma newlines_plain t u : plain t -> newlines (t ++ u) = t ++ newlines u.
Proof.
  induction 1 as [|c t [H1 H2] Ht IH]; [reflexivity|]. cbn [app newlines]. destruct (Z.eqb_spec c 13); [contradiction|]. now rewrite IH.
Qed.
Lemma lines_plain t u : plain t -> lines (t ++ 10 :: u) = t :: lines u.
Proof.
  induction 1 as [|c t [H1 H2] Ht IH]; [reflexivity|]. cbn [app lines]. destruct (Z.eqb_spec c 10); [contradiction|]. now rewrite IH.
Qed.
Lemma lines_last t : plain t -> t <> [] -> lines t = [t].
Proof.
  induction 1 as [|c t [H1 H2] Ht IH]; intros Hn; [congruence|]. cbn [lines]. destruct (Z.eqb_spec c 10); [contradiction|].
  destruct t as [|d t]; [reflexivity|]. now rewrite IH by discriminate.
Qed.
Theorem lines_spec e ts last : line_end e -> Forall plain ts -> plain last ->
  lines (newlines (flat_map (fun t => t ++ e) ts ++ last)) = ts ++ (match last with [] => [] | _ => [last] end).
Proof.
  intros He Hts Hl. induction Hts as [|t ts Ht Hts IH]; cbn [flat_map app].
  - rewrite <- (app_nil_r last) at 1. rewrite newlines_plain by auto. cbn [newlines]. rewrite app_nil_r.
    destruct last; [reflexivity|]. now apply lines_last.
  - rewrite <- !app_assoc, newlines_plain by auto.
    assert (newlines (e ++ flat_map (fun t => t ++ e) ts ++ last) = 10 :: newlines (flat_map (fun t => t ++ e) ts ++ last)) as ->.
    { destruct He as [->|[->| ->]]; [reflexivity..|]. cbn [app newlines]. change (13 =? 13) with true. cbn iota.
      destruct (flat_map (fun t => t ++ [13]) ts ++ last) as [|d u] eqn:Q; [reflexivity|].
      destruct (Z.eqb_spec d 10) as [->|]; [|reflexivity]. exfalso. destruct ts as [|t' ts].
      - cbn in Q. subst last. inversion Hl as [|? ? [A _]]. congruence.
      - cbn [flat_map] in Q. destruct t' as [|c t']; [discriminate|]. injection Q as -> _. inversion Hts as [|? ? A]; subst.
        inversion A as [|? ? [B _]]. congruence. }
    now rewrite lines_plain, IH.
Qed.

(** ** Words *)
Definition spaces (s : list Z) : Prop := Forall (fun c => space c = true) s.
Definition word (w : list Z) : Prop := w <> [] /\ Forall (fun c => space c = false) w.
(** a line: blank, or words with white space around and between them *)
Inductive shape := Blank (s : list Z) | Words (lead first : list Z) (rest : list (list Z * list Z)) (trail : list Z).
Definition good (l : shape) : Prop :=
  match l with
  | Blank s => spaces s
  | Words lead w rest trail => spaces lead /\ word w /\ Forall (fun p => fst p <> [] /\ spaces (fst p) /\ word (snd p)) rest /\ spaces trail
  end.
Definition typed (l : shape) : list Z :=
  match l with
  | Blank s => s
  | Words lead w rest trail => lead ++ (w ++ flat_map (fun p => fst p ++ snd p) rest) ++ trail
  end.
Definition words (l : shape) : list (list Z) := match l with Blank _ => [[]] | Words _ w rest _ => w :: map snd rest end.

Lemma lstrip_spaces s u : spaces s -> lstrip (s ++ u) = lstrip u.
Proof. induction 1 as [|c s Hc Hs IH]; [reflexivity|]. cbn. now rewrite Hc. Qed.
Lemma rstrip_spaces s : spaces s -> rstrip s = [].
Proof. induction 1 as [|c s Hc Hs IH]; [reflexivity|]. cbn. now rewrite IH, Hc. Qed.
Lemma rstrip_end u c s : space c = false -> spaces s -> rstrip ((u ++ [c]) ++ s) = u ++ [c].
Proof.
  intros Hc Hs. induction u as [|d u IH]; cbn [app rstrip].
  - now rewrite rstrip_spaces, Hc.
  - rewrite IH. destruct (u ++ [c]) eqn:Q; [destruct u; discriminate|reflexivity].
Qed.
Lemma word_last w : word w -> exists u c, w = u ++ [c] /\ space c = false.
Proof.
  intros [Hn Hw]. destruct (exists_last Hn) as (u & c & ->). exists u, c. split; [reflexivity|]. apply Forall_app in Hw as [_ Hw].
  now inversion Hw.
Qed.
Lemma resplit_word w u v l : Forall (fun c => space c = false) w -> resplit u = v :: l -> resplit (w ++ u) = (w ++ v) :: l.
Proof. induction 1 as [|c w Hc Hw IH]; intros E; [exact E|]. cbn [app resplit]. now rewrite Hc, (IH E). Qed.
Lemma resplit_sep s u : s <> [] -> spaces s -> (exists c t, u = c :: t /\ space c = false) -> resplit (s ++ u) = [] :: resplit u.
Proof.
  intros Hn Hs (c & t & -> & Hc). induction Hs as [|d s Hd Hs IH]; [congruence|]. destruct s as [|d' s].
  - cbn [app resplit]. rewrite Hd, Hc. reflexivity.
  - specialize (IH ltac:(discriminate)). cbn [app] in *. cbn [resplit] in *. inversion Hs as [|? ? Hd']; subst. rewrite Hd, Hd' in *. exact IH.
Qed.
Lemma resplit_core w rest : word w -> Forall (fun p => fst p <> [] /\ spaces (fst p) /\ word (snd p)) rest ->
  resplit (w ++ flat_map (fun p => fst p ++ snd p) rest) = w :: map snd rest.
Proof.
  intros Hw Hr. revert w Hw. induction Hr as [|[s w'] rest (H1 & H2 & H3) Hr IH]; intros w Hw; cbn [flat_map map fst snd].
  - rewrite (resplit_word w [] [] [] (proj2 Hw) eq_refl). now rewrite app_nil_r.
  - rewrite <- app_assoc. cbn [fst snd] in *. rewrite (resplit_word w _ [] (w' :: map snd rest) (proj2 Hw)); [now rewrite app_nil_r|].
    rewrite resplit_sep; [now rewrite IH|exact H1|exact H2|]. destruct H3 as [Hn Hf]. destruct w' as [|c t]; [congruence|].
    inversion Hf; subst. cbn [app]. eauto.
Qed.
Lemma core_last w rest : word w -> Forall (fun p => fst p <> [] /\ spaces (fst p) /\ word (snd p)) rest ->
  exists u c, w ++ flat_map (fun p => fst p ++ snd p) rest = u ++ [c] /\ space c = false.
Proof.
  intros Hw Hr. destruct rest as [|p0 r0] using rev_ind.
  - cbn [flat_map]. rewrite app_nil_r. now apply word_last.
  - apply Forall_app in Hr as [_ Hr]. inversion Hr as [|? ? (_ & _ & H)]; subst. destruct (word_last _ H) as (u & c & E & Hc).
    rewrite flat_map_app. cbn [flat_map]. rewrite app_nil_r, E, !app_assoc. eauto.
Qed.
Theorem words_spec l : good l -> line_of (typed l) = mkLine (str (hd [] (words l))) (map str (tl (words l))).
Proof.
  destruct l as [s|lead w rest trail]; cbn [good typed words hd tl]; unfold line_of.
  - intros Hs. rewrite <- (app_nil_r s), lstrip_spaces by auto. reflexivity.
  - intros (H1 & H2 & H3 & H4). rewrite lstrip_spaces by auto. destruct (core_last w rest H2 H3) as (u & c & E & Hc).
    assert (lstrip ((w ++ flat_map (fun p => fst p ++ snd p) rest) ++ trail) = (w ++ flat_map (fun p => fst p ++ snd p) rest) ++ trail) as ->.
    { destruct H2 as [Hn Hf]. destruct w as [|d w]; [congruence|]. inversion Hf as [|? ? Hd]; subst. cbn. now rewrite Hd. }
    rewrite E, rstrip_end, <- E by auto. now rewrite resplit_core.
Qed.

(** ** Files *)
(** a file typed line by line; the last line may lack its end *)
Theorem file_spec (ls : list shape) (complete : bool) e b :
  Forall good ls -> Forall (fun l => plain (typed l)) ls -> line_end e ->
  (complete = false -> match last (map typed ls) [] with [] => False | _ => True end) ->
  (let s := if complete then flat_map (fun l => typed l ++ e) ls
            else flat_map (fun l => typed l ++ e) (removelast ls) ++ last (map typed ls) [] in
   text s /\ file_of s b /\ bytes b) ->
  file_lines b = Ok (map (fun l => mkLine (str (hd [] (words l))) (map str (tl (words l)))) ls).
Proof.
  intros Hg Hp He Hc (Ht & Hf & Hb). unfold file_lines. fold (zmx_text b). rewrite (proj2 (text_spec b _ Hb) (conj Ht Hf)). cbn [bind].
  assert (R : forall l, Forall good l -> map line_of (map typed l) = map (fun l => mkLine (str (hd [] (words l))) (map str (tl (words l)))) l).
  { intros l H. rewrite map_map. apply map_ext_in. intros a Ha. apply words_spec. rewrite Forall_forall in H. auto. }
  assert (FM : forall l, flat_map (fun l => typed l ++ e) l = flat_map (fun t => t ++ e) (map typed l)).
  { induction l as [|a l IH]; [reflexivity|]. cbn. now rewrite IH. }
  assert (Q : forall l, Forall (fun l => plain (typed l)) l -> Forall plain (map typed l)) by (intros l H; now apply Forall_map).
  destruct complete.
  - rewrite FM, <- (app_nil_r (flat_map _ _)), lines_spec; [|auto..|constructor]. now rewrite app_nil_r, R.
  - specialize (Hc eq_refl). rewrite FM. destruct ls as [|l0 ls0] using rev_ind; [contradiction|]. clear IHls0.
    rewrite removelast_last, map_app in *. cbn [map] in *. rewrite last_last in *.
    apply Forall_app in Hp as [Hp1 Hp2]. inversion Hp2 as [|? ? Hp3]; subst. rewrite lines_spec; auto.
    destruct (typed l0) eqn:El; [contradiction|]. rewrite <- El. change [typed l0] with (map typed [l0]). rewrite <- map_app, R by auto. reflexivity.
Qed.
(** what is in a file are bytes *)
Lemma utf8_bytes s : text s -> bytes (in_utf8 s).
Proof.
  induction 1 as [|c s Hc Hs IH]; [constructor|]. change (in_utf8 (c :: s)) with (utf8_char c ++ in_utf8 s). apply Forall_app. split; [|exact IH].
  unfold code_point in Hc. pose proof (m64 c) as [E1 B1]. pose proof (m64 (c / 64)) as [E2 B2]. pose proof (m64 (c / 64 / 64)) as [E3 B3].
  unfold utf8_char. destruct (Z.ltb_spec c 128); [|destruct (Z.ltb_spec c 2048); [|destruct (Z.ltb_spec c 65536)]];
    repeat (constructor; [lia|]); constructor.
Qed.
Lemma pair_bytes big u : 0 <= u < 65536 -> bytes (pair_of big u).
Proof.
  intros H. pose proof (Z.div_mod u 256 ltac:(lia)). pose proof (Z.mod_pos_bound u 256 ltac:(lia)).
  destruct big; cbn; repeat (constructor; [lia|]); constructor.
Qed.
Lemma utf16_bytes big s : text s -> bytes (in_utf16 big s).
Proof.
  induction 1 as [|c s Hc Hs IH]; [constructor|]. change (in_utf16 big (c :: s)) with (utf16_char big c ++ in_utf16 big s).
  apply Forall_app. split; [|exact IH]. unfold code_point in Hc. unfold utf16_char. destruct (Z.ltb_spec c 65536); [apply pair_bytes; lia|].
  pose proof (Z.div_mod (c - 65536) 1024 ltac:(lia)). pose proof (Z.mod_pos_bound (c - 65536) 1024 ltac:(lia)).
  apply Forall_app. split; apply pair_bytes; lia.
Qed.
Lemma file_bytes s b : text s -> file_of s b -> bytes b.
Proof.
  intros T [->|[->| ->]]; [now apply utf8_bytes| |]; (apply Forall_app; split; [|now apply utf16_bytes]); repeat (constructor; [lia|]); constructor.
Qed.
Theorem text_of_file s b : text s -> file_of s b -> zmx_text b = Ok s.
Proof. intros T F. apply text_spec; [now apply (file_bytes s)|now split]. Qed.
Theorem same_lines s b b' : text s -> file_of s b -> file_of s b' -> file_lines b = file_lines b'.
Proof. intros T F F'. unfold file_lines. fold (zmx_text b) (zmx_text b'). now rewrite (text_of_file s b), (text_of_file s b'). Qed.
Theorem file_refused b : bytes b -> (forall s, text s -> ~ file_of s b) -> file_lines b = Err ValueError.
Proof. intros Hb H. unfold file_lines. fold (zmx_text b). now rewrite text_refused. Qed.
Theorem file_typed (ls : list shape) (complete : bool) e b :
  Forall good ls -> Forall (fun l => plain (typed l)) ls -> line_end e ->
  (complete = false -> last (map typed ls) [] <> []) ->
  (let s := if complete then flat_map (fun l => typed l ++ e) ls
            else flat_map (fun l => typed l ++ e) (removelast ls) ++ last (map typed ls) [] in
   text s /\ file_of s b) ->
  file_lines b = Ok (map (fun l => mkLine (str (hd [] (words l))) (map str (tl (words l)))) ls).
Proof.
  intros H1 H2 H3 H4 [H5 H6]. apply (file_spec ls complete e b H1 H2 H3).
  - intros E. specialize (H4 E). destruct (last (map typed ls) []); [congruence|exact I].
  - split; [exact H5|]. split; [exact H6|]. exact (file_bytes _ _ H5 H6).
Qed.
(** characters of ASCII are themselves *)
Fixpoint chars (s : string) : list Z := match s with EmptyString => [] | String a t => Z.of_nat (nat_of_ascii a) :: chars t end.
Definition ascii_text (s : string) : Prop := Forall (fun c => c < 128) (chars s).
Theorem str_chars s : ascii_text s -> str (chars s) = s.
Proof.
  induction s as [|a s IH]; intros H; [reflexivity|]. inversion H as [|? ? H1 H2]; subst. unfold str in *. cbn [chars flat_map].
  unfold char_bytes at 1. destruct (Z.ltb_spec (Z.of_nat (nat_of_ascii a)) 128); [|lia]. cbn [app fold_right]. rewrite IH by exact H2.
  unfold byte. now rewrite Nat2Z.id, ascii_nat_embedding.
Qed.
(** words that differ stay different *)
Theorem str_bytes s : text s -> chars (str s) = in_utf8 s.
Proof.
  intros T. pose proof (utf8_bytes s T) as B. unfold str. change (flat_map char_bytes s) with (in_utf8 s).
  induction B as [|z l Hz Hl IH]; [reflexivity|]. cbn [fold_right chars]. rewrite IH. f_equal. unfold byte.
  rewrite nat_ascii_embedding by lia. lia.
Qed.
Theorem str_inj s s' : text s -> text s' -> str s = str s' -> s = s'.
Proof.
  intros T T' E. pose proof (f_equal chars E) as Q. rewrite !str_bytes in Q by auto. apply (f_equal utf8) in Q.
  rewrite !utf8_decode in Q by auto. now injection Q.
Qed.
