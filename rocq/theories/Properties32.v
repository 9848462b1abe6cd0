(** Property theorems: reading the bytes of a Zemax file (C127) and byte order marks (C128). *)
From Coq Require Import ZArith List Bool String Ascii Lia Floats.
From Verif Require Import Base Nums Zemax ZemaxText ZemaxTextProofs.
Import ListNotations.
Open Scope string_scope.
Open Scope list_scope.
Open Scope Z_scope.

(** ** C127 *)
(** the text of a file is the one it holds in UTF-8, or in UTF-16 after a byte order mark, and no other *)
Theorem C127_text : forall b s, bytes b -> (decode (determineEncoding b) b = Ok s <-> text s /\ file_of s b).
Proof. exact text_spec. Qed.
Print Assumptions C127_text.
(** Edmund Optics and Thorlabs: the same text in the three encodings gives the same reader, for any numbers *)
Theorem C127_same : forall T (N : Num T) s b b', text s -> file_of s b -> file_of s b' -> @ZMXReader_file T N b = ZMXReader_file b'.
Proof. intros T N s b b' H F F'. unfold ZMXReader_file. now rewrite (same_lines s b b'). Qed.
Print Assumptions C127_same.
(** a file that is neither is refused with ValueError (UnicodeDecodeError) *)
Theorem C127_refused : forall T (N : Num T) b, bytes b -> (forall s, text s -> ~ file_of s b) -> @ZMXReader_file T N b = Err ValueError.
Proof. intros T N b H F. unfold ZMXReader_file. now rewrite file_refused. Qed.
Print Assumptions C127_refused.
(** whatever the line ends (one kind in a file, the last one may be missing), the indentation and the white space between
    words and behind them: each line becomes its words *)
Theorem C127_layout : forall (ls : list shape) (complete : bool) e b,
  Forall good ls -> Forall (fun l => plain (typed l)) ls -> line_end e ->
  (complete = false -> last (map typed ls) [] <> []) ->
  (let s := if complete then flat_map (fun l => typed l ++ e) ls
            else flat_map (fun l => typed l ++ e) (removelast ls) ++ last (map typed ls) [] in
   text s /\ file_of s b) ->
  file_lines b = Ok (map (fun l => mkLine (str (hd [] (words l))) (map str (tl (words l)))) ls).
Proof. exact file_typed. Qed.
Print Assumptions C127_layout.
(** words in ASCII are themselves *)
Theorem C127_words : forall s, ascii_text s -> str (chars s) = s.
Proof. exact str_chars. Qed.
Print Assumptions C127_words.

(** and two different words of any characters stay different *)
Theorem C127_distinct : forall s s', text s -> text s' -> str s = str s' -> s = s'.
Proof. exact str_inj. Qed.
Print Assumptions C127_distinct.

Definition sample : list shape :=
  [Words [] (chars "UNIT") [([32], chars "MM"); ([32; 32], chars "X")] [32];
   Words [9] (chars "WAVM") [([32], chars "1"); ([9], chars "0.5876"); ([32], chars "1")] [];
   Blank [32];
   Words [] (chars "NAME") [([160], [181; 128300])] []].
Example C127_example :
  Forall good sample /\ Forall (fun l => plain (typed l)) sample /\
  text (flat_map (fun l => typed l ++ [13; 10]) sample) /\
  file_lines ([254; 255] ++ in_utf16 true (flat_map (fun l => typed l ++ [13; 10]) sample)) =
    Ok [mkLine "UNIT" ["MM"; "X"]; mkLine "WAVM" ["1"; "0.5876"; "1"]; mkLine "" []; mkLine "NAME" [str [181; 128300]]].
Proof.
  assert (D : forall P : Z -> Prop, forall f : Z -> bool, (forall c, f c = true -> P c) -> forall l, forallb f l = true -> Forall P l).
  { intros P f H l E. apply Forall_forall. intros c Hc. apply H. rewrite forallb_forall in E. auto. }
  split; [|split; [|split]].
  - assert (W : forall w, w <> [] -> forallb (fun c => negb (space c)) w = true -> word w).
    { intros w Hn E. split; [exact Hn|]. refine (D _ (fun c => negb (space c)) _ _ E). intros c Hc. now apply negb_true_iff in Hc. }
    assert (S : forall s, forallb space s = true -> spaces s) by (intros s E; exact (D (fun c => space c = true) space (fun c H => H) _ E)).
    unfold sample. constructor; [|constructor; [|constructor; [|constructor; [|constructor]]]]; cbn [good];
      try (now apply S); (split; [now apply S|]); (split; [apply W; [discriminate|reflexivity]|]); (split; [|now apply S]);
      repeat (constructor; [cbn [fst snd]; split; [discriminate|split; [now apply S|apply W; [discriminate|reflexivity]]]|]); constructor.
  - assert (P : forall t, forallb (fun c => negb (c =? 10) && negb (c =? 13)) t = true -> plain t) by (intros t E; refine (D _ _ _ _ E); cbn; intros; lia).
    unfold sample. repeat (constructor; [now apply P|]). constructor.
  - apply (D code_point scalar); [intros c; apply scalar_spec|reflexivity].
  - vm_compute. reflexivity.
Qed.
Example C127_refused_example : bytes [255; 254; 65] /\ @ZMXReader_file float _ [255; 254; 65] = Err ValueError.
Proof. split; [repeat (constructor; [lia|]); constructor|reflexivity]. Qed.

(** ** C128 *)
(** a file in UTF-16 without a byte order mark is not read: the same text with a mark gives a reader, without it the word
    WAVM is not found *)
Theorem C128_utf16_refuted : exists s, text s /\
  (exists z : @reader float, ZMXReader_file ([255; 254] ++ in_utf16 false s) = Ok z) /\
  (exists e, @ZMXReader_file float _ (in_utf16 false s) = Err e).
Proof.
  exists (flat_map (fun l => typed l ++ [13; 10]) (firstn 2 sample)). split; [|split; eexists; vm_compute; reflexivity].
  apply Forall_forall. intros c Hc. apply scalar_spec. revert c Hc. apply forallb_forall. reflexivity.
Qed.
Print Assumptions C128_utf16_refuted.
(** in UTF-8 the mark becomes part of the first word: a file that starts with UNIT is not read *)
Theorem C128_utf8_refuted : exists s, text s /\
  (exists z : @reader float, ZMXReader_file (in_utf8 s) = Ok z) /\
  (exists e, @ZMXReader_file float _ ([239; 187; 191] ++ in_utf8 s) = Err e).
Proof.
  exists (flat_map (fun l => typed l ++ [13; 10]) (firstn 2 sample)). split; [|split; eexists; vm_compute; reflexivity].
  apply Forall_forall. intros c Hc. apply scalar_spec. revert c Hc. apply forallb_forall. reflexivity.
Qed.
Print Assumptions C128_utf8_refuted.
