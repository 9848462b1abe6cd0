(** Properties C125 and C126. *)
From Coq Require Import ZArith List Bool String Ascii Reals Lia Permutation Sorted.
From Verif Require Import Base Nums Optics Materials Zemax ZemaxRead Catalogue CatalogueChecks CatalogueRefutations Scene Viewer ViewerProofs
  CommandLine CommandProofs.
Import ListNotations.
Open Scope string_scope.
Open Scope list_scope.

(** ** C125 *)
(** [names] is CompoundLens.all(), in any order, with repetitions and with classes of the user; [fmt] is "{:.1f}".format *)
Theorem C125_menu : forall fmt names (d : dict (shown XR)), d = build_lens_dict fmt names [thorlabs; eo] ->
  NoDup (menu_items d) /\
  (forall name, In name names -> In name (map fst lens_data) ->
     exists i k l, selection d i = Ok (k, l) /\ entry_of fmt name k l) /\
  (forall i, (i < List.length (menu_items d))%nat ->
     exists name k l, In name names /\ selection d i = Ok (k, l) /\ nth_error (menu_items d) i = Some k /\ entry_of fmt name k l) /\
  (NoDup names -> Forall2 (fun n k => exists l, entry_of fmt n k l) (offered names) (menu_items d)).
Proof. exact menu_of_viewer. Qed.
Print Assumptions C125_menu.
(** no entry stands for two lenses *)
Theorem C125_entries : forall fmt name name' k l l', entry_of fmt name k l -> entry_of fmt name' k l' ->
  name = name' /\ l = l'.
Proof.
  intros fmt name name' k l l' H H'. pose proof (entry_name fmt _ _ _ _ _ H H') as <-. split; [reflexivity|].
  exact (proj2 (entry_fun fmt _ _ _ _ _ H H')).
Qed.
Print Assumptions C125_entries.
Example C125_example : In "AC254_050_A" (map fst lens_data) /\ In "PN_33_921" (map fst lens_data) /\
  offered ["LA1608_A"; "MyLens"; "PN_33_921"] = ["LA1608_A"; "PN_33_921"] /\
  map lens_label ["AC254_050_A"; "PN_33_921"; "LA1608_A"] = ["AC254-050-A"; "EO #33-921"; "LA1608_A"] /\
  List.length (offered (map fst lens_data)) = 328%nat.
Proof.
  split; [apply offered_known; vm_compute; reflexivity|]. split; [apply offered_known; vm_compute; reflexivity|].
  split; [vm_compute; reflexivity|]. split; vm_compute; reflexivity.
Qed.

(** ** C126 *)
Theorem C126_examples : forall files,
  (forall name, In name (short_examples files) <-> In (name ++ ".py")%string files /\ numbered_name name) /\
  (forall name, In name (long_examples files) <->
     In (name ++ ".py")%string files /\ name <> ""%string /\ ~ numbered_name name /\
     ~ In name ["__init__"; "template"; "envexamples"]) /\
  (forall files', Permutation files files' ->
     short_examples files' = short_examples files /\ long_examples files' = long_examples files).
Proof. exact examples_found. Qed.
Print Assumptions C126_examples.
Theorem C126_order : forall files, NoDup files ->
  StronglySorted (fun a b => String.leb (a ++ ".py") (b ++ ".py") = true) (short_examples files) /\ NoDup (short_examples files).
Proof. exact examples_in_order. Qed.
Print Assumptions C126_order.
Theorem C126_all : forall E (short : list E) raises, short <> [] -> (forall e, In e short -> raises e = None) ->
  exists ks, main short raises (plain "all") = (Announced ks :: map Ran short, None) /\ Forall2 (numbered_as E short) ks short.
Proof. exact all_run. Qed.
Print Assumptions C126_all.
Theorem C126_chosen : forall E (short : list E) raises ts es, ts <> [] -> Forall is_typed ts ->
  Forall2 (numbered_as E short) (map typed_value ts) es -> (forall e, In e es -> raises e = None) ->
  main short raises (plain (commas (map typed_word ts))) = (Announced (map typed_value ts) :: map Ran es, None).
Proof. exact chosen_run. Qed.
Print Assumptions C126_chosen.
Theorem C126_stopped : forall E (short : list E) raises ts t us es, Forall is_typed (ts ++ t :: us) ->
  Forall2 (numbered_as E short) (map typed_value ts) es -> (forall e, In e es -> raises e = None) ->
  let text := commas (map typed_word (ts ++ t :: us)) in
  (forall e x, numbered_as E short (typed_value t) e -> raises e = Some x ->
     main short raises (plain text) = (Announced (map typed_value (ts ++ t :: us)) :: map Ran (es ++ [e]), Some x)) /\
  ((Z.of_nat (List.length short) < typed_value t)%Z ->
     main short raises (plain text) = (Announced (map typed_value (ts ++ t :: us)) :: map Ran es, Some IndexError)).
Proof. exact stopped_run. Qed.
Print Assumptions C126_stopped.
Theorem C126_refused : forall E (short : list E) raises before w after c l t, Forall is_typed before ->
  Forall (fun v => no_comma v = true) (w :: after) -> has_char strange w = true \/ w = ""%string ->
  (before <> [] \/ after <> [] \/ (w <> "all"%string /\ w <> ""%string)) ->
  main short raises (mkArgs (commas (map typed_word before ++ w :: after)) c l t) = ([], Some ValueError).
Proof. exact refused. Qed.
Print Assumptions C126_refused.
Theorem C126_one_thing : forall E (short : list E) raises text c l t ks, runExamples (List.length short) text = Ok ks ->
  main short raises (mkArgs text c l t) =
    if c then ([Classes], None) else if t then ([Tests], None)
    else if l then ([Listed (combine (one_to (List.length short)) short)], None)
    else main short raises (plain text).
Proof. exact one_thing. Qed.
Print Assumptions C126_one_thing.
(** a number that is not in the list is not always refused: -e 0 runs the last example *)
Theorem C126_zero_refuted : exists (short : list string) e,
  In e short /\ (forall e', ~ numbered_as string short 0 e') /\
  main short (fun _ => None) (plain "0") = ([Announced [0%Z]; Ran e], None).
Proof.
  exists ["ex01"; "ex02"; "fig7-kohler"], "fig7-kohler". split; [cbn; auto|]. split; [|vm_compute; reflexivity].
  intros e' H. apply numbered_item in H as [H _]. lia.
Qed.
Print Assumptions C126_zero_refuted.
(** the directory of the package *)
Definition directory : list string :=
  ["README.md"; "__init__.py"; "ex10.py"; "ex01.py"; "fig7-kohler.py"; "envexamples.py"; "fig1-matrices.png"; "invariant.py";
   "template.py"; "ex02.py"].
Example C126_example :
  short_examples directory = ["ex01"; "ex02"; "ex10"; "fig7-kohler"] /\ long_examples directory = ["invariant"] /\
  NoDup directory /\
  (let ts := [mkTyped 0 Plain [3%nat] 0; mkTyped 1 Plain [0%nat; 1%nat] 0] in
   Forall is_typed ts /\ commas (map typed_word ts) = "3, 01" /\
   Forall2 (numbered_as string (short_examples directory)) (map typed_value ts) ["ex10"; "ex01"]) /\
  has_char strange "two" = true /\ has_char strange "1.5" = true /\ int_of " +2 " = Ok 2%Z /\
  main (short_examples directory) (fun _ => None) (plain "3,9,1") =
    ([Announced [3%Z; 9%Z; 1%Z]; Ran "ex10"], Some IndexError).
Proof.
  split; [vm_compute; reflexivity|]. split; [vm_compute; reflexivity|].
  split; [apply distinctb_NoDup; vm_compute; reflexivity|]. split.
  - cbv zeta. split; [|split; [vm_compute; reflexivity|]].
    + repeat constructor; cbn; try (unfold is_digit; lia); discriminate.
    + constructor; [|constructor; [|constructor]]; apply numbered_item; split; vm_compute; try reflexivity; split; discriminate.
  - split; [reflexivity|]. split; [reflexivity|]. split; vm_compute; reflexivity.
Qed.
