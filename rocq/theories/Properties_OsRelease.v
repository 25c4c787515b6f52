(** C22, C23, C24: os-release files and menu titles. *)
From Coq Require Import List NArith Bool Lia.
From Verif Require Import Base MOsRelease MGeneration SCommon SOsRelease POsRelease.
Import ListNotations.
Open Scope N_scope.

(** ** C22 *)

(** The parser gives every key its last assigned value. *)
Theorem C22_parse : forall f k,
  file_ok f -> om_get k (os_release_parse (file_render f)) = last_value k (file_assigns f).
Proof. exact parse_file_get. Qed.
Print Assumptions C22_parse.

(** The grammar covers every text, so the previous theorem says what the
    parser does on every input. *)
Theorem C22_grammar_covers_all : forall text, exists f, file_ok f /\ file_render f = text.
Proof. exact every_text_is_a_file. Qed.
Print Assumptions C22_grammar_covers_all.

Definition example_file : file :=
  File [(Remark [] 35 [VChar 104; VEsc 105] true, 10);
        (Assign [32] (lit "VERSION ") [Blank 32; Double [DChar 97; DEsc 36; DEsc 98]; Single (lit " c ")] [], 10);
        (Bare [] (lit "nonsense"), 13);
        (Assign [] (lit "ID") [] [VChar 120; VEsc 32; VChar 121; VChar 32; VEsc 10], 10)]
       (CutDouble [] (lit "ID") [] [DChar 122] true).
Example C22_example :
  file_ok example_file /\
  last_value (lit "VERSION") (file_assigns example_file) = Some (lit "a$\b c ") /\
  last_value (lit "ID") (file_assigns example_file) = Some (lit "z") /\
  last_value (lit "nonsense") (file_assigns example_file) = None.
Proof.
  split; [|vm_compute; auto]. split.
  - repeat apply Forall_cons; try apply Forall_nil; cbn [fst snd]; (split; [|split; [exact I|unfold newline; lia]]).
    + split; [constructor|split; [now left|]]. repeat constructor; cbn; unfold newline; try lia; discriminate.
    + split; [repeat constructor|]. split.
      { exists 86, (lit "ERSION "). split; [reflexivity|]. unfold blank, newline. repeat (split; [lia|]).
        apply Forall_forall. cbn [In]. intros x Hx. vm_compute in Hx.
        repeat destruct Hx as [<-|Hx]; try contradiction; lia. }
      split; [|split; [constructor|discriminate]].
      repeat constructor; cbn; try lia; vm_compute; intuition discriminate.
    + split; [constructor|]. exists 110, (lit "onsense"). split; [reflexivity|]. unfold blank, newline. repeat (split; [lia|]).
      apply Forall_forall. cbn [In]. intros x Hx. vm_compute in Hx.
      repeat destruct Hx as [<-|Hx]; try contradiction; lia.
    + split; [constructor|]. split.
      { exists 73, [68]. split; [reflexivity|]. unfold blank, newline. repeat (split; [lia|]).
        repeat constructor; lia. }
      split; [constructor|]. split.
      * repeat constructor; cbn; unfold newline; lia.
      * intros c r [= <- <-]. unfold blank. lia.
  - cbn. split; [constructor|]. split.
    { exists 73, [68]. split; [reflexivity|]. unfold blank, newline. repeat (split; [lia|]). repeat constructor; lia. }
    split; [constructor|]. repeat constructor; cbn; lia.
Qed.

(** ** C23 *)

(** What the stub carries reads back as intended, provided the texts need no
    quoting. *)
Theorem C23_round_trip : forall g,
  (plain_text (g_sort_key g) /\ good_start (g_sort_key g) /\ good_end (g_sort_key g)) ->
  bs_label (g_spec g) <> [] -> plain_text (bs_label (g_spec g)) -> good_start (bs_label (g_spec g)) ->
  (forall n, g_specname g = Some n -> plain_text n) ->
  exists d, description (g_version g) (g_specname g) (built g) d /\
  forall k, om_get k (os_release_parse (os_release_display (os_release_of_generation g))) =
    if list_eq_dec N.eq_dec k (lit "ID") then Some (g_sort_key g)
    else if list_eq_dec N.eq_dec k (lit "PRETTY_NAME") then
      Some (bs_label (g_spec g) ++ lit " (" ++ d ++ lit ")")
    else if list_eq_dec N.eq_dec k (lit "VERSION_ID") then Some d
    else None.
Proof. exact osrel_round_trip. Qed.
Print Assumptions C23_round_trip.

Definition spec_with_label (l : str) : bootspec :=
  Bootspec (lit "/nix/store/t/init") (Some (lit "/nix/store/i/initrd")) None
    (lit "/nix/store/k/bzImage") [] l (lit "/nix/store/t") None [].
Definition labelled (v : N) (sp : option str) (l : str) : generation :=
  Generation v (Some (Date 2024 2 9)) sp (spec_with_label l) (lit "lanzaboote") [].

Example C23_example :
  let g := labelled 7 (Some (lit "fallback")) (lit "NixOS 24.11 ""Vicuna""") in
  plain_text (g_sort_key g) /\ good_start (g_sort_key g) /\ good_end (g_sort_key g) /\
  plain_text (bs_label (g_spec g)) /\ good_start (bs_label (g_spec g)) /\
  om_get (lit "PRETTY_NAME") (os_release_parse (os_release_display (os_release_of_generation g)))
  = Some (lit "NixOS 24.11 ""Vicuna"" (Generation 7-fallback, 2024-02-09)").
Proof.
  cbv zeta. split; [|split; [|split; [|split; [|split]]]].
  - vm_compute. repeat constructor; discriminate.
  - intros c r E. vm_compute in E. injection E as <- _. lia.
  - intros r c E. destruct (in_dec N.eq_dec c white_space) as [Hi|]; auto.
    apply (f_equal (@rev N)) in E. rewrite rev_unit in E. vm_compute in E. injection E as E _.
    subst c. vm_compute in Hi. intuition discriminate.
  - vm_compute. repeat constructor; discriminate.
  - intros c r E. vm_compute in E. injection E as <- _. lia.
  - vm_compute. reflexivity.
Qed.

(** Without those provisos it may read back differently: the values are not
    quoted when written. *)
Theorem C23_unquoted_in_general : exists g,
  om_get (lit "PRETTY_NAME") (os_release_of_generation g) <>
  om_get (lit "PRETTY_NAME") (os_release_parse (os_release_display (os_release_of_generation g))).
Proof. exists (labelled 7 None (lit "'NixOS' 24.11")). vm_compute. discriminate. Qed.
Print Assumptions C23_unquoted_in_general.

(** ** C24 *)

Theorem C24_titles_unique : forall g1 g2 s,
  om_get (lit "PRETTY_NAME") (os_release_of_generation g1) = Some s ->
  om_get (lit "PRETTY_NAME") (os_release_of_generation g2) = Some s ->
  ~ In 40 (bs_label (g_spec g1)) -> ~ In 40 (bs_label (g_spec g2)) ->
  g_version g1 = g_version g2 /\ g_specname g1 = g_specname g2 /\
  g_build_time g1 = g_build_time g2 /\ bs_label (g_spec g1) = bs_label (g_spec g2).
Proof. exact title_inj. Qed.
Print Assumptions C24_titles_unique.

Theorem C24_title_present : forall g, om_get (lit "PRETTY_NAME") (os_release_of_generation g) <> None.
Proof. exact title_present. Qed.
Print Assumptions C24_title_present.

Example C24_example :
  om_get (lit "PRETTY_NAME") (os_release_of_generation (labelled 7 (Some (lit "x, y")) (lit "NixOS")))
  = Some (lit "NixOS (Generation 7-x, y, 2024-02-09)") /\ ~ In 40 (lit "NixOS").
Proof. vm_compute. intuition discriminate. Qed.

(** The proviso is needed: with parentheses in labels two entries can have
    the same title. *)
Example C24_parenthesis_needed :
  om_get (lit "PRETTY_NAME") (os_release_of_generation
    (labelled 1 (Some (lit "a (Generation 2-b")) (lit "N"))) =
  om_get (lit "PRETTY_NAME") (os_release_of_generation
    (labelled 2 (Some (lit "b")) (lit "N (Generation 1-a"))).
Proof. vm_compute. reflexivity. Qed.
