(** C49, C50: installed entries and what is beside them. *)
From Coq Require Import List NArith Bool Lia.
From Verif Require Import Base MText MGeneration MNames SNames MPe MFs MTool MInstall SInstall POwned PEntry XWorld.
Import ListNotations.
Open Scope N_scope.

Definition x_c1 : config := x_config 0 0 None [x_link1].
Definition x_g1 : generation := parse_boot_json 1 (Some (Date 2024 5 6)) x_one.
Definition x_entry1 : name := utf8_encode (stub_name x_sha x_key 0 x_g1).
Definition x_entry1_path : path := [lit "boot"; lit "EFI"; lit "Linux"; x_entry1].
Definition x_installed : fs := s_fs (fst (run_install x_world x_c1 x_esp)).
Definition x_extra : path := [lit "boot"; lit "EFI"; lit "Linux"; x_entry1 ++ lit ".extra"].

Lemma x_selected1 : selected x_c1 x_g1.
Proof.
  exists [(1, x_link1)], [(1, x_link1)]. split; [repeat constructor|]. split; [|left; reflexivity].
  exists []. split; [apply Permutation.Permutation_refl|]. split; [repeat constructor|]. split; [reflexivity|].
  split; [intros H; destruct (H eq_refl) | constructor].
Qed.

(** ** C49 *)

(** What holds: global credentials are untouched at every point of every run.
    Missing: the drop-in directories of single entries. *)
Theorem C49_global_partial : forall e c m os r,
  separate c -> honest_listings e -> point e c m os ->
  let p := in_esp c ([lit "loader"; lit "credentials"] ++ r) in
  node_like (lookup (apply_all os m) p) (lookup m p).
Proof. exact global_credentials. Qed.
Print Assumptions C49_global_partial.

Example C49_global_partial_ex :
  separate x_c1 /\ honest_listings x_world /\
  let m := x_esp ++ [([lit "boot"; lit "loader"], NDir); ([lit "boot"; lit "loader"; lit "credentials"], NDir);
                     ([lit "boot"; lit "loader"; lit "credentials"; lit "a.cred"], NFile (lit "secret") true)] in
  snd (run_install x_world x_c1 m) = Ok tt /\
  lookup (s_fs (fst (run_install x_world x_c1 m))) [lit "boot"; lit "loader"; lit "credentials"; lit "a.cred"]
    = Some (NFile (lit "secret") true).
Proof.
  split; [intros d [=]|]. split; [split; intros t l x H; exact H|]. vm_compute. split; reflexivity.
Qed.

(** The drop-in directory of an intact selected generation is deleted by a
    successful run, although the entry itself is kept. *)
Theorem C49_dropins_survive_refuted :
  exists e c m g key n stub cred,
    no_faults e /\ separate c /\ selected c g /\ sg_key (e_signer e) = Some key /\ recognised e key g n /\
    intact e c m key g /\
    lookup m (in_esp c [lit "EFI"; lit "Linux"; n]) = Some (NFile stub true) /\
    lookup m (in_esp c [lit "EFI"; lit "Linux"; n ++ lit ".extra"; lit "a.cred"]) = Some (NFile cred true) /\
    snd (run_install e c m) = Ok tt /\
    lookup (s_fs (fst (run_install e c m))) (in_esp c [lit "EFI"; lit "Linux"; n]) = Some (NFile stub true) /\
    lookup (s_fs (fst (run_install e c m))) (in_esp c [lit "EFI"; lit "Linux"; n ++ lit ".extra"; lit "a.cred"]) = None.
Proof.
  exists x_world, x_c1, (x_installed ++ [(x_extra, NDir); (x_extra ++ [lit "a.cred"], NFile (lit "secret") true)]),
    x_g1, x_key, x_entry1.
  eexists. exists (lit "secret").
  split; [intros t; reflexivity|]. split; [intros d [=]|]. split.
  { exact x_selected1. }
  split; [reflexivity|]. split; [exists []; split; [constructor | vm_compute; reflexivity]|].
  split.
  { exists x_entry1. do 6 eexists. split; [exists []; split; [constructor | vm_compute; reflexivity]|].
    split; [vm_compute; reflexivity|]. rewrite !has_section_read.
    split; [vm_compute; reflexivity|]. split; [vm_compute; reflexivity|]. split; [vm_compute; reflexivity|].
    split; [vm_compute; reflexivity|]. split; [vm_compute; reflexivity|]. vm_compute; reflexivity. }
  split; [vm_compute; reflexivity|]. split; [vm_compute; reflexivity|]. split; [vm_compute; reflexivity|].
  split; vm_compute; reflexivity.
Qed.
Print Assumptions C49_dropins_survive_refuted.

(** ** C50 *)

(** What holds, for all I/O errors: unless a file under the generation's name
    makes the tool panic, looking for the entry never panics, changes nothing,
    without I/O errors always has an answer, and accepts only an entry whose
    kernel and initrd are there (otherwise the generation is installed again).
    Missing: the contents excluded by the hypothesis. *)
Theorem C50_damaged_partial : forall e c,
  digit_class (e_digit e) -> forall g s,
  (forall key n y b sec, sg_key (e_signer e) = Some key -> recognised e key g n ->
     lookup (s_fs s) (in_esp c [lit "EFI"; lit "Linux"; n]) = Some (NFile y b) -> In sec [lit ".linux"; lit ".initrd"] ->
     ~ section_panics (e_parse e) y sec /\ ~ section_empty (e_parse e) y sec) ->
  let '(s', r) := register_installed_generation e c g s in
  s_fs s' = s_fs s /\ s_trace s' = s_trace s /\ r <> Panic /\
  (no_faults e -> sg_key (e_signer e) <> None -> exists b, r = Ok b) /\
  (r = Ok true -> exists key, sg_key (e_signer e) = Some key /\ intact e c (s_fs s) key g).
Proof. exact register_outcome. Qed.
Print Assumptions C50_damaged_partial.

(** Garbage and a stub naming a missing kernel are reinstalled. *)
Example C50_damaged_partial_ex :
  digit_class (e_digit x_world) /\
  (forall y, In y [lit "garbage"; [77; 90]; [77; 90] ++ x_block (lit ".linux") (lit "\EFI\nixos\gone.efi")] ->
     let m := x_esp ++ [(x_entry1_path, NFile y true)] in
     snd (register_installed_generation x_world x_c1 x_g1 (start x_c1 m)) = Ok false /\
     snd (run_install x_world x_c1 m) = Ok tt /\
     lookup (s_fs (fst (run_install x_world x_c1 m))) x_entry1_path = lookup x_installed x_entry1_path) /\
  snd (register_installed_generation x_world x_c1 x_g1 (start x_c1 x_installed)) = Ok true.
Proof.
  split; [|split].
  - intros n Hn. cbn. rewrite andb_true_iff, !N.leb_le. lia.
  - intros y [<- |[<- |[<- |[]]]]; vm_compute; repeat split; reflexivity.
  - vm_compute. reflexivity.
Qed.

(** An entry with an empty .linux section, or one cut off, stops every run. *)
Theorem C50_not_fatal_refuted :
  exists e c m g key n y,
    no_faults e /\ separate c /\ selected c g /\ sg_key (e_signer e) = Some key /\ recognised e key g n /\
    lookup m (in_esp c [lit "EFI"; lit "Linux"; n]) = Some (NFile y true) /\
    snd (run_install e c m) = Panic /\
    snd (run_install e c (fs_remove (in_esp c [lit "EFI"; lit "Linux"; n]) m)) = Ok tt.
Proof.
  exists x_world, x_c1, (x_esp ++ [(x_entry1_path, NFile ([77; 90] ++ x_block (lit ".linux") []) true)]),
    x_g1, x_key, x_entry1. eexists.
  split; [intros t; reflexivity|]. split; [intros d [=]|]. split.
  { exact x_selected1. }
  split; [reflexivity|]. split; [exists []; split; [constructor | vm_compute; reflexivity]|].
  split; [vm_compute; reflexivity|]. split; vm_compute; reflexivity.
Qed.
Print Assumptions C50_not_fatal_refuted.
