(** Properties of histories of runs: C07, C08, C09, C10, C11, C13. *)
From Coq Require Import List NArith Bool Permutation.
From Verif Require Import Base MText PText MGeneration MNames MPe MFs MTool MInstall SCommon SNames SOsRelease SInstall PFs PInstall PEntry.
From Verif Require Import XWorld SHistory PHistory PHistories XMachine.
Import ListNotations.
Open Scope N_scope.

(** ** The example *)

Definition x_m : machine := x_machine [x_link1; x_link2].
Definition x_after (c : config) (m : fs) : fs := s_fs (fst (run_install x_world c m)).
Definition x_trace (c : config) (m : fs) : list op := s_trace (fst (run_install x_world c m)).
(** The ESP after installing the first generation, then both. *)
Lemma x_point_last c m d : x_trace c m <> [] -> point x_world c m (removelast (x_trace c m) ++ [last (x_trace c m) d]).
Proof.
  intros H. exists []. rewrite app_nil_r. fold (x_trace c m). revert H. generalize (x_trace c m). intros l. apply app_removelast_last.
Qed.
Lemma x_point_before c m : x_trace c m <> [] -> point x_world c m (removelast (x_trace c m)).
Proof. intros H. destruct (x_point_last c m (OChmod []) H) as [r E]. eexists. rewrite E, <- app_assoc. reflexivity. Qed.
Lemma x_no_removal os : forallb (fun o => match o with ORemove _ => false | _ => true end) os = true -> forall p, ~ In (ORemove p) os.
Proof. intros F p H. rewrite forallb_forall in F. specialize (F _ H). discriminate. Qed.
Definition x_c1 : config := x_config 0 0 None [x_link1].
Definition x_c12 : config := x_config 0 0 None [x_link1; x_link2].
Definition x_e1 : fs := x_after x_c1 x_esp.
Definition x_e2 : fs := x_after x_c12 x_e1.
(** The first generation and its specialisation-free entry. *)
Definition x_gen1 : generation := parse_boot_json 1 (Some (Date 2024 5 6)) x_one.
Definition x_name1 : name := utf8_encode (stub_name x_sha x_key 0 x_gen1).

Lemma x_m_sound : sound x_m.
Proof. apply x_sound. vm_compute. reflexivity. Qed.

Lemma x_m_fits fault limit tries links : incl links [x_link1; x_link2] -> fits x_m (x_env x_files fault) (x_config limit tries None links).
Proof. intros H. apply x_fit; [exact H | discriminate | discriminate]. Qed.

Lemma x_fits_1 : fits x_m x_world x_c1.
Proof. apply (x_m_fits x_good). intros l [<-|[]]. left; reflexivity. Qed.
Lemma x_fits_12 : fits x_m x_world x_c12.
Proof. apply (x_m_fits x_good). apply incl_refl. Qed.

Lemma x_history_esp : history x_m x_esp.
Proof. apply x_start. vm_compute. reflexivity. Qed.
Lemma x_history_1 : history x_m x_e1.
Proof.
  unfold x_e1, x_after. rewrite final_fs. eapply hi_run; [apply x_history_esp | apply x_fits_1 | apply final_point].
Qed.
Lemma x_history_2 : history x_m x_e2.
Proof.
  unfold x_e2, x_after. rewrite final_fs. eapply hi_run; [apply x_history_1 | apply x_fits_12 | apply final_point].
Qed.

Lemma x_named1 : named x_m x_key x_gen1 x_name1.
Proof. exists []. split; [constructor | vm_compute; reflexivity]. Qed.

(** ** C07 *)

(** C07: after a successful run without I/O errors on an ESP with any history,
    every generation of the selected links has a bootable entry.  [sound] says
    that names of specialisations contain no slash (see [C07_slash_refuted]),
    and that the hash has no collisions on the few texts that name entries;
    [fits] says that objcopy and the signing tool keep the added sections. *)
Theorem C07_bootable : forall M e c m,
  sound M -> fits M e c -> history M m -> no_faults e -> snd (run_install e c m) = Ok tt ->
  exists vs sel, links_versions (c_links c) vs /\ newest (c_limit c) vs sel /\
    forall g, In g (flat_map link_generations sel) -> boots M (s_fs (fst (run_install e c m))) g.
Proof. exact all_boot. Qed.
Print Assumptions C07_bootable.

(** With I/O errors, the same for the links [got] that could be read. *)
Theorem C07_bootable_with_errors : forall M e c m,
  sound M -> fits M e c -> history M m -> snd (run_install e c m) = Ok tt ->
  exists vs sel got, links_versions (c_links c) vs /\ newest (c_limit c) vs sel /\ incl got sel /\ got <> [] /\
    (no_faults e -> flat_map link_generations got = flat_map link_generations sel) /\
    forall g, In g (flat_map link_generations got) -> boots M (s_fs (fst (run_install e c m))) g.
Proof. exact all_boot_errors. Qed.
Print Assumptions C07_bootable_with_errors.

(** The second run of the example: three generations, one of them from before. *)
Example C07_bootable_ex :
  sound x_m /\ fits x_m x_world x_c12 /\ history x_m x_e1 /\ no_faults x_world /\
  snd (run_install x_world x_c12 x_e1) = Ok tt /\
  length (flat_map link_generations [(1, x_link1); (2, x_link2)]) = 3%nat /\
  lookup x_e1 (linux_file x_m x_name1) <> None.
Proof.
  split; [apply x_m_sound|]. split; [apply x_fits_12|]. split; [apply x_history_1|]. split; [intros t; reflexivity|].
  split; [vm_compute; reflexivity|]. split; [reflexivity | vm_compute; discriminate].
Qed.

(** The name of a specialisation may not contain a slash: its stub then lands
    in a directory below EFI/Linux and is removed by the same run. *)
Definition x_slash : bootspec :=
  x_spec (lit "/nix/store/ccc-linux-6.6/bzImage") (lit "/nix/store/ddd-initrd/initrd") (lit "/nix/store/two")
    [(lit "a/b", x_spec (lit "/nix/store/ccc-linux-6.6/bzImage") (lit "/nix/store/ddd-initrd/initrd") (lit "/nix/store/two-debug") [])].

Lemma slash_stub : forall M key g n x, named M key g n -> g_specname g = Some x -> In 47 x -> In 47 n.
Proof.
  intros M key g n x (cnt & _ & D) E H. apply utf8_encode_decode in D as [D _]. rewrite <- D.
  apply utf8_encode_In_ascii_conv; [reflexivity|]. apply in_or_app; left. unfold stub_prefix. rewrite E.
  do 3 (apply in_or_app; right). apply in_or_app; left. exact H.
Qed.

Theorem C07_slash_refuted : exists e c m g,
  no_faults e /\ complete_listings e /\ snd (run_install e c m) = Ok tt /\ selected c g /\
  forall M key n x b, ma_esp M = c_esp c -> named M key g n ->
    lookup (s_fs (fst (run_install e c m))) (linux_file M n) <> Some (NFile x b).
Proof.
  set (c := x_config 0 0 None [x_link1; x_link (lit "system-2-link") (Some x_slash)]).
  destruct (link_generations (2, x_link (lit "system-2-link") (Some x_slash))) as [|g0 [|g []]] eqn:E; try (vm_compute in E; discriminate).
  assert (g_specname g = Some (lit "a/b")) as SN by (vm_compute in E; injection E as _ <-; reflexivity).
  exists x_world, c, x_esp, g. split; [intros t; reflexivity|].
  split; [split; intros t l; apply Permutation_refl|]. split; [vm_compute; reflexivity|]. split.
  { exists [(1, x_link1); (2, x_link (lit "system-2-link") (Some x_slash))], [(1, x_link1); (2, x_link (lit "system-2-link") (Some x_slash))].
    split; [repeat constructor|]. split.
    - exists []. split; [apply Permutation_refl|]. split; [repeat constructor; vm_compute; discriminate|]. split; [reflexivity|].
      split; [intros X; contradiction X; reflexivity | constructor].
    - cbn [flat_map]. rewrite E. apply in_or_app; right. right; left; reflexivity. }
  intros M key n x b EM NM L. pose proof (slash_stub M key g n _ NM SN ltac:(right; left; reflexivity)) as IN.
  unfold linux_file in L. rewrite EM in L.
  assert (lookup (s_fs (fst (run_install x_world c x_esp))) (c_esp c ++ [lit "EFI"; lit "Linux"; n]) <> None) as NE by congruence.
  apply lookup_In in NE as [nd NE].
  assert (forallb (fun pn => match fst pn with [_; _; _; f] => forallb (fun x => negb (x =? 47)) f | _ => true end)
    (s_fs (fst (run_install x_world c x_esp))) = true) as CK by (vm_compute; reflexivity).
  rewrite forallb_forall in CK. specialize (CK _ NE). cbn [fst c c_esp x_config app] in CK.
  rewrite forallb_forall in CK. specialize (CK 47 IN). discriminate.
Qed.
Print Assumptions C07_slash_refuted.

(** ** C08 *)

(** C08: whatever the history, the file under a generation's name is a stub
    for that generation: it names a file with the hash of its kernel, and
    carries that hash, the generation's command line and its os-release text. *)
Theorem C08_own_stub : forall M m, sound M -> history M m ->
  forall g key n y b, ma_gens M g -> ma_keys M key -> named M key g n ->
    lookup m (linux_file M n) = Some (NFile y b) -> stub_for M g y.
Proof. exact own_stub. Qed.
Print Assumptions C08_own_stub.

(** After a successful run there is one for every selected generation, and the
    kernel file is there, too. *)
Theorem C08_own_kernel : forall M e c m,
  sound M -> fits M e c -> history M m -> no_faults e -> snd (run_install e c m) = Ok tt ->
  exists vs sel, links_versions (c_links c) vs /\ newest (c_limit c) vs sel /\
    forall g, In g (flat_map link_generations sel) ->
      exists key n y b, ma_keys M key /\ named M key g n /\
        lookup (s_fs (fst (run_install e c m))) (linux_file M n) = Some (NFile y b) /\
        stub_for M g y /\ own_kernel M (s_fs (fst (run_install e c m))) g y.
Proof. exact all_own. Qed.
Print Assumptions C08_own_kernel.

(** The first generation's entry after the second run. *)
Example C08_own_stub_ex :
  sound x_m /\ history x_m x_e2 /\ ma_gens x_m x_gen1 /\ ma_keys x_m x_key /\ named x_m x_key x_gen1 x_name1 /\
  exists y b, lookup x_e2 (linux_file x_m x_name1) = Some (NFile y b).
Proof.
  split; [apply x_m_sound|]. split; [apply x_history_2|]. split; [vm_compute; auto|]. split; [reflexivity|]. split; [apply x_named1|].
  eexists _, _. vm_compute. reflexivity.
Qed.

Example C08_own_kernel_ex :
  sound x_m /\ fits x_m x_world x_c12 /\ history x_m x_e1 /\ no_faults x_world /\
  snd (run_install x_world x_c12 x_e1) = Ok tt.
Proof.
  split; [apply x_m_sound|]. split; [apply x_fits_12|]. split; [apply x_history_1|]. split; [intros t; reflexivity | vm_compute; reflexivity].
Qed.

(** ** C09 *)

(** C09: a selected generation that could be booted before a run can be booted
    at every point of it, with any I/O errors. *)
Theorem C09_generation_boots : forall M e c m os g,
  sound M -> fits M e c -> history M m -> point e c m os ->
  ma_gens M g -> always_selected c g -> boots M m g -> boots M (apply_all os m) g.
Proof. intros M e c m os g SO FI H PT. apply (selected_boots M e c m os SO FI H PT). Qed.
Print Assumptions C09_generation_boots.

(** Before the first removal this holds for every single entry. *)
Theorem C09_entry_boots_partial : forall M e c m os n y b,
  sound M -> fits M e c -> history M m -> point e c m os -> (forall p, ~ In (ORemove p) os) ->
  (exists g key, ma_gens M g /\ ma_keys M key /\ named M key g n) ->
  lookup m (linux_file M n) = Some (NFile y b) -> bootable M m y ->
  exists y' b', lookup (apply_all os m) (linux_file M n) = Some (NFile y' b') /\ bootable M (apply_all os m) y'.
Proof. intros M e c m os n y b SO FI H PT. apply (still_bootable M e c m os SO FI H PT). Qed.
Print Assumptions C09_entry_boots_partial.

(** At every point the files named after hashes and generations are complete. *)
Theorem C09_no_partial_files : forall M e c m os,
  sound M -> fits M e c -> history M m -> point e c m os ->
  (forall n x y b, lookup (apply_all os m) (nixos_file M (n ++ lit "-" ++ base32 (ma_sha M x) ++ lit ".efi")) = Some (NFile y b) ->
     ma_sha M y = ma_sha M x) /\
  (forall g key n y b, ma_gens M g -> ma_keys M key -> named M key g n ->
     lookup (apply_all os m) (linux_file M n) = Some (NFile y b) -> stub_for M g y).
Proof.
  intros M e c m os SO FI H PT. destruct (point_ok M e c m os SO FI H PT) as [CO EO]. split; [|exact EO].
  intros n x y b L. specialize (CO n x). rewrite L in CO. apply CO.
Qed.
Print Assumptions C09_no_partial_files.

(** At every point a stub that was not there before has its kernel and initrd. *)
Theorem C09_new_stubs_complete : forall M e c m os n y b,
  sound M -> fits M e c -> history M m -> point e c m os ->
  (exists r, n = r ++ lit ".efi") -> lookup (apply_all os m) (linux_file M n) = Some (NFile y b) ->
  (exists b0, lookup m (linux_file M n) = Some (NFile y b0)) \/ bootable M (apply_all os m) y.
Proof. intros M e c m os n y b SO FI H PT. apply (new_bootable M e c m os SO FI H PT). Qed.
Print Assumptions C09_new_stubs_complete.

(** A section that names a file in EFI/nixos. *)
Definition x_plain (n : str) : bool := forallb (fun z => negb (z =? 47) && negb (z =? 92)) n && (3 <? N.of_nat (length n)).

Lemma x_efi_path n : x_plain n = true -> efi_path x_m (lit "\EFI\nixos\" ++ n) (nixos_file x_m n).
Proof.
  intros C. unfold x_plain in C. rewrite andb_true_iff, forallb_forall in C. destruct C as [C1 C2].
  exists [lit "EFI"; lit "nixos"; n]. split; [discriminate|]. split; [|split; [|reflexivity]].
  - repeat constructor; try discriminate; try (intros X; vm_compute in X; intuition discriminate).
    + intros ->. discriminate.
    + intros ->. discriminate.
    + intros X. specialize (C1 47 X). discriminate.
    + intros X. specialize (C1 92 X). discriminate.
  - cbn [flat_map]. rewrite app_nil_r. reflexivity.
Qed.

Lemma x_section_file m y s h n x b :
  read_section_data x_parse y s = Ok (Some (lit "\EFI\nixos\" ++ n)) -> read_section_data x_parse y h = Ok (Some (x_sha x)) ->
  x_plain n = true -> lookup m (nixos_file x_m n) = Some (NFile x b) -> section_file x_m m y s h.
Proof.
  intros S H C L.
  exists (lit "\EFI\nixos\" ++ n), (x_sha x), (nixos_file x_m n), x, b.
  split; [apply has_section_read; exact S|]. split; [apply has_section_read; exact H|]. split; [apply x_efi_path; exact C | split; [exact L | reflexivity]].
Qed.

Definition x_kernel1 : name := content_name x_m (lit "kernel-6.1") (lit "kernel one").
Definition x_initrd1 : name := content_name x_m (lit "initrd-6.1") (lit "initrd one").
(** The content of a file. *)
Definition x_content (m : fs) (p : path) : bytes := match lookup m p with Some (NFile y _) => y | _ => [] end.
Definition x_stub1 : bytes := x_content x_e1 (linux_file x_m x_name1).

Lemma x_stub1_bootable m :
  lookup m (nixos_file x_m x_kernel1) = Some (NFile (lit "kernel one") true) ->
  lookup m (nixos_file x_m x_initrd1) = Some (NFile (lit "initrd one") true) -> bootable x_m m x_stub1.
Proof.
  intros L1 L2. split.
  - apply (x_section_file m x_stub1 _ _ x_kernel1 (lit "kernel one") true); [vm_compute; reflexivity | vm_compute; reflexivity | vm_compute; reflexivity | exact L1].
  - apply (x_section_file m x_stub1 _ _ x_initrd1 (lit "initrd one") true); [vm_compute; reflexivity | vm_compute; reflexivity | vm_compute; reflexivity | exact L2].
Qed.

Lemma x_selected1 : always_selected x_c12 x_gen1.
Proof.
  intros vs sel LV (skipped & PM & _ & SK & _). rewrite (SK eq_refl) in PM. cbn [app] in PM.
  assert (vs = [(1, x_link1); (2, x_link2)]) as ->.
  { cbn [c_links x_c12 x_config] in LV. inversion LV as [|? [v1 l1] ? vs1 [E1 F1] LV1]; subst. inversion LV1 as [|? [v2 l2] ? vs2 [E2 F2] LV2]; subst.
    inversion LV2; subst. cbn [fst snd] in *. subst. vm_compute in F1, F2. injection F1 as <-. injection F2 as <-. reflexivity. }
  apply in_flat_map. exists (1, x_link1). split; [eapply Permutation_in; [exact PM | left; reflexivity] | left; reflexivity].
Qed.

(** The first generation is bootable before the second run, which is killed in
    the middle. *)
Example C09_generation_boots_ex :
  let os := firstn 7 (x_trace x_c12 x_e1) in
  sound x_m /\ fits x_m x_world x_c12 /\ history x_m x_e1 /\ point x_world x_c12 x_e1 os /\
  ma_gens x_m x_gen1 /\ always_selected x_c12 x_gen1 /\ boots x_m x_e1 x_gen1 /\
  exists p x, In (OWrite p x) os.
Proof.
  cbv zeta. split; [apply x_m_sound|]. split; [apply x_fits_12|]. split; [apply x_history_1|].
  split; [exists (skipn 7 (x_trace x_c12 x_e1)); symmetry; apply firstn_skipn|].
  split; [vm_compute; auto|]. split; [apply x_selected1|]. split.
  - exists x_key, x_name1, x_stub1, true. split; [reflexivity|]. split; [apply x_named1|]. split; [vm_compute; reflexivity|].
    apply x_stub1_bootable; vm_compute; reflexivity.
  - eexists _, _. vm_compute. right; left. reflexivity.
Qed.

Example C09_entry_boots_ex :
  let os := firstn 7 (x_trace x_c12 x_e1) in
  sound x_m /\ fits x_m x_world x_c12 /\ history x_m x_e1 /\ point x_world x_c12 x_e1 os /\
  (forall p, ~ In (ORemove p) os) /\
  (exists g key, ma_gens x_m g /\ ma_keys x_m key /\ named x_m key g x_name1) /\
  lookup x_e1 (linux_file x_m x_name1) = Some (NFile x_stub1 true) /\ bootable x_m x_e1 x_stub1.
Proof.
  cbv zeta. split; [apply x_m_sound|]. split; [apply x_fits_12|]. split; [apply x_history_1|].
  split; [exists (skipn 7 (x_trace x_c12 x_e1)); symmetry; apply firstn_skipn|].
  split; [apply x_no_removal; vm_compute; reflexivity|].
  split; [exists x_gen1, x_key; split; [vm_compute; auto|]; split; [reflexivity | apply x_named1]|].
  split; [vm_compute; reflexivity|]. apply x_stub1_bootable; vm_compute; reflexivity.
Qed.

Example C09_no_partial_files_ex :
  sound x_m /\ fits x_m x_world x_c12 /\ history x_m x_e1 /\ point x_world x_c12 x_e1 (firstn 12 (x_trace x_c12 x_e1)).
Proof.
  split; [apply x_m_sound|]. split; [apply x_fits_12|]. split; [apply x_history_1|].
  exists (skipn 12 (x_trace x_c12 x_e1)). symmetry. apply firstn_skipn.
Qed.

(** The new stub of the first run. *)
Example C09_new_stubs_complete_ex :
  sound x_m /\ fits x_m x_world x_c1 /\ history x_m x_esp /\ point x_world x_c1 x_esp (x_trace x_c1 x_esp) /\
  (exists r, x_name1 = r ++ lit ".efi") /\
  lookup (apply_all (x_trace x_c1 x_esp) x_esp) (linux_file x_m x_name1) = Some (NFile x_stub1 true) /\
  lookup x_esp (linux_file x_m x_name1) = None.
Proof.
  split; [apply x_m_sound|]. split; [apply x_fits_1|]. split; [apply x_history_esp|]. split; [apply final_point|].
  split; [exists (utf8_encode (stub_prefix x_sha x_key x_gen1)); vm_compute; reflexivity|]. split; vm_compute; reflexivity.
Qed.

(** A single entry can go: of two entries for the same generation, the
    collection removes one.  Two entries come about when a counter has been
    changed and the pcrlock component is missing. *)
Definition x_lockdir : path := [lit "var"; lit "pcrlock.d"].
Definition x_cc (lock : option path) : config := x_config 0 3 lock [x_link1].
Definition x_left3 : name := utf8_encode (stub_prefix x_sha x_key x_gen1 ++ lit "+3.efi").
Definition x_left2 : name := utf8_encode (stub_prefix x_sha x_key x_gen1 ++ lit "+2-1.efi").
Definition x_d1 : fs := x_after (x_cc None) x_esp.
Definition x_d2 : fs := apply (ORename (linux_file x_m x_left3) (linux_file x_m x_left2)) x_d1.
Definition x_d3 : fs := x_after (x_cc (Some x_lockdir)) x_d2.

Lemma x_cc_fits lock : lock = None \/ lock = Some x_lockdir -> fits x_m x_world (x_cc lock).
Proof.
  intros H. apply (x_fit [x_link1; x_link2] x_good 0 3 lock [x_link1]).
  - intros l [<-|[]]. left; reflexivity.
  - destruct H as [-> | ->]; discriminate.
  - intros d r. destruct H as [-> | ->]; [discriminate|]. intros [= <- _]. discriminate.
Qed.

Lemma x_left3_named : named x_m x_key x_gen1 x_left3.
Proof. exists (lit "+3"). split; [apply (counter_left _ (lit "3")); [discriminate | reflexivity] | vm_compute; reflexivity]. Qed.
Lemma x_left2_named : named x_m x_key x_gen1 x_left2.
Proof. exists (lit "+2-1"). split; [apply (counter_both _ (lit "2") (lit "1")); [discriminate | discriminate | reflexivity | reflexivity] | vm_compute; reflexivity]. Qed.

Lemma x_history_d3 : history x_m x_d3.
Proof.
  unfold x_d3, x_after. rewrite final_fs. eapply hi_run; [|apply x_cc_fits; right; reflexivity | apply final_point].
  unfold x_d2. eapply (hi_count x_m x_d1 x_gen1 x_key).
  - unfold x_d1, x_after. rewrite final_fs. eapply hi_run; [apply x_history_esp | apply x_cc_fits; left; reflexivity | apply final_point].
  - vm_compute. auto.
  - reflexivity.
  - apply x_left3_named.
  - apply x_left2_named.
  - vm_compute. reflexivity.
Qed.

Lemma x_cc_selected lock : always_selected (x_cc lock) x_gen1.
Proof.
  intros vs sel LV (skipped & PM & _ & SK & _). rewrite (SK eq_refl) in PM. cbn [app] in PM.
  assert (vs = [(1, x_link1)]) as ->.
  { cbn [c_links x_cc x_config] in LV. inversion LV as [|? [v1 l1] ? vs1 [E1 F1] LV1]; subst.
    inversion LV1; subst. cbn [fst snd] in *. subst. vm_compute in F1. injection F1 as <-. reflexivity. }
  apply in_flat_map. exists (1, x_link1). split; [eapply Permutation_in; [exact PM | left; reflexivity] | left; reflexivity].
Qed.

Theorem C09_every_entry_refuted : exists M e c m os g key n y b,
  sound M /\ fits M e c /\ history M m /\ point e c m os /\ no_faults e /\
  ma_gens M g /\ always_selected c g /\ ma_keys M key /\ named M key g n /\
  lookup m (linux_file M n) = Some (NFile y b) /\ bootable M m y /\
  lookup (apply_all os m) (linux_file M n) = None.
Proof.
  exists x_m, x_world, (x_cc (Some x_lockdir)), x_d3, (x_trace (x_cc (Some x_lockdir)) x_d3), x_gen1, x_key, x_left2, x_stub1, true.
  split; [apply x_m_sound|]. split; [apply x_cc_fits; right; reflexivity|]. split; [apply x_history_d3|]. split; [apply final_point|].
  split; [intros t; reflexivity|]. split; [vm_compute; auto|]. split; [apply x_cc_selected|]. split; [reflexivity|]. split; [apply x_left2_named|].
  split; [vm_compute; reflexivity|]. split; [apply x_stub1_bootable; vm_compute; reflexivity | vm_compute; reflexivity].
Qed.
Print Assumptions C09_every_entry_refuted.

(** ** C10 *)

(** C10: with power losses at any points of any runs, a file in EFI/nixos with
    a hash in its name has that hash. *)
Theorem C10_contents : forall M m, sound M -> rough_history M m ->
  forall n x y b, lookup m (nixos_file M (n ++ lit "-" ++ base32 (ma_sha M x) ++ lit ".efi")) = Some (NFile y b) ->
    ma_sha M y = ma_sha M x.
Proof. exact rough_contents. Qed.
Print Assumptions C10_contents.

(** Once a run has begun to remove files, every selected generation has an
    entry that a power loss does not change, whatever the state before the run. *)
Theorem C10_entries_durable : forall M e c m os p,
  sound M -> fits M e c -> point e c m (os ++ [ORemove p]) ->
  exists vs sel, links_versions (c_links c) vs /\ newest (c_limit c) vs sel /\
    forall g, In g (flat_map link_generations sel) ->
      exists key n y, ma_keys M key /\ named M key g n /\
        forall m', after_loss (apply_all os m) m' -> lookup m' (linux_file M n) = Some (NFile y true).
Proof. exact removal_posted. Qed.
Print Assumptions C10_entries_durable.

(** If there was no power loss before that run, these generations boot after
    a loss. *)
Theorem C10_boots_after_loss : forall M e c m os p m',
  sound M -> fits M e c -> history M m -> point e c m (os ++ [ORemove p]) -> after_loss (apply_all os m) m' ->
  exists vs sel, links_versions (c_links c) vs /\ newest (c_limit c) vs sel /\
    forall g, In g (flat_map link_generations sel) -> boots M m' g.
Proof. exact removal_boots. Qed.
Print Assumptions C10_boots_after_loss.

(** All unsynced contents lost. *)
Definition x_lose_node (n : node) : node := match n with NFile _ false => NFile [] false | n => n end.
Definition x_lose (m : fs) : fs := map (fun pn => (fst pn, x_lose_node (snd pn))) m.

Lemma x_lose_lookup m p : lookup (x_lose m) p = option_map x_lose_node (lookup m p).
Proof.
  induction m as [|[q n] m IH]; [reflexivity|]. cbn [x_lose map fst snd lookup]. destruct (eqb_path q p); [reflexivity | exact IH].
Qed.

Lemma x_lose_after m : after_loss m (x_lose m).
Proof.
  intros p. rewrite x_lose_lookup. destruct (lookup m p) as [[|x [|]]|]; cbn; eauto.
Qed.

(** A loss while the first kernel is written; the temporary file is cut. *)
Example C10_contents_ex :
  let m := x_lose (apply_all (firstn 3 (x_trace x_c1 x_esp)) x_esp) in
  sound x_m /\ rough_history x_m m /\ exists p, In (p, NFile [] false) m.
Proof.
  cbv zeta. split; [apply x_m_sound|]. split.
  - eapply ro_loss; [|apply x_lose_after]. eapply ro_run; [|apply x_fits_1 | exists (skipn 3 (x_trace x_c1 x_esp)); symmetry; apply firstn_skipn].
    apply ro_start. apply (history_ok _ _ x_m_sound x_history_esp).
  - eexists. vm_compute. left. reflexivity.
Qed.

(** The first removal of the second run. *)
Definition x_removal : list op := removelast (x_trace x_c12 x_esp).
Example C10_entries_durable_ex :
  sound x_m /\ fits x_m x_world x_c12 /\ history x_m x_esp /\
  (exists p, point x_world x_c12 x_esp (x_removal ++ [ORemove p])) /\
  after_loss (apply_all x_removal x_esp) (x_lose (apply_all x_removal x_esp)).
Proof.
  split; [apply x_m_sound|]. split; [apply x_fits_12|]. split; [apply x_history_esp|]. split; [|apply x_lose_after].
  assert (exists p, last (x_trace x_c12 x_esp) (OChmod []) = ORemove p) as [p L] by (eexists; vm_compute; reflexivity).
  exists p. rewrite <- L. unfold x_removal. apply x_point_last. vm_compute. discriminate.
Qed.

(** ** C11 *)

(** The part of C11 that holds: after a successful run the selected
    generations boot even if the power fails then. *)
Theorem C11_success_partial : forall M e c m m',
  sound M -> fits M e c -> history M m -> no_faults e -> snd (run_install e c m) = Ok tt ->
  after_loss (s_fs (fst (run_install e c m))) m' ->
  exists vs sel, links_versions (c_links c) vs /\ newest (c_limit c) vs sel /\
    forall g, In g (flat_map link_generations sel) -> boots M m' g.
Proof. exact success_boots. Qed.
Print Assumptions C11_success_partial.

Example C11_success_ex :
  sound x_m /\ fits x_m x_world x_c12 /\ history x_m x_e1 /\ no_faults x_world /\ snd (run_install x_world x_c12 x_e1) = Ok tt /\
  after_loss (s_fs (fst (run_install x_world x_c12 x_e1))) (x_lose (s_fs (fst (run_install x_world x_c12 x_e1)))).
Proof.
  split; [apply x_m_sound|]. split; [apply x_fits_12|]. split; [apply x_history_1|]. split; [intros t; reflexivity|].
  split; [vm_compute; reflexivity | apply x_lose_after].
Qed.

(** A stub is renamed into place before its content is synced: a power loss
    between the rename and the sync of the ESP can leave an empty one. *)
Theorem C11_stub_refuted : exists M e c m os m' g key n y b,
  sound M /\ fits M e c /\ history M m /\ no_faults e /\ point e c m os /\ after_loss (apply_all os m) m' /\
  ma_gens M g /\ ma_keys M key /\ named M key g n /\
  lookup (apply_all os m) (linux_file M n) = Some (NFile y b) /\ stub_for M g y /\
  lookup m' (linux_file M n) = Some (NFile [] false).
Proof.
  exists x_m, x_world, x_c1, x_esp, (firstn 14 (x_trace x_c1 x_esp)), (x_lose (apply_all (firstn 14 (x_trace x_c1 x_esp)) x_esp)).
  exists x_gen1, x_key, x_name1, x_stub1, false.
  assert (point x_world x_c1 x_esp (firstn 14 (x_trace x_c1 x_esp))) as PT
    by (exists (skipn 14 (x_trace x_c1 x_esp)); symmetry; apply firstn_skipn).
  assert (lookup (apply_all (firstn 14 (x_trace x_c1 x_esp)) x_esp) (linux_file x_m x_name1) = Some (NFile x_stub1 false)) as L
    by (vm_compute; reflexivity).
  split; [apply x_m_sound|]. split; [apply x_fits_1|]. split; [apply x_history_esp|]. split; [intros t; reflexivity|].
  split; [exact PT|]. split; [apply x_lose_after|]. split; [vm_compute; auto|]. split; [reflexivity|]. split; [apply x_named1|].
  split; [exact L|]. split.
  - eapply (own_stub x_m _ x_m_sound); [eapply hi_run; [apply x_history_esp | apply x_fits_1 | exact PT] | vm_compute; auto | reflexivity | apply x_named1 | exact L].
  - vm_compute. reflexivity.
Qed.
Print Assumptions C11_stub_refuted.

(** The boot loader is installed after the only sync of the ESP: a power loss
    right after a successful run can leave both its files empty. *)
Theorem C11_boot_loader_refuted : exists M e c m m',
  sound M /\ fits M e c /\ history M m /\ no_faults e /\ snd (run_install e c m) = Ok tt /\
  after_loss (s_fs (fst (run_install e c m))) m' /\
  forall p, In p (boot_paths c) -> lookup m' p = Some (NFile [] false).
Proof.
  exists x_m, x_world, x_c1, x_esp, (x_lose (s_fs (fst (run_install x_world x_c1 x_esp)))).
  split; [apply x_m_sound|]. split; [apply x_fits_1|]. split; [apply x_history_esp|]. split; [intros t; reflexivity|].
  split; [vm_compute; reflexivity|]. split; [apply x_lose_after|].
  intros p H. cbn [boot_paths x_c1 x_config c_arch In] in H. destruct H as [<-|[<-|[]]]; vm_compute; reflexivity.
Qed.
Print Assumptions C11_boot_loader_refuted.

(** ** C13 *)

(** The part of C13 that holds: until the first removal, every bootable entry
    stays bootable, and until the end every selected generation. *)
Theorem C13_before_removal_partial : forall M e c m os n y b,
  sound M -> fits M e c -> history M m -> point e c m os -> (forall p, ~ In (ORemove p) os) ->
  (exists g key, ma_gens M g /\ ma_keys M key /\ named M key g n) ->
  lookup m (linux_file M n) = Some (NFile y b) -> bootable M m y ->
  exists y' b', lookup (apply_all os m) (linux_file M n) = Some (NFile y' b') /\ bootable M (apply_all os m) y'.
Proof. exact C09_entry_boots_partial. Qed.
Print Assumptions C13_before_removal_partial.

(** The first entry during the second run. *)
Example C13_before_removal_ex :
  let os := firstn 7 (x_trace x_c12 x_e1) in
  sound x_m /\ fits x_m x_world x_c12 /\ history x_m x_e1 /\ point x_world x_c12 x_e1 os /\
  (forall p, ~ In (ORemove p) os) /\
  (exists g key, ma_gens x_m g /\ ma_keys x_m key /\ named x_m key g x_name1) /\
  lookup x_e1 (linux_file x_m x_name1) = Some (NFile x_stub1 true) /\ bootable x_m x_e1 x_stub1.
Proof. exact C09_entry_boots_ex. Qed.

(** Kernels and initrds are removed before the entries that use them: a run
    killed in between leaves an entry without a kernel. *)
Theorem C13_no_dangling_refuted : exists M e c m os g key n y b,
  sound M /\ fits M e c /\ history M m /\ no_faults e /\ point e c m os /\
  ma_gens M g /\ ma_keys M key /\ named M key g n /\
  lookup m (linux_file M n) = Some (NFile y b) /\ bootable M m y /\
  lookup (apply_all os m) (linux_file M n) = Some (NFile y b) /\ ~ bootable M (apply_all os m) y.
Proof.
  set (c := x_config 1 0 None [x_link1; x_link2]). set (os := removelast (x_trace c x_e2)).
  exists x_m, x_world, c, x_e2, os, x_gen1, x_key, x_name1, x_stub1, true.
  split; [apply x_m_sound|]. split; [apply (x_m_fits x_good); apply incl_refl|]. split; [apply x_history_2|]. split; [intros t; reflexivity|].
  split; [apply x_point_before; vm_compute; discriminate|].
  split; [vm_compute; auto|]. split; [reflexivity|]. split; [apply x_named1|]. split; [vm_compute; reflexivity|].
  split; [apply x_stub1_bootable; vm_compute; reflexivity|]. split; [vm_compute; reflexivity|].
  intros [(k & h & p & x & b & S & _ & EP & L & _) _].
  assert (has_section (ma_parse x_m) x_stub1 (lit ".linux") (lit "\EFI\nixos\" ++ x_kernel1)) as S' by (apply has_section_read; vm_compute; reflexivity).
  pose proof (has_section_fun _ _ _ _ _ S S') as ->.
  assert (p = nixos_file x_m x_kernel1) as ->.
  { eapply efi_path_fun; [exact EP|]. apply x_efi_path. vm_compute. reflexivity. }
  assert (lookup (apply_all os x_e2) (nixos_file x_m x_kernel1) = None) as E by (vm_compute; reflexivity).
  congruence.
Qed.
Print Assumptions C13_no_dangling_refuted.
