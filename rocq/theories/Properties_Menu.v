(** C69, C70: the boot menu of systemd-boot. *)
From Coq Require Import List NArith Bool Lia.
From Verif Require Import Base MText MFs MOsRelease MGeneration MNames SCommon SOsRelease SMenu SNames SInstall SHistory
  PHistory PMenu PCount XWorld XMachine Properties_OsRelease Properties_History.
Import ListNotations.
Open Scope N_scope.

(** The specification of version order agrees with systemd's own test. *)
Fixpoint ascending (l : list (list N)) : bool :=
  match l with
  | [] => true
  | a :: l' => forallb (fun b => match version_cmp a b, version_cmp b a with Lt, Gt => true | _, _ => false end) l' && ascending l'
  end.
Example version_order :
  ascending [lit "~1"; lit ""; lit "ab"; lit "abb"; lit "abc"; lit "0001"; lit "002"; lit "12"; lit "122"; lit "122.9";
    lit "123~rc1"; lit "123"; lit "123-a"; lit "123-a.1"; lit "123-a1"; lit "123-a1.1"; lit "123-3"; lit "123-3.1";
    lit "123^patch1"; lit "123^1"; lit "123.a-1"; lit "123.1-1"; lit "123a-1"; lit "124"] = true.
Proof. vm_compute. reflexivity. Qed.

(** ** C69 *)

(** systemd-boot reads the intended title, sort key and version. *)
Theorem C69_read : forall g id l k, menu_ready g -> exists d,
  description (g_version g) (g_specname g)
    (match g_build_time g with Some t => Some (d_year t, d_month t, d_day t) | None => None end) d /\
  entry_of (utf8_encode (os_release_display (os_release_of_generation g))) id l k =
    Some (Entry (utf8_encode (bs_label (g_spec g) ++ lit " (" ++ d ++ lit ")"))
            (Some (utf8_encode (g_sort_key g))) (Some (utf8_encode d)) id l k).
Proof. exact entry_read_generation. Qed.
Print Assumptions C69_read.

(** Newer generations are shown above older ones and a generation above its
    specialisations, unless they have no tries left. *)
Theorem C69_order : forall g h e f gi gl gd hi hl hd,
  menu_ready g -> menu_ready h -> g_sort_key g = g_sort_key h -> preferred g h ->
  entry_of (utf8_encode (os_release_display (os_release_of_generation g))) gi gl gd = Some e ->
  entry_of (utf8_encode (os_release_display (os_release_of_generation h))) hi hl hd = Some f ->
  (exhausted e = true -> exhausted f = true) -> above e f.
Proof. exact menu_order_generation. Qed.
Print Assumptions C69_order.

(** So are the entries on the ESP, whatever happened to it. *)
Theorem C69_installed : forall M m, sound M -> history M m ->
  forall g h key key' n n' y y' b b', ma_gens M g -> ma_gens M h -> ma_keys M key -> ma_keys M key' ->
    named M key g n -> named M key' h n' ->
    lookup m (linux_file M n) = Some (NFile y b) -> lookup m (linux_file M n') = Some (NFile y' b') ->
    menu_ready g -> menu_ready h -> g_sort_key g = g_sort_key h -> preferred g h ->
    exists o o', has_section (ma_parse M) y (lit ".osrel") o /\ has_section (ma_parse M) y' (lit ".osrel") o' /\
    forall gi gl gd hi hl hd, exists e f,
      entry_of o gi gl gd = Some e /\ entry_of o' hi hl hd = Some f /\
      ((exhausted e = true -> exhausted f = true) -> above e f).
Proof. exact menu_installed. Qed.
Print Assumptions C69_installed.

Lemma ready_plain v sp :
  (forall n, sp = Some n -> one_line n) -> menu_ready (labelled v sp (lit "NixOS 24.11")).
Proof.
  intros H. unfold menu_ready. cbn [labelled g_spec g_specname g_sort_key spec_with_label bs_label].
  split; [vm_compute; intuition discriminate|]. split; [intros [r E]; vm_compute in E; discriminate|].
  split; [exact H|]. split; [vm_compute; intuition discriminate|].
  split; [intros [r E]; vm_compute in E; discriminate|]. split; [intros [r E]; vm_compute in E; discriminate|].
  split; intros [r E]; apply (f_equal (@rev N)) in E; rewrite rev_unit in E; vm_compute in E; discriminate.
Qed.

(** Generation 10 comes before 9 and before its own specialisation. *)
Example C69_example :
  let g := labelled 10 None (lit "NixOS 24.11") in
  let s := labelled 10 (Some (lit "zfs")) (lit "NixOS 24.11") in
  let h := labelled 9 None (lit "NixOS 24.11") in
  menu_ready g /\ menu_ready s /\ menu_ready h /\ preferred g h /\ preferred g s /\ preferred s h /\
  exists e f, entry_of (utf8_encode (os_release_display (os_release_of_generation g))) [] None 0 = Some e /\
    entry_of (utf8_encode (os_release_display (os_release_of_generation h))) [] (Some 3) 0 = Some f /\
    en_title e = lit "NixOS 24.11 (Generation 10, 2024-02-09)" /\ exhausted e = false.
Proof.
  cbv zeta. split; [apply ready_plain; discriminate|]. split; [apply ready_plain; intros n [= <-]; vm_compute; intuition discriminate|].
  split; [apply ready_plain; discriminate|]. split; [left; vm_compute; reflexivity|].
  split; [right; split; [reflexivity|split; [reflexivity|discriminate]]|]. split; [left; vm_compute; reflexivity|].
  eexists _, _. vm_compute. auto.
Qed.

(** Without the proviso the menu may differ: a sort key that starts with "="
    loses it, so that the entries of two keys mix. *)
Example C69_proviso_needed :
  let g := Generation 7 None None (spec_with_label (lit "NixOS")) (lit "=a") [] in
  exists e, entry_of (utf8_encode (os_release_display (os_release_of_generation g))) [] None 0 = Some e /\
    en_sort_key e = Some (lit "a").
Proof. eexists. vm_compute. split; reflexivity. Qed.

(** Entries on the ESP after the second run. *)
Definition x_gen2 : generation := parse_boot_json 2 (Some (Date 2024 5 6)) x_two.
Definition x_name2 : name := utf8_encode (stub_name x_sha x_key 0 x_gen2).
Example C69_installed_ex :
  sound x_m /\ history x_m x_e2 /\ ma_gens x_m x_gen2 /\ ma_gens x_m x_gen1 /\
  named x_m x_key x_gen2 x_name2 /\ named x_m x_key x_gen1 x_name1 /\
  (exists y b, lookup x_e2 (linux_file x_m x_name2) = Some (NFile y b)) /\
  (exists y b, lookup x_e2 (linux_file x_m x_name1) = Some (NFile y b)) /\
  menu_ready x_gen2 /\ menu_ready x_gen1 /\ g_sort_key x_gen2 = g_sort_key x_gen1 /\ preferred x_gen2 x_gen1.
Proof.
  split; [apply x_m_sound|]. split; [apply x_history_2|]. split; [vm_compute; auto|]. split; [vm_compute; auto|].
  split; [exists []; split; [constructor | vm_compute; reflexivity]|]. split; [apply x_named1|].
  split; [eexists _, _; vm_compute; reflexivity|]. split; [eexists _, _; vm_compute; reflexivity|].
  assert (forall g, bs_label (g_spec g) = lit "NixOS" -> g_specname g = None -> g_sort_key g = lit "lanzaboote" -> menu_ready g) as R.
  { intros g L S K. unfold menu_ready. rewrite L, S, K. split; [vm_compute; intuition discriminate|].
    split; [intros [r E]; vm_compute in E; discriminate|]. split; [discriminate|]. split; [vm_compute; intuition discriminate|].
    split; [intros [r E]; vm_compute in E; discriminate|]. split; [intros [r E]; vm_compute in E; discriminate|].
    split; intros [r E]; apply (f_equal (@rev N)) in E; rewrite rev_unit in E; vm_compute in E; discriminate. }
  split; [apply R; vm_compute; reflexivity|]. split; [apply R; vm_compute; reflexivity|]. split; [vm_compute; reflexivity|].
  left. vm_compute. reflexivity.
Qed.

(** ** C70 *)

(** The name of a new entry has the configured number of tries for systemd-boot,
    provided that it fits the type used there. *)
Theorem C70_fresh : forall sha key tries g, hash32 sha ->
  exists hash stem, stub_stem (g_version g) (g_specname g) hash stem /\
    counters (utf8_encode (stub_name sha key tries g)) =
    if (0 <? tries) && (tries <=? 0x7fffffff) then Some (utf8_encode (stem ++ lit "+"), tries, 0) else None.
Proof. exact fresh_counters. Qed.
Print Assumptions C70_fresh.

(** Counting takes one try each time. *)
Theorem C70_step : forall file file', counted file file' -> exists p l d,
  counters file = Some (p, l, d) /\ 0 < l /\ counters file' = Some (p, l - 1, N.min (d + 1) 0x7fffffff).
Proof. exact counted_step. Qed.
Print Assumptions C70_step.

(** A counted entry remains the entry of its generation. *)
Theorem C70_counted : forall M key g n n', sound M -> named M key g n -> counted n n' -> named M key g n'.
Proof. exact counted_named. Qed.
Print Assumptions C70_counted.

(** The hash of the example has 52 digits, a specialisation looks like a counter. *)
Example C70_example :
  counters (lit "nixos-generation-7-aaaa+3.efi") = Some (lit "nixos-generation-7-aaaa+", 3, 0) /\
  counted (lit "nixos-generation-7-aaaa+3.efi") (lit "nixos-generation-7-aaaa+2-1.efi") /\
  counters (lit "nixos-generation-7-aaaa+2-1.efi") = Some (lit "nixos-generation-7-aaaa+", 2, 1) /\
  counters (lit "nixos-generation-7-specialisation-a+3-2222222222222222222222222222222222222222222222222222.efi") = None.
Proof.
  split; [vm_compute; reflexivity|]. split; [|vm_compute; auto].
  exists (lit "nixos-generation-7-aaaa+"), 3, 0, (lit ".efi"), (lit "2"), (lit "1").
  split; [vm_compute; reflexivity|]. split; [lia|]. split; [split; [apply (num_one 50); lia|intros t [=]]|].
  split; [split; [apply (num_one 49); lia|intros t [=]]|]. split; [reflexivity|].
  split; [exists (lit "nixos-generation-7-aaaa+3"); reflexivity|reflexivity].
Qed.

Example C70_counted_ex :
  let stem := utf8_encode (stub_prefix x_sha x_key x_gen1) in
  sound x_m /\ named x_m x_key x_gen1 (stem ++ lit "+3.efi") /\ counted (stem ++ lit "+3.efi") (stem ++ lit "+2-1.efi").
Proof.
  cbv zeta. split; [apply x_m_sound|]. split.
  - exists (lit "+3"). split; [|vm_compute; reflexivity]. apply (counter_left _ (lit "3")); [discriminate|reflexivity].
  - exists (utf8_encode (stub_prefix x_sha x_key x_gen1) ++ lit "+"), 3, 0, (lit ".efi"), (lit "2"), (lit "1").
    split; [vm_compute; reflexivity|]. split; [lia|]. split; [split; [apply (num_one 50); lia|intros t [=]]|].
    split; [split; [apply (num_one 49); lia|intros t [=]]|]. split; [reflexivity|].
    split; [exists (utf8_encode (stub_prefix x_sha x_key x_gen1) ++ lit "+3"); vm_compute; reflexivity|].
    vm_compute. reflexivity.
Qed.

(** The configured number may be too large: any 32-bit number is accepted, and
    systemd-boot then sees no counter. *)
Example C70_too_large :
  0x80000000 < 2 ^ 32 /\ counters (utf8_encode (stub_name x_sha x_key 0x80000000 x_gen1)) = None.
Proof. vm_compute. auto. Qed.
