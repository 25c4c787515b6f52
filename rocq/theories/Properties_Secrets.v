(** C81: secrets in the initrd are those of the run that made the entry. *)
From Coq Require Import List NArith Bool Permutation Lia.
From Verif Require Import Base PBase MText PText MGeneration MNames MPe MFs MTool MInstall SCommon SNames SInstall SHistory SRepeat SSecrets.
From Verif Require Import PFs PInstall PHistory PHistories PEntry PSecrets XWorld XMachine Properties_History Properties_Repeat.
Import ListNotations.
Open Scope N_scope.

(** Wherever the run is, an entry of a generation with secrets that was not there
    before is for the initrd with the secrets as they are now. *)
Theorem C81_new : forall M e c m os key g n y b script, sound M -> fits M e c -> sg_key (e_signer e) = Some key -> ma_gens M g ->
  point e c m os -> named M key g n -> bs_initrd_secrets (g_spec g) = Some script ->
  lookup (apply_all os m) (linux_file M n) = Some (NFile y b) -> (forall b', lookup m (linux_file M n) <> Some (NFile y b')) ->
  exists id, with_secrets e g id /\ has_section (ma_parse M) y (lit ".initrdh") (ma_sha M id).
Proof. exact new_entry. Qed.
Print Assumptions C81_new.

(** After a successful run, a selected generation with secrets that had no entry
    has one, and the initrd that it names is there with the secrets as they are now. *)
Theorem C81_success : forall M e c m key g script, sound M -> fits M e c -> history M m ->
  tree_ok m -> no_faults e -> complete_listings e -> all_readable c -> distinct c -> settled M c m ->
  snd (run_install e c m) = Ok tt ->
  always_selected c g -> sg_key (e_signer e) = Some key -> bs_initrd_secrets (g_spec g) = Some script ->
  (forall n, named M key g n -> lookup m (linux_file M n) = None) ->
  exists n y b id, named M key g n /\ lookup (s_fs (fst (run_install e c m))) (linux_file M n) = Some (NFile y b) /\
    with_secrets e g id /\ carries M (s_fs (fst (run_install e c m))) y id.
Proof. exact new_generation. Qed.
Print Assumptions C81_success.

(** ** Examples *)

Definition t_one : bootspec :=
  Bootspec (lit "/nix/store/one/init") (Some (lit "/nix/store/bbb-initrd/initrd")) (Some (lit "/nix/store/append"))
    (lit "/nix/store/aaa-linux-6.1/bzImage") [lit "quiet"] (lit "NixOS") (lit "/nix/store/one") None [].
Definition t_link : link := x_link (lit "system-1-link") (Some t_one).
Definition t_gen : generation := parse_boot_json 1 (Some (Date 2024 5 6)) t_one.
Definition t_m : machine := x_machine [t_link].
Definition t_c : config := x_config 0 0 None [t_link].
(** The script appends the secret. *)
Definition t_env (secret : str) : env := other_secrets x_world (fun _ d => Some (d ++ secret)).
Definition t_fs1 : fs := s_fs (fst (run_install (t_env (lit "old")) t_c x_esp)).
Definition t_fs2 : fs := s_fs (fst (run_install (t_env (lit "new")) t_c t_fs1)).
Definition t_name : name := utf8_encode (stub_name x_sha x_key 0 t_gen).

Lemma t_sound : sound t_m.
Proof. apply x_sound. vm_compute. reflexivity. Qed.
Lemma t_fits s : fits t_m (t_env s) t_c.
Proof.
  destruct (x_fit [t_link] x_good 0 0 None [t_link] (incl_refl _) ltac:(discriminate) ltac:(discriminate)) as [F1 F2 F3 F4 F5 F6 F7 F8 F9 F10].
  split; assumption.
Qed.
Lemma t_history : history t_m x_esp.
Proof. apply x_start. vm_compute. reflexivity. Qed.
Lemma t_sel vs sel : links_versions (c_links t_c) vs -> newest (c_limit t_c) vs sel -> sel = [(1, t_link)].
Proof.
  intros LV (sk & PM & _ & SK & _). rewrite (SK eq_refl) in PM. cbn [app] in PM.
  inversion LV as [|? [v l] ? vs' [E1 E2] LV']; subst. inversion LV'; subst. cbn [snd fst] in *. subst l.
  assert (v = 1) as -> by (vm_compute in E2; congruence). apply Permutation_length_1_inv in PM. exact PM.
Qed.
Lemma t_readable : all_readable t_c.
Proof. intros vs sel LV NW. rewrite (t_sel vs sel LV NW). repeat constructor. discriminate. Qed.
Lemma t_distinct : distinct t_c.
Proof. intros vs sel LV NW. rewrite (t_sel vs sel LV NW). vm_compute. repeat constructor. intros []. Qed.
Lemma t_always : always_selected t_c t_gen.
Proof. intros vs sel LV NW. rewrite (t_sel vs sel LV NW). left. reflexivity. Qed.

Example C81_success_ex :
  sound t_m /\ fits t_m (t_env (lit "old")) t_c /\ history t_m x_esp /\ tree_ok x_esp /\ no_faults (t_env (lit "old")) /\
  complete_listings (t_env (lit "old")) /\ all_readable t_c /\ distinct t_c /\ settled t_m t_c x_esp /\
  snd (run_install (t_env (lit "old")) t_c x_esp) = Ok tt /\ always_selected t_c t_gen /\
  (forall n, named t_m x_key t_gen n -> lookup x_esp (linux_file t_m n) = None) /\
  with_secrets (t_env (lit "old")) t_gen (lit "initrd oneold").
Proof.
  split; [apply t_sound|]. split; [apply t_fits|]. split; [apply t_history|]. split; [apply x_tree; vm_compute; reflexivity|].
  split; [intros t; reflexivity|]. split; [split; intros t l; apply Permutation_refl|]. split; [apply t_readable|]. split; [apply t_distinct|].
  split; [intros d g key n y b X; discriminate X|]. split; [vm_compute; reflexivity|]. split; [apply t_always|].
  split; [intros n NM; exact (x_no_entries [t_link] x_esp eq_refl t_gen x_key n NM)|].
  eexists _, _, _. split; [reflexivity|]. split; [reflexivity|]. split; vm_compute; reflexivity.
Qed.

(** A secret that is changed later does not reach the ESP: the entry of the
    generation is not made again, although the run succeeds. *)
Theorem C81_changed_refuted : exists M e1 e2 c m g key id, 
  sound M /\ fits M e1 c /\ fits M e2 c /\ history M m /\ tree_ok m /\ no_faults e2 /\ complete_listings e2 /\
  (exists s, e2 = other_secrets e1 s) /\
  snd (run_install e1 c m) = Ok tt /\
  let m1 := s_fs (fst (run_install e1 c m)) in
  snd (run_install e2 c m1) = Ok tt /\
  let m2 := s_fs (fst (run_install e2 c m1)) in
  always_selected c g /\ sg_key (e_signer e2) = Some key /\ with_secrets e2 g id /\
  (exists n y b, named M key g n /\ lookup m2 (linux_file M n) = Some (NFile y b)) /\
  forall n y b, named M key g n -> lookup m2 (linux_file M n) = Some (NFile y b) -> ~ carries M m2 y id.
Proof.
  exists t_m, (t_env (lit "old")), (t_env (lit "new")), t_c, x_esp, t_gen, x_key, (lit "initrd onenew").
  split; [apply t_sound|]. split; [apply t_fits|]. split; [apply t_fits|]. split; [apply t_history|].
  split; [apply x_tree; vm_compute; reflexivity|]. split; [intros t; reflexivity|].
  split; [split; intros t l; apply Permutation_refl|]. split; [eexists; reflexivity|].
  split; [vm_compute; reflexivity|]. fold t_fs1. cbv zeta. split; [vm_compute; reflexivity|]. fold t_fs2.
  split; [apply t_always|]. split; [reflexivity|]. split.
  { eexists _, _, _. split; [reflexivity|]. split; [reflexivity|]. split; vm_compute; reflexivity. }
  split.
  { exists t_name. eexists _, _. split; [exists []; split; [constructor | vm_compute; reflexivity]|]. vm_compute. reflexivity. }
  intros n y b NM L [S _].
  assert (lookup t_fs2 (linux_file t_m n) <> None) as LN by congruence.
  destruct (x_among [t_link] t_fs2 [t_name] ltac:(vm_compute; reflexivity) t_gen x_key n NM LN) as [<-|[]].
  apply has_section_read in S. assert (y = x_content t_fs2 (linux_file t_m t_name)) as -> by (unfold x_content; rewrite L; reflexivity).
  vm_compute in S. discriminate S.
Qed.
Print Assumptions C81_changed_refuted.
