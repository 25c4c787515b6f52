(** Properties of runs that follow other runs: C14, C17, C46. *)
From Coq Require Import List NArith Bool Permutation.
From Verif Require Import Base PBase MText PText MVersion MGeneration MNames MPe MFs MTool MInstall SCommon SNames SOsRelease SInstall PFs PInstall PSelect PEntry.
From Verif Require Import XWorld SHistory PHistory PHistories XMachine Properties_History SRepeat PRepeat PTwice PMeasured.
Import ListNotations.
Open Scope N_scope.

(** ** The example *)

(** Parents are directories. *)
Definition x_treed (m : fs) : bool :=
  forallb (fun pn => match removelast (fst pn) with
                     | [] => true
                     | d => match lookup m d with Some NDir => true | _ => false end
                     end) m.

Lemma x_tree m : x_treed m = true -> tree_ok m.
Proof.
  intros H p n L NE. apply lookup_In in L as [nd L]. unfold x_treed in H. rewrite forallb_forall in H.
  specialize (H _ L). cbn [fst] in H. rewrite removelast_last in H. destruct p as [|a p]; [contradiction NE; reflexivity|].
  destruct (lookup m (a :: p)) as [[|? ?]|]; [reflexivity | discriminate | discriminate].
Qed.

Lemma x_complete : complete_listings x_world.
Proof. split; intros t l; apply Permutation_refl. Qed.
Lemma x_faultless : no_faults x_world.
Proof. intros t. reflexivity. Qed.

(** Both links, boot counting and measured boot. *)
Definition x_c3 : config := x_config 0 3 (Some x_lockdir) [x_link1; x_link2].

Lemma x_c3_fits : fits x_m x_world x_c3.
Proof.
  apply (x_fit [x_link1; x_link2] x_good 0 3 (Some x_lockdir) [x_link1; x_link2]); [apply incl_refl | discriminate|].
  intros d r [= <- _]. discriminate.
Qed.

(** What is selected of two links. *)
Lemma x_sel c l1 l2 : c_links c = [l1; l2] -> c_limit c = 0 -> link_version (l_name l1) = Some 1 -> link_version (l_name l2) = Some 2 ->
  forall vs sel, links_versions (c_links c) vs -> newest (c_limit c) vs sel -> sel = [(1, l1); (2, l2)].
Proof.
  intros -> -> V1 V2 vs sel LV (skipped & PM & ST & SK & _). rewrite (SK eq_refl) in PM. cbn [app] in PM.
  assert (vs = [(1, l1); (2, l2)]) as ->.
  { inversion LV as [|? [v1 l1'] ? vs1 [E1 F1] LV1]; subst. inversion LV1 as [|? [v2 l2'] ? vs2 [E2 F2] LV2]; subst.
    inversion LV2; subst. cbn [fst snd] in *. subst. congruence. }
  apply Permutation_length_2_inv in PM as [->| ->]; [reflexivity|].
  inversion ST as [|? ? _ F]; subst. inversion F as [|? ? F1 _]; subst. cbn [fst] in F1. exfalso. apply F1. reflexivity.
Qed.

Lemma x_sel1 c l1 : c_links c = [l1] -> c_limit c = 0 -> link_version (l_name l1) = Some 1 ->
  forall vs sel, links_versions (c_links c) vs -> newest (c_limit c) vs sel -> sel = [(1, l1)].
Proof.
  intros -> -> V1 vs sel LV (skipped & PM & ST & SK & _). rewrite (SK eq_refl) in PM. cbn [app] in PM.
  assert (vs = [(1, l1)]) as ->.
  { inversion LV as [|? [v1 l1'] ? vs1 [E1 F1] LV1]; subst. inversion LV1; subst. cbn [fst snd] in *. subst. congruence. }
  apply Permutation_length_1_inv in PM. exact PM.
Qed.

Lemma x_c3_sel vs sel : links_versions (c_links x_c3) vs -> newest (c_limit x_c3) vs sel -> sel = [(1, x_link1); (2, x_link2)].
Proof. apply x_sel; reflexivity. Qed.
Lemma x_c3_readable : all_readable x_c3.
Proof. intros vs sel LV NW. rewrite (x_c3_sel vs sel LV NW). repeat constructor; discriminate. Qed.
Lemma x_c3_distinct : distinct x_c3.
Proof.
  intros vs sel LV NW. rewrite (x_c3_sel vs sel LV NW). vm_compute. repeat constructor; cbn [In]; intuition discriminate.
Qed.
Lemma x_c3_selected1 : always_selected x_c3 x_gen1.
Proof. intros vs sel LV NW. rewrite (x_c3_sel vs sel LV NW). left. reflexivity. Qed.
Lemma x_cc_sel lock vs sel : links_versions (c_links (x_cc lock)) vs -> newest (c_limit (x_cc lock)) vs sel -> sel = [(1, x_link1)].
Proof. apply x_sel1; reflexivity. Qed.
Lemma x_cc_readable lock : all_readable (x_cc lock).
Proof. intros vs sel LV NW. rewrite (x_cc_sel lock vs sel LV NW). repeat constructor; discriminate. Qed.
Lemma x_cc_distinct lock : distinct (x_cc lock).
Proof. intros vs sel LV NW. rewrite (x_cc_sel lock vs sel LV NW). vm_compute. repeat constructor; cbn [In]; intuition discriminate. Qed.

(** No entries. *)
Lemma x_no_entries links m : x_clean m = true ->
  forall g key n, named (x_machine links) key g n -> lookup m (linux_file (x_machine links) n) = None.
Proof.
  intros H g key n NM. destruct (lookup m _) as [nd|] eqn:L; [|reflexivity]. exfalso.
  apply named_generation in NM as [r ->].
  assert (lookup m (linux_file (x_machine links) (lit "nixos-generation-" ++ r)) <> None) as L' by (rewrite L; discriminate).
  clear L. apply lookup_In in L' as [nd' L].
  unfold x_clean in H. rewrite forallb_forall in H. specialize (H _ L). cbn [fst] in H.
  change (negb false && negb (starts_with (lit "nixos-generation-") (lit "nixos-generation-" ++ r)) = true) in H.
  rewrite starts_with_app in H. discriminate.
Qed.

Lemma x_esp_settled c : settled x_m c x_esp.
Proof.
  intros d g key n y b _ _ _ NM L. unfold x_m in L. rewrite (x_no_entries [x_link1; x_link2] x_esp eq_refl g key n NM) in L. discriminate.
Qed.

Lemma x_stable c : c_systemd c = lit "/nix/store/systemd" -> c_arch c = X86 -> stable_signing x_world c.
Proof.
  intros E1 E2 x. unfold shipped_path. rewrite E1, E2. intros [= <-]. eexists. split; [vm_compute; reflexivity|].
  intros out [= <-]. split; vm_compute; reflexivity.
Qed.

(** ** C14 *)

(** C14: after a successful run without I/O errors, with readable bootspecs
    (so garbage is collected), the same run again succeeds and only syncs,
    whatever the orders of its listings.  [stable_signing] says that signing
    keeps the version of systemd-boot; [settled] is needed by
    [C14_new_pcrlock_refuted], a readable version by
    [C14_unversioned_refuted]. *)
Theorem C14_idle : forall M e c m lst walk flt,
  sound M -> fits M e c -> history M m -> tree_ok m -> no_faults e -> complete_listings e ->
  all_readable c -> distinct c -> settled M c m -> stable_signing e c -> snd (run_install e c m) = Ok tt ->
  let e2 := again e lst walk flt in let m1 := s_fs (fst (run_install e c m)) in
  no_faults e2 -> complete_listings e2 ->
  snd (run_install e2 c m1) = Ok tt /\ s_trace (fst (run_install e2 c m1)) = [OSyncAll (c_esp c)].
Proof. exact twice. Qed.
Print Assumptions C14_idle.

(** The first run installs three entries and removes a file, the second one
    sees all directories in reverse. *)
Example C14_idle_ex :
  let e2 := again x_world (fun _ l => rev l) (fun _ l => rev l) x_good in
  sound x_m /\ fits x_m x_world x_c3 /\ history x_m x_esp /\ tree_ok x_esp /\ no_faults x_world /\ complete_listings x_world /\
  all_readable x_c3 /\ distinct x_c3 /\ settled x_m x_c3 x_esp /\ stable_signing x_world x_c3 /\
  snd (run_install x_world x_c3 x_esp) = Ok tt /\ no_faults e2 /\ complete_listings e2 /\
  (20 < length (s_trace (fst (run_install x_world x_c3 x_esp))))%nat.
Proof.
  cbv zeta. split; [apply x_m_sound|]. split; [apply x_c3_fits|]. split; [apply x_history_esp|]. split; [apply x_tree; reflexivity|].
  split; [apply x_faultless|]. split; [apply x_complete|]. split; [apply x_c3_readable|]. split; [apply x_c3_distinct|].
  split; [apply x_esp_settled|]. split; [apply x_stable; reflexivity|]. split; [vm_compute; reflexivity|]. split; [intros t; reflexivity|].
  split; [split; intros t l; apply Permutation_sym, Permutation_rev|]. apply PeanoNat.Nat.ltb_lt. vm_compute. reflexivity.
Qed.

(** If measured boot has just been switched on while a boot counter has been
    changed, the run leaves two entries, and the next one removes one. *)
Theorem C14_new_pcrlock_refuted : exists M e c m,
  sound M /\ fits M e c /\ history M m /\ tree_ok m /\ no_faults e /\ complete_listings e /\
  all_readable c /\ distinct c /\ stable_signing e c /\ snd (run_install e c m) = Ok tt /\
  exists p, In (ORemove p) (s_trace (fst (run_install e c (s_fs (fst (run_install e c m)))))).
Proof.
  exists x_m, x_world, (x_cc (Some x_lockdir)), x_d2.
  split; [apply x_m_sound|]. split; [apply x_cc_fits; right; reflexivity|]. split.
  { unfold x_d2. eapply (hi_count x_m x_d1 x_gen1 x_key).
    - unfold x_d1, x_after. rewrite final_fs. eapply hi_run; [apply x_history_esp | apply x_cc_fits; left; reflexivity | apply final_point].
    - vm_compute. auto.
    - reflexivity.
    - apply x_left3_named.
    - apply x_left2_named.
    - vm_compute. reflexivity. }
  split; [apply x_tree; vm_compute; reflexivity|]. split; [apply x_faultless|]. split; [apply x_complete|].
  split; [apply x_cc_readable|]. split; [apply x_cc_distinct|]. split; [apply x_stable; reflexivity|]. split; [vm_compute; reflexivity|].
  exists (linux_file x_m x_left2). vm_compute. right; left. reflexivity.
Qed.
Print Assumptions C14_new_pcrlock_refuted.

(** If the version of the shipped systemd-boot is unreadable, the first run
    installs it and the second one fails. *)
Definition x_unversioned : env :=
  x_env (map (fun f => if eqb_bytes (snd f) (x_boot (lit "257.2")) then (fst f, [77; 90]) else f) x_files) x_good.

Theorem C14_unversioned_refuted : exists e c m,
  tree_ok m /\ no_faults e /\ complete_listings e /\ all_readable c /\ distinct c /\
  snd (run_install e c m) = Ok tt /\ snd (run_install e c (s_fs (fst (run_install e c m)))) = Err tt.
Proof.
  exists x_unversioned, (x_cc None), x_esp.
  split; [apply x_tree; reflexivity|]. split; [intros t; reflexivity|]. split; [split; intros t l; apply Permutation_refl|].
  split; [apply x_cc_readable|]. split; [apply x_cc_distinct|]. split; vm_compute; reflexivity.
Qed.
Print Assumptions C14_unversioned_refuted.

(** ** C17 *)

(** C17: the only entry of a selected generation, if it is bootable, is neither
    renamed nor rewritten nor removed at any point of a run, so its boot
    counter survives. *)
Theorem C17_entry_kept : forall M e c m os g key n y b,
  sound M -> fits M e c -> history M m -> tree_ok m -> no_faults e -> complete_listings e ->
  point e c m os -> always_selected c g -> ma_gens M g -> sg_key (e_signer e) = Some key -> named M key g n ->
  lookup m (linux_file M n) = Some (NFile y b) -> bootable M m y ->
  (forall n', named M key g n' -> lookup m (linux_file M n') <> None -> n' = n) ->
  (forall d, c_pcrlock c = Some d -> lookup m (component d g) <> None) ->
  (forall o, In o os -> ~ writes o (linux_file M n)) /\
  node_like (lookup (apply_all os m) (linux_file M n)) (lookup m (linux_file M n)).
Proof. exact kept. Qed.
Print Assumptions C17_entry_kept.

(** After a successful run with garbage collection every selected generation
    has exactly one entry. *)
Theorem C17_one_entry : forall M e c m g,
  sound M -> fits M e c -> history M m -> tree_ok m -> no_faults e -> complete_listings e ->
  all_readable c -> distinct c -> settled M c m -> snd (run_install e c m) = Ok tt -> always_selected c g ->
  let m1 := s_fs (fst (run_install e c m)) in
  exists key n y b, sg_key (e_signer e) = Some key /\ named M key g n /\ lookup m1 (linux_file M n) = Some (NFile y b) /\
    forall key' n', ma_keys M key' -> named M key' g n' -> lookup m1 (linux_file M n') <> None -> n' = n.
Proof.
  intros M e c m g SO FI HI. destruct (history_ok M m SO HI) as [CO EO]. apply (one_entry M SO e c FI m g CO EO).
Qed.
Print Assumptions C17_one_entry.

(** The first generation with its boot counter changed, then a run with both. *)
Definition x_f1 : fs := x_after (x_cc (Some x_lockdir)) x_esp.
Definition x_f2 : fs := apply (ORename (linux_file x_m x_left3) (linux_file x_m x_left2)) x_f1.

Lemma x_history_f2 : history x_m x_f2.
Proof.
  unfold x_f2. eapply (hi_count x_m x_f1 x_gen1 x_key).
  - unfold x_f1, x_after. rewrite final_fs. eapply hi_run; [apply x_history_esp | apply x_cc_fits; right; reflexivity | apply final_point].
  - vm_compute. auto.
  - reflexivity.
  - apply x_left3_named.
  - apply x_left2_named.
  - vm_compute. reflexivity.
Qed.

(** Entries are among a few files. *)
Lemma x_among links m (fl : list name) : 
  forallb (fun pn => match fst pn with
    | [b; e; l; n] => negb (eqb_bytes b (lit "boot") && eqb_bytes e (lit "EFI") && eqb_bytes l (lit "Linux") && starts_with (lit "nixos-generation-") n)
        || existsb (eqb_bytes n) fl
    | _ => true end) m = true ->
  forall g key n, named (x_machine links) key g n -> lookup m (linux_file (x_machine links) n) <> None -> In n fl.
Proof.
  intros H g key n NM L. apply lookup_In in L as [nd L]. rewrite forallb_forall in H. specialize (H _ L). cbn [fst] in H.
  change (negb (starts_with (lit "nixos-generation-") n) || existsb (eqb_bytes n) fl = true) in H.
  apply named_generation in NM as [r ->]. rewrite starts_with_app in H. cbn [negb orb] in H.
  apply existsb_exists in H as (z & Hz & E). apply eqb_bytes_spec in E. subst z. exact Hz.
Qed.

Example C17_entry_kept_ex :
  let os := x_trace x_c3 x_f2 in
  sound x_m /\ fits x_m x_world x_c3 /\ history x_m x_f2 /\ tree_ok x_f2 /\ no_faults x_world /\ complete_listings x_world /\
  point x_world x_c3 x_f2 os /\ always_selected x_c3 x_gen1 /\ ma_gens x_m x_gen1 /\ sg_key (e_signer x_world) = Some x_key /\
  named x_m x_key x_gen1 x_left2 /\ lookup x_f2 (linux_file x_m x_left2) = Some (NFile x_stub1 true) /\ bootable x_m x_f2 x_stub1 /\
  (forall n', named x_m x_key x_gen1 n' -> lookup x_f2 (linux_file x_m n') <> None -> n' = x_left2) /\
  (forall d, c_pcrlock x_c3 = Some d -> lookup x_f2 (component d x_gen1) <> None) /\ (5 < length os)%nat.
Proof.
  cbv zeta. split; [apply x_m_sound|]. split; [apply x_c3_fits|]. split; [apply x_history_f2|]. split; [apply x_tree; vm_compute; reflexivity|].
  split; [apply x_faultless|]. split; [apply x_complete|]. split; [apply final_point|]. split; [apply x_c3_selected1|]. split; [vm_compute; auto|].
  split; [reflexivity|]. split; [apply x_left2_named|]. split; [vm_compute; reflexivity|].
  split; [apply x_stub1_bootable; vm_compute; reflexivity|]. split.
  { intros n' NM L. destruct (x_among [x_link1; x_link2] x_f2 [x_left2] ltac:(vm_compute; reflexivity) _ _ _ NM L) as [<-|[]]. reflexivity. }
  split; [intros d [= <-]; vm_compute; discriminate|]. apply PeanoNat.Nat.ltb_lt. vm_compute. reflexivity.
Qed.

Example C17_one_entry_ex :
  sound x_m /\ fits x_m x_world x_c3 /\ history x_m x_f2 /\ tree_ok x_f2 /\ no_faults x_world /\ complete_listings x_world /\
  all_readable x_c3 /\ distinct x_c3 /\ settled x_m x_c3 x_f2 /\ snd (run_install x_world x_c3 x_f2) = Ok tt /\ always_selected x_c3 x_gen1.
Proof.
  split; [apply x_m_sound|]. split; [apply x_c3_fits|]. split; [apply x_history_f2|]. split; [apply x_tree; vm_compute; reflexivity|].
  split; [apply x_faultless|]. split; [apply x_complete|]. split; [apply x_c3_readable|]. split; [apply x_c3_distinct|]. split.
  { intros d g key n y b [= <-] SG KK NM L.
    assert (lookup x_f2 (linux_file x_m n) <> None) as L' by congruence.
    destruct (x_among [x_link1; x_link2] x_f2 [x_left2] ltac:(vm_compute; reflexivity) _ _ _ NM L') as [<-|[]].
    assert (g = x_gen1) as ->.
    { apply (prefix_inj x_m g x_gen1 key x_key x_left2 x_m_sound); [apply (fi_gens _ _ _ x_c3_fits); exact SG | vm_compute; left; reflexivity | exact KK | reflexivity | exact NM | apply x_left2_named]. }
    vm_compute. discriminate. }
  split; [vm_compute; reflexivity | apply x_c3_selected1].
Qed.

(** With measured boot just switched on, a successful run can leave two entries
    of a generation. *)
Theorem C17_two_entries_refuted : exists M e c m g key n1 n2,
  sound M /\ fits M e c /\ history M m /\ tree_ok m /\ no_faults e /\ complete_listings e /\
  all_readable c /\ distinct c /\ snd (run_install e c m) = Ok tt /\ always_selected c g /\ ma_keys M key /\
  named M key g n1 /\ named M key g n2 /\ n1 <> n2 /\
  let m1 := s_fs (fst (run_install e c m)) in
  lookup m1 (linux_file M n1) <> None /\ lookup m1 (linux_file M n2) <> None.
Proof.
  exists x_m, x_world, (x_cc (Some x_lockdir)), x_d2, x_gen1, x_key, x_left2, x_left3.
  split; [apply x_m_sound|]. split; [apply x_cc_fits; right; reflexivity|]. split.
  { unfold x_d2. eapply (hi_count x_m x_d1 x_gen1 x_key).
    - unfold x_d1, x_after. rewrite final_fs. eapply hi_run; [apply x_history_esp | apply x_cc_fits; left; reflexivity | apply final_point].
    - vm_compute. auto.
    - reflexivity.
    - apply x_left3_named.
    - apply x_left2_named.
    - vm_compute. reflexivity. }
  split; [apply x_tree; vm_compute; reflexivity|]. split; [apply x_faultless|]. split; [apply x_complete|].
  split; [apply x_cc_readable|]. split; [apply x_cc_distinct|]. split; [vm_compute; reflexivity|]. split; [apply x_cc_selected|].
  split; [reflexivity|]. split; [apply x_left2_named|]. split; [apply x_left3_named|]. split; [vm_compute; discriminate|].
  cbv zeta. split; vm_compute; discriminate.
Qed.
Print Assumptions C17_two_entries_refuted.

(** Switching measured boot on also rewrites bootable entries. *)
Theorem C17_rewritten_refuted : exists M e c m os g key n y b,
  sound M /\ fits M e c /\ history M m /\ tree_ok m /\ no_faults e /\ complete_listings e /\
  point e c m os /\ always_selected c g /\ ma_keys M key /\ named M key g n /\
  lookup m (linux_file M n) = Some (NFile y b) /\ bootable M m y /\
  exists o, In o os /\ writes o (linux_file M n).
Proof.
  exists x_m, x_world, (x_cc (Some x_lockdir)), x_d1, (x_trace (x_cc (Some x_lockdir)) x_d1), x_gen1, x_key, x_left3, x_stub1, true.
  split; [apply x_m_sound|]. split; [apply x_cc_fits; right; reflexivity|]. split.
  { unfold x_d1, x_after. rewrite final_fs. eapply hi_run; [apply x_history_esp | apply x_cc_fits; left; reflexivity | apply final_point]. }
  split; [apply x_tree; vm_compute; reflexivity|]. split; [apply x_faultless|]. split; [apply x_complete|].
  split; [apply final_point|]. split; [apply x_cc_selected|]. split; [reflexivity|]. split; [apply x_left3_named|].
  split; [vm_compute; reflexivity|]. split; [apply x_stub1_bootable; vm_compute; reflexivity|].
  assert (exists a, In (ORename a (linux_file x_m x_left3)) (x_trace (x_cc (Some x_lockdir)) x_d1)) as [a H].
  { eexists. vm_compute. do 7 right. left. reflexivity. }
  exists (ORename a (linux_file x_m x_left3)). split; [exact H | right; reflexivity].
Qed.
Print Assumptions C17_rewritten_refuted.

(** ** C46 *)

(** C46: if all runs so far were successful ones with measured boot and numbers
    of generations were not reused, every entry has a component, and both were
    made from the same image. *)
Theorem C46_same_image : forall M Sign Lock d m,
  sound M -> no_reuse M -> measured_history M Sign Lock d m -> measured M Sign Lock d m.
Proof. intros M Sign Lock d m SO NR. exact (measured_always M SO Sign Lock d NR m). Qed.
Print Assumptions C46_same_image.

(** In particular, after one more run, for every selected generation. *)
Theorem C46_selected : forall M Sign Lock d e c m,
  sound M -> no_reuse M -> measured_history M Sign Lock d m ->
  fits M e c -> made_by Sign Lock e -> c_pcrlock c = Some d -> no_faults e -> complete_listings e ->
  distinct c -> snd (run_install e c m) = Ok tt ->
  forall g, always_selected c g -> exists key n y b lo b', ma_keys M key /\ named M key g n /\
    lookup (s_fs (fst (run_install e c m))) (linux_file M n) = Some (NFile y b) /\ bootable M (s_fs (fst (run_install e c m))) y /\
    lookup (s_fs (fst (run_install e c m))) (component d g) = Some (NFile lo b') /\ same_image Sign Lock y lo.
Proof.
  intros M Sign Lock d e c m SO NR MH FI MB PL NF CL DI. exact (measured_selected M SO Sign Lock d NR e c m FI MB PL NF CL DI MH).
Qed.
Print Assumptions C46_selected.

Definition x_sign : bytes -> bytes -> Prop := fun image y => sg_sign (e_signer x_world) image = Some y.
Definition x_lock : bytes -> bytes -> Prop := fun image lo => e_lock x_world image = Some lo.

Lemma x_made : made_by x_sign x_lock x_world.
Proof. split; intros x y H; exact H. Qed.

Lemma x_no_reuse : no_reuse x_m.
Proof.
  split; [|intros k1 k2 <- <-; reflexivity]. intros g1 g2 G1 G2 V S.
  vm_compute in G1, G2. repeat (destruct G1 as [<-|G1]); repeat (destruct G2 as [<-|G2]); try contradiction; try reflexivity; discriminate.
Qed.

(** One run, a changed boot counter, and a second run. *)
Lemma x_measured_f2 : measured_history x_m x_sign x_lock x_lockdir x_f2.
Proof.
  unfold x_f2. eapply (mh_count x_m x_sign x_lock x_lockdir x_f1 x_gen1 x_key).
  - apply (mh_run x_m x_sign x_lock x_lockdir x_esp x_world (x_cc (Some x_lockdir))).
    + apply mh_start; [apply x_tree; reflexivity | apply (history_ok _ _ x_m_sound x_history_esp)|].
      intros g key n _ _ NM. apply (x_no_entries [x_link1; x_link2] x_esp eq_refl g key n NM).
    + apply x_cc_fits. right; reflexivity.
    + apply x_made.
    + reflexivity.
    + apply x_faultless.
    + apply x_complete.
    + apply x_cc_distinct.
    + vm_compute. reflexivity.
  - vm_compute. auto.
  - reflexivity.
  - apply x_left3_named.
  - apply x_left2_named.
  - vm_compute. reflexivity.
  - vm_compute. reflexivity.
Qed.

Example C46_ex :
  sound x_m /\ no_reuse x_m /\ measured_history x_m x_sign x_lock x_lockdir x_f2 /\
  fits x_m x_world x_c3 /\ made_by x_sign x_lock x_world /\ c_pcrlock x_c3 = Some x_lockdir /\
  no_faults x_world /\ complete_listings x_world /\ distinct x_c3 /\ snd (run_install x_world x_c3 x_f2) = Ok tt /\
  always_selected x_c3 x_gen1.
Proof.
  split; [apply x_m_sound|]. split; [apply x_no_reuse|]. split; [apply x_measured_f2|]. split; [apply x_c3_fits|]. split; [apply x_made|].
  split; [reflexivity|]. split; [apply x_faultless|]. split; [apply x_complete|]. split; [apply x_c3_distinct|].
  split; [vm_compute; reflexivity | apply x_c3_selected1].
Qed.

(** An entry and a component made from other images. *)
Lemma x_other_image image lo y : y = image ++ x_sig x_key -> e_lock x_world image <> Some lo -> ~ same_image x_sign x_lock y lo.
Proof.
  intros -> NE (image' & S & L). unfold x_sign in S. cbn in S. injection S as S. apply app_inv_tail in S. subst image'. exact (NE L).
Qed.

Definition x_component1 : path := component x_lockdir x_gen1.
Definition x_image1 : bytes := firstn (length x_stub1 - length (x_sig x_key)) x_stub1.

(** Number one is reused: first for one system, then for another one while some
    bootspec is unreadable, then for the first again.  All runs succeed, but
    the component is that of the second system. *)
Definition x_other : bootspec :=
  x_spec (lit "/nix/store/ccc-linux-6.6/bzImage") (lit "/nix/store/ddd-initrd/initrd") (lit "/nix/store/other") [].
Definition x_link1' : link := x_link (lit "system-1-link") (Some x_other).
Definition x_bad2 : link := x_link (lit "system-2-link") None.
Definition x_rm : machine := x_machine [x_link1; x_link1'; x_bad2].
Definition x_rc (links : list link) : config := x_config 0 0 (Some x_lockdir) links.
Definition x_r1 : fs := x_after (x_rc [x_link1]) x_esp.
Definition x_r2 : fs := x_after (x_rc [x_link1'; x_bad2]) x_r1.
Definition x_r3 : fs := x_after (x_rc [x_link1]) x_r2.

Lemma x_rc_fits links : incl links [x_link1; x_link1'; x_bad2] -> fits x_rm x_world (x_rc links).
Proof.
  intros H. apply (x_fit [x_link1; x_link1'; x_bad2] x_good 0 0 (Some x_lockdir) links); [exact H | discriminate|].
  intros d r [= <- _]. discriminate.
Qed.

Theorem C46_reuse_refuted : exists M e c1 c2 m g key n y b lo b' Sign Lock d,
  sound M /\ fits M e c1 /\ fits M e c2 /\ made_by Sign Lock e /\ c_pcrlock c1 = Some d /\ c_pcrlock c2 = Some d /\
  no_faults e /\ complete_listings e /\ measured_history M Sign Lock d m /\
  let m1 := s_fs (fst (run_install e c1 m)) in
  let m2 := s_fs (fst (run_install e c2 m1)) in
  let m3 := s_fs (fst (run_install e c1 m2)) in
  snd (run_install e c1 m) = Ok tt /\ snd (run_install e c2 m1) = Ok tt /\ snd (run_install e c1 m2) = Ok tt /\
  always_selected c1 g /\ ma_keys M key /\ named M key g n /\
  lookup m3 (linux_file M n) = Some (NFile y b) /\ lookup m3 (component d g) = Some (NFile lo b') /\ ~ same_image Sign Lock y lo.
Proof.
  exists x_rm, x_world, (x_rc [x_link1]), (x_rc [x_link1'; x_bad2]), x_esp, x_gen1, x_key, x_name1, x_stub1, true.
  exists (x_content x_r3 x_component1), false, x_sign, x_lock, x_lockdir.
  split; [apply x_sound; vm_compute; reflexivity|].
  split; [apply x_rc_fits; intros l [<-|[]]; left; reflexivity|].
  split; [apply x_rc_fits; intros l H; right; exact H|].
  split; [apply x_made|]. split; [reflexivity|]. split; [reflexivity|]. split; [apply x_faultless|]. split; [apply x_complete|]. split.
  { apply mh_start; [apply x_tree; reflexivity | |].
    - apply (history_ok x_rm); [apply x_sound; vm_compute; reflexivity | apply x_start; vm_compute; reflexivity].
    - intros g key n _ _ NM. apply (x_no_entries _ x_esp eq_refl g key n NM). }
  intros m1 m2 m3.
  split; [vm_compute; reflexivity|]. split; [vm_compute; reflexivity|]. split; [vm_compute; reflexivity|]. split.
  { intros vs sel LV NW. rewrite (x_sel1 (x_rc [x_link1]) x_link1 eq_refl eq_refl eq_refl vs sel LV NW). left. reflexivity. }
  split; [reflexivity|]. split; [exists []; split; [constructor | vm_compute; reflexivity]|].
  split; [vm_compute; reflexivity|]. split; [vm_compute; reflexivity|].
  apply (x_other_image x_image1); [vm_compute; reflexivity | vm_compute; discriminate].
Qed.
Print Assumptions C46_reuse_refuted.

(** A component is not written atomically: if measured boot is switched on and
    the run is killed while it writes a component, the next run takes the empty
    file for the component of the entry. *)
Definition x_k1 : fs := x_after (x_cc None) x_esp.
Definition x_kill : list op := firstn 4 (x_trace (x_cc (Some x_lockdir)) x_k1).

Theorem C46_killed_refuted : exists M e c m os g key n y b b' Sign Lock d,
  sound M /\ no_reuse M /\ fits M e c /\ history M m /\ tree_ok m /\ made_by Sign Lock e /\ c_pcrlock c = Some d /\
  no_faults e /\ complete_listings e /\ distinct c /\ point e c m os /\
  let m1 := apply_all os m in
  let m2 := s_fs (fst (run_install e c m1)) in
  snd (run_install e c m1) = Ok tt /\
  always_selected c g /\ ma_keys M key /\ named M key g n /\
  lookup m2 (linux_file M n) = Some (NFile y b) /\ lookup m2 (component d g) = Some (NFile [] b') /\ ~ same_image Sign Lock y [].
Proof.
  exists x_m, x_world, (x_cc (Some x_lockdir)), x_k1, x_kill, x_gen1, x_key, x_left3, x_stub1, true.
  exists false, x_sign, x_lock, x_lockdir.
  split; [apply x_m_sound|]. split; [apply x_no_reuse|]. split; [apply x_cc_fits; right; reflexivity|].
  split; [unfold x_k1, x_after; rewrite final_fs; eapply hi_run; [apply x_history_esp | apply x_cc_fits; left; reflexivity | apply final_point]|].
  split; [apply x_tree; vm_compute; reflexivity|]. split; [apply x_made|]. split; [reflexivity|]. split; [apply x_faultless|]. split; [apply x_complete|].
  split; [apply x_cc_distinct|].
  split; [exists (skipn 4 (x_trace (x_cc (Some x_lockdir)) x_k1)); symmetry; apply firstn_skipn|].
  cbv zeta. split; [vm_compute; reflexivity|]. split; [apply x_cc_selected|]. split; [reflexivity|]. split; [apply x_left3_named|].
  split; [vm_compute; reflexivity|]. split; [vm_compute; reflexivity|].
  apply (x_other_image x_image1); [vm_compute; reflexivity | vm_compute; discriminate].
Qed.
Print Assumptions C46_killed_refuted.
