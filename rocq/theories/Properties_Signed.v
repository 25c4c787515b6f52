(** Signatures on an ESP that had none: C73. *)
From Coq Require Import List NArith Bool Permutation.
From Verif Require Import Base PBase MText PText MGeneration MNames MPe MFs MTool MInstall SCommon SNames SInstall PFs PInstall.
From Verif Require Import XWorld SHistory PHistory PHistories XMachine Properties_History SRepeat PRepeat PTwice Properties_Repeat SImage SSigned PSigned.
Import ListNotations.
Open Scope N_scope.

(** ** C73 *)

(** From the appearance of a key on, at every moment, every file with the name
    of an entry for this key verifies. *)
Theorem C73_entries : forall M key verifies m, sound M -> ma_keys M key -> since_key M key verifies m ->
  history M m /\
  forall g n y b, ma_gens M g -> named M key g n -> lookup m (linux_file M n) = Some (NFile y b) -> verifies y = true.
Proof. intros M key verifies m SO KK SK. exact (since_key_ok M key verifies SO KK m SK). Qed.
Print Assumptions C73_entries.

(** After a successful run with the key, whatever was on the ESP before, both
    copies of systemd-boot and all entries of NixOS verify, and every selected
    generation has an entry that verifies and finds its kernel. *)
Theorem C73_all_signed : forall M key verifies e c m, sound M -> ma_keys M key ->
  fits M e c -> trusted key verifies e -> sg_key (e_signer e) = Some key -> since_key M key verifies m ->
  tree_ok m -> no_faults e -> complete_listings e -> all_readable c -> distinct c -> settled M c m ->
  snd (run_install e c m) = Ok tt ->
  let m1 := s_fs (fst (run_install e c m)) in
  loaders_signed verifies c m1 /\ entries_signed M verifies m1 /\
  forall g, always_selected c g ->
    exists n y b, named M key g n /\ lookup m1 (linux_file M n) = Some (NFile y b) /\ bootable M m1 y /\ verifies y = true.
Proof.
  intros M key verifies e c m SO KK FI TR KE SK TO NF CL AR DC ST OK.
  exact (all_signed_after M key verifies SO KK e c m FI TR KE SK TO NF CL AR DC ST OK).
Qed.
Print Assumptions C73_all_signed.

(** ** The example: first without a key, then with one *)

Definition k_env : env :=
  Env (x_store x_files) x_sha x_parse x_objcopy (fun _ d => Some d) empty_signer
      (fun b => Some (lit "lock:" ++ x_sha b)) (fun c => (48 <=? c) && (c <=? 57)) (fun _ l => l) (fun _ l => l) x_good.
Definition k_m : machine :=
  Machine [lit "boot"] x_sha x_parse (fun c => (48 <=? c) && (c <=? 57)) (x_store x_files)
    (fun g => In g (x_gens [x_link1; x_link2])) (fun k => In k [x_key; lit "unsigned"]) (loads_well x_parse).
Definition k_verifies (b : bytes) : bool := eqb_bytes (skipn (length b - length (x_sig x_key)) b) (x_sig x_key).
(** The ESP after installing the first generation without a signature. *)
Definition k_e1 : fs := s_fs (fst (run_install k_env x_c1 x_esp)).
Definition k_name : name := utf8_encode (stub_name x_sha (lit "unsigned") 0 x_gen1).

Definition k_inputs : list bytes :=
  flat_map (fun g => map (fun k => utf8_encode (json_stub_inputs (bs_toplevel (g_spec g)) k)) [x_key; lit "unsigned"]) (x_gens [x_link1; x_link2]).

Lemma k_sound : sound k_m.
Proof.
  destruct x_m_sound as [A B C D _]. split; [exact A | exact B | exact C | exact D|].
  assert (x_pairs (fun a b => eqb_bytes a b || negb (eqb_bytes (x_sha a) (x_sha b))) k_inputs = true) as P by (vm_compute; reflexivity).
  intros x y (g1 & k1 & G1 & K1 & ->) (g2 & k2 & G2 & K2 & ->) E.
  assert (forall g k, ma_gens k_m g -> ma_keys k_m k -> In (utf8_encode (json_stub_inputs (bs_toplevel (g_spec g)) k)) k_inputs) as IN.
  { intros g k G K. apply in_flat_map. exists g. split; [exact G|]. apply in_map_iff. exists k. split; [reflexivity | exact K]. }
  cbn [k_m ma_sha] in E.
  destruct (x_pairs_spec _ _ P _ _ (IN g1 k1 G1 K1) (IN g2 k2 G2 K2)) as [H|[H|H]]; [exact H | |].
  - apply orb_true_iff in H as [H|H]; [apply eqb_bytes_spec; exact H|]. rewrite E, (proj2 (eqb_bytes_spec _ _) eq_refl) in H. discriminate.
  - apply orb_true_iff in H as [H|H]; [symmetry; apply eqb_bytes_spec; exact H|]. rewrite E, (proj2 (eqb_bytes_spec _ _) eq_refl) in H. discriminate.
Qed.

Lemma k_fits : fits k_m x_world x_c12.
Proof.
  destruct x_fits_12 as [A B C D E F G H J K]. split; try assumption. intros key Q. left. exact (G key Q).
Qed.

Lemma k_fits_unsigned : fits k_m k_env x_c1.
Proof.
  destruct x_fits_1 as [A B C D E F G H J K]. split; try assumption.
  - intros key [= <-]. right. left. reflexivity.
  - intros stub p sections image out ST _ NS _ OB SG.
    assert (stub = x_stub) as -> by (vm_compute in ST; injection ST as <-; reflexivity).
    split; [apply x_loads|]. injection SG as <-. rewrite <- (app_nil_r image).
    intros n d a I. exact (x_added [] sections image (Forall_nil _) NS OB n d a I).
Qed.

Lemma k_history : history k_m k_e1.
Proof.
  unfold k_e1. rewrite final_fs. eapply hi_run; [|apply k_fits_unsigned | apply final_point].
  apply hi_start; [exact (proj1 (history_ok _ _ x_m_sound x_history_esp))|].
  intros g key n y b _ _ NM L.
  pose proof (x_no_entries [x_link1; x_link2] x_esp eq_refl g key n NM) as X.
  change (linux_file (x_machine [x_link1; x_link2]) n) with (linux_file k_m n) in X. rewrite X in L. discriminate.
Qed.

Lemma k_named : named k_m (lit "unsigned") x_gen1 k_name.
Proof. exists []. split; [constructor | vm_compute; reflexivity]. Qed.

Lemma k_since : since_key k_m x_key k_verifies k_e1.
Proof.
  apply sk_start; [apply k_history|]. intros g n G NM.
  destruct (lookup k_e1 (linux_file k_m n)) as [nd|] eqn:L; [|reflexivity]. exfalso.
  assert (lookup k_e1 (linux_file (x_machine [x_link1; x_link2]) n) <> None) as L'
    by (change (linux_file (x_machine [x_link1; x_link2]) n) with (linux_file k_m n); congruence).
  destruct (x_among [x_link1; x_link2] k_e1 [k_name] ltac:(vm_compute; reflexivity) g x_key n NM L') as [<-|[]].
  destruct (prefix_inj k_m g x_gen1 x_key (lit "unsigned") k_name k_sound G) as [_ X];
    [vm_compute; left; reflexivity | left; reflexivity | right; left; reflexivity | exact NM | apply k_named | discriminate X].
Qed.

Lemma k_trusted : trusted x_key k_verifies x_world.
Proof.
  intros _. split; [|split; [reflexivity | reflexivity]]. intros x y [= <-]. unfold k_verifies.
  apply eqb_bytes_spec. rewrite app_length.
  replace (length x + length (x_sig x_key) - length (x_sig x_key))%nat with (length x) by (rewrite PeanoNat.Nat.add_sub; reflexivity).
  apply skipn_exact.
Qed.

Example C73_all_signed_ex :
  sound k_m /\ ma_keys k_m x_key /\ fits k_m x_world x_c12 /\ trusted x_key k_verifies x_world /\
  sg_key (e_signer x_world) = Some x_key /\ since_key k_m x_key k_verifies k_e1 /\ tree_ok k_e1 /\ no_faults x_world /\
  complete_listings x_world /\ all_readable x_c12 /\ distinct x_c12 /\ settled k_m x_c12 k_e1 /\
  snd (run_install x_world x_c12 k_e1) = Ok tt /\ always_selected x_c12 x_gen1 /\
  (* before: an unsigned entry, an unsigned boot loader *)
  (exists y b, lookup k_e1 (linux_file k_m k_name) = Some (NFile y b) /\ k_verifies y = false) /\
  (exists y b, lookup k_e1 (c_esp x_c12 ++ [lit "EFI"; lit "BOOT"; lit "BOOTX64.EFI"]) = Some (NFile y b) /\ k_verifies y = false).
Proof.
  assert (forall vs sel, links_versions (c_links x_c12) vs -> newest (c_limit x_c12) vs sel -> sel = [(1, x_link1); (2, x_link2)]) as SEL
    by (apply x_sel; reflexivity).
  split; [apply k_sound|]. split; [left; reflexivity|]. split; [apply k_fits|]. split; [apply k_trusted|]. split; [reflexivity|].
  split; [apply k_since|]. split; [apply x_tree; vm_compute; reflexivity|]. split; [apply x_faultless|]. split; [apply x_complete|].
  split; [intros vs sel LV NW; rewrite (SEL vs sel LV NW); repeat constructor; discriminate|].
  split; [intros vs sel LV NW; rewrite (SEL vs sel LV NW); vm_compute; repeat constructor; cbn [In]; intuition discriminate|].
  split; [intros d g key n y b X; discriminate X|]. split; [vm_compute; reflexivity|].
  split; [intros vs sel LV NW; rewrite (SEL vs sel LV NW); left; reflexivity|].
  split; eexists _, _; (split; [vm_compute; reflexivity | vm_compute; reflexivity]).
Qed.
