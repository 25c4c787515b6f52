(** C94, continued: with the keys that sbctl makes and enrols, the machine
    boots. *)
From Coq Require Import List NArith Bool Lia.
From Verif Require Import Base PBase MText MNames MPe MGeneration MFirmware MStub MFs MTool MInstall MCli MHook MEnroll MProvision MSbctl
  SFirmware SCommon SNames SInstall SHistory SImage SUse SStub SGate SCli SHook SSigned SRepeat SExact SMenu SLoaderConf SSwitch SEnroll SProvision SSbctl.
From Verif Require Import PFs PHistory PHistories PHook PProvision PSbctl PSbctlUse XWorld XMachine Properties_History Properties_Cli Properties_Hook
  Properties_Repeat Properties_Signed Properties_Enroll Properties_Provision Properties_Sbctl.
Import ListNotations.
Open Scope N_scope.

(** The machine of C88 need not be assumed to sign with a key that verifies: that
    the pair in sbctl's directory works is enough.  Then everything that starts
    after both services verifies with the certificate that sbctl enrols. *)
Theorem C94_boots : forall k s p d M key u o create enroll auth m,
  key_settings_of k = Some s -> ko_pki k = Some p -> plain_value p ->
  ko_public k = None -> ko_private k = None -> ko_generate k || ko_enroll k = true -> key_dir (ks_sbctl s) d ->
  sound M -> (forall z, ma_good M z -> loads_well (ma_parse M) z) -> ma_keys M key -> works_with M d key u (with_keys s o) ->
  let verifies := w_sbverify (u_world u 0) (db_certificate d) in
  since_key M key verifies m -> tree_ok m -> may_start m (ma_esp M) = true ->
  (present m (MNames.components p ++ [lit "keys"]) = true \/ creates M (MNames.components p) create m) ->
  enroll (generate (MNames.components p) create None m) = Some auth ->
  let r := boot_services (MNames.components p) create enroll u (with_keys s o) (None, None) m in
  snd r = 0 -> no_lookalikes M (fst r) ->
  armed (ma_esp M) (fst r) /\
  exists a c, wanted (with_keys s o) (u_links u 0) (o_esp o) a /\ asked_config (u_world u 0) a c /\ boots_enrolled M verifies c (fst r).
Proof.
  intros k s p d M key u o create enroll auth m KS KP PV PU PR ON KD SO GOOD KK WW verifies SK TO MS CR E r.
  exact (services_boot M key verifies u (with_keys s o) SO GOOD KK (enrols k s p d KS KP PV PU PR ON KD M key u o WW)
    (MNames.components p) create enroll auth m SK TO MS CR E).
Qed.
Print Assumptions C94_boots.

(** ** Example *)

Definition j_p : bytes := lit "/var/lib/sbctl".
Definition j_d : bytes := lit "/var/lib/sbctl/keys".
Definition j_k : key_options := KeyOptions true true (Some j_p) None None.
Definition j_s : key_settings :=
  KeySettings (db_certificate j_d) (db_key j_d)
    (Some (lit "guid: /var/lib/sbctl/GUID" ++ [10] ++ lit "keydir: /var/lib/sbctl/keys" ++ [10])) (Some j_d).
Definition j_w : world :=
  World y_stub (fun _ => Some true) (fun q => if eqb_bytes q (db_certificate j_d) then Some x_key else None) y_link
    (fun key cert b => if eqb_bytes key (db_key j_d) && eqb_bytes cert (db_certificate j_d) then Some (b ++ x_sig x_key) else None)
    (fun cert b => eqb_bytes cert (db_certificate j_d) && k_verifies b) y_env.
Definition j_u : surroundings := Surroundings (fun _ => j_w) (fun _ => z_links) (fun m => (m, 0)).
Definition j_o : options := with_keys j_s n_o.
Definition j_a : args := install_args j_o z_links (lit "boot").

Lemma j_plain : plain_value j_p.
Proof.
  exists (lit "var/lib/sbctl"). split; [reflexivity|].
  assert (H : forallb (fun c => (97 <=? c) && (c <=? 122) || (c =? 47)) (lit "var/lib/sbctl") = true) by reflexivity.
  intros c HC. rewrite forallb_forall in H. specialize (H c HC). apply orb_true_iff in H. destruct H as [H|H].
  - apply andb_true_iff in H. rewrite !N.leb_le in H. auto.
  - apply N.eqb_eq in H. subst c. right. right. right. left. reflexivity.
Qed.
Lemma j_key_dir : key_dir (ks_sbctl j_s) j_d.
Proof. exact (proj1 (configured_dir j_k j_s _ eq_refl eq_refl j_plain eq_refl)). Qed.
Lemma j_verifies y : w_sbverify (u_world j_u 0) (db_certificate j_d) y = k_verifies y.
Proof. reflexivity. Qed.

Lemma j_config esp c : asked_config j_w (install_args j_o z_links esp) c ->
  c = Config X86 (MNames.components esp) (lit "/nix/store/lzbt/stub.efi") (lit "/nix/store/systemd") (lit "/nix/store/loader.conf")
        5 0 None [x_link1; x_link2].
Proof. exact (z_config (fun _ => false) 0 esp 0 n_o c (or_intror eq_refl)). Qed.

Lemma j_works : works_with k_m j_d x_key j_u j_o.
Proof.
  assert (SIGNS : forall sg, asked_signer j_w j_a sg -> sg_key sg = Some x_key /\ forall x, sg_sign sg x = Some (x ++ x_sig x_key)).
  { intros sg (pub & priv & E1 & E2 & _ & A). injection E1 as <-. injection E2 as <-.
    destruct A as (KEY & SG & _); [intros [X _]; discriminate X|]. split; [exact KEY|]. intros x. exact (proj1 (SG x)). }
  split.
  - split; [|reflexivity]. intros i esp a sg c MP W AS AC. apply wanted_eq in W as ->. cbn [j_u u_links u_world] in AS, AC.
    assert (i = 0%nat /\ esp = lit "boot") as [-> ->]
      by (destruct MP as [[-> ->]|(j & _ & N)]; [split; reflexivity | destruct j; discriminate]).
    split; intros NE; [|destruct (NE eq_refl)].
    apply j_config in AC. change (MNames.components (lit "boot")) with [lit "boot"] in AC. fold (x_config 5 0 None [x_link1; x_link2]) in AC. subst c.
    destruct (SIGNS sg AS) as (KEY & SG).
    destruct (x_m_fits x_good 5 0 [x_link1; x_link2] (incl_refl _)) as [F1 F2 F3 F4 F5 F6 F7 F8 F9 F10].
    constructor; try assumption.
    + cbn. intros key E. rewrite KEY in E. injection E as <-. left. reflexivity.
    + intros stub p sections image out H1 H2 H3 H4 H5 H6. apply (F10 stub p sections image out H1 H2 H3 H4 H5).
      cbn [w_env j_u u_world j_w y_env e_signer] in H6. rewrite SG in H6. exact H6.
  - reflexivity.
  - reflexivity.
  - reflexivity.
  - intros x y E. change (Some (x ++ x_sig x_key) = Some y) in E. change (k_verifies y = true).
    destruct k_trusted as [T _]; [reflexivity|]. apply (T x y). exact E.
  - reflexivity.
  - reflexivity.
  - intros a sg c W AS AC. apply wanted_eq in W as ->. apply (j_config (lit "boot")) in AC as ->. change (MNames.components (lit "boot")) with [lit "boot"].
    fold (x_config 5 0 None [x_link1; x_link2]). fold n_c.
    split; [reflexivity|]. split; [intros t; reflexivity|]. split; [apply x_complete|]. split.
    + intros vs sel LV NW; rewrite (n_sel vs sel LV NW); repeat constructor; discriminate.
    + intros vs sel LV NW; rewrite (n_sel vs sel LV NW); vm_compute; repeat constructor; cbn [In]; intuition discriminate.
Qed.

(** The hypotheses of [C94_boots] hold. *)
Example C94_boots_ex :
  key_settings_of j_k = Some j_s /\ ko_pki j_k = Some j_p /\ plain_value j_p /\ ko_generate j_k || ko_enroll j_k = true /\
  key_dir (ks_sbctl j_s) j_d /\ sound k_m /\ ma_keys k_m x_key /\ works_with k_m j_d x_key j_u (with_keys j_s n_o) /\
  since_key k_m x_key (w_sbverify (u_world j_u 0) (db_certificate j_d)) k_e1 /\ tree_ok k_e1 /\ may_start k_e1 (ma_esp k_m) = true /\
  creates k_m (MNames.components j_p) v_create k_e1 /\ v_enroll (generate (MNames.components j_p) v_create None k_e1) = Some n_auth /\
  snd (boot_services (MNames.components j_p) v_create v_enroll j_u (with_keys j_s n_o) (None, None) k_e1) = 0.
Proof.
  assert (P : MNames.components j_p = v_pki) by (vm_compute; reflexivity). rewrite P.
  split; [reflexivity|]. split; [reflexivity|]. split; [apply j_plain|]. split; [reflexivity|]. split; [apply j_key_dir|].
  split; [apply k_sound|]. split; [left; reflexivity|]. split; [apply j_works|].
  split; [exact k_since|]. split; [apply x_tree; vm_compute; reflexivity|]. split; [vm_compute; reflexivity|]. split; [apply v_creates|].
  split; vm_compute; reflexivity.
Qed.
