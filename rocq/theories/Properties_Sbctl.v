(** C94: the keys that sbctl makes and enrols are those that lzbt signs with. *)
From Coq Require Import List Arith NArith Bool.
From Verif Require Import Base MText MHook MCli MTool MInstall MSbctl SSbctl SCli PSbctl.
From Verif Require Import XWorld XMachine Properties_Cli.
Import ListNotations.
Open Scope N_scope.

(** With one of the two services sbctl's directory is the one in the bundle, and
    generate-sb-keys runs unless just this one exists. *)
Theorem C94_directory : forall k s p, key_settings_of k = Some s -> ko_pki k = Some p -> plain_value p ->
  ko_generate k || ko_enroll k = true ->
  key_dir (ks_sbctl s) (p ++ lit "/keys") /\ (ko_generate k = true -> ks_unless s = Some (p ++ lit "/keys")).
Proof. exact configured_dir. Qed.
Print Assumptions C94_directory.

(** If the files of the keys are not set otherwise, everything that lzbt signs
    when the hook calls it verifies with the certificate that sbctl enrols. *)
Theorem C94_signs_enrolled : forall k s p d w o links esp sg,
  key_settings_of k = Some s -> ko_pki k = Some p -> plain_value p ->
  ko_public k = None -> ko_private k = None -> ko_generate k || ko_enroll k = true -> key_dir (ks_sbctl s) d -> pair_works w d ->
  w_exists w (db_certificate d) = Some true ->
  asked_signer w (install_args (with_keys s o) links esp) sg ->
  sg_key sg = w_read w (db_certificate d) /\ forall x y, sg_sign sg x = Some y -> w_sbverify w (db_certificate d) y = true.
Proof. exact signs_enrolled. Qed.
Print Assumptions C94_signs_enrolled.

(** When a configuration can be evaluated at all. *)
Theorem C94_evaluates : forall k, key_settings_of k <> None <->
  ko_pki k <> None \/ ko_public k <> None /\ ko_private k <> None /\ ko_generate k = false /\ ko_enroll k = false.
Proof. exact evaluates_iff. Qed.
Print Assumptions C94_evaluates.

(** Without the services sbctl has its own default: keys that are made and
    enrolled by hand are those of lzbt exactly if the bundle lies there. *)
Theorem C94_by_hand : forall k s p, key_settings_of k = Some s -> ko_pki k = Some p -> ko_public k = None -> ko_private k = None ->
  ko_generate k = false -> ko_enroll k = false ->
  (forall d, key_dir (ks_sbctl s) d -> ks_public s = db_certificate d) <-> p = lit "/var/lib/sbctl".
Proof. exact by_hand. Qed.
Print Assumptions C94_by_hand.

(** ** Example *)

Definition i_k (public : option bytes) : key_options := KeyOptions true true (Some (lit "/persist/sbctl")) public None.
Definition i_s (public : bytes) : key_settings :=
  KeySettings public (lit "/persist/sbctl/keys/db/db.key")
    (Some (lit "guid: /persist/sbctl/GUID" ++ [10] ++ lit "keydir: /persist/sbctl/keys" ++ [10])) (Some (lit "/persist/sbctl/keys")).
Definition i_dir : bytes := lit "/persist/sbctl/keys".
Definition i_other : bytes := lit "/root/other.pem".
(** Signing appends the name of the certificate, with which it then verifies;
    the key [db.key] fits any of them. *)
Definition i_w : world := World y_stub (fun _ => Some true) (fun p => Some (lit "contents of " ++ p)) y_link
  (fun key cert x => if eqb_bytes key (db_key i_dir) then Some (x ++ cert) else None)
  (fun cert y => eqb_bytes (skipn (length y - length cert) y) cert) y_env.
Definition i_o : options :=
  Options (lit "x86_64-linux") (lit "/nix/store/systemd") (lit "/nix/store/loader.conf") None false 3 [] [] false []
    (lit "/var/lib/pcrlock.d") (lit "/boot") [].
Definition i_sg (s : key_settings) : signer := choose_signer i_w false (ks_public s) (ks_private s).

Lemma i_pair : pair_works i_w i_dir.
Proof.
  intros x y E. cbn [i_w w_sbsign w_sbverify] in *. destruct (eqb_bytes _ _); [|discriminate E]. injection E as <-.
  rewrite app_length. replace (length x + length (db_certificate i_dir) - length (db_certificate i_dir))%nat with (length x)
    by (rewrite Nat.add_sub; reflexivity).
  rewrite skipn_app, Nat.sub_diag, skipn_all. reflexivity.
Qed.
Lemma i_plain : plain_value (lit "/persist/sbctl").
Proof.
  exists (lit "persist/sbctl"). split; [reflexivity|].
  assert (H : forallb (fun c => (97 <=? c) && (c <=? 122) || (c =? 47)) (lit "persist/sbctl") = true) by reflexivity.
  intros c HC. rewrite forallb_forall in H. specialize (H c HC). apply orb_true_iff in H. destruct H as [H|H].
  - apply andb_true_iff in H. rewrite !N.leb_le in H. auto.
  - apply N.eqb_eq in H. subst c. right. right. right. left. reflexivity.
Qed.
Lemma i_key_dir public : key_dir (ks_sbctl (i_s public)) i_dir.
Proof.
  exact (proj1 (configured_dir (i_k (Some public)) (i_s public) _ eq_refl eq_refl i_plain eq_refl)).
Qed.
Lemma i_asked s links esp : asked_signer i_w (install_args (with_keys s i_o) links esp) (i_sg s).
Proof.
  exists (ks_public s), (ks_private s). split; [reflexivity|]. split; [reflexivity|]. cbv zeta. split.
  - intros (NU & _). discriminate NU.
  - intros _. split; [reflexivity|]. split; [intros x; split; reflexivity | reflexivity].
Qed.

Example C94_ex : let s := i_s (db_certificate i_dir) in
  key_settings_of (i_k None) = Some s /\ ko_pki (i_k None) = Some (lit "/persist/sbctl") /\ plain_value (lit "/persist/sbctl") /\
  ko_public (i_k None) = None /\ ko_private (i_k None) = None /\ ko_generate (i_k None) || ko_enroll (i_k None) = true /\
  key_dir (ks_sbctl s) i_dir /\ pair_works i_w i_dir /\ w_exists i_w (db_certificate i_dir) = Some true /\
  asked_signer i_w (install_args (with_keys s i_o) [] (lit "/boot")) (i_sg s) /\ sg_sign (i_sg s) (lit "image") <> None.
Proof.
  cbv zeta. repeat (split; [reflexivity || apply i_plain || apply i_key_dir || apply i_pair || apply i_asked|]). vm_compute. discriminate.
Qed.

(** ** What is false *)

(** If one of the files is set otherwise, the services go on with the keys in
    the bundle: lzbt signs with a certificate that is never enrolled. *)
Theorem C94_own_file_refuted : exists k s d w o links esp sg x y,
  key_settings_of k = Some s /\ ko_generate k = true /\ ko_enroll k = true /\ key_dir (ks_sbctl s) d /\ pair_works w d /\
  w_exists w (db_certificate d) = Some true /\ asked_signer w (install_args (with_keys s o) links esp) sg /\
  sg_sign sg x = Some y /\ sg_verify sg (Some y) = true /\ w_sbverify w (db_certificate d) y = false.
Proof.
  exists (i_k (Some i_other)), (i_s i_other), i_dir, i_w, i_o, [], (lit "/boot"), (i_sg (i_s i_other)), (lit "image"), (lit "image" ++ i_other).
  split; [reflexivity|]. split; [reflexivity|]. split; [reflexivity|]. split; [apply i_key_dir|]. split; [apply i_pair|].
  split; [reflexivity|]. split; [apply i_asked|]. split; [vm_compute; reflexivity|]. split; vm_compute; reflexivity.
Qed.
Print Assumptions C94_own_file_refuted.
