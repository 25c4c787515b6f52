(** C89: automatic reboots. *)
From Coq Require Import List NArith Bool Lia.
From Verif Require Import Base PBase MText MNames MPe MGeneration MFirmware MStub MFs MTool MInstall MCli MHook MEnroll MPolicy MCryptenroll MReboot
  SCommon SNames SFirmware SStub SInstall SHistory SImage SUse SCli SHook SExact SRepeat SPcr SPolicy SEnroll SCryptenroll SReboot.
From Verif Require Import PFs PHook PReboot XWorld XMachine Properties_History Properties_Exact Properties_Repeat Properties_Cli
  Properties_Hook Properties_Policy Properties_Enroll Properties_Cryptenroll.
Import ListNotations.
Open Scope N_scope.

(** ** C89 *)

(** Whatever happens, the machine reboots by itself at most once after each of
    the two services. *)
Theorem C89_bounded : forall esp i j t t1, runs esp i j t t1 -> (i <= 1 /\ j <= 1)%nat.
Proof. intros esp i j t t1 R. destruct (runs_bound esp i j t t1 R) as [[->|[-> _]] [->|[-> _]]]; lia. Qed.
Print Assumptions C89_bounded.

(** After both, no service starts any more. *)
Theorem C89_settled : forall esp i j t t1 i' j' t2, runs esp i j t t1 -> (i = 1 /\ j = 1)%nat -> runs esp i' j' t1 t2 ->
  (i' = 0 /\ j' = 0)%nat /\
  forall s auth stop secure u o ok, MNames.components (o_esp o) = esp ->
    prepare_unit s auth stop u o t2 = (t2, false) /\ cryptenroll_unit s secure u o ok t2 = ([], false).
Proof.
  intros esp i j t t1 i' j' t2 R1 [-> ->] R2. destruct (runs_bound _ _ _ _ _ R1) as [[X|[_ A]] [Y|(_ & _ & B)]]; try discriminate.
  split.
  - destruct (runs_bound _ _ _ _ _ R2) as [C D]. split.
    + destruct C as [C|[_ C]]; [exact C|]. destruct (C (lit "PK.auth") (or_introl eq_refl)) as [N _]. destruct (A (lit "PK.auth") (or_introl eq_refl)) as [_ P]. contradiction.
    + destruct D as [D|(_ & N & _)]; [exact D | contradiction].
  - apply provisioned_idle. intros p W. apply (runs_stay _ _ _ _ _ R2 p W). destruct W as [->|(n & Hn & ->)]; [exact B | apply (A n Hn)].
Qed.
Print Assumptions C89_settled.

(** It reboots by itself only if the options say so, and after a success: then
    the files by which the service knows that it is done are there. *)
Theorem C89_asked : forall esp s auth stop secure u o ok t, leaves_watched esp u o ->
  (snd (prepare_unit s auth stop u o t) = true ->
     r_enroll s = true /\ r_after_enroll s = true /\ armed_any esp (k_fs (fst (prepare_unit s auth stop u o t)))) /\
  (snd (cryptenroll_unit s secure u o ok t) = true ->
     r_after_crypt s = true /\ k_slot (last (fst (cryptenroll_unit s secure u o ok t)) t) = Pcrlock /\
     lookup (k_fs (last (fst (cryptenroll_unit s secure u o ok t)) t)) marker <> None).
Proof.
  intros esp s auth stop secure u o ok t LW. split; intros Z.
  - pose proof (prepare_reboots esp u o LW s auth stop t Z) as PR. revert Z. unfold prepare_unit at 1.
    destruct (r_enroll s); [|discriminate]. destruct (_ && _); [|discriminate]. destruct (prepare auth stop u o (k_fs t)) as [m n]. cbn [snd].
    intros Z. apply andb_prop in Z as [Z _]. split; [reflexivity|]. split; [exact Z|]. intros n' Hn. apply (PR n' Hn).
  - pose proof (crypt_reboots u o s secure ok t Z) as [_ P]. split; [|split; [|exact P]].
    + unfold cryptenroll_unit in Z. destruct (_ || _); [|discriminate]. destruct (auto_cryptenroll u o ok t). apply andb_prop in Z as [Z _]. exact Z.
    + unfold cryptenroll_unit in *. destruct (_ || _); [|discriminate]. destruct (auto_cryptenroll u o ok t) as [ts d] eqn:E. cbn [fst snd] in *.
      apply andb_prop in Z as [_ ->]. apply PCryptenroll.service_done in E as (_ & _ & _ & ->). reflexivity.
Qed.
Print Assumptions C89_asked.

(** Neither the disk's binding nor the log is changed by prepare-sb-auto-enroll,
    and the policy only by a success on a machine with Measured Boot; it then
    is for this boot's log. *)
Theorem C89_policy : forall s auth stop u o t, let t1 := fst (prepare_unit s auth stop u o t) in
  k_slot t1 = k_slot t /\ k_log t1 = k_log t /\
  (k_policy t1 <> k_policy t ->
     r_enroll s = true /\ o_measured o = true /\ snd (prepare auth stop u o (k_fs t)) = 0 /\ exists m, k_policy t1 = Some (m, k_log t)).
Proof.
  intros s auth stop u o t. cbv zeta. unfold prepare_unit. destruct (r_enroll s && _) eqn:C; [|cbn [fst]; repeat split; congruence].
  apply andb_prop in C as [C _]. destruct (prepare auth stop u o (k_fs t)) as [m n]. cbn [fst snd k_slot k_log k_policy].
  split; [reflexivity|]. split; [reflexivity|]. destruct auth as [a|]; [|congruence].
  destruct (o_measured o && (n =? 0)) eqn:B; [|congruence]. intros _. apply andb_prop in B as [B N]. apply N.eqb_eq in N.
  split; [exact C|]. split; [exact B|]. split; [exact N|]. eexists. reflexivity.
Qed.
Print Assumptions C89_policy.

(** With automatic enrolment of keys the disk is not bound before Secure Boot is
    enforced. *)
Theorem C89_secure_first : forall s u o ok t, r_enroll s = true -> cryptenroll_unit s false u o ok t = ([], false).
Proof. intros s u o ok t E. unfold cryptenroll_unit. rewrite E. reflexivity. Qed.
Print Assumptions C89_secure_first.

(** ** Example: first boot, reboot, second boot with Secure Boot, reboot *)

Definition v_s : rebooting := Rebooting true true true.
Definition v_esp : path := [lit "boot"].
Definition v_t1 : machine_state := fst (prepare_unit v_s (Some n_auth) None (q_u false) q_o q_t).
Definition v_t2 : machine_state := boot (q_u false) q_o q_boot v_t1.
Definition v_t3 : machine_state := last (fst (cryptenroll_unit v_s true (q_u false) q_o true v_t2)) v_t2.

Lemma v_leaves : leaves_watched v_esp (q_u false) q_o.
Proof.
  split; [reflexivity|]. split; [|intros m p _ H; exact H].
  intros i e a sg c MP W AS AC. destruct MP as [[-> ->]|(j & _ & X)]; [|destruct j; discriminate X].
  destruct (me_run _ _ _ _ _ q_measuring a sg c W AS AC) as (FI & _). split; [exact (fi_listings _ _ _ FI)|].
  apply wanted_eq in W as ->. apply q_config in AC as ->. intros p WA OW.
  assert (forall q, owned x_c3 q -> q <> marker /\ forall n, q <> auth_file v_esp n) as NO.
  { clear p WA OW. intros q OW. destruct OW as [n r|a0 y r|p Hp| |p Hp|d n r E|d n r E].
    - split; [discriminate | intros k; discriminate].
    - split; [discriminate | intros k; discriminate].
    - cbn [In boot_paths x_c3 c_arch] in Hp. repeat (destruct Hp as [<-|Hp]; [split; [discriminate | intros k; discriminate]|]). destruct Hp.
    - split; [discriminate | intros k; discriminate].
    - cbn in Hp. repeat (destruct Hp as [<-|Hp]; [split; [discriminate | intros k; discriminate]|]). destruct Hp.
    - injection E as <-. split; [discriminate | intros k; discriminate].
    - injection E as <-. split; [discriminate | intros k; discriminate]. }
  destruct (NO p OW) as [N1 N2]. destruct WA as [->|(n & _ & ->)]; [apply N1; reflexivity | apply (N2 n); reflexivity].
Qed.

Example C89_ex :
  runs v_esp 1 1 q_t v_t3 /\
  (* the first service, without Secure Boot, and not the second one *)
  snd (prepare_unit v_s (Some n_auth) None (q_u false) q_o q_t) = true /\
  cryptenroll_unit v_s false (q_u false) q_o true q_t = ([], false) /\
  (* the second one after the reboot, and not the first one *)
  prepare_unit v_s (Some n_auth) None (q_u false) q_o v_t2 = (v_t2, false) /\
  snd (cryptenroll_unit v_s true (q_u false) q_o true v_t2) = true.
Proof.
  assert (snd (prepare_unit v_s (Some n_auth) None (q_u false) q_o q_t) = true) as P by (vm_compute; reflexivity).
  assert (snd (cryptenroll_unit v_s true (q_u false) q_o true v_t2) = true) as C by (vm_compute; reflexivity).
  split; [|split; [exact P|]; split; [reflexivity|]; split; [|exact C]].
  - pose proof (ru_prepare v_esp 0 0 q_t q_t v_s (Some n_auth) None (q_u false) q_o (ru_start _ _) v_leaves) as R1. rewrite P in R1.
    pose proof (ru_boot v_esp 1 0 q_t _ (q_u false) q_o q_boot R1 v_leaves) as R2.
    pose proof (ru_crypt v_esp 1 0 q_t v_t2 v_s true (q_u false) q_o true R2 v_leaves) as R3. rewrite C in R3. exact R3.
  - unfold prepare_unit. replace (may_start (k_fs v_t2) (MNames.components (o_esp q_o))) with false; [reflexivity|]. vm_compute. reflexivity.
Qed.

(** That the number of automatic reboots is bounded, whatever the root file
    system, is false: on a machine that forgets /var/lib at each boot (the
    module's comment on pkiBundle, lanzaboote.nix:528-531, has such machines in
    mind) it reboots for ever, since the marker is forgotten too. *)
Definition v_forget (t : machine_state) : machine_state := Kept (apply (ORemove marker) (k_fs t)) (k_policy t) (k_slot t) (k_log t).
Definition v_loop : machine_state := v_forget v_t3.

Theorem C89_forgetful_refuted : exists s u o log t, leaves_watched v_esp u o /\
  (forall m a, wanted o (u_links u 0) (o_esp o) a -> k_fs t = m -> snd (lzbt (u_world u 0) a m) = 0) /\
  forall n, exists t1, forgetful s u o log n t t1.
Proof.
  exists v_s, (q_u false), q_o, q_boot, v_loop. split; [exact v_leaves|]. split.
  - intros m a W <-. apply wanted_eq in W as ->. vm_compute. reflexivity.
  - assert (snd (cryptenroll_unit v_s true (q_u false) q_o true (boot (q_u false) q_o q_boot v_loop)) = true) as C by (vm_compute; reflexivity).
    assert (v_forget (last (fst (cryptenroll_unit v_s true (q_u false) q_o true (boot (q_u false) q_o q_boot v_loop))) v_loop) = v_loop) as E by (vm_compute; reflexivity).
    assert (forall n, forgetful v_s (q_u false) q_o q_boot n v_loop v_loop) as F; [|intros n; exists v_loop; apply F].
    induction n as [|n IH]; [constructor|].
    pose proof (fo_again v_s (q_u false) q_o q_boot n v_loop v_loop (fst (cryptenroll_unit v_s true (q_u false) q_o true (boot (q_u false) q_o q_boot v_loop)))
      (apply (ORemove marker) (k_fs (last (fst (cryptenroll_unit v_s true (q_u false) q_o true (boot (q_u false) q_o q_boot v_loop))) v_loop))) IH) as X.
    unfold v_forget in E at 1. rewrite E in X. apply X.
    + rewrite <- C. apply surjective_pairing.
    + split; [rewrite lookup_apply, (proj2 (eqb_path_spec _ _) eq_refl); reflexivity|].
      intros p N. rewrite lookup_apply. destruct (eqb_path marker p) eqn:Q; [apply eqb_path_spec in Q; congruence | reflexivity].
Qed.
Print Assumptions C89_forgetful_refuted.
