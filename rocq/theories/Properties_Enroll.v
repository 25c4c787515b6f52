(** Keys for automatic enrolment: C77. *)
From Coq Require Import List NArith Bool Lia.
From Verif Require Import Base PBase MText MGeneration MNames MPe MFs MTool MInstall MCli MHook MEnroll SCommon SNames SInstall SHistory SCli SHook SImage SSigned SRepeat SEnroll.
From Verif Require Import PFs PInstall PHistory PHistories PCli PHook PEnroll.
From Verif Require Import XWorld XMachine Properties_History Properties_Cli Properties_Hook Properties_Repeat Properties_Signed.
Import ListNotations.
Open Scope N_scope.

(** ** The example: an installation without a key, then keys *)

Definition n_u (bad : bool) : surroundings := z_around (fun _ => bad) 0.
Definition n_o : options := z_options [] false.
Definition n_auth (n : name) : bytes := lit "for " ++ n.
Definition n_a : args := install_args n_o z_links (lit "boot").
Definition n_c : config := x_config 5 0 None [x_link1; x_link2].
Definition n_ready : fs := apply_all (key_ops k_e1 [lit "boot"] n_auth) k_e1.

Lemma n_config c : asked_config (u_world (n_u false) 0) n_a c -> c = n_c.
Proof. intros AC. apply (z_config (fun _ => false) 0 (lit "boot") 0 n_o c) in AC; [exact AC | right; reflexivity]. Qed.

Lemma n_asked : asked_config (u_world (n_u false) 0) n_a n_c.
Proof.
  assert (starts (u_world (n_u false) 0) n_a) as ST.
  { split; [discriminate|]. split; [discriminate|]. split; [discriminate|]. left. reflexivity. }
  destruct (cli_runs (u_world (n_u false) 0) n_a k_e1 ST) as (sg & c & _ & AC & _). rewrite <- (n_config c AC). exact AC.
Qed.

Lemma n_sel vs sel : links_versions (c_links n_c) vs -> newest (c_limit n_c) vs sel -> sel = [(1, x_link1); (2, x_link2)].
Proof.
  intros LV (skipped & PM & SS & _ & LE & FA).
  apply (x_sel (x_config 0 0 None [x_link1; x_link2]) x_link1 x_link2 eq_refl eq_refl eq_refl eq_refl vs sel LV).
  assert (length vs = 2%nat) as L2.
  { inversion LV as [|? ? ? vs1 _ LV1]; subst. inversion LV1 as [|? ? ? vs2 _ LV2]; subst. inversion LV2; subst. reflexivity. }
  specialize (LE ltac:(discriminate)). rewrite L2 in LE. change (N.min (c_limit n_c) (N.of_nat 2)) with 2 in LE.
  pose proof (Permutation.Permutation_length PM) as PL. rewrite app_length, L2 in PL.
  assert (skipped = []) as -> by (destruct skipped; [reflexivity | cbn in PL; lia]).
  exists []. split; [exact PM|]. split; [exact SS|]. split; [reflexivity|]. split; [intros X; destruct (X eq_refl) | exact FA].
Qed.

Lemma n_enrolling : enrolling k_m x_key k_verifies (n_u false) n_o.
Proof.
  split.
  - destruct (z_serves (fun _ => false) 0 n_o (or_intror eq_refl) eq_refl) as [SV PO]. split; [|exact PO].
    intros i esp a sg c MP W AS AC. destruct (SV i esp a sg c MP W AS AC) as [H1 H2]. split; [|exact H2].
    intros E. destruct (H1 E) as [A1 A2 A3 A4 A5 A6 A7 A8 A9 A10]. split; try assumption. intros k Q. left. exact (A7 k Q).
  - reflexivity.
  - reflexivity.
  - reflexivity.
  - split; reflexivity.
  - intros a sg c W AS AC. apply wanted_eq in W as ->. change (install_args n_o (u_links (n_u false) 0) (o_esp n_o)) with n_a in *.
    apply n_config in AC as ->. split; [reflexivity|].
    destruct AS as (pub & priv & E1 & E2 & _ & A). injection E1 as <-. injection E2 as <-.
    destruct A as (KEY & SG & VN); [intros [X _]; discriminate X|].
    assert (forall vs sel, links_versions (c_links n_c) vs -> newest (c_limit n_c) vs sel -> sel = [(1, x_link1); (2, x_link2)]) as SEL
      by exact n_sel.
    split; [|split; [intros t; reflexivity | split; [apply x_complete | split]]].
    + intros _. change (e_signer (w_env (u_world (n_u false) 0) sg)) with sg. split; [|split; [|exact VN]].
      * intros x y S. destruct (SG x) as [SI _]. rewrite SI in S. destruct k_trusted as [T _]; [reflexivity|]. apply (T x y). exact S.
      * intros y. destruct (SG y) as [_ V]. rewrite V. reflexivity.
    + intros vs sel LV NW; rewrite (SEL vs sel LV NW); repeat constructor; discriminate.
    + intros vs sel LV NW; rewrite (SEL vs sel LV NW); vm_compute; repeat constructor; cbn [In]; intuition discriminate.
Qed.

Lemma n_armed : armed [lit "boot"] n_ready.
Proof. intros n [<-|[<-|[<-|[]]]]; eexists _, _; vm_compute; reflexivity. Qed.

(** ** C77 *)

(** The whole statement is: at every moment of the service, if the three files
    that systemd-boot enrols are on the ESP, then both copies of systemd-boot and
    all entries carry signatures with the key.

    It holds once the service has succeeded, *)
Theorem C77_success_partial : forall M key verifies u o auth stop m a c,
  sound M -> ma_keys M key -> enrolling M key verifies u o ->
  since_key M key verifies m -> tree_ok m -> may_start m (ma_esp M) = true ->
  wanted o (u_links u 0) (o_esp o) a -> asked_config (u_world u 0) a c ->
  snd (prepare (Some auth) stop u o m) = 0 ->
  loaders_signed verifies c (fst (prepare (Some auth) stop u o m)) /\
  entries_signed M verifies (fst (prepare (Some auth) stop u o m)).
Proof.
  intros M key verifies u o auth stop m a c SO KK EN SK TO MS. pose proof (en_esp _ _ _ _ _ EN) as E. rewrite <- E in MS.
  exact (service_signed M key verifies u o SO KK EN auth stop m a c E SK TO MS).
Qed.
Print Assumptions C77_success_partial.

(** but not while it runs, nor after it fails: the files are there before
    anything is signed again.  And then the service does not start again. *)
Theorem C77_refuted : exists M key verifies u o auth m a c m1,
  sound M /\ ma_keys M key /\ enrolling M key verifies u o /\
  since_key M key verifies m /\ tree_ok m /\ may_start m (ma_esp M) = true /\
  wanted o (u_links u 0) (o_esp o) a /\ asked_config (u_world u 0) a c /\
  (* it is stopped here *)
  preparing auth u o m m1 /\ armed (ma_esp M) m1 /\
  ~ loaders_signed verifies c m1 /\ ~ entries_signed M verifies m1 /\ may_start m1 (ma_esp M) = false /\
  (* or the installation fails, and it ends here *)
  exists u', prepare (Some auth) None u' o m = (m1, 1).
Proof.
  exists k_m, x_key, k_verifies, (n_u false), n_o, n_auth, k_e1, n_a, n_c, n_ready.
  split; [apply k_sound|]. split; [left; reflexivity|]. split; [apply n_enrolling|]. split; [apply k_since|].
  split; [apply x_tree; vm_compute; reflexivity|]. split; [vm_compute; reflexivity|].
  split; [apply wanted_args|]. split; [apply n_asked|].
  split; [left; exists (length (key_ops k_e1 [lit "boot"] n_auth)); rewrite firstn_all; reflexivity|].
  split; [apply n_armed|]. split; [|split; [|split; [vm_compute; reflexivity|]]].
  - intros L. destruct (L (in_esp n_c [lit "EFI"; lit "BOOT"; lit "BOOTX64.EFI"])) as (y & b & L1 & V); [left; reflexivity|].
    assert (match lookup n_ready (in_esp n_c [lit "EFI"; lit "BOOT"; lit "BOOTX64.EFI"]) with Some (NFile y _) => k_verifies y | _ => true end = false) as X
      by (vm_compute; reflexivity). rewrite L1 in X. congruence.
  - intros L.
    assert (match lookup n_ready (linux_file k_m k_name) with Some (NFile y _) => negb (k_verifies y) | _ => false end = true) as X by (vm_compute; reflexivity).
    destruct (lookup n_ready (linux_file k_m k_name)) as [[|y b]|] eqn:L1; try discriminate X.
    rewrite (L k_name (match utf8_decode k_name with Some s => skipn 6 s | None => [] end) y b) in X; [discriminate X | vm_compute; reflexivity | exact L1].
  - exists (n_u true). vm_compute. reflexivity.
Qed.
Print Assumptions C77_refuted.

(** At every moment the ESP keeps what holds for all histories: the service
    itself never damages an entry. *)
Theorem C77_history : forall M key verifies u o auth m m1,
  sound M -> enrolling M key verifies u o -> history M m -> preparing auth u o m m1 -> history M m1.
Proof.
  intros M key verifies u o auth m m1 SO EN. exact (service_history M key verifies u o SO EN auth m m1 (en_esp _ _ _ _ _ EN)).
Qed.
Print Assumptions C77_history.

(** With the order changed -- the hook first, then the files -- the whole
    statement holds. *)
Theorem C77_other_order : forall M key verifies u o auth m a c m1,
  sound M -> ma_keys M key -> enrolling M key verifies u o ->
  since_key M key verifies m -> tree_ok m -> may_start m (ma_esp M) = true ->
  wanted o (u_links u 0) (o_esp o) a -> asked_config (u_world u 0) a c ->
  preparing_late auth u o m m1 -> armed (ma_esp M) m1 ->
  loaders_signed verifies c m1 /\ entries_signed M verifies m1.
Proof.
  intros M key verifies u o auth m a c m1 SO KK EN SK TO MS. pose proof (en_esp _ _ _ _ _ EN) as E. rewrite <- E in *.
  exact (late_signed M key verifies u o SO KK EN auth m m1 a c E SK TO MS).
Qed.
Print Assumptions C77_other_order.


(** The hypotheses hold, and the service succeeds. *)
Example C77_success_partial_ex :
  sound k_m /\ ma_keys k_m x_key /\ enrolling k_m x_key k_verifies (n_u false) n_o /\
  since_key k_m x_key k_verifies k_e1 /\ tree_ok k_e1 /\ may_start k_e1 (ma_esp k_m) = true /\
  wanted n_o (u_links (n_u false) 0) (o_esp n_o) n_a /\ asked_config (u_world (n_u false) 0) n_a n_c /\
  snd (prepare (Some n_auth) None (n_u false) n_o k_e1) = 0 /\
  (* before, the boot loader is not signed *)
  (exists y b, lookup k_e1 (in_esp n_c [lit "EFI"; lit "BOOT"; lit "BOOTX64.EFI"]) = Some (NFile y b) /\ k_verifies y = false).
Proof.
  split; [apply k_sound|]. split; [left; reflexivity|]. split; [apply n_enrolling|]. split; [apply k_since|].
  split; [apply x_tree; vm_compute; reflexivity|]. split; [vm_compute; reflexivity|].
  split; [apply wanted_args|]. split; [apply n_asked|]. split; [vm_compute; reflexivity|].
  eexists _, _; (split; [vm_compute; reflexivity | vm_compute; reflexivity]).
Qed.

(** In the other order there is a moment with the files on the ESP. *)
Example C77_other_order_ex :
  snd (hook (n_u false) n_o k_e1) = 0 /\
  exists m1, preparing_late n_auth (n_u false) n_o k_e1 m1 /\ armed (ma_esp k_m) m1.
Proof.
  assert (snd (hook (n_u false) n_o k_e1) = 0) as Z by (vm_compute; reflexivity). split; [exact Z|].
  eexists. split; [right; split; [exact Z|]; exists 100%nat; reflexivity|].
  intros n [<-|[<-|[<-|[]]]]; eexists _, _; vm_compute; reflexivity.
Qed.

Example C77_history_ex : history k_m k_e1 /\ preparing n_auth (n_u false) n_o k_e1 n_ready.
Proof. split; [apply k_history | left; exists (length (key_ops k_e1 [lit "boot"] n_auth)); rewrite firstn_all; reflexivity]. Qed.
