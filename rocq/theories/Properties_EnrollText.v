(** C90: the text of the service that prepares the enrolment of keys. *)
From Coq Require Import List NArith Bool Lia.
From Verif Require Import Base PBase MText MNames MFs MCli MHook MEnroll MEnrollText SCommon SCli SHook SShell SEnroll SEnrollText PEnrollText.
From Verif Require Import XWorld XMachine Properties_Cli Properties_Hook Properties_Repeat Properties_Signed Properties_Enroll.
Import ListNotations.
Open Scope N_scope.

(** ** C90 *)

(** With a mount point without special characters, bash makes of the text what
    C77 is about: sbctl is asked for what the options say, its files are put
    where systemd-boot looks for them, and then the hook is run. *)
Theorem C90_meaning_partial : forall e sbctl u o m, enroll_proper e o ->
  exists q, request_of e q /\ run_script e sbctl u o m = prepare (sbctl q) None u o m.
Proof.
  intros e sbctl u o m EP. eexists. split; [|apply runs_as_modelled; exact EP]. repeat split.
Qed.
Print Assumptions C90_meaning_partial.

(** Of the configurations that evaluate, only those in which the user has allowed
    to brick the machine let sbctl make keys without Microsoft's: what it would
    make when asked for that does not matter to the others. *)
Theorem C90_consent_partial : forall e sbctl1 sbctl2 u o m, enroll_proper e o -> keys_assertion e = true -> e_brick e = false ->
  (forall q, q_microsoft q = true -> q_brick q = false -> sbctl1 q = sbctl2 q) ->
  run_script e sbctl1 u o m = run_script e sbctl2 u o m.
Proof.
  intros e sbctl1 sbctl2 u o m EP A B H. rewrite !runs_as_modelled by exact EP. rewrite H; [reflexivity| |exact B].
  cbn [q_microsoft]. unfold keys_assertion in A. rewrite B in A. exact A.
Qed.
Print Assumptions C90_consent_partial.

(** Whatever they ask for, the three files are there after a success. *)
Theorem C90_armed_partial : forall e sbctl u o m m1, enroll_proper e o -> run_script e sbctl u o m = (m1, 0) ->
  exists q auth m2, request_of e q /\ sbctl q = Some auth /\ hook u o m2 = (m1, 0) /\ 
    forall n, In n [lit "PK.auth"; lit "KEK.auth"; lit "db.auth"] ->
      exists b, lookup m2 (auth_file (MNames.components (o_esp o)) n) = Some (NFile (auth n) b).
Proof. intros e sbctl u o m m1 EP. exact (script_armed e sbctl u o m m1 EP). Qed.
Print Assumptions C90_armed_partial.

(** ** Example *)

Definition xe_o (esp : bytes) : options :=
  Options (o_system n_o) (o_systemd n_o) (o_conf n_o) (o_limit n_o) (o_allow_unsigned n_o) (o_tries n_o)
    (o_public_key n_o) (o_private_key n_o) (o_measured n_o) (o_pcrs n_o) (o_pcrlock n_o) esp [].
Definition xe_e (microsoft brick : bool) : enroll_options :=
  EnrollOptions (lit "/nix/store/abc-sbctl-0.17") (lit "/nix/store/def-lzbt") false microsoft true brick.
Definition xe_sbctl (q : request) : option (name -> bytes) :=
  if q_microsoft q || q_brick q then Some (fun n => n ++ if q_microsoft q then lit " with Microsoft's" else lit " alone") else None.

Lemma xe_plain s : (match s with [] => false | c :: _ => negb (c =? 45) end) &&
  forallb (fun c => alphanumeric c || existsb (N.eqb c) (lit "._+-/=")) s = true -> plain s.
Proof.
  intros H. apply andb_prop in H as [H1 H2]. rewrite forallb_forall in H2. split; [intros ->; discriminate|]. split.
  - intros c I. specialize (H2 c I). apply orb_prop in H2 as [A|A]; [left; exact A|]. right.
    apply existsb_exists in A as (k & K & E). apply N.eqb_eq in E as ->. exact K.
  - intros r ->. discriminate H1.
Qed.

Example C90_ex :
  enroll_proper (xe_e true false) (xe_o (lit "/boot")) /\ keys_assertion (xe_e true false) = true /\
  snd (run_script (xe_e true false) xe_sbctl (n_u false) (xe_o (lit "/boot")) k_e1) = 0 /\
  lookup (fst (run_script (xe_e true false) xe_sbctl (n_u false) (xe_o (lit "/boot")) k_e1)) [lit "boot"; lit "loader"; lit "keys"; lit "auto"; lit "KEK.auth"]
    = Some (NFile (lit "KEK.auth with Microsoft's") true) /\
  keys_assertion (xe_e false true) = true /\
  lookup (fst (run_script (xe_e false true) xe_sbctl (n_u false) (xe_o (lit "/boot")) k_e1)) [lit "boot"; lit "loader"; lit "keys"; lit "auto"; lit "KEK.auth"]
    = Some (NFile (lit "KEK.auth alone") true) /\
  keys_assertion (xe_e false false) = false.
Proof.
  split; [split; (split; [apply xe_plain; vm_compute; reflexivity | reflexivity])|]. vm_compute. repeat split.
Qed.

(** For every mount point it is false: with a space in it, which the hook itself
    can cope with (C72), the service fails after a wrong directory has been made
    and before the keys are on the ESP; as the three files are missing, it fails
    at each boot. *)
Definition xe_space : bytes := lit "/mnt/my esp".
Definition xe_m : fs := [([lit "mnt"], NDir); ([lit "mnt"; lit "my esp"], NDir)].

Theorem C90_space_refuted : exists e sbctl u o m q, 
  absolute (o_esp o) = true /\ is_dir m (MNames.components (o_esp o)) = true /\
  keys_assertion e = true /\ request_of e q /\ sbctl q <> None /\ snd (prepare (sbctl q) None u o m) = 0 /\
  let '(m1, n) := run_script e sbctl u o m in
  n = 1 /\ may_start m1 (MNames.components (o_esp o)) = true /\ lookup m [lit "mnt"; lit "my"] = None /\ lookup m1 [lit "mnt"; lit "my"] = Some NDir /\
  run_script e sbctl u o m1 = (m1, 1).
Proof.
  exists (xe_e true false), xe_sbctl, (n_u false), (xe_o xe_space), xe_m, (Request (Some (lit "auth")) false true true false).
  split; [reflexivity|]. split; [vm_compute; reflexivity|]. split; [reflexivity|]. split; [repeat split|]. split; [discriminate|].
  split; [vm_compute; reflexivity|].
  vm_compute. repeat split.
Qed.
Print Assumptions C90_space_refuted.
