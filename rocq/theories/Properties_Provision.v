(** C88: automatic provisioning of Secure Boot. *)
From Coq Require Import List NArith Bool Lia.
From Verif Require Import Base PBase MText MNames MPe MGeneration MFirmware MStub MFs MTool MInstall MCli MHook MEnroll MProvision
  SFirmware SCommon SNames SInstall SHistory SImage SUse SStub SGate SCli SHook SSigned SRepeat SExact SMenu SLoaderConf SSwitch SEnroll SProvision.
From Verif Require Import PFs PHistory PHistories PHook PProvision XWorld XMachine Properties_History Properties_Cli Properties_Hook
  Properties_Repeat Properties_Signed Properties_Enroll.
Import ListNotations.
Open Scope N_scope.

(** ** C88 *)

(** If both services succeed at a boot, then the keys lie ready for enrolment,
    and with them enrolled the machine boots: both copies of systemd-boot verify,
    and the newest selected generation is started. *)
Theorem C88_provisioned_partial : forall M key verifies u o (pki : path) create enroll auth m,
  sound M -> (forall z, ma_good M z -> loads_well (ma_parse M) z) -> ma_keys M key -> enrolling M key verifies u o ->
  since_key M key verifies m -> tree_ok m -> may_start m (ma_esp M) = true ->
  (present m (pki ++ [lit "keys"]) = true \/ creates M pki create m) -> enroll (generate pki create None m) = Some auth ->
  let r := boot_services pki create enroll u o (None, None) m in
  snd r = 0 -> no_lookalikes M (fst r) ->
  armed (ma_esp M) (fst r) /\
  exists a c, wanted o (u_links u 0) (o_esp o) a /\ asked_config (u_world u 0) a c /\ boots_enrolled M verifies c (fst r).
Proof.
  intros M key verifies u o pki create enroll auth m SO GOOD KK EN SK TO MS CR E r.
  exact (services_boot M key verifies u o SO GOOD KK EN pki create enroll auth m SK TO MS CR E).
Qed.
Print Assumptions C88_provisioned_partial.

(** Keys that are there are never made anew. *)
Theorem C88_keys_kept : forall (pki : path) create stop m, present m (pki ++ [lit "keys"]) = true -> generate pki create stop m = m.
Proof. intros pki create stop m P. unfold generate. rewrite P. reflexivity. Qed.
Print Assumptions C88_keys_kept.

(** Not even if they are incomplete: then no later boot changes anything. *)
Theorem C88_incomplete : forall (pki : path) create enroll u o m f, needs_keys pki enroll ->
  present m (pki ++ [lit "keys"]) = true -> In f key_files -> lookup m (pki ++ lit "keys" :: f) = None ->
  forall stops, boots pki create enroll u o stops m = m.
Proof. intros pki create enroll u o m f NK. exact (boots_stuck pki create enroll u o NK m f). Qed.
Print Assumptions C88_incomplete.

(** A machine on which the keys are there and lie ready for enrolment is left as
    it is, and both services succeed. *)
Theorem C88_settled : forall (pki : path) create enroll u o m, present m (pki ++ [lit "keys"]) = true ->
  may_start m (MNames.components (o_esp o)) = false ->
  (forall stop, boot_services pki create enroll u o stop m = (m, 0)) /\ forall stops, boots pki create enroll u o stops m = m.
Proof.
  intros pki create enroll u o m P MS.
  assert (B : forall stop, boot_services pki create enroll u o stop m = (m, 0)).
  { intros stop. unfold boot_services. rewrite (C88_keys_kept pki create (fst stop) m P), MS. reflexivity. }
  split; [exact B|]. induction stops as [|st r IH]; [reflexivity|]. cbn [boots]. rewrite B. exact IH.
Qed.
Print Assumptions C88_settled.

(** If sbctl is stopped after it began to write the keys, the second service does
    what it would do at the next boot, wherever it is stopped itself. *)
Theorem C88_same_later : forall (pki : path) create enroll u o stop1 stop2 m,
  present (generate pki create stop1 m) (pki ++ [lit "keys"]) = true ->
  boot_services pki create enroll u o (stop1, stop2) m = boot_services pki create enroll u o (None, stop2) (generate pki create stop1 m).
Proof.
  intros pki create enroll u o stop1 stop2 m P. unfold boot_services. cbn [fst snd].
  rewrite (C88_keys_kept pki create None _ P). reflexivity.
Qed.
Print Assumptions C88_same_later.

(** ** Example *)

Definition v_pki : path := [lit "var"; lit "lib"; lit "sbctl"].
Definition v_file (f : path) : path := v_pki ++ lit "keys" :: f.
Definition v_create : list op :=
  [OMkdir [lit "var"]; OMkdir [lit "var"; lit "lib"]; OMkdir v_pki; OMkdir (v_file [])] ++
  flat_map (fun h => OMkdir (v_file [h]) ::
    flat_map (fun e => [OCreate (v_file [h; h ++ e]); OWrite (v_file [h; h ++ e]) (h ++ e)]) [lit ".key"; lit ".pem"]) [lit "PK"; lit "KEK"; lit "db"].
Definition v_enroll (m : fs) : option (name -> bytes) :=
  if forallb (fun f => match lookup m (v_file f) with Some _ => true | None => false end) key_files then Some n_auth else None.

Lemma v_needs : needs_keys v_pki v_enroll.
Proof.
  intros m auth. unfold v_enroll. match goal with |- (if ?b then _ else _) = _ -> _ => destruct b eqn:E end; [|discriminate]. intros _ f I.
  rewrite forallb_forall in E. specialize (E f I). change (v_pki ++ lit "keys" :: f) with (v_file f). destruct (lookup m (v_file f)); [discriminate | discriminate E].
Qed.

Lemma v_outside (p : path) : (forall q : path, p <> lit "var" :: q) -> forall os m,
  forallb (fun o => match o with OMkdir (a :: _) | OCreate (a :: _) | OWrite (a :: _) _ => eqb_bytes a (lit "var") | _ => false end) os = true ->
  lookup (apply_all os m) p = lookup m p.
Proof.
  intros NV. induction os as [|o os IH]; intros m H; [reflexivity|]. cbn [forallb] in H. apply andb_prop in H as [H1 H2].
  change (apply_all (o :: os) m) with (apply_all os (apply o m)). rewrite (IH _ H2), lookup_apply.
  destruct o as [q|q|q x|q|d|a b|q|q]; try discriminate H1; destruct q as [|a q]; try discriminate H1; apply eqb_bytes_spec in H1 as ->;
    (match goal with |- (if ?b then _ else _) = _ => destruct b eqn:E end; [apply eqb_path_spec in E; subst p; destruct (NV q eq_refl) | reflexivity]).
Qed.

Lemma v_creates : creates k_m v_pki v_create k_e1.
Proof.
  split; [|split; [|split]].
  - intros f I. unfold key_files in I. cbn [In] in I. repeat (destruct I as [<-|I]; [vm_compute; discriminate|]). destruct I.
  - apply x_tree. vm_compute. reflexivity.
  - intros p O. apply v_outside; [|vm_compute; reflexivity]. intros q ->. destruct O as [(n & E)|(n & E)]; discriminate E.
  - vm_compute. reflexivity.
Qed.

(** The whole statement would be: whatever interruptions there were, a boot
    without interruption ends in the state of [C88_provisioned_partial].  But if
    the machine loses power while sbctl makes the keys, no later boot makes the
    missing ones: the condition looks at the directory only. *)
Theorem C88_interrupted_refuted : exists M key verifies u o pki create enroll m k,
  sound M /\ ma_keys M key /\ enrolling M key verifies u o /\ since_key M key verifies m /\ tree_ok m /\
  may_start m (ma_esp M) = true /\ creates M pki create m /\ needs_keys pki enroll /\
  (* without interruption it works *)
  snd (boot_services pki create enroll u o (None, None) m) = 0 /\
  (* interrupted once *)
  forall later, let m1 := boots pki create enroll u o ((Some k, None) :: later) m in
    ~ armed (ma_esp M) m1 /\ lookup m1 (pki ++ [lit "keys"; lit "db"; lit "db.key"]) = None.
Proof.
  exists k_m, x_key, k_verifies, (n_u false), n_o, v_pki, v_create, v_enroll, k_e1, 7%nat.
  split; [apply k_sound|]. split; [left; reflexivity|]. split; [apply n_enrolling|]. split; [apply k_since|].
  split; [apply x_tree; vm_compute; reflexivity|]. split; [vm_compute; reflexivity|]. split; [apply v_creates|]. split; [apply v_needs|].
  split; [vm_compute; reflexivity|].
  intros later m1. unfold m1. cbn [boots].
  set (m2 := fst (boot_services v_pki v_create v_enroll (n_u false) n_o (Some 7%nat, None) k_e1)).
  assert (lookup m2 (v_pki ++ [lit "keys"; lit "db"; lit "db.key"]) = None) as L by (vm_compute; reflexivity).
  assert (lookup m2 (auth_file (ma_esp k_m) (lit "PK.auth")) = None) as A by (vm_compute; reflexivity).
  assert (present m2 (v_pki ++ [lit "keys"]) = true) as P by (vm_compute; reflexivity).
  clearbody m2.
  rewrite (C88_incomplete v_pki v_create v_enroll (n_u false) n_o m2 [lit "db"; lit "db.key"] v_needs P); [|do 4 right; left; reflexivity | exact L].
  split; [|exact L]. intros AR. destruct (AR (lit "PK.auth") (or_introl eq_refl)) as (x & b & X). congruence.
Qed.
Print Assumptions C88_interrupted_refuted.

(** The hypotheses of [C88_provisioned_partial] hold. *)
Example C88_ex :
  sound k_m /\ ma_keys k_m x_key /\ enrolling k_m x_key k_verifies (n_u false) n_o /\ since_key k_m x_key k_verifies k_e1 /\ tree_ok k_e1 /\
  may_start k_e1 (ma_esp k_m) = true /\ creates k_m v_pki v_create k_e1 /\
  v_enroll (generate v_pki v_create None k_e1) = Some n_auth /\
  snd (boot_services v_pki v_create v_enroll (n_u false) n_o (None, None) k_e1) = 0 /\
  exists x b, lookup (fst (boot_services v_pki v_create v_enroll (n_u false) n_o (None, None) k_e1)) (auth_file (ma_esp k_m) (lit "db.auth")) = Some (NFile x b).
Proof.
  split; [apply k_sound|]. split; [left; reflexivity|]. split; [apply n_enrolling|]. split; [apply k_since|].
  split; [apply x_tree; vm_compute; reflexivity|]. split; [vm_compute; reflexivity|]. split; [apply v_creates|].
  split; [vm_compute; reflexivity|]. split; [vm_compute; reflexivity|].
  eexists _, _. vm_compute. reflexivity.
Qed.

(** The hypotheses of [C88_settled] and [C88_same_later] hold: after the boot of
    [C88_ex], and if sbctl is stopped before the last file. *)
Example C88_settled_ex : let m1 := fst (boot_services v_pki v_create v_enroll (n_u false) n_o (None, None) k_e1) in
  present m1 (v_pki ++ [lit "keys"]) = true /\ may_start m1 (MNames.components (o_esp n_o)) = false /\
  present (generate v_pki v_create (Some 16%nat) k_e1) (v_pki ++ [lit "keys"]) = true /\
  snd (boot_services v_pki v_create v_enroll (n_u false) n_o (Some 16%nat, None) k_e1) <> 0.
Proof. vm_compute. repeat split. discriminate. Qed.
