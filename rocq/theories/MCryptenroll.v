(** Model of the service auto-cryptenroll, nix/modules/lanzaboote.nix:591-625,
    which binds the TPM slot of an encrypted disk to the policy made by
    systemd-pcrlock.

    The service is a oneshot: its commands run in order, one that fails ends it,
    and [ExecStartPost] runs only if all succeeded.  The policy lies in the TPM
    and is replaced in place (597-599); here it is the file system whose
    components it was made from, with the log of the boot in which it was made
    (systemd-pcrlock leaves out PCRs whose log it cannot explain).  [ConditionSecurity] (601) and
    the reboot after success (602) are in MReboot.v.  Not modelled: slots that do
    not use the TPM. *)
From Coq Require Import List NArith Bool.
From Verif Require Import Base MText MNames MFs MCli MHook.
Import ListNotations.
Open Scope N_scope.

(** The TPM slot: as it was before (against a static PCR, 389-392), or bound to
    the policy (612-619). *)
Inductive slot := Static | Pcrlock.

(** Files, the policy in the TPM (597-599), the slot (613: there is one, the
    others are wiped) and the log of PCR 4 in this boot. *)
Record machine_state := Kept { k_fs : fs; k_policy : option (fs * list bytes); k_slot : slot; k_log : list bytes }.

(** The path of the condition, lanzaboote.nix:599. *)
Definition marker : path := [lit "var"; lit "lib"; lit "auto-cryptenroll"; lit "1"].

(** The state in which the hook calls systemd-pcrlock (lanzaboote.nix:49-54). *)
Definition installed (u : surroundings) (o : options) (m : fs) : fs :=
  fst (script (install_commands u o 0 (mount_points o)) m 0).

(** [installHook], lanzaboote.nix:47-55, with the policy: it is replaced if
    systemd-pcrlock succeeds. *)
Definition hook_policy (u : surroundings) (o : options) (t : machine_state) : machine_state * N :=
  let '(m1, n) := hook u o (k_fs t) in
  (Kept m1 (if o_measured o && (n =? 0) then Some (installed u o (k_fs t), k_log t) else k_policy t)
    (k_slot t) (k_log t), n).

(** Booting, with the service systemd-pcrlock-make-policy (lanzaboote.nix:
    499-509), which makes the policy as the hook does. *)
Definition boot (u : surroundings) (o : options) (log : list bytes) (t : machine_state) : machine_state :=
  if o_measured o then
    let '(m1, n) := u_policy u (k_fs t) in
    Kept m1 (if n =? 0 then Some (k_fs t, log) else k_policy t) (k_slot t) log
  else Kept (k_fs t) (k_policy t) (k_slot t) log.

(** [systemd-cryptenroll], lanzaboote.nix:612-619: it needs the policy
    (617) and the present slot (616); [ok] tells whether it succeeds
    otherwise. *)
Definition cryptenroll (ok : bool) (t : machine_state) : option machine_state :=
  match k_policy t with
  | Some _ => if ok then Some (Kept (k_fs t) (k_policy t) Pcrlock (k_log t)) else None
  | None => None
  end.

(** The path that is touched, lanzaboote.nix:623. *)
Definition touched : path := [lit "var"; lit "lib"; lit "auto-cryptenroll"; lit "1"].

(** [touch], lanzaboote.nix:623; the directory is the service's
    [StateDirectory] (609). *)
Definition touch_marker (t : machine_state) : machine_state :=
  Kept (apply (OCreate touched) (k_fs t)) (k_policy t) (k_slot t) (k_log t).

(** The service, lanzaboote.nix:591-625: the states after each of its commands
    that was run; whether it succeeds. *)
Definition auto_cryptenroll (u : surroundings) (o : options) (ok : bool) (t : machine_state) : list machine_state * bool :=
  if present (k_fs t) marker then ([], false)                           (* 595-601 *)
  else
    let '(t1, n) := hook_policy u o t in
    if n =? 0 then
      match cryptenroll ok t1 with
      | Some t2 => ([t1; t2; touch_marker t2], true)
      | None => ([t1], false)
      end
    else ([t1], false).
