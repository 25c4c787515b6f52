(** Model of the automatic reboots, nix/modules/lanzaboote.nix:546-565,591-609:
    when the services prepare-sb-auto-enroll and auto-cryptenroll start at a boot,
    and when their success reboots the machine ([SuccessAction], 556 and 602).

    systemd checks the conditions of a unit once, when it is to be started; a unit
    whose conditions do not hold has neither success nor failure.  Simplified:
    the two services are not ordered (547-548,592), here one runs after the
    other, in either order. *)
From Coq Require Import List NArith Bool.
From Verif Require Import Base MText MNames MFs MCli MHook MEnroll MCryptenroll.
Import ListNotations.
Open Scope N_scope.

(** [autoEnrollKeys.enable] (546,601), [autoEnrollKeys.autoReboot] (556) and
    [measuredBoot.autoCryptenroll.autoReboot] (602). *)
Record rebooting := Rebooting { r_enroll : bool; r_after_enroll : bool; r_after_crypt : bool }.

(** prepare-sb-auto-enroll at a boot, lanzaboote.nix:546-589: the state it leaves
    and whether the machine reboots. *)
Definition prepare_unit (s : rebooting) (auth : option (name -> bytes)) (stop : option nat) (u : surroundings) (o : options)
    (t : machine_state) : machine_state * bool :=
  if r_enroll s && may_start (k_fs t) (components (o_esp o)) then           (* 546,551-555 *)
    let '(m1, n) := prepare auth stop u o (k_fs t) in
    let policy := match auth with
                  | Some a => if o_measured o && (n =? 0)                 (* the hook's, 587 *)
                              then Some (installed u o (apply_all (key_ops (k_fs t) (components (o_esp o)) a) (k_fs t)), k_log t)
                              else k_policy t
                  | None => k_policy t
                  end in
    (Kept m1 policy (k_slot t) (k_log t), r_after_enroll s && (n =? 0))    (* 556 *)
  else (t, false).

(** auto-cryptenroll at a boot, lanzaboote.nix:591-625, with [secure] for Secure
    Boot being enforced (601): the states after each of its commands and
    whether the machine reboots. *)
Definition cryptenroll_unit (s : rebooting) (secure : bool) (u : surroundings) (o : options) (ok : bool)
    (t : machine_state) : list machine_state * bool :=
  if negb (r_enroll s) || secure then                                      (* 601 *)
    let '(ts, done) := auto_cryptenroll u o ok t in
    (ts, r_after_crypt s && done)                                          (* 602 *)
  else ([], false).
