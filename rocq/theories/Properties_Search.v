(** C96: the programs that lzbt runs are those of the packages. *)
From Coq Require Import List NArith Bool.
From Verif Require Import Base PBase MText MHook MSearch SSearch PSearch.
Import ListNotations.
Open Scope N_scope.

(** The search of the model is that of POSIX. *)
Theorem C96_search : forall exec e v name p, e (lit "PATH") = Some v -> ~ In 47 name ->
  (search exec e name = Some p <-> finds exec v name p).
Proof. exact search_finds. Qed.
Print Assumptions C96_search.

(** Whatever the environment of the hook and for all mount points, lzbt gets
    objcopy, sbsign and sbverify from the packages it was built with, and its own
    stub. *)
Theorem C96_tools : forall exec k o e n, fit_packages exec k (o_systemd o) ->
  exists v, call_environment k o e n (lit "PATH") = Some v /\
    finds exec v (lit "objcopy") (p_binutils k ++ lit "/bin/objcopy") /\
    finds exec v (lit "sbsign") (p_sbsigntool k ++ lit "/bin/sbsign") /\
    finds exec v (lit "sbverify") (p_sbsigntool k ++ lit "/bin/sbverify") /\
    call_environment k o e n (lit "LANZABOOTE_STUB") = Some (p_stub k ++ lit "/bin/lanzaboote_stub.efi").
Proof. intros exec k o e n FP. exact (tools exec k o FP (assigned o e n)). Qed.
Print Assumptions C96_tools.

(** If the hook has PATH in its environment, lzbt gets systemd-pcrlock from the
    configured systemd. *)
Theorem C96_pcrlock : forall exec k o e n, fit_packages exec k (o_systemd o) -> e (lit "PATH") <> None ->
  exists v, call_environment k o e n (lit "PATH") = Some v /\
    finds exec v (lit "systemd-pcrlock") (o_systemd o ++ lit "/lib/systemd/systemd-pcrlock").
Proof. intros exec k o e n FP. exact (finds_pcrlock exec k o FP e n). Qed.
Print Assumptions C96_pcrlock.

(** So it gets all of them from there, and just these. *)
Theorem C96_equipment : forall exec k o e n, fit_packages exec k (o_systemd o) -> e (lit "PATH") <> None ->
  equipment exec (call_environment k o e n) =
    [Some (p_binutils k ++ lit "/bin/objcopy"); Some (p_sbsigntool k ++ lit "/bin/sbsign"); Some (p_sbsigntool k ++ lit "/bin/sbverify");
     Some (o_systemd o ++ lit "/lib/systemd/systemd-pcrlock"); Some (p_stub k ++ lit "/bin/lanzaboote_stub.efi")].
Proof.
  intros exec k o e n FP NE. destruct (C96_tools exec k o e n FP) as (v & E & F1 & F2 & F3 & S).
  destruct (C96_pcrlock exec k o e n FP NE) as (v' & E' & F4). rewrite E in E'. injection E' as <-.
  unfold equipment. cbn [map app]. rewrite S.
  rewrite (proj2 (C96_search exec _ v objcopy _ E ltac:(vm_compute; intuition discriminate)) F1).
  rewrite (proj2 (C96_search exec _ v sbsign _ E ltac:(vm_compute; intuition discriminate)) F2).
  rewrite (proj2 (C96_search exec _ v sbverify _ E ltac:(vm_compute; intuition discriminate)) F3).
  rewrite (proj2 (C96_search exec _ v pcrlock _ E ltac:(vm_compute; intuition discriminate)) F4). reflexivity.
Qed.
Print Assumptions C96_equipment.

(** Nothing else of the environment is changed. *)
Theorem C96_others : forall k o e n x, x <> lit "PATH" -> x <> lit "LANZABOOTE_STUB" -> call_environment k o e n x = e x.
Proof. exact others. Qed.
Print Assumptions C96_others.

(** A path is run as it is: the program that appends secrets comes from the
    generation (pe.rs:73). *)
Theorem C96_path : forall exec e p, In 47 p -> search exec e p = if exec p then Some p else None.
Proof.
  intros exec e p I. unfold search. assert (existsb (N.eqb 47) p = true) as ->; [|reflexivity].
  apply existsb_exists. exists 47. split; [exact I | reflexivity].
Qed.
Print Assumptions C96_path.

(** ** Example *)

Definition w_packages : packages := Packages (lit "/nix/store/binutils") (lit "/nix/store/sbsigntool") (lit "/nix/store/stub").
Definition w_options : options :=
  Options (lit "x86_64-linux") (lit "/nix/store/systemd") (lit "/nix/store/loader.conf") None false 3
    (lit "/keys/db.pem") (lit "/keys/db.key") true [4] (lit "/var/lib/pcrlock.d") (lit "/boot") [lit "/boot2"].
(** There are others of the same names, which come first in the environment. *)
Definition w_exec (p : bytes) : bool :=
  existsb (eqb_bytes p)
    [lit "/nix/store/binutils/bin/objcopy"; lit "/nix/store/sbsigntool/bin/sbsign"; lit "/nix/store/sbsigntool/bin/sbverify";
     lit "/nix/store/systemd/lib/systemd/systemd-pcrlock"; lit "/home/bin/sbsign"; lit "/home/bin/systemd-pcrlock"].
Definition w_env (path : option bytes) : environment :=
  fun n => if eqb_bytes n (lit "PATH") then path else if eqb_bytes n (lit "LANZABOOTE_STUB") then Some (lit "/tmp/evil.efi") else None.

Lemma w_fits : fit_packages w_exec w_packages (o_systemd w_options).
Proof.
  split; [|vm_compute; intuition (subst; reflexivity)].
  intros p I. cbn [In w_packages p_binutils p_sbsigntool w_options o_systemd] in I.
  destruct I as [<-|[<-|[<-|[]]]]; (split; [discriminate | vm_compute; intuition discriminate]).
Qed.

Example C96_ex : fit_packages w_exec w_packages (o_systemd w_options) /\
  search w_exec (w_env (Some (lit "/home/bin:/bin"))) (lit "sbsign") = Some (lit "/home/bin/sbsign") /\
  search w_exec (call_environment w_packages w_options (w_env (Some (lit "/home/bin:/bin"))) 1) (lit "sbsign") =
    Some (lit "/nix/store/sbsigntool/bin/sbsign") /\
  call_environment w_packages w_options (w_env (Some (lit "/home/bin:/bin"))) 1 (lit "PATH") =
    Some (lit "/nix/store/binutils/bin:/nix/store/sbsigntool/bin:/nix/store/systemd/lib/systemd:/nix/store/systemd/lib/systemd:/home/bin:/bin").
Proof. split; [exact w_fits|]. vm_compute. repeat split. Qed.

(** ** What is false *)

(** Without PATH in its environment, which the shell then does not export, no call
    finds systemd-pcrlock, wherever it is. *)
Theorem C96_unset : forall exec k o e n, fit_packages exec k (o_systemd o) -> e (lit "PATH") = None ->
  search exec (call_environment k o e n) (lit "systemd-pcrlock") = None.
Proof. intros exec k o e n FP. exact (unset_pcrlock exec k o FP e n). Qed.
Print Assumptions C96_unset.

Theorem C96_always_refuted : ~ (forall exec k o e n, fit_packages exec k (o_systemd o) ->
  search exec (call_environment k o e n) (lit "systemd-pcrlock") = Some (o_systemd o ++ lit "/lib/systemd/systemd-pcrlock")).
Proof.
  intros H. specialize (H w_exec w_packages w_options (w_env None) 0%nat w_fits).
  rewrite (C96_unset _ _ _ _ _ w_fits eq_refl) in H. discriminate H.
Qed.
Print Assumptions C96_always_refuted.
