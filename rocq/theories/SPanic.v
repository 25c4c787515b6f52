(** Specification of C56: what can make the installer panic. *)
From Coq Require Import List NArith Bool.
From Verif Require Import Base MText MGeneration MNames MPe MFs MTool MInstall SNames SInstall.
Import ListNotations.
Open Scope N_scope.

(** Reading section [n] of the file ends in a panic, or yields nothing where at
    least one byte is expected. *)
Definition unusable_section (e : env) (file : bytes) (n : str) : Prop :=
  section_panics (e_parse e) file n \/ section_empty (e_parse e) file n.

(** A selected generation has neither an initrd nor secrets for one. *)
Definition no_initrd (c : config) : Prop :=
  exists g, selected c g /\ bs_initrd (g_spec g) = None /\ bs_initrd_secrets (g_spec g) = None.

(** The init path of a selected generation is not UTF-8. *)
Definition bad_init (c : config) : Prop :=
  exists g, selected c g /\ utf8_decode (bs_init (g_spec g)) = None.

(** The shipped stub has no sections or no optional header. *)
Definition bare_stub (e : env) (c : config) : Prop :=
  exists stub p, e_store e (components (c_stub c)) = Some stub /\ e_parse e stub = Some p /\ (pe_sections p = [] \/ pe_image_base p = None).

(** The shipped boot loader is unusable. *)
Definition bad_shipped (e : env) (c : config) : Prop :=
  exists x, e_store e (components (shipped_path c)) = Some x /\ unusable_section e x (lit ".osrel").

(** A file under the name of a selected generation's entry is unusable. *)
Definition bad_entry (e : env) (c : config) (m : fs) : Prop :=
  exists g key n y b sec, selected c g /\ sg_key (e_signer e) = Some key /\ recognised e key g n /\
    lookup m (in_esp c [lit "EFI"; lit "Linux"; n]) = Some (NFile y b) /\
    In sec [lit ".linux"; lit ".initrd"] /\ unusable_section e y sec.

(** An installed boot loader is unusable. *)
Definition bad_loader (e : env) (c : config) (m : fs) : Prop :=
  exists p y b, In p (boot_paths c) /\ lookup m p = Some (NFile y b) /\ unusable_section e y (lit ".osrel").

(** The causes of panics, given the files at the time. *)
Definition panic_cause (e : env) (c : config) (m : fs) : Prop :=
  no_initrd c \/ bad_init c \/ bare_stub e c \/ bad_shipped e c \/ bad_entry e c m \/ bad_loader e c m.

(** The boot loader is unusable once signed. *)
Definition bad_signed (e : env) (c : config) : Prop :=
  exists x out, e_store e (components (shipped_path c)) = Some x /\ sg_sign (e_signer e) x = Some out /\
    unusable_section e out (lit ".osrel").
