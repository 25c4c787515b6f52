(** Specification of C81: secrets in the initrd. *)
From Coq Require Import List NArith Bool.
From Verif Require Import Base MText MGeneration MNames MPe MFs MInstall SCommon SNames SInstall SHistory.
Import ListNotations.
Open Scope N_scope.

(** The initrd of [g] with the secrets as they are in the run with [e]. *)
Definition with_secrets (e : env) (g : generation) (id : bytes) : Prop :=
  exists script p d, bs_initrd_secrets (g_spec g) = Some script /\ bs_initrd (g_spec g) = Some p /\
    e_store e (components p) = Some d /\ e_secrets e script d = Some id.

(** The entry [y] is for the initrd [id], and the file that it names is there
    and has its hash. *)
Definition carries (M : machine) (m : fs) (y id : bytes) : Prop :=
  has_section (ma_parse M) y (lit ".initrdh") (ma_sha M id) /\
  exists k p x b, has_section (ma_parse M) y (lit ".initrd") k /\ efi_path M k p /\
    lookup m p = Some (NFile x b) /\ ma_sha M x = ma_sha M id.

(** [e] with other secrets. *)
Definition other_secrets (e : env) (s : bytes -> bytes -> option bytes) : env :=
  Env (e_store e) (e_sha e) (e_parse e) (e_objcopy e) s (e_signer e) (e_lock e) (e_digit e) (e_list e) (e_walk e) (e_fault e).
