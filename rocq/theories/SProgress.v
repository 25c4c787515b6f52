(** Specification of C59: when a run is bound to succeed. *)
From Coq Require Import List NArith Bool.
From Verif Require Import Base MText MVersion MGeneration MNames MOsRelease MPe MFs MTool MInstall SNames SInstall SImage SHistory SPanic.
Import ListNotations.
Open Scope N_scope.

(** The directories the installer writes to. *)
Definition base_dirs (c : config) : list path :=
  map (in_esp c) [ [lit "EFI"; lit "nixos"]; [lit "EFI"; lit "Linux"]; [lit "EFI"; lit "systemd"]; [lit "EFI"; lit "BOOT"];
                   [lit "loader"] ] ++
  match c_pcrlock c with
  | Some d => [d ++ [lit "635-lanzaboote.pcrlock.d"]; d ++ [lit "630-bootloader.pcrlock.d"]]
  | None => []
  end.

(** The names it uses there. *)
Definition reserved (n : name) : Prop :=
  exists a t, In t [lit ".efi"; lit ".EFI"; lit ".conf"; lit ".tmp"; lit ".pcrlock"] /\ n = a ++ t.

(** Nothing is in the way: the ESP is there, no file is where a directory is
    needed, and no directory where a file is needed. *)
Record clear (c : config) (m : fs) : Prop := {
  cl_esp : c_esp c = [] \/ lookup m (c_esp c) = Some NDir;
  cl_dirs : forall d q x b, In d (base_dirs c) -> at_or_above q d -> lookup m q <> Some (NFile x b);
  cl_files : forall d n, In d (base_dirs c) -> reserved n -> lookup m (d ++ [n]) <> Some NDir }.

(** The values for the sections of the stub of [g].  They are given by the
    functions of the model: this only says on which input objcopy has to
    succeed. *)
Definition arguments (e : env) (c : config) (g : generation) (sp : stub_parameters) : Prop :=
  exists init kver kd p id kpath ipath,
    let file label d := path_join (d_nixos c) (utf8_encode (label ++ kver ++ lit "-" ++ base32 (e_sha e d) ++ lit ".efi")) in
    utf8_decode (bs_init (g_spec g)) = Some init /\ kernel_version (bs_kernel (g_spec g)) = Some kver /\
    e_store e (components (bs_kernel (g_spec g))) = Some kd /\ bs_initrd (g_spec g) = Some p /\
    match bs_initrd_secrets (g_spec g) with
    | None => e_store e (components p) = Some id
    | Some script => exists d, e_store e (components p) = Some d /\ e_secrets e script d = Some id
    end /\
    esp_relative_uefi_path (c_esp c) (file (lit "kernel-") kd) = Some kpath /\
    esp_relative_uefi_path (c_esp c) (file (lit "initrd-") id) = Some ipath /\
    sp = StubParameters ((lit "init=" ++ init) :: bs_params (g_spec g))
           (utf8_encode (os_release_display (os_release_of_generation g))) kpath (e_sha e kd) ipath (e_sha e id).

(** The inputs are complete and the tools succeed. *)
Record ready (e : env) (c : config) : Prop := {
  ry_links : forall l, In l (c_links c) -> link_version (l_name l) <> None;
  ry_some : forall vs sel, links_versions (c_links c) vs -> newest (c_limit c) vs sel -> flat_map link_generations sel <> [];
  ry_kernel : forall g, selected c g -> exists x rest dir file t,
    e_store e (components (bs_kernel (g_spec g))) = Some x /\
    components (bs_kernel (g_spec g)) = rest ++ [dir; file] /\ dir <> lit ".." /\ utf8_decode dir = Some t;
  ry_initrd : forall g, selected c g -> exists p x, bs_initrd (g_spec g) = Some p /\ e_store e (components p) = Some x /\
    forall script, bs_initrd_secrets (g_spec g) = Some script -> e_secrets e script x <> None;
  ry_init : forall g, selected c g -> utf8_decode (bs_init (g_spec g)) <> None;
  ry_stub : exists stub p, e_store e (components (c_stub c)) = Some stub /\ e_parse e stub = Some p /\ pe_sections p <> [] /\ pe_image_base p <> None /\
    forall g sp l, selected c g -> arguments e c g sp -> map fst l = stub_contents sp ->
      exists image, e_objcopy e stub l = Some image /\ sg_sign (e_signer e) image <> None /\
        (c_pcrlock c <> None -> e_lock e image <> None);
  ry_loader : exists x v, e_store e (components (shipped_path c)) = Some x /\ systemd_boot_version (e_parse e) x = Ok v /\
    sg_sign (e_signer e) x <> None /\ (c_pcrlock c <> None -> e_lock e x <> None);
  ry_conf : e_store e (components (c_conf c)) <> None;
  ry_key : sg_key (e_signer e) <> None }.

(** [c2] installs to the same places as [c1]. *)
Definition same_places (c1 c2 : config) : Prop :=
  c_esp c2 = c_esp c1 /\ c_pcrlock c2 = c_pcrlock c1 /\ c_arch c2 = c_arch c1.

(** Any number of runs to the same places, each completed, failed or killed
    anywhere. *)
Inductive attempts (M : machine) (c : config) (m : fs) : fs -> Prop :=
| at_none : attempts M c m m
| at_run m1 e1 c1 os : attempts M c m m1 -> fits M e1 c1 -> same_places c c1 -> ~ bad_signed e1 c1 ->
    point e1 c1 m1 os -> attempts M c m (apply_all os m1).
