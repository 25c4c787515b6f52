(** Specification vocabulary for properties of installer histories (C07-C11,
    C13): what makes an entry bootable, and which states an ESP can reach. *)
From Coq Require Import List NArith Bool.
From Verif Require Import Base MText MGeneration MNames MPe MFs MTool MInstall SCommon SNames SOsRelease SInstall SImage.
Import ListNotations.
Open Scope N_scope.

(** ** A machine *)

(** What stays the same over the life of an ESP: where it is mounted, the hash
    function, how executables are parsed, which characters are digits, the
    contents of store paths, the generations there ever are, the keys used, and
    what is known of the stubs that the tools make (anything; C27 chooses that
    they are loaded properly). *)
Record machine := Machine {
  ma_esp : path;
  ma_sha : bytes -> bytes;
  ma_parse : bytes -> option pe;
  ma_digit : N -> bool;
  ma_store : path -> option bytes;
  ma_gens : generation -> Prop;
  ma_keys : bytes -> Prop;
  ma_good : bytes -> Prop }.

Section Machine.
Variable M : machine.

Definition nixos_file (n : name) : path := ma_esp M ++ [lit "EFI"; lit "nixos"; n].
Definition linux_file (n : name) : path := ma_esp M ++ [lit "EFI"; lit "Linux"; n].

(** The text whose hash is part of an entry's name. *)
Definition name_input (x : bytes) : Prop :=
  exists g key, ma_gens M g /\ ma_keys M key /\ x = utf8_encode (json_stub_inputs (bs_toplevel (g_spec g)) key).

(** [h] has no collisions on a set of inputs. *)
Definition no_collision_on (h : bytes -> bytes) (S : bytes -> Prop) : Prop :=
  forall x y, S x -> S y -> h x = h y -> x = y.

(** Names without characters that the ESP's paths give a meaning to. *)
Definition plain_names (g : generation) : Prop :=
  (forall n, g_specname g = Some n -> ~ In 47 n /\ Forall scalar_value n) /\ ~ In 92 (bs_kernel (g_spec g)).

(** Generations are determined by number, specialisation name and toplevel. *)
Record sound : Prop := {
  so_hash : hash32 (ma_sha M);
  so_digit : digit_class (ma_digit M);
  so_gens : forall g1 g2, ma_gens M g1 -> ma_gens M g2 -> g_version g1 = g_version g2 ->
    g_specname g1 = g_specname g2 -> bs_toplevel (g_spec g1) = bs_toplevel (g_spec g2) -> g1 = g2;
  so_names : forall g, ma_gens M g -> plain_names g;
  so_inputs : no_collision_on (ma_sha M) name_input }.

(** A run of the installer on the machine.  The last condition is about the
    tools: the sections that objcopy is asked to add to the shipped stub are in
    the signed result, which is a good stub.  They are only asked for sections
    that lie beyond those of the stub.  [C26_tools] derives the condition from
    the definition of these tools. *)
Record fits (e : env) (c : config) : Prop := {
  fi_esp : c_esp c = ma_esp M;
  fi_sha : e_sha e = ma_sha M;
  fi_parse : e_parse e = ma_parse M;
  fi_digit : e_digit e = ma_digit M;
  fi_store : forall p x, e_store e p = Some x -> ma_store M p = Some x;
  fi_gens : forall g, selected c g -> ma_gens M g;
  fi_key : forall key, sg_key (e_signer e) = Some key -> ma_keys M key;
  fi_listings : honest_listings e;
  fi_separate : separate c;
  fi_tools : forall stub p sections image out,
    e_store e (components (c_stub c)) = Some stub -> ma_parse M stub = Some p ->
    map (fun s => fst (fst s)) sections = stub_sections -> (proper_stub p -> beyond p sections) ->
    e_objcopy e stub sections = Some image -> sg_sign (e_signer e) image = Some out ->
    ma_good M out /\ forall n d a, In (n, d, a) sections -> has_section (ma_parse M) out n d }.

(** ** Entries *)

(** [n] is a name of the entry of [g], with any boot counter. *)
Definition named (key : bytes) (g : generation) (n : name) : Prop :=
  exists cnt, counter (ma_digit M) cnt /\ utf8_decode n = Some (stub_prefix (ma_sha M) key g ++ cnt ++ lit ".efi").

(** [p] is the file that a path of the stub means: names after backslashes,
    starting at the ESP. *)
Definition efi_path (k : bytes) (p : path) : Prop :=
  exists rel, rel <> [] /\ Forall esp_component rel /\ k = flat_map (fun n => 92 :: n) rel /\ p = ma_esp M ++ rel.

(** The file that the stub's section [n] names is there and has the hash of
    its section [h]. *)
Definition section_file (m : fs) (y : bytes) (n h : str) : Prop :=
  exists k hash p x b,
    has_section (ma_parse M) y n k /\ has_section (ma_parse M) y h hash /\
    efi_path k p /\ lookup m p = Some (NFile x b) /\ ma_sha M x = hash.

(** The stub [y] finds its kernel and initrd with the right hashes. *)
Definition bootable (m : fs) (y : bytes) : Prop :=
  section_file m y (lit ".linux") (lit ".linuxh") /\ section_file m y (lit ".initrd") (lit ".initrdh").

(** There is a bootable entry of [g]. *)
Definition boots (m : fs) (g : generation) : Prop :=
  exists key n y b, ma_keys M key /\ named key g n /\ lookup m (linux_file n) = Some (NFile y b) /\ bootable m y.

(** The os-release text of a generation. *)
Definition menu_text (g : generation) (s : str) : Prop :=
  exists d, description (g_version g) (g_specname g)
      (match g_build_time g with Some t => Some (d_year t, d_month t, d_day t) | None => None end) d /\
    s = lit "ID=" ++ g_sort_key g ++ [10] ++
        lit "PRETTY_NAME=" ++ bs_label (g_spec g) ++ lit " (" ++ d ++ lit ")" ++ [10] ++
        lit "VERSION_ID=" ++ d ++ [10].

(** The kernel and initrd file names: version and hash. *)
Definition content_name (label : str) (x : bytes) : bytes :=
  utf8_encode (label ++ lit "-" ++ base32 (ma_sha M x) ++ lit ".efi").

(** The version in the names of a kernel and its initrd: the text after the
    last dash of the name of the kernel's directory. *)
Definition version_of (kernel : bytes) (v : str) : Prop :=
  exists rest dir file before,
    components kernel = rest ++ [dir; file] /\ utf8_decode dir = Some (before ++ v) /\
    ~ In 45 v /\ (before = [] \/ exists q, before = q ++ [45]).

(** [y] is a stub for [g]: it names the file of [g]'s kernel and of an initrd
    for it, carries their hashes, [g]'s command line and [g]'s description. *)
Definition stub_for (g : generation) (y : bytes) : Prop :=
  exists version kernel initrd init text,
    ma_store M (components (bs_kernel (g_spec g))) = Some kernel /\
    (bs_initrd_secrets (g_spec g) = None ->
       exists p, bs_initrd (g_spec g) = Some p /\ ma_store M (components p) = Some initrd) /\
    utf8_decode (bs_init (g_spec g)) = Some init /\ menu_text g text /\
    version_of (bs_kernel (g_spec g)) version /\ ma_good M y /\
    ~ In 47 version /\ ~ In 92 version /\ Forall scalar_value version /\
    has_section (ma_parse M) y (lit ".linux")
      (lit "\EFI\nixos\" ++ content_name (lit "kernel-" ++ version) kernel) /\
    has_section (ma_parse M) y (lit ".linuxh") (ma_sha M kernel) /\
    has_section (ma_parse M) y (lit ".initrd")
      (lit "\EFI\nixos\" ++ content_name (lit "initrd-" ++ version) initrd) /\
    has_section (ma_parse M) y (lit ".initrdh") (ma_sha M initrd) /\
    has_section (ma_parse M) y (lit ".cmdline")
      (utf8_encode (join (lit " ") ((lit "init=" ++ init) :: bs_params (g_spec g)))) /\
    has_section (ma_parse M) y (lit ".osrel") (utf8_encode text).

(** The kernel that [y] starts is [g]'s. *)
Definition own_kernel (m : fs) (g : generation) (y : bytes) : Prop :=
  exists kernel k p x b,
    ma_store M (components (bs_kernel (g_spec g))) = Some kernel /\
    has_section (ma_parse M) y (lit ".linux") k /\ efi_path k p /\ lookup m p = Some (NFile x b) /\
    ma_sha M x = ma_sha M kernel.

(** ** States *)

(** Files in EFI/nixos named after a hash have it and are on the disk. *)
Definition contents_ok (m : fs) : Prop :=
  forall n x, match lookup m (nixos_file (n ++ lit "-" ++ base32 (ma_sha M x) ++ lit ".efi")) with
              | None => True
              | Some (NFile y b) => ma_sha M y = ma_sha M x /\ b = true
              | Some NDir => False
              end.

(** Entries named after a generation are stubs for it. *)
Definition entries_ok (m : fs) : Prop :=
  forall g key n y b, ma_gens M g -> ma_keys M key -> named key g n ->
    lookup m (linux_file n) = Some (NFile y b) -> stub_for g y.

(** The paths of the two directories that matter here. *)
Definition ours (p : path) : Prop :=
  (exists n, p = nixos_file n) \/ exists n, p = linux_file (lit "nixos-" ++ n).

(** The states an ESP reaches: runs completed, failed or killed anywhere; boot
    counters; files removed by users; other software writing elsewhere. *)
Inductive history : fs -> Prop :=
| hi_start m : contents_ok m -> entries_ok m -> history m
| hi_run m e c os : history m -> fits e c -> point e c m os -> history (apply_all os m)
| hi_count m g key n n' x b : history m -> ma_gens M g -> ma_keys M key -> named key g n -> named key g n' ->
    lookup m (linux_file n) = Some (NFile x b) ->
    history (apply (ORename (linux_file n) (linux_file n')) m)
| hi_remove m p : history m -> history (fs_remove p m)
| hi_other m m' : history m -> (forall p, ours p -> lookup m' p = lookup m p) -> history m'.

(** Losing power: files that are not synced have any content afterwards. *)
Definition after_loss (m m' : fs) : Prop :=
  forall p, match lookup m p with
            | Some (NFile x false) => exists y b, lookup m' p = Some (NFile y b)
            | n => lookup m' p = n
            end.

(** The states an ESP reaches if the power may fail, too. *)
Inductive rough_history : fs -> Prop :=
| ro_start m : contents_ok m -> rough_history m
| ro_run m e c os : rough_history m -> fits e c -> point e c m os -> rough_history (apply_all os m)
| ro_loss m m' : rough_history m -> after_loss m m' -> rough_history m'
| ro_remove m p : rough_history m -> rough_history (fs_remove p m)
| ro_other m m' : rough_history m -> (forall n, lookup m' (nixos_file n) = lookup m (nixos_file n)) -> rough_history m'.

(** [g] is selected, however links of equal number are ordered. *)
Definition always_selected (c : config) (g : generation) : Prop :=
  forall vs sel, links_versions (c_links c) vs -> newest (c_limit c) vs sel -> In g (flat_map link_generations sel).
End Machine.
