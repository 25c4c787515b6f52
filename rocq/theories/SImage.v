(** Specifications of C26 and C27: what objcopy, the signing tool and the
    firmware's image loader do to the sections of the stub. *)
From Coq Require Import List NArith Bool Permutation.
From Verif Require Import Base MText MPe MTool SCommon SInstall SStub.
Import ListNotations.
Open Scope N_scope.

(** ** Adding sections *)

(** The names of the sections added to a stub. *)
Definition stub_sections : list str :=
  [lit ".osrel"; lit ".cmdline"; lit ".initrd"; lit ".linux"; lit ".initrdh"; lit ".linuxh"].

(** What the tool puts into them. *)
Definition stub_contents (sp : stub_parameters) : list (str * bytes) :=
  [ (lit ".osrel", sp_osrel sp);
    (lit ".cmdline", utf8_encode (match sp_cmdline sp with [] => [] | a :: l => a ++ flat_map (fun w => 32 :: w) l end));
    (lit ".initrd", utf8_encode (sp_initrd_path sp)); (lit ".linux", utf8_encode (sp_kernel_path sp));
    (lit ".initrdh", sp_initrd_hash sp); (lit ".linuxh", sp_kernel_hash sp) ].

(** Sections in the order of their addresses, none overlapping the next. *)
Definition ascending (secs : list section) : Prop :=
  forall a s b t c, secs = a ++ s :: b ++ t :: c -> s_vaddr s + s_vsize s <= s_vaddr t.

(** Sections to add (name, content, address), each starting where the one
    before ends. *)
Inductive consecutive : N -> list (str * bytes * N) -> Prop :=
| consecutive_nil from : consecutive from []
| consecutive_cons from n d l :
    consecutive (from + N.of_nat (length d)) l -> consecutive from ((n, d, from) :: l).

(** Where the executable [p] wants to be loaded. *)
Definition base_of (p : pe) : N := match pe_image_base p with Some b => b | None => 0 end.

(** They start after all sections of the executable [p]. *)
Definition beyond (p : pe) (l : list (str * bytes * N)) : Prop :=
  exists from, consecutive from l /\
    forall s, In s (pe_sections p) -> base_of p + s_vaddr s + s_vsize s <= from.

(** The section [s] of [file] was added as [a]. *)
Definition added (base : N) (file : bytes) (a : str * bytes * N) (s : section) : Prop :=
  let '(n, d, vma) := a in
  s_name s = Some n /\ base + s_vaddr s = vma /\ s_vsize s = N.of_nat (length d) /\ s_vsize s <= s_rawsize s /\
  exists before after, file = before ++ d ++ after /\ N.of_nat (length before) = s_rawptr s.

(** A section that was there before keeps its name and addresses. *)
Definition kept (s t : section) : Prop :=
  s_name t = s_name s /\ s_vaddr t = s_vaddr s /\ s_vsize t = s_vsize s.

(** [file] is the executable [p] with the sections [l] added (and signed). *)
Definition extended (parse : bytes -> option pe) (p : pe) (l : list (str * bytes * N)) (file : bytes) : Prop :=
  exists q old new,
    parse file = Some q /\ Permutation (pe_sections q) (old ++ new) /\
    Forall2 kept (pe_sections p) old /\ Forall2 (added (base_of p) file) l new /\
    forall s, In s (pe_sections q) -> s_vsize s = 0 -> s_rawsize s = 0.

(** A stub as it is shipped: sections in order, addresses of 32 bits, and none
    of the sections that are to be added. *)
Definition proper_stub (p : pe) : Prop :=
  pe_sections p <> [] /\ ascending (pe_sections p) /\
  forall s, In s (pe_sections p) ->
    s_vaddr s + s_vsize s < 4294967296 /\ exists n, s_name s = Some n /\ ~ In n stub_sections.

(** ** Loading *)

(** [im] with the bytes [d] at [at]. *)
Definition poke (im : bytes) (pos : N) (d : bytes) : bytes :=
  firstn (N.to_nat pos) im ++ d ++ skipn (N.to_nat (pos + N.of_nat (length d))) im.

(** The firmware's loading of a section: its raw data up to its virtual size
    (all of it if there is no virtual size), then zeros. *)
Definition efi_section (file im : bytes) (s : section) : bytes :=
  let n := if (s_vsize s =? 0) || (s_rawsize s <? s_vsize s) then s_rawsize s else s_vsize s in
  poke (poke im (s_vaddr s) (firstn (N.to_nat n) (skipn (N.to_nat (s_rawptr s)) file)))
       (s_vaddr s + n) (repeat 0 (N.to_nat (s_vsize s - n))).

(** The memory of a loaded image of [size] bytes: the headers, then the
    sections in the order of the section table. *)
Definition efi_image (file : bytes) (headers size : N) (secs : list section) : bytes :=
  fold_left (efi_section file) secs (poke (repeat 0 (N.to_nat size)) 0 (firstn (N.to_nat headers) file)).

(** The image is large enough for its sections. *)
Definition covers (size : N) (secs : list section) : Prop :=
  forall s, In s secs -> s_vaddr s + s_vsize s <= size.

(** When the firmware loads [file], the added sections are in memory as they
    are in the file. *)
Definition loads_well (parse : bytes -> option pe) (file : bytes) : Prop :=
  forall q n d headers size, parse file = Some q -> In n stub_sections -> has_section parse file n d ->
    covers size (pe_sections q) ->
    size <= N.of_nat (length (efi_image file headers size (pe_sections q))) /\
    section_contents (efi_image file headers size (pe_sections q)) (pe_sections q) n d.
