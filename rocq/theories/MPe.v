(** Models of rust/uefi/linux-bootloader/src/pe_loader.rs (loading a PE image,
    page counts, instruction cache maintenance) and of the PE accessors of
    rust/uefi/linux-bootloader/src/uefi_helpers.rs.

    Parsing PE headers is done by the goblin library; it is not modelled.  A
    parsed PE is a list of section headers with arbitrary field values, an
    entry point and whether there is a base relocation table. *)
From Coq Require Import List NArith Bool.
From Verif Require Import Base MText.
Import ListNotations.
Open Scope N_scope.

(** goblin's [SectionTable], the fields in use (pe_loader.rs:99-100,122-127,
    uefi_helpers.rs:95,109-118).  [s_name] is [None] if [name()] fails.  All
    numbers are u32. *)
Record section := Section {
  s_name : option str; s_vaddr : N; s_vsize : N; s_rawptr : N; s_rawsize : N }.

(** goblin's [PE], the fields in use (pe_loader.rs:96,137-141,150;
    rust/tool/shared/src/pe.rs:215-232).  [pe_image_base] is [None] without an
    optional header. *)
Record pe := Pe { pe_sections : list section; pe_entry : N; pe_relocs : bool; pe_image_base : option N }.

(** [uefi::Status], the values that occur (pe_loader.rs:89,
    linux_loader.rs:74,78, efivars.rs:36,80,84,137-139, thin.rs:29,92,
    tpm.rs:26); [OTHER] stands for all others. *)
Inductive status :=
| LOAD_ERROR | INVALID_PARAMETER | UNSUPPORTED | BAD_BUFFER_SIZE | BUFFER_TOO_SMALL
| NOT_FOUND | INCOMPATIBLE_VERSION | SECURITY_VIOLATION | OTHER (n : N).

(** [2^64], the number of values of a usize (pe_loader.rs:75). *)
Definition two64 : N := 18446744073709551616.
(** [2^32], the number of values of a u32 (pe_loader.rs:99). *)
Definition two32 : N := 4294967296.

(** [&data[start..end]] (pe_loader.rs:133, uefi_helpers.rs:117): [None] is the
    panic. *)
Definition slice (l : bytes) (from to : N) : option bytes :=
  if (from <=? to) && (to <=? N.of_nat (length l))
  then Some (firstn (N.to_nat (to - from)) (skipn (N.to_nat from) l))
  else None.

(** [image[from..to].copy_from_slice(src)] (pe_loader.rs:133): [None] is the
    panic of an index out of range or of a length mismatch. *)
Definition copy_into (image : bytes) (from to : N) (src : bytes) : option bytes :=
  if (from <=? to) && (to <=? N.of_nat (length image)) && (N.of_nat (length src) =? to - from)
  then Some (firstn (N.to_nat from) image ++ src ++ skipn (N.to_nat to) image)
  else None.

(** [bytes_to_pages], pe_loader.rs:75-80, with [UEFI_PAGE_BITS] = 12
    (pe_loader.rs:14-15). *)
Definition bytes_to_pages (b : N) : N :=
  if b + (2 ^ 12 - 1) <? two64 then (b + (2 ^ 12 - 1)) / 2 ^ 12 else 2 ^ (64 - 12).

(** pe_loader.rs:94-103: [checked_add] on u32 for every section. *)
Fixpoint section_ends (l : list section) : option (list N) :=
  match l with
  | [] => Some []
  | s :: l' =>
      if s_vaddr s + s_vsize s <? two32 then
        match section_ends l' with
        | Some r => Some (s_vaddr s + s_vsize s :: r)
        | None => None
        end
      else None
  end.

(** pe_loader.rs:105: the greatest end, 0 without sections. *)
Definition image_length (ends : list N) : N := fold_right N.max 0 ends.

(** One round of the copy loop, pe_loader.rs:120-134. *)
Definition copy_section (file image : bytes) (s : section) : res status bytes :=
  let copy_size := N.min (s_vsize s) (s_rawsize s) in
  let raw_end := s_rawptr s + copy_size in
  let virt_end := s_vaddr s + copy_size in
  if (two64 <=? raw_end) || (two64 <=? virt_end) then Err LOAD_ERROR
  else if (N.of_nat (length image) <? virt_end) || (N.of_nat (length file) <? raw_end)
  then Err LOAD_ERROR
  else match slice file (s_rawptr s) raw_end with
       | None => Panic
       | Some d =>
           match copy_into image (s_vaddr s) virt_end d with
           | Some i => Ok i
           | None => Panic
           end
       end.

(** The copy loop, pe_loader.rs:120-134. *)
Fixpoint copy_sections (file image : bytes) (l : list section) : res status bytes :=
  match l with
  | [] => Ok image
  | s :: l' => bind (copy_section file image s) (fun i => copy_sections file i l')
  end.

(** [Image::load], pe_loader.rs:88-164.  [parsed] is the result of [PE::parse];
    [alloc n] the error of allocating [n] pages, if any.  The result is the
    image and its entry offset. *)
Definition image_load (alloc : N -> option status) (parsed : option pe) (file : bytes)
  : res status (bytes * N) :=
  match parsed with
  | None => Err LOAD_ERROR
  | Some p =>
      match section_ends (pe_sections p) with
      | None => Err LOAD_ERROR
      | Some ends =>
          let n := image_length ends in
          match alloc (bytes_to_pages n) with
          | Some e => Err e
          | None =>
              bind (copy_sections file (repeat 0 (N.to_nat n)) (pe_sections p)) (fun image =>
                if pe_relocs p then Err INCOMPATIBLE_VERSION
                else if N.of_nat (length image) <=? pe_entry p then Err LOAD_ERROR
                else Ok (image, pe_entry p))
          end
      end
  end.

(** The addresses [make_instruction_cache_coherent] passes to [dc cvau] and
    [ic ivau] (pe_loader.rs:26-27,32,44), as the two ends of the range and the
    strides.  Arithmetic is on 64 bits: [None] is an overflow (a panic in debug
    builds). *)
Definition icache_range (ptr length : N) : option (N * N) :=
  if two64 <=? ptr + length then None
  else if ptr + length <? 1 then None
  else
    let start := N.land ptr (two64 - 16) in
    let last := N.lor (ptr + length - 1) 15 in
    if two64 <=? last + 1 then None else Some (start, last + 1).

(** [(start..end).step_by(stride)] (pe_loader.rs:32,43). *)
Definition step_by (from to stride : N) : list N :=
  map (fun i => from + stride * N.of_nat i) (seq 0 (N.to_nat ((to - from + stride - 1) / stride))).

(** The [dc cvau] and [ic ivau] operands, in order (pe_loader.rs:32-37,43-48). *)
Definition dcache_lines (range : N * N) : list N := step_by (fst range) (snd range) 16.
Definition icache_lines (range : N * N) : list N := step_by (fst range) (snd range) 4.

(** ** uefi_helpers.rs *)

(** [read_data_from_section_table], uefi_helpers.rs:108-121. *)
Definition read_section (data : bytes) (s : section) : res status bytes :=
  match slice data (s_vaddr s) (s_vaddr s + N.min (s_vsize s) (s_rawsize s)) with
  | None => Panic
  | Some d => Ok (d ++ repeat 0 (N.to_nat (s_vsize s) - length d))
  end.

(** Does the section carry this name (uefi_helpers.rs:97)? *)
Definition has_name (n : str) (s : section) : bool :=
  match s_name s with Some m => eqb_bytes m n | None => false end.

(** [ParsedPe::section_data], uefi_helpers.rs:93-99. *)
Definition section_data (data : bytes) (secs : list section) (n : str) : res status (option bytes) :=
  match find (has_name n) secs with
  | None => Ok None
  | Some s => bind (read_section data s) (fun d => Ok (Some d))
  end.

(** [ParsedPe::sections], uefi_helpers.rs:102-104. *)
Definition section_names (secs : list section) : list str :=
  flat_map (fun s => match s_name s with Some n => [n] | None => [] end) secs.
