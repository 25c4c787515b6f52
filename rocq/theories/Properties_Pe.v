(** C40, C41, C52: the PE loader, page counts, instruction cache. *)
From Coq Require Import List NArith Bool Lia.
From Coq Require Import ZifyBool ZifyNat ZifyN.
From Verif Require Import Base MText MPe SPe PPe.
Import ListNotations.
Open Scope N_scope.

(** ** C40 *)

(** The loader succeeds exactly on files whose sections end below 4 GiB and
    have their data inside the file, without relocations and with the entry
    point inside the image; the image is then determined byte by byte. *)
Theorem C40_loaded_image : forall alloc parsed file img entry,
  (forall p, parsed = Some p -> Forall u32_section (pe_sections p)) ->
  image_load alloc parsed file = Ok (img, entry) <->
  exists p, parsed = Some p /\
    Forall (fun s => s_vaddr s + s_vsize s < 2 ^ 32) (pe_sections p) /\
    Forall (data_inside file) (pe_sections p) /\
    pe_relocs p = false /\ entry = pe_entry p /\ entry < N.of_nat (length img) /\
    furthest_end (pe_sections p) (N.of_nat (length img)) /\
    alloc (bytes_to_pages (N.of_nat (length img))) = None /\
    forall i, i < N.of_nat (length img) ->
      exists b, nth_error img (N.to_nat i) = Some b /\ image_byte file (pe_sections p) i b.
Proof. exact image_load_ok. Qed.
Print Assumptions C40_loaded_image.

(** Whatever the file and the header fields, no slice access is out of range. *)
Theorem C40_no_panic : forall alloc parsed file,
  (forall p, parsed = Some p -> Forall u32_section (pe_sections p)) ->
  image_load alloc parsed file <> Panic.
Proof. exact image_load_not_panic. Qed.
Print Assumptions C40_no_panic.

Definition example_sections : list section :=
  [Section (Some (lit ".text")) 4 6 2 4; Section (Some (lit ".data")) 6 3 8 2; Section None 12 2 0 0].
Definition example_pe_file : list N := [1; 2; 3; 4; 5; 6; 7; 8; 9; 10].
Example C40_example :
  Forall u32_section example_sections /\
  image_load (fun _ => None) (Some (Pe example_sections 5 false (Some 0))) example_pe_file =
    Ok ([0; 0; 0; 0; 3; 4; 9; 10; 0; 0; 0; 0; 0; 0], 5) /\
  image_load (fun _ => None) (Some (Pe example_sections 5 true (Some 0))) example_pe_file = Err INCOMPATIBLE_VERSION /\
  image_load (fun _ => None) (Some (Pe example_sections 14 false (Some 0))) example_pe_file = Err LOAD_ERROR /\
  image_load (fun _ => None) (Some (Pe [Section None (2 ^ 32 - 1) 1 0 0] 0 false (Some 0))) example_pe_file = Err LOAD_ERROR /\
  image_load (fun _ => None) (Some (Pe [Section None 0 8 8 3] 0 false (Some 0))) example_pe_file = Err LOAD_ERROR.
Proof. split; [repeat (apply Forall_cons; [repeat split; reflexivity|]); constructor|vm_compute; repeat split]. Qed.

(** ** C41 *)

(** The page count is the least that holds the bytes. *)
Theorem C41_page_count : forall n, n < 2 ^ 64 -> least_pages n (bytes_to_pages n).
Proof. exact bytes_to_pages_least. Qed.
Print Assumptions C41_page_count.

(** The memory obtained for an image is large enough for it, and not a page
    too large. *)
Theorem C41_allocation : forall alloc parsed file img entry,
  (forall p, parsed = Some p -> Forall u32_section (pe_sections p)) ->
  image_load alloc parsed file = Ok (img, entry) ->
  exists pages, alloc pages = None /\ least_pages (N.of_nat (length img)) pages.
Proof.
  intros alloc parsed file img entry U E. apply image_load_ok in E; auto.
  destruct E as (p & _ & F & _ & _ & _ & _ & Fe & Ha & _).
  eexists. split; [exact Ha|]. apply bytes_to_pages_least.
  destruct Fe as [_ [->|(s & Hs & ->)]]; [reflexivity|].
  rewrite Forall_forall in F. apply F in Hs. eapply N.lt_trans; [exact Hs|reflexivity].
Qed.
Print Assumptions C41_allocation.

Example C41_example :
  bytes_to_pages 0 = 0 /\ bytes_to_pages 1 = 1 /\ bytes_to_pages 4096 = 1 /\ bytes_to_pages 4097 = 2 /\
  bytes_to_pages (2 ^ 64 - 4096) = 2 ^ 52 - 1 /\ bytes_to_pages (2 ^ 64 - 4095) = 2 ^ 52 /\ bytes_to_pages (2 ^ 64 - 1) = 2 ^ 52.
Proof. vm_compute. repeat split. Qed.

(** ** C52 *)

(** The data cache lines cleaned are exactly those overlapping the image. *)
Theorem C52_data_lines : forall ptr len r,
  0 < len \/ ptr mod 16 = 0 -> 0 < ptr + len -> ptr + len <= 2 ^ 64 - 16 ->
  icache_range ptr len = Some r ->
  forall a, In a (dcache_lines r) <-> a mod 16 = 0 /\ overlaps a ptr len.
Proof. exact dcache_lines_spec. Qed.
Print Assumptions C52_data_lines.

(** The instruction cache is invalidated at exactly the words of the lines that
    overlap the image. *)
Theorem C52_instruction_lines : forall ptr len r,
  0 < len -> ptr + len <= 2 ^ 64 - 16 ->
  icache_range ptr len = Some r ->
  forall a, In a (icache_lines r) <-> a mod 4 = 0 /\ overlaps (a / 16 * 16) ptr len.
Proof. exact icache_lines_cover. Qed.
Print Assumptions C52_instruction_lines.

(** In that range the address computation never overflows. *)
Theorem C52_no_overflow : forall ptr len,
  0 < ptr + len -> ptr + len <= 2 ^ 64 - 16 -> icache_range ptr len <> None.
Proof. intros ptr len H1 H2. rewrite icache_range_spec by auto. discriminate. Qed.
Print Assumptions C52_no_overflow.

Example C52_example :
  icache_range 4100 30 = Some (4096, 4144) /\ dcache_lines (4096, 4144) = [4096; 4112; 4128] /\
  icache_range 4096 0 = Some (4096, 4096).
Proof. vm_compute. repeat split. Qed.
