(** Specification of C40, C41, C52: loaded images, page counts, cache lines. *)
From Coq Require Import List NArith Bool.
From Verif Require Import MPe.
Import ListNotations.
Open Scope N_scope.

(** All header numbers are 32 bits wide. *)
Definition u32_section (s : section) : Prop :=
  s_vaddr s < 2 ^ 32 /\ s_vsize s < 2 ^ 32 /\ s_rawptr s < 2 ^ 32 /\ s_rawsize s < 2 ^ 32.

(** Section [s] has file data for image offset [i]. *)
Definition filled_by (s : section) (i : N) : Prop :=
  s_vaddr s <= i /\ i < s_vaddr s + s_vsize s /\ i < s_vaddr s + s_rawsize s.

(** The value of image offset [i]: from the last section with file data for
    it; zero if there is none. *)
Definition image_byte (file : list N) (secs : list section) (i : N) (b : N) : Prop :=
  (exists before s after,
     secs = before ++ s :: after /\ filled_by s i /\
     (forall s', In s' after -> ~ filled_by s' i) /\
     nth_error file (N.to_nat (s_rawptr s + (i - s_vaddr s))) = Some b) \/
  ((forall s, In s secs -> ~ filled_by s i) /\ b = 0).

(** [n] is the end of the furthest section. *)
Definition furthest_end (secs : list section) (n : N) : Prop :=
  (forall s, In s secs -> s_vaddr s + s_vsize s <= n) /\
  (n = 0 \/ exists s, In s secs /\ n = s_vaddr s + s_vsize s).

(** All file data a section asks for lies inside the file. *)
Definition data_inside (file : list N) (s : section) : Prop :=
  s_rawptr s + N.min (s_vsize s) (s_rawsize s) <= N.of_nat (length file).

(** [p] is the least number of 4 KiB pages that hold [n] bytes. *)
Definition least_pages (n p : N) : Prop :=
  n <= p * 4096 /\ forall q, n <= q * 4096 -> p <= q.

(** The 16-byte line at [a] overlaps [ptr, ptr+len). *)
Definition overlaps (a ptr len : N) : Prop :=
  exists x, ptr <= x < ptr + len /\ a <= x < a + 16.
