(** Specification of C68: what the PCR values say about a boot. *)
From Coq Require Import List NArith Bool.
From Verif Require Import Base MPe MCpio MFirmware SFirmware SStub.
Import ListNotations.
Open Scope N_scope.

(** The data measured into PCR [p] in a history. *)
Definition measured_into (p : N) (h : list event) : list bytes :=
  flat_map (fun e => match e with
                     | EvExtend q d _ None => if q =? p then [d] else []
                     | _ => []
                     end) h.

(** The value of a PCR (TCG PC Client Platform Firmware Profile: the new value
    is the hash of the old value and the digest of the data). *)
Definition extend (H : bytes -> bytes) (v d : bytes) : bytes := H (v ++ H d).
Definition pcr_value (H : bytes -> bytes) (v : bytes) (p : N) (h : list event) : bytes :=
  fold_left (extend H) (measured_into p h) v.

(** Everything that is hashed on the way. *)
Fixpoint hashed (H : bytes -> bytes) (v : bytes) (ds : list bytes) : list bytes :=
  match ds with
  | [] => []
  | d :: ds' => d :: (v ++ H d) :: hashed H (extend H v d) ds'
  end.

(** The hash is good enough for two logs, starting from [v]: digests have the
    length of [v], no two inputs collide, and none is hashed to [v]. *)
Definition good_hash (H : bytes -> bytes) (v : bytes) (ds ds' : list bytes) : Prop :=
  (forall x, length (H x) = length v) /\
  (forall x y, In x (hashed H v ds ++ hashed H v ds') -> In y (hashed H v ds ++ hashed H v ds') -> H x = H y -> x = y) /\
  (forall x, In x (hashed H v ds ++ hashed H v ds') -> H x <> v).

(** Two boots with the same value of a PCR. *)
Definition same_pcr (H : bytes -> bytes) (init : N -> bytes) (p : N) (h h' : list event) : Prop :=
  good_hash H (init p) (measured_into p h) (measured_into p h') /\
  pcr_value H (init p) p h = pcr_value H (init p) p h'.

(** The sections of two images are measured alike. *)
Definition same_sections (image image' : bytes) (p p' : pe) (kernel initrd : bytes) : Prop :=
  forall n, In n canonical_sections ->
    occurrences (pe_sections p) n = occurrences (pe_sections p') n /\
    ((0 < occurrences (pe_sections p) n)%nat ->
     exists d, measured_data image (pe_sections p) kernel initrd n d /\
               measured_data image' (pe_sections p') kernel initrd n d).
