(** Specifications of C29, C35, C42, C44, C53, C54 (firmware variables and the
    initrd protocol).  The history of firmware calls is described by
    [MFirmware.event]; everything else is stated here. *)
From Coq Require Import List NArith Bool.
From Verif Require Import Base MPe MFirmware.
Import ListNotations.
Open Scope N_scope.

(** The vendor of the boot loader interface variables. *)
Definition systemd_vendor : str := lit "4a67b082-0a4c-41cf-b6c7-440b29bb8c4f".
Definition global_vendor : str := lit "8be4df61-93ca-11d2-aa0d-00e098032b8c".

(** The variables that a boot loader sets before the stub runs. *)
Definition loader_variables : list str :=
  [lit "LoaderDevicePartUUID"; lit "LoaderImageIdentifier"; lit "LoaderFirmwareInfo";
   lit "LoaderFirmwareType"].

Definition is_set (e : event) : Prop := match e with EvSet _ _ _ _ _ => True | _ => False end.

(** The firmware said that the variable could not be found. *)
Definition reported_missing (e : event) (name vendor : str) : Prop :=
  match e with
  | EvGet n v _ (GErr s) => n = name /\ v = vendor /\ s <> BUFFER_TOO_SMALL
  | _ => False
  end.

(** In the trace [es], the loader variables are written only directly after
    being reported missing. *)
Definition guarded (es : list event) : Prop :=
  forall pre n a d r post,
    es = pre ++ EvSet n systemd_vendor a d r :: post -> In n loader_variables ->
    exists pre' e mid,
      pre = pre' ++ e :: mid /\ reported_missing e n systemd_vendor /\
      Forall (fun x => ~ is_set x) mid.

(** A variable store, and how [EvSet] changes it. *)
Definition vstore := str -> str -> option bytes.
Definition apply_set (st : vstore) (e : event) : vstore :=
  match e with
  | EvSet n v _ d None => fun n' v' => if eqb_bytes n n' && eqb_bytes v v' then Some d else st n' v'
  | _ => st
  end.
Definition store_after (st : vstore) (h : list event) : vstore := fold_left apply_set h st.

(** A firmware that answers from the store: an existing variable is read if
    the buffer is big enough and otherwise reported as too big; a missing
    one is not found.  Writes may fail. *)
Definition answers_from (st : vstore) (fw : firmware) : Prop :=
  forall h n v size,
    fw_get fw h n v size =
      match store_after st h n v with
      | Some d => if N.of_nat (length d) <=? size then GOk d else GErr BUFFER_TOO_SMALL
      | None => GErr NOT_FOUND
      end.


(** ** C53: the loader feature word *)
Definition known_features (v : N) : Prop := v < 2048.
Fixpoint le_number (l : list N) : N :=
  match l with [] => 0 | b :: l' => b + 256 * le_number l' end.

Definition features_spec (answer : gres) (r : res status N) : Prop :=
  match answer with
  | GOk d =>
      (length d <> 8%nat /\ r = Err BAD_BUFFER_SIZE) \/
      (length d = 8%nat /\ ~ known_features (le_number d) /\ r = Err INCOMPATIBLE_VERSION) \/
      (length d = 8%nat /\ known_features (le_number d) /\ r = Ok (le_number d))
  | GErr s => (s = BUFFER_TOO_SMALL /\ r = Err BAD_BUFFER_SIZE) \/ (s <> BUFFER_TOO_SMALL /\ r = Ok 0)
  end.

(** ** C54: the partition *)
Definition gpt_node (n : dpnode) (g : bytes) : Prop :=
  dp_type n = 4 /\ dp_subtype n = 1 /\ dp_hd n = Some (SigGuid g).

Definition first_gpt (nodes : list dpnode) (g : bytes) : Prop :=
  exists before n after,
    nodes = before ++ n :: after /\ gpt_node n g /\ forall m g', In m before -> ~ gpt_node m g'.

(** ** C35: LoadFile2.  Memory is compared byte by byte. *)
Definition same_except_prefix (before after : bytes) (data : bytes) : Prop :=
  length after = length before /\
  (forall i, (i < length data)%nat -> nth_error after i = nth_error data i) /\
  (forall i, (length data <= i)%nat -> nth_error after i = nth_error before i).

(** ** C44: major and minor version of the firmware *)
Definition version_text (major minor : N) : str :=
  dec major ++ [46] ++ (if minor <? 10 then [48] ++ dec minor else dec minor).

(** ** C42: which value a missing loader variable gets *)

(** ASCII text as UTF-16, little-endian, without terminator. *)
Fixpoint ascii16 (s : str) : bytes :=
  match s with [] => [] | c :: s' => c :: 0 :: ascii16 s' end.

(** Text from UTF-16, little-endian (Unicode 3.9, D91): characters of the basic
    plane but surrogates are one unit, the others a high and a low surrogate. *)
Inductive utf16 : str -> bytes -> Prop :=
| ut_end : utf16 [] []
| ut_basic c lo hi s b : c = lo + 256 * hi -> lo < 256 -> hi < 256 -> c < 55296 \/ 57344 <= c -> utf16 s b ->
    utf16 (c :: s) (lo :: hi :: b)
| ut_pair c l1 h1 l2 h2 s b : l1 < 256 -> l2 < 256 ->
    55296 <= l1 + 256 * h1 < 56320 -> 56320 <= l2 + 256 * h2 < 57344 ->
    c = 65536 + 1024 * (l1 + 256 * h1 - 55296) + (l2 + 256 * h2 - 56320) -> utf16 s b ->
    utf16 (c :: s) (l1 :: h1 :: l2 :: h2 :: b).
(** Characters: no surrogates, at most U+10FFFF. *)
Definition scalar (c : N) : Prop := c < 55296 \/ 57344 <= c < 1114112.

(** A GUID in its usual notation, from its 16 bytes in memory. *)
Definition guid_bytes_order : list (list nat) :=
  [[3; 2; 1; 0]; [5; 4]; [7; 6]; [8; 9]; [10; 11; 12; 13; 14; 15]]%nat.
Definition hex_char (d : N) : N := if d <? 10 then 48 + d else 87 + d.
Definition hex_byte (b : N) : str := [hex_char (b / 16); hex_char (b mod 16)].
Fixpoint join_dash (l : list str) : str :=
  match l with [] => [] | [x] => x | x :: l' => x ++ 45 :: join_dash l' end.
Definition guid_notation (g : bytes) : str :=
  join_dash (map (fun f => concat (map (fun i => hex_byte (nth i g 0)) f)) guid_bytes_order).

(** The events [es] of the run provide [d] as the value of variable [n]. *)
Definition provides (es : list event) (n : str) (d : bytes) : Prop :=
  (n = lit "LoaderDevicePartUUID" /\
     exists nodes g, In (EvDevicePath (inl nodes)) es /\ first_gpt nodes g /\ d = ascii16 (guid_notation g)) \/
  (n = lit "LoaderImageIdentifier" /\ In (EvImageText (inl d)) es) \/
  n = lit "LoaderFirmwareInfo" \/ n = lit "LoaderFirmwareType".

(** Variable [n] was asked for; if it was reported missing, an attempt was made
    to set it, unless its value could not be determined. *)
Definition attempted (es : list event) (n : str) : Prop :=
  exists a, In (EvGet n systemd_vendor 1 a) es /\
    (forall e, a = GErr e -> e <> BUFFER_TOO_SMALL ->
       (exists d r, In (EvSet n systemd_vendor 6 d r) es /\ provides es n d) \/
       (n = lit "LoaderDevicePartUUID" /\
          ((exists nodes, In (EvDevicePath (inl nodes)) es /\ forall g, ~ first_gpt nodes g) \/
           exists e', In (EvDevicePath (inr e')) es)) \/
       (n = lit "LoaderImageIdentifier" /\ exists e', In (EvImageText (inr e')) es)).

(** The GUIDs in device paths consist of bytes. *)
Definition guids_are_bytes (fw : firmware) : Prop :=
  forall h nodes n g, fw_device_path fw h = inl nodes -> In n nodes -> dp_hd n = Some (SigGuid g) ->
    Forall (fun b => b < 256) g.
