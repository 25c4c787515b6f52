(** C04, C15, C16, C25, C51: names, paths and encodings. *)
From Coq Require Import List Arith NArith Bool Lia.
From Verif Require Import Base MText PText MGeneration MNames SCommon SNames SVersion PVersion PNames.
Import ListNotations.
Open Scope N_scope.

(** ** C04: which profile links have a version *)

(** A link file name has version [v] exactly if the text between its first and
    second ['-'] is a number below 2^64 (possibly written with a leading '+'). *)
Theorem C04_link_version : forall n v,
  link_version n = Some v <->
  exists s a p, n = Some s /\ ~ In 45 a /\ ~ In 45 p /\
    (s = a ++ lit "-" ++ p \/ exists r, s = a ++ lit "-" ++ p ++ lit "-" ++ r) /\
    rust_unsigned p v /\ v < 2 ^ 64.
Proof. exact link_version_spec. Qed.
Print Assumptions C04_link_version.

Example C04_example : link_version (Some (lit "system-127-link")) = Some 127
  /\ link_version (Some (lit "system-link")) = None
  /\ link_version (Some (lit "system-18446744073709551616-link")) = None.
Proof. vm_compute. auto. Qed.

(** ** C15 *)

(** Two installed stubs have the same name only if they belong to the same
    version, specialisation, store path and key (or SHA-256 collides). *)
Theorem C15_stub_name_injective : forall h k1 k2 t1 t2 g1 g2,
  hash32 h -> stub_name h k1 t1 g1 = stub_name h k2 t2 g2 ->
  g_version g1 = g_version g2 /\ g_specname g1 = g_specname g2 /\ t1 = t2 /\
  ((bs_toplevel (g_spec g1) = bs_toplevel (g_spec g2) /\ k1 = k2) \/ collision h).
Proof. exact stub_name_inj. Qed.
Print Assumptions C15_stub_name_injective.

(** Every stub name has the documented form. *)
Theorem C15_stub_name_form : forall h k t g,
  hash32 h -> exists stem hash, stub_stem (g_version g) (g_specname g) hash stem /\
    stub_name h k t g = stem ++ (if 0 <? t then lit "+" ++ dec t else []) ++ lit ".efi".
Proof. exact stub_name_form. Qed.
Print Assumptions C15_stub_name_form.

(** A toy hash of the right shape: the first byte of the input is counted
    into the first byte of the output. *)
Definition toy_hash (x : list N) : list N := (fold_right N.add 0 x) mod 256 :: repeat 0 31.

Lemma toy_hash32 : hash32 toy_hash.
Proof.
  intros x. split; [reflexivity|]. unfold toy_hash, is_bytes. constructor.
  - apply N.mod_lt. lia.
  - apply Forall_forall. intros c Hc. apply repeat_spec in Hc. subst. lia.
Qed.

Definition example_spec : bootspec :=
  Bootspec (lit "/nix/store/t/init") (Some (lit "/nix/store/i/initrd")) None
    (lit "/nix/store/k/bzImage") [lit "loglevel=4"] (lit "NixOS 23.05") (lit "/nix/store/t") None [].
Definition example_generation : generation :=
  Generation 12 None (Some (lit "a+1")) example_spec (lit "lanzaboote") [].

Example C15_example :
  hash32 toy_hash /\
  stub_name toy_hash (lit "pk") 3 example_generation =
    lit "nixos-generation-12-specialisation-a+1-" ++
    base32 (toy_hash (json_stub_inputs (lit "/nix/store/t") (lit "pk"))) ++ lit "+3.efi".
Proof. split; [exact toy_hash32|vm_compute; reflexivity]. Qed.

(** ** C16 *)

(** The expression recognises exactly the names made of the stub's prefix and
    any boot counter. *)
Theorem C16_recognised_names : forall nd h k g s,
  digit_class nd ->
  stub_regex nd (stub_prefix h k g) s = true <->
  exists c, counter nd c /\ s = stub_prefix h k g ++ c ++ lit ".efi".
Proof. intros nd h k g s H. exact (stub_regex_spec nd _ s H). Qed.
Print Assumptions C16_recognised_names.

(** A freshly written stub is recognised as its generation's. *)
Theorem C16_own_name : forall nd h k t g,
  digit_class nd -> stub_regex nd (stub_prefix h k g) (stub_name h k t g) = true.
Proof. exact stub_name_regex. Qed.
Print Assumptions C16_own_name.

(** No file name is recognised for two different generations. *)
Theorem C16_exclusive : forall nd h k1 k2 g1 g2 s,
  digit_class nd -> hash32 h ->
  stub_regex nd (stub_prefix h k1 g1) s = true ->
  stub_regex nd (stub_prefix h k2 g2) s = true ->
  g_version g1 = g_version g2 /\ g_specname g1 = g_specname g2 /\
  ((bs_toplevel (g_spec g1) = bs_toplevel (g_spec g2) /\ k1 = k2) \/ collision h).
Proof. exact stub_regex_exclusive. Qed.
Print Assumptions C16_exclusive.

Lemma ascii_digit_class : digit_class is_digit.
Proof. intros c Hc. unfold is_digit. rewrite andb_true_iff, !N.leb_le. lia. Qed.

Example C16_example :
  let p := stub_prefix toy_hash (lit "pk") example_generation in
  digit_class is_digit /\ hash32 toy_hash /\
  stub_regex is_digit p (p ++ lit ".efi") = true /\
  stub_regex is_digit p (p ++ lit "+2.efi") = true /\
  stub_regex is_digit p (p ++ lit "+0-3.efi") = true /\
  stub_regex is_digit p (p ++ lit "+0-.efi") = false /\
  stub_regex is_digit p (p ++ lit "+.efi") = false /\
  stub_regex is_digit p (p ++ lit ".efi.extra") = false /\
  stub_regex is_digit p (p ++ lit ".efi.") = false.
Proof. split; [exact ascii_digit_class|split; [exact toy_hash32|]]. vm_compute. repeat split. Qed.

(** ** C25 *)

(** A path below the ESP is embedded as its components, each preceded by a
    backslash, and the embedded text resolves to the same path again. *)
Theorem C25_uefi_path_round_trip : forall esp rel s0,
  rel <> [] -> Forall esp_component rel -> utf8_decode (join [47] rel) = Some s0 ->
  exists s, esp_relative_uefi_path esp (esp ++ rel) = Some s /\
    utf8_encode s = flat_map (fun c => 92 :: c) rel /\ ~ In 47 s /\
    resolve_efi_path esp (utf8_encode s) = Ok (esp ++ rel).
Proof. exact uefi_round_trip. Qed.
Print Assumptions C25_uefi_path_round_trip.

(** Paths outside the ESP are refused. *)
Theorem C25_outside_refused : forall esp p s,
  esp_relative_uefi_path esp p = Some s -> exists rel, p = esp ++ rel.
Proof.
  intros esp p s. unfold esp_relative_uefi_path.
  destruct (strip_prefix esp p) as [rel|] eqn:E; [|discriminate].
  intros _. exists rel. now apply strip_prefix_some.
Qed.
Print Assumptions C25_outside_refused.

Example C25_example :
  let rel := [lit "EFI"; lit "nixos"; lit "kernel-6.1-abc.efi"] in
  rel <> [] /\ Forall esp_component rel /\ utf8_decode (join [47] rel) <> None /\
  esp_relative_uefi_path [lit "boot"] ([lit "boot"] ++ rel) = Some (lit "\EFI\nixos\kernel-6.1-abc.efi") /\
  esp_relative_uefi_path [lit "boot"] [lit "etc"; lit "x"] = None.
Proof.
  split; [discriminate|]. split; [|vm_compute; repeat split; discriminate].
  repeat apply Forall_cons; try apply Forall_nil; (split; [discriminate|split; [discriminate|]]);
    vm_compute; intuition discriminate.
Qed.

(** ** C51 *)

Theorem C51_base32_injective : forall a b,
  is_bytes a -> is_bytes b -> length a = length b -> base32 a = base32 b -> a = b.
Proof. intros a b Ha Hb Hl E. exact (base32_inj a b Ha Hb Hl E). Qed.
Print Assumptions C51_base32_injective.

(** Read as a base-32 number the encoding is the encoded number, shifted by
    the unused bits of the last character. *)
Theorem C51_base32_value : forall l, is_bytes l ->
  positional 32 (map base32_value (base32 l)) =
  positional 256 l * 2 ^ (5 * N.of_nat (length (base32 l)) - 8 * N.of_nat (length l)).
Proof. exact base32_number. Qed.
Print Assumptions C51_base32_value.

Theorem C51_base32_shape : forall l,
  Forall base32_char (base32 l) /\ length (base32 l) = ((8 * length l + 4) / 5)%nat.
Proof. intros l. split; [apply base32_chars|apply base32_length]. Qed.
Print Assumptions C51_base32_shape.

Theorem C51_utf8_decode_encode : forall s, Forall scalar_value s -> utf8_decode (utf8_encode s) = Some s.
Proof. exact utf8_decode_encode_spec. Qed.
Print Assumptions C51_utf8_decode_encode.

Theorem C51_utf8_encode_decode : forall b s, utf8_decode b = Some s -> utf8_encode s = b /\ Forall scalar_value s.
Proof. exact utf8_encode_decode_spec. Qed.
Print Assumptions C51_utf8_encode_decode.

Theorem C51_stub_inputs_injective : forall t1 k1 t2 k2,
  json_stub_inputs t1 k1 = json_stub_inputs t2 k2 -> t1 = t2 /\ k1 = k2.
Proof. exact json_stub_inputs_inj. Qed.
Print Assumptions C51_stub_inputs_injective.

Theorem C51_decimal : forall n, plain_numeral (dec n) n.
Proof. exact numeral_dec. Qed.
Print Assumptions C51_decimal.

Example C51_example :
  base32 (lit "foobar") = lit "mzxw6ytboi" /\
  utf8_encode [0x24; 0xA3; 0x20AC; 0x10348] = [0x24; 0xC2; 0xA3; 0xE2; 0x82; 0xAC; 0xF0; 0x90; 0x8D; 0x88] /\
  json_stub_inputs (lit "/a") [112; 7] = lit "[[""toplevel"",[47,97]],[""public_key"",[112,7]]]".
Proof. vm_compute. auto. Qed.
