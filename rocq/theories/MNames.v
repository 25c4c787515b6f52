(** Model of the naming functions of rust/tool/systemd/src/install.rs
    (stub names and the expression recognising installed stubs) and of the
    path conversions in rust/tool/shared/src/pe.rs and install.rs. *)
From Coq Require Import List NArith Bool.
From Verif Require Import Base MText MGeneration.
Import ListNotations.
Open Scope N_scope.

(** ** Paths *)

(** A path is the list of its components ([Path::components]); a component is
    a byte string.  Simplification: [..] is an ordinary component (nothing in
    the tool resolves it), and all paths are absolute unless stated otherwise
    (e.g. rust/tool/systemd/src/esp.rs:23-44). *)
Definition name := bytes.
Definition path := list name.

(** The components of a path written as text: [Path::components] drops empty
    and [.] components (rust/tool/systemd/src/install.rs:524). *)
Definition components (b : bytes) : path :=
  filter (fun c => negb (eqb_bytes c []) && negb (eqb_bytes c [46])) (split_on 47 b).

(** [Path::join] with text: an absolute argument replaces the base
    (rust/tool/systemd/src/install.rs:321,419,524). *)
Definition path_join (base : path) (b : bytes) : path :=
  match b with
  | c :: _ => if c =? 47 then components b else base ++ components b
  | [] => base
  end.

(** [Path::strip_prefix] (rust/tool/shared/src/pe.rs:193). *)
Fixpoint strip_prefix (esp p : path) : option path :=
  match esp, p with
  | [], _ => Some p
  | a :: esp', b :: p' => if eqb_bytes a b then strip_prefix esp' p' else None
  | _ :: _, [] => None
  end.

(** [str::replace] of one character by another
    (rust/tool/shared/src/pe.rs:206, rust/tool/systemd/src/install.rs:524). *)
Definition replace_char (a b : N) (s : str) : str :=
  map (fun c => if c =? a then b else c) s.

(** [uefi_path], rust/tool/shared/src/pe.rs:203-208, on a relative path. *)
Definition uefi_path (rel : path) : option str :=
  match utf8_decode (join [47] rel) with
  | Some s => Some (replace_char 47 92 s)
  | None => None
  end.

(** [esp_relative_uefi_path], rust/tool/shared/src/pe.rs:191-197. *)
Definition esp_relative_uefi_path (esp p : path) : option str :=
  match strip_prefix esp p with
  | Some rel => match uefi_path rel with
                | Some u => Some (92 :: u)
                | None => None
                end
  | None => None
  end.

(** [resolve_efi_path], rust/tool/systemd/src/install.rs:523-525.  Slicing
    [[1..]] panics on an empty argument. *)
Definition resolve_efi_path (esp : path) (efi_path : bytes) : res unit path :=
  match efi_path with
  | [] => Panic
  | _ :: rest =>
      match utf8_decode rest with
      | None => Err tt
      | Some s => Ok (path_join esp (utf8_encode (replace_char 92 47 s)))
      end
  end.

(** ** Stub names *)

(** [stub_prefix], install.rs:544-569, for a signer whose [get_public_key]
    returned [public_key]; [sha256] stands for [Sha256::digest]. *)
Definition stub_prefix (sha256 : bytes -> bytes) (public_key : bytes) (g : generation) : str :=
  let hash := base32 (sha256 (utf8_encode
                (json_stub_inputs (bs_toplevel (g_spec g)) public_key))) in
  match g_specname g with
  | Some n =>
      lit "nixos-generation-" ++ dec (g_version g) ++ lit "-specialisation-" ++ n
      ++ lit "-" ++ hash
  | None => lit "nixos-generation-" ++ dec (g_version g) ++ lit "-" ++ hash
  end.

(** [stub_name], install.rs:530-542. *)
Definition stub_name (sha256 : bytes -> bytes) (public_key : bytes) (tries : N) (g : generation) : str :=
  let prefix := stub_prefix sha256 public_key g in
  if 0 <? tries then prefix ++ lit "+" ++ dec tries ++ lit ".efi"
  else prefix ++ lit ".efi".

(** The longest prefix of digits and the rest (greedy [\d+],
    install.rs:344).  [nd] is the regex crate's Unicode class [\d]. *)
Fixpoint span_digits (nd : N -> bool) (s : str) : str * str :=
  match s with
  | [] => ([], [])
  | c :: s' => if nd c then let '(a, b) := span_digits nd s' in (c :: a, b) else ([], s)
  end.

(** The part of the expression after the prefix: [(\+\d+(-\d+)?)?\.efi$]
    (install.rs:344).  Greedy matching without backtracking is exact because
    no digit is ['-'] or ['.']. *)
Definition suffix_match (nd : N -> bool) (s : str) : bool :=
  match s with
  | c :: s1 =>
      if c =? 43 then
        let '(d1, s2) := span_digits nd s1 in
        match d1 with
        | [] => false
        | _ =>
            match s2 with
            | c2 :: s3 =>
                if c2 =? 45 then
                  let '(d2, s4) := span_digits nd s3 in
                  match d2 with
                  | [] => false
                  | _ => eqb_bytes s4 (lit ".efi")
                  end
                else eqb_bytes s2 (lit ".efi")
            | [] => false
            end
        end
      else eqb_bytes s (lit ".efi")
  | [] => false
  end.

(** [regex.is_match(&name)], install.rs:343-348,386. *)
Definition stub_regex (nd : N -> bool) (prefix : str) (s : str) : bool :=
  starts_with prefix s && suffix_match nd (skipn (length prefix) s).
