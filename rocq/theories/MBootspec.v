(** Model: reading a generation's boot.json
    (rust/tool/shared/src/generation.rs:18-53,78-139).

    The text of the document is parsed by serde_json and turned into
    [bootspec::BootJson] by code derived in the bootspec crate (version 2,
    rust/tool/Cargo.lock:122), neither of which is in /repo.  A document is
    therefore a tree here, and [generation_v1] describes the crate's types.
    Simplified: arrays in the place of the crate's structures, which derived
    code also accepts, are taken as malformed. *)
From Coq Require Import List NArith Bool.
From Verif Require Import Base MText MGeneration MInstall.
Import ListNotations.
Open Scope N_scope.

(** [serde_json::Value] as used at generation.rs:40,50; the members of an object
    are in the order of the text, with repetitions. *)
Inductive json :=
| JNull | JBool (b : bool) | JNumber (n : str) | JString (s : str)
| JArray (l : list json) | JObject (l : list (str * json)).

(** [HashMap::get] after inserting all members in order (generation.rs:38-39,48-49). *)
Fixpoint map_get (k : str) (l : list (str * json)) : option json :=
  match l with
  | [] => None
  | (k', v) :: r =>
      match map_get k r with
      | Some w => Some w
      | None => if eqb_bytes k' k then Some v else None
      end
  end.

(** A field of a derived structure: at most once (the crate's types behind
    generation.rs:80-82). *)
Inductive field := Absent | Once (v : json) | Repeated.
Fixpoint get_field (k : str) (l : list (str * json)) : field :=
  match l with
  | [] => Absent
  | (k', v) :: r =>
      if eqb_bytes k' k then match get_field k r with Absent => Once v | _ => Repeated end
      else get_field k r
  end.

(** [String] and [PathBuf] fields: texts (generation.rs:80-82). *)
Definition req_string (k : str) (l : list (str * json)) : option str :=
  match get_field k l with Once (JString s) => Some s | _ => None end.
Definition req_path (k : str) (l : list (str * json)) : option bytes :=
  match req_string k l with Some s => Some (utf8_encode s) | None => None end.
(** [Option<PathBuf>]: missing and null are [None] (generation.rs:80-82). *)
Definition opt_path (k : str) (l : list (str * json)) : option (option bytes) :=
  match get_field k l with
  | Absent => Some None
  | Once JNull => Some None
  | Once (JString s) => Some (Some (utf8_encode s))
  | _ => None
  end.
(** [Vec<String>] (generation.rs:80-82). *)
Fixpoint strings (l : list json) : option (list str) :=
  match l with
  | [] => Some []
  | JString s :: r => match strings r with Some t => Some (s :: t) | None => None end
  | _ => None
  end.
Definition req_strings (k : str) (l : list (str * json)) : option (list str) :=
  match get_field k l with Once (JArray a) => strings a | _ => None end.

(** [serde_json::from_value::<LanzabooteExtension>], generation.rs:24-27,40,50:
    derived code takes an object with the field or an array of all fields. *)
Definition extension_value (v : json) : option str :=
  match v with
  | JObject l => match map_get (lit "sort_key") l with Some (JString s) => Some s | _ => None end
  | JArray [JString s] => Some s
  | _ => None
  end.

(** [spec.extensions.get(..).and_then(..)], generation.rs:38-41,48-51. *)
Definition extension (l : list (str * json)) : option str :=
  match map_get (lit "org.nix-community.lanzaboote") l with Some v => extension_value v | None => None end.

(** Later members replace earlier ones when a [HashMap] is filled (the
    specialisations, generation.rs:108-120). *)
Fixpoint last_wins {A} (l : list (str * A)) : list (str * A) :=
  match l with
  | [] => []
  | (k, v) :: r => if existsb (fun kv => eqb_bytes (fst kv) k) r then last_wins r else (k, v) :: last_wins r
  end.

(** The fields of "org.nixos.bootspec.v1" (used at generation.rs:127-135), with
    the sort key of the document and its specialisations. *)
Definition bootspec_v1 (v : json) (key : option str) (specs : list (str * bootspec)) : option bootspec :=
  match v with
  | JObject l =>
      match req_path (lit "init") l, opt_path (lit "initrd") l, opt_path (lit "initrdSecrets") l,
            req_path (lit "kernel") l, req_strings (lit "kernelParams") l, req_string (lit "label") l,
            req_path (lit "toplevel") l, req_string (lit "system") l with
      | Some i, Some r, Some s, Some k, Some p, Some lb, Some t, Some _ => Some (Bootspec i r s k p lb t key specs)
      | _, _, _, _, _, _, _, _ => None
      end
  | _ => None
  end.

(** [BootJson] and [bootspec::Specialisation], which have the same form
    (generation.rs:80-82,94,127).  [ord] is the iteration order of the
    [HashMap] of specialisations (generation.rs:112-119). *)
Fixpoint generation_v1 (ord : list (str * bootspec) -> list (str * bootspec)) (j : json) : option bootspec :=
  match j with
  | JObject l =>
      let fix members (ss : list (str * json)) : option (list (str * bootspec)) :=
        match ss with
        | [] => Some []
        | (n, s) :: r =>
            match generation_v1 ord s, members r with
            | Some b, Some t => Some ((n, b) :: t)
            | _, _ => None
            end
        end in
      let fix specialisations (fs : list (str * json)) : option (list (str * bootspec)) :=
        match fs with
        | [] => Some []
        | (k, v) :: r =>
            if eqb_bytes k (lit "org.nixos.specialisation.v1") then
              match get_field (lit "org.nixos.specialisation.v1") r, v with
              | Absent, JObject ss => match members ss with Some t => Some (last_wins t) | None => None end
              | _, _ => None
              end
            else specialisations r
        end in
      match get_field (lit "org.nixos.bootspec.v1") l, specialisations l with
      | Once v, Some specs => bootspec_v1 v (extension l) (ord specs)
      | _, _ => None
      end
  | _ => None
  end.

(** [Generation::from_link], generation.rs:78-87: [doc] is what is in boot.json,
    [None] if it cannot be read or is no JSON; [synth] is what
    [BootJson::synthesize_latest] makes of the link's directory. *)
Definition read_bootspec (ord : list (str * bootspec) -> list (str * bootspec)) (doc : option json)
    (synth : option bootspec) : option bootspec :=
  match doc with
  | Some j => match generation_v1 ord j with Some b => Some b | None => synth end
  | None => synth
  end.

(** The link with this document, generation.rs:183-208. *)
Definition link_of (nm : option str) (t : option date) (ord : list (str * bootspec) -> list (str * bootspec))
    (doc : option json) (synth : option bootspec) : link := Link nm t (read_bootspec ord doc synth).
