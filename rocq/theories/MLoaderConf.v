(** Model of how the NixOS module makes loader.conf, nix/modules/lanzaboote.nix:
    12-16,142-157, with [pkgs.formats.keyValue] and [lib.generators] of nixpkgs.

    Not modelled: numbers with fractions (no setting of systemd-boot has one). *)
From Coq Require Import List NArith ZArith Bool.
From Verif Require Import Base MText.
Import ListNotations.
Open Scope N_scope.

(** The values [loaderSettingsFormat.type] allows, lanzaboote.nix:12-14,143-145. *)
Inductive value := VNull | VBool (b : bool) | VInt (z : Z) | VStr (s : bytes).

(** A set of settings: names and values, each name once (lanzaboote.nix:142-145). *)
Definition settings := list (bytes * value).

(** The value of a setting ([lib.recursiveUpdate], lanzaboote.nix:147). *)
Fixpoint setting (k : bytes) (s : settings) : option value :=
  match s with
  | [] => None
  | (k', v) :: r => if eqb_bytes k k' then Some v else setting k r
  end.

(** The default settings, lanzaboote.nix:149-157. *)
Definition default_settings (timeout : option Z) (console_mode : bytes) (editor : bool) (enroll : bool) : settings :=
  [ (lit "console-mode", VStr console_mode);
    (lit "default", VStr (lit "nixos-*"));
    (lit "editor", VBool editor) ]
  ++ (if enroll then [(lit "secure-boot-enroll", VStr (lit "force"))] else [])
  ++ [ (lit "timeout", match timeout with Some t => VInt t | None => VNull end) ].

(** The order of attribute names, in which [mapAttrsToList] goes
    ([toKeyValue], lanzaboote.nix:16). *)
Fixpoint name_le (a b : bytes) : bool :=
  match a, b with
  | [], _ => true
  | _, [] => false
  | x :: a', y :: b' => (x <? y) || ((x =? y) && name_le a' b')
  end.
Fixpoint insert_name (e : bytes * value) (s : settings) : settings :=
  match s with
  | [] => [e]
  | f :: r => if name_le (fst e) (fst f) then e :: s else f :: insert_name e r
  end.
Definition by_name (s : settings) : settings := fold_right insert_name [] s.

(** [lib.recursiveUpdate default], lanzaboote.nix:147: what the user sets, and
    the defaults for the rest (no values are sets). *)
Definition update (defaults user : settings) : settings :=
  by_name (user ++ filter (fun e => match setting (fst e) user with Some _ => false | None => true end) defaults).

(** [lib.escape [ " " ]] of the name ([mkKeyValueDefault], lanzaboote.nix:13). *)
Definition escape_blanks (k : bytes) : bytes := flat_map (fun c => if c =? 32 then [92; 32] else [c]) k.

(** [mkValueStringDefault] ([mkKeyValueDefault], lanzaboote.nix:13). *)
Definition value_text (v : value) : bytes :=
  match v with
  | VNull => lit "null"
  | VBool b => if b then lit "true" else lit "false"
  | VInt z => match z with
              | Z0 => lit "0"
              | Zpos p => dec (Npos p)
              | Zneg p => lit "-" ++ dec (Npos p)
              end
  | VStr s => s
  end.

(** [mkKeyValue], lanzaboote.nix:13: nothing for [null]. *)
Definition key_value (k : bytes) (v : value) : bytes :=
  match v with
  | VNull => []
  | _ => escape_blanks k ++ [32] ++ value_text v
  end.

(** [loaderSettingsFormat.generate], lanzaboote.nix:16: a line for each. *)
Definition loader_conf (s : settings) : bytes := flat_map (fun e => key_value (fst e) (snd e) ++ [10]) s.

(** [loaderConfigFile], lanzaboote.nix:16,147. *)
Definition loader_config_file (defaults user : settings) : bytes := loader_conf (update defaults user).
