(** Specification of C94: which keys sbctl uses.

    From sbctl.conf(5): [keydir] and [guid] tell where the keys and the owner's
    GUID are, by default in /var/lib/sbctl; the key for db and its certificate are
    db/db.key and db/db.pem there.  From YAML 1.2: an entry [name: value] on a line
    of its own. *)
From Coq Require Import List NArith Bool.
From Verif Require Import Base MText MNames MGeneration MFs MTool MInstall MCli MHook MSbctl
  SNames SInstall SHistory SCli SHook SSigned SRepeat SExact SEnroll.
Import ListNotations.
Open Scope N_scope.

(** [t] has the line [l]. *)
Definition has_line (t l : bytes) : Prop :=
  ~ In 10 l /\ exists before after, t = before ++ l ++ [10] ++ after /\
    (before = [] \/ exists b, before = b ++ [10]).

(** The value of an entry. *)
Definition entry (t name value : bytes) : Prop := has_line t (name ++ lit ": " ++ value).

(** The directory of sbctl's keys: from the configuration, in which it is told
    once, or the default. *)
Definition key_dir (conf : option bytes) (d : bytes) : Prop :=
  match conf with
  | Some t => entry t (lit "keydir") d /\ forall d', entry t (lit "keydir") d' -> d' = d
  | None => d = lit "/var/lib/sbctl/keys"
  end.

(** Values that YAML takes as they are: no white space, quotes, colons or
    hashes. *)
Definition plain_value (s : bytes) : Prop :=
  exists r, s = 47 :: r /\ forall c, In c r ->
    48 <= c <= 57 \/ 65 <= c <= 90 \/ 97 <= c <= 122 \/ In c (lit "/._+-@").

(** The certificate that sbctl enrols, and the key that it makes for it. *)
Definition db_certificate (d : bytes) : bytes := d ++ lit "/db/db.pem".
Definition db_key (d : bytes) : bytes := d ++ lit "/db/db.key".

(** Signing with the pair in [d] makes what verifies with its certificate. *)
Definition pair_works (w : world) (d : bytes) : Prop :=
  forall x y, w_sbsign w (db_key d) (db_certificate d) x = Some y -> w_sbverify w (db_certificate d) y = true.

(** A machine on which everything works with the keys in [d], with the hypotheses
    of C88 except that about signatures: the certificate is there and is the key
    after which entries are named. *)
Record works_with (M : machine) (d key : bytes) (u : surroundings) (o : options) : Prop := {
  ww_serves : serves u o 0 M;
  ww_esp : components (o_esp o) = ma_esp M;
  ww_single : o_extra o = [];
  ww_plain : o_measured o = false;
  ww_pair : pair_works (u_world u 0) d;
  ww_exists : w_exists (u_world u 0) (db_certificate d) = Some true;
  ww_read : w_read (u_world u 0) (db_certificate d) = Some key;
  ww_run : forall a sg c, wanted o (u_links u 0) (o_esp o) a -> asked_signer (u_world u 0) a sg -> asked_config (u_world u 0) a c ->
    e_signer (w_env (u_world u 0) sg) = sg /\ no_faults (w_env (u_world u 0) sg) /\ complete_listings (w_env (u_world u 0) sg) /\
    all_readable c /\ distinct c }.
