(** Specification of C78 and C79: how systemd-boot reads loader.conf and chooses
    the default entry (boot.c and util.c of systemd; not part of the
    repository). *)
From Coq Require Import List NArith ZArith Bool.
From Verif Require Import Base MText MGeneration MNames MFs MLoaderConf SCommon SNames SInstall SHistory SMenu.
Import ListNotations.
Open Scope N_scope.

(** ** Reading *)

(** The assignment on a line: a name, blanks, a value. *)
Definition conf_pair (l : list N) : list (list N * list N) :=
  let l := strip l in
  if starts 35 l then []
  else match span (fun c => negb (is_blank c)) l with
       | (_, []) => []
       | (k, v) => [(k, unquote (skip is_blank v))]
       end.

Definition conf_reads (text : list N) (k : list N) : option (list N) := last_of k (flat_map conf_pair (text_lines [] text)).

(** ** Settings *)

(** Names and texts that can be written there. *)
Definition plain_name (k : list N) : Prop :=
  one_line k /\ k <> [] /\ ~ (exists r, k = 35 :: r) /\ forall c, In c k -> is_blank c = false.
Definition plain_text (s : list N) : Prop :=
  one_line s /\ s <> [] /\ (forall c r, s = c :: r -> is_blank c = false) /\ (forall r c, s = r ++ [c] -> is_blank c = false) /\
  ~ ((exists r, s = 34 :: r) /\ exists r, s = r ++ [34]).
Definition plain_settings (s : settings) : Prop :=
  NoDup (map fst s) /\ forall k v, In (k, v) s -> plain_name k /\ forall t, v = VStr t -> plain_text t.

(** The value in force: the user's, else the default. *)
Inductive in_force (defaults user : settings) (k : list N) (v : value) : Prop :=
| if_user : In (k, v) user -> in_force defaults user k v
| if_default : (forall w, ~ In (k, w) user) -> In (k, v) defaults -> in_force defaults user k v.

(** A text for a value; none for [null]. *)
Inductive means : value -> list N -> Prop :=
| me_true : means (VBool true) (lit "true")
| me_false : means (VBool false) (lit "false")
| me_nat n t : plain_numeral t n -> means (VInt (Z.of_N n)) t
| me_neg n t : 0 < n -> plain_numeral t n -> means (VInt (- Z.of_N n)%Z) (45 :: t)
| me_text t : means (VStr t) t.

(** ** The default entry *)

(** Patterns for names (of these only the star and the question mark). *)
Inductive glob : list N -> list N -> Prop :=
| gl_end : glob [] []
| gl_star p s t : glob p t -> glob (42 :: p) (s ++ t)
| gl_any p c t : glob p t -> glob (63 :: p) (c :: t)
| gl_char p c t : c <> 42 -> c <> 63 -> glob p t -> glob (c :: p) (c :: t).

(** The id of a file and its boot counter. *)
Definition seen_as (n : name) : list N * option N * N :=
  match counters n with
  | Some (prefix, lft, done) => (map lower (removelast prefix ++ lit ".efi"), Some lft, done)
  | None => (map lower n, None, 0)
  end.

Section Default.
Variables (M : machine) (m : fs).

(** The entry of a file in EFI/Linux. *)
Definition sees (n : name) (e : entry) : Prop :=
  exists y b o, (exists r s, n = r ++ s /\ map lower s = lit ".efi") /\ lookup m (linux_file M n) = Some (NFile y b) /\
    has_section (ma_parse M) y (lit ".osrel") o /\
    entry_of o (fst (fst (seen_as n))) (snd (fst (seen_as n))) (snd (seen_as n)) = Some e.

(** The first entry of the menu whose id matches the pattern, if the user
    chooses none: it is above all others that match. *)
Definition default_is (pattern : list N) (n : name) (e : entry) : Prop :=
  sees n e /\ glob pattern (en_id e) /\
  forall n' e', sees n' e' -> glob pattern (en_id e') -> n' <> n -> above e e'.

(** The installer's names are written the way it writes them. *)
Definition no_lookalikes : Prop :=
  forall n e, sees n e -> glob (lit "nixos-*") (en_id e) -> exists t, utf8_decode n = Some (lit "nixos-" ++ t).
End Default.

(** There are tries left, or nothing is counted. *)
Definition fresh (n : name) : Prop := forall p d, counters n <> Some (p, 0, d).

(** All selected generations can be shown, with one sort key. *)
Definition shown_together (gs : list generation) : Prop :=
  (forall g, In g gs -> menu_ready g) /\ forall g h, In g gs -> In h gs -> g_sort_key g = g_sort_key h.
