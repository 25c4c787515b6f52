(** Specification of lzbt's command line: which arguments are accepted, and as
    what.  Written from the documentation of the options
    (rust/tool/systemd/src/cli.rs:17-76) and clap's rules for long options. *)
From Coq Require Import List NArith Bool.
From Verif Require Import Base MText MCli.
Import ListNotations.
Open Scope N_scope.

(** What looks like an option: a dash and something behind it. *)
Definition option_like (a : bytes) : Prop := exists c r, a = 45 :: c :: r.

(** Arguments as options with values, in order, and positional arguments. *)
Inductive reads : list bytes -> list (bytes * bytes) -> list bytes -> Prop :=
| reads_end : reads [] [] []
| reads_positional a rest os ps : ~ option_like a -> reads rest os ps -> reads (a :: rest) os (a :: ps)
| reads_dashes rest : reads (lit "--" :: rest) [] rest
| reads_joined n v rest os ps : ~ In 61 n -> reads rest os ps ->
    reads ((lit "--" ++ n ++ lit "=" ++ v) :: rest) ((n, v) :: os) ps
| reads_apart n v rest os ps : n <> [] -> ~ In 61 n -> ~ option_like v -> reads rest os ps ->
    reads ((lit "--" ++ n) :: v :: rest) ((n, v) :: os) ps.

(** The options of [lzbt install]. *)
Definition known : list bytes :=
  [lit "system"; lit "systemd"; lit "systemd-boot-loader-config"; lit "allow-unsigned"; lit "public-key"; lit "private-key";
   lit "configuration-limit"; lit "bootcounting-initial-tries"; lit "pcrlock-directory"].

(** The number that decimal digits stand for. *)
Fixpoint places (ds : bytes) : N :=
  match ds with [] => 0 | c :: r => (c - 48) * 10 ^ N.of_nat (length r) + places r end.

(** A number below a bound in decimal, perhaps with a plus sign. *)
Definition number (bound : N) (v : bytes) (n : N) : Prop :=
  exists ds, (v = ds \/ v = 43 :: ds) /\ ds <> [] /\ (forall c, In c ds -> 48 <= c <= 57) /\ n = places ds /\ n < bound.

(** A path. *)
Definition a_path (v p : bytes) : Prop := v = p /\ p <> [].

(** An option that may be missing, with values of some type. *)
Definition may {A} (os : list (bytes * bytes)) (n : bytes) (is : bytes -> A -> Prop) (o : option A) : Prop :=
  match o with
  | None => ~ In n (map fst os)
  | Some a => exists v, In (n, v) os /\ is v a
  end.

(** What the options and positional arguments ask for. *)
Record asks (os : list (bytes * bytes)) (ps : list bytes) (a : args) : Prop := {
  k_known : forall n, In n (map fst os) -> In n known;
  k_once : NoDup (map fst os);
  k_system : exists v, In (lit "system", v) os /\ utf8_decode v = Some (a_system a);
  k_systemd : exists v, In (lit "systemd", v) os /\ a_path v (a_systemd a);
  k_conf : exists v, In (lit "systemd-boot-loader-config", v) os /\ a_path v (a_conf a);
  k_allow : may os (lit "allow-unsigned") (fun v b => v = if (b : bool) then lit "true" else lit "false") (Some (a_allow_unsigned a)) \/
            may os (lit "allow-unsigned") (fun _ (_ : bool) => True) None /\ a_allow_unsigned a = false;
  k_public : may os (lit "public-key") a_path (a_public_key a);
  k_private : may os (lit "private-key") a_path (a_private_key a);
  k_limit : may os (lit "configuration-limit") (number (2 ^ 64)) (a_limit a);
  k_tries : may os (lit "bootcounting-initial-tries") (number (2 ^ 32)) (a_tries a);
  k_pcrlock : may os (lit "pcrlock-directory") a_path (a_pcrlock a);
  k_positional : ps = a_esp a :: a_generations a;
  k_paths : forall p, In p ps -> p <> [] }.

(** Flags before the subcommand. *)
Definition flag (f : bytes) : Prop :=
  f = lit "--quiet" \/ f = lit "--verbose" \/
  exists l, f = 45 :: l /\ l <> [] /\ forall c, In c l -> c = 113 \/ c = 118.

(** How often flags ask for quiet. *)
Inductive quiet_times : list bytes -> nat -> Prop :=
| qt_none : quiet_times [] 0
| qt_quiet fs n : quiet_times fs n -> quiet_times (lit "--quiet" :: fs) (S n)
| qt_verbose fs n : quiet_times fs n -> quiet_times (lit "--verbose" :: fs) n
| qt_short l fs n : ~ In 45 l -> quiet_times fs n -> quiet_times ((45 :: l) :: fs) (count_occ N.eq_dec l 113 + n).

(** The command lines (without the program's name) that are accepted: quiet is
    asked for at most once. *)
Definition accepted (argv : list bytes) (a : args) : Prop :=
  exists flags n rest os ps, argv = flags ++ lit "install" :: rest /\ (forall f, In f flags -> flag f) /\
    quiet_times flags n /\ (n <= 1)%nat /\ reads rest os ps /\ asks os ps a.
