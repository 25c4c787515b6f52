(** Model of the command line of lzbt, rust/tool/systemd/src/cli.rs:17-76: how
    clap turns the arguments into [Cli] and [InstallCommand].

    clap is a library; this follows its documented behaviour for these
    definitions: long options as [--name value] or [--name=value], each at most
    once, unknown ones refused; a value that looks like an option needs the
    second form; [--] ends the options; what is left is positional.  Simplified:
    [--help] and [--version] are refused like unknown options (they exit without
    an installation, too). *)
From Coq Require Import List NArith Bool.
From Verif Require Import Base MText MFs MCli.
Import ListNotations.
Open Scope N_scope.

(** Values found so far, in the order of cli.rs:36-68, and the positional
    arguments (cli.rs:71-74). *)
Record seen := Seen {
  p_system : option bytes; p_systemd : option bytes; p_conf : option bytes; p_allow : option bytes;
  p_public : option bytes; p_private : option bytes; p_limit : option bytes; p_tries : option bytes;
  p_pcrlock : option bytes; p_positional : list bytes }.

(** Nothing seen yet (cli.rs:34). *)
Definition nothing : seen := Seen None None None None None None None None None [].

(** A value for an option that has none yet (clap refuses repetitions;
    cli.rs:37-69). *)
Definition once (o : option bytes) (v : bytes) (k : option bytes -> seen) : option seen :=
  match o with None => Some (k (Some v)) | Some _ => None end.

(** The long options; names are those of the fields with dashes
    (cli.rs:36-68). *)
Definition put (s : seen) (n v : bytes) : option seen :=
  let '(Seen sy sd co al pu pr li tr pc ps) := s in
  if eqb_bytes n (lit "system") then once sy v (fun o => Seen o sd co al pu pr li tr pc ps)
  else if eqb_bytes n (lit "systemd") then once sd v (fun o => Seen sy o co al pu pr li tr pc ps)
  else if eqb_bytes n (lit "systemd-boot-loader-config") then once co v (fun o => Seen sy sd o al pu pr li tr pc ps)
  else if eqb_bytes n (lit "allow-unsigned") then once al v (fun o => Seen sy sd co o pu pr li tr pc ps)
  else if eqb_bytes n (lit "public-key") then once pu v (fun o => Seen sy sd co al o pr li tr pc ps)
  else if eqb_bytes n (lit "private-key") then once pr v (fun o => Seen sy sd co al pu o li tr pc ps)
  else if eqb_bytes n (lit "configuration-limit") then once li v (fun o => Seen sy sd co al pu pr o tr pc ps)
  else if eqb_bytes n (lit "bootcounting-initial-tries") then once tr v (fun o => Seen sy sd co al pu pr li o pc ps)
  else if eqb_bytes n (lit "pcrlock-directory") then once pc v (fun o => Seen sy sd co al pu pr li tr o ps)
  else None.

(** One more positional argument (cli.rs:71-74). *)
Definition positional (s : seen) (a : bytes) : seen :=
  let '(Seen sy sd co al pu pr li tr pc ps) := s in Seen sy sd co al pu pr li tr pc (ps ++ [a]).

(** [name=value] (clap's long options, cli.rs:37-69). *)
Fixpoint split_value (a : bytes) : bytes * option bytes :=
  match a with
  | [] => ([], None)
  | c :: r => if c =? 61 then ([], Some r) else let '(n, v) := split_value r in (c :: n, v)
  end.

(** An argument that is not a value or positional (clap: it starts with a dash
    and is not just one; cli.rs:71-75). *)
Definition dashed (a : bytes) : bool :=
  match a with c :: _ :: _ => c =? 45 | _ => false end.

(** The arguments of [install] (cli.rs:33-76). *)
Fixpoint clap_install (only_positional : bool) (s : seen) (argv : list bytes) : option seen :=
  match argv with
  | [] => Some s
  | a :: rest =>
      if only_positional || negb (dashed a) then clap_install only_positional (positional s a) rest
      else if eqb_bytes a (lit "--") then clap_install true s rest
      else if starts_with (lit "--") a then
        match split_value (skipn 2 a) with
        | (n, Some v) => match put s n v with Some s' => clap_install false s' rest | None => None end
        | (n, None) =>
            match rest with
            | v :: rest' =>
                if dashed v then None
                else match put s n v with Some s' => clap_install false s' rest' | None => None end
            | [] => None
            end
        end
      else None                                            (* there are no short options *)
  end.

(** Values of type [PathBuf] are not empty (clap; cli.rs:42,46,54,58,69,72). *)
Definition path_value (v : bytes) : option bytes := match v with [] => None | _ => Some v end.

(** An option that may be missing (cli.rs:53-69). *)
Definition optional {A} (f : bytes -> option A) (o : option bytes) : option (option A) :=
  match o with
  | None => Some None
  | Some v => match f v with Some a => Some (Some a) | None => None end
  end.

(** Values of type [bool] (clap; cli.rs:49-50). *)
Definition bool_value (v : bytes) : option bool :=
  if eqb_bytes v (lit "true") then Some true else if eqb_bytes v (lit "false") then Some false else None.

(** All of a list, or none (cli.rs:75). *)
Fixpoint every {A B} (f : A -> option B) (l : list A) : option (list B) :=
  match l with
  | [] => Some []
  | a :: r => match f a, every f r with Some b, Some bs => Some (b :: bs) | _, _ => None end
  end.

(** The fields' types and which of them are required (cli.rs:36-74): [usize]
    has 64 bits; [allow_unsigned] is false if missing. *)
Definition typed (s : seen) : option args :=
  match p_system s, p_systemd s, p_conf s, p_positional s with
  | Some sy, Some sd, Some co, esp :: gens =>
      match utf8_decode sy, path_value sd, path_value co, optional bool_value (p_allow s),
            optional path_value (p_public s), optional path_value (p_private s) with
      | Some sy, Some sd, Some co, Some al, Some pu, Some pr =>
          match optional (parse_unsigned (2 ^ 64 - 1)) (p_limit s), optional (parse_unsigned (2 ^ 32 - 1)) (p_tries s),
                optional path_value (p_pcrlock s), path_value esp, every path_value gens with
          | Some li, Some tr, Some pc, Some esp, Some gens =>
              Some (Args sy sd co (match al with Some b => b | None => false end) pu pr li tr pc esp gens)
          | _, _, _, _, _ => None
          end
      | _, _, _, _, _, _ => None
      end
  | _, _, _, _ => None
  end.

(** Flags before the subcommand, cli.rs:19-24: any of [-q] and [-v], alone or
    together, or [--quiet], [--verbose]. *)
Definition is_flag (a : bytes) : bool :=
  dashed a && forallb (fun c => (c =? 113) || (c =? 118)) (skipn 1 a) || eqb_bytes a (lit "--quiet") || eqb_bytes a (lit "--verbose").

(** How often a flag sets [quiet], cli.rs:19-20: each short or long form of it
    has the letter [q] once, and [--verbose] has none. *)
Definition quiets (a : bytes) : nat := length (filter (N.eqb 113) a).

(** [Cli::parse], cli.rs:17-31,95-101, without the name of the program: [quiet]
    can be set once (it is no counter), [q] tells how often it was. *)
Fixpoint clap_flags (q : nat) (argv : list bytes) : option args :=
  match argv with
  | [] => None
  | a :: rest =>
      if eqb_bytes a (lit "install")
      then match clap_install false nothing rest with Some s => typed s | None => None end
      else if is_flag a && Nat.leb (quiets a + q) 1 then clap_flags (quiets a + q) rest else None
  end.

(** [Cli::parse], cli.rs:17-31. *)
Definition clap (argv : list bytes) : option args := clap_flags 0 argv.

(** [main], main.rs:12-14: clap ends the process with status 2 if it refuses
    the command line. *)
Definition lzbt_main (w : world) (argv : list bytes) (m : fs) : fs * list op * N :=
  match clap argv with
  | None => (m, [], 2)
  | Some a => lzbt w a m
  end.
