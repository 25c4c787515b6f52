(** Model of the command [lzbt install], rust/tool/systemd/src/cli.rs and
    main.rs.

    How clap splits the command line into these arguments is in [MClap].  Not
    modelled: logging. *)
From Coq Require Import List NArith Bool.
From Verif Require Import Base MText MGeneration MNames MFs MTool MInstall.
Import ListNotations.
Open Scope N_scope.

(** [InstallCommand], cli.rs:34-76; [None] is an absent option.  Paths are
    texts. *)
Record args := Args {
  a_system : str; a_systemd : bytes; a_conf : bytes; a_allow_unsigned : bool;
  a_public_key : option bytes; a_private_key : option bytes;
  a_limit : option N; a_tries : option N; a_pcrlock : option bytes;
  a_esp : bytes; a_generations : list bytes }.

(** What the command depends on besides its arguments: the variable
    LANZABOOTE_STUB (cli.rs:104-105, [None] if unset or not UTF-8), files and
    whether they exist ([std::fs::exists], cli.rs:123-124, [None] is an error),
    generation links (install.rs:112-116), sbsign and sbverify with their
    arguments [--key], [--cert] and the file (signature/local.rs:48-73,90-112),
    and the installer's environment apart from the signer. *)
Record world := World {
  w_stub : option bytes;
  w_exists : bytes -> option bool;
  w_read : bytes -> option bytes;
  w_link : bytes -> link;
  w_sbsign : bytes -> bytes -> bytes -> option bytes;
  w_sbverify : bytes -> bytes -> bool;
  w_env : signer -> env }.

(** An argument with [default_value_t] (cli.rs:61,65). *)
Definition default_value {A} (d : A) (o : option A) : A := match o with Some a => a | None => d end.

(** The signer, cli.rs:122-132; [LocalKeyPair::new(public, private)]. *)
Definition choose_signer (w : world) (allow : bool) (public private : bytes) : signer :=
  if use_empty_key_pair allow (w_exists w public) (w_exists w private)
  then empty_signer
  else local_signer (w_read w public) (w_sbsign w private public) (w_sbverify w public).

(** [install], cli.rs:103-133: the outcome and the state it leaves.  A missing
    key argument panics (cli.rs:107-108). *)
Definition cli_install (w : world) (a : args) (m : fs) : fs * list op * res unit unit :=
  match w_stub w with
  | None => (m, [], Err tt)                                            (* 104-105 *)
  | Some stub =>
      match a_public_key a with
      | None => (m, [], Panic)                                         (* 107 *)
      | Some public =>
          match a_private_key a with
          | None => (m, [], Panic)                                     (* 108 *)
          | Some private =>
              match from_nixos_system (a_system a) with
              | None => (m, [], Err tt)                                (* 112 *)
              | Some arch =>
                  let c := Config arch (components (a_esp a)) stub (a_systemd a) (a_conf a)
                             (default_value 1 (a_limit a)) (default_value 0 (a_tries a))
                             (option_map components (a_pcrlock a)) (map (w_link w) (a_generations a)) in
                  let e := w_env w (choose_signer w (a_allow_unsigned a) public private) in
                  let '(s, r) := run_install e c m in
                  (s_fs s, s_trace s, r)
              end
          end
      end
  end.

(** [Cli::call], cli.rs:79-92,95-101: the exit status; a panic in the main thread is
    101. *)
Definition exit_status (r : res unit unit) : N :=
  match r with Ok _ => 0 | Err _ => 1 | Panic => 101 end.

(** [main], main.rs:12-14. *)
Definition lzbt (w : world) (a : args) (m : fs) : fs * list op * N :=
  let '(m', os, r) := cli_install w a m in (m', os, exit_status r).
