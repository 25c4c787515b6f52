(** Specification of C90: what bash, sbctl, mkdir(1) and install(1) make of the
    script of prepare-sb-auto-enroll. *)
From Coq Require Import List NArith Bool.
From Verif Require Import Base MText MNames MFs MCli MHook MEnroll MEnrollText SShell.
Import ListNotations.
Open Scope N_scope.

(** ** Braces, as bash expands them before all else: one pair in a word, with
    commas and without braces inside *)

(** The word before and after the first such character without quotes. *)
Fixpoint cut (c : N) (w : word) : option (word * word) :=
  match w with
  | [] => None
  | (d, q) :: r =>
      if (d =? c) && negb q then Some ([], r)
      else match cut c r with Some (a, b) => Some ((d, q) :: a, b) | None => None end
  end.
(** The parts between commas. *)
Fixpoint commas (w : word) : list word :=
  match w with
  | [] => [[]]
  | (d, q) :: r =>
      if (d =? 44) && negb q then [] :: commas r
      else match commas r with a :: l => ((d, q) :: a) :: l | [] => [] end
  end.
Definition braces (w : word) : option (list word) :=
  match cut 123 w with
  | None => Some [w]
  | Some (pre, r) =>
      match cut 125 r with
      | Some (mid, post) =>
          match commas mid with
          | a :: b :: l => Some (map (fun x => pre ++ x ++ post) (a :: b :: l))
          | _ => None
          end
      | None => None
      end
  end.
Fixpoint all_braces (ws : list word) : option (list word) :=
  match ws with
  | [] => Some []
  | w :: r => match braces w, all_braces r with Some a, Some b => Some (a ++ b) | _, _ => None end
  end.
(** The arguments that a line becomes; there are no patterns to be matched. *)
Definition arguments (ws : list word) : option (list bytes) :=
  match all_braces ws with Some l => expand_all (fun _ => []) l | None => None end.

(** ** The programs *)

(** What sbctl enroll-keys is asked for. *)
Record request := Request { q_export : option bytes; q_firmware : bool; q_microsoft : bool; q_tpm : bool; q_brick : bool }.
Fixpoint asked_of (q : request) (argv : list bytes) : option request :=
  match argv with
  | [] => Some q
  | a :: r =>
      if eqb_bytes a (lit "--export") then
        match r with v :: r' => asked_of (Request (Some v) (q_firmware q) (q_microsoft q) (q_tpm q) (q_brick q)) r' | [] => None end
      else if eqb_bytes a (lit "--firmware-builtin") then asked_of (Request (q_export q) true (q_microsoft q) (q_tpm q) (q_brick q)) r
      else if eqb_bytes a (lit "--microsoft") then asked_of (Request (q_export q) (q_firmware q) true (q_tpm q) (q_brick q)) r
      else if eqb_bytes a (lit "--tpm-eventlog") then asked_of (Request (q_export q) (q_firmware q) (q_microsoft q) true (q_brick q)) r
      else if eqb_bytes a (lit "--yes-this-might-brick-my-machine") then asked_of (Request (q_export q) (q_firmware q) (q_microsoft q) (q_tpm q) true) r
      else None
  end.

Definition absolute (s : bytes) : bool := match s with c :: _ => c =? 47 | [] => false end.

(** [mkdir -p] makes each directory with those above it, relative ones in the
    working directory, which is not part of [m]. *)
Fixpoint run_mkdir (dirs : list bytes) (m : fs) : option fs :=
  match dirs with
  | [] => Some m
  | d :: r =>
      if absolute d
      then if way_free m [] (components d) then run_mkdir r (apply_all (missing_dirs m [] (components d)) m) else None
      else run_mkdir r m
  end.

(** [install file... directory/]: the files, which sbctl has made in the working
    directory, are copied into the directory, which has to exist. *)
Definition install_program (auth : name -> bytes) (argv : list bytes) (m : fs) : option fs :=
  match rev argv with
  | dir :: files =>
      if forallb (fun f => existsb (eqb_bytes f) [lit "PK.auth"; lit "KEK.auth"; lit "db.auth"]) files && absolute dir &&
         eqb_bytes (skipn (length dir - 1) dir) (lit "/") && is_dir m (components dir)
      then Some (apply_all (flat_map (fun n => let p := components dir ++ [n] in [OCreate p; OWrite p (auth n); OChmod p]) (rev files)) m)
      else None
  | [] => None
  end.

(** The commands, until one fails ([set -e]).  [sbctl] are the files that sbctl
    makes when asked; [auth] are those in the working directory. *)
Fixpoint run_commands (e : enroll_options) (sbctl : request -> option (name -> bytes)) (u : surroundings) (o : options)
    (auth : option (name -> bytes)) (cmds : list (list word)) (m : fs) : fs * N :=
  match cmds with
  | [] => (m, 0)
  | ws :: r =>
      match arguments ws with
      | Some (p :: argv) =>
          if eqb_bytes p (e_sbctl e ++ lit "/bin/sbctl") then
            match argv with
            | c :: argv =>
                if eqb_bytes c (lit "enroll-keys") then
                  match asked_of (Request None false false false false) argv with
                  | Some q =>
                      match q_export q, sbctl q with
                      | Some f, Some a => if eqb_bytes f (lit "auth") then run_commands e sbctl u o (Some a) r m else (m, 1)
                      | _, _ => (m, 1)
                      end
                  | None => (m, 1)
                  end
                else (m, 1)
            | [] => (m, 1)
            end
          else if eqb_bytes p (lit "mkdir") then
            match argv with
            | f :: dirs =>
                if eqb_bytes f (lit "-p")
                then match run_mkdir dirs m with Some m' => run_commands e sbctl u o auth r m' | None => (m, 1) end
                else (m, 1)
            | [] => (m, 1)
            end
          else if eqb_bytes p (lit "install") then
            match auth with
            | Some a => match install_program a argv m with Some m' => run_commands e sbctl u o auth r m' | None => (m, 1) end
            | None => (m, 1)
            end
          else if eqb_bytes p (e_hook e ++ lit "/bin/lzbt") then
            let '(m', n) := hook u o m in if n =? 0 then run_commands e sbctl u o auth r m' else (m', n)
          else (m, 127)
      | _ => (m, 2)
      end
  end.
Definition run_script (e : enroll_options) (sbctl : request -> option (name -> bytes)) (u : surroundings) (o : options) (m : fs) : fs * N :=
  match commands (enroll_script e o) with Some cmds => run_commands e sbctl u o None cmds m | None => (m, 2) end.

(** What the options ask for. *)
Definition request_of (e : enroll_options) (q : request) : Prop :=
  q_export q = Some (lit "auth") /\ q_firmware q = e_firmware e /\ q_microsoft q = e_microsoft e /\
  q_tpm q = e_tpm e /\ q_brick q = e_brick e.

(** Store paths, and a mount point without special characters. *)
Record enroll_proper (e : enroll_options) (o : options) : Prop := {
  ep_sbctl : plain (e_sbctl e) /\ absolute (e_sbctl e) = true;
  ep_hook : plain (e_hook e) /\ absolute (e_hook e) = true;
  ep_esp : plain (o_esp o) /\ absolute (o_esp o) = true }.
