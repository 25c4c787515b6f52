(** Model of the text of the install hook, nix/modules/lanzaboote.nix:18-55,
    80-90,220-237. *)
From Coq Require Import List NArith Bool.
From Verif Require Import Base MText MHook.
Import ListNotations.
Open Scope N_scope.

(** What the text contains besides the options of [MHook.options]: the
    executable of lzbt, [logLevel == "debug"] (231), the static measurements
    (84) and the policy file (86). *)
Record extras := Extras { x_lzbt : bytes; x_debug : bool; x_static : bytes; x_policy : bytes }.

(** The characters of [[:alnum:],._+:@%/-] in nixpkgs' [lib.escapeShellArg]
    (lib/strings.nix; used by lanzaboote.nix:32,80). *)
Definition safe (c : N) : bool :=
  ((48 <=? c) && (c <=? 57)) || ((65 <=? c) && (c <=? 90)) || ((97 <=? c) && (c <=? 122)) ||
  existsb (N.eqb c) (lit ",._+:@%/-").

(** [lib.escapeShellArg], nixpkgs lib/strings.nix: safe texts as they are,
    others in single quotes, single quotes as ['\'']. *)
Definition escape_arg (s : bytes) : bytes :=
  if negb (match s with [] => true | _ => false end) && forallb safe s then s
  else [39] ++ flat_map (fun c => if c =? 39 then [39; 92; 39; 39] else [c]) s ++ [39].

(** [lib.escapeShellArgs]: separated by spaces (lanzaboote.nix:32,80). *)
Definition escape_args (l : list bytes) : bytes := join (lit " ") (map escape_arg l).

(** A backslash and the end of the line (lanzaboote.nix:29,231-236). *)
Definition continued : bytes := lit " \" ++ [10].

(** [installCommand], lanzaboote.nix:228-237. *)
Definition install_command (o : options) (x : extras) : bytes :=
  lit "# Use the system from the kernel's hostPlatform because this should" ++ [10] ++
  lit "# always, even in the cross compilation case, be the right system." ++ [10] ++
  x_lzbt x ++ lit " " ++ (if x_debug x then lit "-vv" else []) ++ lit " install" ++ continued ++
  lit "  --system " ++ o_system o ++ continued ++
  lit "  --systemd " ++ o_systemd o ++ continued ++
  lit "  --systemd-boot-loader-config " ++ o_conf o ++ continued ++
  lit "  --configuration-limit " ++ dec (configuration_limit o) ++ continued ++
  lit "  --allow-unsigned " ++ (if o_allow_unsigned o then lit "true" else lit "false") ++ continued ++
  lit "  --bootcounting-initial-tries " ++ dec (o_tries o).

(** [mkInstallCommand], lanzaboote.nix:25-45. *)
Definition mk_install_command (o : options) (x : extras) (esp : bytes) : bytes :=
  lit "PATH=" ++ o_systemd o ++ lit "/lib/systemd:$PATH" ++ [10] ++
  install_command o x ++ continued ++
  escape_args ([lit "--public-key=" ++ o_public_key o; lit "--private-key=" ++ o_private_key o] ++
               (if o_measured o && existsb (N.eqb 4) (o_pcrs o) then [lit "--pcrlock-directory=" ++ o_pcrlock o] else []) ++
               [esp]) ++
  lit " /nix/var/nix/profiles/system-*-link".

(** [makePolicyCommand], lanzaboote.nix:80-90. *)
Definition make_policy_command (o : options) (x : extras) : bytes :=
  escape_args ([o_systemd o ++ lit "/lib/systemd/systemd-pcrlock"; lit "make-policy";
                lit "--components=" ++ x_static x; lit "--components=" ++ o_pcrlock o;
                lit "--policy=" ++ x_policy x; lit "--location=770"] ++
               map (fun n => lit "--pcr=" ++ dec n) (o_pcrs o)).

(** The text of [installHook] after its first line, lanzaboote.nix:47-55. *)
Definition hook_text (o : options) (x : extras) : bytes :=
  join [10] (map (mk_install_command o x) (mount_points o)) ++ [10] ++
  if o_measured o
  then lit "echo ""Predicting the PCR state for future boots...""" ++ [10] ++ make_policy_command o x ++ [10]
  else [].
