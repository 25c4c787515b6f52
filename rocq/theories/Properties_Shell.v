(** The text of the NixOS module's install hook: C72. *)
From Coq Require Import List NArith Bool Lia.
From Verif Require Import Base PBase MText MFs MCli MHook MHookText MClap SHook SShell PShell.
From Verif Require Import XWorld XMachine Properties_Cli Properties_Hook.
Import ListNotations.
Open Scope N_scope.

(** ** C72 *)

(** The shell reads the hook as the lines that the options ask for; lzbt
    understands the arguments as the options say. *)
Theorem C72_text : forall o x glob, proper o x glob ->
  exists cmds, commands (hook_text o x) = Some cmds /\ Forall2 (means o x glob) (hook_lines o) cmds.
Proof. exact hook_meaning. Qed.
Print Assumptions C72_text.

(** Running the text does what [hook] does: all of C71 is about the text. *)
Theorem C72_hook : forall o x u globs, (forall i, proper o x (globs i)) -> sees u globs ->
  forall m, exists cmds, commands (hook_text o x) = Some cmds /\
    execute u globs (x_lzbt x) (o_systemd o ++ lit "/lib/systemd/systemd-pcrlock") 0 cmds m 0 = Some (hook u o m).
Proof. exact hook_runs. Qed.
Print Assumptions C72_hook.

(** The shell gets back any arguments that were escaped, whatever is in them. *)
Theorem C72_words : forall l, l <> [] ->
  exists ws, commands (escape_args l) = Some [ws] /\ forall glob, expand_all glob ws = Some l.
Proof. exact words_back. Qed.
Print Assumptions C72_words.

(** Options with spaces, quotes, dollars, stars and line ends in the paths. *)
Definition y_options (measured : bool) : options :=
  Options (lit "x86_64-linux") (lit "/nix/store/0-systemd") (lit "/nix/store/0-loader.conf") None true 3
    (lit "/etc/my key's.pem") (lit "$HOME/`key`") measured [4; 7] (lit "/var/lib/pcrlock.d dir")
    (lit "/boot") [lit "/boot 2;*"; 47 :: 10 :: lit "'""b"].
Definition y_extras : extras := Extras (lit "/nix/store/0-lzbt/bin/lzbt") true (lit "/nix/store/0-static") (lit "/var/lib/systemd/pcrlock.json").
Definition y_glob (_ : bytes) : list bytes := z_links.

Example C72_proper_ex : forall b, proper (y_options b) y_extras y_glob.
Proof.
  intros b.
  assert (forall s, (match s with [] => false | c :: _ => negb (c =? 45) end) &&
            forallb (fun c => alphanumeric c || existsb (N.eqb c) (lit "._+-/=")) s = true -> plain s) as PL.
  { intros s H. apply andb_true_iff in H as [H1 H2]. split; [destruct s; discriminate|]. split.
    - intros c I. rewrite forallb_forall in H2. specialize (H2 c I). apply orb_true_iff in H2 as [H2|H2]; [left; exact H2|right].
      apply existsb_exists in H2 as (d & D & E). apply N.eqb_eq in E. subst d. exact D.
    - intros r ->. discriminate. }
  split; try (apply PL; reflexivity); try discriminate.
  - split; eexists; reflexivity.
  - intros esp I. cbn in I. destruct I as [<-|[<-|[<-|[]]]]; eexists; reflexivity.
  - cbn. lia.
  - intros p q I. cbn in I. destruct I as [<-|[<-|[]]]; eexists; reflexivity.
Qed.

Example C72_sees_ex : sees (z_around (fun _ => false) 0) (fun _ => y_glob).
Proof. intros i. split; [reflexivity | discriminate]. Qed.

(** The lines as the shell passes them on. *)
Example C72_text_ex :
  match commands (hook_text (y_options true) y_extras) with
  | Some cmds => map (expand_all y_glob) cmds
  | None => []
  end =
  let lzbt := [lit "/nix/store/0-lzbt/bin/lzbt"; lit "-vv"; lit "install"; lit "--system"; lit "x86_64-linux";
     lit "--systemd"; lit "/nix/store/0-systemd"; lit "--systemd-boot-loader-config"; lit "/nix/store/0-loader.conf";
     lit "--configuration-limit"; lit "0"; lit "--allow-unsigned"; lit "true"; lit "--bootcounting-initial-tries"; lit "3";
     lit "--public-key=/etc/my key's.pem"; lit "--private-key=$HOME/`key`"; lit "--pcrlock-directory=/var/lib/pcrlock.d dir"] in
  [None; Some (lzbt ++ lit "/boot" :: z_links); None; Some (lzbt ++ lit "/boot 2;*" :: z_links);
   None; Some (lzbt ++ (47 :: 10 :: lit "'""b") :: z_links);
   Some [lit "echo"; lit "Predicting the PCR state for future boots..."];
   Some [lit "/nix/store/0-systemd/lib/systemd/systemd-pcrlock"; lit "make-policy"; lit "--components=/nix/store/0-static";
         lit "--components=/var/lib/pcrlock.d dir"; lit "--policy=/var/lib/systemd/pcrlock.json"; lit "--location=770";
         lit "--pcr=4"; lit "--pcr=7"]].
Proof. vm_compute. reflexivity. Qed.

Example C72_words_ex : commands (escape_args [lit "a b"; []; lit "it's"]) =
  Some [[quoted (lit "a b"); []; quoted (lit "it's")]].
Proof. vm_compute. reflexivity. Qed.

(** Command lines that lzbt refuses: a limit below 0 (the option's type allows
    it), an unknown option, a repeated one, no mount point.  Nothing is done. *)
Example C72_refused_ex : forall w m,
  let start := [lit "install"; lit "--system"; lit "s"; lit "--systemd=/d"; lit "--systemd-boot-loader-config"; lit "/c"] in
  lzbt_main w (start ++ [lit "--configuration-limit"; lit "-1"; lit "/boot"]) m = (m, [], 2) /\
  lzbt_main w (start ++ [lit "--configuration-limit=-1"; lit "/boot"]) m = (m, [], 2) /\
  lzbt_main w (start ++ [lit "--configurations=1"; lit "/boot"]) m = (m, [], 2) /\
  lzbt_main w (start ++ [lit "--system=t"; lit "/boot"]) m = (m, [], 2) /\
  lzbt_main w start m = (m, [], 2) /\
  lzbt_main w (start ++ [lit "--"; lit "--boot"]) m = lzbt w (Args (lit "s") (lit "/d") (lit "/c") false None None None None None (lit "--boot") []) m.
Proof. repeat split; reflexivity. Qed.
