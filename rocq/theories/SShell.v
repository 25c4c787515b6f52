(** Specification of C72: what a POSIX shell makes of a script (XCU 2.2, 2.3,
    2.6.6, 2.6.7), as far as the install hook uses it: words, comments, line
    continuation, backslashes, single and double quotes, commands on lines.
    A text with anything else has no meaning here ([None]). *)
From Coq Require Import List NArith Bool.
From Verif Require Import Base MText MFs MHook MHookText MCli MClap SHook.
Import ListNotations.
Open Scope N_scope.

(** Characters and whether they were quoted. *)
Definition word := list (N * bool).

(** Where the shell is: between words, in a word, after a backslash there, in a
    comment, in quotes. *)
Inductive mode := Blank | Bare | BlankEscape | BareEscape | Comment | Single | Double.

Definition alphanumeric (c : N) : bool :=
  ((48 <=? c) && (c <=? 57)) || ((65 <=? c) && (c <=? 90)) || ((97 <=? c) && (c <=? 122)).
(** Characters that may be in a word without quotes. *)
Definition ordinary (c : N) : bool := alphanumeric c || existsb (N.eqb c) (lit ",._+:@%/-=*?[]$~{}").

(** The words of a line, if any, before those of the following lines. *)
Definition line (ws : list word) (r : option (list (list word))) : option (list (list word)) :=
  match ws with [] => r | _ => match r with Some l => Some (ws :: l) | None => None end end.

(** [w] is the word so far, [ws] the words of the line before it. *)
Fixpoint shell (md : mode) (w : word) (ws : list word) (t : bytes) : option (list (list word)) :=
  match t with
  | [] => match md with
          | Blank | Comment => line ws (Some [])
          | Bare => line (ws ++ [w]) (Some [])
          | _ => None
          end
  | c :: t =>
      match md with
      | Blank =>
          if c =? 32 then shell Blank [] ws t
          else if c =? 10 then line ws (shell Blank [] [] t)
          else if c =? 35 then shell Comment [] ws t
          else if c =? 92 then shell BlankEscape [] ws t
          else if c =? 39 then shell Single [] ws t
          else if c =? 34 then shell Double [] ws t
          else if ordinary c then shell Bare [(c, false)] ws t
          else None
      | Bare =>
          if c =? 32 then shell Blank [] (ws ++ [w]) t
          else if c =? 10 then line (ws ++ [w]) (shell Blank [] [] t)
          else if c =? 92 then shell BareEscape w ws t
          else if c =? 39 then shell Single w ws t
          else if c =? 34 then shell Double w ws t
          else if ordinary c then shell Bare (w ++ [(c, false)]) ws t
          else None
      | BlankEscape => if c =? 10 then shell Blank [] ws t else shell Bare [(c, true)] ws t
      | BareEscape => if c =? 10 then shell Bare w ws t else shell Bare (w ++ [(c, true)]) ws t
      | Comment => if c =? 10 then line ws (shell Blank [] [] t) else shell Comment [] ws t
      | Single => if c =? 39 then shell Bare w ws t else shell Single (w ++ [(c, true)]) ws t
      | Double =>
          if c =? 34 then shell Bare w ws t
          else if existsb (N.eqb c) (lit "$`\") then None
          else shell Double (w ++ [(c, true)]) ws t
      end
  end.

(** The commands of a script. *)
Definition commands (t : bytes) : option (list (list word)) := shell Blank [] [] t.

Definition text_of (w : word) : bytes := map fst w.
Definition unquoted (cs : bytes) (w : word) : bool :=
  existsb (fun x => negb (snd x) && existsb (N.eqb (fst x)) cs) w.

(** The arguments that a word becomes; [glob] are the matching files.  No match:
    the pattern itself.  Parameters, home directories and (bash) braces are not
    expanded here. *)
Definition expand (glob : bytes -> list bytes) (w : word) : option (list bytes) :=
  if unquoted (lit "$~{}") w then None
  else if unquoted (lit "*?[") w
       then Some (match glob (text_of w) with [] => [text_of w] | l => l end)
       else Some [text_of w].
Fixpoint expand_all (glob : bytes -> list bytes) (ws : list word) : option (list bytes) :=
  match ws with
  | [] => Some []
  | w :: r => match expand glob w, expand_all glob r with Some a, Some b => Some (a ++ b) | _, _ => None end
  end.

(** ** The hook *)

(** The lines that the hook is to have. *)
Inductive hook_line := Assign | Install (esp : bytes) | Echo | Policy.
Definition hook_lines (o : options) : list hook_line :=
  flat_map (fun esp => [Assign; Install esp]) (o_esp o :: o_extra o) ++
  if o_measured o then [Echo; Policy] else [].

(** The command of a line is the one meant: [PATH] is set; lzbt is run with
    arguments that it understands as the options ask for, on the mount point and
    with the links that are there; systemd-pcrlock is told to make a policy. *)
Definition means (o : options) (x : extras) (glob : bytes -> list bytes) (l : hook_line) (ws : list word) : Prop :=
  match l with
  | Assign => exists r, ws = [map (fun c => (c, false)) (lit "PATH=" ++ r)]
  | Install esp =>
      (2 <= length ws)%nat /\
      exists argv a links, expand_all glob ws = Some (x_lzbt x :: argv) /\ clap argv = Some a /\ wanted o links esp a /\
        (glob (lit "/nix/var/nix/profiles/system-*-link") <> [] -> links = glob (lit "/nix/var/nix/profiles/system-*-link")) /\
        (glob (lit "/nix/var/nix/profiles/system-*-link") = [] -> links = [lit "/nix/var/nix/profiles/system-*-link"])
  | Echo => (2 <= length ws)%nat /\ exists t, expand_all glob ws = Some [lit "echo"; t]
  | Policy =>
      (2 <= length ws)%nat /\
      exists pcrs, Forall2 (fun n a => a = lit "--pcr=" ++ dec n) (o_pcrs o) pcrs /\
      expand_all glob ws =
        Some ([o_systemd o ++ lit "/lib/systemd/systemd-pcrlock"; lit "make-policy"; lit "--components=" ++ x_static x;
               lit "--components=" ++ o_pcrlock o; lit "--policy=" ++ x_policy x; lit "--location=770"] ++ pcrs)
  end.

(** Texts that the hook does not escape: store paths and the platform. *)
Definition plain (s : bytes) : Prop :=
  s <> [] /\ (forall c, In c s -> alphanumeric c = true \/ In c (lit "._+-/=")) /\ (forall r, s <> 45 :: r).

(** What the types of the options ensure: paths are absolute, the platform and
    paths of packages have no special characters, numbers fit. *)
Record proper (o : options) (x : extras) (glob : bytes -> list bytes) : Prop := {
  pp_system : plain (o_system o);
  pp_systemd : plain (o_systemd o);
  pp_conf : plain (o_conf o);
  pp_lzbt : plain (x_lzbt x);
  pp_absolute : (exists r, x_lzbt x = 47 :: r) /\ (exists r, o_systemd o = 47 :: r);
  pp_different : x_lzbt x <> o_systemd o ++ lit "/lib/systemd/systemd-pcrlock";
  pp_public : o_public_key o <> [];
  pp_private : o_private_key o <> [];
  pp_pcrlock : o_pcrlock o <> [];
  pp_esp : forall esp, In esp (o_esp o :: o_extra o) -> exists r, esp = 47 :: r;
  pp_limit : forall n, o_limit o = Some n -> n < 2 ^ 64;
  pp_tries : o_tries o < 2 ^ 32;
  pp_links : forall p q, In q (glob p) -> exists r, q = 47 :: r }.

(** ** Running the commands *)

(** An assignment to [PATH] on its own (XCU 2.9.1). *)
Definition sets_path (ws : list word) : bool :=
  match ws with
  | [w] => forallb (fun x => negb (snd x)) (firstn 5 w) && eqb_bytes (text_of (firstn 5 w)) (lit "PATH=")
  | _ => false
  end.

(** One command after the other, [$?] being [st]; programs are lzbt, [echo] and
    systemd-pcrlock; [i] installations were run before; [globs i] are the files
    at the i-th. *)
Fixpoint execute (u : surroundings) (globs : nat -> bytes -> list bytes) (lzbt pcrlock : bytes)
    (i : nat) (cmds : list (list word)) (m : fs) (st : N) : option (fs * N) :=
  match cmds with
  | [] => Some (m, st)
  | ws :: r =>
      if sets_path ws then execute u globs lzbt pcrlock i r m 0
      else match expand_all (globs i) ws with
           | Some (p :: argv) =>
               if eqb_bytes p lzbt then
                 let '(m', _, n) := lzbt_main (u_world u i) argv m in execute u globs lzbt pcrlock (S i) r m' n
               else if eqb_bytes p (lit "echo") then execute u globs lzbt pcrlock i r m 0
               else if eqb_bytes p pcrlock then
                 let '(m', n) := u_policy u m in execute u globs lzbt pcrlock i r m' n
               else None
           | _ => None
           end
  end.

(** The links that the n-th installation sees are the matching files. *)
Definition sees (u : surroundings) (globs : nat -> bytes -> list bytes) : Prop :=
  forall i,
    (globs i (lit "/nix/var/nix/profiles/system-*-link") <> [] ->
       u_links u i = globs i (lit "/nix/var/nix/profiles/system-*-link")) /\
    (globs i (lit "/nix/var/nix/profiles/system-*-link") = [] ->
       u_links u i = [lit "/nix/var/nix/profiles/system-*-link"]).
