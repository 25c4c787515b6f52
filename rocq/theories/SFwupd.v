(** Specification of C87: what the shell, ln(1) and sbsign(1) make of the script,
    and what is to be signed. *)
From Coq Require Import List NArith Bool.
From Verif Require Import Base MText MFwupd SCommon SShell.
Import ListNotations.
Open Scope N_scope.

(** Files and symbolic links, by their absolute paths. *)
Inductive fnode := FFile (x : bytes) | FLink (target : bytes).
Definition files := list (bytes * fnode).
Fixpoint found (m : files) (p : bytes) : option fnode :=
  match m with [] => None | (q, n) :: r => if eqb_bytes q p then Some n else found r p end.
Definition set_file (p : bytes) (n : fnode) (m : files) : files := (p, n) :: filter (fun x => negb (eqb_bytes (fst x) p)) m.

(** What is read at a path; at most [k] links are followed. *)
Fixpoint content (k : nat) (m : files) (p : bytes) : option bytes :=
  match found m p with
  | Some (FFile x) => Some x
  | Some (FLink t) => match k with O => None | S k => content k m t end
  | None => None
  end.

(** Pattern matching (XCU 2.13), for patterns with [*] only: [*] is any text
    without slash. *)
Fixpoint glob_match (p s : bytes) {struct p} : bool :=
  match p with
  | [] => match s with [] => true | _ => false end
  | c :: p' =>
      if c =? 42
      then (fix any (s : bytes) : bool :=
              glob_match p' s || match s with [] => false | d :: s' => negb (d =? 47) && any s' end) s
      else match s with d :: s' => (c =? d) && glob_match p' s' | [] => false end
  end.
Definition globbed (m : files) (p : bytes) : list bytes := filter (glob_match p) (map fst m).

(** The last component of a path. *)
Fixpoint to_slash (s : bytes) : bytes :=
  match s with [] => [] | c :: r => if c =? 47 then [] else c :: to_slash r end.
Definition basename (s : bytes) : bytes := rev (to_slash (rev s)).

(** [ln -sf source... directory/]. *)
Definition run_ln (argv : list bytes) (m : files) : option files :=
  match argv with
  | a :: r =>
      if eqb_bytes a (lit "-sf") then
        match rev r with
        | dir :: s :: l =>
            if eqb_bytes (skipn (length dir - 1) dir) (lit "/")
            then Some (fold_left (fun m s => set_file (dir ++ basename s) (FLink s) m) (rev (s :: l)) m)
            else None
        | _ => None
        end
      else None
  | [] => None
  end.

(** The arguments of sbsign: the options, and one image. *)
Fixpoint sbsign_args (key cert : option bytes) (images argv : list bytes) : option (bytes * bytes * bytes) :=
  match argv with
  | [] => match key, cert, images with Some k, Some c, [i] => Some (k, c, i) | _, _, _ => None end
  | a :: r =>
      if eqb_bytes a (lit "--key") then match r with v :: r' => sbsign_args (Some v) cert images r' | [] => None end
      else if eqb_bytes a (lit "--cert") then match r with v :: r' => sbsign_args key (Some v) images r' | [] => None end
      else if match a with c :: _ => c =? 45 | [] => false end then None
      else sbsign_args key cert (images ++ [a]) r
  end.

(** sbsign writes the signed image beside the image.  [sign] is the signature
    with the keys at two paths, if they can be read and used. *)
Definition run_sbsign (sign : bytes -> bytes -> bytes -> option bytes) (argv : list bytes) (m : files) : option files :=
  match sbsign_args None None [] argv with
  | Some (k, c, i) =>
      match content 40 m i with
      | Some x => match sign k c x with Some y => Some (set_file (i ++ lit ".signed") (FFile y) m) | None => None end
      | None => None
      end
  | None => None
  end.

(** The commands, until one fails ([set -e]). *)
Fixpoint run_lines (sign : bytes -> bytes -> bytes -> option bytes) (sbsign : bytes) (cmds : list (list word)) (m : files) : files * N :=
  match cmds with
  | [] => (m, 0)
  | ws :: r =>
      match expand_all (globbed m) ws with
      | Some (p :: argv) =>
          match (if eqb_bytes p (lit "ln") then run_ln argv m
                 else if eqb_bytes p sbsign then run_sbsign sign argv m else None) with
          | Some m' => run_lines sign sbsign r m'
          | None => (m, 1)
          end
      | _ => (m, 2)
      end
  end.
Definition fwupd_efi (sign : bytes -> bytes -> bytes -> option bytes) (o : fwupd_options) (m : files) : files * N :=
  match commands (fwupd_script o) with Some cmds => run_lines sign (f_sbsign o) cmds m | None => (m, 2) end.

(** The EFI applications of the package. *)
Definition efi_dir (o : fwupd_options) : bytes := f_package o ++ lit "/libexec/fwupd/efi/".
Definition app_name (n : bytes) : Prop := exists mid, n = lit "fwupd" ++ mid ++ lit ".efi" /\ ~ In 47 mid.
Definition efi_app (o : fwupd_options) (m : files) (n : bytes) : Prop := app_name n /\ found m (efi_dir o ++ n) <> None.

(** The signed application, where fwupd looks for it. *)
Definition signed_app (n : bytes) : bytes := lit "/run/fwupd-efi/" ++ n ++ lit ".signed".

(** The package is a proper one, systemd has just made the runtime directory,
    paths are unique, and the keys' paths have no quote. *)
Record fwupd_proper (o : fwupd_options) (m : files) : Prop := {
  fp_package : plain (f_package o);
  fp_sbsign : plain (f_sbsign o);
  fp_absolute : exists r, f_sbsign o = 47 :: r;
  fp_private : ~ In 39 (f_private o);
  fp_public : ~ In 39 (f_public o);
  fp_unique : NoDup (map fst m);
  fp_fresh : forall r, found m (lit "/run/fwupd-efi/" ++ r) = None;
  fp_regular : forall n, efi_app o m n -> exists x, found m (efi_dir o ++ n) = Some (FFile x) }.
