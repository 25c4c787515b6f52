(** Specification of command lines and temporary files: how GNU programs read
    their arguments, and what it means for the programs lanzaboote runs to do
    their work.  Only the type of files with modes is taken from [MTemp]. *)
From Coq Require Import List NArith Bool.
From Verif Require Import Base MTemp.
Import ListNotations.
Open Scope N_scope.

(** An argument getopt takes for an option: a dash and more. *)
Definition dashed (a : bytes) : bool :=
  match a with c :: _ :: _ => c =? 45 | _ => false end.

(** GNU getopt_long with the long options [opts], all of which take a value:
    the options given, with their values, and the other arguments.  [None] for
    other options and a missing value. *)
Fixpoint getopt (opts args : list bytes) : option (list (bytes * bytes) * list bytes) :=
  match args with
  | [] => Some ([], [])
  | a :: r =>
      if in_dec (list_eq_dec N.eq_dec) a opts then
        match r with
        | [] => None
        | v :: r' =>
            match getopt opts r' with
            | Some (os, ps) => Some ((a, v) :: os, ps)
            | None => None
            end
        end
      else
        match dashed a, getopt opts r with
        | false, Some (os, ps) => Some (os, a :: ps)
        | _, _ => None
        end
  end.

(** The values given for one option. *)
Definition values (o : bytes) (os : list (bytes * bytes)) : list bytes :=
  map snd (filter (fun x => if list_eq_dec N.eq_dec (fst x) o then true else false) os).

(** [text] cut at its first character out of [stops]: what is before, the
    character, what follows. *)
Fixpoint cut (stops text : bytes) : option (bytes * N * bytes) :=
  match text with
  | [] => None
  | c :: t =>
      if in_dec N.eq_dec c stops then Some ([], c, t)
      else match cut stops t with
           | Some (a, s, b) => Some (c :: a, s, b)
           | None => None
           end
  end.

(** The value of a hexadecimal digit. *)
Definition digit_of (c : N) : option N :=
  if (48 <=? c) && (c <=? 57) then Some (c - 48)
  else if (97 <=? c) && (c <=? 102) then Some (c - 97 + 10)
  else if (65 <=? c) && (c <=? 70) then Some (c - 65 + 10)
  else None.

(** A number written in hexadecimal. *)
Fixpoint hex_value (text : bytes) (v : N) : option N :=
  match text with
  | [] => Some v
  | c :: t => match digit_of c with Some d => hex_value t (v * 16 + d) | None => None end
  end.

(** An address with its prefix [0x]; at least one digit. *)
Definition address (text : bytes) : option N :=
  match text with
  | z :: x :: d :: t => if (z =? 48) && (x =? 120) then hex_value (d :: t) 0 else None
  | _ => None
  end.

(** All results, if there are. *)
Fixpoint all {A B} (f : A -> option B) (l : list A) : option (list B) :=
  match l with
  | [] => Some []
  | x :: l' => match f x, all f l' with Some y, Some ys => Some (y :: ys) | _, _ => None end
  end.

(** What objcopy takes from its arguments: sections to add with the files that
    hold their content, addresses of sections, input and output. *)
Record objcopy_call := ObjcopyCall {
  oc_add : list (bytes * bytes); oc_vma : list (bytes * N); oc_in : bytes; oc_out : bytes }.

(** objcopy's reading of its arguments: [--add-section NAME=FILE] is cut at the
    first equals sign, [--change-section-vma NAME=ADDRESS] at the first of
    [=], [+] and [-]. *)
Definition objcopy_reads (args : list bytes) : option objcopy_call :=
  match getopt [lit "--add-section"; lit "--change-section-vma"] args with
  | Some (os, [i; o]) =>
      match
        all (fun v => match cut (lit "=") v with Some (n, _, f) => Some (n, f) | None => None end)
            (values (lit "--add-section") os),
        all (fun v => match cut (lit "=+-") v with
                      | Some (n, s, a) =>
                          if s =? 61 then
                            match address a with Some x => Some (n, x) | None => None end
                          else None
                      | None => None
                      end)
            (values (lit "--change-section-vma") os)
      with
      | Some adds, Some vmas => Some (ObjcopyCall adds vmas i o)
      | _, _ => None
      end
  | _ => None
  end.

(** The address asked for a section. *)
Definition vma_of (n : bytes) (vmas : list (bytes * N)) : option N :=
  match filter (fun x => if list_eq_dec N.eq_dec (fst x) n then true else false) vmas with
  | [x] => Some (snd x)
  | _ => None
  end.

(** The content of a file. *)
Definition holds (m : tfs) (p c : bytes) : Prop := exists mode, tget m p = Some (TFile mode c).

(** A section objcopy adds: the content of the file, at the address. *)
Definition adds (m : tfs) (vmas : list (bytes * N)) (a : bytes * bytes) (x : bytes * bytes * N) : Prop :=
  let '(n, c, v) := x in
  fst a = n /\ holds m (snd a) c /\ vma_of n vmas = Some v.

(** objcopy does its work: [oc] is what it makes of the input and the sections
    to add.  It writes the output file and nothing else; if it cannot do it, its
    status says so. *)
Definition objcopy_works (run : bytes -> list bytes -> tfs -> option (tfs * bool))
    (oc : bytes -> list (bytes * bytes * N) -> option bytes) : Prop :=
  forall args m call input sections,
    objcopy_reads args = Some call ->
    holds m (oc_in call) input ->
    Forall2 (adds m (oc_vma call)) (oc_add call) sections ->
    match oc input sections with
    | Some image =>
        exists m' mode,
          run (lit "objcopy") args m = Some (m', true) /\
          tget m' (oc_out call) = Some (TFile mode image) /\
          (forall p, p <> oc_out call -> tget m' p = tget m p)
    | None => exists m', run (lit "objcopy") args m = Some (m', false)
    end.

(** sbsign's arguments: key, certificate, input and output. *)
Definition sbsign_reads (args : list bytes) : option (bytes * bytes * bytes * bytes) :=
  match getopt [lit "--key"; lit "--cert"; lit "--output"] args with
  | Some (os, [i]) =>
      match values (lit "--key") os, values (lit "--cert") os, values (lit "--output") os with
      | [k], [c], [o] => Some (k, c, i, o)
      | _, _, _ => None
      end
  | _ => None
  end.

(** sbsign does its work: [sb key cert] is what it makes of a binary. *)
Definition sbsign_works (run : bytes -> list bytes -> tfs -> option (tfs * bool))
    (sb : bytes -> bytes -> bytes -> option bytes) : Prop :=
  forall args m key cert i o input,
    sbsign_reads args = Some (key, cert, i, o) ->
    holds m i input ->
    match sb key cert input with
    | Some signed =>
        exists m' mode,
          run (lit "sbsign") args m = Some (m', true) /\
          tget m' o = Some (TFile mode signed) /\
          (forall p, p <> o -> tget m' p = tget m p)
    | None => exists m', run (lit "sbsign") args m = Some (m', false)
    end.

(** sbverify's arguments: certificate and file. *)
Definition sbverify_reads (args : list bytes) : option (bytes * bytes) :=
  match getopt [lit "--cert"] args with
  | Some (os, [i]) => match values (lit "--cert") os with [c] => Some (c, i) | _ => None end
  | _ => None
  end.

(** sbverify does its work: its status says whether [sv cert] accepts the
    file; it does for no missing file. *)
Definition sbverify_works (run : bytes -> list bytes -> tfs -> option (tfs * bool))
    (sv : bytes -> bytes -> bool) : Prop :=
  forall args m cert i,
    sbverify_reads args = Some (cert, i) ->
    (forall input, holds m i input -> run (lit "sbverify") args m = Some (m, sv cert input)) /\
    (tget m i = None -> run (lit "sbverify") args m = Some (m, false)).

(** systemd-pcrlock's arguments: verb, binary and component file. *)
Definition pcrlock_reads (args : list bytes) : option (bytes * bytes * bytes) :=
  match getopt [lit "--pcrlock"] args with
  | Some (os, [v; i]) => match values (lit "--pcrlock") os with [o] => Some (v, i, o) | _ => None end
  | _ => None
  end.

(** systemd-pcrlock does its work: [lk] is the component it makes of a
    binary. *)
Definition pcrlock_works (run : bytes -> list bytes -> tfs -> option (tfs * bool))
    (lk : bytes -> option bytes) : Prop :=
  forall args m i o input,
    pcrlock_reads args = Some (lit "lock-pe", i, o) ->
    holds m i input ->
    match lk input with
    | Some component =>
        exists m' mode,
          run (lit "systemd-pcrlock") args m = Some (m', true) /\
          tget m' o = Some (TFile mode component) /\
          (forall p, p <> o -> tget m' p = tget m p)
    | None => exists m', run (lit "systemd-pcrlock") args m = Some (m', false)
    end.

(** The script that appends secrets extends the file it is given and nothing
    else: [ap script] is what it makes of an initrd. *)
Definition script_works (run : bytes -> list bytes -> tfs -> option (tfs * bool)) (script : bytes)
    (ap : bytes -> option bytes) : Prop :=
  forall m p mode input,
    tget m p = Some (TFile mode input) ->
    match ap input with
    | Some out =>
        exists m',
          run script [p] m = Some (m', true) /\
          tget m' p = Some (TFile mode out) /\
          (forall q, q <> p -> tget m' q = tget m q)
    | None => exists m', run script [p] m = Some (m', false)
    end.

(** A section name that survives objcopy's reading. *)
Definition good_name (n : str) : Prop :=
  Forall (fun c => c < 128 /\ ~ In c (lit "=+-")) n.

(** A path that no program takes for an option. *)
Definition plain (p : bytes) : Prop := p <> [] /\ forall t, p <> 45 :: t.

(** A path in the directory [d]. *)
Definition inside (d p : bytes) : Prop := exists n, p = d ++ 47 :: n.

(** The names drawn from number [k] on, [n] of them, differ. *)
Definition distinct_names (name : nat -> bytes) (k n : nat) : Prop :=
  forall i j, (k <= i < k + n)%nat -> (k <= j < k + n)%nat -> name i = name j -> i = j.

(** An error was injected between two steps. *)
Definition faulted (fault : nat -> option (option bytes)) (a b : nat) : Prop :=
  exists i, (a <= i < b)%nat /\ fault i <> None.

(** Only the owner may do anything. *)
Definition owner_only (mode : N) : Prop := N.land mode 63 = 0.

(** Code that takes no random names and leaves some files alone. *)
Definition leaves_alone {A} (body : T A) (which : bytes -> Prop) : Prop :=
  forall s s' r, body s = (s', r) ->
    ts_rand s' = ts_rand s /\ (ts_tick s <= ts_tick s')%nat /\
    forall q, which q -> tget (ts_files s') q = tget (ts_files s) q.

(** The initrd to be started: the given one, or what the script makes of it. *)
Definition wanted_initrd (m : tfs) (script : option bytes) (ap : bytes -> bytes -> option bytes)
    (initrd content : bytes) : Prop :=
  match script with
  | None => holds m initrd content
  | Some sc => exists c, holds m initrd c /\ ap sc c = Some content
  end.

(** Everything created is for the owner alone. *)
Definition private_event (ev : tev) : Prop :=
  match ev with
  | TDir _ mode | TCreate _ mode => owner_only mode
  | _ => True
  end.

(** A path in [d] with one of the names drawn from number [k] on, [n] of
    them. *)
Definition used (e : tenv) (d : bytes) (k n : nat) (q : bytes) : Prop :=
  exists i, (k <= i < k + n)%nat /\ q = d ++ 47 :: te_name e i.
