(** Specification for C36-C39: a reader of "newc" CPIO archives, written from
    the format description (kernel: Documentation/driver-api/early-userspace/
    buffer-format.rst), and what is to be read. *)
From Coq Require Import List NArith Bool Sorted Permutation.
From Verif Require Import Base.
Import ListNotations.
Open Scope N_scope.

(** Numbers are eight hexadecimal digits, upper or lower case. *)
Definition hex_value (c : N) : option N :=
  if (48 <=? c) && (c <=? 57) then Some (c - 48)
  else if (97 <=? c) && (c <=? 102) then Some (c - 87)
  else if (65 <=? c) && (c <=? 70) then Some (c - 55)
  else None.

Fixpoint read_hex (n : nat) (acc : N) (l : list N) : option (N * list N) :=
  match n with
  | O => Some (acc, l)
  | S n' =>
      match l with
      | [] => None
      | c :: l' => match hex_value c with
                   | Some v => read_hex n' (16 * acc + v) l'
                   | None => None
                   end
      end
  end.

Fixpoint read_fields (n : nat) (l : list N) : option (list N * list N) :=
  match n with
  | O => Some ([], l)
  | S n' =>
      match read_hex 8 0 l with
      | Some (v, l1) => match read_fields n' l1 with
                        | Some (vs, l2) => Some (v :: vs, l2)
                        | None => None
                        end
      | None => None
      end
  end.

(** Exactly [n] bytes. *)
Definition take (n : N) (l : list N) : option (list N * list N) :=
  if N.of_nat (length l) <? n then None
  else Some (firstn (N.to_nat n) l, skipn (N.to_nat n) l).

(** Zero bytes up to the next multiple of four. *)
Definition skip_pad (consumed : N) (l : list N) : option (list N) :=
  match take ((4 - consumed mod 4) mod 4) l with
  | Some (z, l') => if forallb (fun b => b =? 0) z then Some l' else None
  | None => None
  end.

Record member := Member {
  mb_ino : N; mb_mode : N; mb_uid : N; mb_gid : N; mb_nlink : N; mb_mtime : N;
  mb_dev : N * N; mb_rdev : N * N; mb_check : N; mb_name : list N; mb_data : list N }.

(** One member: magic, 13 numbers, NUL-terminated name, padding, data, padding. *)
Definition read_member (l : list N) : option (member * list N) :=
  match take 6 l with
  | Some (magic, l1) =>
      if list_eq_dec N.eq_dec magic (lit "070701") then
        match read_fields 13 l1 with
        | Some ([ino; mode; uid; gid; nlink; mtime; size; dmaj; dmin; rmaj; rmin; nsize; chk], l2) =>
            match take nsize l2 with
            | Some (namez, l3) =>
                match rev namez with
                | z :: eman =>
                    if (z =? 0) && forallb (fun b => negb (b =? 0)) eman then
                      match skip_pad (110 + nsize) l3 with
                      | Some l4 =>
                          match take size l4 with
                          | Some (data, l5) =>
                              match skip_pad size l5 with
                              | Some l6 =>
                                  Some (Member ino mode uid gid nlink mtime (dmaj, dmin) (rmaj, rmin)
                                          chk (rev eman) data, l6)
                              | None => None
                              end
                          | None => None
                          end
                      | None => None
                      end
                    else None
                | [] => None
                end
            | None => None
            end
        | _ => None
        end
      else None
  | None => None
  end.

(** Members up to and including the one called "TRAILER!!!". *)
Fixpoint read_archive (fuel : nat) (l : list N) : option (list member * list N) :=
  match fuel with
  | O => None
  | S f =>
      match read_member l with
      | Some (m, l') =>
          if list_eq_dec N.eq_dec (mb_name m) (lit "TRAILER!!!") then Some ([m], l')
          else match read_archive f l' with
               | Some (ms, r) => Some (m :: ms, r)
               | None => None
               end
      | None => None
      end
  end.

(** ** What a packing request stands for *)

Inductive request :=
| RFile (name contents prefix : list N) (mode : N)
| RDir (path : list N) (mode : N)
| RPrefix (path : list N) (mode : N).

Definition S_IFREG : N := 32768.   (* 0o100000 *)
Definition S_IFDIR : N := 16384.   (* 0o040000 *)

Definition plain_member (ino mode : N) (name data : list N) : member :=
  Member ino mode 0 0 1 0 (0, 0) (0, 0) 0 name data.

Definition full_name (prefix name : list N) : list N :=
  if list_eq_dec N.eq_dec prefix [] then name else prefix ++ lit "/" ++ name.

(** "a/b/c" stands for the directories "/a", "/a/b" and "/a/b/c". *)
Definition ancestors (comps : list (list N)) : list (list N) :=
  map (fun i => lit "/" ++ join (lit "/") (firstn i comps)) (seq 1 (length comps)).
Definition path_components (p : list N) (comps : list (list N)) : Prop :=
  comps <> [] /\ p = join (lit "/") comps /\ Forall (fun c => ~ In 47 c) comps.

(** The members a request adds when [ino] inodes are in use. *)
Inductive adds (ino : N) : request -> list member -> Prop :=
| adds_file n d p m :
    adds ino (RFile n d p m) [plain_member (ino + 1) (N.lor m S_IFREG) (full_name p n) d]
| adds_dir p m :
    adds ino (RDir p m) [plain_member (ino + 1) (N.lor m S_IFDIR) p []]
| adds_prefix p m comps :
    path_components p comps ->
    adds ino (RPrefix p m)
      (map (fun ip => plain_member (ino + 1 + N.of_nat (fst ip))
                        (N.lor (if Nat.eqb (S (fst ip)) (length comps) then m else 365) S_IFDIR)  (* 0o555 *)
                        (snd ip) [])
           (combine (seq 0 (length comps)) (ancestors comps))).

Inductive adds_all : N -> list request -> list member -> Prop :=
| aa_nil ino : adds_all ino [] []
| aa_cons ino r rs ms ms' :
    adds ino r ms -> adds_all (ino + N.of_nat (length ms)) rs ms' -> adds_all ino (r :: rs) (ms ++ ms').

(** Requests in scope: 32-bit modes, NUL-free names that are not the
    trailer's. *)
Definition request_ok (r : request) : Prop :=
  match r with
  | RFile n d p m => m < 2 ^ 32 /\ ~ In 0 n /\ ~ In 0 p /\ full_name p n <> lit "TRAILER!!!"
  | RDir p m => m < 2 ^ 32 /\ ~ In 0 p /\ p <> lit "TRAILER!!!"
  | RPrefix p m => m < 2 ^ 32 /\ ~ In 0 p
  end.

(** ** C39: sorted file names *)

(** Lexicographic order on names. *)
Inductive lex_lt : list N -> list N -> Prop :=
| ll_nil c l : lex_lt [] (c :: l)
| ll_head a b l m : a < b -> lex_lt (a :: l) (b :: m)
| ll_tail a l m : lex_lt l m -> lex_lt (a :: l) (a :: m).

Definition lex_le (a b : list N) : Prop := lex_lt a b \/ a = b.

(** A directory entry that is picked up: a regular file with ASCII name and
    the right suffix. *)
Definition picked (suffix : list N) (regular : bool) (name : list N) : Prop :=
  regular = true /\ Forall (fun c => c < 128) name /\ exists stem, name = stem ++ suffix.
