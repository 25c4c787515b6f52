(** Specification for C69 and C70: how systemd-boot reads, names and orders the
    entries it finds in EFI/Linux (boot.c, util.c and string-util-fundamental.c
    of systemd; not part of the repository).  Texts are byte strings here.
    Of the models only the record of a generation and UTF-8 are used. *)
From Coq Require Import List NArith ZArith Bool.
From Verif Require Import Base MText MGeneration SCommon.
Import ListNotations.
Open Scope N_scope.

Definition eqs (a b : list N) : bool := if list_eq_dec N.eq_dec a b then true else false.

(** ** Reading the os-release section *)

(** The lines of a text, up to a NUL. *)
Fixpoint text_lines (cur : list N) (s : list N) : list (list N) :=
  match s with
  | [] => [rev cur]
  | c :: s' =>
      if c =? 0 then [rev cur]
      else if (c =? 10) || (c =? 13) then rev cur :: text_lines [] s'
      else text_lines (c :: cur) s'
  end.

Fixpoint skip (p : N -> bool) (s : list N) : list N :=
  match s with
  | c :: s' => if p c then skip p s' else s
  | [] => []
  end.
Fixpoint span (p : N -> bool) (s : list N) : list N * list N :=
  match s with
  | c :: s' => if p c then let '(a, b) := span p s' in (c :: a, b) else ([], s)
  | [] => ([], [])
  end.

Definition is_blank (c : N) : bool := (c =? 32) || (c =? 9).
Definition strip (s : list N) : list N := rev (skip is_blank (rev (skip is_blank s))).

(** A value that starts with a quote in a line that ends with one. *)
Definition starts (c : N) (s : list N) : bool := match s with x :: _ => x =? c | [] => false end.
Definition unquote (v : list N) : list N :=
  if starts 34 v && starts 34 (rev v) then removelast (tl v) else v.

(** The assignment on a line. *)
Definition line_pair (l : list N) : list (list N * list N) :=
  let l := strip l in
  if starts 35 l then []
  else match span (fun c => negb (c =? 61)) l with
       | (_, []) => []
       | (k, v) => [(k, unquote (skip (fun c => c =? 61) v))]
       end.

Fixpoint last_of (k : list N) (l : list (list N * list N)) : option (list N) :=
  match l with
  | [] => None
  | (k', v) :: l' => match last_of k l' with
                     | Some w => Some w
                     | None => if eqs k k' then Some v else None
                     end
  end.

Definition or_else {A} (a b : option A) : option A := match a with Some _ => a | None => b end.

(** What the menu knows about an entry. *)
Record entry := Entry {
  en_title : list N;
  en_sort_key : option (list N);
  en_version : option (list N);
  en_id : list N;                       (* file name without counters *)
  en_left : option N;                   (* boot counter: tries left, *)
  en_done : N                           (* and tries made *)
}.

(** Title, version and sort key from os-release; without a title there is no entry. *)
Definition entry_of (osrel : list N) (id : list N) (lft : option N) (done : N) : option entry :=
  let ps := flat_map line_pair (text_lines [] osrel) in
  let get k := last_of k ps in
  match or_else (get (lit "PRETTY_NAME")) (or_else (get (lit "IMAGE_ID")) (or_else (get (lit "NAME")) (get (lit "ID")))) with
  | None => None
  | Some title =>
      Some (Entry title (or_else (get (lit "IMAGE_ID")) (get (lit "ID")))
        (or_else (get (lit "IMAGE_VERSION")) (or_else (get (lit "VERSION")) (or_else (get (lit "VERSION_ID")) (get (lit "BUILD_ID")))))
        id lft done)
  end.

(** ** Versions *)

Definition ascii_digit (c : N) : bool := (48 <=? c) && (c <=? 57).
Definition ascii_alpha (c : N) : bool := ((65 <=? c) && (c <=? 90)) || ((97 <=? c) && (c <=? 122)).
Definition version_char (c : N) : bool :=
  ascii_digit c || ascii_alpha c || (c =? 126) || (c =? 45) || (c =? 94) || (c =? 46).

(** Lexicographic order of texts. *)
Fixpoint lex (a b : list N) : comparison :=
  match a, b with
  | [], [] => Eq
  | [], _ => Lt
  | _, [] => Gt
  | x :: a', y :: b' => match N.compare x y with Eq => lex a' b' | c => c end
  end.

(** A separator makes a version older than one without it at this place. *)
Definition separator (c : N) (a b : list N) (k : list N -> list N -> comparison) : comparison :=
  match starts c a, starts c b with
  | true, true => k (tl a) (tl b)
  | true, false => Lt
  | false, true => Gt
  | false, false => k a b
  end.

Definition nonempty (s : list N) : bool := match s with [] => false | _ => true end.

(** [strverscmp_improved]. *)
Fixpoint version_cmp_aux (fuel : nat) (a b : list N) : comparison :=
  match fuel with
  | O => Eq
  | S fuel =>
      let a := skip (fun c => negb (version_char c)) a in
      let b := skip (fun c => negb (version_char c)) b in
      separator 126 a b (fun a b =>
        match a, b with
        | [], [] => Eq
        | [], _ => Lt
        | _, [] => Gt
        | _, _ =>
            separator 45 a b (fun a b => separator 94 a b (fun a b => separator 46 a b (fun a b =>
              if existsb (fun s => match s with c :: _ => ascii_digit c | [] => false end) [a; b] then
                let '(da, ra) := span ascii_digit a in
                let '(db, rb) := span ascii_digit b in
                match nonempty da, nonempty db with
                | true, false => Gt
                | false, true => Lt
                | _, _ =>
                    let da := skip (N.eqb 48) da in
                    let db := skip (N.eqb 48) db in
                    match Nat.compare (length da) (length db) with
                    | Eq => match lex da db with Eq => version_cmp_aux fuel ra rb | c => c end
                    | c => c
                    end
                end
              else
                let '(aa, ra) := span ascii_alpha a in
                let '(ab, rb) := span ascii_alpha b in
                let n := Nat.min (length aa) (length ab) in
                match lex (firstn n aa) (firstn n ab) with
                | Eq => match Nat.compare (length aa) (length ab) with
                        | Eq => version_cmp_aux fuel ra rb
                        | c => c
                        end
                | c => c
                end)))
        end)
  end.
Definition version_cmp (a b : list N) : comparison := version_cmp_aux (S (length a + length b)) a b.

(** ** The order of entries *)

Definition exhausted (e : entry) : bool := match en_left e with Some n => n =? 0 | None => false end.

Definition by_bool (a b : bool) : comparison :=
  match a, b with false, true => Lt | true, false => Gt | _, _ => Eq end.
Definition then_by (c d : comparison) : comparison := match c with Eq => d | _ => c end.

(** An absent version compares as the empty one. *)
Definition version_text (v : option (list N)) : list N := match v with Some s => s | None => [] end.

(** Entries without a machine id, as all of EFI/Linux are. *)
Definition menu_cmp (a b : entry) : comparison :=
  then_by (by_bool (exhausted a) (exhausted b)) (
  then_by (match en_sort_key a, en_sort_key b with
           | Some _, None => Lt
           | None, Some _ => Gt
           | None, None => Eq
           | Some s, Some t =>
               then_by (lex s t) (CompOpp (version_cmp (version_text (en_version a)) (version_text (en_version b))))
           end) (
  then_by (CompOpp (version_cmp (en_id a) (en_id b))) (
  match en_left a, en_left b with
  | Some l, Some m => then_by (CompOpp (N.compare l m)) (N.compare (en_done a) (en_done b))
  | _, _ => Eq
  end))).

(** [a] is shown above [b]. *)
Definition above (a b : entry) : Prop := menu_cmp a b = Lt.

(** ** Boot counters in file names *)

(** The text after the last plus and the one up to it. *)
Fixpoint after_plus (s : list N) : option (list N * list N) :=
  match s with
  | [] => None
  | c :: s' => match after_plus s' with
               | Some (p, r) => Some (c :: p, r)
               | None => if c =? 43 then Some ([43], s') else None
               end
  end.

(** The value of a numeral if it fits 64 bits, and the rest. *)
Definition digits_of (s : list N) : N := fold_left (fun v c => 10 * v + (c - 48)) s 0.
Definition number16 (s : list N) : option (N * list N) :=
  let '(d, r) := span ascii_digit s in
  if nonempty d && (digits_of d <? 0x10000000000000000) then Some (digits_of d, r) else None.

Definition lower (c : N) : N := if (65 <=? c) && (c <=? 90) then c + 32 else c.

(** Prefix including the plus, tries left, tries made; both counters at most
    [INT_MAX]. *)
Definition counters (file : list N) : option (list N * N * N) :=
  match after_plus file with
  | None => None
  | Some (prefix, s) =>
      match number16 s with
      | None => None
      | Some (lft, r) =>
          if lft <=? 0x7fffffff then
            match (if starts 45 r then number16 (tl r) else Some (0, r)) with
            | None => None
            | Some (done, suffix) =>
                if (done <=? 0x7fffffff) && eqs (map lower suffix) (lit ".efi") then Some (prefix, lft, done)
                else None
            end
          else None
      end
  end.

(** The name of the file after an attempt to boot it: one try less left, one
    more made, unless none was left. *)
Definition counted (file file' : list N) : Prop :=
  exists prefix lft done suffix l d,
    counters file = Some (prefix, lft, done) /\ 0 < lft /\
    plain_numeral l (lft - 1) /\ plain_numeral d (N.min (done + 1) 0x7fffffff) /\
    map lower suffix = lit ".efi" /\ (exists a, file = a ++ suffix) /\
    file' = prefix ++ l ++ lit "-" ++ d ++ suffix.

(** ** Generations *)

(** Texts that can be written into os-release for systemd-boot: on one line, not
    beginning with what it skips. *)
Definition one_line (s : list N) : Prop := ~ In 0 s /\ ~ In 10 s /\ ~ In 13 s.
Definition menu_ready (g : generation) : Prop :=
  one_line (bs_label (g_spec g)) /\ ~ (exists r, bs_label (g_spec g) = 61 :: r) /\
  (forall n, g_specname g = Some n -> one_line n) /\
  one_line (g_sort_key g) /\ ~ (exists r, g_sort_key g = 61 :: r) /\ ~ (exists r, g_sort_key g = 34 :: r) /\
  ~ (exists r, g_sort_key g = r ++ [32]) /\ ~ (exists r, g_sort_key g = r ++ [9]).

(** [g] is to be offered before [h]: it is newer, or [h] is a specialisation of
    the same generation. *)
Definition preferred (g h : generation) : Prop :=
  g_version h < g_version g \/
  g_version h = g_version g /\ g_specname g = None /\ g_specname h <> None.
