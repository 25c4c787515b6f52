(** Specification for C22, C23 and C24: the os-release file format as read by
    systemd, as a grammar with a meaning.  Nothing here refers to the parser. *)
From Coq Require Import List NArith Bool.
From Verif Require Import Base SCommon.
Import ListNotations.
Open Scope N_scope.

Definition newline (c : N) : Prop := c = 10 \/ c = 13.
Definition blank (c : N) : Prop := c = 32 \/ c = 9.

(** Unicode White_Space. *)
Definition white_space : list N :=
  [9; 10; 11; 12; 13; 32; 0x85; 0xA0; 0x1680; 0x2000; 0x2001; 0x2002; 0x2003; 0x2004; 0x2005;
   0x2006; 0x2007; 0x2008; 0x2009; 0x200A; 0x2028; 0x2029; 0x202F; 0x205F; 0x3000].

(** Remove trailing white space. *)
Fixpoint drop_white (s : list N) : list N :=
  match s with
  | c :: s' => if in_dec N.eq_dec c white_space then drop_white s' else s
  | [] => []
  end.
Definition rtrim (s : list N) : list N := rev (drop_white (rev s)).

(** A character of a double-quoted string, plain or after a backslash. *)
Inductive dchar := DChar (c : N) | DEsc (c : N).
(** A character of an unquoted value or of a comment, plain or after a
    backslash. *)
Inductive vchar := VChar (c : N) | VEsc (c : N).
(** What may precede the unquoted part of a value. *)
Inductive seg := Blank (c : N) | Single (s : list N) | Double (l : list dchar).

(** A line without its terminator; also covers lines cut off by the end of
    the file. *)
Inductive line :=
| Empty (lead : list N)                                  (* white space only *)
| Remark (lead : list N) (mark : N) (text : list vchar) (dangling : bool)
| Bare (lead : list N) (key : list N)                    (* key without '=' *)
| Assign (lead : list N) (key : list N) (segs : list seg) (plain : list vchar)
| CutEscape (lead : list N) (key : list N) (segs : list seg) (plain : list vchar)
| CutSingle (lead : list N) (key : list N) (segs : list seg) (s : list N)
| CutDouble (lead : list N) (key : list N) (segs : list seg) (l : list dchar) (dangling : bool).

(** Lines that may be followed by another one. *)
Definition complete (l : line) : Prop :=
  match l with
  | Empty _ | Remark _ _ _ _ | Bare _ _ | Assign _ _ _ _ => True
  | _ => False
  end.

(** ** Text *)

Definition dchar_render (d : dchar) : list N :=
  match d with DChar c => [c] | DEsc c => [92; c] end.
Definition vchar_render (v : vchar) : list N :=
  match v with VChar c => [c] | VEsc c => [92; c] end.
Definition seg_render (s : seg) : list N :=
  match s with
  | Blank c => [c]
  | Single s => [39] ++ s ++ [39]
  | Double l => [34] ++ flat_map dchar_render l ++ [34]
  end.
Definition tail_render (dangling : bool) : list N := if dangling then [92] else [].
Definition line_render (l : line) : list N :=
  match l with
  | Empty lead => lead
  | Remark lead mark text d => lead ++ [mark] ++ flat_map vchar_render text ++ tail_render d
  | Bare lead key => lead ++ key
  | Assign lead key segs plain =>
      lead ++ key ++ [61] ++ flat_map seg_render segs ++ flat_map vchar_render plain
  | CutEscape lead key segs plain =>
      lead ++ key ++ [61] ++ flat_map seg_render segs ++ flat_map vchar_render plain ++ [92]
  | CutSingle lead key segs s =>
      lead ++ key ++ [61] ++ flat_map seg_render segs ++ [39] ++ s
  | CutDouble lead key segs l d =>
      lead ++ key ++ [61] ++ flat_map seg_render segs ++ [34] ++ flat_map dchar_render l ++ tail_render d
  end.

(** ** Well-formedness *)

Definition dchar_ok (d : dchar) : Prop :=
  match d with DChar c => c <> 34 /\ c <> 92 | DEsc _ => True end.
Definition vchar_ok (v : vchar) : Prop :=
  match v with VChar c => ~ newline c /\ c <> 92 | VEsc _ => True end.
Definition remark_ok (v : vchar) : Prop :=
  match v with VChar c | VEsc c => ~ newline c /\ (v = VChar c -> c <> 92) end.
Definition seg_ok (s : seg) : Prop :=
  match s with
  | Blank c => blank c
  | Single s => ~ In 39 s
  | Double l => Forall dchar_ok l
  end.
(** An unquoted value does not start with blank or quote. *)
Definition plain_ok (p : list vchar) : Prop :=
  Forall vchar_ok p /\ forall c r, p = VChar c :: r -> ~ blank c /\ c <> 39 /\ c <> 34.
Definition key_ok (k : list N) : Prop :=
  exists c r, k = c :: r /\ ~ blank c /\ ~ newline c /\ c <> 35 /\ c <> 59 /\
    Forall (fun x => ~ newline x /\ x <> 61) r.
Definition line_ok (l : line) : Prop :=
  match l with
  | Empty lead => Forall blank lead
  | Remark lead mark text _ => Forall blank lead /\ (mark = 35 \/ mark = 59) /\ Forall remark_ok text
  | Bare lead key => Forall blank lead /\ key_ok key
  | Assign lead key segs plain => Forall blank lead /\ key_ok key /\ Forall seg_ok segs /\ plain_ok plain
  | CutEscape lead key segs plain => Forall blank lead /\ key_ok key /\ Forall seg_ok segs /\ plain_ok plain
  | CutSingle lead key segs s => Forall blank lead /\ key_ok key /\ Forall seg_ok segs /\ ~ In 39 s
  | CutDouble lead key segs l _ => Forall blank lead /\ key_ok key /\ Forall seg_ok segs /\ Forall dchar_ok l
  end.

(** ** Meaning *)

(** In double quotes a backslash only quotes the double quote, backslash, backquote
    and dollar, and joins lines. *)
Definition dchar_text (d : dchar) : list N :=
  match d with
  | DChar c => [c]
  | DEsc c => if in_dec N.eq_dec c [34; 92; 96; 36] then [c]
              else if N.eq_dec c 10 then [] else [92; c]
  end.
(** Elsewhere it quotes everything and joins lines. *)
Definition vchar_text (v : vchar) : list N :=
  match v with
  | VChar c => [c]
  | VEsc c => if in_dec N.eq_dec c [10; 13] then [] else [c]
  end.
Definition seg_text (s : seg) : list N :=
  match s with
  | Blank _ => []
  | Single s => s
  | Double l => flat_map dchar_text l
  end.
Definition line_assigns (l : line) : list (list N * list N) :=
  match l with
  | Empty _ | Remark _ _ _ _ | Bare _ _ => []
  | Assign _ key segs plain =>
      let v := flat_map seg_text segs ++ flat_map vchar_text plain in
      [(rtrim key, match plain with [] => v | _ => rtrim v end)]
  | CutEscape _ key segs plain => [(rtrim key, flat_map seg_text segs ++ flat_map vchar_text plain)]
  | CutSingle _ key segs s => [(rtrim key, flat_map seg_text segs ++ s)]
  | CutDouble _ key segs l _ => [(rtrim key, flat_map seg_text segs ++ flat_map dchar_text l)]
  end.

(** A file: terminated lines and a possibly empty, possibly cut off last one. *)
Record file := File { f_lines : list (line * N); f_last : line }.
Definition file_ok (f : file) : Prop :=
  Forall (fun lt => line_ok (fst lt) /\ complete (fst lt) /\ newline (snd lt)) (f_lines f) /\
  line_ok (f_last f).
Definition file_render (f : file) : list N :=
  flat_map (fun lt => line_render (fst lt) ++ [snd lt]) (f_lines f) ++ line_render (f_last f).
Definition file_assigns (f : file) : list (list N * list N) :=
  flat_map (fun lt => line_assigns (fst lt)) (f_lines f) ++ line_assigns (f_last f).

(** The value a sequence of assignments gives to a key. *)
Fixpoint last_value (k : list N) (l : list (list N * list N)) : option (list N) :=
  match l with
  | [] => None
  | (k', v) :: l' =>
      match last_value k l' with
      | Some w => Some w
      | None => if list_eq_dec N.eq_dec k k' then Some v else None
      end
  end.

(** ** C23: texts that survive being written unquoted *)

Definition plain_text (s : list N) : Prop :=
  Forall (fun c => c <> 10 /\ c <> 13 /\ c <> 92) s.
Definition good_start (s : list N) : Prop :=
  forall c r, s = c :: r -> c <> 32 /\ c <> 9 /\ c <> 39 /\ c <> 34.
Definition good_end (s : list N) : Prop :=
  forall r c, s = r ++ [c] -> ~ In c white_space.

(** ** C24: what a menu entry says *)

(** The build date as written in the menu. *)
Definition date_text (built : option (N * N * N)) (s : list N) : Prop :=
  match built with
  | None => s = lit "Unknown"
  | Some (y, m, d) => exists ys ms ds,
      numeral ys y /\ numeral ms m /\ numeral ds d /\
      (y < 10000 -> length ys = 4%nat) /\ (m < 100 -> length ms = 2%nat) /\ (d < 100 -> length ds = 2%nat) /\
      s = ys ++ lit "-" ++ ms ++ lit "-" ++ ds
  end.

(** "Generation N[-specialisation], date". *)
Definition description (version : N) (specialisation : option (list N)) (built : option (N * N * N))
  (s : list N) : Prop :=
  exists v t, plain_numeral v version /\ date_text built t /\
    s = lit "Generation " ++ v ++
        match specialisation with None => [] | Some n => lit "-" ++ n end ++ lit ", " ++ t.
