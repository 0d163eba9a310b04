(** What a C compiler makes of a declaration  const char *NAME = "..." "..." ;  (C11, 5.1.1.2 and 6.4.5). *)
From Coq Require Import ZArith List Bool.
From Verif Require Import SpecBits.
Import ListNotations.
Open Scope Z_scope.

(** Phase 1, if trigraphs are on: ?? followed by one of = ( / ) ' < ! > - *)
Definition trigraph (c : Z) : option Z :=
  if c =? 61 then Some 35 else if c =? 40 then Some 91 else if c =? 47 then Some 92 else if c =? 41 then Some 93
  else if c =? 39 then Some 94 else if c =? 60 then Some 123 else if c =? 33 then Some 124 else if c =? 62 then Some 125 else if c =? 45 then Some 126 else None.
Fixpoint trigraphs (l : list Z) : list Z :=
  match l with
  | a :: ((b :: (c :: rest)) as l1) =>
    if (a =? 63) && (b =? 63) then
      match trigraph c with
      | Some d => d :: trigraphs rest
      | None => a :: trigraphs l1
      end
    else a :: trigraphs l1
  | _ => l
  end.
(** Phase 2: a backslash before a new line is removed with the new line. *)
Fixpoint splice (l : list Z) : list Z :=
  match l with
  | a :: ((b :: rest) as l1) => if (a =? 92) && (b =? 10) then splice rest else a :: splice l1
  | _ => l
  end.
(** Simple escape sequences. *)
Definition escape (c : Z) : option Z :=
  if c =? 39 then Some 39 else if c =? 34 then Some 34 else if c =? 63 then Some 63 else if c =? 92 then Some 92 else if c =? 97 then Some 7 else if c =? 98 then Some 8
  else if c =? 102 then Some 12 else if c =? 110 then Some 10 else if c =? 114 then Some 13 else if c =? 116 then Some 9 else if c =? 118 then Some 11 else None.
Definition white (c : Z) : bool := (c =? 32) || (c =? 9) || (c =? 10) || (c =? 11) || (c =? 12).
(** String literals up to a semicolon at the end of the text: the characters they denote together.  [inside]: the
    position is in a literal, [esc]: behind a backslash.  Octal and hexadecimal escapes, comments and
    everything else: None. *)
Fixpoint literals (inside esc : bool) (l : list Z) : option (list Z) :=
  match l with
  | [] => None
  | c :: rest =>
    if inside then
      if esc then match escape c with Some d => option_map (cons d) (literals true false rest) | None => None end
      else if c =? 10 then None
      else if c =? 34 then literals false false rest
      else if c =? 92 then literals true true rest
      else option_map (cons c) (literals true false rest)
    else if white c then literals false false rest
    else if c =? 34 then literals true false rest
    else if c =? 59 then if forallb white rest then Some [] else None
    else None
  end.
Fixpoint strip (prefix l : list Z) : option (list Z) :=
  match prefix, l with
  | [], _ => Some l
  | a :: p, b :: r => if a =? b then strip p r else None
  | _ :: _, [] => None
  end.
Definition read_declaration (with_trigraphs : bool) (head : list Z) (text : list Z) : option (list Z) :=
  match strip head (splice (if with_trigraphs then trigraphs text else text)) with
  | Some rest => literals false false rest
  | None => None
  end.
(** What the pointer denotes as a C string: everything before the first zero. *)
Fixpoint c_string (l : list Z) : list Z :=
  match l with
  | [] => []
  | c :: rest => if c =? 0 then [] else c :: c_string rest
  end.
(** No two question marks in a row. *)
Fixpoint no_qq (l : list Z) : Prop :=
  match l with
  | a :: ((b :: _) as l1) => ~ (a = 63 /\ b = 63) /\ no_qq l1
  | _ => True
  end.
(** A name: letters, digits and underscores. *)
Definition name_char (c : Z) : Prop := 48 <= c <= 57 \/ 65 <= c <= 90 \/ c = 95 \/ 97 <= c <= 122.
