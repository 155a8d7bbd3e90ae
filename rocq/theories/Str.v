(** Rust strings and the [str]/[char] methods that silverfox calls.

    A string is its list of Unicode scalar values.  Byte lengths and byte
    offsets are computed with [utf8_len] where the code uses them. *)
From Coq Require Import NArith List Bool String Ascii.
Import ListNotations.
Local Open Scope N_scope.

Notation char := N (only parsing).
Definition str := list char.

(** String literals of the model. *)
Fixpoint lit (s : string) : str :=
  match s with
  | EmptyString => []
  | String a s' => N_of_ascii a :: lit s'
  end.

Definition chr (s : string) : char := List.hd 0 (lit s).

(** [==] on strings and on [Option<String>]. *)
Fixpoint str_eqb (s t : str) : bool :=
  match s, t with
  | [], [] => true
  | a :: s', b :: t' => N.eqb a b && str_eqb s' t'
  | _, _ => false
  end.
Definition ostr_eqb (s t : option str) : bool :=
  match s, t with
  | None, None => true
  | Some a, Some b => str_eqb a b
  | _, _ => false
  end.

(** [char::is_whitespace]: the Unicode White_Space property. *)
Definition is_ws (c : char) : bool :=
  ((9 <=? c) && (c <=? 13)) || (c =? 32) || (c =? 0x85) || (c =? 0xA0)
  || (c =? 0x1680) || ((0x2000 <=? c) && (c <=? 0x200A))
  || (c =? 0x2028) || (c =? 0x2029) || (c =? 0x202F) || (c =? 0x205F)
  || (c =? 0x3000).

(** [char::is_ascii_digit]. *)
Definition is_digit (c : char) : bool := (48 <=? c) && (c <=? 57).

(** [char::len_utf8], [str::len]. *)
Definition utf8_len (c : char) : nat :=
  if c <? 0x80 then 1%nat
  else if c <? 0x800 then 2%nat
  else if c <? 0x10000 then 3%nat
  else 4%nat.
Definition byte_len (s : str) : nat :=
  fold_right (fun c n => (utf8_len c + n)%nat) 0%nat s.

(** [str::starts_with], [str::ends_with], [str::strip_prefix]. *)
Fixpoint strip_prefix (p s : str) : option str :=
  match p, s with
  | [], _ => Some s
  | a :: p', b :: s' => if N.eqb a b then strip_prefix p' s' else None
  | _ :: _, [] => None
  end.
Definition starts_with (p s : str) : bool :=
  match strip_prefix p s with Some _ => true | None => false end.

(** [str::find(&str)], as a character index. *)
Fixpoint find_sub (p s : str) : option nat :=
  if starts_with p s then Some 0%nat
  else match s with
       | [] => None
       | _ :: s' => option_map S (find_sub p s')
       end.
(** [str::find(char)], [str::rfind(char)], as a character index. *)
Fixpoint find_char (c : char) (s : str) : option nat :=
  match s with
  | [] => None
  | a :: s' => if N.eqb a c then Some 0%nat else option_map S (find_char c s')
  end.
Fixpoint rfind_char (c : char) (s : str) : option nat :=
  match s with
  | [] => None
  | a :: s' =>
      match rfind_char c s' with
      | Some i => Some (S i)
      | None => if N.eqb a c then Some 0%nat else None
      end
  end.

(** [str::contains(&str)], [str::contains(char)]. *)
Definition contains (p s : str) : bool :=
  match find_sub p s with Some _ => true | None => false end.

(** [str::replace(&str, &str)]: left to right, non-overlapping.  The model is
    only used with a non-empty pattern. *)
Fixpoint replace_aux (p q : str) (skip : nat) (s : str) : str :=
  match s with
  | [] => []
  | c :: s' =>
      match skip with
      | S k => replace_aux p q k s'
      | O => if starts_with p s then q ++ replace_aux p q (pred (List.length p)) s'
             else c :: replace_aux p q O s'
      end
  end.
Definition replace (p q s : str) : str := replace_aux p q 0 s.

(** [str::replace(char, &str)] with a one-character replacement. *)
Definition replace_char (a b : char) (s : str) : str :=
  map (fun c => if N.eqb c a then b else c) s.

(** [str::split_whitespace]. *)
Fixpoint split_ws_aux (cur : str) (s : str) : list str :=
  match s with
  | [] => match cur with [] => [] | _ => [rev cur] end
  | c :: s' =>
      if is_ws c then
        match cur with [] => split_ws_aux [] s' | _ => rev cur :: split_ws_aux [] s' end
      else split_ws_aux (c :: cur) s'
  end.
Definition split_ws (s : str) : list str := split_ws_aux [] s.

(** [str::trim_start], [str::trim_end], [str::trim]. *)
Fixpoint trim_start (s : str) : str :=
  match s with
  | [] => []
  | c :: s' => if is_ws c then trim_start s' else s
  end.
Fixpoint trim_end (s : str) : str :=
  match s with
  | [] => []
  | c :: s' =>
      match trim_end s' with
      | [] => if is_ws c then [] else [c]
      | t => c :: t
      end
  end.
Definition trim (s : str) : str := trim_end (trim_start s).

(** [str::split(char)]: always at least one piece. *)
Fixpoint split_on (d : char) (s : str) : list str :=
  match s with
  | [] => [[]]
  | c :: s' =>
      if N.eqb c d then [] :: split_on d s'
      else match split_on d s' with
           | [] => [[c]]
           | p :: ps => (c :: p) :: ps
           end
  end.

(** [str::lines]: pieces ended by LF, a CR right before that LF dropped; a
    last piece without LF is kept as it is unless it is empty. *)
Definition strip_cr (l : str) : str :=
  match rev l with
  | 13 :: r => rev r
  | _ => l
  end.
Fixpoint finish_lines (ps : list str) : list str :=
  match ps with
  | [] => []
  | [p] => match p with [] => [] | _ => [p] end
  | p :: ps' => strip_cr p :: finish_lines ps'
  end.
Definition lines (s : str) : list str := finish_lines (split_on 10 s).

(** [slice.join(sep)], [slice.concat()]. *)
Fixpoint join (sep : str) (l : list str) : str :=
  match l with
  | [] => []
  | [x] => x
  | x :: l' => x ++ sep ++ join sep l'
  end.

(** [" ".repeat(n)], and the padding of [format!("{:n}", s)] (to the right)
    and [format!("{:>n}", s)] (to the left); widths count characters. *)
Definition spaces (n : nat) : str := repeat 32 n.
Definition pad_right (n : nat) (s : str) : str := s ++ spaces (n - List.length s).
Definition pad_left (n : nat) (s : str) : str := spaces (n - List.length s) ++ s.

(** [str::cmp]: byte order of UTF-8 is code point order. *)
Fixpoint str_compare (s t : str) : comparison :=
  match s, t with
  | [], [] => Eq
  | [], _ :: _ => Lt
  | _ :: _, [] => Gt
  | a :: s', b :: t' =>
      match N.compare a b with Eq => str_compare s' t' | c => c end
  end.

(** [&s[..i]] and [&s[i..]] with a byte index [i]: [None] is the panic (index
    past the end, or inside a character). *)
Fixpoint split_at_byte (i : nat) (s : str) : option (str * str) :=
  match i with
  | O => Some ([], s)
  | _ => match s with
         | [] => None
         | c :: s' =>
             if Nat.leb (utf8_len c) i then
               match split_at_byte (i - utf8_len c) s' with
               | Some (a, b) => Some (c :: a, b)
               | None => None
               end
             else None
         end
  end.

(** src/utils.rs 1-25. Byte indices of ASCII patterns are character boundaries,
    so cutting at the character index is the same as cutting at the byte index. *)
Definition remove_comments (s : str) : str :=
  let slash := find_sub (lit "//") s in
  let semi := find_char (chr ";") s in
  let cut :=
    match semi with
    | Some i => match slash with
                | Some j => if Nat.ltb i j then Some i else slash
                | None => Some i
                end
    | None => slash
    end in
  match cut with Some i => firstn i s | None => s end.
