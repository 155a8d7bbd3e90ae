(** White space, words, lines and paths. *)
From Coq Require Import NArith List.
Import ListNotations.
Local Open Scope N_scope.

(** The characters with the Unicode property White_Space. *)
Definition white (c : N) : Prop :=
  In c [9; 10; 11; 12; 13; 32; 133; 160; 5760; 8192; 8193; 8194; 8195; 8196; 8197; 8198; 8199; 8200; 8201; 8202;
        8232; 8233; 8239; 8287; 12288].
Definition visible (c : N) : Prop := ~ white c.

(** The words of a text. *)
Inductive in_words : list N -> list (list N) -> Prop :=
  | words_end s : Forall white s -> in_words s []
  | words_more b a s l : Forall white b -> a <> [] -> Forall visible a -> (forall c r, s = c :: r -> white c) ->
      in_words s l -> in_words (b ++ a ++ s) (a :: l).

(** A text without the white space around it. *)
Definition bared (s t : list N) : Prop :=
  exists a b, s = a ++ t ++ b /\ Forall white a /\ Forall white b
  /\ (forall c r, t = c :: r -> visible c) /\ (forall c r, t = r ++ [c] -> visible c).

(** The lines of a text: they end with LF or CR LF, the last one perhaps
    without. *)
Inductive in_lines : list N -> list (list N) -> Prop :=
  | lines_none : in_lines [] []
  | lines_last s : s <> [] -> ~ In 10 s -> in_lines s [s]
  | lines_lf a s l : ~ In 10 a -> (forall b, a <> b ++ [13]) -> in_lines s l -> in_lines (a ++ 10 :: s) (a :: l)
  | lines_crlf a s l : ~ In 10 a -> in_lines s l -> in_lines (a ++ 13 :: 10 :: s) (a :: l).

(** Walking along a path from a directory: [.] stays, [..] goes up. *)
Definition ended (s : list N) : Prop := forall c r, s = c :: r -> c = 47.
Inductive walked : list (list N) -> list N -> list (list N) -> Prop :=
  | walked_there d : walked d [] d
  | walked_slash d s q : walked d s q -> walked d (47 :: s) q
  | walked_dot d s q : ended s -> walked d s q -> walked d (46 :: s) q
  | walked_up d s q : ended s -> walked (removelast d) s q -> walked d (46 :: 46 :: s) q
  | walked_name d n s q : n <> [] -> ~ In 47 n -> n <> [46] -> n <> [46; 46] -> ended s ->
      walked (d ++ [n]) s q -> walked d (n ++ s) q.
(** From the root if the path begins with a slash. *)
Definition leads (d : list (list N)) (p : list N) (q : list (list N)) : Prop :=
  (exists r, p = 47 :: r /\ walked [] r q) \/ ((forall r, p <> 47 :: r) /\ walked d p q).
