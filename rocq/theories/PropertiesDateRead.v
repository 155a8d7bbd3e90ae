(** Property C111: the texts that are read as dates. *)
From Coq Require Import ZArith NArith List Bool String Lia.
From Verif Require Import Base Str Date Entry Ledger SpecDate SpecTime SpecRead StrFacts DateFormat TimeFacts EntryFacts ReadFacts.
Import ListNotations.
Local Open Scope Z_scope.

(** What is read as a date says this date: the text is made of the pieces of
    the format and nothing else, and every piece agrees with the date. *)
Theorem C111_says : forall fmt ps s x, timed fmt ps -> parse_date s fmt = Some x -> says x ps s.
Proof. exact date_says. Qed.
Print Assumptions C111_says.
(** For formats of dates that tell the day these are all texts that are read. *)
Theorem C111_exact : forall fmt ps s x, SpecDate.written fmt ps -> 1 <= year x < 10000 ->
  (tells_day ps /\ tells_year ps x) \/ tells_week ps x ->
  parse_date s fmt = Some x <-> says x (map TDate ps) s.
Proof. exact date_iff. Qed.
Print Assumptions C111_exact.
(** The default format: a year, a month and a day between slashes, white space
    before each of them, zeros at will. *)
Theorem C111_default : forall s x, 1 <= year x < 10000 ->
  parse_date s default_format = Some x <->
  exists y m d, s = y ++ 47%N :: m ++ 47%N :: d
    /\ number_said true 4 (year x) [47%N] y /\ number_said false 2 (month x) [47%N] m /\ number_said false 2 (day x) [] d.
Proof.
  intros s x Y. set (ps := [PNum NYear ZeroPad; PText 47%N; PNum NMonth ZeroPad; PText 47%N; PNum NDay ZeroPad]).
  assert (W : SpecDate.written default_format ps).
  { apply (written_spec "Y" [PNum NYear ZeroPad] (lit "/%m/%d")); [cbn; tauto|]. apply (written_text 47%N (lit "%m/%d")); [discriminate|].
    apply (written_spec "m" [PNum NMonth ZeroPad] (lit "/%d")); [cbn; tauto|]. apply (written_text 47%N (lit "%d")); [discriminate|].
    apply (written_spec "d" [PNum NDay ZeroPad] []); [cbn; tauto|]. constructor. }
  assert (D : (tells_day ps /\ tells_year ps x) \/ tells_week ps x).
  { left. split; [left; split; [left|]|left]; exists ZeroPad; cbn; tauto. }
  rewrite (date_iff _ _ s x W Y D).
  assert (F : forall sg w v r q t, number_said sg w v (47%N :: r) t <-> number_said sg w v (47%N :: q) t).
  { intros sg w v r q t. split; intros []; constructor; auto. }
  unfold ps. cbn [map]. split.
  - rewrite says_cons. intros (y & r1 & -> & [Py _] & R). apply says_cons in R. destruct R as (t1 & r2 & -> & T1 & R). cbn in T1. subst t1.
    apply says_cons in R. destruct R as (m & r3 & -> & [Pm _] & R). apply says_cons in R. destruct R as (t2 & d & -> & T2 & R). cbn in T2. subst t2.
    apply says_one in R. destruct R as [Pd _]. exists y, m, d. cbn [app] in *. split; [reflexivity|].
    split; [apply (F _ _ _ (m ++ 47%N :: d)), Py|]. split; [apply (F _ _ _ d), Pm|exact Pd].
  - intros (y & m & d & -> & Py & Pm & Pd). apply says_cons. exists y, (47%N :: m ++ 47%N :: d). split; [reflexivity|].
    split; [split; [apply (F _ _ _ _ []), Py|exact I]|]. apply says_cons. exists [47%N], (m ++ 47%N :: d). split; [reflexivity|]. split; [reflexivity|].
    apply says_cons. exists m, (47%N :: d). split; [reflexivity|]. split; [split; [apply (F _ _ _ _ []), Pm|exact I]|].
    apply says_cons. exists [47%N], d. split; [reflexivity|]. split; [reflexivity|]. apply says_one. split; [exact Pd|exact I].
Qed.
Print Assumptions C111_default.
(** The first word of an entry says its date. *)
Theorem C111_entry : forall h fmt ps e, timed fmt ps -> parse_header h fmt = Ok e ->
  exists word rest, split_ws (remove_comments h) = word :: rest /\ says (e_date e) ps word.
Proof.
  intros h fmt ps e T H. apply parse_header_Ok in H. destruct H as ((w & st & ws & E & D & _) & _).
  exists w, (st :: ws). split; [exact E|]. apply (date_says _ _ _ _ T D).
Qed.
Print Assumptions C111_entry.
Example C111_case :
  parse_date (lit "2024/3/9") default_format = Some (mkDate 2024 3 9 eq_refl)
  /\ parse_date (lit "  2024/ 03/009") default_format = None
  /\ parse_date (lit " +002024/ 03/	09") default_format = Some (mkDate 2024 3 9 eq_refl)
  /\ parse_date (lit "2024/03/09 ") default_format = None
  /\ parse_date (lit "2024/03/0912") default_format = None
  /\ parse_date (lit "20240/3/9") default_format = None
  (* white space in a format need not be there *)
  /\ parse_date (lit "9MARCH2024") (lit "%d %B %Y") = Some (mkDate 2024 3 9 eq_refl)
  /\ parse_date (lit "9mar2024") (lit "%d %B %Y") = Some (mkDate 2024 3 9 eq_refl)
  /\ parse_date (lit "9march2024") (lit "%d %b %Y") = None
  (* a month of one digit before a day of two *)
  /\ parse_date (lit "2024309") (lit "%Y%m%d") = None.
Proof. vm_compute. repeat split. Qed.
