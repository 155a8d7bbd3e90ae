(** Valid dates. *)
From Coq Require Import ZArith NArith List Bool String Lia Eqdep_dec.
From Verif Require Import Base Str Date.
Import ListNotations.
Local Open Scope Z_scope.

Lemma date_eq x y : year x = year y -> month x = month y -> day x = day y -> x = y.
Proof.
  destruct x as [a b c H], y as [a' b' c' H']. cbn. intros -> -> ->. f_equal.
  apply UIP_dec, bool_dec.
Qed.
Lemma from_ymd_Some y m d x :
  from_ymd y m d = Some x <-> year x = y /\ month x = m /\ day x = d.
Proof.
  unfold from_ymd. destruct (bool_dec (valid_ymd y m d) true) as [H|H]; split.
  - intro E. injection E as <-. auto.
  - intros (A & B & C). f_equal. apply date_eq; cbn; congruence.
  - discriminate.
  - intros (<- & <- & <-). destruct H. apply date_ok.
Qed.
Lemma from_ymd_None y m d : from_ymd y m d = None <-> valid_ymd y m d = false.
Proof.
  unfold from_ymd. destruct (bool_dec (valid_ymd y m d) true) as [H|H]; split; try easy; try congruence.
  intros _. destruct (valid_ymd y m d); congruence.
Qed.
Lemma valid_iff y m d :
  valid_ymd y m d = true <-> min_year <= y <= max_year /\ 1 <= m <= 12 /\ 1 <= d <= month_len y m.
Proof. unfold valid_ymd. rewrite !andb_true_iff, !Z.leb_le. tauto. Qed.
Lemma month_cases m : 1 <= m <= 12 ->
  m = 1 \/ m = 2 \/ m = 3 \/ m = 4 \/ m = 5 \/ m = 6 \/ m = 7 \/ m = 8 \/ m = 9 \/ m = 10 \/ m = 11 \/ m = 12.
Proof. lia. Qed.
Lemma month_len_bounds y m : 1 <= m <= 12 -> 28 <= month_len y m <= 31.
Proof.
  intro H. destruct (month_cases m H) as [->|[->|[->|[->|[->|[->|[->|[->|[->|[->|[->| ->]]]]]]]]]]];
    cbn; destruct (leap y); lia.
Qed.
Lemma date_bounds x : min_year <= year x <= max_year /\ 1 <= month x <= 12 /\ 1 <= day x <= month_len (year x) (month x).
Proof. apply valid_iff, date_ok. Qed.
Lemma day_bounds x : 1 <= day x <= 31.
Proof. destruct (date_bounds x) as (_ & M & D). assert (K := month_len_bounds (year x) _ M). lia. Qed.
