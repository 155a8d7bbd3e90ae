(** Property C109: dates with times of day. *)
From Coq Require Import ZArith NArith List Bool String Permutation Lia.
From Verif Require Import Base Str F64 Date Amount Posting Entry Envelope Account World Register Ledger Importer Cli
  SpecAmount SpecDate SpecTime SpecEntry SpecLedger SpecImport SpecRules StrFacts DateFormat TimeFacts PropertiesLedger PropertiesImport PropertiesCli PropertiesCrash.
Import ListNotations.
Local Open Scope Z_scope.

(** ** C109 *)
Theorem C109_timed : forall fmt ps x t s, timed fmt ps -> time_of_day t -> 0 <= year x < 10000 -> said x t ps s ->
  (tells_day (dates ps) /\ tells_year (dates ps) x) \/ tells_week (dates ps) x -> parse_date s fmt = Some x.
Proof. exact parse_said. Qed.
Print Assumptions C109_timed.

(** Nothing can be read in another format. *)
Theorem C109_formats : forall s fmt x, parse_date s fmt = Some x -> exists ps, timed fmt ps.
Proof. exact parse_date_timed. Qed.
Print Assumptions C109_formats.

(** With a piece of the time, no date is written: no row of the register, and no
    entry at the end of the journal. *)
Theorem C109_not_written : forall fmt ps, timed fmt ps -> (exists q, In q ps /\ forall p, q <> TDate p) ->
  (forall e m d, as_register_data e fmt m <> Ok (Some d))
  /\ (forall today w l e l', l_format l = fmt -> snd (append_entry today l w e) <> Ok l').
Proof.
  intros fmt ps W (q & I & N).
  assert (printable fmt = false) as E.
  { apply not_true_iff_false. rewrite (printable_timed fmt ps W). intros (qs & ->). apply in_map_iff in I.
    destruct I as (p & <- & _). exact (N p eq_refl). }
  split.
  - intros e m d H. unfold as_register_data in H. destruct (register_loop _ _ _ _ _ _) as [[[pos neg] foc]| | |]; try discriminate.
    cbn in H. rewrite E in H. destruct (pool_is_zero foc); discriminate.
  - intros today w l e l' F H. unfold append_entry in H. rewrite F, E in H. destruct (append_file _ _ _); discriminate.
Qed.
Print Assumptions C109_not_written.

Definition noon : time := mkTime 12 5 9 120000000 0 90.
Definition a_day : date := mkDate 2024 3 9 eq_refl.
Definition stamp : list tpiece :=
  [TDate (PNum NYear ZeroPad); TDate (PText 45%N); TDate (PNum NMonth ZeroPad); TDate (PText 45%N); TDate (PNum NDay ZeroPad); TBreak]
  ++ hms ++ [TFraction; SpecTime.blank; TOffset (mkZone true false true)].
Example C109_case :
  timed (lit "%+") stamp
  /\ said a_day noon stamp (lit "2024-03-09T12:05:09.12 +01:30")
  /\ tells_day (dates stamp) /\ tells_year (dates stamp) a_day
  /\ parse_date (lit "2024-03-09T12:05:09.12 +01:30") (lit "%+") = Some a_day
  /\ parse_date (lit "2024-03-09t12:05:09utc") (lit "%+") = Some a_day
  /\ parse_date (lit "Sat Mar  9 07:08:59 2024") (lit "%c") = Some a_day
  /\ parse_date (lit "9/3/2024 at 11:05 Pm CET") (lit "%d/%m/%Y at %l:%M %p %Z") = Some a_day
  /\ parse_date (lit "1709942400 2024-W10-6") (lit "%s %G-W%V-%u") = Some a_day
  (* no such times *)
  /\ parse_date (lit "2024-03-09 24:00") (lit "%F %R") = None
  /\ parse_date (lit "2024-03-09 13:00 am") (lit "%F %I:%M %p") = None
  /\ parse_date (lit "2024-03-09 13 am") (lit "%F %H %p") = None
  (* an offset needs its minutes *)
  /\ parse_date (lit "2024-03-09 +01") (lit "%F %z") = None
  /\ parse_date (lit "2024-03-09 +01") (lit "%F %#z") = Some a_day.
Proof.
  split; [exact (timed_time "+" stamp [] [] ltac:(unfold time_specs; cbn; auto 40) timed_nil)|].
  split.
  { unfold stamp, hms, colon, SpecTime.blank. cbn [app].
    repeat first
      [ exact (said_offset a_day noon _ 43%N [58%N] [] [] (said_nil _ _) ltac:(left; split; [reflexivity|discriminate]) ltac:(auto))
      | refine (said_date a_day noon (PNum NYear ZeroPad) _ (lit "-03-09T12:05:09.12 +01:30") _ (conj (or_introl eq_refl) I))
      | refine (said_date a_day noon (PNum NMonth ZeroPad) _ (lit "-09T12:05:09.12 +01:30") _ (conj (or_introl eq_refl) I))
      | refine (said_date a_day noon (PNum NDay ZeroPad) _ (lit "T12:05:09.12 +01:30") _ (conj (or_introl eq_refl) I))
      | refine (said_date a_day noon (PText _) _ _ _ I)
      | refine (said_break a_day noon 84%N _ _ _ (or_introl eq_refl))
      | refine (said_clock a_day noon KHour ZeroPad _ (lit ":05:09.12 +01:30") _ (or_introl (conj eq_refl _))); [|discriminate]
      | refine (said_clock a_day noon KMinute ZeroPad _ (lit ":09.12 +01:30") _ (or_introl (conj eq_refl _))); [|discriminate]
      | refine (said_clock a_day noon KSecond ZeroPad _ (lit ".12 +01:30") _ (or_introl (conj eq_refl _))); [|discriminate]
      | refine (said_fraction a_day noon 2 _ (lit " +01:30") _ _ _ _); [|lia|reflexivity|cbn; lia] ]. }
  split; [vm_compute; intuition (eauto 10)|]. split; [vm_compute; intuition (eauto 10)|].
  vm_compute. repeat split; reflexivity.
Qed.

(** A table of a bank with times is imported; a journal with such a format can
    be read but not shown. *)
Example C109_run :
  import_of ["account b"; "account a"]%string ["date_format %d.%m.%Y %H:%M"; "account a"]%string ["09.03.2024 18:15"; "tea"; "5"]%string = Ok tt
  /\ import_of ["account b"; "account a"]%string ["date_format %d.%m.%Y %H:%M"; "account a"]%string ["09.03.2024"; "tea"; "5"]%string
     = Err (EParse (ImportDate (lit "09.03.2024") (lit "%d.%m.%Y %H:%M")))
  /\ (let j := ["account assets:a"; "account b"; "date_format %Y-%m-%dT%H:%M"; "2024-02-03T18:15 * one"; " assets:a 7"; " b"]%string in
      (exists l, loading j = Ok l) /\ crash_of j = Panic).
Proof.
  split; [vm_compute; reflexivity|]. split; [vm_compute; reflexivity|]. cbv zeta. split; [|vm_compute; reflexivity].
  eexists. vm_compute. reflexivity.
Qed.

