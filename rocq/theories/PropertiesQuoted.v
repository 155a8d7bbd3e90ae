(** C103: how error texts quote entries; C102: the texts for invalid entries. *)
From Coq Require Import ZArith NArith List Bool Ascii String Lia.
From Verif Require Import Base Str F64 Date Amount Posting Entry Errors SpecDate SpecEntry SpecQuoted DateFormat.
Import ListNotations.
Local Open Scope Z_scope.

Lemma dashed_written : SpecDate.written (lit "%Y-%m-%d") dashed_date.
Proof.
  apply (written_spec "Y" [PNum NYear ZeroPad] (lit "-%m-%d")); [cbn; tauto|]. apply (written_text 45%N (lit "%m-%d")); [discriminate|].
  apply (written_spec "m" [PNum NMonth ZeroPad] (lit "-%d")); [cbn; tauto|]. apply (written_text 45%N (lit "%d")); [discriminate|].
  apply (written_spec "d" [PNum NDay ZeroPad] []); [cbn; tauto|]. constructor.
Qed.
Lemma posting_is_quoted p : show_posting p = posting_quoted show_amount p.
Proof.
  destruct p as [c|v]; [|unfold posting_quoted, column; cbn [show_posting show_envposting]; unfold show_envposting, pad_right, spaces; rewrite <- !app_assoc; reflexivity].
  cbn [show_posting posting_quoted]. unfold show_classic, column, pad_right, spaces, said_or_not. rewrite <- !app_assoc.
  destruct (c_amount c), (c_cost c) as [[k|k]|], (c_balance c); reflexivity.
Qed.
Theorem C103_quoted : forall e, 0 <= year (e_date e) < 10000 -> quoted show_amount e (full_string e).
Proof.
  intros e Y. exists [status_char (e_status e)]. split; [destruct (e_status e); constructor|]. unfold full_string.
  rewrite (format_date_written _ _ _ dashed_written Y).
  assert (List.concat (map (fun p => 10%N :: 9%N :: show_posting p) (e_postings e)) = flat_map (fun p => [10%N; 9%N] ++ posting_quoted show_amount p) (e_postings e)) as ->; [|reflexivity].
  induction (e_postings e) as [|p ps IH]; [reflexivity|]. cbn [map List.concat flat_map]. rewrite <- posting_is_quoted, IH. reflexivity.
Qed.
Print Assumptions C103_quoted.

Example C103_quoted_case :
  full_string (mkEntry (mkDate 2024 2 9 eq_refl) Cleared (lit "tea") None None [Classic (mkClassic None (lit "food") (Some (UnitCost (mkAmount fzero (Some (lit "$"))))) None)])
  = lit "2024-02-09 ~ tea [No payee]" ++ [10%N; 9%N] ++ lit "food                                                 @ $ 0".
Proof. vm_compute. reflexivity. Qed.

(** ** C102: what rejected entries are answered *)

Definition flagged : str := lit "silverfox flagged your journal file as invalid: ".
Definition invalid (c : str) : str := lit "the following is invalid to silverfox:" ++ [10%N; 10%N] ++ c ++ [10%N; 10%N].
Theorem C102_validation : forall why n a c,
  Errors.display why (EValidation (UndefinedAccount n)) = flagged ++ lit "the account `" ++ n ++ lit "` is not defined in your journal"
  /\ Errors.display why (EValidation (TwoBlanks c)) = invalid c ++ lit "a single entry can't have more than one blank posting"
  /\ Errors.display why (EValidation (MixedBlank c)) = invalid c ++ lit "silverfox can't infer the amount of a blank posting when other postings have mixed currencies"
  /\ Errors.display why (EValidation (DuplicateEnvelope n a)) = flagged ++ lit "there's a duplicate envelope definition for `" ++ n ++ lit "` in the account `" ++ a ++ lit "`"
  /\ Errors.display why (EValidation FieldsDiscarded) = flagged ++ lit "`fields` cannot be discarded; a value is required"
  /\ Errors.display why (EValidation OneBlankPosting) = flagged ++ lit "an entry with only one posting was generated, and that posting had a blank amount. make sure you've included an `amount` rule"
  /\ Errors.display why (EValidation (NoPostings c)) = invalid c ++ lit "this record produced an entry without any postings. make sure you've included rules for `account` and `amount` so that postings can be generated".
Proof.
  intros why n a c. unfold invalid, flagged, Errors.display, Errors.display_validation, Errors.display_report, Errors.quoted. cbn [Errors.validation_report Errors.says Errors.about Errors.context Errors.message].
  unfold Errors.quoted. rewrite <- !app_assoc. repeat split; reflexivity.
Qed.
Print Assumptions C102_validation.
Example C102_validation_case : Errors.display (fun _ => []) (EValidation (UndefinedAccount (lit "food")))
  = lit "silverfox flagged your journal file as invalid: the account `food` is not defined in your journal".
Proof. vm_compute. reflexivity. Qed.
