(** Property C98: an envelope whose money moved today is not filled today. *)
From Coq Require Import ZArith NArith List Bool String Lia Sorted.
From Verif Require Import Base Str F64 Date Amount Posting Entry Envelope Account World Register Ledger Cli
  SpecAmount SpecDate SpecEntry SpecEnvelope SpecHistory StrFacts AmountFacts EntryFacts DateFacts FreqFacts
  EnvelopeFacts FillFacts AccountFacts PropertiesDate PropertiesEnvelope CrashFacts PropertiesHistory
  PropertiesLedger PropertiesCli.
Import ListNotations.
Local Open Scope Z_scope.

Local Notation D y m d := (mkDate y m d eq_refl).

(** ** The moves of an entry are determined *)
Lemma moves_unique v e l l' : moves_of v e l -> moves_of v e l' -> l = l'.
Proof.
  intros [M|M C|f s l0 M O L F G E]; intros [M'|M' C'|f' s' l1 M' O' L' F' G' E']; try contradiction; try reflexivity.
  - exfalso. destruct O' as (p & I & K), L' as (q & J & Q). destruct C as [C|C]; [exact (C p I K)|exact (C q J Q)].
  - exfalso. destruct O as (p & I & K), L as (q & J & Q). destruct C' as [C|C]; [exact (C p I K)|exact (C q J Q)].
  - rewrite (sums_unique _ _ _ _ _ _ _ F' F) in E'. rewrite (sums_unique _ _ _ _ _ _ _ G' G) in E'. congruence.
Qed.

(** ** The date of the last move *)
Lemma last_cons {A} (l : list A) : forall x d, last (x :: l) d = last l x.
Proof. induction l as [|y l IH]; intros x d; [reflexivity|]. change (last (x :: y :: l) d) with (last (y :: l) d). rewrite (IH y d), (IH y x). reflexivity. Qed.
Lemma last_app {A} (l m : list A) : forall d, last (l ++ m) d = last m (last l d).
Proof. induction l as [|x l IH]; intro d; [reflexivity|]. cbn [app]. rewrite !last_cons. apply IH. Qed.
Lemma moved_all_date today d v ls w : moved_all today d v ls w -> v_last w = last (map fst (map (pair d) ls)) (v_last v).
Proof.
  induction 1 as [v|v a u ls w M _ IH]; [reflexivity|]. cbn [map fst]. rewrite last_cons, IH. destruct M as (_ & -> & _). reflexivity.
Qed.
Lemma entry_last today v e w : env_process today v e = Ok w ->
  exists ls, moves_of v e ls /\ v_last w = last (map fst (map (pair (e_date e)) ls)) (v_last v).
Proof.
  intro H. destruct (manual_dec e) as [M|M].
  - apply (env_process_manual _ _ _ _ M) in H. exists (posted_to v (e_postings e)). split; [apply by_hand, M|].
    exact (moved_all_date _ _ _ _ _ H).
  - destruct (env_process_auto _ _ _ _ M H) as [(-> & C)|(O & L & f & s & Sf & Ss & [(Z & ->)|(Z & Mo)])].
    + exists []. split; [apply not_concerned; assumption|reflexivity].
    + exists []. split; [|reflexivity]. apply automatic with f s; auto. rewrite Z. reflexivity.
    + exists [transfer v f s]. split; [apply automatic with f s; auto; rewrite Z; reflexivity|]. exact (proj1 (proj2 Mo)).
Qed.
Lemma history_last today es : forall v w h, fold_res (env_process today) es v = Ok w -> moves_of_all v es h ->
  v_last w = last (map fst h) (v_last v).
Proof.
  induction es as [|e es IH]; intros v w h H M; inversion M as [|? ? l h' Me Ma]; subst.
  - injection H as <-. reflexivity.
  - cbn [fold_res] in H. apply bind_Ok in H. destruct H as (u & E & H).
    destruct (env_process_inv _ _ _ _ E) as (S & _). destruct (entry_last _ _ _ _ E) as (ls & Ml & L).
    rewrite (moves_unique _ _ _ _ Me Ml), map_app, last_app, <- L. apply (IH u w h' H).
    clear - S Ma. destruct S as (? & ? & ? & ? & ? & ? & ? & ?).
    assert (same_definition u v) as S by (repeat split; congruence).
    induction Ma as [|e' es l h Me Ma IH]; constructor; [exact (moves_same _ _ _ _ S Me)|exact IH].
Qed.
Lemma parse_envelope_last chunk account dsym fmt v : parse_envelope chunk account dsym fmt = Ok v -> v_last v = epoch.
Proof.
  unfold parse_envelope. destruct (lines (trim chunk)) as [|h body]; [discriminate|]. intro H. apply bind_Ok in H. destruct H as (v0 & Hh & H).
  apply (fold_res_inv (fun v => v_last v = epoch) _ _) with (s := v0) in H; [exact H|..].
  - intros s line s' A E. unfold add_body_line in E.
    destruct (split_ws _) as [|key more]; [discriminate|]. destruct (find_char _ _); [|discriminate]. destruct more; [injection E as <-; assumption|].
    destruct (str_eqb key (lit "for")); [destruct (split_ws _) as [|? []]; try discriminate; injection E as <-; assumption|].
    destruct (str_eqb key (lit "amount")); [apply bind_Ok in E; destruct E as (? & _ & E); injection E as <-; assumption|].
    destruct (str_eqb key (lit "funding")); [apply bind_Ok in E; destruct E as (? & _ & E); injection E as <-; assumption|discriminate].
  - unfold envelope_header in Hh. destruct (split_ws _) as [|t0 [|t1 ts]]; try discriminate.
    apply bind_Ok in Hh. destruct Hh as (ty & _ & Hh). apply bind_Ok in Hh. destruct Hh as (st & _ & Hh).
    apply bind_Ok in Hh. destruct Hh as (fr & _ & Hh). injection Hh as <-. reflexivity.
Qed.
Lemma parsed_last chunk dsym fmt a v : parse_account chunk dsym fmt = Ok a -> In v (all_envelopes a) -> v_last v = epoch.
Proof.
  intros H I. apply C33_definition in H. destruct H as (header & body & kw & ss & vs & _ & _ & _ & F & _ & _ & Ex & Go & _).
  assert (In v vs) as Iv by (unfold all_envelopes in I; rewrite Ex, Go in I; apply in_app_or in I; destruct I as [I|I]; apply filter_In in I; tauto).
  destruct (Forall2_In_r _ _ _ _ F Iv) as (s & _ & E). exact (parse_envelope_last _ _ _ _ _ E).
Qed.

(** ** C98 *)
(** What the program goes by: the date of the move that stands last in the
    journal. *)
Theorem C98_last : forall today chunk dsym fmt a es b w,
  parse_account chunk dsym fmt = Ok a -> fold_res (acc_process today) es a = Ok b -> In w (all_envelopes b) ->
  exists v, In v (all_envelopes a) /\ same_definition v w
    /\ (exists h, moves_of_all v es h)
    /\ forall h, moves_of_all v es h ->
         v_last w = last (map fst h) epoch
         /\ (last (map fst h) epoch = today -> forall av x, filling_amount today w av = Ok x -> mag x = fzero).
Proof.
  intros today chunk dsym fmt a es b w Hp H I. destruct (account_history _ _ _ _ _ H I) as (v & Iv & Hv).
  exists v. split; [exact Iv|]. split; [|split].
  - apply (fold_res_inv (fun u => same_definition v u) _ _) with (s := v) in Hv; [exact Hv| |apply same_definition_refl].
    intros s e s' A E. apply env_process_inv in E. exact (same_definition_trans _ _ _ A (proj1 E)).
  - clear - Hv. revert v Hv. induction es as [|e es IH]; intros v H; [exists []; constructor|].
    cbn [fold_res] in H. apply bind_Ok in H. destruct H as (u & E & H). destruct (IH u H) as (h & M).
    destruct (entry_last _ _ _ _ E) as (ls & Ml & _). destruct (env_process_inv _ _ _ _ E) as (S & _).
    exists (map (pair (e_date e)) ls ++ h). apply one_more; [exact Ml|].
    clear - S M. induction M as [|e' es l h Me Ma IH]; constructor; [exact (moves_same _ _ _ _ S Me)|exact IH].
  - intros h M. assert (v_last w = last (map fst h) epoch) as L
      by (rewrite (history_last _ _ _ _ _ Hv M), (parsed_last _ _ _ _ _ Hp Iv); reflexivity).
    split; [exact L|]. intros T av x F. apply (filling_amount_zero _ _ _ _ F). right. right. congruence.
Qed.
Print Assumptions C98_last.

Lemma moves_dates v es h : moves_of_all v es h -> forall x, In x h -> exists e, In e es /\ fst x = e_date e.
Proof.
  induction 1 as [|e es l h M _ IH]; intros x I; [destruct I|]. apply in_app_or in I as [I|I].
  - apply in_map_iff in I as (y & <- & _). exists e. split; [left|]; reflexivity.
  - destruct (IH x I) as (e' & J & E). exists e'. split; [right; exact J|exact E].
Qed.
Lemma moves_sorted v es h : moves_of_all v es h -> StronglySorted (fun x y => not_later (e_date x) (e_date y)) es ->
  StronglySorted (fun x y => not_later (fst x) (fst y)) h.
Proof.
  induction 1 as [|e es l h M Ma IH]; intro S; [constructor|]. inversion S as [|? ? S' F]; subst. specialize (IH S').
  clear M. induction l as [|a l IHl]; [exact IH|]. cbn [map app]. constructor; [exact IHl|]. apply Forall_forall.
  intros x I. cbn [fst]. apply in_app_or in I as [I|I].
  - apply in_map_iff in I as (y & <- & _). left. reflexivity.
  - destruct (moves_dates _ _ _ Ma x I) as (e' & J & ->). rewrite Forall_forall in F. exact (F e' J).
Qed.
Lemma last_today (h : list (date * amount)) today a : StronglySorted (fun x y => not_later (fst x) (fst y)) h ->
  Forall (fun x => not_later (fst x) today) h -> In (today, a) h -> forall d, last (map fst h) d = today.
Proof.
  induction h as [|x h IH]; intros S F I d; [destruct I|]. inversion S as [|? ? S' Fx]; subst. inversion F as [|? ? Lx F']; subst.
  cbn [map]. rewrite last_cons. destruct I as [->|I]; [|apply IH; assumption]. cbn [fst] in *.
  clear - Fx F'. revert Fx F'. induction h as [|y h IH]; intros Fx F'; [reflexivity|]. inversion Fx; inversion F'; subst. cbn [map]. rewrite last_cons.
  assert (fst y = today) as -> by (apply dayn_inj; repeat match goal with H : not_later _ _ |- _ => apply not_later_dayn in H end; lia).
  apply IH; assumption.
Qed.
(** If the entries stand in the order of their dates and none is from the
    future, then an envelope into or out of which money moved today is not
    filled today. *)
Theorem C98_partial : forall today chunk dsym fmt a es b w,
  parse_account chunk dsym fmt = Ok a -> fold_res (acc_process today) es a = Ok b -> In w (all_envelopes b) ->
  StronglySorted (fun x y => not_later (e_date x) (e_date y)) es -> Forall (fun e => not_later (e_date e) today) es ->
  exists v, In v (all_envelopes a) /\ same_definition v w
    /\ forall h m, moves_of_all v es h -> In (today, m) h ->
         forall av x, filling_amount today w av = Ok x -> mag x = fzero.
Proof.
  intros today chunk dsym fmt a es b w Hp H I S P. destruct (C98_last _ _ _ _ _ _ _ _ Hp H I) as (v & Iv & Sd & _ & K).
  exists v. split; [exact Iv|]. split; [exact Sd|]. intros h m M J. apply (K h M). apply last_today with m; [exact (moves_sorted _ _ _ M S)| |exact J].
  apply Forall_forall. intros x Ix. destruct (moves_dates _ _ _ M x Ix) as (e & Ie & ->). rewrite Forall_forall in P. exact (P e Ie).
Qed.
Print Assumptions C98_partial.

(** Otherwise not: the first run on the 20th fills [food]; then somebody writes
    down what was spent on the 18th, and the second run on the 20th fills
    [food] again. *)
Definition once_text : list string :=
  ["account assets:cash"; "  expense food due every 25th"; "    amount $100"; "    for expenses:food"; "    funding conservative";
   "account expenses:food"; "account income:job";
   "2024/03/01 * pay"; "  assets:cash  $500"; "  income:job"]%string.
Definition first_run : list string :=
  ["2024/03/20 ~ move to envelopes // automatically generated by silverfox";
   "    envelope assets:cash food                          $ 20"; ""]%string.
Definition late_entry : list string := ["2024/03/18 * shop"; "  assets:cash  $-10"; "  expenses:food  $10"]%string.
Definition second_run : list string :=
  ["2024/03/20 ~ move to envelopes // automatically generated by silverfox";
   "    envelope assets:cash food                          $ 16"; ""]%string.
Definition run_on (t : str) : option str :=
  files (o_world (main (ctx [] (fun _ => [])) (map lit ["e"; "-f"; "/j"]%string) (world_of [(j, t)] [[]] []))) j.
Theorem C98_refuted : exists before between,
  run_on before = Some (before ++ nl ++ text first_run)
  /\ run_on (before ++ nl ++ text first_run) = Some (before ++ nl ++ text first_run)
  /\ run_on (before ++ nl ++ text first_run ++ between)
     = Some (before ++ nl ++ text first_run ++ between ++ nl ++ text second_run).
Proof. exists (text once_text), (text late_entry). split; [|split]; vm_compute; reflexivity. Qed.
Print Assumptions C98_refuted.
Example C98_case :
  let a := the (parse_account (text ["account assets:checking"; "  expense food due every 25th"; "    amount $100";
    "    for expenses:food"; "    funding conservative"]%string) (chr ".") default_format) no_account in
  let e := PropertiesEnvelope.entry_of ["2024/03/20 * shop"; "  assets:checking  $-10"; "  expenses:food  $10"]%string in
  let p := PropertiesEnvelope.entry_of ["2024/03/01 * pay"; "  assets:checking  $500"; "  income:job"]%string in
  map (fun es => option_map (fun v => mag (the (filling_amount PropertiesLedger.today v (dollars 490)) (dollars 7)))
         (hd_error (all_envelopes (PropertiesEnvelope.after PropertiesLedger.today a es)))) [[p; e]; [e; p]; [p]]
  = [Some (fofZ 0); Some (fofZ 0); Some (fofZ 20)].
Proof. vm_compute. reflexivity. Qed.
