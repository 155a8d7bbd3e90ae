(** Property C132: due dates as days pass. *)
From Coq Require Import ZArith NArith List Bool String Lia.
From Verif Require Import Base Str F64 Date Amount Posting Entry Envelope Account
  SpecDate SpecEnvelope SpecHistory SpecDue EntryFacts DateFormat DateFacts FreqFacts PropertiesDate PropertiesDefinition PropertiesHistory PropertiesDue PropertiesLedger PropertiesEnvelope.
Import ListNotations.
Local Open Scope Z_scope.

Lemma earliest_order (P Q : date -> Prop) d d' : earliest P d -> earliest Q d' -> (forall x, Q x -> P x) -> not_later d d'.
Proof. intros [_ L] [H _] I. apply L, I, H. Qed.
Lemma earliest_same (P Q : date -> Prop) d : earliest P d -> (forall x, Q x -> P x) -> Q d -> earliest Q d.
Proof. intros [_ L] I H. split; [exact H|]. intros x X. apply L, I, X. Qed.
Lemma later_year t t' : not_later t t' -> year t' < max_year -> year t < max_year.
Proof. intros L H. apply ahead_year in L. lia. Qed.

Theorem C132_order : forall t t' f d d', year t' < max_year -> not_later t t' ->
  freq_next t f = Ok (Some d) -> freq_next t' f = Ok (Some d') -> not_later d d'.
Proof.
  intros t t' f d d' Y L A B. apply C108_next in A; [|exact (later_year _ _ L Y)]. apply C108_next in B; [|exact Y]. rewrite not_later_dayn in L.
  assert (forall x, earlier t' x -> earlier t x) as E by (intros x; rewrite !earlier_dayn; lia).
  assert (forall x, not_later t' x -> not_later t x) as N by (intros x; rewrite !not_later_dayn; lia).
  inversion A as [|? _|? _|w ? P|s ? S P|s ? S F P|n ? P|s ? P|s S|s ? S P|s S P]; subst; inversion B as [|? _|? _|? ? P'|? ? S' P'|? ? S' F' P'|? ? P'|? ? P'|? S'|? ? S' P'|? S' P']; subst;
    try apply not_later_refl; try (eapply earliest_order; [eassumption..|intros x [X1 X2]; auto]; fail).
  - exfalso. rewrite not_later_dayn in S. rewrite earlier_dayn in S'. lia.
  - (* the start is reached in between *)
    destruct P' as [[P1 P2] _]. apply fortnight_dayn in P2 as (k & K & E'). apply apart_dayn in F as (j & J). apply ahead_dayn in P. rewrite earlier_dayn in *. rewrite not_later_dayn in *. lia.
  - apply apart_dayn in F as (j & J). apply apart_dayn in F' as (j' & J'). apply ahead_dayn in P. apply ahead_dayn in P'. rewrite not_later_dayn. lia.
  - rewrite not_later_dayn. destruct P' as [P1 P2]. apply not_later_dayn. right. left. destruct (date_bounds d) as (_ & M1 & _). destruct (date_bounds d') as (_ & M2 & _). lia.
  - exfalso. rewrite not_later_dayn in S. rewrite earlier_dayn in S'. lia.
  - rewrite (months_unique _ _ _ _ P P'). apply not_later_refl.
Qed.
Print Assumptions C132_order.
(** With the start of the envelope. *)
Theorem C132_order_partial : forall t t' v d d', year t' < max_year -> not_later t t' ->
  (v_starting v = None \/ freq_next t' (v_freq v) <> Ok None) ->
  env_next_due t v = Ok (Some d) -> env_next_due t' v = Ok (Some d') -> not_later d d'.
Proof.
  intros t t' v d d' Y L N A B. unfold env_next_due in *. apply bind_Ok in A as (o & A & E). apply bind_Ok in B as (o' & B & E').
  destruct (v_starting v) as [s|].
  - destruct N as [N|N]; [discriminate|]. rewrite B in N. destruct o' as [x'|]; [|congruence]. destruct o as [x|]; injection E as <-; injection E' as <-.
    + assert (Q := C132_order _ _ _ _ _ Y L A B). rewrite not_later_dayn in *. rewrite !date_max_dayn. lia.
    + rewrite not_later_dayn, date_max_dayn. lia.
  - injection E as ->. injection E' as ->. exact (C132_order _ _ _ _ _ Y L A B).
Qed.
Print Assumptions C132_order_partial.
(** The due date stays until it is reached: not where it is only the start, and
    not for fortnights that have not started. *)
Theorem C132_partial : forall t t' v d, year t' < max_year -> not_later t t' -> env_next_due t v = Ok (Some d) -> freq_next t (v_freq v) = Ok (Some d) ->
  (forall s, v_freq v = Biweekly s -> not_later s t) -> earlier t' d -> env_next_due t' v = Ok (Some d).
Proof.
  intros t t' v d Y L A F N H. assert (freq_next t' (v_freq v) = Ok (Some d)) as F'.
  - apply C108_next; [exact Y|]. apply C108_next in F; [|exact (later_year _ _ L Y)].
    assert (forall x, earlier t' x -> earlier t x) as E by (intros x; rewrite not_later_dayn in L; rewrite !earlier_dayn; lia).
    assert (forall x, not_later t' x -> not_later t x) as M by (intros x; rewrite not_later_dayn in L; rewrite !not_later_dayn; lia).
    destruct (v_freq v) as [|o|w|s|n|s|s]; inversion F as [|? O|? _|? ? P|? ? S P|? ? S Q P|? ? P|? ? P|? S|? ? S P|? S P]; subst.
    + constructor. exact H.
    + constructor. apply (earliest_same _ _ _ P); [intros x [X1 X2]; auto|]. split; [exact H|apply P].
    + apply next_biweekly; [rewrite not_later_dayn in *; lia|]. apply (earliest_same _ _ _ P); [intros x [X1 X2]; auto|]. split; [exact H|apply P].
    + exfalso. specialize (N s eq_refl). rewrite earlier_dayn in S. rewrite not_later_dayn in N. lia.
    + constructor. apply (earliest_same _ _ _ P); [intros x [X1 X2]; auto|]. split; [exact H|apply P].
    + constructor. apply (earliest_same _ _ _ P); [intros x [X1 X2]; auto|]. split; [right; exact H|apply P].
    + apply next_yearly_early, H.
    + apply next_yearly; [rewrite not_later_dayn in *; lia|exact P].
  - unfold env_next_due in *. rewrite F in A. rewrite F'. exact A.
Qed.
Print Assumptions C132_partial.

(** ** Cases *)
Definition planned (header : string) : option envelope :=
  match all_envelopes (the (parse_account (text ["account a"; ("  expense x " ++ header)%string; "    amount $100"]%string) (chr ".") default_format) no_account) with [v] => Some v | _ => None end.
Definition due_on (header : string) (t : date) : res (option date) := match planned header with Some v => env_next_due t v | None => Panic end.
Local Notation D y m d := (mkDate y m d eq_refl).
Example C132_case :
  map (due_on "due every 31st") [D 2024 1 31; D 2024 2 1; D 2024 2 28; D 2024 2 29; D 2024 3 30; D 2024 3 31]
  = map (fun d => Ok (Some d)) [D 2024 2 29; D 2024 2 29; D 2024 2 29; D 2024 3 31; D 2024 3 31; D 2024 4 30].
Proof. vm_compute. reflexivity. Qed.
(** A fortnight before the start, the due date goes past it; one that is only
    the start is given up when the week is over; and when a one-time date has
    passed, the start, long past, takes its place. *)
Theorem C132_refuted :
  (exists h t t' d d', earlier t t' /\ earlier t' d /\ due_on h t = Ok (Some d) /\ due_on h t' = Ok (Some d') /\ d' <> d
    /\ exists v s, planned h = Some v /\ v_freq v = Biweekly s)
  /\ (exists h t t' d d', earlier t t' /\ earlier t' d /\ due_on h t = Ok (Some d) /\ due_on h t' = Ok (Some d') /\ d' <> d
    /\ exists v w, planned h = Some v /\ v_freq v = Weekly w)
  /\ (exists h t t' d d', earlier t t' /\ due_on h t = Ok (Some d) /\ due_on h t' = Ok (Some d') /\ earlier d' d).
Proof.
  split; [|split].
  - exists "due every other Friday starting 2024/03/15"%string, (D 2024 3 1), (D 2024 3 2), (D 2024 3 15), (D 2024 3 29).
    split; [vm_compute; tauto|]. split; [vm_compute; tauto|]. split; [vm_compute; reflexivity|]. split; [vm_compute; reflexivity|]. split; [discriminate|].
    do 2 eexists. split; vm_compute; reflexivity.
  - exists "due every Friday starting 2024/03/17"%string, (D 2024 3 11), (D 2024 3 16), (D 2024 3 17), (D 2024 3 22).
    split; [vm_compute; tauto|]. split; [vm_compute; tauto|]. split; [vm_compute; reflexivity|]. split; [vm_compute; reflexivity|]. split; [discriminate|].
    do 2 eexists. split; vm_compute; reflexivity.
  - exists "due 2024/05/01 starting 2024/03/01"%string, (D 2024 4 30), (D 2024 5 1), (D 2024 5 1), (D 2024 3 1).
    split; [vm_compute; tauto|]. split; [vm_compute; reflexivity|]. split; [vm_compute; reflexivity|vm_compute; tauto].
Qed.
Print Assumptions C132_refuted.
