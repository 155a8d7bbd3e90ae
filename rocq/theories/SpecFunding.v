(** Specifications for the two methods of saving money that the README
    describes. *)
From Coq Require Import ZArith List Bool Reals.
From Flocq Require Import Core.
From Verif Require Import Base Str F64 Date Amount Posting Entry Envelope
  SpecAmount SpecDate SpecEntry SpecEnvelope.
Import ListNotations.
Local Open Scope Z_scope.

(** The binary64 number nearest to [r], ties to even. *)
Definition nearest (r : R) : R := round radix2 (FLT_exp (-1074) 53) ZnearestE r.

(** The envelope has a due date and was not touched today. *)
Definition ready (today : date) (v : envelope) (due : date) : Prop :=
  env_next_due today v = Ok (Some due) /\ v_last v <> today.
(** What is still missing for the next due date. *)
Definition missing (v : envelope) : f64 := fsub (mag (v_amount v)) (mag (v_next v)).
(** The savings for the next due date are between nothing and the target. *)
Definition in_range (v : envelope) : Prop :=
  finite (mag (v_amount v)) /\ finite (mag (v_next v))
  /\ (0 <= real_of (mag (v_next v)) <= real_of (mag (v_amount v)))%R.
(** No due date of the envelope that is called the last one lies ahead. *)
Definition last_is_past (today : date) (v : envelope) : Prop :=
  forall l, freq_last today (v_freq v) = Ok (Some l) -> not_later l today.

(** [w] is [v] after one filling on each day from [today] to the day before
    [due], by an entry of that day, with the whole target at hand each time. *)
Inductive saving_run (due : date) : date -> envelope -> envelope -> Prop :=
  | run_due v : saving_run due due v v
  | run_day today next_day v av a u w :
      ready today v due -> not_owing v -> last_is_past today v ->
      fleb (mag (v_amount v)) (mag av) = true ->
      filling_amount today v av = Ok a ->
      (positive a /\ (exists e, e_date e = today /\ posted_to v (e_postings e) = [a]
                        /\ env_process today v e = Ok u)
       \/ ~ positive a /\ u = v) ->
      tomorrow today next_day ->
      saving_run due next_day u w ->
      saving_run due today v w.
