(** Independent specification for C34: a finite collection of events with their times. *)
From Verif Require Import Base.

(** A comparison result that comes from a total preorder ("earlier or equal"). *)
Definition preorder (cmp : Z -> Z -> Z) : Prop :=
  (forall x y, cmp x y < 0 -> 0 <= cmp y x) /\
  (forall x y z, 0 <= cmp x y -> 0 <= cmp y z -> 0 <= cmp x z).

(** The calendar as a user sees it: who is scheduled, and for when (in microseconds). *)
Record calendar : Type := mkcal { scheduled : Z -> Prop; when_ : Z -> Z }.

(** [ev] may be delivered: it is scheduled and nothing scheduled is earlier. *)
Definition earliest (c : calendar) (ev : Z) : Prop :=
  scheduled c ev /\ forall x, scheduled c x -> when_ c ev <= when_ c x.

(** What the operations mean. *)
Inductive event_op : Type :=
| Schedule (ev now dt : Z)   (* now in microseconds, dt in milliseconds *)
| Cancel (ev : Z)
| Turn (now : Z) (fired : option Z).  (* a turn of the delivery loop and what it delivered *)

Inductive cal_step : calendar -> event_op -> calendar -> Prop :=
| step_schedule : forall c c' ev now dt,
    (forall x, scheduled c' x <-> x = ev \/ scheduled c x) ->
    (forall x, scheduled c' x -> when_ c' x = if x =? ev then now + dt * 1000 else when_ c x) ->
    cal_step c (Schedule ev now dt) c'
| step_cancel : forall c c' ev,
    (forall x, scheduled c' x <-> x <> ev /\ scheduled c x) ->
    (forall x, scheduled c' x -> when_ c' x = when_ c x) ->
    cal_step c (Cancel ev) c'
| step_fire : forall c c' now ev,
    earliest c ev -> when_ c ev <= now ->
    (forall x, scheduled c' x <-> x <> ev /\ scheduled c x) ->
    (forall x, scheduled c' x -> when_ c' x = when_ c x) ->
    cal_step c (Turn now (Some ev)) c'
| step_wait : forall c c' now,
    (forall x, scheduled c x -> now < when_ c x) ->
    (forall x, scheduled c' x <-> scheduled c x) ->
    (forall x, scheduled c' x -> when_ c' x = when_ c x) ->
    cal_step c (Turn now None) c'.

Inductive cal_run : calendar -> list event_op -> calendar -> Prop :=
| run_nil : forall c, cal_run c [] c
| run_cons : forall c1 c2 c3 o os, cal_step c1 o c2 -> cal_run c2 os c3 -> cal_run c1 (o :: os) c3.
