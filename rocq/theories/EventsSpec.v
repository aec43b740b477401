(** What planning of zone events is about. *)
From Verif Require Import Base EventsModel.

Definition planned (e : events) (t x : Z) : Prop := zget (e_time e) t = Some x /\ x <> 0.
(** LOAD, REFRESH, UPDATE, FLUSH, DNSSEC and DS-check change the zone *)
Definition changes_zone (t : Z) : Prop := In t [0; 1; 2; 4; 7; 11].
(** While updates are frozen by the user, events that change the zone are allowed only if the user asked for them. *)
Definition allowed (e : events) (t : Z) : Prop := zget (e_forced e) t = Some true \/ e_ufrozen e = false \/ ~ changes_zone t.
(** Any history from the start of the zone; time(NULL) is positive. *)
Definition reachable (e : events) : Prop := exists clock ufrozen l, 1000 <= clock /\ runs (events_new clock ufrozen) l e.
(** No call is in the middle *)
Definition quiet (e : events) : Prop := e_hold e = Free /\ e_plan e = [] /\ e_resched e = 0.
(** [WrapStart] starts the callback of the event [t] *)
Definition starts (s : step) (e e' : events) (t : Z) : Prop := s = WrapStart /\ run s e = Some e' /\ e_exec e' = Some t.
