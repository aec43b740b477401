(** Planning of zone events: src/knot/events/events.c, src/knot/events/handlers/freeze_thaw.c,
    src/knot/common/evsched.c. Threads interleave between the regions guarded by events->mx; what a thread does
    while it holds events->reschedule_lock without events->mx is a separate step. *)
From Verif Require Import Base.

(** events.h:31-50 *)
Definition EV_LOAD : Z := 0. Definition EV_REFRESH : Z := 1. Definition EV_UPDATE : Z := 2. Definition EV_EXPIRE : Z := 3.
Definition EV_FLUSH : Z := 4. Definition EV_BACKUP : Z := 5. Definition EV_NOTIFY : Z := 6. Definition EV_DNSSEC : Z := 7.
Definition EV_VALIDATE : Z := 8. Definition EV_UFREEZE : Z := 9. Definition EV_UTHAW : Z := 10. Definition EV_DS_CHECK : Z := 11.
Definition EV_DS_PUSH : Z := 12. Definition EV_DNSKEY_SYNC : Z := 13. Definition EV_COUNT : Z := 14.

(** events.c:71-74 *)
Definition valid_event (t : Z) : bool := (t >? -1) && (t <? EV_COUNT).

(** events.c:76-89 *)
Definition ufreeze_applies (t : Z) : bool :=
  (t =? EV_LOAD) || (t =? EV_REFRESH) || (t =? EV_UPDATE) || (t =? EV_FLUSH) || (t =? EV_DNSSEC) || (t =? EV_DS_CHECK).

(** A holder of reschedule_lock that does not hold mx any more: it will call evsched_schedule with this number of
    seconds, or evsched_cancel *)
Inductive hold := Free | Arming (diff : Z) | Cancelling.
(** The thread in zone_events_freeze_blocking: none, about to look at [running], or waiting for the condition *)
Inductive wait := NoWait | Awake | Asleep.

(** events.h:52-74, with the entry of the scheduler [e_armed] (the time in milliseconds), the clock in milliseconds,
    the number of times that the task is in the queue of the workers, the event whose callback runs, calls that have
    to plan an event yet (of a user or not), and calls of users which have to reschedule yet. [e_running] stands for
    a non-zero time. The fields for blocking calls are not modelled; the event of the scheduler is set up. *)
Record events := mkev {
  e_time : list Z; e_forced : list bool; e_frozen : bool; e_ufrozen : bool; e_running : bool; e_run_end : bool;
  e_hold : hold; e_armed : option Z; e_clock : Z; e_tasks : Z; e_exec : option Z;
  e_plan : list (Z * bool); e_resched : Z; e_wait : wait }.

(** events.c:281-315: zone_events_init, zone_events_setup; zonedb-load.c:94 copies [ufrozen] *)
Definition events_new (clock : Z) (ufrozen : bool) : events :=
  mkev (repeat 0 14) (repeat false 14) false ufrozen false false Free None clock 0 None [] 0 NoWait.

Definition with_times (e : events) (ts : list Z) : events :=
  mkev ts (e_forced e) (e_frozen e) (e_ufrozen e) (e_running e) (e_run_end e) (e_hold e) (e_armed e) (e_clock e) (e_tasks e) (e_exec e) (e_plan e) (e_resched e) (e_wait e).
Definition with_hold (e : events) (h : hold) : events :=
  mkev (e_time e) (e_forced e) (e_frozen e) (e_ufrozen e) (e_running e) (e_run_end e) h (e_armed e) (e_clock e) (e_tasks e) (e_exec e) (e_plan e) (e_resched e) (e_wait e).
Definition with_calls (e : events) (pl : list (Z * bool)) (n : Z) : events :=
  mkev (e_time e) (e_forced e) (e_frozen e) (e_ufrozen e) (e_running e) (e_run_end e) (e_hold e) (e_armed e) (e_clock e) (e_tasks e) (e_exec e) pl n (e_wait e).

(** events.c:92-96; time(NULL) is the clock in seconds *)
Definition now (e : events) : Z := e_clock e / 1000.
Definition time_until (e : events) (planned : Z) : Z := if now e <? planned then planned - now e else 0.

(** events.c:101-118 *)
Definition get_time (e : events) (t : Z) : Z := match zget (e_time e) t with Some x => x | None => 0 end.
Definition is_forced (e : events) (t : Z) : bool := match zget (e_forced e) t with Some x => x | None => false end.
Definition set_time (e : events) (t time : Z) : events := with_times e (zset (e_time e) t time).

(** events.c:131-151: get_next_event *)
Fixpoint next_loop (i : Z) (ts : list Z) (fs : list bool) (ufrozen : bool) (next next_type : Z) : Z :=
  match ts, fs with
  | current :: ts, forced :: fs =>
    if ((next =? 0) || (current <? next)) && negb (current =? 0) && (forced || negb ufrozen || negb (ufreeze_applies i))
    then next_loop (i + 1) ts fs ufrozen current i
    else next_loop (i + 1) ts fs ufrozen next next_type
  | _, _ => next_type
  end.
Definition get_next_event (e : events) : Z := next_loop 0 (e_time e) (e_forced e) (e_ufrozen e) 0 (-1).

(** events.c:156-160 *)
Definition get_next_time (e : events) : Z := let t := get_next_event e in if valid_event t then get_time e t else 0.

(** events.c:167-195: reschedule, both locks are held. It stops before the call of evsched_schedule. *)
Definition reschedule (e : events) : events :=
  if e_running e || e_frozen e then with_hold e Free else
  let t := get_next_event e in
  if negb (valid_event t) then with_hold e Free else with_hold e (Arming (time_until e (get_time e t))).

(** events.c:350-361: the loop over the arguments; the caller passes valid types *)
Fixpoint update_timers (e : events) (l : list (Z * Z)) : events :=
  match l with
  | [] => e
  | (t, planned) :: l =>
    if planned <? 0 then update_timers e l else
    let current := get_time e t in
    update_timers
      (if (current =? 0) || ((planned =? 0) && negb (is_forced e t)) || ((planned >? 0) && (planned <? current))
       then set_time e t planned else e) l
  end.
(** events.c:339-373: _zone_events_schedule_at *)
Definition schedule_at (e : events) (l : list (Z * Z)) : events :=
  let old_next := get_next_time e in
  let e := update_timers e l in
  if negb (old_next =? get_next_time e) then reschedule e else e.

Inductive step :=
| Advance (dt : Z)                     (* time passes *)
| ScheduleAt (l : list (Z * Z))        (* zone_events_schedule_at *)
| UserForce (t : Z)                    (* zone_events_schedule_user: the first region *)
| Enqueue (t : Z)                      (* zone_events_enqueue: the first region *)
| Plan (t : Z) (user : bool)           (* both: zone_events_schedule_now *)
| UserResched                          (* zone_events_schedule_user: the last region *)
| HoldEnd                              (* the holder of reschedule_lock ends *)
| Fire                                 (* evsched_run with event_dispatch *)
| WrapStart                            (* event_wrap: the first region *)
| Callback                             (* the callback of UFREEZE or UTHAW *)
| WrapEnd                              (* event_wrap: the last region *)
| Freeze | Start                       (* zone_events_freeze, zone_events_start *)
| WaitBegin | WaitCheck.               (* zone_events_freeze_blocking: behind zone_events_freeze; the test of running *)

Definition lock_free (e : events) : bool := match e_hold e with Free => true | _ => false end.
Fixpoint remove1 (x : Z * bool) (l : list (Z * bool)) : option (list (Z * bool)) :=
  match l with
  | [] => None
  | y :: l => if (fst x =? fst y) && Bool.eqb (snd x) (snd y) then Some l else
              match remove1 x l with None => None | Some l => Some (y :: l) end
  end.

(** The result of a step, [None] if it is not possible in the state *)
Definition run (s : step) (e : events) : option events :=
  match s with
  | Advance dt =>
    if dt <? 0 then None else
    Some (mkev (e_time e) (e_forced e) (e_frozen e) (e_ufrozen e) (e_running e) (e_run_end e) (e_hold e) (e_armed e) (e_clock e + dt) (e_tasks e) (e_exec e) (e_plan e) (e_resched e) (e_wait e))
  | ScheduleAt l =>
    if negb (lock_free e) || negb (forallb (fun x => valid_event (fst x)) l) then None else Some (schedule_at e l)
  (* events.c:376-385 *)
  | UserForce t =>
    if negb (valid_event t) then None else
    Some (mkev (e_time e) (zset (e_forced e) t true) (e_frozen e) (e_ufrozen e) (e_running e) (e_run_end e) (e_hold e) (e_armed e) (e_clock e) (e_tasks e) (e_exec e) ((t, true) :: e_plan e) (e_resched e) (e_wait e))
  (* events.c:427-446 *)
  | Enqueue t =>
    if negb (valid_event t) then None else
    if negb (e_running e) && negb (e_frozen e) && (negb (e_ufrozen e) || negb (ufreeze_applies t)) then
      let e := set_time e t 1 in
      Some (mkev (e_time e) (e_forced e) (e_frozen e) (e_ufrozen e) true (e_run_end e) (e_hold e) (e_armed e) (e_clock e) (e_tasks e + 1) (e_exec e) (e_plan e) (e_resched e) (e_wait e))
    else Some (with_calls e ((t, false) :: e_plan e) (e_resched e))
  (* events.c:387, 451; events.h:137-138; time(NULL) is read a little earlier, before the lock *)
  | Plan t user =>
    if negb (lock_free e) then None else
    match remove1 (t, user) (e_plan e) with
    | None => None
    | Some pl => Some (schedule_at (with_calls e pl (if user then e_resched e + 1 else e_resched e)) [(t, now e)])
    end
  (* events.c:389-390 *)
  | UserResched =>
    if negb (lock_free e) || (e_resched e <=? 0) then None else Some (reschedule (with_calls e (e_plan e) (e_resched e - 1)))
  (* events.c:193-195, 468-470; evsched.c:41-58, 147-178: the argument is uint32_t. The insertion to the heap does not fail. *)
  | HoldEnd =>
    match e_hold e with
    | Free => None
    | Arming diff => Some (mkev (e_time e) (e_forced e) (e_frozen e) (e_ufrozen e) (e_running e) (e_run_end e) Free (Some (e_clock e + (diff * 1000) mod 2 ^ 32)) (e_clock e) (e_tasks e) (e_exec e) (e_plan e) (e_resched e) (e_wait e))
    | Cancelling => Some (mkev (e_time e) (e_forced e) (e_frozen e) (e_ufrozen e) (e_running e) (e_run_end e) Free None (e_clock e) (e_tasks e) (e_exec e) (e_plan e) (e_resched e) (e_wait e))
    end
  (* evsched.c:83-85, events.c:266-279; the callback runs under the lock of the heap, so it is one step *)
  | Fire =>
    match e_armed e with
    | None => None
    | Some d =>
      if e_clock e <? d then None else
      let go := negb (e_running e) && negb (e_frozen e) in
      Some (mkev (e_time e) (e_forced e) (e_frozen e) (e_ufrozen e) (if go then true else e_running e) (e_run_end e) (e_hold e) None (e_clock e) (if go then e_tasks e + 1 else e_tasks e) (e_exec e) (e_plan e) (e_resched e) (e_wait e))
    end
  (* events.c:206-227; the read of blocking[-1] is ignored *)
  | WrapStart =>
    if e_tasks e <=? 0 then None else
    let t := get_next_event e in
    if negb (valid_event t) then
      Some (mkev (e_time e) (e_forced e) (e_frozen e) (e_ufrozen e) false (e_run_end e) (e_hold e) (e_armed e) (e_clock e) (e_tasks e - 1) (e_exec e) (e_plan e) (e_resched e) (e_wait e))
    else
      Some (mkev (zset (e_time e) t 0) (zset (e_forced e) t false) (e_frozen e) (e_ufrozen e) (e_running e) (e_run_end e) (e_hold e) (e_armed e) (e_clock e) (e_tasks e - 1) (Some t) (e_plan e) (e_resched e) (e_wait e))
  (* freeze_thaw.c:22-46; other callbacks use the functions of this file only *)
  | Callback =>
    match e_exec e with
    | None => None
    | Some t =>
      Some (mkev (e_time e) (e_forced e) (e_frozen e) (if t =? EV_UFREEZE then true else if t =? EV_UTHAW then false else e_ufrozen e) (e_running e) (e_run_end e) (e_hold e) (e_armed e) (e_clock e) (e_tasks e) (e_exec e) (e_plan e) (e_resched e) (e_wait e))
    end
  (* events.c:246-262 *)
  | WrapEnd =>
    match e_exec e with
    | None => None
    | Some _ =>
      if negb (lock_free e) then None else
      Some (reschedule (mkev (e_time e) (e_forced e) (e_frozen e) (e_ufrozen e) false (e_run_end e) (e_hold e) (e_armed e) (e_clock e) (e_tasks e) None (e_plan e) (e_resched e)
                             (if e_run_end e then match e_wait e with Asleep => Awake | w => w end else e_wait e)))
    end
  (* events.c:454-471 *)
  | Freeze =>
    if negb (lock_free e) then None else
    Some (mkev (e_time e) (e_forced e) true (e_ufrozen e) (e_running e) (e_run_end e) Cancelling (e_armed e) (e_clock e) (e_tasks e) (e_exec e) (e_plan e) (e_resched e) (e_wait e))
  (* events.c:496-510 *)
  | Start =>
    if negb (lock_free e) then None else
    Some (reschedule (mkev (e_time e) (e_forced e) false (e_ufrozen e) (e_running e) (e_run_end e) (e_hold e) (e_armed e) (e_clock e) (e_tasks e) (e_exec e) (e_plan e) (e_resched e) (e_wait e)))
  (* events.c:473-494; there is one waiting thread *)
  | WaitBegin =>
    match e_wait e with
    | NoWait => if e_frozen e then Some (mkev (e_time e) (e_forced e) (e_frozen e) (e_ufrozen e) (e_running e) (e_run_end e) (e_hold e) (e_armed e) (e_clock e) (e_tasks e) (e_exec e) (e_plan e) (e_resched e) Awake) else None
    | _ => None
    end
  | WaitCheck =>
    match e_wait e with
    | Awake => Some (mkev (e_time e) (e_forced e) (e_frozen e) (e_ufrozen e) (e_running e) (if e_running e then true else false) (e_hold e) (e_armed e) (e_clock e) (e_tasks e) (e_exec e) (e_plan e) (e_resched e) (if e_running e then Asleep else NoWait))
    | _ => None
    end
  end.

(** any interleaving *)
Inductive runs : events -> list step -> events -> Prop :=
| runs_nil : forall e, runs e [] e
| runs_cons : forall e s e' l e'', run s e = Some e' -> runs e' l e'' -> runs e (s :: l) e''.
