(** The event heap and the event scheduler on top of it:
    src/contrib/ucw/heap.c, src/contrib/ucw/heap.h, src/knot/common/evsched.c.

    Elements are pointers, modelled as numbers. The [pos] field of the elements is a map from
    element to position; the array of pointers is a map from index to element ([None] is memory
    never written) together with the number of allocated slots. An access outside the slots or to
    an unwritten slot is [UB]. The comparison function is a parameter. *)
From Verif Require Import Base.

(** src/contrib/ucw/heap.h:25-30; [h_slots] is the number of allocated slots, 0 when data is NULL *)
Record heap : Type := mkheap { h_num : Z; h_max : Z; h_slots : Z; h_data : Z -> option Z }.

(** the memory of the elements: field pos, src/contrib/ucw/heap.h:19-21 *)
Definition posmap : Type := Z -> Z.

Definition upd {A} (f : Z -> A) (k : Z) (v : A) : Z -> A := fun i => if i =? k then v else f i.

(** HELEMENT dereferenced for reading and for writing, src/contrib/ucw/heap.h:35 *)
Definition helem (h : heap) (i : Z) : res Z :=
  if (0 <=? i) && (i <? h_slots h) then match h_data h i with Some x => Ok x | None => UB end else UB.
Definition hset (h : heap) (i x : Z) : res heap :=
  if (0 <=? i) && (i <? h_slots h) then Ok (mkheap (h_num h) (h_max h) (h_slots h) (upd (h_data h) i (Some x))) else UB.

Definition INITIAL_HEAP_SIZE : Z := 512.
Definition HEAP_INCREASE_STEP : Z := 2.
Definition HEAP_DECREASE_THRESHOLD : Z := 2.
Definition INT_MAX : Z := 2 ^ 31 - 1.

(** src/contrib/ucw/heap.c:39-48 *)
Definition heap_swap (h : heap) (p : posmap) (e1 e2 : Z) : res (heap * posmap) :=
  if e1 =? e2 then Ok (h, p) else
  let* x1 := helem h e1 in
  let* x2 := helem h e2 in
  let* h := hset h e1 x2 in
  let* h := hset h e2 x1 in
  let* y1 := helem h e1 in
  let* y2 := helem h e2 in
  let pos := p y1 in
  let p := upd p y1 (p y2) in
  let p := upd p y2 pos in
  Ok (h, p).

(** src/contrib/ucw/heap.c:50-60; an allocation that fails returns 0 (the result is only used
    here to say whether the heap may be used) *)
Definition heap_init (init_size : Z) : heap :=
  let isize := if init_size =? 0 then INITIAL_HEAP_SIZE else init_size in
  mkheap 0 isize (isize + 1) (fun _ => None).

(** src/contrib/ucw/heap.c:68-80 *)
Fixpoint heap_bubble_down (fuel : nat) (cmp : Z -> Z -> Z) (h : heap) (p : posmap) (e : Z) : res (heap * posmap) :=
  match fuel with
  | O => OOF
  | S fuel =>
    let e1 := 2 * e in
    if e1 >? h_num h then Ok (h, p) else
    let* x := helem h e in
    let* l := helem h e1 in
    let* stop :=
      if cmp x l <? 0 then
        if e1 =? h_num h then Ok true else
        let* r := helem h (e1 + 1) in Ok (cmp x r <? 0)
      else Ok false in
    if (stop : bool) then Ok (h, p) else
    let* e1 :=
      if negb (e1 =? h_num h) then
        let* r := helem h (e1 + 1) in
        let* l := helem h e1 in
        if cmp r l <? 0 then Ok (e1 + 1) else Ok e1
      else Ok e1 in
    let* (h, p) := heap_swap h p e e1 in
    heap_bubble_down fuel cmp h p e1
  end.

(** src/contrib/ucw/heap.c:82-91 *)
Fixpoint heap_bubble_up (fuel : nat) (cmp : Z -> Z -> Z) (h : heap) (p : posmap) (e : Z) : res (heap * posmap) :=
  match fuel with
  | O => OOF
  | S fuel =>
    if e >? 1 then
      let e1 := e / 2 in
      let* y := helem h e1 in
      let* x := helem h e in
      if cmp y x <? 0 then Ok (h, p) else
      let* (h, p) := heap_swap h p e e1 in
      heap_bubble_up fuel cmp h p e1
    else Ok (h, p)
  end.

(** the loops visit each level of the tree at most once *)
Definition heap_fuel (h : heap) : nat := S (S (Z.to_nat (h_num h))).

(** src/contrib/ucw/heap.c:93-103 *)
Definition heap_replace (cmp : Z -> Z -> Z) (h : heap) (p : posmap) (pos e : Z) : res (heap * posmap) :=
  let* h := hset h pos e in
  let p := upd p e pos in
  let* down :=
    if pos =? 1 then Ok true else
    let* y := helem h (pos / 2) in Ok (cmp y e <? 0) in
  if (down : bool) then heap_bubble_down (heap_fuel h) cmp h p pos
  else heap_bubble_up (heap_fuel h) cmp h p pos.

Definition set_num (h : heap) (n : Z) : heap := mkheap n (h_max h) (h_slots h) (h_data h).

(** src/contrib/ucw/heap.c:105-114 *)
Definition heap_delmin (cmp : Z -> Z -> Z) (h : heap) (p : posmap) : res (heap * posmap) :=
  if h_num h =? 0 then Ok (h, p) else
  let* (h, p) := if h_num h >? 1 then heap_swap h p 1 (h_num h) else Ok (h, p) in
  let* x := helem h (h_num h) in
  let p := upd p x 0 in
  let h := set_num h (h_num h - 1) in
  heap_bubble_down (heap_fuel h) cmp h p 1.

(** realloc, src/contrib/ucw/heap.c:118-124, 149-152; [alloc] says whether it succeeds *)
Definition heap_resize (alloc : bool) (h : heap) (max : Z) : heap :=
  if alloc then mkheap (h_num h) max (max + 1) (fun i => if i <? Z.min (h_slots h) (max + 1) then h_data h i else None)
  else mkheap (h_num h) max 0 (fun _ => None).

(** src/contrib/ucw/heap.c:116-131; the result is the returned number with the heap *)
Definition heap_insert (alloc : bool) (cmp : Z -> Z -> Z) (h : heap) (p : posmap) (e : Z) : res (bool * heap * posmap) :=
  let full := h_num h =? h_max h in
  if full && (h_max h * HEAP_INCREASE_STEP >? INT_MAX) then UB else
  let h := if full then heap_resize alloc h (h_max h * HEAP_INCREASE_STEP) else h in
  if full && negb alloc then Ok (false, h, p) else
  let h := set_num h (h_num h + 1) in
  let* h := hset h (h_num h) e in
  let p := upd p e (h_num h) in
  let* (h, p) := heap_bubble_up (heap_fuel h) cmp h p (h_num h) in
  Ok (true, h, p).

(** src/contrib/ucw/heap.c:133-136 *)
Definition heap_find (p : posmap) (e : Z) : Z := p e.

(** src/contrib/ucw/heap.c:138-153 *)
Definition heap_delete (alloc : bool) (cmp : Z -> Z -> Z) (h : heap) (p : posmap) (e : Z) : res (heap * posmap) :=
  let* (h, p) := heap_swap h p e (h_num h) in
  let* x := helem h (h_num h) in
  let p := upd p x 0 in
  let h := set_num h (h_num h - 1) in
  let* a := helem h e in
  let* b := helem h (h_num h + 1) in
  let* (h, p) :=
    if cmp a b <? 0 then heap_bubble_up (heap_fuel h) cmp h p e
    else heap_bubble_down (heap_fuel h) cmp h p e in
  if (h_num h >? INITIAL_HEAP_SIZE) && (h_num h <? h_max h / HEAP_DECREASE_THRESHOLD)
  then Ok (heap_resize alloc h (h_max h / HEAP_INCREASE_STEP), p)
  else Ok (h, p).

(** ** Event scheduler *)
(** struct timeval *)
Definition timeval : Type := (Z * Z)%type.
Definition timer_lt (a b : timeval) : bool :=
  if fst a =? fst b then snd a <? snd b else fst a <? fst b.

(** src/knot/common/evsched.c:32-37 *)
Definition compare_event_heap_nodes (tv : Z -> timeval) (e1 e2 : Z) : Z :=
  if timer_lt (tv e1) (tv e2) then -1 else if timer_lt (tv e2) (tv e1) then 1 else 0.

(** src/knot/common/evsched.c:42-60; the loop runs once at most because both parts are below
    a second; [now] is the result of gettimeofday *)
Definition timeval_in (now : timeval) (dt : Z) : timeval :=
  let sec := fst now + dt / 1000 in
  let usec := snd now + (dt mod 1000) * 1000 in
  if usec >? 999999 then (sec + 1, usec - 1000000) else (sec, usec).

(** the shared state: calendar, event positions and event times *)
Record sched : Type := mksched { s_heap : heap; s_pos : posmap; s_tv : Z -> timeval }.

(** src/knot/common/evsched.c:102-120; events are created with position 0, :148-169 *)
Definition evsched_init : sched := mksched (heap_init 0) (fun _ => 0) (fun _ => (0, 0)).

(** src/knot/common/evsched.c:180-209, the part under the lock; the result of heap_insert is
    ignored by the code *)
Definition evsched_schedule (alloc : bool) (now : timeval) (s : sched) (ev dt : Z) : res sched :=
  let tv := upd (s_tv s) ev (timeval_in now dt) in
  let cmp := compare_event_heap_nodes tv in
  let found := heap_find (s_pos s) ev in
  if found >? 0 then
    let* (h, p) := heap_replace cmp (s_heap s) (s_pos s) found ev in Ok (mksched h p tv)
  else
    let* (_, h, p) := heap_insert alloc cmp (s_heap s) (s_pos s) ev in Ok (mksched h p tv).

(** src/knot/common/evsched.c:211-229, the part under the lock *)
Definition evsched_cancel_locked (alloc : bool) (s : sched) (ev : Z) : res sched :=
  let found := heap_find (s_pos s) ev in
  if found >? 0 then
    let* (h, p) := heap_delete alloc (compare_event_heap_nodes (s_tv s)) (s_heap s) (s_pos s) found in
    Ok (mksched h p (s_tv s))
  else Ok s.

(** src/knot/common/evsched.c:231-232, after the lock was released *)
Definition evsched_cancel_reset (s : sched) (ev : Z) : sched :=
  mksched (s_heap s) (s_pos s) (upd (s_tv s) ev (0, 0)).

(** src/knot/common/evsched.c:73-95: one turn of the loop that holds the lock; [Some ev] when the
    callback of [ev] is called, [None] when the loop waits *)
Definition evsched_turn (now : timeval) (s : sched) : res (option Z * sched) :=
  if h_num (s_heap s) =? 0 then Ok (None, s) else
  let* ev := helem (s_heap s) 1 in
  if negb (timer_lt now (s_tv s ev)) then
    let* (h, p) := heap_delmin (compare_event_heap_nodes (s_tv s)) (s_heap s) (s_pos s) in
    Ok (Some ev, mksched h p (s_tv s))
  else Ok (None, s).
