(** Sets of file descriptors with contexts and time limits: src/knot/common/fdset.c and fdset.h, in the variant for
    epoll, and the loop of src/knot/server/tcp-handler.c:310-357 that serves their events.

    Simplifications. Descriptors, contexts and times are integers, 0 is the context NULL. The counters do not wrap. The
    kernel is its interest list. It refuses to add a descriptor that is there or when it has no room (a parameter), and
    to change or delete one that is not there, and fails in no other way. Closing a descriptor is only recorded: it
    happens behind EPOLL_CTL_DEL, when the kernel has no interest in it. A failing epoll_wait or allocation in
    fdset_poll is an empty list of events. *)
From Verif Require Import Base.

Definition KNOT_ENOENT_ : Z := -2.
Definition KNOT_EEXIST_ : Z := -17.
(** src/knot/common/fdset.h:38-41 *)
Definition FDSET_RESIZE_STEP : nat := 256.
Definition FDSET_REMOVE_FLAG : Z := 4294967295.

(** src/knot/common/fdset.h:43-64: one index of the arrays ev (data.fd, events), ctx, ctx2 and timeout *)
Record slot := mkslot { s_fd : Z; s_events : Z; s_ctx : Z; s_ctx2 : Z; s_timeout : Z }.

(** epoll(7): the interest list, a descriptor with data.u64 and events *)
Definition kern : Type := list (Z * (nat * Z)).
Fixpoint kget (k : kern) (fd : Z) : option (nat * Z) :=
  match k with [] => None | (f, v) :: k => if f =? fd then Some v else kget k fd end.
(** epoll_ctl(2) EPOLL_CTL_ADD, DEL and MOD *)
Definition k_add (k : kern) (fd : Z) (i : nat) (ev : Z) (room : bool) : Z * kern :=
  match kget k fd with
  | Some _ => (KNOT_EEXIST_, k)
  | None => if room then (KNOT_EOK, k ++ [(fd, (i, ev))]) else (KNOT_ENOMEM, k)
  end.
Definition k_del (k : kern) (fd : Z) : Z * kern :=
  match kget k fd with
  | Some _ => (KNOT_EOK, filter (fun p => negb (fst p =? fd)) k)
  | None => (KNOT_ENOENT_, k)
  end.
Definition k_mod (k : kern) (fd : Z) (i : nat) (ev : Z) : Z * kern :=
  match kget k fd with
  | Some _ => (KNOT_EOK, map (fun p => if fst p =? fd then (fd, (i, ev)) else p) k)
  | None => (KNOT_ENOENT_, k)
  end.

(** The set: the first n entries of the arrays, the allocated size, the kernel structure, and the descriptors closed so
    far (not in the code) *)
Record fdset := mkset { slots : list slot; size : nat; ker : kern; closed : list Z }.
Definition count (s : fdset) : nat := length (slots s).
Definition with_slots (s : fdset) (l : list slot) : fdset := mkset l (size s) (ker s) (closed s).
(** Storing to one index of the arrays *)
Fixpoint put {A} (i : nat) (v : A) (l : list A) : list A :=
  match l, i with [], _ => [] | _ :: l, O => v :: l | x :: l, S i => x :: put i v l end.

(** src/knot/common/fdset.c:49-75 *)
Definition fdset_init (n : nat) : fdset := mkset [] n [] [].

(** src/knot/common/fdset.c:96-133; [mem] tells whether the allocation succeeds, [room] whether the kernel has room.
    What fdset_resize (33-47) leaves when it fails is not observable. *)
Definition fdset_add (s : fdset) (fd ev ctx : Z) (mem room : bool) : Z * fdset :=
  if fd <? 0 then (KNOT_EINVAL, s)
  else if (count s =? size s)%nat && negb mem then (KNOT_ENOMEM, s)
  else
    let size' := if (count s =? size s)%nat then (size s + FDSET_RESIZE_STEP)%nat else size s in
    let idx := count s in
    let l := slots s ++ [mkslot fd ev ctx 0 0] in
    let '(ret, k) := k_add (ker s) fd idx ev room in
    if ret =? KNOT_EOK then (Z.of_nat idx, mkset l size' k (closed s))
    else (ret, mkset l size' k (closed s)).

(** src/knot/common/fdset.c:135-195 *)
Definition fdset_remove (s : fdset) (idx : nat) : Z * fdset :=
  match nth_error (slots s) idx with
  | None => (KNOT_EINVAL, s)
  | Some x =>
      let '(ret, k) := k_del (ker s) (s_fd x) in
      let cl := closed s ++ [s_fd x] in
      if negb (ret =? KNOT_EOK) then (ret, mkset (slots s) (size s) k cl)
      else
        let last := (count s - 1)%nat in
        if (idx <? last)%nat then
          match nth_error (slots s) last with
          | None => (KNOT_EINVAL, s)                                   (* not reached *)
          | Some y =>
              let l := put idx y (firstn last (slots s)) in
              let '(ret, k) := k_mod k (s_fd y) idx (s_events y) in
              (ret, mkset l (size s) k cl)
          end
        else (KNOT_EOK, mkset (firstn last (slots s)) (size s) k cl)
  end.

(** src/knot/common/fdset.c:302-319 *)
Definition fdset_set_watchdog (s : fdset) (idx : nat) (interval now : Z) : Z * fdset :=
  match nth_error (slots s) idx with
  | None => (KNOT_EINVAL, s)
  | Some x =>
      let t := if interval <? 0 then 0 else now + interval in
      (KNOT_EOK, with_slots s (put idx (mkslot (s_fd x) (s_events x) (s_ctx x) (s_ctx2 x) t) (slots s)))
  end.

(** src/knot/common/fdset.h:277-282: a store through fdset_ctx2; an index that is not there fails the assertion *)
Definition fdset_set_ctx2 (s : fdset) (idx : nat) (v : Z) : res fdset :=
  match nth_error (slots s) idx with
  | None => UB
  | Some x => Ok (with_slots s (put idx (mkslot (s_fd x) (s_events x) (s_ctx x) v (s_timeout x)) (slots s)))
  end.

(** src/knot/common/fdset.c:321-340; the callback sees the index and decides by the descriptor. The calls are listed. *)
Fixpoint sweep_loop (fuel : nat) (now : Z) (cb : Z -> bool) (s : fdset) (idx : nat) (calls : list Z)
  : res (fdset * list Z) :=
  match fuel with
  | O => OOF
  | S fuel =>
      match nth_error (slots s) idx with
      | None => Ok (s, calls)
      | Some x =>
          if (s_timeout x >? 0) && (s_timeout x <=? now) then
            if cb (s_fd x) then sweep_loop fuel now cb (snd (fdset_remove s idx)) idx (calls ++ [s_fd x])
            else sweep_loop fuel now cb s (S idx) (calls ++ [s_fd x])
          else sweep_loop fuel now cb s (S idx) calls
      end
  end.
Definition fdset_sweep (now : Z) (cb : Z -> bool) (s : fdset) : res (fdset * list Z) :=
  sweep_loop (S (count s)) now cb s 0 [].

(** src/knot/common/fdset.h:66-78: the events not processed yet (data.u64 and what happened), the offset, the number of
    entries to be removed *)
Record iter := mkiter { i_pending : list (nat * Z); i_offset : nat; i_dirty : nat }.
(** epoll_wait(2): what is reported for descriptors that are ready *)
Definition report (k : kern) (ready : list (Z * Z)) : list (nat * Z) :=
  flat_map (fun p => match kget k (fst p) with Some (i, _) => [(i, snd p)] | None => [] end) ready.
(** src/knot/common/fdset.c:249-252 and fdset.h:294-297: events below the offset are skipped *)
Fixpoint skip (offset : nat) (l : list (nat * Z)) : list (nat * Z) :=
  match l with [] => [] | (i, r) :: t => if (i <? offset)%nat then skip offset t else l end.
(** src/knot/common/fdset.c:197-269 *)
Definition fdset_poll (s : fdset) (offset : nat) (ready : list (Z * Z)) : iter :=
  mkiter (skip offset (report (ker s) ready)) offset 0.
(** src/knot/common/fdset.h:289-303 *)
Definition it_next (it : iter) : iter := mkiter (skip (i_offset it) (tl (i_pending it))) (i_offset it) (i_dirty it).
(** src/knot/common/fdset.h:312-319 *)
Definition it_remove (s : fdset) (it : iter) (idx : nat) : res (fdset * iter) :=
  match nth_error (slots s) idx with
  | None => UB
  | Some x => Ok (with_slots s (put idx (mkslot (s_fd x) FDSET_REMOVE_FLAG (s_ctx x) (s_ctx2 x) (s_timeout x)) (slots s)),
                  mkiter (i_pending it) (i_offset it) (S (i_dirty it)))
  end.
(** src/knot/common/fdset.c:271-300; [i] is one more than the index of the code *)
Fixpoint commit_loop (i : nat) (s : fdset) (dirty : nat) : res (fdset * nat) :=
  match i with
  | O => Ok (s, dirty)
  | S j =>
      if (dirty =? 0)%nat then Ok (s, dirty)
      else match nth_error (slots s) j with
           | None => UB
           | Some x => if s_events x =? FDSET_REMOVE_FLAG then commit_loop j (snd (fdset_remove s j)) (dirty - 1)
                       else commit_loop j s dirty
           end
  end.
Definition it_commit (s : fdset) (it : iter) : res fdset :=
  let* (s, dirty) := commit_loop (count s) s (i_dirty it) in
  if (dirty =? 0)%nat then Ok s else UB.

(** What the server learns from the iterator about an event: fdset_it_get_idx, fdset_it_get_fd, fdset_it_get_ctx,
    fdset_ctx2 and the events (fdset.h:226-282, 343-390) *)
Record delivery := mkdel { d_idx : nat; d_fd : Z; d_ctx : Z; d_ctx2 : Z; d_events : Z }.
(** What the server does on an event before it decides to close the descriptor (tcp-handler.c:229-308): set the limit,
    set the second context, or accept a connection, with its limit *)
Inductive act :=
| AWatch (interval : Z)
| ACtx2 (v : Z)
| AAdd (fd ev ctx interval : Z) (mem room : bool).
Definition handler : Type := delivery -> list act * bool.
Definition do_act (now : Z) (idx : nat) (s : fdset) (a : act) : res fdset :=
  match a with
  | AWatch interval => Ok (snd (fdset_set_watchdog s idx interval now))
  | ACtx2 v => fdset_set_ctx2 s idx v
  | AAdd fd ev ctx interval mem room =>
      let '(ret, s) := fdset_add s fd ev ctx mem room in
      if ret <? 0 then Ok s else Ok (snd (fdset_set_watchdog s (Z.to_nat ret) interval now))
  end.
Fixpoint do_acts (now : Z) (idx : nat) (s : fdset) (l : list act) : res fdset :=
  match l with [] => Ok s | a :: l => let* s := do_act now idx s a in do_acts now idx s l end.
(** src/knot/server/tcp-handler.c:328-355 *)
Fixpoint serve (fuel : nat) (now : Z) (h : handler) (s : fdset) (it : iter) (tr : list delivery)
  : res (fdset * iter * list delivery) :=
  match fuel with
  | O => OOF
  | S fuel =>
      match i_pending it with
      | [] => Ok (s, it, tr)
      | (i, r) :: _ =>
          match nth_error (slots s) i with
          | None => UB
          | Some x =>
              let d := mkdel i (s_fd x) (s_ctx x) (s_ctx2 x) r in
              let* s := do_acts now i s (fst (h d)) in
              let* (s, it) := (if snd (h d) then it_remove s it i else Ok (s, it)) in
              serve fuel now h s (it_next it) (tr ++ [d])
          end
      end
  end.
(** src/knot/server/tcp-handler.c:310-357: one round, with the descriptors that are ready *)
Definition round (now : Z) (offset : nat) (ready : list (Z * Z)) (h : handler) (s : fdset)
  : res (fdset * list delivery) :=
  let it := fdset_poll s offset ready in
  let* (s, it, tr) := serve (S (length (i_pending it))) now h s it [] in
  let* s := it_commit s it in
  Ok (s, tr).

(** The operations of a user of the set *)
Inductive op :=
| OAdd (fd ev ctx : Z) (mem room : bool)
| ORemove (idx : nat)
| OWatch (idx : nat) (interval now : Z)
| OCtx2 (idx : nat) (v : Z)
| OSweep (now : Z) (cb : Z -> bool)
| ORound (now : Z) (offset : nat) (ready : list (Z * Z)) (h : handler).
(** What an operation shows: a code, the calls of the callback, the events *)
Inductive seen := SCode (ret : Z) | SCalls (l : list Z) | SEvents (l : list delivery).
Definition step (o : op) (s : fdset) : res (fdset * seen) :=
  match o with
  | OAdd fd ev ctx mem room => let '(r, s) := fdset_add s fd ev ctx mem room in Ok (s, SCode r)
  | ORemove idx => let '(r, s) := fdset_remove s idx in Ok (s, SCode r)
  | OWatch idx interval now => let '(r, s) := fdset_set_watchdog s idx interval now in Ok (s, SCode r)
  | OCtx2 idx v => let* s := fdset_set_ctx2 s idx v in Ok (s, SCode KNOT_EOK)
  | OSweep now cb => let* (s, l) := fdset_sweep now cb s in Ok (s, SCalls l)
  | ORound now offset ready h => let* (s, l) := round now offset ready h s in Ok (s, SEvents l)
  end.
