(** Memory of unreachable remotes: src/knot/common/unreachable.c. The mutex makes each call atomic. *)
From Verif Require Import Base SockaddrModel.

(** src/knot/common/unreachable.h:26-37 *)
Record ur : Type := mkur { ur_addr : sockaddr; ur_via : sockaddr; ur_time : Z }.
Record urs : Type := mkurs { us_ttl : Z; us_list : list ur }.

(** src/knot/common/unreachable.c:25-32; [t] is the monotonic clock in milliseconds *)
Definition get_timestamp (t : Z) : Z := u32 t.

(** src/knot/common/unreachable.c:34-43 *)
Definition unreachables_init (ttl_ms : Z) : urs := mkurs ttl_ms [].

(** src/knot/common/unreachable.c:45-59 *)
Definition unreachables_ttl (s : urs) (new_ttl_ms : Z) : Z * urs := (us_ttl s, mkurs new_ttl_ms (us_list s)).

(** src/knot/common/unreachable.c:74-82; true: the entry is removed *)
Definition clear_old (u : ur) (now ttl_ms : Z) : bool := negb (ur_time u =? 0) && (u32 (now - ur_time u) >? ttl_ms).

(** src/knot/common/unreachable.c:85-106; the entry found and the remaining list *)
Fixpoint get_ur (l : list ur) (now ttl_ms : Z) (addr via : sockaddr) : option ur * list ur :=
  match l with
  | [] => (None, [])
  | u :: l =>
    if clear_old u now ttl_ms then get_ur l now ttl_ms addr via else
    if (sockaddr_cmp (ur_addr u) addr false =? 0) && (sockaddr_cmp (ur_via u) via true =? 0) then (Some u, u :: l)
    else let (r, l) := get_ur l now ttl_ms addr via in (r, u :: l)
  end.

(** src/knot/common/unreachable.c:108-125 *)
Definition unreachable_is (s : urs) (t : Z) (addr via : sockaddr) : bool * urs :=
  let (r, l) := get_ur (us_list s) (get_timestamp t) (us_ttl s) addr via in
  (match r with Some _ => true | None => false end, mkurs (us_ttl s) l).

(** src/knot/common/unreachable.c:127-149; [alloc]: the allocation succeeds *)
Definition unreachable_add (s : urs) (t : Z) (alloc : bool) (addr via : sockaddr) : urs :=
  if alloc then mkurs (us_ttl s) (mkur addr via (get_timestamp t) :: us_list s) else s.
