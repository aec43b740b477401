(** Pool of reusable connections: src/contrib/conn_pool.c. The mutex makes each critical section atomic, so a
    run of several threads is a sequence of the functions below; the array is a list of slots. *)
From Verif Require Import Base SockaddrModel.

(** src/contrib/conn_pool.h:31-47 *)
Record memb : Type := mkmemb { m_src : sockaddr; m_dst : sockaddr; m_fd : Z; m_la : Z }.
Record pool : Type := mkpool { p_usage : Z; p_timeout : Z; p_conns : list memb }.
Definition memb0 : memb := mkmemb SUnspec SUnspec 0 0.
(** src/contrib/conn_pool.c:32 *)
Definition FD_INVALID : Z := -1.

(** src/contrib/time.h:87-90; zero is infinity *)
Definition time_cmp (a b : Z) : Z :=
  (if a =? b then 0 else 1) * (if negb (a =? 0) && negb (b =? 0) then 1 else -1) * (if a <? b then -1 else 1).

(** src/contrib/conn_pool.c:161-170; the descriptor, the cleared slot and the usage *)
Definition pool_pop (m : memb) (usage : Z) : res (Z * memb * Z) :=
  if m_la m =? 0 then UB else if usage <=? 0 then UB else Ok (m_fd m, memb0, usage - 1).
(** src/contrib/conn_pool.c:202-215; [now] is the clock *)
Definition pool_push (m : memb) (usage capacity : Z) (src dst : sockaddr) (fd now : Z) : res (memb * Z) :=
  if negb (m_la m =? 0) then UB else if usage >=? capacity then UB else Ok (mkmemb src dst fd now, usage + 1).

(** src/contrib/conn_pool.c:47-69: the loop over the slots from the current one on; new slots, usage,
    descriptor and the next oldest time *)
Fixpoint get_old_loop (l : list memb) (usage older_than fd next : Z) : res (list memb * Z * Z * Z) :=
  match l with
  | [] => Ok ([], usage, fd, next)
  | m :: l =>
    let la := m_la m in
    if (fd =? FD_INVALID) && (time_cmp la older_than <? 0) then
      let* (fd, m, usage) := pool_pop m usage in
      let* (l, usage, fd, next) := get_old_loop l usage older_than fd next in
      Ok (m :: l, usage, fd, next)
    else
      let next := if time_cmp la next <? 0 then la else next in
      let* (l, usage, fd, next) := get_old_loop l usage older_than fd next in
      Ok (m :: l, usage, fd, next)
  end.
Definition get_old (p : pool) (older_than : Z) : res (Z * Z * pool) :=
  let* (l, usage, fd, next) := get_old_loop (p_conns p) (p_usage p) older_than FD_INVALID 0 in
  Ok (fd, next, mkpool usage (p_timeout p) l).

(** src/contrib/conn_pool.c:71-97: one round of the closing thread; the closed descriptors, the pool and the
    time to sleep *)
Fixpoint closing_loop (fuel : nat) (p : pool) (older_than : Z) : res (list Z * Z * pool) :=
  match fuel with
  | O => OOF
  | S fuel =>
    let* (fd, next, p) := get_old p older_than in
    if negb (fd =? FD_INVALID) then
      let* (fds, next, p) := closing_loop fuel p older_than in Ok (fd :: fds, next, p)
    else Ok ([], next, p)
  end.
Definition closing_round (fuel : nat) (p : pool) (now : Z) : res (list Z * Z * pool) :=
  let timeout := p_timeout p in
  if timeout =? 0 then UB else
  let* (fds, next, p) := closing_loop fuel p (u64 (now - timeout + 1)) in
  Ok (fds, (if next =? 0 then timeout else u64 (next + timeout - now)), p).

(** src/contrib/conn_pool.c:99-124; memory and threads are available *)
Definition pool_init (capacity timeout : Z) : option pool :=
  if (capacity =? 0) || (timeout =? 0) then None
  else Some (mkpool 0 timeout (repeat memb0 (Z.to_nat capacity))).
(** src/contrib/conn_pool.c:126-141; the closed descriptors *)
Definition pool_deinit (fuel : nat) (p : pool) : res (list Z * pool) :=
  let* (fds, _, p) := closing_loop fuel p 0 in Ok (fds, p).
(** src/contrib/conn_pool.c:143-159 *)
Definition pool_timeout (p : pool) (new_timeout : Z) : Z * pool :=
  (p_timeout p, if negb (new_timeout =? 0) then mkpool (p_usage p) new_timeout (p_conns p) else p).

(** src/contrib/conn_pool.c:183-190 *)
Fixpoint get_loop (l : list memb) (usage : Z) (src dst : sockaddr) : res (Z * list memb * Z) :=
  match l with
  | [] => Ok (FD_INVALID, [], usage)
  | m :: l =>
    if negb (m_la m =? 0) && (sockaddr_cmp (m_dst m) dst false =? 0) && (sockaddr_cmp (m_src m) src true =? 0) then
      let* (fd, m, usage) := pool_pop m usage in Ok (fd, m :: l, usage)
    else
      let* (fd, l, usage) := get_loop l usage src dst in Ok (fd, m :: l, usage)
  end.
(** src/contrib/conn_pool.c:172-200; the result, the descriptors closed, the pool; [invalid] is the callback *)
Definition pool_get (p : pool) (src dst : sockaddr) (invalid : Z -> bool) : res (Z * list Z * pool) :=
  let* (fd, l, usage) := get_loop (p_conns p) (p_usage p) src dst in
  let p := mkpool usage (p_timeout p) l in
  if negb (fd =? FD_INVALID) && invalid fd then Ok (FD_INVALID, [fd], p) else Ok (fd, [], p).

(** src/contrib/conn_pool.c:231-241: index of a free slot ([true]), or of the oldest one *)
Fixpoint put_loop (l : list memb) (i oldest_time oldest_i : Z) : bool * Z :=
  match l with
  | [] => (false, oldest_i)
  | m :: l =>
    let la := m_la m in
    if la =? 0 then (true, i)
    else if time_cmp la oldest_time <? 0 then put_loop l (i + 1) la i
    else put_loop l (i + 1) oldest_time oldest_i
  end.
(** src/contrib/conn_pool.c:217-248 *)
Definition pool_put (p : pool) (src dst : sockaddr) (fd now : Z) : res (Z * pool) :=
  let capacity := zlen (p_conns p) in
  if capacity =? 0 then Ok (fd, p) else
  let (free, i) := put_loop (p_conns p) 0 0 capacity in
  match zget (p_conns p) i with
  | None => UB
  | Some m =>
    if free then
      let* (m, usage) := pool_push m (p_usage p) capacity src dst fd now in
      Ok (FD_INVALID, mkpool usage (p_timeout p) (zset (p_conns p) i m))
    else
      let* (old, m, usage) := pool_pop m (p_usage p) in
      let* (m, usage) := pool_push m usage capacity src dst fd now in
      Ok (old, mkpool usage (p_timeout p) (zset (p_conns p) i m))
  end.
