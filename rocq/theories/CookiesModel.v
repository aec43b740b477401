(** DNS cookies: src/libknot/cookies.c. SipHash is a parameter: key and message to the eight bytes in memory. A
    cookie is the list of its bytes. *)
From Verif Require Import Base WireModel SockaddrModel.

(** src/libknot/cookies.h:31-40; [None] is NULL *)
Record cparams : Type := mkcp { cp_version : Z; cp_time : Z; cp_before : Z; cp_after : Z; cp_client : option sockaddr; cp_server : option sockaddr; cp_secret : list Z }.
Definition hash_fn : Type := list Z -> list Z -> list Z.

(** src/contrib/string.c:57-66 *)
Fixpoint const_time_memcmp (a b : list Z) (equal : Z) : Z :=
  match a, b with
  | x :: a, y :: b => const_time_memcmp a b (Z.lor equal (Z.lxor x y))
  | _, _ => equal
  end.

(** src/libknot/cookies.c:27-49 *)
Definition client_generate (sip : hash_fn) (p : cparams) : res (list Z) :=
  match cp_server p with
  | None => Err KNOT_EINVAL
  | Some a => match sockaddr_raw a with None => UB | Some raw => Ok (sip (cp_secret p) raw) end
  end.
(** src/libknot/cookies.c:51-72 *)
Definition client_check (sip : hash_fn) (p : cparams) (cc : list Z) : res Z :=
  if negb (zlen cc =? 8) then Err KNOT_EINVAL else
  let* ref := client_generate sip p in
  if negb (const_time_memcmp cc ref 0 =? 0) then Err KNOT_EINVAL else Ok KNOT_EOK.
(** src/libknot/cookies.c:74-106; [out] is the fixed part *)
Definition server_generate0 (sip : hash_fn) (p : cparams) (out cc : list Z) : res (list Z) :=
  match cp_client p with
  | None => Err KNOT_EINVAL
  | Some a =>
    if negb (zlen cc =? 8) then Err KNOT_EINVAL else
    let* v := mem_read out 0 1 in
    if negb (unbe v =? 1) then Err KNOT_ENOTSUP else
    match sockaddr_raw a with None => UB | Some raw => Ok (out ++ sip (cp_secret p) (cc ++ out ++ raw)) end
  end.
(** src/libknot/cookies.c:108-128 *)
Definition server_generate (sip : hash_fn) (p : cparams) (cc : list Z) : res (list Z) :=
  server_generate0 sip p ([cp_version p; 0; 0; 0] ++ be 4 (cp_time p)) cc.
(** src/libknot/cookies.c:130-171 *)
Definition server_check (sip : hash_fn) (p : cparams) (sc cc : list Z) : res Z :=
  if zlen sc <? 8 then Err KNOT_EINVAL else
  let* t := mem_read sc 4 4 in
  let cookie_time := unbe t in
  let min_time := u32 (cp_time p - cp_before p) in
  let max_time := u32 (cp_time p + cp_after p) in
  if (cookie_time <? min_time) || (cookie_time >? max_time) then Err KNOT_ERANGE else
  let* fixed := mem_read sc 0 8 in
  let* ref := server_generate0 sip p fixed cc in
  if negb (zlen sc =? zlen ref) then Err KNOT_EINVAL else
  let* a := mem_read sc 8 (zlen sc - 8) in
  let* b := mem_read ref 8 (zlen sc - 8) in
  if negb (const_time_memcmp a b 0 =? 0) then Err KNOT_EINVAL else Ok KNOT_EOK.
