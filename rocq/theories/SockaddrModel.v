(** Socket addresses: src/contrib/sockaddr.c. Addresses are their bytes in network order; the host is
    little-endian (as x86-64 and usual ARM), so reading s_addr or sin_port as an integer reverses them. *)
From Verif Require Import Base WireModel DnameModel.

(** The families; a path is the string before its first zero. *)
Inductive sockaddr : Type :=
| SUnspec
| SIn4 (a : list Z) (port : list Z)
| SIn6 (a : list Z) (port : list Z)
| SUnix (path : list Z)
| SOther (family : Z).
(** AF_UNSPEC, AF_INET, AF_INET6, AF_UNIX of Linux *)
Definition ss_family (s : sockaddr) : Z :=
  match s with SUnspec => 0 | SIn4 _ _ => 2 | SIn6 _ _ => 10 | SUnix _ => 1 | SOther f => f end.

(** an integer read from memory by a little-endian host *)
Definition host_int (l : list Z) : Z := unbe (rev l).

(** memcmp and strncmp over a common length: the difference of the first differing bytes *)
Fixpoint memcmp (a b : list Z) : Z :=
  match a, b with
  | x :: a, y :: b => if x =? y then memcmp a b else x - y
  | _, _ => 0
  end.

(** src/contrib/sockaddr.c:50-61 *)
Definition cmp_ipv4 (a pa b pb : list Z) (ignore_port : bool) : Z :=
  if host_int a <? host_int b then -1 else
  if host_int a >? host_int b then 1 else
  if ignore_port then 0 else host_int pa - host_int pb.
(** src/contrib/sockaddr.c:63-72 *)
Definition cmp_ipv6 (a pa b pb : list Z) (ignore_port : bool) : Z :=
  let ret := memcmp a b in
  if ret =? 0 then (if ignore_port then 0 else host_int pa - host_int pb) else ret.
(** src/contrib/sockaddr.c:74-86 *)
Definition cmp_unix (a b : list Z) : Z :=
  let len_min := if zlen a <=? zlen b then zlen a else zlen b in
  let ret := memcmp (zfirstn len_min a) (zfirstn len_min b) in
  if ret =? 0 then zlen a - zlen b else ret.
(** src/contrib/sockaddr.c:88-112 *)
Definition sockaddr_cmp (a b : sockaddr) (ignore_port : bool) : Z :=
  if negb (ss_family a =? ss_family b) then ss_family a - ss_family b else
  match a, b with
  | SUnspec, _ => 0
  | SIn4 x px, SIn4 y py => cmp_ipv4 x px y py ignore_port
  | SIn6 x px, SIn6 y py => cmp_ipv6 x px y py ignore_port
  | SUnix x, SUnix y => cmp_unix x y
  | _, _ => 1
  end.

(** src/contrib/sockaddr.c:150-171; [None] is NULL *)
Definition sockaddr_raw (s : sockaddr) : option (list Z) :=
  match s with
  | SIn4 a _ | SIn6 a _ => Some a
  | SUnix p => Some (p ++ [0])
  | _ => None
  end.
(** src/contrib/sockaddr.c:307-322 *)
Definition sockaddr_is_any (s : sockaddr) : bool :=
  match s with
  | SIn4 a _ => host_int a =? 0
  | SIn6 a _ => memcmp a (repeat 0 16) =? 0
  | _ => false
  end.

(** src/contrib/sockaddr.c:324-362. Families without raw addresses compare nothing, so they match. *)
Definition sockaddr_net_match (s1 s2 : sockaddr) (prefix : Z) : res bool :=
  if negb (ss_family s1 =? ss_family s2) then Ok false else
  match s1, s2 with
  | SUnix p1, SUnix p2 => Ok (bytes_eqb p1 p2)
  | _, _ =>
    let raw1 := match sockaddr_raw s1 with Some r => r | None => [] end in
    let raw2 := match sockaddr_raw s2 with Some r => r | None => [] end in
    let prefix := Z.min prefix (zlen raw2 * 8) in
    let bytes := prefix / 8 in
    let bits := prefix mod 8 in
    let* m1 := mem_read raw1 0 bytes in
    let* m2 := mem_read raw2 0 bytes in
    if negb (memcmp m1 m2 =? 0) then Ok false else
    if bits =? 0 then Ok true else
    let* x := mem_read raw1 bytes 1 in
    let* y := mem_read raw2 bytes 1 in
    Ok (Z.shiftr (unbe x) (8 - bits) =? Z.shiftr (unbe y) (8 - bits))
  end.

(** src/contrib/sockaddr.c:364-380 *)
Definition sockaddr_range_match (s mn mx : sockaddr) : bool :=
  if negb (ss_family mn =? ss_family mx) || negb (ss_family mn =? ss_family s) || (ss_family s =? 1) then false
  else (sockaddr_cmp s mn true >=? 0) && (sockaddr_cmp s mx true <=? 0).
