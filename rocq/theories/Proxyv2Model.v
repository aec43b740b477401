(** PROXY protocol version 2: src/contrib/proxyv2/proxyv2.c and src/knot/server/proxyv2.c. *)
From Verif Require Import Base WireModel SockaddrModel.

(** src/contrib/proxyv2/proxyv2.c:34 *)
Definition PROXYV2_SIG : list Z := [13; 10; 13; 10; 0; 13; 10; 81; 85; 73; 84; 10].
Definition AF_INET : Z := 2.
Definition AF_INET6 : Z := 10.

(** src/contrib/proxyv2/proxyv2.c:108-151 *)
Definition header_offset (base : list Z) : res Z :=
  if zlen base <? 12 + 4 then Err KNOT_EMALF else
  let* sig := mem_read base 0 12 in
  if negb (memcmp sig PROXYV2_SIG =? 0) then Err KNOT_EMALF else
  let* ver_cmd := mem_read base 12 1 in
  if negb (unbe ver_cmd =? 33) then Err KNOT_EMALF else
  let* len := mem_read base 14 2 in
  let offset_dns := 12 + 4 + unbe len in
  if offset_dns <? zlen base then Ok offset_dns else Err KNOT_EMALF.

(** src/contrib/proxyv2/proxyv2.c:153-213; sockaddr_set_raw does not fail with these sizes *)
Definition addr_store (base : list Z) : res sockaddr :=
  let* fam := mem_read base 13 1 in
  if unbe fam =? 18 then
    if 16 + 12 <? zlen base then
      let* a := mem_read base 16 4 in
      let* p := mem_read base (16 + 8) 2 in Ok (SIn4 a p)
    else Err KNOT_EMALF
  else if unbe fam =? 34 then
    if 16 + 36 <? zlen base then
      let* a := mem_read base 16 16 in
      let* p := mem_read base (16 + 32) 2 in Ok (SIn6 a p)
    else Err KNOT_EMALF
  else Err KNOT_EMALF.

(** src/knot/server/proxyv2.c:22-67; [allowed] is the answer of the address list for the remote. The result is the
    decapsulated message and the address of the client; parsing the message is not part of this model *)
Definition header_strip (enabled allowed : bool) (base : list Z) : res (list Z * sockaddr) :=
  if negb enabled then Err KNOT_EDENIED else
  match header_offset base with
  | Ok offset =>
    if offset <=? 0 then Err KNOT_EMALF else
    if negb allowed then Err KNOT_EDENIED else
    let* a := addr_store base in
    let* q := mem_read base offset (zlen base - offset) in Ok (q, a)
  | Err _ => Err KNOT_EMALF
  | UB => UB
  | OOF => OOF
  end.

(** src/contrib/proxyv2/proxyv2.c:215-279; [dgram]: SOCK_DGRAM, otherwise SOCK_STREAM. Returns the length and the buffer. A
    destination of another family would be read as if it had the one of the source *)
Definition write_header (buf : list Z) (dgram : bool) (src dst : sockaddr) : res (Z * list Z) :=
  if zlen buf <? 52 then Err KNOT_EINVAL else
  let fam_addr := if dgram then 2 else 1 in
  match src with
  | SIn4 a p =>
    let* b := mem_write buf 0 PROXYV2_SIG in
    let* b := mem_write b 12 ([33; 16 + fam_addr] ++ be 2 12) in
    match dst with
    | SIn4 a2 p2 => let* b := mem_write b 16 (a ++ a2 ++ p ++ p2) in Ok (16 + 12, b)
    | _ => UB
    end
  | SIn6 a p =>
    let* b := mem_write buf 0 PROXYV2_SIG in
    let* b := mem_write b 12 ([33; 32 + fam_addr] ++ be 2 36) in
    match dst with
    | SIn6 a2 p2 => let* b := mem_write b 16 (a ++ a2 ++ p ++ p2) in Ok (16 + 36, b)
    | _ => UB
    end
  | _ => Err KNOT_EINVAL
  end.
