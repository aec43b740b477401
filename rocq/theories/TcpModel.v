(** DNS messages over TCP in user space and over QUIC: src/libknot/xdp/tcp_iobuf.c, the buffers of incoming and
    outgoing data, with their use in src/libknot/xdp/tcp.c.

    Simplifications. Octets are integers. A block of memory is the list of its octets in use and its allocated
    size. Messages that the result points to are lists; where they lie does not matter, but copies must fit the
    allocation. Closing handshakes, timers and the table of connections are left out. *)
From Verif Require Import Base SerialModel KeyModel.

Definition len (l : list Z) : Z := Z.of_nat (length l).
(** struct iovec of a connection's input: the octets, iov_len is their number, and the allocated size; 0 means NULL *)
Record inbuf := mkib { ib_bytes : list Z; ib_cap : Z }.
Definition ib_empty : inbuf := mkib [] 0.

(** tcp_iobuf.c:35-40 iov_inc *)
Definition iov_inc (l : list Z) (shift : Z) : res (list Z) :=
  if shift <=? len l then Ok (skipn (Z.to_nat shift) l) else UB.
(** tcp_iobuf.c:42-48 tcp_payload_len *)
Definition tcp_payload_len (l : list Z) : Z := match l with a :: b :: _ => a * 256 + b | _ => 0 end.
(** tcp_iobuf.c:69-83 buffer_alloc_size *)
Definition smear (x : Z) (s : Z) : Z := Z.lor x (Z.shiftr x s).
Definition buffer_alloc_size (n : Z) : Z :=
  if n =? 0 then 0
  else w64 (smear (smear (smear (smear (smear (smear (Z.lor (n - 1) 63) 1) 2) 4) 8) 16) 32 + 1).

(** tcp_iobuf.c:128-142 the loop that counts the whole messages: their number and size, and the rest *)
Fixpoint count_loop (fuel : nat) (d : list Z) (cnt bytesize : Z) : res (Z * Z * list Z) :=
  match fuel with
  | O => OOF
  | S fuel =>
    if (len d >=? 2) && (tcp_payload_len d <=? len d - 2) then
      let* d' := iov_inc d (tcp_payload_len d + 2) in
      count_loop fuel d' (cnt + 1) (bytesize + tcp_payload_len d)
    else Ok (cnt, bytesize, d)
  end.
(** tcp_iobuf.c:50-55 iov_append into the allocated result: [room] octets are left *)
Definition copy_out (room : Z) (m : list Z) : res Z := if len m <=? room then Ok (room - len m) else UB.
(** tcp_iobuf.c:174-191 the loops that take the whole messages *)
Fixpoint take_loop (alloc_bufs : bool) (cnt : nat) (d : list Z) (room : Z) (msgs : list (list Z)) : res (list (list Z) * list Z) :=
  match cnt with
  | O => Ok (msgs, d)
  | S cnt =>
    let n := tcp_payload_len d in
    let* d := iov_inc d 2 in
    let* rest := iov_inc d n in
    let m := firstn (Z.to_nat n) d in
    let* room := if alloc_bufs then copy_out room m else Ok room in
    take_loop alloc_bufs cnt rest room (msgs ++ [m])
  end.
(** Memory of the buffer is read: it must be there *)
Definition readable (b : inbuf) : bool := len (ib_bytes b) <=? ib_cap b.
(** tcp_iobuf.c:85-215 knot_tcp_inbufs_upd; [al1] and [al2] tell if malloc and realloc succeed.
    The result is the code, the buffer, the new messages and buffers_total. *)
Definition knot_tcp_inbufs_upd (al1 al2 alloc_bufs : bool) (b : inbuf) (data : list Z) (total : Z) : res (Z * inbuf * list (list Z) * Z) :=
  match data with
  | [] => Ok (KNOT_EOK, b, [], total)
  | d0 :: rest =>
    (* finalize size bytes, lines 96-105 *)
    let* (b, data) :=
      (if len (ib_bytes b) =? 1 then
         if (ib_cap b >=? 2) then Ok (mkib (ib_bytes b ++ [d0]) (ib_cap b), rest) else UB
       else Ok (b, data)) in
    match data with
    | [] => Ok (KNOT_EOK, b, [], total)
    | _ =>
      if negb (readable b) then UB
      else
      let bl := len (ib_bytes b) in
      let message_len := tcp_payload_len (ib_bytes b) in
      let data_offset := w64 (message_len - (bl - 2)) in
      (* count, lines 113-143 *)
      let* (cnt, bytesize, _) :=
        (if bl >=? 2 then
           if len data >=? data_offset then
             let* du := iov_inc data data_offset in count_loop (S (length data)) du 1 message_len
           else Ok (0, 0, data)
         else count_loop (S (length data)) data 0 0) in
      let bytesize := if alloc_bufs then bytesize else if bl >=? 2 then message_len else 0 in
      if (cnt >? 0) && negb al1 then Ok (KNOT_ENOMEM, b, [], total)
      else
      (* copy, lines 145-192 *)
      let* (b, msgs, data, total) :=
        (if cnt >? 0 then
           let* (b', first, data', room, total') :=
             (if bl >=? 2 then
                let m := skipn 2 (ib_bytes b) ++ firstn (Z.to_nat data_offset) data in
                let* room := copy_out bytesize m in
                let* data' := iov_inc data data_offset in
                Ok (ib_empty, [m], data', room, w64 (total - buffer_alloc_size bl))
              else Ok (b, [], data, bytesize, total)) in
           let* (msgs, data') := take_loop alloc_bufs (Z.to_nat cnt - length first) data' room first in
           Ok (b', msgs, data', total')
         else Ok (b, [], data, total)) in
      (* the incomplete rest, lines 194-210 *)
      match data with
      | [] => Ok (KNOT_EOK, b, msgs, total)
      | _ =>
        let bl := len (ib_bytes b) in
        let original := buffer_alloc_size bl in
        let bufalloc := buffer_alloc_size (bl + len data) in
        if original <? bufalloc then
          if negb al2 then Ok (KNOT_ENOMEM, mkib (ib_bytes b) 0, [], total)
          else let total := w64 (total + (bufalloc - original)) in
               if bl + len data <=? bufalloc then Ok (KNOT_EOK, mkib (ib_bytes b ++ data) bufalloc, msgs, total) else UB
        else if bl + len data <=? ib_cap b then Ok (KNOT_EOK, mkib (ib_bytes b ++ data) (ib_cap b), msgs, total) else UB
      end
    end
  end.

(** Receiving segments one after another: all messages, the buffer and the total *)
Fixpoint receive (al : nat -> bool * bool) (alloc_bufs : bool) (b : inbuf) (total : Z) (segs : list (list Z)) (msgs : list (list Z)) : res (Z * inbuf * list (list Z) * Z) :=
  match segs with
  | [] => Ok (KNOT_EOK, b, msgs, total)
  | s :: segs =>
    let* (code, b, m, total) := knot_tcp_inbufs_upd (fst (al (length segs))) (snd (al (length segs))) alloc_bufs b s total in
    if code =? KNOT_EOK then receive al alloc_bufs b total segs (msgs ++ m) else Ok (code, b, msgs ++ m, total)
  end.

(** *** Outgoing data *)
(** tcp_iobuf.h:31-37 knot_tcp_outbuf_t *)
Record obuf := mkob { o_bytes : list Z; o_seq : Z; o_sent : bool }.
Definition OBUF_SIZE : Z := 24.
(** tcp_iobuf.c:217-252 knot_tcp_outbufs_add, the loop; [al] tells which allocations succeed, [pre] is the prefix *)
Fixpoint add_loop (fuel : nat) (al : nat -> bool) (mss : Z) (pre data : list Z) (acc : list obuf) (total : Z) : res (Z * list obuf * Z) :=
  match fuel with
  | O => OOF
  | S fuel =>
    match data with
    | [] => Ok (KNOT_EOK, acc, total)
    | _ =>
      let newlen := u16 (Z.min (len data + len pre) mss) in
      if negb (al fuel) then Ok (KNOT_ENOMEM, acc, total)
      else let n := newlen - len pre in
           if (n <? 0) || (len data <? n) then UB
           else add_loop fuel al mss [] (skipn (Z.to_nat n) data)
                         (acc ++ [mkob (pre ++ firstn (Z.to_nat n) data) 0 false]) (w64 (total + (OBUF_SIZE + newlen)))
    end
  end.
Definition knot_tcp_outbufs_add (al : nat -> bool) (bufs : list obuf) (data : list Z) (mss total : Z) : res (Z * list obuf * Z) :=
  if len data >? 65535 then Ok (KNOT_ELIMIT, bufs, total)
  else add_loop (length data + 3)%nat al mss [len data / 256; len data mod 256] data bufs total.
(** tcp_iobuf.c:254-261 seqno_lower *)
Definition seqno_lower (seqno ackno ackno_min : Z) : bool :=
  if ackno_min <=? ackno then (seqno >=? ackno_min) && (seqno <=? ackno) else (seqno >=? ackno_min) || (seqno <=? ackno).
(** tcp_iobuf.c:263-273 knot_tcp_outbufs_ack *)
Fixpoint ack_loop (bufs : list obuf) (ackno total : Z) : list obuf * Z :=
  match bufs with
  | [] => ([], total)
  | o :: rest =>
    if o_sent o && seqno_lower (w32 (o_seq o + len (o_bytes o))) ackno (w32 (ackno - 2147483647)) then
      ack_loop rest ackno (w64 (total - (len (o_bytes o) + OBUF_SIZE)))
    else (bufs, total)
  end.
(** tcp_iobuf.c:275-292 knot_tcp_outbufs_can_send: the buffers skipped, and the number to be sent after them *)
Fixpoint skip_sent (bufs : list obuf) (window : Z) (resend : bool) : list obuf * list obuf * Z :=
  match bufs with
  | o :: rest =>
    if o_sent o && negb resend then
      let '(s, r, w) := skip_sent rest (window - len (o_bytes o)) resend in (o :: s, r, w)
    else ([], bufs, window)
  | [] => ([], [], window)
  end.
Fixpoint count_send (bufs : list obuf) (window : Z) : nat :=
  match bufs with
  | o :: rest => if window >=? len (o_bytes o) then S (count_send rest (window - len (o_bytes o))) else O
  | [] => O
  end.
(** tcp_iobuf.c:294-302 knot_tcp_outbufs_usage *)
Definition knot_tcp_outbufs_usage (bufs : list obuf) : Z := fold_right (fun o a => len (o_bytes o) + OBUF_SIZE + a) 0 bufs.

(** tcp.h:68-90 knot_tcp_conn_t: the next sequence number of the server, what the client has confirmed, the output *)
Record conn := mkcn { cn_ackno : Z; cn_acked : Z; cn_out : list obuf }.
(** tcp.c:598-616 the loop of knot_tcp_send over the data: the buffers after it and the segments (sequence number, octets) *)
Fixpoint send_loop (cnt : nat) (bufs : list obuf) (ackno : Z) : list obuf * Z * list (Z * list Z) :=
  match cnt, bufs with
  | S cnt, o :: rest =>
    let seq := if o_sent o then o_seq o else ackno in
    let ackno' := if o_sent o then ackno else w32 (ackno + len (o_bytes o)) in
    let '(rest', a, segs) := send_loop cnt rest ackno' in
    (mkob (o_bytes o) seq true :: rest', a, (seq, o_bytes o) :: segs)
  | _, _ => (bufs, ackno, [])
  end.
(** tcp.c:592-616 knot_tcp_send, one connection, data only *)
Definition knot_tcp_send (c : conn) (window : Z) (resend : bool) : conn * list (Z * list Z) :=
  let '(skipped, start, w) := skip_sent (cn_out c) window resend in
  let '(bufs, ackno, segs) := send_loop (count_send start w) start (cn_ackno c) in
  (mkcn ackno (cn_acked c) (skipped ++ bufs), segs).
(** tcp.c:263-274 check_seq_ack, the part of the confirmation *)
Definition check_ack (c : conn) (ackno : Z) : bool :=
  if cn_acked c <=? cn_ackno c then (ackno >=? cn_acked c) && (ackno <=? cn_ackno c) else (ackno >=? cn_acked c) || (ackno <=? cn_ackno c).
(** tcp.c:310-323 knot_tcp_recv, the part of the confirmation *)
Definition knot_tcp_recv_ack (c : conn) (ackno total : Z) : conn * Z :=
  if check_ack c ackno then let (bufs, total) := ack_loop (cn_out c) ackno total in (mkcn (cn_ackno c) ackno bufs, total)
  else (c, total).
(** tcp.c:452-468 knot_tcp_reply_data *)
Definition knot_tcp_reply_data (al : nat -> bool) (c : conn) (data : list Z) (mss total : Z) : res (Z * conn * Z) :=
  let* (code, bufs, total) := knot_tcp_outbufs_add al (cn_out c) data mss total in
  Ok (code, mkcn (cn_ackno c) (cn_acked c) bufs, total).
(** What happens to a connection: replies, sending and confirmations. The trace has all segments sent. *)
Inductive event := Reply (data : list Z) | Send (window : Z) (resend : bool) | Confirm (ackno : Z).
Fixpoint play (mss : Z) (c : conn) (total : Z) (evs : list event) (trace : list (Z * list Z)) : res (conn * Z * list (Z * list Z)) :=
  match evs with
  | [] => Ok (c, total, trace)
  | Reply d :: evs => let* (_, c, total) := knot_tcp_reply_data (fun _ => true) c d mss total in play mss c total evs trace
  | Send w r :: evs => let (c, segs) := knot_tcp_send c w r in play mss c total evs (trace ++ segs)
  | Confirm a :: evs => let (c, total) := knot_tcp_recv_ack c a total in play mss c total evs trace
  end.
