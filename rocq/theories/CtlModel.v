(** The control channel: src/libknot/control/control.c and the stream input/output of
    src/contrib/net.c.

    System calls take their results from a script, so that any behaviour of the socket is
    covered: how many bytes a call moves, interruptions, waiting, failures. Functions give back
    their C result (an error code or a count) together with the changed state in [Ok]; a script
    that has ended means that the call waits for ever ([blocked]). *)
From Verif Require Import Base WireModel.

(** result of sendmsg() or recvmsg(): up to [n] bytes moved (0 bytes is a closed connection),
    EINTR, an errno of io_should_wait() (net.c:479-494), any other errno *)
Inductive call : Type := Move (n : Z) | Intr | Again | Fail.
(** result of poll(): ready, errno of wait_should_retry() (net.c:501-508), timed out, other *)
Inductive poll : Type := Ready | Retry | Late | Broken.

Definition blocked {A} : res A := Err KNOT_EAGAIN.

(** the socket: results of the coming system calls, and the bytes under way to the receiver *)
Record sock : Type := mksock { s_calls : list call; s_polls : list poll; s_pipe : list Z }.

(** net.c:587-613, waiting for readiness; the timeout is a result of poll() *)
Fixpoint io_wait (ps : list poll) : res (Z * list poll) :=
  match ps with
  | [] => blocked
  | Ready :: ps => Ok (KNOT_EOK, ps)
  | Retry :: ps => io_wait ps
  | Late :: ps => Ok (KNOT_ETIMEOUT, ps)
  | Broken :: ps => Ok (KNOT_ECONN, ps)
  end.

(** net.c:569-621 for sending of one iovec: [d] is what remains of it after msg_iov_shift()
    (net.c:533-552), [total] its length at the beginning *)
Fixpoint io_send (cs : list call) (ps : list poll) (pipe d : list Z) (done total : Z)
  : res (Z * sock) :=
  match cs with
  | [] => blocked
  | Intr :: cs => io_send cs ps pipe d done total
  | Move n :: cs =>
    let ret := Z.min n (zlen d) in
    if ret <=? 0 then Ok (KNOT_ECONN, mksock cs ps pipe) else
    let pipe := pipe ++ zfirstn ret d in
    let done := done + ret in
    if done =? total then Ok (done, mksock cs ps pipe) else
    let d := zskipn ret d in
    let* (ret, ps) := io_wait ps in
    if ret =? KNOT_EOK then io_send cs ps pipe d done total else Ok (ret, mksock cs ps pipe)
  | Again :: cs =>
    let* (ret, ps) := io_wait ps in
    if ret =? KNOT_EOK then io_send cs ps pipe d done total else Ok (ret, mksock cs ps pipe)
  | Fail :: cs => Ok (KNOT_ECONN, mksock cs ps pipe)
  end.

(** net.c:569-621 for receiving at most [size] bytes, with "oneshot"; also gives the bytes *)
Fixpoint io_recv (cs : list call) (ps : list poll) (pipe : list Z) (size : Z)
  : res (Z * list Z * sock) :=
  match cs with
  | [] => blocked
  | Intr :: cs => io_recv cs ps pipe size
  | Move n :: cs =>
    let ret := Z.min n (Z.min size (zlen pipe)) in
    if ret <=? 0 then Ok (KNOT_ECONN, [], mksock cs ps pipe) else
    Ok (ret, zfirstn ret pipe, mksock cs ps (zskipn ret pipe))
  | Again :: cs =>
    let* (ret, ps) := io_wait ps in
    if ret =? KNOT_EOK then io_recv cs ps pipe size else Ok (ret, [], mksock cs ps pipe)
  | Fail :: cs => Ok (KNOT_ECONN, [], mksock cs ps pipe)
  end.

(** net.c:693-719, 773-776, the socket is open *)
Definition net_stream_send (s : sock) (d : list Z) : res (Z * sock) :=
  let* (ret, s) := io_send (s_calls s) (s_polls s) (s_pipe s) d 0 (zlen d) in
  if ret <? 0 then Ok (ret, s) else
  if negb (ret =? zlen d) then Ok (KNOT_ECONN, s) else Ok (ret, s).

(** net.c:721-740, 778-781 *)
Definition net_stream_recv (s : sock) (size : Z) : res (Z * list Z * sock) :=
  io_recv (s_calls s) (s_polls s) (s_pipe s) size.

(** control.h:46-51 *)
Definition CTL_END : Z := 0.
Definition CTL_DATA : Z := 1.
Definition CTL_EXTRA : Z := 2.
Definition CTL_BLOCK : Z := 3.
(** control.h:29-43 *)
Definition IDX_COUNT : Z := 12.

(** control.c:46 *)
Definition DATA_CODE_OFFSET : Z := 16.

(** control.c:73-82 *)
Definition type_to_code (t : Z) : Z :=
  if t =? CTL_END then 0 else if t =? CTL_DATA then 1 else if t =? CTL_EXTRA then 2 else
  if t =? CTL_BLOCK then 3 else -1.

(** control.c:84-93 *)
Definition code_to_type (c : Z) : Z :=
  if c =? 0 then CTL_END else if c =? 1 then CTL_DATA else if c =? 2 then CTL_EXTRA else
  if c =? 3 then CTL_BLOCK else -1.

(** control.c:95-104 *)
Definition is_data_type (t : Z) : bool := (t =? CTL_DATA) || (t =? CTL_EXTRA).

(** control.c:106-113 *)
Definition idx_to_code (i : Z) : Z := if i >=? IDX_COUNT then -1 else DATA_CODE_OFFSET + i.

(** control.c:115-123 *)
Definition code_to_idx (c : Z) : Z :=
  if (c <? DATA_CODE_OFFSET) || (c >=? DATA_CODE_OFFSET + IDX_COUNT) then -1
  else c - DATA_CODE_OFFSET.

(** the values of a unit, NULL is [None]; control.h:54 *)
Definition data : Type := list (option (list Z)).
Definition no_data : data := repeat None 12.

(** One direction of the context (control.c:49-71): the socket and the wire context over the
    buffer. The wire context over the input buffer holds its size (the bytes received so far);
    bytes of buff_in behind it are never read. *)
Record ctl : Type := mkctl { c_sock : sock; c_wire : wire }.

(** control.c:125-129; [bs] is CTL_BUFF_SIZE *)
Definition out_init (bs : Z) : wire := wire_init (zeros bs).
Definition in_init : wire := wire_init [].

(** control.c:336, 392: the buffer keeps its bytes *)
Definition rewind (w : wire) : wire := wire_init (w_buf w).

(** control.c:319-339 *)
Definition ensure_output (c : ctl) (len : Z) : res (Z * ctl) :=
  let w := c_wire c in
  if wire_available w >=? u16 len then Ok (KNOT_EOK, c) else
  let* (ret, s) := net_stream_send (c_sock c) (zfirstn (wire_offset w) (w_buf w)) in
  if ret <? 0 then Ok (ret, mkctl s w) else
  Ok (KNOT_EOK, mkctl s (rewind w)).

(** control.c:341-396. strlen() stops at the first zero; [v] is a string without its
    terminator, so it has none *)
Definition send_item (c : ctl) (code : Z) (v : option (list Z)) (flush : bool) : res (Z * ctl) :=
  let* (ret, c) := ensure_output c 1 in
  if negb (ret =? KNOT_EOK) then Ok (ret, c) else
  let* w := wire_write_u8 (c_wire c) code in
  let c := mkctl (c_sock c) w in
  if negb (w_err w =? KNOT_EOK) then Ok (w_err w, c) else
  let* (ret, c) :=
    match v with
    | None => Ok (KNOT_EOK, c)
    | Some d =>
      if zlen d >? 65535 then Ok (KNOT_ERANGE, c) else
      let* (ret, c) := ensure_output c 2 in
      if negb (ret =? KNOT_EOK) then Ok (ret, c) else
      let* w := wire_write_u16 (c_wire c) (zlen d) in
      let c := mkctl (c_sock c) w in
      if negb (w_err w =? KNOT_EOK) then Ok (w_err w, c) else
      let* (ret, c) := ensure_output c (zlen d) in
      if negb (ret =? KNOT_EOK) then Ok (ret, c) else
      let* w := wire_write (c_wire c) d in
      let c := mkctl (c_sock c) w in
      if negb (w_err w =? KNOT_EOK) then Ok (w_err w, c) else Ok (KNOT_EOK, c)
    end in
  if negb (ret =? KNOT_EOK) then Ok (ret, c) else
  if flush && (wire_offset (c_wire c) >? 0) then
    let w := c_wire c in
    let* (ret, s) := net_stream_send (c_sock c) (zfirstn (wire_offset w) (w_buf w)) in
    if ret <? 0 then Ok (ret, mkctl s w) else
    Ok (KNOT_EOK, mkctl s (rewind w))
  else Ok (KNOT_EOK, c).

(** control.c:420-430 from the index [i]; [d] are the values from there *)
Fixpoint send_values (c : ctl) (i : Z) (d : data) : res (Z * ctl) :=
  match d with
  | [] => Ok (KNOT_EOK, c)
  | None :: d => send_values c (i + 1) d
  | Some v :: d =>
    let* (ret, c) := send_item c (idx_to_code i) (Some v) false in
    if negb (ret =? KNOT_EOK) then Ok (ret, c) else send_values c (i + 1) d
  end.

(** control.c:398-434; the value of type int given to send_item() becomes uint8_t *)
Definition ctl_send (c : ctl) (t : Z) (d : option data) : res (Z * ctl) :=
  let code := type_to_code t in
  if code =? -1 then Ok (KNOT_EINVAL, c) else
  let* (ret, c) := send_item c code None (negb (is_data_type t)) in
  if negb (ret =? KNOT_EOK) then Ok (ret, c) else
  match d with
  | Some d => if is_data_type t then send_values c 0 d else Ok (KNOT_EOK, c)
  | None => Ok (KNOT_EOK, c)
  end.

(** control.c:449-461: [b] is the beginning of the buffer up to "available", [old] the buffer
    as far as the wire context over it goes. If the loop fails, the wire context still has its
    old position and size *)
Fixpoint fill (fuel : nat) (bs : Z) (s : sock) (w : wire) (b old : list Z) (len : Z)
  : res (Z * ctl) :=
  match fuel with
  | O => OOF
  | S fuel =>
    if zlen b <? len then
      let* (ret, d, s) := net_stream_recv s (bs - zlen b) in
      if ret <? 0 then
        Ok (ret, mkctl s (mkwire (zfirstn (zlen old) (b ++ zskipn (zlen b) old))
                                 (w_pos w) (w_err w) (w_ro w))) else
      if negb (ret >? 0) then UB else
      fill fuel bs s w (b ++ d) old len
    else Ok (KNOT_EOK, mkctl s (wire_init b))
  end.

(** control.c:436-464 *)
Definition ensure_input (bs : Z) (c : ctl) (len : Z) : res (Z * ctl) :=
  let w := c_wire c in
  let available := wire_available w in
  if available >=? len then Ok (KNOT_EOK, c) else
  let* b := mem_read (w_buf w) (wire_offset w) available in
  fill (S (length (s_calls (c_sock c)))) bs (c_sock c) w b (w_buf w) len.

(** control.c:466-481 *)
Definition receive_item_code (bs : Z) (c : ctl) : res (Z * Z * ctl) :=
  let* (ret, c) := ensure_input bs c 1 in
  if negb (ret =? KNOT_EOK) then Ok (ret, 0, c) else
  let* (code, w) := wire_read_u8 (c_wire c) in
  let c := mkctl (c_sock c) w in
  if negb (w_err w =? KNOT_EOK) then Ok (w_err w, 0, c) else Ok (KNOT_EOK, code, c).

(** control.c:483-513; [al] says which allocations succeed. The terminating zero is not kept *)
Definition receive_item_value (al : Z -> bool) (bs : Z) (c : ctl) : res (Z * list Z * ctl) :=
  let* (ret, c) := ensure_input bs c 2 in
  if negb (ret =? KNOT_EOK) then Ok (ret, [], c) else
  let* (n, w) := wire_read_u16 (c_wire c) in
  let c := mkctl (c_sock c) w in
  if negb (w_err w =? KNOT_EOK) then Ok (w_err w, [], c) else
  let* (ret, c) := ensure_input bs c n in
  if negb (ret =? KNOT_EOK) then Ok (ret, [], c) else
  if negb (al (n + 1)) then Ok (KNOT_ENOMEM, [], c) else
  let* (v, w) := wire_read (c_wire c) n in
  let c := mkctl (c_sock c) w in
  if negb (w_err w =? KNOT_EOK) then Ok (w_err w, [], c) else Ok (KNOT_EOK, v, c).

(** control.c:530-569; [have] is have_type *)
Fixpoint receive_loop (fuel : nat) (al : Z -> bool) (bs : Z) (c : ctl) (have : bool) (t : Z) (d : data)
  : res (Z * Z * data * ctl) :=
  match fuel with
  | O => OOF
  | S fuel =>
    let* (ret, code, c) := receive_item_code bs c in
    if negb (ret =? KNOT_EOK) then Ok (ret, t, d, c) else
    let cur := code_to_type code in
    if negb (cur =? -1) then
      if have then
        let* w := wire_skip (c_wire c) (-1) in
        if negb (w_err w =? KNOT_EOK) then UB else
        Ok (KNOT_EOK, t, d, mkctl (c_sock c) w)
      else if is_data_type cur then receive_loop fuel al bs c true cur d
      else Ok (KNOT_EOK, cur, d, c)
    else
      let idx := code_to_idx code in
      if idx =? -1 then Ok (KNOT_EINVAL, t, d, c) else
      let* (ret, v, c) := receive_item_value al bs c in
      if negb (ret =? KNOT_EOK) then Ok (ret, t, d, c) else
      receive_loop fuel al bs c have t (zset d idx (Some v))
  end.

(** control.c:515-577. Gives the code, the type and the data; each turn of the loop takes a byte *)
Definition ctl_receive (al : Z -> bool) (bs : Z) (c : ctl) : res (Z * Z * data * ctl) :=
  receive_loop (S (S (length (w_buf (c_wire c)) + length (s_pipe (c_sock c)))))
    al bs c false CTL_END no_data.
