(** The outgoing data of one stream of QUIC, src/libknot/quic/quic_conn.c and quic.c.

    Simplifications. One stream of one connection; the counters of the connection and of the table go up and down with the
    counter of the stream and are one number here. Buffers are lists of octets, and the pointer to the first buffer with unsent
    data is its index in the list. Sizes do not overflow. Allocation succeeds. *)
From Verif Require Import Base.

(** src/libknot/quic/quic_conn.h:55-71 *)
Record stream := mks { s_bufs : list (list Z); s_first : nat; s_unsent : option nat; s_off : nat; s_size : Z; c_size : Z }.
(** src/libknot/quic/quic_conn.c:522-523: memset and init_list; the counter of the connection stays *)
Definition reset (c : Z) : stream := mks [] 0 None 0 0 c.

(** src/libknot/quic/quic_conn.c:471-482: the length in two octets and the message *)
Definition obuf (data : list Z) : list Z := [zlen data / 256 mod 256; zlen data mod 256] ++ data.
(** src/libknot/quic/quic_conn.c:463-494 *)
Definition add_data (s : stream) (data : list Z) : stream :=
  let b := obuf data in
  mks (s_bufs s ++ [b]) (s_first s) (match s_bufs s with [] => Some 0%nat | _ => s_unsent s end) (s_off s) (s_size s + zlen b) (c_size s + zlen b).

(** src/libknot/quic/quic_conn.c:507-519: the loop *)
Fixpoint ack_loop (bufs : list (list Z)) (first : nat) (unsent : option nat) (off : nat) (size c : Z) (e : nat) : stream :=
  match bufs with
  | b :: r =>
    if (length b + first <=? e)%nat
    then let hit := match unsent with Some O => true | _ => false end in
         ack_loop r (first + length b)
           (match unsent with Some O => match r with [] => None | _ => Some O end | Some (S k) => Some k | None => None end)
           (if hit then 0%nat else off) (size - zlen b) (c - zlen b) e
    else mks bufs first unsent off size c
  | [] => mks [] first unsent off size c
  end.
(** src/libknot/quic/quic_conn.c:496-552, without the removal of the first streams *)
Definition ack_data (s : stream) (e : nat) (keep : bool) : stream :=
  let s := ack_loop (s_bufs s) (s_first s) (s_unsent s) (s_off s) (s_size s) (c_size s) e in
  match s_bufs s with [] => if keep then s else reset (c_size s) | _ => s end.

(** src/libknot/quic/quic_conn.c:551-568 *)
Definition mark_sent (s : stream) (n : nat) : res stream :=
  match s_unsent s with
  | None => UB
  | Some k =>
    match nth_error (s_bufs s) k with
    | None => UB
    | Some b =>
      let off := (s_off s + n)%nat in
      if (length b <? off)%nat then UB
      else if (off =? length b)%nat
      then Ok (mks (s_bufs s) (s_first s) (if (S k <? length (s_bufs s))%nat then Some (S k) else None) 0 (s_size s) (c_size s))
      else Ok (mks (s_bufs s) (s_first s) (Some k) off (s_size s) (c_size s))
    end
  end.

(** src/libknot/quic/quic.c:967-978, knot_quic_send: what is given to the transport for this stream, with the flag FIN; None if
    there is nothing to send (without KNOT_QUIC_SEND_IGNORE_LASTBYTE) *)
Definition offer (s : stream) : option (list Z * bool) :=
  match s_unsent s with
  | None => None
  | Some k => match nth_error (s_bufs s) k with
              | Some b => Some (skipn (s_off s) b, (S k =? length (s_bufs s))%nat)
              | None => None
              end
  end.
(** src/libknot/quic/quic.c:976-991, knot_quic_send: the transport takes at most [n] octets of what it is given; they are the second result *)
Definition send (s : stream) (n : nat) : res (stream * list Z) :=
  match offer s with
  | None => Ok (s, [])
  | Some (d, _) =>
    let n := Nat.min n (length d) in
    if (n =? 0)%nat then Ok (s, [])
    else let* s := mark_sent s n in Ok (s, firstn n d)
  end.
