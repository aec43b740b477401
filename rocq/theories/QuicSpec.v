(** C71: the histories of a stream, seen from the application and from the transport. *)
From Verif Require Import Base QuicModel.

(** A message on the stream: its length in two octets, and the message (RFC 9250, 4.2) *)
Definition framed (m : list Z) : list Z := zlen m / 256 :: zlen m mod 256 :: m.

(** [history s out added acked over]: the stream is in the state [s], the transport took the octets [out], the application added
    the messages that make [added], the other side acknowledged [acked] octets, and the stream is over.
    - Messages are added while something is unsent, or when all was acknowledged, and not when the stream is over.
    - The transport takes any number of octets of those it is given.
    - The other side acknowledges octets that were sent, in any order. With [keep] the stream goes on when all was acknowledged. *)
Inductive history (c : Z) : stream -> list Z -> list Z -> nat -> bool -> Prop :=
| h_new : history c (reset c) [] [] 0 false
| h_add : forall s out added acked m, history c s out added acked false -> zlen m < 65536 ->
    (length out < length added \/ acked = length added)%nat ->
    history c (add_data s m) out (added ++ framed m) acked false
| h_send : forall s out added acked over n s' o, history c s out added acked over -> send s n = Ok (s', o) ->
    history c s' (out ++ o) added acked over
| h_ack : forall s out added acked over e keep, history c s out added acked over -> (e <= length out)%nat ->
    history c (ack_data s e keep) out added (Nat.max acked e)
      (over || (negb keep && (length added <=? Nat.max acked e)%nat)).
