(** What the octets of a DNS stream mean, RFC 1035 4.2.2: each message is preceded by its length. *)
From Verif Require Import Base.

Definition octet (x : Z) : Prop := 0 <= x < 256.
Definition octets (l : list Z) : Prop := Forall octet l.
Definition is_message (m : list Z) : Prop := octets m /\ Z.of_nat (length m) <= 65535.
Definition frame (m : list Z) : list Z := [Z.of_nat (length m) / 256; Z.of_nat (length m) mod 256] ++ m.
Definition stream (ms : list (list Z)) : list Z := flat_map frame ms.
(** The start of a frame that is not complete *)
Definition incomplete (b : list Z) : Prop :=
  match b with
  | [] => True
  | [_] => True
  | hi :: lo :: rest => Z.of_nat (length rest) < hi * 256 + lo
  end.
(** What has been received so far: the messages [ms] and, after them, [b]. *)
Definition received (s : list Z) (ms : list (list Z)) (b : list Z) : Prop := s = stream ms ++ b /\ Forall is_message ms.

(** The outgoing side. [s] is the whole stream of the server; its octet number [i] has the sequence number [isn + i].
    A segment, that is a sequence number and octets, is placed at [i] if its octets are those of the stream there. *)
Definition placed (isn : Z) (s : list Z) (seg : Z * list Z) (i : Z) : Prop :=
  exists before after, s = before ++ snd seg ++ after /\ Z.of_nat (length before) = i /\ fst seg = (isn + i) mod 2 ^ 32.
(** All octets of the stream before position [p] are in segments sent. *)
Definition all_sent (isn : Z) (s : list Z) (trace : list (Z * list Z)) (p : Z) : Prop :=
  forall j, 0 <= j < p -> exists seg i, In seg trace /\ placed isn s seg i /\ i <= j < i + Z.of_nat (length (snd seg)).
(** The replies of a server that fit a frame; an empty reply is no reply. *)
Definition sendable (m : list Z) : bool := (0 <? Z.of_nat (length m)) && (Z.of_nat (length m) <=? 65535).
