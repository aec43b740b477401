(** What a TSIG record says and what its MAC covers (RFC 8945). *)
From Verif Require Import Base DnameSpec.

(** A number in [n] octets, the most significant one first *)
Fixpoint num (n : nat) (v : Z) : list Z :=
  match n with
  | O => []
  | S n => (v / 256 ^ Z.of_nat n) mod 256 :: num n v
  end.

(** The fields of the RDATA (RFC 8945, 4.2) *)
Record tsig := mktsig { t_alg : list label; t_time : Z; t_fudge : Z; t_mac : list Z; t_id : Z; t_error : Z; t_other : list Z }.
Definition tsig_bytes (t : tsig) : list Z :=
  wire (t_alg t) ++ num 6 (t_time t) ++ num 2 (t_fudge t) ++ num 2 (zlen (t_mac t)) ++ t_mac t ++
  num 2 (t_id t) ++ num 2 (t_error t) ++ num 2 (zlen (t_other t)) ++ t_other t.
Definition legal_tsig (t : tsig) : Prop :=
  legal_name (t_alg t) /\ 0 <= t_time t < 2 ^ 48 /\ 0 <= t_fudge t < 2 ^ 16 /\ bytes (t_mac t) /\ 0 <= t_id t < 2 ^ 16 /\
  0 <= t_error t < 2 ^ 16 /\ bytes (t_other t) /\ zlen (tsig_bytes t) <= 65535.

(** The algorithms: number, name and the size of the whole MAC *)
Definition hmac_md5 : list label := [[104; 109; 97; 99; 45; 109; 100; 53]; [115; 105; 103; 45; 97; 108; 103]; [114; 101; 103]; [105; 110; 116]].
Definition hmac_sha1 : list label := [[104; 109; 97; 99; 45; 115; 104; 97; 49]].
Definition hmac_sha224 : list label := [[104; 109; 97; 99; 45; 115; 104; 97; 50; 50; 52]].
Definition hmac_sha256 : list label := [[104; 109; 97; 99; 45; 115; 104; 97; 50; 53; 54]].
Definition hmac_sha384 : list label := [[104; 109; 97; 99; 45; 115; 104; 97; 51; 56; 52]].
Definition hmac_sha512 : list label := [[104; 109; 97; 99; 45; 115; 104; 97; 53; 49; 50]].
Inductive algorithm : Z -> list label -> Z -> Prop :=
  | is_md5 : algorithm 1 hmac_md5 16
  | is_sha1 : algorithm 2 hmac_sha1 20
  | is_sha224 : algorithm 3 hmac_sha224 28
  | is_sha256 : algorithm 4 hmac_sha256 32
  | is_sha384 : algorithm 5 hmac_sha384 48
  | is_sha512 : algorithm 6 hmac_sha512 64.
(** A name of an algorithm, in any case of letters *)
Definition names_algorithm (name : list label) (id size : Z) : Prop := exists n, algorithm id n size /\ lower_name name = n.

(** What is signed: the MAC of the request, the message without its TSIG record and with the original ID, and the
    variables of the record (RFC 8945, 4.3). [owner] is the name of the key, the record has class ANY and TTL 0. *)
Definition variables (owner : list label) (class ttl : Z) (t : tsig) : list Z :=
  wire owner ++ num 2 class ++ num 4 ttl ++ wire (lower_name (t_alg t)) ++ num 6 (t_time t) ++ num 2 (t_fudge t) ++
  num 2 (t_error t) ++ num 2 (zlen (t_other t)) ++ t_other t.
Definition with_length (mac : list Z) : list Z := num 2 (zlen mac) ++ mac.
Definition signed_data (mac msg : list Z) (owner : list label) (class ttl : Z) (t : tsig) : list Z :=
  (if zlen mac =? 0 then [] else with_length mac) ++ msg ++ variables owner class ttl t.
(** The next messages of an answer (RFC 8945, 5.3.1): the previous MAC, the messages since then, the timers *)
Definition signed_next (mac msgs : list Z) (t : tsig) : list Z :=
  with_length mac ++ msgs ++ num 6 (t_time t) ++ num 2 (t_fudge t).
(** A message with its ID replaced *)
Definition with_id (msg : list Z) (id : Z) : list Z := num 2 id ++ skipn 2 msg.

(** The time of the record is acceptable at [now] after a previous record of [prev] *)
Definition timely (t : tsig) (prev now : Z) : Prop :=
  t_time t <> 0 /\ t_fudge t <> 0 /\ Z.abs (now - t_time t) <= t_fudge t /\ prev <= t_time t.

(** A TSIG record as it is in a message, and a message with one more record: the last count in the header is raised *)
Definition tsig_record (owner : list label) (t : tsig) : list Z :=
  wire owner ++ num 2 250 ++ num 2 255 ++ num 4 0 ++ num 2 (zlen (tsig_bytes t)) ++ tsig_bytes t.
Definition octet (m : list Z) (i : nat) : Z := nth i m 0.
Definition message_id (m : list Z) : Z := octet m 0 * 256 + octet m 1.
Definition with_record (msg rec : list Z) : list Z :=
  firstn 10 msg ++ num 2 (octet msg 10 * 256 + octet msg 11 + 1) ++ skipn 12 msg ++ rec.

(** HMAC: algorithm, secret, data. It gives octets, as many as the algorithm says. *)
Definition is_hmac (H : Z -> list Z -> list Z -> list Z) : Prop :=
  forall id n s secret data, algorithm id n s -> zlen (H id secret data) = s /\ bytes (H id secret data).

(** The MAC of the record has the size [s], and it is the computed one (or its start, if the key has another algorithm) *)
Definition full_mac (t : tsig) (s : Z) (computed : list Z) : Prop := zlen (t_mac t) = s /\ t_mac t = firstn (Z.to_nat s) computed.
(** The outcome of a check of a record with the fields [t] whose MAC should cover [data] *)
Inductive outcome (H : Z -> list Z -> list Z -> list Z) (key : list label) (key_alg : Z) (secret : list Z)
  (owner : list label) (data : list Z) (t : tsig) (prev now : Z) : Z -> Prop :=
  | unknown_algorithm : (forall i s, ~ names_algorithm (t_alg t) i s) -> outcome H key key_alg secret owner data t prev now KNOT_TSIG_EBADKEY
  | other_key : owner <> key -> outcome H key key_alg secret owner data t prev now KNOT_TSIG_EBADKEY
  | unusable_key : forall i s, names_algorithm (t_alg t) i s -> owner = key -> (forall n s, ~ algorithm key_alg n s) ->
      outcome H key key_alg secret owner data t prev now KNOT_TSIG_EBADSIG
  | wrong_mac : forall i s, names_algorithm (t_alg t) i s -> owner = key -> ~ full_mac t s (H key_alg secret data) ->
      outcome H key key_alg secret owner data t prev now KNOT_TSIG_EBADSIG
  | wrong_time : forall i s n s', names_algorithm (t_alg t) i s -> owner = key -> algorithm key_alg n s' -> full_mac t s (H key_alg secret data) -> ~ timely t prev now ->
      outcome H key key_alg secret owner data t prev now KNOT_TSIG_EBADTIME
  | good : forall i s n s', names_algorithm (t_alg t) i s -> owner = key -> algorithm key_alg n s' -> full_mac t s (H key_alg secret data) -> timely t prev now ->
      outcome H key key_alg secret owner data t prev now KNOT_EOK.

(** An answer: its messages, some of them with a TSIG record (owner, class, TTL, fields), with the times of their arrival *)
Definition signer : Type := list label * Z * Z * tsig.
Definition arrived : Type := list Z * option signer * Z.
(** It is authentic after a message with the MAC [mac] and time [prev] (0 if that was the request) and after unsigned messages
    [pending], if it ends with a signed message, there are at most 99 unsigned ones between two signed ones, and each MAC
    covers all messages since the previous one (RFC 8945, 5.3.1); the key has the name [key], algorithm number [alg] and MACs of
    [size] octets. *)
Inductive authentic (H : Z -> list Z -> list Z -> list Z) (key : list label) (alg size : Z) (secret : list Z) : Z -> list Z -> list (list Z) -> list arrived -> Prop :=
  | answer_end : forall prev mac, authentic H key alg size secret prev mac [] []
  | answer_unsigned : forall prev mac pending msg now rest, zlen pending < 99 ->
      authentic H key alg size secret prev mac (pending ++ [msg]) rest ->
      authentic H key alg size secret prev mac pending ((msg, None, now) :: rest)
  | answer_signed : forall prev mac pending msg class ttl t now rest,
      names_algorithm (t_alg t) alg size ->
      (let msgs := with_id (concat (pending ++ [msg])) (t_id t) in
       t_mac t = H alg secret (if prev =? 0 then signed_data mac msgs key class ttl t else signed_next mac msgs t)) ->
      timely t prev now ->
      authentic H key alg size secret (t_time t) (t_mac t) [] rest ->
      authentic H key alg size secret prev mac pending ((msg, Some (key, class, ttl, t), now) :: rest).
