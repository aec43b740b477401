(** What a well-formed message is (RFC 1035 4.1, RFC 6891 6.1.1, RFC 8945 4.2, 5.2), independently of the code. *)
From Verif Require Import Base DnameModel DnameSpec RrwireModel RrwireSpec EdnsModel EdnsProps.

(** A record in a message from [pos] to [e], as it is returned. Its RDATA do not become shorter when names are
    decompressed. [exact]: the RDATA have exactly RDLENGTH octets in the message; otherwise octets behind them are
    tolerated (see C14). *)
Definition record_in (exact : bool) (m : list Z) (canonical : bool) (pos : Z) (x : rr) (e : Z) : Prop :=
  exists r d next, fields_at m pos r d e /\ legal_name (r_owner r) /\
    (((exact = true -> d < e) /\ lay_out (rfc_layout (r_type r)) (r_data r)) \/ (d = e /\ r_data r = [] /\ empty_ok (r_class r) (r_type r))) /\
    pieces_at m e d (r_data r) next /\ next <= e /\ e - d <= zlen (flat (r_data r)) <= 65535 /\
    (exact = true -> next = e) /\
    let c := if canonical then canonical_record r else r in
    x = mkrr (wire (r_owner c)) (r_type c) (r_class c) (r_ttl c) (flat (r_data c)).

(** records one after another, each with its position *)
Inductive records_in (exact : bool) (m : list Z) (canonical : bool) : Z -> list (rr * Z) -> Z -> Prop :=
| ri_nil : forall pos, records_in exact m canonical pos [] pos
| ri_cons : forall pos x mid l e, record_in exact m canonical pos x mid -> records_in exact m canonical mid l e ->
    records_in exact m canonical pos ((x, pos) :: l) e.

(** the RDATA of TSIG: the algorithm, 6 octets of time, fudge, the MAC with its length, the original identifier,
    the error, other data with their length, and nothing else *)
Definition tsig_rdata (rd : list Z) : Prop :=
  exists alg j mac_len other_len, legal_name alg /\ rd = wire alg ++ j /\
    u16_at rd (name_size alg + 8) mac_len /\ u16_at rd (name_size alg + 10 + mac_len + 4) other_len /\
    zlen rd = name_size alg + 10 + mac_len + 6 + other_len.
(** the RDATA of OPT: a sequence of options *)
Definition opt_rdata (rd : list Z) : Prop := exists os, splits rd os [].

(** OPT and TSIG are in ADDITIONAL only, which starts with the record number [first]; there is at most one OPT, and
    TSIG is the last record (so that there is at most one). *)
Definition special_ok (first : Z) (l : list (rr * Z)) : Prop :=
  (forall i x pos, zget l i = Some (x, pos) -> rr_type x = 250 -> first <= i /\ i = zlen l - 1 /\ tsig_rdata (rr_rdata x)) /\
  (forall i x pos, zget l i = Some (x, pos) -> rr_type x = 41 -> first <= i /\ opt_rdata (rr_rdata x) /\
     forall j y pos', zget l j = Some (y, pos') -> rr_type y = 41 -> j = i).

(** The header and the question *)
Definition question_in (m : list Z) (q : option (list label)) (qend : Z) : Prop :=
  match q with
  | None => u16_at m 4 0 /\ qend = 12
  | Some ls => u16_at m 4 1 /\ legal_name ls /\ encodes m false 12 ls (name_size ls) /\ qend = 12 + name_size ls + 4
  end.
(** A message: question, the numbers of records in the sections, and the records up to the end. *)
Definition message_in (exact : bool) (m : list Z) (canonical : bool) (q : option (list label)) (an ns ar : Z) (l : list (rr * Z)) : Prop :=
  12 <= zlen m /\ u16_at m 6 an /\ u16_at m 8 ns /\ u16_at m 10 ar /\ zlen l = an + ns + ar /\
  exists qend, question_in m q qend /\ qend <= zlen m /\ records_in exact m canonical qend l (zlen m) /\ special_ok (an + ns) l.

(** the number of the record of the given type *)
Definition index_of (type : Z) (l : list (rr * Z)) (i : option Z) : Prop :=
  match i with
  | None => forall j x pos, zget l j = Some (x, pos) -> rr_type x <> type
  | Some i => exists x pos, zget l i = Some (x, pos) /\ rr_type x = type
  end.
