(** What it means that an RRset is in a message, independently of the code that writes it. *)
From Verif Require Import Base DnameSpec RrwireSpec.

(** Types whose RDATA may contain compressed names (the well-known types of RFC 1035 which are not
    obsolete, RFC 3597 section 4): NS CNAME SOA PTR MINFO MX *)
Definition compressible : list Z := [2; 5; 6; 12; 14; 15].

(** The TTL in the message. With the first flag it is the Original TTL of an RRSIG, the octets 4 to 7 of
    its RDATA; with the second flag, that of a SOA is not above its MINIMUM, its last four octets. *)
Definition sent_ttl (origttl soaminttl : bool) (type ttl : Z) (rdata : list Z) (v : Z) : Prop :=
  if origttl && (type =? 46) then u32_at rdata 4 v
  else if soaminttl && (type =? 6) then exists m, u32_at rdata (zlen rdata - 4) m /\ v = Z.min m ttl
  else v = ttl.

(** The record [r] in a message is that with the given fields: names are equal but for the case of
    letters, and the RDATA of types which are not compressible are the same. *)
Definition sent (origttl soaminttl : bool) (owner : list label) (type rclass ttl : Z) (ps : list piece) (r : record) : Prop :=
  legal_name (r_owner r) /\ lower_name (r_owner r) = lower_name owner /\
  r_type r = type /\ r_class r = rclass /\ sent_ttl origttl soaminttl type ttl (flat ps) (r_ttl r) /\
  map lower_piece (r_data r) = map lower_piece ps /\ (ps <> [] -> lay_out (rfc_layout type) (r_data r)) /\
  (~ In type compressible -> r_data r = ps).

(** A record is in the message from [pos] to [e], and compression did not make its RDATA longer. *)
Definition compact_at (m : list Z) (pos : Z) (r : record) (e : Z) : Prop :=
  exists d, fields_at m pos r d e /\ pieces_at m e d (r_data r) e /\ e - d <= zlen (flat (r_data r)).

(** Records one after another, from [pos] to [e]. *)
Inductive records_at (m : list Z) : Z -> list record -> Z -> Prop :=
| ra_nil : forall pos, records_at m pos [] pos
| ra_cons : forall pos r mid rs e, compact_at m pos r mid -> records_at m mid rs e -> records_at m pos (r :: rs) e.

(** The RDATA of a record to be written: laid out according to the type, or empty. *)
Definition rdata_ok (origttl soaminttl : bool) (type : Z) (ps : list piece) : Prop :=
  zlen (flat ps) <= 65535 /\
  (lay_out (rfc_layout type) ps \/ (ps = [] /\ (origttl = true -> type <> 46) /\ (soaminttl = true -> type <> 6))).

(** the size of records without compression *)
Definition record_size (owner : list label) (ps : list piece) : Z := name_size owner + 10 + zlen (flat ps).
Definition records_size (owner : list label) (l : list (list piece)) : Z := fold_right (fun ps n => record_size owner ps + n) 0 l.
