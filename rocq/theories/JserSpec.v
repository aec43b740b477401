(** What a stored changeset is. *)
From Verif Require Import Base DnameSpec RdatasetModel RdatasetSpec JserModel.

(** An RRset with a legal owner and records, not near to 4 GiB *)
Definition rr_ok (j : jrr) : Prop :=
  (exists ls, legal_name ls /\ j_owner j = wire ls) /\
  0 <= j_type j < 2 ^ 16 /\ 0 <= j_class j < 2 ^ 16 /\ 0 <= j_ttl j < 2 ^ 32 /\
  (exists rs, represents (count (j_rrs j)) (size (j_rrs j)) (raw (j_rrs j)) rs /\ rs <> []) /\ size (j_rrs j) <= 2 ^ 32 - 1 - 65538.
Definition apex_soa (apex : list label) (j : jrr) : Prop := j_type j = 6 /\ j_owner j = wire apex.
(** A changeset of the zone: the RRset SOA marks the sections and appears nowhere else. *)
Definition ch_ok (apex : list label) (ch : jchange) : Prop :=
  legal_name apex /\ Forall rr_ok (source ch) /\ apex_soa apex (jc_to ch) /\ Forall (fun j => ~ apex_soa apex j) (jc_add ch) /\
  match jc_from ch with None => True | Some (soa, rem) => apex_soa apex soa /\ Forall (fun j => ~ apex_soa apex j) rem end.
(** The largest piece that is stored at once: the owner with 6 octets, or one record with 6 octets *)
Definition fits (max : Z) (j : jrr) : Prop :=
  zlen (j_owner j) + 6 <= max /\ forall rs r, represents (count (j_rrs j)) (size (j_rrs j)) (raw (j_rrs j)) rs -> In r rs -> zlen r + 6 <= max.
(** The number of RRsets SOA of the apex *)
Definition is_soa (apex : list label) (j : jrr) : bool := (j_type j =? 6) && (if list_eq_dec Z.eq_dec (j_owner j) (wire apex) then true else false).
Definition soas (apex : list label) (l : list jrr) : Z := zlen (filter (is_soa apex) l).
