(** Independent specification: an RDATA set holds a finite set of octet strings. *)
From Verif Require Import Base DnameSpec.
From Coq Require Import Sorting.Sorted.

(** a record's data: at most 65535 octets *)
Definition rdata_ok (r : list Z) : Prop := bytes r /\ zlen r <= 65535.

(** canonical RR order within an RRset (RFC 4034 6.3), strict: no duplicates *)
Definition rd_lt (a b : list Z) : Prop := octets_cmp a b = Lt.
Definition canonical (rs : list (list Z)) : Prop := StronglySorted rd_lt rs /\ Forall rdata_ok rs.

(** The documented memory layout (src/libknot/rdataset.h:25-29, rdata.h:27-40): each record is a
    16-bit length, the octets, and one zero octet of padding after an odd number of octets;
    records follow each other in canonical order. *)
Definition record_layout (r : list Z) : list Z :=
  [zlen r mod 256; zlen r / 256] ++ r ++ (if Z.odd (zlen r) then [0] else []).
Definition layout (rs : list (list Z)) : list Z := concat (map record_layout rs).

(** An RDATA set given by its record count, its size in octets and its memory holds exactly
    the records rs: they are in strictly increasing canonical order, the memory is their layout
    and nothing else, and both counters are exact and within their C types. *)
Definition represents (cnt sz : Z) (mem : list Z) (rs : list (list Z)) : Prop :=
  canonical rs /\ mem = layout rs /\ cnt = zlen rs /\ sz = zlen mem /\ cnt < 2 ^ 16 /\ sz < 2 ^ 32.
