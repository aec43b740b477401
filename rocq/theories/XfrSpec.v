(** What an incremental zone transfer is (RFC 1995, section 4) and what it does to the records of a zone. *)
From Verif Require Import Base RdatasetModel RdatasetProps NodeModel SerialModel SerialSpec ZoneModel ZoneView ZoneTreeProps ChangesetProofs DiffModel.

(** A difference: the old SOA, the records to be removed, the new SOA, the records to be added. *)
Record diff := mkdiff { df_from : rrset; df_del : list rrset; df_to : rrset; df_add : list rrset }.
Definition drecords (x : diff) : list rrset := df_from x :: df_del x ++ df_to x :: df_add x.
Definition soa_rr (r : rrset) : Prop := rr_type (snd r) = SOA.
Definition diff_ok (x : diff) : Prop := soa_rr (df_from x) /\ soa_rr (df_to x) /\ Forall (fun r => ~ soa_rr r) (df_del x) /\ Forall (fun r => ~ soa_rr r) (df_add x).
(** One and the same record: owner, type, TTL and data. *)
Definition same_rr (r s : rrset) : Prop :=
  fst r = fst s /\ rr_type (snd r) = rr_type (snd s) /\ rr_ttl (snd r) = rr_ttl (snd s) /\ exists b, is (rr_rrs (snd r)) b /\ is (rr_rrs (snd s)) b.
(** The answer: the new SOA of the zone, some differences, and the same SOA again. Whatever follows is not looked at. If
    the differences are to be taken one by one, the answer ends with the SOA after the first of them. *)
Definition ixfr_form (by_one : bool) (l : list rrset) (ds : list diff) : Prop :=
  exists first last rest, l = first :: concat (map drecords ds) ++ last :: rest /\ soa_rr first /\ soa_rr last /\ ds <> [] /\ Forall diff_ok ds /\
    (if by_one then tl ds = [] else same_rr last first) /\ Forall (fun x => ~ same_rr (df_from x) first) (tl ds).

(** The records of a zone, by RRset; [listed]: those in a list. *)
Definition recs := cell -> list Z -> Prop.
Definition listed (a : name) (l : list rrset) : recs := fun c v => exists r b, In r l /\ good a r c b /\ In v b.
(** What a difference makes of them *)
Definition after (a : name) (S : recs) (x : diff) : recs := fun c v =>
  (c = soa_cell a /\ listed a [df_to x] c v) \/ (c <> soa_cell a /\ ((S c v /\ ~ listed a (df_del x) c v) \/ listed a (df_add x) c v)).
(** and when it fits: what is removed is there, what is added is not, and the new SOA is the one of the zone. *)
Definition fits1 (a : name) (S : recs) (x : diff) : Prop :=
  (forall c v, listed a (df_del x) c v -> S c v) /\ (forall c v, listed a (df_add x) c v -> S c v -> listed a (df_del x) c v) /\ fst (df_to x) = a.
Fixpoint fits (a : name) (S : recs) (ds : list diff) : Prop :=
  match ds with [] => True | x :: ds => fits1 a S x /\ fits a (after a S x) ds end.
Fixpoint patched (a : name) (S : recs) (ds : list diff) : recs := match ds with [] => S | x :: ds => patched a (after a S x) ds end.
(** The records in a transfer that are about the zone; the others are skipped. *)
Definition inzone (a : name) (l : list rrset) : list rrset := filter (fun r => under (fst r) a) l.
(** The length of records in a message without compression. *)
Inductive octets : list rrset -> Z -> Prop :=
| oc_nil : octets [] 0
| oc_cons : forall o r v l n, is (rr_rrs r) [v] -> octets l n -> octets ((o, r) :: l) (fold_right (fun x s => zlen x + 1 + s) 1 o + 10 + zlen v + n).

(** A full transfer: records, one of which is the SOA of the zone, and an SOA. No SOA follows that of the zone before. *)
Definition zone_soa (a : name) (l : list rrset) : Prop := exists v, listed a (inzone a l) (soa_cell a) v.
Definition axfr_form (a : name) (l rs : list rrset) : Prop :=
  exists last rest, l = rs ++ last :: rest /\ soa_rr last /\ zone_soa a rs /\ forall p r q, rs = p ++ r :: q -> soa_rr r -> ~ zone_soa a p.

(** How a response to a query for an incremental transfer is told from a full transfer and from the lack of news, by the
    answers of its messages; [serial]: that of the zone here. *)
Definition soa_serial_of (r : rrset) (n : Z) : Prop := exists v, is (rr_rrs (snd r)) [v] /\ soa_serial v = Ok n.
Definition told_incremental (serial : Z) (l : list (list rrset)) : Prop :=
  (exists one two more ms, l = (one :: two :: more) :: ms /\ soa_rr one /\ soa_rr two /\ (more = [] -> ~ same_rr one two)) \/
  (exists one two more ms n, l = [one] :: (two :: more) :: ms /\ soa_rr one /\ soa_rr two /\ ~ same_rr one two /\ soa_serial_of one n /\ serial <> n /\ ~ rfc1982_gt serial n /\ serial32 serial /\ serial32 n).
Definition told_full (serial : Z) (l : list (list rrset)) : Prop :=
  (exists one two more ms, l = (one :: two :: more) :: ms /\ soa_rr one /\ (~ soa_rr two \/ (more = [] /\ same_rr one two))) \/
  (exists one two more ms n, l = [one] :: (two :: more) :: ms /\ soa_rr one /\ (~ soa_rr two \/ same_rr one two) /\ soa_serial_of one n /\ serial <> n /\ ~ rfc1982_gt serial n /\ serial32 serial /\ serial32 n).
