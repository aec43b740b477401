(** What NSEC records prove to a validator (RFC 4035 section 5.4, RFC 6840 section 4, RFC 4592), on records alone, and
    the zones which are served. *)
From Verif Require Import Base BitmapModel DnameSpec NsecModel NsecSpec.

(** [a] is [b] or a name below it. *)
Definition below (a b : list label) : Prop := exists p, a = p ++ b.
(** The bitmap of a record has a type. *)
Definition bit (s : nsec) (t : Z) : Prop := bitmap_contains (ns_bitmap s) (zlen (ns_bitmap s)) t = Ok true.
(** The record comes from the parent of a delegation (NS without SOA), so it says nothing about names below. *)
Definition from_parent (s : nsec) : Prop := bit s 2 /\ ~ bit s 6.
(** A record proves that the name does not exist: the name is between the owner and the next name, or after the last name
    of the zone; nothing exists below it; and the owner is no delegation point or DNAME above it. *)
Definition proves_absent (apex : list label) (r : list label * nsec) (q : list label) : Prop :=
  canonical_lt (fst r) q /\ (canonical_lt q (ns_next (snd r)) \/ ns_next (snd r) = apex) /\ ~ below (ns_next (snd r)) q /\
  (below q (fst r) -> ~ from_parent (snd r) /\ ~ bit (snd r) 39).
(** A record proves that a name exists without any data: nothing is between the owner and a name below it. *)
Definition proves_empty (r : list label * nsec) (q : list label) : Prop :=
  canonical_lt (fst r) q /\ below (ns_next (snd r)) q /\ ns_next (snd r) <> q.
(** A record proves that a name has no data of a type, and no CNAME. *)
Definition proves_no_type (r : list label * nsec) (q : list label) (t : Z) : Prop :=
  fst r = q /\ ~ bit (snd r) t /\ ~ bit (snd r) 5 /\ (t <> 43 -> ~ from_parent (snd r)).
(** A record proves that a delegation is not signed. *)
Definition proves_insecure (r : list label * nsec) (d : list label) : Prop :=
  fst r = d /\ bit (snd r) 2 /\ ~ bit (snd r) 43 /\ ~ bit (snd r) 6.
(** The closest encloser which a record covering [q] shows: the longest name above [q] which is also above the owner or
    the next name. *)
Definition shows_encloser (r : list label * nsec) (q c : list label) : Prop :=
  below q c /\ (below (fst r) c \/ below (ns_next (snd r)) c) /\
  (forall d, below q d -> below (fst r) d \/ below (ns_next (snd r)) d -> below c d).

(** In the zone: *)
Definition is_there (z : zone) (x : list label) : Prop := exists n, In (x, n) z.
(** the closest name above [q] which exists, *)
Definition encloser (z : zone) (q c : list label) : Prop :=
  is_there z c /\ below q c /\ (forall d, is_there z d -> below q d -> below c d).
(** and a delegation point. *)
Definition cut (z : zone) (d : list label) : Prop := exists n, In (d, n) z /\ n_nonauth n = false /\ n_deleg n = true.

(** The shape of a zone: parents exist up to the apex; names below a delegation are not authoritative; an authoritative
    name other than the apex with NS is a delegation; the apex has SOA; nothing is below a DNAME; a name without data is
    there for the names with data below it. *)
Definition tree (apex : list label) (z : zone) : Prop :=
  (forall x n, In (x, n) z -> x = apex \/
     exists l p m, x = l :: p /\ In (p, m) z /\ below p apex /\ n_nonauth n = (n_deleg m || n_nonauth m)%bool) /\
  (forall n, In (apex, n) z -> n_nonauth n = false /\ n_deleg n = false /\ In 6 (n_types n)) /\
  (forall x n, In (x, n) z -> x <> apex -> (n_deleg n = true <-> n_nonauth n = false /\ In 2 (n_types n))) /\
  (forall x n y m, In (x, n) z -> n_nonauth n = false -> n_deleg n = false -> In 39 (n_types n) -> In (y, m) z -> below y x -> y = x) /\
  (forall x n, In (x, n) z -> n_nonauth n = false -> n_types n = [] -> exists y m, In (y, m) z /\ takes_part m = true /\ below y x).
(** A zone being served: signed, in any history of C33, and left by the nodes which were deleted. *)
Definition served (apex : list label) (z : zone) : Prop :=
  exists ttl zs keep, signed_zone apex ttl zs /\ (forall e, In e zs -> takes_part (snd e) = true -> keep e = true) /\
    z = filter keep zs /\ tree apex z.
(** Query types other than RRSIG, NSEC and ANY *)
Definition plain_type (t : Z) : Prop := 0 <= t < 65536 /\ t <> 46 /\ t <> 47 /\ t <> 255.
(** A name, or the wildcard which stands for it if it does not exist *)
Definition stands_for (z : zone) (q x : list label) : Prop :=
  (is_there z q /\ x = q) \/ (~ is_there z q /\ exists c, encloser z q c /\ x = [42] :: c).
