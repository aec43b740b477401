(** What an NSEC chain is (RFC 4034 section 4, RFC 4035 section 2.3), on the zones of NsecModel.v. *)
From Verif Require Import Base BitmapModel DnameSpec NsecModel.
From Coq Require Import Sorting.Sorted.

(** The names which have an NSEC record: authoritative ones (delegation points included) with data. *)
Definition takes_part (n : node) : bool := negb (n_nonauth n) && match n_types n with [] => false | _ => true end.
Definition members (z : zone) : list (list label) := map fst (filter (fun e => takes_part (snd e)) z).
(** [y] comes right after [x] in the list, and the first one after the last one. *)
Definition follows {A} (l : list A) (x y : A) : Prop :=
  (exists p q, l = p ++ x :: y :: q) \/ ((exists p, l = p ++ [x]) /\ exists q, l = y :: q).
(** A type bitmap which has exactly the types of a set. *)
Definition lists (bm : list Z) (P : Z -> Prop) : Prop :=
  forall t, 0 <= t < 65536 -> exists r, bitmap_contains bm (zlen bm) t = Ok r /\ (r = true <-> P t).
(** The types of the bitmap: NSEC (47), RRSIG (46) and those of the node, only NS (2) and DS (43) at a delegation point. *)
Definition to_list (n : node) (t : Z) : Prop :=
  t = 46 \/ t = 47 \/ In t (n_types n) /\ (n_deleg n = true -> t = 2 \/ t = 43).
(** Each member has one NSEC record, naming the next member, with the right types and TTL. No other node has any. *)
Definition closed_chain (ttl : Z) (z : zone) : Prop :=
  (forall x n, In (x, n) z -> takes_part n = true ->
     exists s, n_nsec n = [s] /\ follows (members z) x (ns_next s) /\ lists (ns_bitmap s) (to_list n) /\ ns_ttl s = ttl) /\
  (forall x n, In (x, n) z -> takes_part n = false -> n_nsec n = []).
(** The names met when following the records from [x] for [k] steps. *)
Fixpoint walk (z : zone) (k : nat) (x : list label) : list (list label) :=
  match k with
  | O => [x]
  | S k => x :: match nget z x with Some n => match n_nsec n with s :: _ => walk z k (ns_next s) | [] => [] end | None => [] end
  end.

(** A zone: nodes in the canonical order, the apex first and with data. *)
Definition canonical_lt (a b : list label) : Prop := canonical_cmp a b = Lt.
Definition a_zone (apex : list label) (z : zone) : Prop :=
  StronglySorted canonical_lt (map fst z) /\
  (exists n rest, z = (apex, n) :: rest /\ takes_part n = true) /\
  Forall (fun e => Forall (fun t => 0 <= t < 65536 /\ t <> 46 /\ t <> 47) (n_types (snd e))) z.
(** A node which lost its data has no signatures but those of its NSEC record. *)
Definition no_orphans (z : zone) : Prop :=
  forall x n, In (x, n) z -> n_nonauth n = false -> n_types n = [] ->
    (forall t, In t (n_sigs n) -> t = 47) /\ (n_nsec n = [] -> n_sigs n = []).
(** ... or none at all. *)
Definition clean (z : zone) : Prop :=
  forall x n, In (x, n) z -> n_nonauth n = false -> n_types n = [] -> n_sigs n = [].
(** At most one NSEC record at a node *)
Definition one_nsec (z : zone) : Prop := forall x n, In (x, n) z -> (length (n_nsec n) <= 1)%nat.

(** Two versions of a node or of a zone with the same data: all but NSEC and signatures of NSEC. *)
Definition same_node (n m : node) : Prop :=
  n_types n = n_types m /\ n_deleg n = n_deleg m /\ n_nonauth n = n_nonauth m /\
  (forall t, t <> 47 -> In t (n_sigs n) <-> In t (n_sigs m)).
Definition same_data (z z' : zone) : Prop := Forall2 (fun e e' => fst e = fst e' /\ same_node (snd e) (snd e')) z z'.

(** The new version [z] of [zo], made by changes of the nodes in [ptrs] which touched no NSEC record. *)
Definition edited (zo z : zone) (ptrs : list (list label)) : Prop :=
  (forall x, ~ In x ptrs -> match nget zo x, nget z x with
     | None, None => True
     | Some m, Some n => n_types n = n_types m /\ n_deleg n = n_deleg m /\ n_nonauth n = n_nonauth m
     | _, _ => False
     end) /\
  (forall x n, nget z x = Some n -> n_nsec n = match nget zo x with Some m => n_nsec m | None => [] end).

(** The zones of a server which signs: after a first signing, updates are made and the chain is fixed. *)
Inductive signed_zone (apex : list label) : Z -> zone -> Prop :=
| SZ_first : forall ttl z0 z, a_zone apex z0 -> no_orphans z0 -> one_nsec z0 -> nsec_create_chain z0 ttl = Ok z -> signed_zone apex ttl z
| SZ_signed : forall ttl z z', signed_zone apex ttl z ->
    (** signatures are made or removed, leaving none at nodes without data *)
    Forall2 (fun e e' => fst e = fst e' /\ n_types (snd e) = n_types (snd e') /\ n_nsec (snd e) = n_nsec (snd e') /\
                         n_deleg (snd e) = n_deleg (snd e') /\ n_nonauth (snd e) = n_nonauth (snd e')) z z' ->
    clean z' -> signed_zone apex ttl z'
| SZ_update : forall ttlo ttl zo z ptrs moved changed z', signed_zone apex ttlo zo ->
    a_zone apex z -> no_orphans z -> StronglySorted canonical_lt ptrs -> (forall x, In x ptrs \/ In x moved -> x = apex \/ canonical_lt apex x) ->
    (changed = false -> edited zo z ptrs) -> one_nsec z ->
    zone_fix_nsec_chain zo z ptrs moved apex ttlo ttl changed = Ok z' -> signed_zone apex ttl z'.

(** A chain as a validator checks it: every authoritative node with any RRset has one NSEC record, naming the next such
    node, with exactly the types of RRsets the node has (at a delegation point NS, DS, NSEC, and RRSIG if it covers DS or
    NSEC); no other node has any. *)
Definition has_rrsets (n : node) : bool := negb (n_nonauth n) && negb (no_rrsets n).
Definition participants (z : zone) : list (list label) := map fst (filter (fun e => has_rrsets (snd e)) z).
Definition present (n : node) (t : Z) : Prop :=
  (In t (n_types n) /\ (n_deleg n = true -> t = 2 \/ t = 43)) \/ (t = 47 /\ n_nsec n <> []) \/
  (t = 46 /\ n_sigs n <> [] /\ (n_deleg n = true -> In 43 (n_sigs n) \/ In 47 (n_sigs n))).
Definition valid_chain (z : zone) : Prop :=
  (forall x n, In (x, n) z -> has_rrsets n = true ->
     exists s, n_nsec n = [s] /\ follows (participants z) x (ns_next s) /\ lists (ns_bitmap s) (present n)) /\
  (forall x n, In (x, n) z -> has_rrsets n = false -> n_nsec n = []).
