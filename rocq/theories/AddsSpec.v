(** What the reverse index of additional names is for. *)
From Verif Require Import Base AddsModel.

(** A name below another one *)
Definition under (n a : name) : Prop := exists p, p <> [] /\ n = p ++ a.
(** The types of records whose names get addresses into the additional section: NS, MX, SRV, SVCB, HTTPS *)
Definition with_additional (type : Z) : Prop := In type [2; 15; 33; 64; 65].
(** Node [x] of the zone mentions the name [n] of the zone. The apex always has a node, it needs no index. *)
Definition mentions (c : contents) (x : Z) (n : name) : Prop :=
  In x (c_nodes c) /\ under n (c_apex c) /\
  exists r, In r (v_list (c_at c x)) /\ with_additional (rr_type r) /\ In n (rr_names r).
(** [n] is the name of the NSEC3 of node [x]. *)
Definition hashed (c : contents) (x : Z) (n : name) : Prop :=
  In x (c_nodes c) /\ exists h, c_nsec3 c = Some h /\ n = h (v_owner (c_at c x)).
Definition refers (c : contents) (x : Z) (n : name) : Prop := mentions c x n \/ hashed c x n.

Definition null_free_name (n : name) : Prop := Forall (Forall (fun b => b <> 0)) n.
(** A zone: a node is listed once, exactly the nodes not deleted are listed and the deleted are empty; there are no names with zero octets in labels
    (the keys of the trie do not tell them apart); a node has
    one RRset of a type; a node does not mention the name of its own NSEC3. *)
Definition zone_ok (c : contents) : Prop :=
  NoDup (c_nodes c) /\
  (forall x, In x (c_nodes c) <-> v_deleted (c_at c x) = false) /\
  (forall x, v_deleted (c_at c x) = true -> v_list (c_at c x) = []) /\
  (forall x n, refers c x n -> null_free_name n) /\
  (forall x, null_free_name (v_owner (c_at c x))) /\
  (forall x n, mentions c x n -> hashed c x n -> False) /\
  (forall x r r', In r (v_list (c_at c x)) -> In r' (v_list (c_at c x)) -> rr_type r = rr_type r' -> r = r').

(** An update that touches the nodes [ptrs]: the others stay as they are. The two halves of a node have one owner, and what
    they share is the same. *)
Definition updated (old new : contents) (ptrs : list Z) : Prop :=
  c_apex new = c_apex old /\
  NoDup ptrs /\
  (forall x, ~ In x ptrs -> c_at new x = c_at old x) /\
  (forall x, v_owner (c_at new x) = v_owner (c_at old x)) /\
  (forall x, v_rrs (c_at new x) = v_rrs (c_at old x) -> v_list (c_at new x) = v_list (c_at old x)) /\
  (forall x r r', In r (v_list (c_at old x)) -> In r' (v_list (c_at new x)) -> rr_type r = rr_type r' -> rr_ptr r = rr_ptr r' ->
     rr_names r = rr_names r').

Definition no_failure (al : alloc) : Prop := (forall k, a_new al k = true) /\ (forall k x, a_grow al k x = true).

(** Histories: a load, updates that keep the index, updates that change the parameters of NSEC3, updates that failed and
    were dropped with the index. *)
Inductive history : contents -> option tree -> Prop :=
| h_load : forall al c t, zone_ok c -> no_failure al -> from_zone al c = Ok t -> history c (Some t)
| h_update : forall al old new t nsec3change ptrs vis t', history old t -> zone_ok new -> updated old new ptrs ->
    (nsec3change = false -> c_nsec3 new = c_nsec3 old) -> no_failure al ->
    incremental al t nsec3change old new ptrs = Ok (vis, t') -> history new (Some t')
| h_failed : forall c t, history c t -> history c None.
