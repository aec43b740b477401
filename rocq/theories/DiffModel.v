(** The difference of two zones: src/knot/zone/zone-diff.c. Memory is available. *)
From Verif Require Import Base DnameModel RdatasetModel NodeModel SerialModel ZoneModel.

Definition NSEC : Z := 47.
Definition ZONEMD : Z := 63.
(** src/libknot/rrtype/soa.h:42-60, wire.h:79-86: two names and four bytes *)
Definition soa_serial (d : list Z) : res Z :=
  let* m := dname_size d in
  let* d := advance d m in
  let* n := dname_size d in
  let* d := advance d n in
  match d with b1 :: b2 :: b3 :: b4 :: _ => Ok (((b1 * 256 + b2) * 256 + b3) * 256 + b4) | _ => UB end.
(** src/knot/zone/zone-diff.c:31-41 *)
Definition is_dnssec (r : rr_data) : bool := (rr_type r =? RRSIG) || (rr_type r =? NSEC) || (rr_type r =? NSEC3).
(** src/knot/zone/zone-diff.c:98-101 and the other places: the types left out *)
Definition ignored (idnssec izonemd : bool) (r : rr_data) : bool := (idnssec && is_dnssec r) || (izonemd && (rr_type r =? ZONEMD)).
(** src/knot/zone/zone-diff.c:43-89. KNOT_ENODIFF is not a failure yet: the result is the code with the changeset *)
Definition load_soas (z1 z2 : contents) (ch : changeset) : res (Z * changeset) :=
  match node_rrset (zn_rrs (z_apexn z1)) SOA, node_rrset (zn_rrs (z_apexn z2)) SOA with
  | Some e1, Some e2 =>
    if rr_empty e1 || rr_empty e2 then Err KNOT_EINVAL else
    let* d1 := rdataset_at (rr_rrs e1) 0 in
    let* d2 := rdataset_at (rr_rrs e2) 0 in
    let* s1 := soa_serial d1 in
    let* s2 := soa_serial d2 in
    match serial_compare s1 s2 with
    | SERIAL_EQUAL => Ok (KNOT_ENODIFF, ch)
    | SERIAL_LOWER => Ok (KNOT_EOK, mkch (ch_add ch) (ch_rem ch) (Some (z_apex z1, e1)) (Some (z_apex z2, e2)))
    | _ => Err KNOT_ERANGE
    end
  | _, _ => Err KNOT_EINVAL
  end.
(** src/knot/zone/zone-diff.c:91-110 *)
Definition diff_add_node (di zi : bool) (o : name) (n : znode) (ch : changeset) : res changeset :=
  fold_res (fun ch r => if ignored di zi r then Ok ch else changeset_add_addition ch (o, r) false) (zn_rrs n) ch.
(** src/knot/zone/zone-diff.c:112-131 *)
Definition diff_remove_node (di zi : bool) (o : name) (n : znode) (ch : changeset) : res changeset :=
  fold_res (fun ch r => if ignored di zi r then Ok ch else changeset_add_removal ch (o, r) false) (zn_rrs n) ch.
(** src/knot/zone/zone-diff.c:153-167 *)
Fixpoint changes_loop (n : nat) (ttl_differ : bool) (r : list Z) (off : Z) (rrs2 out : rdataset) : res rdataset :=
  match n with
  | O => Ok out
  | S n =>
    let* rr := rr_get r off in
    let* m := if ttl_differ then Ok false else rdataset_member rrs2 rr in
    let* out := if m then Ok out else rdataset_add yes out rr in
    let* off := rdataset_next r off in
    changes_loop n ttl_differ r off rrs2 out
  end.
(** src/knot/zone/zone-diff.c:133-170 *)
Definition rdata_return_changes (r1 r2 : rr_data) : res rr_data :=
  let ttl_differ := negb (rr_ttl r1 =? rr_ttl r2) && negb (rr_type r1 =? RRSIG) in
  let* s := changes_loop (Z.to_nat (count (rr_rrs r1))) ttl_differ (raw (rr_rrs r1)) 0 (rr_rrs r2) rdataset_init in
  Ok (mkrr (rr_type r1) (rr_ttl r1) s).
(** src/knot/zone/zone-diff.c:172-214 *)
Definition diff_rrsets (o : name) (r1 r2 : rr_data) (ch : changeset) : res changeset :=
  let* rem := rdata_return_changes r1 r2 in
  let* add := rdata_return_changes r2 r1 in
  let* ch := if rr_empty rem then Ok ch else changeset_add_removal ch (o, rem) false in
  if rr_empty add then Ok ch else changeset_add_addition ch (o, add) false.
(** src/knot/zone/zone-diff.c:217-306; [get]: the second tree *)
Definition diff_node (di zi : bool) (get : name -> option znode) (ch : changeset) (p : name * znode) : res changeset :=
  let (o, n1) := p in
  match get o with
  | None => diff_remove_node di zi o n1 ch
  | Some n2 =>
    if zlen (zn_rrs n1) =? 0 then diff_add_node di zi o n2 ch else
    let* ch := fold_res (fun ch r =>
      if (rr_type r =? SOA) || ignored di zi r then Ok ch else
      match node_rrset (zn_rrs n2) (rr_type r) with
      | None => changeset_add_removal ch (o, r) false
      | Some r2 => if rr_empty r2 then changeset_add_removal ch (o, r) false else diff_rrsets o r r2 ch
      end) (zn_rrs n1) ch in
    fold_res (fun ch r =>
      if (rr_type r =? SOA) || ignored di zi r then Ok ch else
      match node_rrset (zn_rrs n1) (rr_type r) with
      | None => changeset_add_addition ch (o, r) false
      | Some r1 => if rr_empty r1 then changeset_add_addition ch (o, r) false else Ok ch
      end) (zn_rrs n2) ch
  end.
(** src/knot/zone/zone-diff.c:308-334; [get]: the first tree *)
Definition diff_new_node (di zi : bool) (get : name -> option znode) (ch : changeset) (p : name * znode) : res changeset :=
  let (o, n) := p in match get o with None => diff_add_node di zi o n ch | Some _ => Ok ch end.
(** src/knot/zone/zone-diff.c:336-358. The tree of normal nodes has the apex too *)
Definition tree_of (z : contents) (k : bool) : tree := if k then z_nsec3 z else (z_apex z, z_apexn z) :: z_nodes z.
Definition load_trees (di zi : bool) (t1 t2 : tree) (ch : changeset) : res changeset :=
  let* ch := fold_res (diff_node di zi (tget t2)) t1 ch in
  fold_res (diff_new_node di zi (tget t1)) t2 ch.
(** src/knot/zone/zone-diff.c:360-396 *)
Definition contents_diff (di zi : bool) (z1 z2 : contents) (ch : changeset) : res (Z * changeset) :=
  let* (ret, ch) := load_soas z1 z2 ch in
  let* ch := load_trees di zi (tree_of z1 false) (tree_of z2 false) ch in
  let* ch := load_trees di zi (tree_of z1 true) (tree_of z2 true) ch in
  if ret =? KNOT_ENODIFF then
    let* emp := changeset_empty ch in
    if emp then Ok (ret, ch) else Err KNOT_ESEMCHECK
  else Ok (ret, ch).
