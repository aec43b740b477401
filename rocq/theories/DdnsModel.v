(** Dynamic updates: src/knot/updates/ddns.c. A record of the message has an owner, a class and an RRset with one record.
    The update is incremental and does not record a changeset (src/knot/events/handlers/update.c:176). Memory is
    available. Logging is left out. *)
From Verif Require Import Base RdatasetModel NodeModel ZoneModel UpdateModel SerialModel DiffModel.

Record mrr := mkm { m_owner : name; m_class : Z; m_rr : rr_data }.
(** src/libknot/consts.h, src/libknot/descriptor.h *)
Definition CLASS_IN : Z := 1.
Definition CLASS_NONE : Z := 254.
Definition CLASS_ANY : Z := 255.
Definition T_NS : Z := 2.
Definition T_CNAME : Z := 5.
Definition T_DNAME : Z := 39.
Definition T_NSEC3PARAM : Z := 51.
Definition T_ANY : Z := 255.
Definition RC_NOERROR : Z := 0.
Definition RC_FORMERR : Z := 1.
Definition RC_SERVFAIL : Z := 2.
Definition RC_NXDOMAIN : Z := 3.
Definition RC_REFUSED : Z := 5.
Definition RC_YXDOMAIN : Z := 6.
Definition RC_YXRRSET : Z := 7.
Definition RC_NXRRSET : Z := 8.
Definition RC_NOTZONE : Z := 10.

(** The RRsets of the node found, none if there is no node *)
Definition node_rrs (n : option (bool * znode)) : list rr_data := match n with Some (_, n) => zn_rrs n | None => [] end.
(** src/knot/zone/node.h:333-336 *)
Definition type_exists (n : option (bool * znode)) (t : Z) : bool := match node_rdataset (node_rrs n) t with Some _ => true | None => false end.

(** ** Prerequisites. The results are the code and the RCODE *)
(** src/knot/updates/ddns.c:39-55, src/libknot/rrset.c:109-124 *)
Fixpoint add_rr_to_list (l : list rrset) (o : name) (r : rr_data) : res (Z * list rrset) :=
  match l with
  | [] => Ok (KNOT_EOK, [(o, r)])
  | (o', r') :: l =>
    if (rr_type r' =? rr_type r) && name_eqb o' o then
      let* (ret, s) := rdataset_merge yes (rr_rrs r') (rr_rrs r) in
      Ok (ret, (o', mkrr (rr_type r') (rr_ttl r') s) :: l)
    else
      let* (ret, l) := add_rr_to_list l o r in Ok (ret, (o', r') :: l)
  end.
(** src/knot/updates/ddns.c:58-78 *)
Definition check_rrset_exists (z : contents) (s : rrset) : res (Z * Z) :=
  let (o, r) := s in
  if rr_type r =? T_ANY then UB else
  match node_rrset (node_rrs (node_or_nsec3 z o)) (rr_type r) with
  | None => Ok (KNOT_EPREREQ, RC_NXRRSET)
  | Some found =>
    if rr_empty found then UB else
    let* e := rdataset_eq (rr_rrs found) (rr_rrs r) in
    Ok (if e then (KNOT_EOK, RC_NOERROR) else (KNOT_EPREREQ, RC_NXRRSET))
  end.
(** src/knot/updates/ddns.c:80-95 *)
Fixpoint check_stored_rrsets (z : contents) (l : list rrset) : res (Z * Z) :=
  match l with
  | [] => Ok (KNOT_EOK, RC_NOERROR)
  | s :: l =>
    let* (ret, rc) := check_rrset_exists z s in
    if negb (ret =? KNOT_EOK) then Ok (ret, rc) else check_stored_rrsets z l
  end.
(** src/knot/updates/ddns.c:97-107 *)
Definition check_type (z : contents) (o : name) (t : Z) : res bool :=
  if t =? T_ANY then UB else Ok (type_exists (node_or_nsec3 z o) t).
(** src/knot/updates/ddns.c:109-120 *)
Definition check_type_exist (z : contents) (o : name) (t : Z) : res (Z * Z) :=
  let* c := check_type z o t in Ok (if c then (KNOT_EOK, RC_NOERROR) else (KNOT_EPREREQ, RC_NXRRSET)).
(** src/knot/updates/ddns.c:122-133 *)
Definition check_type_not_exist (z : contents) (o : name) (t : Z) : res (Z * Z) :=
  let* c := check_type z o t in Ok (if c then (KNOT_EPREREQ, RC_YXRRSET) else (KNOT_EOK, RC_NOERROR)).
(** src/knot/updates/ddns.c:135-146 *)
Definition check_in_use (z : contents) (o : name) : Z * Z :=
  if zlen (node_rrs (node_or_nsec3 z o)) =? 0 then (KNOT_EPREREQ, RC_NXDOMAIN) else (KNOT_EOK, RC_NOERROR).
(** src/knot/updates/ddns.c:148-159 *)
Definition check_not_in_use (z : contents) (o : name) : Z * Z :=
  if zlen (node_rrs (node_or_nsec3 z o)) =? 0 then (KNOT_EOK, RC_NOERROR) else (KNOT_EPREREQ, RC_YXDOMAIN).
(** src/knot/updates/ddns.c:161-172 *)
Definition rrset_empty (r : rr_data) : res bool :=
  if count (rr_rrs r) =? 0 then Ok true else
  if count (rr_rrs r) =? 1 then let* d := rdataset_at (rr_rrs r) 0 in Ok (zlen d =? 0) else Ok false.
(** src/knot/updates/ddns.c:174-220; the list of RRsets to be compared is returned too *)
Definition process_prereq (z : contents) (qclass : Z) (m : mrr) (l : list rrset) : res (Z * Z * list rrset) :=
  let r := m_rr m in
  if negb (rr_ttl r =? 0) then Ok (KNOT_EMALF, RC_FORMERR, l) else
  if negb (under (m_owner m) (z_apex z)) then Ok (KNOT_EOUTOFZONE, RC_NOTZONE, l) else
  if m_class m =? CLASS_ANY then
    let* e := rrset_empty r in
    if negb e then Ok (KNOT_EMALF, RC_FORMERR, l) else
    if rr_type r =? T_ANY then Ok (check_in_use z (m_owner m), l) else
    let* x := check_type_exist z (m_owner m) (rr_type r) in Ok (x, l)
  else if m_class m =? CLASS_NONE then
    let* e := rrset_empty r in
    if negb e then Ok (KNOT_EMALF, RC_FORMERR, l) else
    if rr_type r =? T_ANY then Ok (check_not_in_use z (m_owner m), l) else
    let* x := check_type_not_exist z (m_owner m) (rr_type r) in Ok (x, l)
  else if m_class m =? qclass then
    let* (ret, l) := add_rr_to_list l (m_owner m) r in
    Ok (ret, if ret =? KNOT_EOK then RC_NOERROR else RC_SERVFAIL, l)
  else Ok (KNOT_EMALF, RC_FORMERR, l).
(** src/knot/updates/ddns.c:632-659 *)
Fixpoint prereq_loop (z : contents) (qclass : Z) (ms : list mrr) (l : list rrset) : res (Z * Z) :=
  match ms with
  | [] => check_stored_rrsets z l
  | m :: ms =>
    let* (ret, rc, l) := process_prereq z qclass m l in
    if negb (ret =? KNOT_EOK) then Ok (ret, rc) else prereq_loop z qclass ms l
  end.
Definition ddns_process_prereqs (z : contents) (qclass : Z) (ms : list mrr) : res (Z * Z) := prereq_loop z qclass ms [].

(** ** Checks of the update section *)
(** src/libknot/descriptor.c:330-340 *)
Definition is_metatype (t : Z) : bool := existsb (Z.eqb t) [24; 41; 128; 249; 250; 251; 252; 255].
(** src/knot/updates/ddns.c:556-604; the zone in the question is this one *)
Definition check_update (z : contents) (qclass : Z) (m : mrr) : res (Z * Z) :=
  let r := m_rr m in
  if negb (under (m_owner m) (z_apex z)) then Ok (KNOT_EOUTOFZONE, RC_NOTZONE) else
  if (rr_type r =? T_NSEC3PARAM) && (negb (name_eqb (m_owner m) (z_apex z)) || type_exists (Some (false, z_apexn z)) (rr_type r))
  then Ok (KNOT_EDENIED, RC_REFUSED) else
  if m_class m =? qclass then
    if is_metatype (rr_type r) then Ok (KNOT_EMALF, RC_FORMERR) else Ok (KNOT_EOK, RC_NOERROR)
  else if m_class m =? CLASS_ANY then
    let* e := rrset_empty r in
    if negb e || (is_metatype (rr_type r) && negb (rr_type r =? T_ANY)) then Ok (KNOT_EMALF, RC_FORMERR) else Ok (KNOT_EOK, RC_NOERROR)
  else if m_class m =? CLASS_NONE then
    if negb (rr_ttl r =? 0) || is_metatype (rr_type r) then Ok (KNOT_EMALF, RC_FORMERR) else Ok (KNOT_EOK, RC_NOERROR)
  else Ok (KNOT_EMALF, RC_FORMERR).
(** src/knot/updates/ddns.c:661-680 *)
Fixpoint ddns_precheck_update (z : contents) (qclass : Z) (ms : list mrr) : res (Z * Z) :=
  match ms with
  | [] => Ok (KNOT_EOK, RC_NOERROR)
  | m :: ms =>
    let* (ret, rc) := check_update z qclass m in
    if negb (ret =? KNOT_EOK) then Ok (ret, rc) else ddns_precheck_update z qclass ms
  end.

(** ** The update section *)
(** src/knot/updates/ddns.c:221-244 *)
Definition is_addition (m : mrr) : bool := m_class m =? CLASS_IN.
Definition is_removal (m : mrr) : bool := (m_class m =? CLASS_NONE) || (m_class m =? CLASS_ANY).
Definition is_rr_removal (m : mrr) : bool := m_class m =? CLASS_NONE.
Definition is_rrset_removal (m : mrr) : bool := (m_class m =? CLASS_ANY) && negb (rr_type (m_rr m) =? T_ANY).
Definition is_node_removal (m : mrr) : bool := (m_class m =? CLASS_ANY) && (rr_type (m_rr m) =? T_ANY).
(** src/knot/updates/ddns.c:247-252 *)
Definition should_replace (t : Z) : bool := (t =? T_CNAME) || (t =? T_DNAME) || (t =? T_NSEC3PARAM).
(** src/knot/updates/ddns.c:255-266 *)
Definition node_contains_rr (n : list rr_data) (r : rr_data) : res bool :=
  match node_rdataset n (rr_type r) with
  | None => Ok false
  | Some s => if negb (count (rr_rrs r) =? 1) then UB else let* d := rdataset_at (rr_rrs r) 0 in rdataset_member s d
  end.
Definition has_dname (n : list rr_data) : bool := match node_rrset n T_DNAME with Some e => negb (rr_empty e) | None => false end.
(** src/knot/updates/ddns.c:278-284, 295-301: the nodes above a node by node->parent. The pointer leads to either version
    of the parent if the node has been there before the update; [z0] is the zone before, [old] tells for which nodes the
    parent is seen in its version from then *)
Fixpoint dname_above (z0 : contents) (old : name -> bool) (z : contents) (k : bool) (o : name) : bool :=
  match o with
  | [] => false
  | _ :: p =>
    if name_eqb o (z_apex z) then false else
    let pk := if name_eqb p (z_apex z) then false else k in
    let src := if old o && match zget z0 k o with Some _ => true | None => false end then z0 else z in
    has_dname (match zget src pk p with Some n => zn_rrs n | None => [] end) || dname_above z0 old z pk p
  end.
(** src/knot/updates/ddns.c:275-284: the node is the next one above that exists *)
Fixpoint dname_enclosing (z0 : contents) (old : name -> bool) (z : contents) (o : name) : bool :=
  match o with
  | [] => false
  | _ :: p =>
    match node_or_nsec3 z p with
    | Some (k, n) => has_dname (zn_rrs n) || dname_above z0 old z k p
    | None => dname_enclosing z0 old z p
    end
  end.
(** src/knot/updates/ddns.c:268-305 *)
Definition adding_to_cname (z0 : contents) (old : name -> bool) (z : contents) (o : name) (n : option (bool * znode)) : bool :=
  match n with
  | None => dname_enclosing z0 old z o
  | Some (k, n) =>
    match node_rrset (zn_rrs n) T_CNAME with Some e => negb (rr_empty e) | None => false end || dname_above z0 old z k o
  end.
(** src/knot/updates/ddns.c:308-318 *)
Definition skip_soa (m : mrr) (sn : Z) : res bool :=
  if negb (rr_type (m_rr m) =? SOA) then Ok false else
  if (m_class m =? CLASS_NONE) || (m_class m =? CLASS_ANY) then Ok true else
  let* d := rdataset_at (rr_rrs (m_rr m)) 0 in
  let* s := soa_serial d in
  Ok (match serial_compare s sn with SERIAL_GREATER => false | _ => true end).
(** src/knot/updates/ddns.c:320-328 *)
Definition singleton_replaced (u : update) (o : name) (r : rr_data) : res (bool * update) :=
  if negb (should_replace (rr_type r)) then Ok (false, u) else
  match zone_update_remove_rrset false u o (rr_type r) with
  | Ok u => Ok (true, u)
  | Err _ => Ok (false, u)
  | UB => UB
  | OOF => OOF
  end.
(** src/knot/updates/ddns.c:330-337 *)
Definition add_rr_to_changeset (u : update) (o : name) (r : rr_data) : res update :=
  let* (rep, u) := singleton_replaced u o r in
  if rep then Ok u else zone_update_add 3 false u (o, r).
(** src/knot/updates/ddns.c:339-351, src/knot/zone/zone-tree.c:305-319: the normal nodes strictly below *)
Definition subtree_empty (z : contents) (o : name) (n : option (bool * znode)) : bool :=
  match n with
  | None => true
  | Some _ => forallb (fun p => negb (under (fst p) o && negb (name_eqb (fst p) o)) || (zlen (zn_rrs (snd p)) =? 0)) (z_nodes z)
  end.
(** src/libknot/rrset.c:109-124 *)
Definition rrset_equal (o1 : name) (r1 : rr_data) (o2 : name) (r2 : rr_data) (incl_ttl : bool) : res bool :=
  if negb (rr_type r1 =? rr_type r2) || (incl_ttl && negb (rr_ttl r1 =? rr_ttl r2)) then Ok false else
  if negb (name_eqb o1 o2) then Ok false else rdataset_eq (rr_rrs r1) (rr_rrs r2).
(** src/knot/updates/ddns.c:354-394 *)
Definition process_add_cname (z0 : contents) (old : name -> bool) (n : option (bool * znode)) (o : name) (r : rr_data) (u : update) : res update :=
  let t := rr_type r in
  match node_rrset (node_rrs n) t with
  | Some e =>
    let* eq := rrset_equal o e o r true in
    if eq then Ok u else
    let* u := zone_update_remove false u (o, e) in
    add_rr_to_changeset u o r
  | None =>
    if (t =? T_CNAME) && negb (zlen (node_rrs n) =? 0) then Ok u else
    if (t =? T_DNAME) && negb (subtree_empty (u_new u) o n) then Ok u else
    if (t =? T_DNAME) && type_exists n T_CNAME then Ok u else
    if (t =? T_CNAME) && adding_to_cname z0 old (u_new u) o n then Ok u else
    add_rr_to_changeset u o r
  end.
(** src/knot/updates/ddns.c:396-413 *)
Definition process_add_soa (n : option (bool * znode)) (o : name) (r : rr_data) (u : update) : res update :=
  match node_rrset (node_rrs n) SOA with
  | None => Ok u
  | Some e => let* eq := rrset_equal o e o r true in if eq then Ok u else add_rr_to_changeset u o r
  end.
(** src/knot/updates/ddns.c:416-431 *)
Definition process_add_normal (z0 : contents) (old : name -> bool) (n : option (bool * znode)) (o : name) (r : rr_data) (u : update) : res update :=
  if adding_to_cname z0 old (u_new u) o n then Ok u else
  let* c := match n with Some (_, n) => node_contains_rr (zn_rrs n) r | None => Ok false end in
  if c then Ok u else add_rr_to_changeset u o r.
(** src/knot/updates/ddns.c:434-447 *)
Definition process_add (z0 : contents) (old : name -> bool) (n : option (bool * znode)) (o : name) (r : rr_data) (u : update) : res update :=
  if (rr_type r =? T_CNAME) || (rr_type r =? T_DNAME) then process_add_cname z0 old n o r u else
  if rr_type r =? SOA then process_add_soa n o r u else process_add_normal z0 old n o r u.
(** src/knot/updates/ddns.c:450-490 *)
Definition process_rem_rr (n : option (bool * znode)) (o : name) (r : rr_data) (u : update) : res update :=
  match n with
  | None => Ok u
  | Some (_, nd) =>
    let last := type_exists n SOA && (rr_type r =? T_NS) &&
      match node_rdataset (zn_rrs nd) T_NS with None => true | Some s => count s =? 1 end in
    if last then Ok u else
    match node_rrset (zn_rrs nd) (rr_type r) with
    | None => Ok u
    | Some e =>
      if rr_empty e then Ok u else
      let* d := rdataset_at (rr_rrs r) 0 in
      let* m := rdataset_member (rr_rrs e) d in
      if negb m then Ok u else zone_update_remove false u (o, mkrr (rr_type r) (rr_ttl e) (rr_rrs r))
    end
  end.
(** src/knot/updates/ddns.c:493-516 *)
Definition process_rem_rrset (n : option (bool * znode)) (o : name) (t : Z) (u : update) : res update :=
  if type_exists n SOA && (t =? T_NS) then Ok u else
  match node_rrset (node_rrs n) t with
  | None => Ok u
  | Some e => zone_update_remove false u (o, e)
  end.
(** src/knot/updates/ddns.c:519-537. The node is read again for each of its types, from the last one: the RRsets before
    the removed one are in place. A node that has lost all of its RRsets is not looked at any more *)
Definition process_rem_node (o : name) (u : update) : res update :=
  match node_or_nsec3 (u_new u) o with
  | None => Ok u
  | Some (k, n) =>
    fold_res (fun u e => process_rem_rrset (match zget (u_new u) k o with Some n => Some (k, n) | None => None end) o (rr_type e) u)
      (rev (zn_rrs n)) u
  end.
(** src/knot/updates/ddns.c:540-553 *)
Definition process_remove (n : option (bool * znode)) (m : mrr) (u : update) : res update :=
  if is_rr_removal m then process_rem_rr n (m_owner m) (m_rr m) u else
  if is_rrset_removal m then process_rem_rrset n (m_owner m) (rr_type (m_rr m)) u else
  if is_node_removal m then process_rem_node (m_owner m) u else Err KNOT_EINVAL.
(** src/knot/updates/ddns.c:607-618 *)
Definition process_rr (z0 : contents) (old : name -> bool) (m : mrr) (u : update) : res update :=
  let n := node_or_nsec3 (u_new u) (m_owner m) in
  if is_addition m then process_add z0 old n (m_owner m) (m_rr m) u else
  if is_removal m then process_remove n m u else Err KNOT_EMALF.
(** src/knot/updates/ddns.c:682-712; [sn_old] is the serial of the zone before the update, [z0] *)
Definition process_step (z0 : contents) (old : name -> bool) (sn : Z) (u : update) (m : mrr) : res update :=
  let* skip := skip_soa m sn in
  if skip then Ok u else process_rr z0 old m u.
Definition ddns_process_update (z0 : contents) (old : name -> bool) (sn : Z) (ms : list mrr) (u : update) : res update :=
  fold_res (process_step z0 old sn) ms u.
(** src/knot/events/handlers/update.c:138-170: messages whose prerequisites or format fail are skipped *)
Fixpoint process_bulk (z0 : contents) (old : name -> bool) (sn qclass : Z) (reqs : list (list mrr * list mrr)) (u : update) : res update :=
  match reqs with
  | [] => Ok u
  | (pre, upd) :: reqs =>
    let* (ret, _) := ddns_process_prereqs (u_new u) qclass pre in
    if negb (ret =? KNOT_EOK) then process_bulk z0 old sn qclass reqs u else
    let* (ret, _) := ddns_precheck_update (u_new u) qclass upd in
    if negb (ret =? KNOT_EOK) then process_bulk z0 old sn qclass reqs u else
    let* u := ddns_process_update z0 old sn upd u in
    process_bulk z0 old sn qclass reqs u
  end.
