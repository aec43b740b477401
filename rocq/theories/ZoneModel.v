(** Zone contents, changesets and their application: src/knot/zone/zone-tree.c, src/knot/zone/contents.c,
    src/knot/updates/changesets.c, apply.c, zone-update.c.

    A name is the list of its labels. The trees of a zone are maps from names to nodes (the trie is modelled on its own);
    the apex node, which is in the tree of normal nodes too, is kept apart. A node has its RRsets (NodeModel.v) and the
    number of its children; the parent of a node is found by its name instead of a pointer. Memory is available. After an
    error the state is not given: the callers abandon the whole update then. Sharing of record data between the old and
    the new version of a node is not modelled here. *)
From Verif Require Import Base RdatasetModel NodeModel.

Definition name := list (list Z).
Fixpoint bytes_eqb (a b : list Z) : bool :=
  match a, b with [], [] => true | x :: a, y :: b => (x =? y) && bytes_eqb a b | _, _ => false end.
(** knot_dname_is_equal *)
Fixpoint name_eqb (a b : name) : bool :=
  match a, b with [], [] => true | x :: a, y :: b => bytes_eqb x y && name_eqb a b | _, _ => false end.
(** knot_dname_in_bailiwick(name, apex) >= 0 *)
Fixpoint under (o apex : name) : bool :=
  name_eqb o apex || match o with [] => false | _ :: p => under p apex end.

(** src/knot/zone/node.h:40-66, the fields used *)
Record znode := mkzn { zn_rrs : list rr_data; zn_children : Z }.
Definition tree := list (name * znode).
(** src/knot/zone/contents.h, zone_contents_t *)
Record contents := mkz { z_apex : name; z_apexn : znode; z_nodes : tree; z_nsec3 : tree }.
(** knot_rrset_t: the owner and the rest *)
Definition rrset := (name * rr_data)%type.
Definition NSEC3 : Z := 50.
Definition SOA : Z := 6.

(** src/knot/zone/zone-tree.c:124-144 *)
Fixpoint tget (t : tree) (o : name) : option znode :=
  match t with [] => None | (o', n) :: t => if name_eqb o' o then Some n else tget t o end.
(** src/knot/zone/zone-tree.c:91-113, and storing through a pointer to a node *)
Fixpoint tset (t : tree) (o : name) (n : znode) : tree :=
  match t with [] => [(o, n)] | (o', n') :: t => if name_eqb o' o then (o', n) :: t else (o', n') :: tset t o n end.
(** src/knot/zone/zone-tree.c:201-219 *)
Fixpoint tdel (t : tree) (o : name) : tree :=
  match t with [] => [] | (o', n') :: t => if name_eqb o' o then t else (o', n') :: tdel t o end.
(** The node with an owner in one of the trees, [k]: of NSEC3 nodes *)
Definition zget (z : contents) (k : bool) (o : name) : option znode :=
  if k then tget (z_nsec3 z) o else if name_eqb o (z_apex z) then Some (z_apexn z) else tget (z_nodes z) o.
Definition zset (z : contents) (k : bool) (o : name) (n : znode) : contents :=
  if k then mkz (z_apex z) (z_apexn z) (z_nodes z) (tset (z_nsec3 z) o n)
  else if name_eqb o (z_apex z) then mkz (z_apex z) n (z_nodes z) (z_nsec3 z)
  else mkz (z_apex z) (z_apexn z) (tset (z_nodes z) o n) (z_nsec3 z).
Definition zdel (z : contents) (k : bool) (o : name) : contents :=
  if k then mkz (z_apex z) (z_apexn z) (z_nodes z) (tdel (z_nsec3 z) o) else mkz (z_apex z) (z_apexn z) (tdel (z_nodes z) o) (z_nsec3 z).

(** src/knot/zone/contents.c:169-203 *)
Definition contents_new (apex : name) : contents := mkz apex (mkzn [] 0) [] [].

(** src/knot/zone/zone-tree.c:221-257. The result tells where the node is: the apex is in the tree of normal nodes even if
    the NSEC3 tree was asked for. The flag of wildcard children is not modelled *)
Fixpoint add_node (o : name) (z : contents) (k : bool) : res (contents * (bool * name)) :=
  if name_eqb o (z_apex z) then Ok (z, (false, o)) else
  if negb (under o (z_apex z)) then Err KNOT_EOUTOFZONE else
  match zget z k o with
  | Some _ => Ok (z, (k, o))
  | None =>
    match o with
    | [] => Err KNOT_EOUTOFZONE
    | _ :: p =>
      let z := zset z k o (mkzn [] 0) in
      let* (z, (pk, po)) := add_node p z k in
      match zget z pk po with
      | None => UB
      | Some pn => Ok (zset z pk po (mkzn (zn_rrs pn) (zn_children pn + 1)), (k, o))
      end
    end
  end.
(** src/knot/zone/zone-tree.c:259-286 *)
Fixpoint del_node (o : name) (z : contents) (k : bool) : contents :=
  match o with
  | [] => z
  | _ :: p =>
    let z := zdel z k o in
    let pk := if name_eqb p (z_apex z) then false else k in
    match zget z pk p with
    | None => z
    | Some pn =>
      let pn := mkzn (zn_rrs pn) (zn_children pn - 1) in
      let z := zset z pk p pn in
      if (zn_children pn =? 0) && (zlen (zn_rrs pn) =? 0) && negb (name_eqb p (z_apex z)) then del_node p z k else z
    end
  end.
(** src/libknot/rrset.c:127-137, src/libknot/rrtype/rrsig.h:31-35 *)
Definition is_nsec3rel (r : rr_data) : res bool :=
  if rr_type r =? NSEC3 then Ok true else
  if rr_type r =? RRSIG then
    let* d := rdataset_at (rr_rrs r) 0 in
    match d with b1 :: b2 :: _ => Ok (b1 * 256 + b2 =? NSEC3) | _ => UB end
  else Ok false.
(** knot_rrset_empty *)
Definition rr_empty (r : rr_data) : bool := count (rr_rrs r) =? 0.

(** src/knot/zone/contents.c:115-130, 224-237, with *n == NULL. KNOT_ETTL is a success with a message: the result is the
    code with the contents *)
Definition contents_add_rr (z : contents) (s : rrset) : res (Z * contents) :=
  let (o, r) := s in
  if rr_empty r then Err KNOT_EINVAL else
  let* k := is_nsec3rel r in
  let* (z, (k, o)) := add_node o z k in
  match zget z k o with
  | None => UB
  | Some n =>
    let* (ret, rrs) := node_add_rrset yes true (zn_rrs n) r in
    if (ret =? KNOT_EOK) || (ret =? KNOT_ETTL) then Ok (ret, zset z k o (mkzn rrs (zn_children n))) else Err ret
  end.
(** src/knot/zone/contents.c:132-165, 239-251, with *n == NULL. *)
Definition remove_from_node (z : contents) (k : bool) (o : name) (n : znode) (r : rr_data) : res contents :=
  let* (ret, rrs) := node_remove_rrset yes false (zn_rrs n) r in
  if negb (ret =? KNOT_EOK) then Err ret else
  let z := zset z k o (mkzn rrs (zn_children n)) in
  if (zlen rrs =? 0) && (zn_children n =? 0) && negb (name_eqb o (z_apex z) && negb k) then Ok (del_node o z k) else Ok z.
Definition contents_remove_rr (z : contents) (s : rrset) : res contents :=
  let (o, r) := s in
  if rr_empty r then Err KNOT_EINVAL else
  if negb (under o (z_apex z)) then Err KNOT_EOUTOFZONE else
  let* k := is_nsec3rel r in
  match zget z k o with
  | None => Err KNOT_ENONODE
  | Some n => remove_from_node z k o n r
  end.
(** src/knot/zone/contents.c:606-617 *)
Definition contents_is_empty (z : contents) : bool :=
  (zlen (zn_rrs (z_apexn z)) =? 0) && (zlen (z_nodes z) =? 0) && (zlen (z_nsec3 z) =? 0).

(** ** Changesets *)
(** src/knot/updates/changesets.h:30-40 *)
Record changeset := mkch { ch_add : contents; ch_rem : contents; soa_from : option rrset; soa_to : option rrset }.
(** src/knot/updates/changesets.c:123-137 *)
Definition changeset_init (apex : name) : changeset := mkch (contents_new apex) (contents_new apex) None None.
(** src/knot/updates/changesets.c:46-53 *)
Definition add_rr_to_contents (z : contents) (s : rrset) : res contents :=
  let* (_, z) := contents_add_rr z s in Ok z.
(** src/knot/updates/changesets.c:81-121: counterpart and the RRset without what has been there. Errors of the two
    operations on RDATA sets come from lack of memory only *)
Definition check_redundancy (z : contents) (s : rrset) : res (contents * rrset) :=
  let (o, r) := s in
  let* k := is_nsec3rel r in
  match zget z k o with
  | None => Ok (z, s)
  | Some n =>
    match node_rrset (zn_rrs n) (rr_type r) with
    | None => Ok (z, s)
    | Some e =>
      if (rr_ttl r =? rr_ttl e) || (rr_type r =? RRSIG) then
        let* (_, rrs, _) := rdataset_subtract yes false (rr_rrs r) (rr_rrs e) in
        let* (ret, nrrs) := node_remove_rrset yes false (zn_rrs n) r in
        if negb (ret =? KNOT_EOK) then Ok (z, (o, mkrr (rr_type r) (rr_ttl r) rrs)) else
        let z := zset z k o (mkzn nrrs (zn_children n)) in
        let z := if (zlen nrrs =? 0) && (zn_children n =? 0) && negb (name_eqb o (z_apex z) && negb k) then del_node o z k else z in
        Ok (z, (o, mkrr (rr_type r) (rr_ttl r) rrs))
      else
        let z := if (zlen (zn_rrs n) =? 0) && (zn_children n =? 0) && negb (name_eqb o (z_apex z) && negb k) then del_node o z k else z in
        Ok (z, s)
    end
  end.
(** src/knot/updates/changesets.c:203-237; [check] is CHANGESET_CHECK *)
Definition changeset_add_addition (ch : changeset) (s : rrset) (check : bool) : res changeset :=
  if rr_type (snd s) =? SOA then Ok (mkch (ch_add ch) (ch_rem ch) (soa_from ch) (Some s)) else
  let* (rem, s) := if check then check_redundancy (ch_rem ch) s else Ok (ch_rem ch, s) in
  if rr_empty (snd s) then Ok (mkch (ch_add ch) rem (soa_from ch) (soa_to ch)) else
  let* add := add_rr_to_contents (ch_add ch) s in
  Ok (mkch add rem (soa_from ch) (soa_to ch)).
(** src/knot/updates/changesets.c:239-273 *)
Definition changeset_add_removal (ch : changeset) (s : rrset) (check : bool) : res changeset :=
  if rr_type (snd s) =? SOA then Ok (mkch (ch_add ch) (ch_rem ch) (Some s) (soa_to ch)) else
  let* (add, s) := if check then check_redundancy (ch_add ch) s else Ok (ch_add ch, s) in
  if rr_empty (snd s) then Ok (mkch add (ch_rem ch) (soa_from ch) (soa_to ch)) else
  let* rem := add_rr_to_contents (ch_rem ch) s in
  Ok (mkch add rem (soa_from ch) (soa_to ch)).
(** src/knot/updates/changesets.c:496-545: the RRsets in the order of iteration, which is canonical in the code *)
Definition iter (z : contents) : list rrset :=
  flat_map (fun p => map (fun e => (fst p, e)) (zn_rrs (snd p))) ((z_apex z, z_apexn z) :: z_nodes z ++ z_nsec3 z).
Fixpoint fold_res {A B} (f : A -> B -> res A) (l : list B) (a : A) : res A :=
  match l with [] => Ok a | x :: l => let* a := f a x in fold_res f l a end.
(** src/knot/updates/changesets.c:305-348 *)
Definition changeset_merge (ch1 ch2 : changeset) : res changeset :=
  let* ch := fold_res (fun ch s => changeset_add_removal ch s true) (iter (ch_rem ch2)) ch1 in
  let* ch := fold_res (fun ch s => changeset_add_addition ch s true) (iter (ch_add ch2)) ch in
  match soa_to ch2, soa_from ch2 with
  | None, None => Ok ch
  | to, _ => Ok (mkch (ch_add ch) (ch_rem ch) (soa_from ch) to)
  end.
(** src/knot/updates/changesets.c:156-176 *)
Definition changeset_empty (ch : changeset) : res bool :=
  if contents_is_empty (ch_rem ch) && contents_is_empty (ch_add ch) then
    match soa_to ch, soa_from ch with
    | None, _ => Ok true
    | Some (o2, r2), Some (o1, r1) =>
      if negb (rr_type r1 =? rr_type r2) || negb (name_eqb o1 o2) then Ok false else rdataset_eq (rr_rrs r1) (rr_rrs r2)
    | _, None => Ok false
    end
  else Ok false.
(** src/knot/updates/changesets.c:554-602 *)
Definition changeset_walk {A} (f : A -> rrset -> bool -> res A) (ch : changeset) (a : A) : res A :=
  let* a := fold_res (fun a s => f a s false) (iter (ch_rem ch)) a in
  let* a := match soa_from ch with Some s => f a s false | None => Ok a end in
  let* a := fold_res (fun a s => f a s true) (iter (ch_add ch)) a in
  match soa_to ch with Some s => f a s true | None => Ok a end.

(** ** Application *)
(** src/knot/updates/apply.c:102-115, 131-140; [want]: all records must be members, or none of them *)
Fixpoint members (n : nat) (r : list Z) (off : Z) (of : rdataset) (want : bool) : res bool :=
  match n with
  | O => Ok true
  | S n =>
    let* cur := rr_get r off in
    let* m := rdataset_member of cur in
    if negb (Bool.eqb m want) then Ok false else
    let* off := rdataset_next r off in
    members n r off of want
  end.
(** src/knot/updates/apply.c:91-117 *)
Definition can_remove (n : option znode) (r : rr_data) : res bool :=
  match n with
  | None => Ok false
  | Some n =>
    match node_rdataset (zn_rrs n) (rr_type r) with
    | None => Ok false
    | Some s => members (Z.to_nat (count (rr_rrs r))) (raw (rr_rrs r)) 0 s true
    end
  end.
(** src/knot/updates/apply.c:120-143 *)
Definition can_add (n : option znode) (r : rr_data) : res bool :=
  match n with
  | None => Ok true
  | Some n =>
    match node_rdataset (zn_rrs n) (rr_type r) with
    | None => Ok true
    | Some s => members (Z.to_nat (count (rr_rrs r))) (raw (rr_rrs r)) 0 s false
    end
  end.
(** src/knot/updates/apply.c:191-232. A node deleted before by the same update is taken again with no RRsets and no
    children, like a new one *)
Definition apply_add_rr (strict : bool) (z : contents) (s : rrset) : res contents :=
  let (o, r) := s in
  let* k := is_nsec3rel r in
  let* (z, (k, o)) := add_node o z k in
  let* c := can_add (zget z k o) r in
  if negb c then (if strict then Err KNOT_EISRECORD else Ok z) else
  match zget z k o with
  | None => UB
  | Some n =>
    let* (ret, rrs) := node_add_rrset yes true (zn_rrs n) r in
    if (ret =? KNOT_EOK) || (ret =? KNOT_ETTL) then Ok (zset z k o (mkzn rrs (zn_children n))) else Err ret
  end.
(** src/knot/updates/apply.c:234-273 *)
Definition apply_remove_rr (strict : bool) (z : contents) (s : rrset) : res contents :=
  let (o, r) := s in
  let* k := is_nsec3rel r in
  let* c := can_remove (zget z k o) r in
  if negb c then (if strict then Err KNOT_ENORECORD else Ok z) else
  match zget z k o with
  | None => UB
  | Some n => remove_from_node z k o n r
  end.
(** src/knot/updates/apply.c:275-297. If there is no SOA at the apex, an empty RRset is to be removed: no node is found
    for it *)
Definition apply_replace_soa (strict : bool) (z : contents) (s : rrset) : res contents :=
  let (o, r) := s in
  if negb (name_eqb o (z_apex z)) then Err KNOT_EDENIED else
  let* z :=
    match node_rrset (zn_rrs (z_apexn z)) SOA with
    | Some e => apply_remove_rr strict z (z_apex z, e)
    | None => if strict then Err KNOT_ENORECORD else Ok z
    end in
  match node_rrset (zn_rrs (z_apexn z)) SOA with
  | Some _ => Err KNOT_ESOAINVAL
  | None => apply_add_rr strict z s
  end.

(** ** Incremental updates: src/knot/updates/zone-update.c *)
(** The new contents and the changeset, which is not recorded with UPDATE_NO_CHSET *)
Record update := mkup { u_new : contents; u_chg : option changeset }.
(** src/knot/updates/zone-update.c:521-567, UPDATE_INCREMENTAL *)
Definition zone_update_remove (strict : bool) (u : update) (s : rrset) : res update :=
  if rr_empty (snd s) then Ok u else
  if rr_type (snd s) =? SOA then Ok u else
  let* z := apply_remove_rr strict (u_new u) s in
  match u_chg u with
  | None => Ok (mkup z None)
  | Some ch => let* ch := changeset_add_removal ch s true in Ok (mkup z (Some ch))
  end.
(** src/knot/updates/zone-update.c:424-457, 459-519, UPDATE_INCREMENTAL. Reading the existing RRset looks into the tree of
    normal nodes only. The two functions call each other *)
Fixpoint zone_update_add (fuel : nat) (strict : bool) (u : update) (s : rrset) : res update :=
  match fuel with
  | O => OOF
  | S fuel =>
    let (o, r) := s in
    if rr_empty r then Ok u else
    let* z := if rr_type r =? SOA then apply_replace_soa strict (u_new u) s else apply_add_rr strict (u_new u) s in
    let u := mkup z (u_chg u) in
    let* u :=
      if (rr_type r =? RRSIG) || (rr_type r =? SOA) then Ok u else
      match zget (u_new u) false o with
      | None => Ok u
      | Some n =>
        match node_rrset (zn_rrs n) (rr_type r) with
        | None => Ok u
        | Some e =>
          if rr_empty e || (rr_ttl e =? rr_ttl r) then Ok u else
          let* u := zone_update_remove strict u (o, e) in
          zone_update_add fuel strict u (o, mkrr (rr_type e) (rr_ttl r) (rr_rrs e))
        end
      end in
    match u_chg u with
    | None => Ok u
    | Some ch => let* ch := changeset_add_addition ch s true in Ok (mkup (u_new u) (Some ch))
    end
  end.
(** src/knot/updates/zone-update.c:611-624 *)
Definition apply_changeset (strict : bool) (u : update) (ch : changeset) : res update :=
  changeset_walk (fun u s add => if add then zone_update_add 3 strict u s else zone_update_remove strict u s) ch u.
(** src/knot/updates/zone-update.c:626-634 *)
Definition apply_changeset_reverse (strict : bool) (u : update) (ch : changeset) : res update :=
  apply_changeset strict u (mkch (ch_rem ch) (ch_add ch) (soa_to ch) (soa_from ch)).
