(** The NSEC chain of a zone: src/knot/dnssec/nsec-chain.c, its creation, its incremental fixing and its validation, with
    the pointers to previous nodes of src/knot/zone/adjust.c:347-411.

    A zone is the list of its normal nodes in the order of its tree, which is the canonical order of names (C05), so the
    apex comes first. A name is the list of its labels in lower case, compared in the canonical order (C04 relates that
    order to knot_dname_cmp). Of a node the model has the types of its RRsets other than NSEC and RRSIG, the types covered
    by its RRSIGs, its NSEC records and the two flags which matter. A node of the new version without any RRset is kept in
    the list, whether it is an empty non-terminal or was deleted from the tree: the code treats the two alike. NSEC3
    records are in another tree. Memory is available. *)
From Verif Require Import Base BitmapModel DnameSpec.

(** The rdata of an NSEC record (src/libknot/rrtype/nsec.h) with the TTL of its RRset *)
Record nsec := mknsec { ns_next : list label; ns_bitmap : list Z; ns_ttl : Z }.
(** src/knot/zone/node.h:40-66, the fields used: RRset types, types covered by RRSIGs, NSEC records, NODE_FLAGS_DELEG,
    NODE_FLAGS_NONAUTH *)
Record node := mknode { n_types : list Z; n_sigs : list Z; n_nsec : list nsec; n_deleg : bool; n_nonauth : bool }.
Definition zone := list (list label * node).
Definition T_NS : Z := 2.
Definition T_DS : Z := 43.
Definition T_RRSIG : Z := 46.
Definition T_NSEC : Z := 47.

(** knot_dname_cmp(a, b) < 0 and knot_dname_is_equal on names in lower case *)
Definition name_ltb (a b : list label) : bool := match canonical_cmp a b with Lt => true | _ => false end.
Definition name_eqb (a b : list label) : bool := match canonical_cmp a b with Eq => true | _ => false end.
Fixpoint octets_eqb (a b : list Z) : bool :=
  match a, b with [], [] => true | x :: a, y :: b => (x =? y) && octets_eqb a b | _, _ => false end.
Definition isnil {A} (l : list A) : bool := match l with [] => true | _ => false end.

(** src/knot/zone/zone-tree.c:124-144 *)
Fixpoint nget (z : zone) (x : list label) : option node :=
  match z with [] => None | (y, n) :: z => if name_eqb y x then Some n else nget z x end.
(** Storing through the pointer to a node *)
Fixpoint nset (z : zone) (x : list label) (n : node) : zone :=
  match z with [] => [] | (y, m) :: z => if name_eqb y x then (y, n) :: z else (y, m) :: nset z x n end.

(** node->rrset_count == 0 *)
Definition no_rrsets (n : node) : bool := isnil (n_types n) && isnil (n_sigs n) && isnil (n_nsec n).
(** src/knot/dnssec/nsec-chain.c:705-717 *)
Definition empty_nsec_and_rrsigs (n : node) : bool := isnil (n_types n).
(** src/knot/dnssec/nsec-chain.c:228-233; [None]: NODE_FLAGS_DELETED *)
Definition node_no_nsec (n : option node) : bool :=
  match n with None => true | Some n => n_nonauth n || no_rrsets n end.

(** src/libdnssec/nsec/bitmap.c through dnssec_nsec_bitmap_add, _size and _write: see BitmapModel.v *)
Fixpoint bm_add_list (b : bitmap) (ts : list Z) : res bitmap :=
  match ts with [] => Ok b | t :: ts => let* b := bitmap_add b t in bm_add_list b ts end.
Definition bitmap_wire (ts : list Z) : res (list Z) :=
  let* b := bm_add_list bitmap_new ts in let* n := bitmap_size b in bitmap_write b (repeat 0 (Z.to_nat n)).
(** src/knot/dnssec/nsec-chain.c:26-48 *)
Definition at_deleg (t : Z) : bool := (t =? T_NS) || (t =? T_DS).
Definition node_types (n : node) (exact : bool) : list Z :=
  (if n_deleg n then filter at_deleg (n_types n) else n_types n) ++
  (if exact && negb (isnil (n_nsec n)) then [T_NSEC] else []) ++
  (if exact && negb (isnil (n_sigs n)) &&
      (negb (n_deleg n) || existsb (Z.eqb T_DS) (n_sigs n) || existsb (Z.eqb T_NSEC) (n_sigs n)) then [T_RRSIG] else []).

(** src/knot/dnssec/nsec-chain.c:52-105 *)
Definition create_nsec (from : node) (to : list label) (ttl : Z) : res nsec :=
  let* w := bitmap_wire (node_types from false ++ [T_NSEC; T_RRSIG]) in Ok (mknsec to w ttl).

(** zone_update_remove of the NSEC RRset of a node, zone_update_add of an NSEC record (src/knot/updates/zone-update.c) *)
Definition rem_nsec (n : node) : node := mknode (n_types n) (n_sigs n) [] (n_deleg n) (n_nonauth n).
Definition nsec_eqb (a b : nsec) : bool :=
  name_eqb (ns_next a) (ns_next b) && octets_eqb (ns_bitmap a) (ns_bitmap b) && (ns_ttl a =? ns_ttl b).
Definition add_nsec (n : node) (x : nsec) : node :=
  mknode (n_types n) (n_sigs n) (if existsb (nsec_eqb x) (n_nsec n) then n_nsec n else n_nsec n ++ [x]) (n_deleg n) (n_nonauth n).
(** src/knot/dnssec/nsec-chain.c:656-699: the NSEC RRset and its signatures; signatures of NSEC3 are in another tree *)
Definition changeset_remove (n : node) : node :=
  mknode (n_types n) (filter (fun t => negb (t =? T_NSEC)) (n_sigs n)) [] (n_deleg n) (n_nonauth n).

(** src/knot/dnssec/nsec-chain.c:119-185; [true]: NSEC_NODE_SKIP. knot_rrset_rr_to_canonical refuses an RRset with more
    than one record. *)
Definition connect_nsec_nodes (ttl : Z) (z : zone) (a b : list label) : res (zone * bool) :=
  match nget z a, nget z b with
  | Some na, Some nb =>
    if negb (isnil (n_nsec nb)) && (n_nonauth nb || empty_nsec_and_rrsigs nb) then Ok (nset z b (changeset_remove nb), true)
    else if no_rrsets nb || n_nonauth nb then Ok (z, true)
    else
      let* new := create_nsec na b ttl in
      match n_nsec na with
      | [] => Ok (nset z a (add_nsec na new), false)
      | [old] => if nsec_eqb new old then Ok (z, false) else Ok (nset z a (add_nsec (changeset_remove na) new), false)
      | _ => Err KNOT_EINVAL
      end
  | _, _ => UB
  end.
(** src/knot/dnssec/nsec-chain.c:196-226: the node [a] is given, [b] is a node of the zone *)
Definition reconnect_nsec_nodes (z : zone) (a : node) (b : list label) : res zone :=
  match nget z b with
  | Some nb =>
    match n_nsec a, n_nsec nb with
    | an :: _, bn :: _ => Ok (nset z b (add_nsec (rem_nsec nb) (mknsec (ns_next an) (ns_bitmap bn) (ns_ttl bn))))
    | _, _ => UB
    end
  | None => UB
  end.

(** src/knot/dnssec/nsec-chain.c:243-265 *)
Definition nsec_update_bitmap (ttl : Z) (n : node) : res node :=
  if node_no_nsec (Some n) || empty_nsec_and_rrsigs n then Ok (changeset_remove n)
  else
    let next := match n_nsec n with [] => [] | old :: _ => ns_next old end in
    let* new := create_nsec n next ttl in Ok (add_nsec (rem_nsec n) new).
(** src/knot/dnssec/nsec-chain.c:267-281; deleted nodes are left out *)
Fixpoint nsec_update_bitmaps (ttl : Z) (z : zone) (ptrs : list (list label)) : res zone :=
  match ptrs with
  | [] => Ok z
  | x :: ptrs => match nget z x with
                 | Some n => let* n := nsec_update_bitmap ttl n in nsec_update_bitmaps ttl (nset z x n) ptrs
                 | None => nsec_update_bitmaps ttl z ptrs
                 end
  end.

(** src/knot/dnssec/nsec-chain.c:335-345 with node->prev as set by src/knot/zone/adjust.c:376-411: the previous
    authoritative node with RRsets, and the last such node for the first one. The pointers of the new version are set
    after the bitmaps are updated, and nothing later in fixing changes which nodes these are, so they are looked up when
    needed. The assertion on the result is kept. *)
Definition has_auth (n : node) : bool := negb (n_nonauth n) && negb (no_rrsets n).
Definition auth_names (z : zone) : list (list label) := map fst (filter (fun e => has_auth (snd e)) z).
Fixpoint last_opt {A} (l : list A) : option A := match l with [] => None | [x] => Some x | _ :: l => last_opt l end.
Definition nsec_prev (z : zone) (x : list label) : res (list label) :=
  let p := match last_opt (filter (fun y => name_ltb y x) (auth_names z)) with Some y => Some y | None => last_opt (auth_names z) end in
  match p with
  | None => UB
  | Some p => match nget z p with Some n => if empty_nsec_and_rrsigs n then UB else Ok p | None => UB end
  end.

(** src/knot/dnssec/nsec-chain.c:524-539: the pointers are compared by names *)
Definition node_nearer (a : list label) (b : option (list label)) (ref : list label) : list label :=
  match b with
  | None => a
  | Some b =>
    if name_eqb a b then b else
    let abigger := negb (name_ltb a ref) in let bbigger := negb (name_ltb b ref) in
    let cmp := canonical_cmp a b in let cmp := if Bool.eqb abigger bbigger then cmp else CompOpp cmp in
    match cmp with Lt => b | _ => a end
  end.

(** src/knot/dnssec/nsec-chain.c:546-590; the callback changes the zone and says if the node is to be skipped. The
    deletion-safe iterator works on a copy of the list of nodes (src/knot/zone/zone-tree.c:411-475). *)
Definition create_cb := zone -> list label -> list label -> res (zone * bool).
Fixpoint create_loop (cb : create_cb) (z : zone) (first previous current : list label) (skip : bool) (rest : list (list label)) : res (zone * bool) :=
  match rest with
  | [] => if skip then cb z previous first else cb z current first
  | x :: rest =>
    let* (z, skip) := cb z previous x in
    create_loop cb z first (if skip then previous else x) x skip rest
  end.
Definition chain_iterate_create (cb : create_cb) (z : zone) : res (zone * bool) :=
  match map fst z with [] => Err KNOT_EINVAL | first :: rest => create_loop cb z first first first false rest end.

(** src/knot/dnssec/nsec-chain.c:627-630 *)
Fixpoint old_prev_loop (fuel : nat) (zo z : zone) (x : list label) : res (list label) :=
  match fuel with
  | O => OOF
  | S fuel => let* p := nsec_prev zo x in
              if node_no_nsec (nget z p) then old_prev_loop fuel zo z p else Ok p
  end.
(** src/knot/dnssec/nsec-chain.c:592-649; [items]: what is left of this pass of the iterator. The two halves of a node are
    the nodes of that name in the old and in the new version. *)
Fixpoint fix_loop (fuel : nat) (ttl : Z) (zo z : zone) (all items : list (list label)) (started prev_it : option (list label)) : res zone :=
  match fuel with
  | O => OOF
  | S fuel =>
    match (match items with [] => match started with None => UB | Some _ => Ok all end | _ => Ok items end) with
    | Ok (c :: items) =>
      let del_new := node_no_nsec (nget z c) in
      let del_old := node_no_nsec (nget zo c) in
      if match started with Some s => name_eqb s c | None => false end then Ok z else
      let started := match started with None => if negb del_old && negb del_new then Some c else None | s => s end in
      let on := match started with Some _ => true | None => false end in
      let* z :=
        if negb del_old && del_new && on then
          let* prev_new := old_prev_loop (S (length zo)) zo z c in
          match nget zo c with Some co => reconnect_nsec_nodes z co (node_nearer prev_new prev_it c) | None => UB end
        else Ok z in
      let* (z, prev_it) :=
        if del_old && negb del_new && on then
          let* p := nsec_prev z c in
          match nget z p with
          | None => UB
          | Some np =>
            let* z := reconnect_nsec_nodes z np c in
            let* (z, skip) := connect_nsec_nodes ttl z p c in
            if (skip : bool) then Err 1 else Ok (z, Some c)
          end
        else Ok (z, prev_it) in
      fix_loop fuel ttl zo z all items started prev_it
    | Ok [] => UB
    | Err e => Err e
    | UB => UB
    | OOF => OOF
    end
  end.

(** src/knot/zone/zone-tree.c:91-113 on a set of names *)
Fixpoint ins_name (x : list label) (l : list (list label)) : list (list label) :=
  match l with
  | [] => [x]
  | y :: l' => if name_eqb x y then l else if name_ltb x y then x :: l else y :: ins_name x l'
  end.
Definition ins_names (xs l : list (list label)) : list (list label) := fold_right ins_name l xs.

(** src/knot/dnssec/nsec-chain.c:724-733 *)
Definition nsec_create_chain (z : zone) (ttl : Z) : res zone :=
  let* (z, skip) := chain_iterate_create (connect_nsec_nodes ttl) z in if (skip : bool) then Err 1 else Ok z.
(** src/knot/dnssec/nsec-chain.c:735-761; [ptrs]: the changed nodes, [moved]: the nodes whose previous node has changed
    (src/knot/zone/adjust.c:376-381), which adjusting adds to them *)
Definition nsec_fix_chain (zo z : zone) (ptrs moved : list (list label)) (apex : list label) (ttl : Z) : res zone :=
  let* z := nsec_update_bitmaps ttl z ptrs in
  let all := ins_name apex (ins_names moved ptrs) in
  fix_loop (S (length all)) ttl zo z all all None None.
(** src/knot/dnssec/zone-nsec.c:369-402, [ttlo]/[ttl]: the TTL of NSEC before and after the update, [changed_nsec]:
    UPDATE_CHANGED_NSEC *)
Definition zone_fix_nsec_chain (zo z : zone) (ptrs moved : list (list label)) (apex : list label) (ttlo ttl : Z) (changed_nsec : bool) : res zone :=
  if negb (ttlo =? ttl) || changed_nsec then nsec_create_chain z ttl else nsec_fix_chain zo z ptrs moved apex ttl.

(** src/knot/dnssec/nsec-chain.c:302-333 *)
Definition check_connect (z : zone) (a b : list label) : res (zone * bool) :=
  match nget z a with
  | None => UB
  | Some na =>
    if node_no_nsec (nget z b) then Ok (z, true) else
    match n_nsec na with
    | [x] => if name_eqb (ns_next x) b then Ok (z, false) else Err KNOT_DNSSEC_ENSEC_CHAIN
    | _ => Err KNOT_DNSSEC_ENSEC_CHAIN
    end
  end.
(** src/knot/dnssec/nsec-chain.c:347-398 *)
Definition check_prev_next (z : zone) (x : list label) : res unit :=
  match nget z x with
  | None => Ok tt
  | Some n =>
    if node_no_nsec (Some n) then Ok tt else
    let* p := nsec_prev z x in
    let* (_, skip) := check_connect z p x in
    if (skip : bool) then Ok tt else
    match n_nsec n with
    | [s] =>
      match nget z (ns_next s) with
      | None => Err KNOT_DNSSEC_ENSEC_CHAIN
      | Some _ => let* q := nsec_prev z (ns_next s) in if name_eqb q x then Ok tt else Err KNOT_DNSSEC_ENSEC_CHAIN
      end
    | _ => Err KNOT_DNSSEC_ENSEC_CHAIN
    end
  end.
(** src/knot/dnssec/nsec-chain.c:418-515, for NSEC *)
Definition check_nsec_bitmap (n : option node) : res unit :=
  match n with
  | None => Ok tt
  | Some n =>
    let shall_no_nsec := node_no_nsec (Some n) in
    if negb (length (n_nsec n) =? 1)%nat && negb shall_no_nsec then Err KNOT_DNSSEC_ENONSEC
    else if shall_no_nsec && negb (isnil (n_nsec n)) then Err KNOT_DNSSEC_EXTRA_NSEC
    else if shall_no_nsec then Ok tt
    else
      let* w := bitmap_wire (node_types n true) in
      match n_nsec n with
      | x :: _ => if octets_eqb w (ns_bitmap x) then Ok tt else Err KNOT_DNSSEC_ENSEC_BITMAP
      | [] => UB
      end
  end.
(** zone_tree_apply over the names of a tree *)
Fixpoint apply_all (f : list label -> res unit) (l : list (list label)) : res unit :=
  match l with [] => Ok tt | x :: l => let* _ := f x in apply_all f l end.
(** src/knot/dnssec/nsec-chain.c:763-780 *)
Definition nsec_check_chain (z : zone) : res unit :=
  let* _ := apply_all (fun x => check_nsec_bitmap (nget z x)) (map fst z) in
  let* (_, skip) := chain_iterate_create check_connect z in if (skip : bool) then Err 1 else Ok tt.
(** src/knot/dnssec/nsec-chain.c:782-798 *)
Definition nsec_check_chain_fix (z : zone) (ptrs : list (list label)) : res unit :=
  let* _ := apply_all (fun x => check_nsec_bitmap (nget z x)) ptrs in apply_all (check_prev_next z) ptrs.
