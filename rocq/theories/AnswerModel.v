(** Answering queries from a zone: src/knot/nameserver/internet.c, the search in src/knot/zone/contents.c and
    src/knot/zone/zone-tree.c, and the node flags of src/knot/zone/adjust.c.

    A node is given by its owner (all nodes meant are in the tree of normal nodes). The flags NODE_FLAGS_DELEG and
    NODE_FLAGS_NONAUTH are what adjusting the whole zone gives; NODE_FLAGS_WILDCARD_CHILD is a state of its own, the
    function [w]. Names contain no null byte (NODE_FLAGS_NULLBYTE and KNOT_PF_NULLBYTE are not set) and are in lower
    case. Not modelled: modules, DNSSEC records added to the answer, additional records, TTLs of the records put,
    rotation. The allocation in wildcard_visit, whose result the code does not check, succeeds. *)
From Verif Require Import Base RdatasetModel NodeModel ZoneModel.

Definition T_NS : Z := 2.
Definition T_CNAME : Z := 5.
Definition T_DNAME : Z := 39.
Definition T_DS : Z := 43.
Definition T_NSEC : Z := 47.
Definition T_ANY : Z := 255.
Definition RC_NOERROR : Z := 0.
Definition RC_SERVFAIL : Z := 2.
Definition RC_NXDOMAIN : Z := 3.
Definition RC_YXDOMAIN : Z := 6.
(** src/libknot/consts.h:37-38 *)
Definition MAXLEN : Z := 255.
Definition MAXLABELS : Z := 127.
(** src/knot/nameserver/internet.h:24 *)
Definition CNAME_CHAIN_MAX : Z := 5.

(** The label of wildcards *)
Definition star : list Z := [42].
(** src/libknot/dname.h, knot_dname_is_wildcard *)
Definition is_wildcard (o : name) : bool := match o with l :: _ => bytes_eqb l star | [] => false end.
(** src/libknot/dname.c, knot_dname_size *)
Fixpoint dname_size (o : name) : Z := match o with [] => 1 | l :: o => 1 + zlen l + dname_size o end.

(** ** Searching the zone *)
(** src/libknot/dname.c:662-703, the key in the trie: the labels from the last one, each ended by a zero *)
Definition key (o : name) : list Z := concat (map (fun l => l ++ [0]) (rev o)).
(** The order of keys in the trie *)
Fixpoint key_leb (a b : list Z) : bool :=
  match a, b with
  | [], _ => true
  | _ :: _, [] => false
  | x :: a, y :: b => if x <? y then true else if y <? x then false else key_leb a b
  end.
(** trie_get_leq: the greatest key that is not greater than the one searched for *)
Fixpoint get_leq (l : list name) (q : name) : option name :=
  match l with
  | [] => None
  | o :: l =>
    let r := get_leq l q in
    if key_leb (key o) (key q) then
      match r with
      | Some p => if key_leb (key o) (key p) then Some p else Some o
      | None => Some o
      end
    else r
  end.
(** The tree of normal nodes *)
Definition all_names (z : contents) : list name := z_apex z :: map fst (z_nodes z).
Definition node (z : contents) (o : name) : option znode := ZoneModel.zget z false o.
(** src/libknot/dname.c:554-582, the number of labels that agree from the end *)
Fixpoint matched_rev (a b : name) : Z :=
  match a, b with x :: a, y :: b => if bytes_eqb x y then 1 + matched_rev a b else 0 | _, _ => 0 end.
Definition matched_labels (a b : name) : Z := matched_rev (rev a) (rev b).
(** src/knot/zone/contents.c:337-340 *)
Fixpoint climb (z : contents) (matched : Z) (o : name) : res name :=
  if matched <? zlen o then
    if name_eqb o (z_apex z) then UB else match o with [] => UB | _ :: p => climb z matched p end
  else Ok o.
(** src/knot/zone/contents.c:295-344 with src/knot/zone/zone-tree.c:165-199: [Some (found, closest encloser)], or
    [None] for KNOT_EOUTOFZONE. There is a name that is not greater, because the apex is one: the case that there is
    none, where the code takes the rightmost node, is not modelled. *)
Definition find_dname (z : contents) (q : name) : res (option (option name * name)) :=
  if negb (under q (z_apex z)) then Ok None else
  match get_leq (all_names z) q with
  | None => UB
  | Some p =>
    if name_eqb p q then Ok (Some (Some p, p)) else
    let* c := climb z (matched_labels p q) p in
    Ok (Some (None, c))
  end.

(** src/knot/zone/node.h, node_rrtype_exists *)
Definition has_type (z : contents) (o : name) (t : Z) : bool :=
  match node z o with Some n => match node_rrset (zn_rrs n) t with Some _ => true | None => false end | None => false end.
(** src/knot/zone/adjust.c:29-66, NODE_FLAGS_DELEG and NODE_FLAGS_NONAUTH. Adjusting a zone visits the parent first *)
Fixpoint flags (z : contents) (o : name) : bool * bool :=
  if name_eqb o (z_apex z) then (false, false) else
  match o with
  | [] => (false, false)
  | _ :: p => let (d, na) := flags z p in if d || na then (false, true) else (has_type z o T_NS, false)
  end.
Definition deleg (z : contents) (o : name) : bool := fst (flags z o).
Definition nonauth (z : contents) (o : name) : bool := snd (flags z o).

(** NODE_FLAGS_WILDCARD_CHILD. A name is the owner of a node in the tree [k] *)
Definition here (z : contents) (k : bool) (o : name) : bool := match ZoneModel.zget z k o with Some _ => true | None => false end.
(** src/knot/zone/zone-tree.c:249-254. Adding a record creates nodes and never deletes one; the node [o] is the parent of
    a node of the tree of NSEC3 records only if it is the apex *)
Definition flag_add (z z' : contents) (w : name -> bool) (o : name) : bool :=
  w o || (here z' false (star :: o) && negb (here z false (star :: o)))
      || (name_eqb o (z_apex z) && here z' true (star :: o) && negb (here z true (star :: o))).
(** src/knot/zone/zone-tree.c:273-277. The flags of a deleted node are gone too *)
Definition flag_del (z z' : contents) (w : name -> bool) (o : name) : bool :=
  w o && here z' false o && negb (here z false (star :: o) && negb (here z' false (star :: o)))
      && negb (name_eqb o (z_apex z) && here z true (star :: o) && negb (here z' true (star :: o))).

(** ** The response *)
(** An RRset of the response: the owner on the wire, the data, and the node whose data are referred to ([None]: a
    copy was made) *)
Record entry := mkent { e_owner : name; e_rr : rr_data; e_from : option name }.
Record pkt := mkpkt { p_answer : list entry; p_authority : list entry }.
Definition p_all (p : pkt) : list entry := p_answer p ++ p_authority p.
(** What the packet and the memory allow. The result of writing an RRset behind the others (knot_pkt_put_rotate with
    knot_dname_copy and knot_rdataset_copy), the result of put_rrsig, dname_cname_synth has memory, the query came over UDP *)
Record env := mkenv { v_put : pkt -> entry -> Z; v_sig : pkt -> entry -> Z; v_mem : pkt -> bool; v_udp : bool }.

Definition same_node (a b : option name) : bool := match a, b with Some a, Some b => name_eqb a b | _, _ => false end.
(** src/libknot/packet/pkt.c:90-106. Records with the same memory belong to the same RRset of the same node *)
Definition pkt_contains (p : pkt) (e : entry) : bool :=
  existsb (fun x => (rr_type (e_rr x) =? rr_type (e_rr e)) && same_node (e_from x) (e_from e)) (p_all p).
(** src/knot/nameserver/process_query.c:953-1013. [sec]: the answer section is being written; [qname] is the name in the
    question, [cur] is qdata->name, [o] is the owner of the record and [from] its node, [hint]: KNOT_COMPR_HINT_QNAME,
    [dup]: KNOT_PF_CHECKDUP, [sigs]: there are signatures *)
Definition put_rr (v : env) (p : pkt) (sec : bool) (qname cur o : name) (from : option name) (r : rr_data) (hint dup sigs : bool) : Z * pkt :=
  if count (rr_rrs r) <? 1 then (KNOT_EMALF, p) else
  let expand := sec && negb (rr_type r =? T_DNAME) && is_wildcard o in
  let e := if negb hint && expand then mkent cur r None else mkent (if hint then qname else o) r from in
  if dup && pkt_contains p e then (KNOT_EOK, p) else
  let ret := v_put v p e in
  if negb (ret =? KNOT_EOK) then (ret, p) else
  (if sigs then v_sig v p e else KNOT_EOK,
   if sec then mkpkt (p_answer p ++ [e]) (p_authority p) else mkpkt (p_answer p) (p_authority p ++ [e])).

(** src/knot/nameserver/internet.h, knotd_in_state_t *)
Inductive state := BEGIN | NODATA | HIT | MISS | DELEG | FOLLOW | TRUNC | ERROR.
(** The parts of knotd_qdata_t used: name, rcode, extra->node, extra->encloser, extra->cname_chain and extra->wildcards *)
Record qdata := mkq { q_name : name; q_rcode : Z; q_node : option name; q_encloser : name; q_chain : Z; q_wild : list name; q_pkt : pkt; q_aa : bool }.
Definition set_name (q : qdata) (o : name) := mkq o (q_rcode q) (q_node q) (q_encloser q) (q_chain q) (q_wild q) (q_pkt q) (q_aa q).
Definition set_rcode (q : qdata) (c : Z) := mkq (q_name q) c (q_node q) (q_encloser q) (q_chain q) (q_wild q) (q_pkt q) (q_aa q).
Definition set_node (q : qdata) (o : option name) := mkq (q_name q) (q_rcode q) o (q_encloser q) (q_chain q) (q_wild q) (q_pkt q) (q_aa q).
Definition set_encloser (q : qdata) (o : name) := mkq (q_name q) (q_rcode q) (q_node q) o (q_chain q) (q_wild q) (q_pkt q) (q_aa q).
Definition set_chain (q : qdata) (c : Z) := mkq (q_name q) (q_rcode q) (q_node q) (q_encloser q) c (q_wild q) (q_pkt q) (q_aa q).
Definition set_wild (q : qdata) (l : list name) := mkq (q_name q) (q_rcode q) (q_node q) (q_encloser q) (q_chain q) l (q_pkt q) (q_aa q).
Definition set_pkt (q : qdata) (p : pkt) := mkq (q_name q) (q_rcode q) (q_node q) (q_encloser q) (q_chain q) (q_wild q) p (q_aa q).
Definition set_aa (q : qdata) := mkq (q_name q) (q_rcode q) (q_node q) (q_encloser q) (q_chain q) (q_wild q) (q_pkt q) true.

(** src/knot/nameserver/internet.c:27-36 *)
Definition has_visited (q : qdata) (o : name) : bool := existsb (name_eqb o) (q_wild q).
(** src/knot/nameserver/internet.c:39-56 *)
Definition visit (z : contents) (q : qdata) (o : name) : qdata := if nonauth z o then q else set_wild q (q_wild q ++ [o]).

(** The labels of a name in record data, as knot_dname_* functions read it; [None]: it does not end inside the data *)
Fixpoint labels_at (fuel : nat) (b : list Z) : option name :=
  match fuel, b with
  | S f, n :: b =>
    if n =? 0 then Some [] else
    if zlen b <? n then None else
    match labels_at f (skipn (Z.to_nat n) b) with Some o => Some (firstn (Z.to_nat n) b :: o) | None => None end
  | _, _ => None
  end.
(** src/libknot/rrtype/rdname.h, knot_cname_name and knot_dname_target of the first record *)
Definition target (r : rr_data) : res name :=
  let* d := rdataset_at (rr_rrs r) 0 in
  match labels_at (length d) d with Some o => Ok o | None => UB end.
(** The data of a name in the wire format *)
Definition name_data (o : name) : list Z := concat (map (fun l => zlen l :: l) o) ++ [0].
(** src/knot/nameserver/internet.c:100-112. The labels and sizes are unsigned; [q] is below [o] *)
Definition cannot_synth (q o t : name) : bool :=
  (MAXLABELS <? zlen q - zlen o + zlen t) || (MAXLEN <? dname_size q - dname_size o + dname_size t).
(** src/knot/nameserver/internet.c:59-94. The name is the query name with its last labels replaced *)
Definition synth_name (q o t : name) : name := firstn (length q - length o) q ++ t.
Definition synth (q o t : name) (ttl : Z) : rr_data :=
  let d := name_data (synth_name q o t) in
  mkrr T_CNAME ttl (mkset 1 (rdata_size (zlen d)) (rdata_init d)).

(** src/knot/dnssec/rrset-sign.c, knot_synth_rrsig with KNOT_RRTYPE_ANY and memory: the records that cover the same type
    as the first one *)
Fixpoint synth_rrsig (n : nat) (r : list Z) (off : Z) (cov : option Z) (out : rdataset) : res rdataset :=
  match n with
  | O => Ok out
  | S n =>
    let* d := rr_get r off in
    match d with
    | b1 :: b2 :: _ =>
      let c := b1 * 256 + b2 in
      let cov := match cov with Some c => c | None => c end in
      let* out := (if cov =? c then rdataset_add yes out d else Ok out) in
      let* off := rdataset_next r off in
      synth_rrsig n r off (Some cov) out
    | _ => UB
    end
  end.

(** The node with its RRsets *)
Definition rrs_of (z : contents) (o : name) : res (list rr_data) := match node z o with Some n => Ok (zn_rrs n) | None => UB end.
Definition has_sigs (rrs : list rr_data) : bool := match node_rrset rrs RRSIG with Some r => negb (rr_empty r) | None => false end.
(** src/knot/nameserver/internet.c:124-168: [None]: nothing to put *)
Definition answer_rr (rrs : list rr_data) (t : Z) : res (option rr_data) :=
  if t =? T_ANY then Ok (match rrs with r :: _ => Some r | [] => None end) else
  if t =? RRSIG then
    match node_rrset rrs RRSIG with
    | None => Ok None
    | Some s =>
      if rr_empty s then Ok None else
      let* out := synth_rrsig (Z.to_nat (count (rr_rrs s))) (raw (rr_rrs s)) 0 None rdataset_init in
      Ok (Some (mkrr RRSIG (rr_ttl s) out))
    end
  else Ok (node_rrset rrs t).
Definition put_answer (z : contents) (v : env) (qname : name) (t : Z) (q : qdata) : res (Z * pkt) :=
  match q_node q with
  | None => UB
  | Some o =>
    let* rrs := rrs_of z o in
    let hint := zlen (p_all (q_pkt q)) =? 0 in
    match answer_rr rrs t with
    | Err e => Ok (e, q_pkt q)
    | UB => UB
    | OOF => OOF
    | Ok None => Ok (KNOT_EOK, q_pkt q)
    | Ok (Some r) =>
      if rr_empty r then Ok (KNOT_EOK, q_pkt q) else
      Ok (put_rr v (q_pkt q) true qname (q_name q) o (if t =? RRSIG then None else Some o) r hint false (has_sigs rrs && negb (rr_type r =? RRSIG)))
    end
  end.

(** src/knot/nameserver/internet.c:310-313, 331-335 *)
Definition failed (ret : Z) : state := if ret =? KNOT_ESPACE then TRUNC else ERROR.
(** src/knot/nameserver/internet.c:341-369, after the records have been put: [before] is the number of RRsets then, [o] the
    node with the alias and [t] its target *)
Definition follow_on (z : contents) (before : Z) (o t : name) (q : qdata) : state * qdata :=
  if zlen (p_all (q_pkt q)) <=? before then (HIT, set_node q None) else
  if is_wildcard o then
    if has_visited q o then (HIT, visit z (set_node q None) o) else (FOLLOW, set_name (visit z q o) t)
  else (FOLLOW, set_name q t).
(** src/knot/nameserver/internet.c:289-370 *)
Definition follow_cname (z : contents) (v : env) (qname : name) (qtype rrtype : Z) (q : qdata) : res (state * qdata) :=
  let q := set_chain q (q_chain q + 1) in
  if CNAME_CHAIN_MAX <? q_chain q then Ok (HIT, set_node q None) else
  match q_node q with
  | None => UB
  | Some o =>
    let* rrs := rrs_of z o in
    match node_rrset rrs rrtype with
    | None => UB
    | Some r =>
      if rr_empty r then UB else
      let before := zlen (p_all (q_pkt q)) in
      let (ret, p) := put_rr v (q_pkt q) true qname (q_name q) o (Some o) r false true (has_sigs rrs) in
      let q := set_pkt q p in
      if negb (ret =? KNOT_EOK) then Ok (failed ret, q) else
      let* t := target r in
      if rrtype =? T_DNAME then
        if cannot_synth (q_name q) o t then Ok (follow_on z before o t (set_rcode q RC_YXDOMAIN)) else
        if negb (v_mem v p) then Ok (ERROR, set_rcode q RC_SERVFAIL) else
        let (ret, p) := put_rr v p true qname (q_name q) (q_name q) None (synth (q_name q) o t (rr_ttl r)) false false false in
        let q := set_pkt q p in
        if negb (ret =? KNOT_EOK) then Ok (failed ret, q) else
        if qtype =? T_CNAME then Ok (HIT, q) else
        Ok (follow_on z before o (synth_name (q_name q) o t) q)
      else Ok (follow_on z before o t q)
    end
  end.
(** src/knot/nameserver/internet.c:372-407 *)
Definition name_found (z : contents) (v : env) (qname : name) (qtype : Z) (q : qdata) : res (state * qdata) :=
  match q_node q with
  | None => UB
  | Some o =>
    if (deleg z o && negb (qtype =? T_DS)) || nonauth z o then Ok (DELEG, q) else
    if has_type z o T_CNAME && negb (qtype =? T_CNAME) && negb (qtype =? RRSIG) && negb (qtype =? T_NSEC) && negb (qtype =? T_ANY)
    then follow_cname z v qname qtype T_CNAME q else
    let old := zlen (p_all (q_pkt q)) in
    let* (ret, p) := put_answer z v qname qtype q in
    let q := set_pkt q p in
    if negb (ret =? KNOT_EOK) then Ok (if (ret =? KNOT_ESPACE) && v_udp v then TRUNC else ERROR, q) else
    Ok (if old =? zlen (p_all p) then NODATA else HIT, q)
  end.
(** src/knot/nameserver/internet.c:443-447 *)
Fixpoint auth_above (z : contents) (o : name) : res name :=
  let* rrs := rrs_of z o in
  if (zlen rrs =? 0) || nonauth z o then
    if name_eqb o (z_apex z) then UB else match o with [] => UB | _ :: p => auth_above z p end
  else Ok o.
(** src/knot/nameserver/internet.c:409-457 *)
Definition name_not_found (z : contents) (w : name -> bool) (v : env) (qname : name) (qtype : Z) (q : qdata) : res (state * qdata) :=
  let c := q_encloser q in
  if w c then
    let s := star :: c in
    match node z s with
    | None => UB
    | Some _ =>
      let* (st, q) := name_found z v qname qtype (set_node q (Some s)) in
      Ok (st, if has_visited q s then q else visit z q s)
    end
  else
    let* rrs := rrs_of z c in
    if negb (deleg z c || nonauth z c) && match node_rrset rrs T_DNAME with Some r => negb (rr_empty r) | None => false end
    then follow_cname z v qname qtype T_DNAME (set_node q (Some c))
    else
      let* a := auth_above z c in
      if deleg z a then Ok (DELEG, set_node q (Some a)) else Ok (MISS, q).
(** src/knot/nameserver/internet.c:459-477. [first]: the state is not KNOTD_IN_STATE_FOLLOW *)
Definition solve_name (z : contents) (w : name -> bool) (v : env) (qname : name) (qtype : Z) (first : bool) (q : qdata) : res (state * qdata) :=
  let* f := find_dname z (q_name q) in
  match f with
  | Some (Some o, c) => name_found z v qname qtype (set_node (set_encloser q c) (Some o))
  | Some (None, c) => name_not_found z w v qname qtype (set_node (set_encloser q c) None)
  | None => if first then UB else Ok (HIT, q)
  end.
(** src/knot/nameserver/internet.c:503-506 *)
Fixpoint chase (fuel : nat) (z : contents) (w : name -> bool) (v : env) (qname : name) (qtype : Z) (st : state) (q : qdata) : res (state * qdata) :=
  match st with
  | FOLLOW =>
    match fuel with
    | O => OOF
    | S f => let* (st, q) := solve_name z w v qname qtype false q in chase f z w v qname qtype st q
    end
  | _ => Ok (st, q)
  end.
Definition is_deleg (s : state) : bool := match s with DELEG => true | _ => false end.
(** src/knot/nameserver/internet.c:479-509 without modules *)
Definition solve_answer (fuel : nat) (z : contents) (w : name -> bool) (v : env) (qname : name) (qtype : Z) (q : qdata) : res (state * qdata) :=
  let* (st, q) := solve_name z w v qname qtype true q in
  let q := if is_deleg st then q else set_aa q in
  chase fuel z w v qname qtype st q.

(** src/knot/nameserver/internet.c:183-187 *)
Fixpoint deleg_above (z : contents) (o : name) : res name :=
  if deleg z o then Ok o else
  if name_eqb o (z_apex z) then UB else match o with [] => UB | _ :: p => deleg_above z p end.
(** src/knot/nameserver/internet.c:171-180 *)
Definition put_authority_soa (z : contents) (v : env) (qname : name) (q : qdata) : Z * pkt :=
  match node_rrset (zn_rrs (z_apexn z)) SOA with
  | None => (KNOT_EMALF, q_pkt q)
  | Some r => put_rr v (q_pkt q) false qname (q_name q) (z_apex z) (Some (z_apex z)) r false false (has_sigs (zn_rrs (z_apexn z)))
  end.
(** src/knot/nameserver/internet.c:183-195 *)
Definition put_delegation (z : contents) (v : env) (qname : name) (q : qdata) : res (Z * pkt) :=
  match q_node q with
  | None => UB
  | Some o =>
    let* o := deleg_above z o in
    let* rrs := rrs_of z o in
    match node_rrset rrs T_NS with
    | None => Ok (KNOT_EMALF, q_pkt q)
    | Some r => Ok (put_rr v (q_pkt q) false qname (q_name q) o (Some o) r false false (has_sigs rrs))
    end
  end.
(** src/knot/nameserver/internet.c:523-559 *)
Definition solve_authority (z : contents) (v : env) (qname : name) (st : state) (q : qdata) : res (state * qdata) :=
  let fin (ret : Z) (q : qdata) := Ok (if ret =? KNOT_EOK then st else failed ret, q) in
  match st with
  | HIT => Ok (HIT, q)
  | MISS => let q := set_rcode q RC_NXDOMAIN in let (ret, p) := put_authority_soa z v qname q in fin ret (set_pkt q p)
  | NODATA => let (ret, p) := put_authority_soa z v qname q in fin ret (set_pkt q p)
  | DELEG => let* (ret, p) := put_delegation z v qname q in fin ret (set_pkt q p)
  | TRUNC => Ok (TRUNC, q)
  | ERROR => Ok (ERROR, q)
  | BEGIN => UB
  | FOLLOW => UB
  end.
(** src/knot/nameserver/internet.c:651-735, the answer and the authority section; the SOLVE_STEP macro stops at
    KNOTD_IN_STATE_TRUNC and KNOTD_IN_STATE_ERROR *)
Definition answer_query (fuel : nat) (z : contents) (w : name -> bool) (v : env) (qname : name) (qtype : Z) : res (state * qdata) :=
  let q := mkq qname RC_NOERROR None [] 0 [] (mkpkt [] []) false in
  let* (st, q) := solve_answer fuel z w v qname qtype q in
  match st with
  | TRUNC | ERROR => Ok (st, q)
  | _ => solve_authority z v qname st q
  end.
