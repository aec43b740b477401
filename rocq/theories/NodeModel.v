(** RRsets at a zone node: src/knot/zone/node.c. A node is the array [node->rrs] with its first rrset_count entries; an
    RRset argument is an entry too (the owner plays no role). Flags, pointers to other nodes and the cached additional
    records are not modelled. Type 0 is not used, so that there are at most 65535 entries and rrset_count does not wrap.
    [al] and [alp] tell whether memory is available for record data and for the array. *)
From Verif Require Import Base RdatasetModel.

(** memory is available *)
Definition yes : Z -> bool := fun _ => true.
(** src/knot/zone/node.h:70-75 *)
Record rr_data := mkrr { rr_type : Z; rr_ttl : Z; rr_rrs : rdataset }.
Definition RRSIG : Z := 46.

(** src/knot/zone/node.c:51-64. On failure the entry has the counters of the source and a NULL pointer *)
Definition rr_data_from (al : Z -> bool) (r old : rr_data) : res (Z * rr_data) :=
  match rdataset_copy al (rr_rrs r) with
  | Ok s => Ok (KNOT_EOK, mkrr (rr_type r) (rr_ttl r) s)
  | Err e => Ok (e, mkrr (rr_type old) (rr_ttl old) (mkset (count (rr_rrs r)) (size (rr_rrs r)) []))
  | UB => UB
  | OOF => OOF
  end.
(** src/knot/zone/node.c:82-85, the entries before the insertion point and the others *)
Fixpoint insert_pos (n : list rr_data) (type : Z) : list rr_data * list rr_data :=
  match n with
  | [] => ([], [])
  | e :: n' => if rr_type e <? type then let (a, b) := insert_pos n' type in (e :: a, b) else ([], n)
  end.
(** src/knot/zone/node.c:66-96. A failure to copy comes after the entries have been moved, and rrset_count is not
    increased then: the last entry gets lost and the first moved one is there twice *)
Definition add_rrset_no_merge (al : Z -> bool) (alp : bool) (n : list rr_data) (r : rr_data) : res (Z * list rr_data) :=
  if negb alp then Ok (KNOT_ENOMEM, n) else
  let (a, b) := insert_pos n (rr_type r) in
  let* (ret, e) := rr_data_from al r (match b with e :: _ => e | [] => mkrr 0 0 rdataset_init end) in
  if negb (ret =? KNOT_EOK) then Ok (ret, firstn (length n) (a ++ e :: b)) else Ok (KNOT_EOK, a ++ e :: b).
(** src/knot/zone/node.c:98-106 *)
Definition ttl_changed (e r : rr_data) : bool :=
  if (rr_type r =? RRSIG) || (count (rr_rrs e) =? 0) then false else negb (rr_ttl r =? rr_ttl e).
(** src/knot/zone/node.c:312-340, the loop; [None]: type not found *)
Fixpoint add_loop (al : Z -> bool) (n : list rr_data) (r : rr_data) : res (option (Z * list rr_data)) :=
  match n with
  | [] => Ok None
  | e :: n' =>
    if rr_type e =? rr_type r then
      let ch := ttl_changed e r in
      let ttl := if ch then rr_ttl r else rr_ttl e in
      let* (ret, s) := rdataset_merge al (rr_rrs e) (rr_rrs r) in
      Ok (Some (if negb (ret =? KNOT_EOK) then ret else if ch then KNOT_ETTL else KNOT_EOK, mkrr (rr_type e) ttl s :: n'))
    else
      let* o := add_loop al n' r in
      Ok (match o with Some (ret, n'') => Some (ret, e :: n'') | None => None end)
  end.
Definition node_add_rrset (al : Z -> bool) (alp : bool) (n : list rr_data) (r : rr_data) : res (Z * list rr_data) :=
  let* o := add_loop al n r in
  match o with Some x => Ok x | None => add_rrset_no_merge al alp n r end.
(** src/knot/zone/node.c:342-364 *)
Fixpoint node_remove_rdataset (n : list rr_data) (type : Z) : list rr_data :=
  match n with
  | [] => []
  | e :: n' => if rr_type e =? type then n' else e :: node_remove_rdataset n' type
  end.
(** src/knot/zone/node.c:407-420 *)
Fixpoint node_rdataset (n : list rr_data) (type : Z) : option rdataset :=
  match n with
  | [] => None
  | e :: n' => if rr_type e =? type then Some (rr_rrs e) else node_rdataset n' type
  end.
(** storing through the pointer returned by node_rdataset *)
Fixpoint set_rdataset (n : list rr_data) (type : Z) (s : rdataset) : list rr_data :=
  match n with
  | [] => []
  | e :: n' => if rr_type e =? type then mkrr (rr_type e) (rr_ttl e) s :: n' else e :: set_rdataset n' type s
  end.
(** src/knot/zone/node.c:366-389; [same]: the RRset shares its memory with the node *)
Definition node_remove_rrset (al : Z -> bool) (same : bool) (n : list rr_data) (r : rr_data) : res (Z * list rr_data) :=
  match node_rdataset n (rr_type r) with
  | None => Ok (KNOT_ENOENT, n)
  | Some s =>
    let* (ret, s', _) := rdataset_subtract al same s (rr_rrs r) in
    let n := set_rdataset n (rr_type r) s' in
    if negb (ret =? KNOT_EOK) then Ok (ret, n) else
    if count s' =? 0 then Ok (KNOT_EOK, node_remove_rdataset n (rr_type r)) else Ok (KNOT_EOK, n)
  end.
(** src/knot/zone/node.c:391-405 and node.h node_rrset: the RRset of a type, owner aside *)
Fixpoint node_rrset (n : list rr_data) (type : Z) : option rr_data :=
  match n with
  | [] => None
  | e :: n' => if rr_type e =? type then Some e else node_rrset n' type
  end.
