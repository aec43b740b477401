(** Two versions of a zone node: src/knot/zone/node.c:66-220, 312-420, src/knot/updates/apply.c:25-67.

    A node that can be updated is a pair of structures. One of them belongs to the published version of the zone, the other
    one is changed by the update. They may share the array of RRsets and the record data. Memory is modelled: an array
    and a block of record data have addresses (0 is NULL), reading or freeing a block that is not allocated is [UB].
    A block that is resized always moves: the old one is freed and there is a new one. Names, flags, the NSEC3 fields and
    the cached additional records are not modelled. [al], [alp]: whether memory for record data and for arrays is available *)
From Verif Require Import Base RdatasetModel NodeModel.

(** src/knot/zone/node.h:70-75 with the rdata pointer *)
Record ent := mkent { e_type : Z; e_ttl : Z; e_count : Z; e_size : Z; e_ptr : Z }.
Record heap := mkheap { h_arr : Z -> option (list ent); h_dat : Z -> option (list Z); h_next : Z }.
(** the rdata set an entry stands for (a dead pointer reads as nothing here; accesses check it) *)
Definition rd_of (h : heap) (e : ent) : rdataset := mkset (e_count e) (e_size e) (match h_dat h (e_ptr e) with Some r => r | None => [] end).
Definition rr_of (h : heap) (e : ent) : rr_data := mkrr (e_type e) (e_ttl e) (rd_of h e).
(** node->rrs and node->rrset_count *)
Record half := mkhalf { b_rrs : Z; b_cnt : Z }.
(** the entries; an array has as many as it should (there is none for a NULL pointer) *)
Definition arr (h : heap) (n : half) : res (list ent) := if b_rrs n =? 0 then (if b_cnt n =? 0 then Ok [] else UB) else match h_arr h (b_rrs n) with Some l => Ok l | None => UB end.
Definition set_arr (h : heap) (p : Z) (o : option (list ent)) : heap := mkheap (fun q => if q =? p then o else h_arr h q) (h_dat h) (h_next h).
Definition set_dat (h : heap) (p : Z) (o : option (list Z)) : heap := mkheap (h_arr h) (fun q => if q =? p then o else h_dat h q) (h_next h).
Definition new_arr (h : heap) (l : list ent) : Z * heap := (h_next h, mkheap (fun q => if q =? h_next h then Some l else h_arr h q) (h_dat h) (h_next h + 1)).
Definition new_dat (h : heap) (r : list Z) : Z * heap := (h_next h, mkheap (h_arr h) (fun q => if q =? h_next h then Some r else h_dat h q) (h_next h + 1)).
(** free() *)
Definition free_dat (h : heap) (p : Z) : res heap := if p =? 0 then Ok h else match h_dat h p with Some _ => Ok (set_dat h p None) | None => UB end.
Definition free_arr (h : heap) (p : Z) : res heap := if p =? 0 then Ok h else match h_arr h p with Some _ => Ok (set_arr h p None) | None => UB end.
(** reading the record data of an entry *)
Definition read_rd (h : heap) (e : ent) : res rdataset := if (e_ptr e =? 0) then Ok (rd_of h e) else match h_dat h (e_ptr e) with Some _ => Ok (rd_of h e) | None => UB end.
(** an entry after its set has changed from [s] to [s'] *)
Definition store_rd (h : heap) (e : ent) (ttl : Z) (s s' : rdataset) : res (ent * heap) :=
  if list_eq_dec Z.eq_dec (raw s) (raw s') then Ok (mkent (e_type e) ttl (count s') (size s') (e_ptr e), h) else
  let* h := free_dat h (e_ptr e) in
  match raw s' with
  | [] => Ok (mkent (e_type e) ttl (count s') (size s') 0, h)
  | r => let (p, h) := new_dat h r in Ok (mkent (e_type e) ttl (count s') (size s') p, h)
  end.
(** src/knot/zone/node.c:407-420 *)
Fixpoint find_ent (l : list ent) (type : Z) : option ent :=
  match l with [] => None | e :: l => if e_type e =? type then Some e else find_ent l type end.
Fixpoint set_ent (l : list ent) (type : Z) (e' : ent) : list ent :=
  match l with [] => [] | e :: l => if e_type e =? type then e' :: l else e :: set_ent l type e' end.
Fixpoint del_ent (l : list ent) (type : Z) : list ent :=
  match l with [] => [] | e :: l => if e_type e =? type then l else e :: del_ent l type end.

(** src/knot/zone/node.c:193-205, [np], [cp]: the arrays of the node and of its counterpart *)
Definition prepare_change (alp : bool) (h : heap) (np cp : half) : res (Z * half * heap) :=
  if (b_rrs cp =? b_rrs np) && negb (b_rrs cp =? 0) then
    if negb alp then Ok (KNOT_ENOMEM, mkhalf 0 (b_cnt np), h) else
    let* l := arr h cp in let (p, h) := new_arr h l in Ok (KNOT_EOK, mkhalf p (b_cnt np), h)
  else Ok (KNOT_EOK, np, h).
(** src/knot/zone/node.c:207-218 *)
Definition rdata_shared (h : heap) (np cp : half) (type : Z) : res bool :=
  if b_rrs cp =? b_rrs np then Ok true else
  let* l1 := arr h np in
  let* l2 := arr h cp in
  Ok (match find_ent l1 type, find_ent l2 type with Some e1, Some e2 => e_ptr e1 =? e_ptr e2 | _, _ => false end).
(** src/knot/updates/apply.c:25-58. The result is the code and the array of the node *)
Definition replace_rdataset_with_copy (al : Z -> bool) (alp : bool) (h : heap) (np cp : half) (type : Z) : res (Z * half * heap) :=
  let* (ret, np, h) := prepare_change alp h np cp in
  if negb (ret =? KNOT_EOK) then Ok (ret, np, h) else
  let* l := arr h np in
  match find_ent l type with
  | None => Ok (KNOT_EOK, np, h)
  | Some e =>
    if negb (al (e_size e)) then Ok (KNOT_ENOMEM, np, h) else
    let* s := read_rd h e in
    let (p, h) := new_dat h (raw s) in
    Ok (KNOT_EOK, np, set_arr h (b_rrs np) (Some (set_ent l type (mkent (e_type e) (e_ttl e) (e_count e) (e_size e) p))))
  end.
(** src/knot/zone/node.c:82-85 *)
Fixpoint insert_at (l : list ent) (type : Z) : list ent * list ent :=
  match l with
  | [] => ([], [])
  | e :: l' => if e_type e <? type then let (a, b) := insert_at l' type in (e :: a, b) else ([], l)
  end.
(** src/knot/zone/node.c:66-96 *)
Definition add_no_merge (al : Z -> bool) (alp : bool) (h : heap) (np : half) (r : rr_data) : res (Z * half * heap) :=
  if negb alp then Ok (KNOT_ENOMEM, np, h) else
  let* l := arr h np in
  let* h := free_arr h (b_rrs np) in
  let (a, b) := insert_at l (rr_type r) in
  match rdataset_copy al (rr_rrs r) with
  | Ok s =>
    let (q, h) := match raw s with [] => (0, h) | d => new_dat h d end in
    let (p, h) := new_arr h (a ++ mkent (rr_type r) (rr_ttl r) (count s) (size s) q :: b) in Ok (KNOT_EOK, mkhalf p (b_cnt np + 1), h)
  | Err e =>
    let o := match b with x :: _ => x | [] => mkent 0 0 0 0 0 end in
    let (p, h) := new_arr h (firstn (length l) (a ++ mkent (e_type o) (e_ttl o) (count (rr_rrs r)) (size (rr_rrs r)) 0 :: b)) in Ok (e, mkhalf p (b_cnt np), h)
  | UB => UB
  | OOF => OOF
  end.
(** src/knot/zone/node.c:312-340 *)
Definition add_rrset (al : Z -> bool) (alp : bool) (h : heap) (np : half) (r : rr_data) : res (Z * half * heap) :=
  let* l := arr h np in
  match find_ent l (rr_type r) with
  | Some e =>
    let* s := read_rd h e in
    let ch := ttl_changed (rr_of h e) r in
    let* (ret, s') := rdataset_merge al s (rr_rrs r) in
    let* (e', h) := store_rd h e (if ch then rr_ttl r else e_ttl e) s s' in
    Ok (if negb (ret =? KNOT_EOK) then ret else if ch then KNOT_ETTL else KNOT_EOK, np, set_arr h (b_rrs np) (Some (set_ent l (rr_type r) e')))
  | None => add_no_merge al alp h np r
  end.
(** src/knot/updates/apply.c:217-231: the part of apply_add_rr that changes the node *)
Definition bi_add (al : Z -> bool) (alp : bool) (h : heap) (np cp : half) (r : rr_data) : res (Z * half * heap) :=
  let* sh := rdata_shared h np cp (rr_type r) in
  let* (ret, np, h) := if sh then replace_rdataset_with_copy al alp h np cp (rr_type r) else Ok (KNOT_EOK, np, h) in
  if negb (ret =? KNOT_EOK) then Ok (ret, np, h) else
  let* (ret, np, h) := add_rrset al alp h np r in
  Ok (if ret =? KNOT_ETTL then KNOT_EOK else ret, np, h).
(** src/knot/zone/node.c:342-364 *)
Definition remove_rdataset (h : heap) (np cp : half) (type : Z) : res (half * heap) :=
  let* l := arr h np in
  match find_ent l type with
  | None => Ok (np, h)
  | Some e =>
    let* sh := rdata_shared h np cp type in
    let* h := if sh then Ok h else free_dat h (e_ptr e) in
    Ok (mkhalf (b_rrs np) (b_cnt np - 1), set_arr h (b_rrs np) (Some (del_ent l type)))
  end.
(** src/knot/zone/node.c:366-389 *)
Definition remove_rrset (al : Z -> bool) (h : heap) (np cp : half) (r : rr_data) : res (Z * half * heap) :=
  let* l := arr h np in
  match find_ent l (rr_type r) with
  | None => Ok (KNOT_ENOENT, np, h)
  | Some e =>
    let* s := read_rd h e in
    let* (ret, s', _) := rdataset_subtract al false s (rr_rrs r) in
    let* (e', h) := store_rd h e (e_ttl e) s s' in
    let h := set_arr h (b_rrs np) (Some (set_ent l (rr_type r) e')) in
    if negb (ret =? KNOT_EOK) then Ok (ret, np, h) else
    if count s' =? 0 then let* (np, h) := remove_rdataset h np cp (rr_type r) in Ok (KNOT_EOK, np, h) else Ok (KNOT_EOK, np, h)
  end.
(** src/knot/updates/apply.c:60-67 *)
Definition clear_new_rrs (h : heap) (np : half) (type : Z) : res heap :=
  let* l := arr h np in
  match find_ent l type with
  | None => Ok h
  | Some e => let* h := free_dat h (e_ptr e) in Ok (set_arr h (b_rrs np) (Some (set_ent l type (mkent (e_type e) (e_ttl e) 0 0 0))))
  end.
(** src/knot/updates/apply.c:256-267: the part of apply_remove_rr that changes the node *)
Definition bi_remove (al : Z -> bool) (alp : bool) (h : heap) (np cp : half) (r : rr_data) : res (Z * half * heap) :=
  let* sh := rdata_shared h np cp (rr_type r) in
  let* (ret, np, h) := if sh then replace_rdataset_with_copy al alp h np cp (rr_type r) else Ok (KNOT_EOK, np, h) in
  if negb (ret =? KNOT_EOK) then Ok (ret, np, h) else
  let* (ret, np, h) := remove_rrset al h np cp r in
  if negb (ret =? KNOT_EOK) then let* h := clear_new_rrs h np (rr_type r) in Ok (ret, np, h) else Ok (KNOT_EOK, np, h).
(** src/knot/zone/node.c:167-175, the loop; [pre]: the entries that have been passed (cleared ones are zeros) *)
Fixpoint unify_loop (h : heap) (l1 pre l : list ent) : res heap :=
  match l with
  | [] => Ok h
  | e :: l' =>
    let sh := match find_ent l1 (e_type e), find_ent (pre ++ l) (e_type e) with Some e1, Some e2 => e_ptr e1 =? e_ptr e2 | _, _ => false end in
    if sh then unify_loop h l1 (pre ++ [e]) l'
    else let* h := free_dat h (e_ptr e) in unify_loop h l1 (pre ++ [mkent 0 0 0 0 0]) l'
  end.
(** src/knot/zone/node.c:162-191. Afterwards both structures have the array [np] *)
Definition unify (h : heap) (np cp : half) : res heap :=
  if b_rrs cp =? b_rrs np then Ok h else
  let* l1 := arr h np in
  let* l2 := arr h cp in
  let* h := unify_loop h l1 [] l2 in
  free_arr h (b_rrs cp).

(** ** An update *)
Inductive bop := BAdd (al : Z -> bool) (alp : bool) (r : rr_data) | BRemove (al : Z -> bool) (alp : bool) (r : rr_data).
Definition bstep (h : heap) (np cp : half) (o : bop) : res (Z * half * heap) :=
  match o with BAdd al alp r => bi_add al alp h np cp r | BRemove al alp r => bi_remove al alp h np cp r end.
(** Operations up to the first failure *)
Fixpoint brun (h : heap) (np cp : half) (os : list bop) : res (Z * half * heap) :=
  match os with
  | [] => Ok (KNOT_EOK, np, h)
  | o :: os => let* (ret, np, h) := bstep h np cp o in if negb (ret =? KNOT_EOK) then Ok (ret, np, h) else brun h np cp os
  end.
