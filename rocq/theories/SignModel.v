(** Signing of a zone and validation of its signatures: src/knot/dnssec/zone-sign.c and
    src/knot/dnssec/rrset-sign.c, with dnssec_sign_verify of src/libdnssec/sign/sign.c.

    Simplifications. The RDATA of an RRSIG is the record of its fields, so malformed RRSIGs are left out.
    A name is the list of its labels, the leaf first, in lower case. The cryptography is a parameter:
    what GnuTLS computes from a key and the signed data (the header of the RRSIG and the covered RRset).
    Records of an offline KSK, the TTL of the RRSIG records and allocation failures are left out, and so
    is the case of a clock that reads 0. Nodes are signed on their own; their changesets are the lists of
    removed and added RRSIGs. *)
From Verif Require Import Base SerialModel KeyModel.

Definition name := list (list Z).
Definition name_eq_dec : forall a b : name, {a = b} + {a <> b} := list_eq_dec (list_eq_dec Z.eq_dec).
Definition name_eqb (a b : name) : bool := if name_eq_dec a b then true else false.

(** src/libknot/descriptor.h *)
Definition T_DS : Z := 43.
Definition T_RRSIG : Z := 46.
Definition T_NSEC : Z := 47.
Definition T_DNSKEY : Z := 48.
Definition T_CDS : Z := 59.
Definition T_CDNSKEY : Z := 60.

(** rrset-sign.c:84-103: RDATA of an RRSIG without the signature *)
Record hdr := mkh {
  h_type : Z; h_alg : Z; h_labels : Z; h_ttl : Z; h_exp : Z; h_inc : Z; h_tag : Z; h_signer : name
}.
(** RDATA of an RRSIG *)
Record sig := mks { s_hdr : hdr; s_val : list Z }.
Definition hdr_eq_dec (a b : hdr) : {a = b} + {a <> b}.
Proof. decide equality; auto using Z.eq_dec, name_eq_dec. Defined.
Definition sig_eq_dec (a b : sig) : {a = b} + {a <> b}.
Proof. decide equality; auto using hdr_eq_dec, list_eq_dec, Z.eq_dec. Defined.
Definition s_type (s : sig) : Z := h_type (s_hdr s).

(** libknot/rrset.h knot_rrset_t, without the class *)
Record rrs := mkr { r_owner : name; r_type : Z; r_ttl : Z; r_data : list (list Z) }.
(** knot/zone/node.h zone_node_t: the flags NONAUTH, DELEG and RRSIGS_VALID, the RRsets other than RRSIG and the RRSIGs *)
Record node := mkn { n_owner : name; n_nonauth : bool; n_deleg : bool; n_valid : bool; n_rrs : list rrs; n_sigs : list sig }.

(** libdnssec/key.h dnssec_key_t, knot/dnssec/zone-keys.h zone_key_t; [k_id] stands for the key material *)
Record skey := mkk { k_id : Z; k_tag : Z; k_name : name; k_can_sign : bool; k_z : zkey }.
Definition k_alg (k : skey) : Z := z_alg (k_z k).

(** GnuTLS: verification, signing with a deterministic nonce and signing as configured *)
Record crypto := mkcr {
  cr_verify : skey -> hdr -> rrs -> list Z -> bool;
  cr_repro : skey -> hdr -> rrs -> res (list Z);
  cr_sign : skey -> hdr -> rrs -> res (list Z)
}.

(** knot/dnssec/context.h kdnssec_ctx_t and kasp/policy.h: what matters for signing *)
Record sctx := mkc {
  c_now : Z; c_lifetime : Z; c_refresh : Z; c_prerefresh : Z; c_reproducible : bool; c_alg : Z;
  c_unsafe_expired : bool; c_drop : bool; c_conflict : bool; c_apex : name; c_crypto : crypto
}.

(** contrib/time.h:149-164 knot_time_from_u32, now <> 0 *)
Definition knot_time_from_u32 (u now : Z) : Z :=
  let lower := w32 now in
  let upper := Z.shiftr now 32 in
  let upper :=
    if (lower >? u) && (lower - u >? 2147483647) then w64 (upper + 1)
    else if (lower <? u) && (u - lower >? 2147483647) then w64 (upper - 1)
    else upper in
  w64 (w64 (Z.shiftl upper 32) + u).

(** libdnssec/key/algorithm.c:111-124 dnssec_algorithm_reproducible *)
Definition dnssec_algorithm_reproducible (alg : Z) (enabled : bool) : bool :=
  if (alg =? 15) || (alg =? 16) then true
  else if (alg =? 13) || (alg =? 14) then enabled
  else false.

(** libdnssec/sign/sign.c:349-393 dnssec_sign_verify: is the signature good? *)
Definition dnssec_sign_verify (cr : crypto) (k : skey) (sign_cmp : bool) (s : sig) (r : rrs) : bool :=
  if sign_cmp && k_can_sign k then
    match cr_repro cr k (s_hdr s) r with Ok v => if list_eq_dec Z.eq_dec v (s_val s) then true else false | _ => false end
  else cr_verify cr k (s_hdr s) r (s_val s).

(** rrset-sign.c:363-374 is_expired_signature; the last parameter is truncated to 32 bits by the call *)
Definition is_expired_signature (h : hdr) (now refresh_before : Z) : bool :=
  (now >=? w64 (knot_time_from_u32 (h_exp h) now - refresh_before)) || (now <? knot_time_from_u32 (h_inc h) now).

(** rrset-sign.c:376-428 knot_check_signature; the sum of the two delays wraps, zone-sign.c:253 *)
Definition knot_check_signature (c : sctx) (k : skey) (refresh : Z) (skip_crypto : bool) (r : rrs) (s : sig) : bool :=
  if negb (c_unsafe_expired c) && is_expired_signature (s_hdr s) (c_now c) (w32 refresh) then false
  else if skip_crypto then true
  else dnssec_sign_verify (c_crypto c) k (dnssec_algorithm_reproducible (c_alg c) (c_reproducible c)) s r.

(** zone-sign.c:129-140: does the RRSIG claim to be by this key for this RRset? *)
Definition matches (k : skey) (r : rrs) (s : sig) : bool :=
  (h_tag (s_hdr s) =? k_tag k) && (h_alg (s_hdr s) =? k_alg k) && (s_type s =? r_type r).
(** zone-sign.c:111-162 valid_signature_exists without a map: the first good RRSIG *)
Definition valid_signature (c : sctx) (k : skey) (refresh : Z) (skip_crypto : bool) (r : rrs) (sigs : list sig) : option sig :=
  find (fun s => matches k r s && knot_check_signature c k refresh skip_crypto r s) sigs.

(** zone-sign.c:920-948 knot_zone_sign_use_key; [UB] is the failed assertion *)
Definition knot_zone_sign_use_key (k : skey) (r : rrs) : res bool :=
  let z := k_z k in
  let active_ksk := (z_active z || z_kplus z) && z_ksk z in
  let active_zsk := (z_active z || z_zplus z) && z_zsk z in
  if negb (z_zsk z || z_ksk z) then UB
  else if negb (name_eqb (r_owner r) (k_name k)) then Ok active_zsk
  else if (r_type r =? T_DNSKEY) || (r_type r =? T_CDS) || (r_type r =? T_CDNSKEY) then Ok active_ksk
  else Ok active_zsk.

(** libknot/dname.h knot_dname_is_wildcard and rrset-sign.c:226-229: labels covered by a signature *)
Definition owner_labels (o : name) : Z :=
  Z.of_nat (length o) - (match o with l :: _ => if list_eq_dec Z.eq_dec l [42] then 1 else 0 | [] => 0 end).

Definition RRSIG_INCEPT_IN_PAST : Z := 5400.
(** rrset-sign.c:264-289 knot_sign_rrset, 211-262 rrsigs_create_rdata, 75-106 rrsig_write_rdata:
    the new RRSIG and the 64-bit time of its expiration. [UB] is the failed assertion of line 234. *)
Definition knot_sign_rrset (c : sctx) (k : skey) (r : rrs) : res (sig * Z) :=
  let incept := w32 (w64 (c_now c - RRSIG_INCEPT_IN_PAST)) in
  let expire := w64 (c_now c + c_lifetime c) in
  match serial_compare incept (w32 expire) with
  | SERIAL_LOWER =>
    let h := mkh (r_type r) (k_alg k) (owner_labels (r_owner r)) (r_ttl r) (w32 expire) incept (k_tag k) (k_name k) in
    let* v := (if c_reproducible c then cr_repro (c_crypto c) else cr_sign (c_crypto c)) k h r in
    Ok (mks h v, expire)
  | _ => UB
  end.

(** libknot/rdataset.c: sets of RRSIGs *)
Definition sig_in (s : sig) (l : list sig) : bool := if in_dec sig_eq_dec s l then true else false.
Definition set_add (l : list sig) (s : sig) : list sig := if sig_in s l then l else l ++ [s].
Definition set_remove (l : list sig) (s : sig) : list sig := filter (fun x => if sig_eq_dec x s then false else true) l.
(** rrset-sign.c:315-343 knot_synth_rrsig: the RRSIGs for a type *)
Definition synth_rrsig (type : Z) (sigs : list sig) : list sig := filter (fun s => s_type s =? type) sigs.

(** A changeset restricted to one node, and the statistics of kdnssec_ctx_t *)
Record ch := mkch { ch_rem : list sig; ch_add : list sig; ch_expire : Z; ch_count : Z }.
Definition ch_join (a b : ch) : ch :=
  mkch (ch_rem a ++ ch_rem b) (fold_left set_add (ch_add b) (ch_add a)) (knot_time_min (ch_expire a) (ch_expire b)) (ch_count a + ch_count b).
Definition ch_empty : ch := mkch [] [] 0 0.

(** zone-sign.c:245-271 the loop of add_missing_rrsigs over the keys; [e] and [n] are the statistics *)
Fixpoint missing_keys (c : sctx) (skip_crypto : bool) (r : rrs) (sigs : list sig) (keys : list skey) (x : ch) : res ch :=
  match keys with
  | [] => Ok x
  | k :: keys =>
    let* use := knot_zone_sign_use_key k r in
    if negb use then missing_keys c skip_crypto r sigs keys x
    else match valid_signature c k (w32 (c_refresh c + c_prerefresh c)) skip_crypto r sigs with
         | Some s =>
           missing_keys c skip_crypto r sigs keys
             (mkch (set_remove (ch_rem x) s) (ch_add x) (knot_time_min (knot_time_from_u32 (h_exp (s_hdr s)) (c_now c)) (ch_expire x)) (ch_count x))
         | None =>
           let* (s, e) := knot_sign_rrset c k r in
           missing_keys c skip_crypto r sigs keys
             (mkch (ch_rem x) (set_add (ch_add x) s) (knot_time_min (ch_expire x) e) (ch_count x + 1))
         end
  end.
(** zone-sign.c:215-289 add_missing_rrsigs *)
Definition add_missing_rrsigs (c : sctx) (skip_crypto : bool) (r : rrs) (sigs : list sig) (keys : list skey) : res ch :=
  missing_keys c skip_crypto r sigs keys (mkch (synth_rrsig (r_type r) sigs) [] 0 0).
(** zone-sign.c:362-383 remove_rrset_rrsigs *)
Definition remove_rrset_rrsigs (type : Z) (sigs : list sig) : ch := mkch (synth_rrsig type sigs) [] 0 0.
(** zone-sign.c:395-411 force_resign_rrset *)
Definition force_resign_rrset (c : sctx) (r : rrs) (sigs : list sig) (keys : list skey) : res ch :=
  let* x := add_missing_rrsigs c false r [] keys in
  Ok (ch_join (remove_rrset_rrsigs (r_type r) sigs) x).
(** zone-sign.c:435-463 remove_standalone_rrsigs; node.h node_rrtype_exists, the RRSIG RRset itself exists *)
Definition remove_standalone_rrsigs (nd : node) : ch :=
  mkch (filter (fun s => negb (existsb (fun r => r_type r =? s_type s) (n_rrs nd) || (s_type s =? T_RRSIG))) (n_sigs nd)) [] 0 0.

(** zone-sign.c:1001-1021 knot_zone_sign_rr_should_be_signed, RRsets other than RRSIG *)
Definition should_be_signed (nd : node) (r : rrs) : bool :=
  match r_data r with
  | [] => false
  | _ => if (r_type r =? T_RRSIG) || n_nonauth nd then false
         else if n_deleg nd then (r_type r =? T_NSEC) || (r_type r =? T_DS)
         else true
  end.

(** zone-sign.c:486-488 *)
Definition skip_crypto (c : sctx) (nd : node) : bool := n_valid nd && negb (c_conflict c).
(** zone-sign.c:490-528, signing: one RRset other than RRSIG *)
Definition sign_rrset (c : sctx) (keys : list skey) (nd : node) (r : rrs) : res ch :=
  if negb (should_be_signed nd r) then Ok (remove_rrset_rrsigs (r_type r) (n_sigs nd))
  else if c_drop c then force_resign_rrset c r (n_sigs nd) keys
  else add_missing_rrsigs c (skip_crypto c nd) r (n_sigs nd) keys.
Fixpoint sign_rrsets (c : sctx) (keys : list skey) (nd : node) (rs : list rrs) (x : ch) : res ch :=
  match rs with
  | [] => Ok x
  | r :: rs => let* y := sign_rrset c keys nd r in sign_rrsets c keys nd rs (ch_join x y)
  end.
(** zone-sign.c:477-534 sign_node_rrsets, signing. The RRSIG RRset is taken after the others. *)
Definition sign_node_rrsets (c : sctx) (keys : list skey) (nd : node) : res ch :=
  let* x := sign_rrsets c keys nd (n_rrs nd) ch_empty in
  let x := ch_join x (remove_rrset_rrsigs T_RRSIG (n_sigs nd)) in
  Ok (ch_join x (remove_standalone_rrsigs nd)).
(** updates/apply.c apply_changeset_directly: removals, then additions *)
Definition apply_node (nd : node) (x : ch) : node :=
  mkn (n_owner nd) (n_nonauth nd) (n_deleg nd) (n_valid nd) (n_rrs nd)
      (fold_left set_add (ch_add x) (filter (fun s => negb (sig_in s (ch_rem x))) (n_sigs nd))).

(** zone-sign.c:558-574 sign_node, 576-581 tree_sign_thread: the nodes of one thread. A node without RRsets is skipped and not counted. *)
Definition node_empty (nd : node) : bool := match n_rrs nd, n_sigs nd with [], [] => true | _, _ => false end.
Fixpoint tree_sign_thread (c : sctx) (keys : list skey) (nth threads : Z) (nds : list node) (index : Z) : res (list (option ch)) :=
  match nds with
  | [] => Ok []
  | nd :: nds =>
    if node_empty nd then let* l := tree_sign_thread c keys nth threads nds index in Ok (None :: l)
    else if negb (index mod threads =? nth) then let* l := tree_sign_thread c keys nth threads nds (index + 1) in Ok (None :: l)
    else let* x := sign_node_rrsets c keys nd in
         let* l := tree_sign_thread c keys nth threads nds (index + 1) in Ok (Some x :: l)
  end.
(** Applying the changeset of one thread *)
Fixpoint apply_thread (nds : list node) (xs : list (option ch)) : list node :=
  match nds, xs with
  | nd :: nds, Some x :: xs => apply_node nd x :: apply_thread nds xs
  | nd :: nds, None :: xs => nd :: apply_thread nds xs
  | nds, _ => nds
  end.
Definition thread_expire (xs : list (option ch)) (e : Z) : Z :=
  fold_left (fun e x => match x with Some x => knot_time_min e (ch_expire x) | None => e end) xs e.
(** zone-sign.c:662-680: the results of the threads are collected in order; [start i] is the error of starting or joining thread i *)
Fixpoint collect_threads (c : sctx) (keys : list skey) (start : Z -> Z) (threads : Z) (nds0 : list node) (ids : list Z) (nds : list node) (e : Z) : res (list node * Z) :=
  match ids with
  | [] => Ok (nds, e)
  | i :: ids =>
    if negb (start i =? 0) then Err (start i)
    else let* xs := tree_sign_thread c keys i threads nds0 0 in
         collect_threads c keys start threads nds0 ids (apply_thread nds xs) (thread_expire xs e)
  end.
(** zone-sign.c:600-683 zone_tree_sign, signing: each thread reads the zone before any change *)
Definition zone_tree_sign (c : sctx) (keys : list skey) (start : Z -> Z) (threads : Z) (nds : list node) : res (list node * Z) :=
  collect_threads c keys start threads nds (map Z.of_nat (seq 0 (Z.to_nat threads))) nds 0.
(** zone-sign.c:583-587 set_signed *)
Definition set_signed (nd : node) : node := mkn (n_owner nd) (n_nonauth nd) (n_deleg nd) true (n_rrs nd) (n_sigs nd).
(** zone-sign.c:706-739 knot_zone_sign, signing, the tree of ordinary nodes and the tree of NSEC3 nodes *)
Definition knot_zone_sign (c : sctx) (keys : list skey) (start : Z -> Z) (threads : Z) (z : list node * list node) : res (list node * list node * Z) :=
  if threads <? 1 then Err KNOT_EINVAL
  else let* (nds, e1) := zone_tree_sign c keys start threads (fst z) in
       let* (nds3, e2) := zone_tree_sign c keys start threads (snd z) in
       Ok (map set_signed nds, map set_signed nds3, knot_time_min e1 e2).
(** zone-events.c:35-46 schedule_next, the part of the signatures *)
Definition next_refresh (c : sctx) (expire : Z) : Z := knot_time_add expire (- c_refresh c).

(** *** Validation *)
(** zone-sign.c:291-305 key_used *)
Definition key_used (c : sctx) (k : skey) (r : rrs) : bool :=
  if negb (name_eqb (r_owner r) (c_apex c)) then z_zsk (k_z k)
  else if (r_type r =? T_DNSKEY) || (r_type r =? T_CDNSKEY) || (r_type r =? T_CDS) then z_ksk (k_z k)
  else z_zsk (k_z k).
Definition VALID_SIG_FOUND : Z := 128.
Definition VALID_KEYTAG_LIMIT : Z := 3.
(** zone-sign.c:121-162 valid_signature_exists with a map of uint8_t, one for each RRSIG: the new map and the last good RRSIG *)
Fixpoint valid_signature_map (c : sctx) (k : skey) (skip : bool) (r : rrs) (sigs : list sig) (m : list Z) (found : option sig) : list Z * option sig :=
  match sigs, m with
  | s :: sigs, v :: m =>
    if negb (matches k r s) then let (m, f) := valid_signature_map c k skip r sigs m found in (v :: m, f)
    else if knot_check_signature c k 0 skip r s then
      let (m, f) := valid_signature_map c k skip r sigs m (Some s) in (Z.lor v VALID_SIG_FOUND :: m, f)
    else let v := u8 (v + 1) in
         if Z.land v (255 - VALID_SIG_FOUND) =? VALID_KEYTAG_LIMIT then (v :: m, found)
         else let (m, f) := valid_signature_map c k skip r sigs m found in (v :: m, f)
  | _, _ => (m, found)
  end.
(** zone-sign.c:320-344 the loop over the keys; [until] is 0 before the first good RRSIG *)
Fixpoint validate_keys (c : sctx) (skip : bool) (r : rrs) (sigs : list sig) (keys : list skey) (m : list Z) (valid : bool) (until : Z) : list Z * bool * Z :=
  match keys with
  | [] => (m, valid, until)
  | k :: keys =>
    if negb (key_used c k r) then validate_keys c skip r sigs keys m valid until
    else match valid_signature_map c k skip r sigs m None with
         | (m, Some s) => validate_keys c skip r sigs keys m true (knot_time_min (knot_time_from_u32 (h_exp (s_hdr s)) (c_now c)) until)
         | (m, None) => validate_keys c skip r sigs keys m valid until
         end
  end.
(** zone-sign.c:346-353 *)
Fixpoint check_map (m : list Z) : Z :=
  match m with
  | [] => KNOT_EOK
  | v :: m =>
    if (v >? 0) && (v <? VALID_KEYTAG_LIMIT) then KNOT_DNSSEC_ENOSIG
    else if Z.land v (255 - VALID_SIG_FOUND) >=? VALID_KEYTAG_LIMIT then KNOT_DNSSEC_EKEYTAG_LIMIT
    else check_map m
  end.
(** zone-sign.c:307-356 knot_validate_rrsigs *)
Definition knot_validate_rrsigs (c : sctx) (skip : bool) (r : rrs) (sigs : list sig) (keys : list skey) : res Z :=
  match validate_keys c skip r sigs keys (map (fun _ => 0) sigs) false 0 with
  | (m, valid, until) =>
    if negb (check_map m =? KNOT_EOK) then Err (check_map m)
    else if valid then Ok until else Err KNOT_DNSSEC_ENOSIG
  end.
(** zone-sign.c:490-516, validation: the earliest expiration *)
Fixpoint validate_rrsets (c : sctx) (keys : list skey) (nd : node) (rs : list rrs) (e : Z) : res Z :=
  match rs with
  | [] => Ok e
  | r :: rs =>
    if negb (should_be_signed nd r) then
      (if existsb (fun s => s_type s =? r_type r) (n_sigs nd) then Err KNOT_DNSSEC_ENOSIG else validate_rrsets c keys nd rs e)
    else let* until := knot_validate_rrsigs c (skip_crypto c nd) r (n_sigs nd) keys in
         validate_rrsets c keys nd rs (knot_time_min e until)
  end.
(** zone-sign.c:477-534 sign_node_rrsets, validation; the changeset must stay empty, the assertion of line 673 *)
Definition validate_node (c : sctx) (keys : list skey) (nd : node) : res Z :=
  let* e := validate_rrsets c keys nd (n_rrs nd) 0 in
  if existsb (fun s => s_type s =? T_RRSIG) (n_sigs nd) then Err KNOT_DNSSEC_ENOSIG
  else match ch_rem (remove_standalone_rrsigs nd) with [] => Ok e | _ => UB end.
(** zone-sign.c:600-683 zone_tree_sign, validation with one thread *)
Fixpoint validate_nodes (c : sctx) (keys : list skey) (nds : list node) (e : Z) : res Z :=
  match nds with
  | [] => Ok e
  | nd :: nds => let* x := validate_node c keys nd in validate_nodes c keys nds (knot_time_min e x)
  end.
