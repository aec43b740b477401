(** Incoming zone transfers: src/knot/events/handlers/refresh.c. Memory is available; logging, statistics, timers, falling
    back to other transfers and remotes are left out, and so are zones signed by this server. *)
From Verif Require Import Base RdatasetModel NodeModel SerialModel ZoneModel DiffModel.

(** src/knot/events/handlers/refresh.c:96-103 *)
Inductive xfr_type := XFR_ERROR | XFR_NOTIMP | XFR_UNDETERMINED | XFR_AXFR | XFR_IXFR | XFR_UPTODATE.
(** src/knot/nameserver/ixfr.h:25-33, IXFR_INVALID left out *)
Inductive ixfr_state := IXFR_START | IXFR_SOA_DEL | IXFR_DEL | IXFR_SOA_ADD | IXFR_ADD | IXFR_DONE.
(** KNOT_STATE_*: src/knot/query/layer.h:29-38, those that occur here *)
Inductive kstate := CONSUME | DONE | FAIL | IGNORE.
(** struct refresh_data, src/knot/events/handlers/refresh.c:105-145. [d_state]: data->ixfr.proc, [None] is NULL;
    [d_chs]: data->ixfr.changesets, the last one first *)
Record xdata := mkd { d_type : xfr_type; d_isoa : option rrset; d_state : option ixfr_state; d_final : option rrset; d_chs : list changeset;
  d_by_one : bool; d_size : Z; d_axfr : option contents; d_ret : Z }.
(** What the configuration and the local zone give: the name of the zone, its serial (zone.c:826-838), max_zone_size *)
Record xconf := mkc { c_zone : name; c_serial : Z; c_max : Z; c_strict : bool; c_journal : bool }.
(** A response: its RCODE, the answer section, whether the EDNS EXPIRE option tells that the remote is about to expire,
    and whether messages without a signature precede *)
Record msg := mkm { m_rcode : Z; m_answer : list rrset; m_expired : bool; m_unsigned : bool }.

(** src/libknot/rrset.c:109-124, with incl_ttl *)
Definition rrset_equal (a b : rrset) : res bool :=
  if negb (rr_type (snd a) =? rr_type (snd b)) || negb (rr_ttl (snd a) =? rr_ttl (snd b)) then Ok false else
  if negb (name_eqb (fst a) (fst b)) then Ok false else
  rdataset_eq (rr_rrs (snd a)) (rr_rrs (snd b)).
(** src/libknot/rrset.c:207-214 *)
Fixpoint sizes_loop (n : nat) (r : list Z) (off : Z) : res Z :=
  match n with
  | O => Ok 0
  | S n =>
    let* l := rr_len r off in
    let* off := rdataset_next r off in
    let* s := sizes_loop n r off in
    Ok (l + 10 + s)
  end.
(** src/libknot/dname.c: knot_dname_size, of a list of labels *)
Definition name_size (o : name) : Z := fold_right (fun l s => zlen l + 1 + s) 1 o.
(** src/libknot/rrset.c:199-217 *)
Definition rrset_size (s : rrset) : res Z :=
  let* l := sizes_loop (Z.to_nat (count (rr_rrs (snd s)))) (raw (rr_rrs (snd s))) 0 in
  Ok (name_size (fst s) * count (rr_rrs (snd s)) + l).
Definition is_soa (s : rrset) : bool := rr_type (snd s) =? SOA.

(** ** AXFR *)
(** src/knot/zone/zonefile.c:53-94, src/knot/zone/node.h: node_rrtype_exists; refresh.c:419-451 *)
Definition axfr_consume_rr (cf : xconf) (d : xdata) (z : contents) (r : rrset) : res (kstate * xdata) :=
  if is_soa r && match node_rrset (zn_rrs (z_apexn z)) SOA with Some e => negb (rr_empty e) | None => false end then Ok (DONE, d) else
  if negb (count (rr_rrs (snd r)) =? 1) then Ok (FAIL, mkd (d_type d) (d_isoa d) (d_state d) (d_final d) (d_chs d) (d_by_one d) (d_size d) (d_axfr d) KNOT_EINVAL) else
  let go (z : contents) :=
    let* s := rrset_size r in
    let s := d_size d + s in
    if s >? c_max cf then Ok (FAIL, mkd (d_type d) (d_isoa d) (d_state d) (d_final d) (d_chs d) (d_by_one d) s (Some z) KNOT_EZONESIZE) else
    Ok (CONSUME, mkd (d_type d) (d_isoa d) (d_state d) (d_final d) (d_chs d) (d_by_one d) s (Some z) KNOT_EOK) in
  match contents_add_rr z r with
  | Ok (_, z) => go z
  | Err e => if e =? KNOT_EOUTOFZONE then go z else Ok (FAIL, mkd (d_type d) (d_isoa d) (d_state d) (d_final d) (d_chs d) (d_by_one d) (d_size d) (d_axfr d) e)
  | UB => UB
  | OOF => OOF
  end.
(** src/knot/events/handlers/refresh.c:453-465 *)
Fixpoint axfr_rrs (cf : xconf) (l : list rrset) (d : xdata) : res (kstate * xdata) :=
  match l with
  | [] => Ok (CONSUME, d)
  | r :: l =>
    match d_axfr d with
    | None => UB
    | Some z =>
      let* (k, d) := axfr_consume_rr cf d z r in
      match k with CONSUME => axfr_rrs cf l d | _ => Ok (k, d) end
    end
  end.
(** src/knot/events/handlers/refresh.c:467-519 *)
Definition axfr_consume (cf : xconf) (d : xdata) (m : msg) (reuse_soa : bool) : res (kstate * xdata) :=
  if negb (m_rcode m =? 0) then Ok (FAIL, mkd (d_type d) (d_isoa d) (d_state d) (d_final d) (d_chs d) (d_by_one d) (d_size d) (d_axfr d) KNOT_EDENIED) else
  let d := match d_axfr d with
    | Some _ => d
    | None => mkd (d_type d) (d_isoa d) (d_state d) (d_final d) (d_chs d) (d_by_one d) 0 (Some (contents_new (c_zone cf))) KNOT_EOK
    end in
  match d_isoa d with
  | Some s =>
    let* (k, d) := if reuse_soa then axfr_rrs cf [s] d else Ok (CONSUME, d) in
    let d := mkd (d_type d) None (d_state d) (d_final d) (d_chs d) (d_by_one d) (d_size d) (d_axfr d) (d_ret d) in
    match k with CONSUME => axfr_rrs cf (m_answer m) d | _ => Ok (k, d) end
  | None => axfr_rrs cf (m_answer m) d
  end.

(** ** IXFR *)
(** src/knot/events/handlers/refresh.c:776-812: the state and ixfr_by_one. *)
Definition next_state (st : ixfr_state) (final : option rrset) (by_one : bool) (r : rrset) : res (ixfr_state * bool) :=
  let soa := is_soa r in
  let added := match st with IXFR_SOA_ADD | IXFR_ADD => true | _ => false end in
  let* same := if added then match final with Some f => rrset_equal r f | None => UB end else Ok false in
  if same then Ok (IXFR_DONE, false) else
  if added && soa && by_one then Ok (IXFR_DONE, by_one) else
  match st with
  | IXFR_START => Ok (match final with Some _ => IXFR_SOA_DEL | None => IXFR_START end, by_one)
  | IXFR_SOA_DEL => Ok (if soa then IXFR_SOA_ADD else IXFR_DEL, by_one)
  | IXFR_SOA_ADD => Ok (if soa then IXFR_SOA_DEL else IXFR_ADD, by_one)
  | IXFR_DEL => Ok (if soa then IXFR_SOA_ADD else IXFR_DEL, by_one)
  | IXFR_ADD => Ok (if soa then IXFR_SOA_DEL else IXFR_ADD, by_one)
  | IXFR_DONE => UB
  end.
(** src/knot/events/handlers/refresh.c:701-773, 824-845: the SOA to end with and the list of changesets *)
Definition solve (apex : name) (st : ixfr_state) (final : option rrset) (chs : list changeset) (r : rrset) : res (option rrset * list changeset) :=
  match st with
  | IXFR_START => match final with Some _ => UB | None => if is_soa r then Ok (Some r, []) else Err KNOT_EMALF end
  | IXFR_SOA_DEL => if is_soa r then Ok (final, (let c := changeset_init apex in mkch (ch_add c) (ch_rem c) (Some r) (soa_to c)) :: chs) else Err KNOT_EMALF
  | IXFR_DEL => match chs with [] => UB | c :: chs => let* c := changeset_add_removal c r false in Ok (final, c :: chs) end
  | IXFR_SOA_ADD => match chs with [] => UB | c :: chs => if is_soa r then Ok (final, mkch (ch_add c) (ch_rem c) (soa_from c) (Some r) :: chs) else Err KNOT_EMALF end
  | IXFR_ADD => match chs with [] => UB | c :: chs => let* c := changeset_add_addition c r false in Ok (final, c :: chs) end
  | IXFR_DONE => Ok (final, chs)
  end.
(** src/knot/events/handlers/refresh.c:847-873; src/libknot/dname.c: knot_dname_in_bailiwick < 0 is being elsewhere *)
Definition ixfr_consume_rr (cf : xconf) (d : xdata) (st : ixfr_state) (r : rrset) : res (kstate * xdata) :=
  if negb (under (fst r) (c_zone cf)) then Ok (CONSUME, d) else
  let* (st, b1) := next_state st (d_final d) (d_by_one d) r in
  match solve (c_zone cf) st (d_final d) (d_chs d) r with
  | Err e => Ok (FAIL, mkd (d_type d) (d_isoa d) (Some st) (d_final d) (d_chs d) b1 (d_size d) (d_axfr d) e)
  | UB => UB
  | OOF => OOF
  | Ok (final, chs) =>
    let* s := rrset_size r in
    let s := d_size d + s in
    if s / 2 >? c_max cf then Ok (FAIL, mkd (d_type d) (d_isoa d) (Some st) final chs b1 s (d_axfr d) KNOT_EZONESIZE) else
    Ok (match st with IXFR_DONE => DONE | _ => CONSUME end, mkd (d_type d) (d_isoa d) (Some st) final chs b1 s (d_axfr d) KNOT_EOK)
  end.
(** src/knot/events/handlers/refresh.c:883-892 *)
Fixpoint ixfr_rrs (cf : xconf) (l : list rrset) (d : xdata) : res (kstate * xdata) :=
  match l with
  | [] => Ok (CONSUME, d)
  | r :: l =>
    match d_state d with
    | None => UB
    | Some st =>
      let* (k, d) := ixfr_consume_rr cf d st r in
      match k with CONSUME => ixfr_rrs cf l d | _ => Ok (k, d) end
    end
  end.
(** src/knot/events/handlers/refresh.c:149-152, 894-926 *)
Definition determine_xfr_type (answer : list rrset) (serial : Z) (initial_soa : option rrset) : res xfr_type :=
  match answer, initial_soa with
  | [], _ => Ok XFR_NOTIMP
  | one :: _, Some s => if is_soa one then let* e := rrset_equal s one in Ok (if e then XFR_AXFR else XFR_IXFR) else Ok XFR_AXFR
  | [one], None =>
    if is_soa one then
      let* x := rdataset_at (rr_rrs (snd one)) 0 in
      let* sn := soa_serial x in
      Ok (if mask_geq (serial_compare serial sn) then XFR_UPTODATE else XFR_UNDETERMINED)
    else Ok XFR_ERROR
  | one :: two :: more, None =>
    let* same := match more with [] => if is_soa one then rrset_equal one two else Ok false | _ => Ok false end in
    if same then Ok XFR_AXFR else Ok (if is_soa one && negb (is_soa two) then XFR_AXFR else XFR_IXFR)
  end.
(** src/knot/events/handlers/refresh.c:928-1036; ixfr_init: 521-539 *)
Definition ixfr_consume (cf : xconf) (d : xdata) (m : msg) : res (kstate * xdata) :=
  let set_type (d : xdata) t ret := mkd t (d_isoa d) (d_state d) (d_final d) (d_chs d) (d_by_one d) (d_size d) (d_axfr d) ret in
  let go (d : xdata) :=
    match d_isoa d with
    | Some s =>
      let* (k, d) := ixfr_rrs cf [s] d in
      let d := mkd (d_type d) None (d_state d) (d_final d) (d_chs d) (d_by_one d) (d_size d) (d_axfr d) (d_ret d) in
      match k with CONSUME => ixfr_rrs cf (m_answer m) d | _ => Ok (k, d) end
    | None => ixfr_rrs cf (m_answer m) d
    end in
  if negb (m_rcode m =? 0) then Ok (FAIL, set_type d (d_type d) KNOT_EDENIED) else
  match d_state d with
  | Some _ => go d
  | None =>
    let* t := determine_xfr_type (m_answer m) (c_serial cf) (d_isoa d) in
    match t with
    | XFR_ERROR => Ok (FAIL, set_type d XFR_IXFR KNOT_EMALF)
    | XFR_NOTIMP => Ok (FAIL, set_type d XFR_IXFR KNOT_ENOTSUP)
    | XFR_UNDETERMINED => Ok (CONSUME, mkd t (hd_error (m_answer m)) (d_state d) (d_final d) (d_chs d) (d_by_one d) (d_size d) (d_axfr d) KNOT_EOK)
    | XFR_AXFR => axfr_consume cf (set_type d XFR_AXFR KNOT_EOK) m true
    | XFR_UPTODATE => Ok (DONE, set_type d XFR_UPTODATE KNOT_EOK)
    | XFR_IXFR => go (mkd XFR_IXFR (d_isoa d) (Some IXFR_START) None [] (d_by_one d) 0 (d_axfr d) KNOT_EOK)
    end
  end.

(** ** Publication *)
Definition apex_serial (z : contents) : res Z :=
  match node_rrset (zn_rrs (z_apexn z)) SOA with
  | Some e => let* x := rdataset_at (rr_rrs e) 0 in soa_serial x
  | None => UB
  end.
(** src/knot/updates/zone-update.c:679-703, 706-719, 897-967, src/knot/journal/journal_write.c:287-290, for a new version [z1]
    of [z]. [bump z z1]: what zone_update_increment_soa makes of a version with the same serial (and nothing if there is no
    change); [check z z1]: the code of what may refuse a version: semantic checks, digest, adjusting, size, DNSSEC
    validation, catalog, writing the journal *)
Definition commit_incremental (bump : contents -> contents -> res contents) (check : contents -> contents -> Z) (cf : xconf) (z z1 : contents) : res contents :=
  let* s0 := apex_serial z in
  let* s1 := apex_serial z1 in
  let* z1 := if s0 =? s1 then bump z z1 else Ok z1 in
  let ret := check z z1 in
  if negb (ret =? KNOT_EOK) then Err ret else
  let* s1 := apex_serial z1 in
  if c_journal cf && negb (s0 =? s1) && match serial_compare s0 s1 with SERIAL_LOWER => false | _ => true end then Err KNOT_ESEMCHECK else Ok z1.
(** src/knot/updates/zone-update.c:721-733, 897-967 *)
Definition commit_full (check : contents -> contents -> Z) (z z1 : contents) : res contents :=
  match node_rrset (zn_rrs (z_apexn z1)) SOA with
  | Some e => if rr_empty e then Err KNOT_ESEMCHECK else let ret := check z z1 in if negb (ret =? KNOT_EOK) then Err ret else Ok z1
  | None => Err KNOT_ESEMCHECK
  end.
(** src/knot/events/handlers/refresh.c:601-699: UPDATE_INCREMENTAL | UPDATE_NO_CHSET, no signing *)
Definition ixfr_finalize (bump : contents -> contents -> res contents) (check : contents -> contents -> Z) (cf : xconf) (z : contents) (d : xdata) : res contents :=
  let* u := fold_res (apply_changeset (c_strict cf)) (rev (d_chs d)) (mkup z None) in
  commit_incremental bump check cf z (u_new u).
(** src/knot/events/handlers/refresh.c:326-417, without ixfr-from-axfr *)
Definition axfr_finalize (check : contents -> contents -> Z) (z : contents) (d : xdata) : res contents :=
  match d_axfr d with None => UB | Some z1 => commit_full check z z1 end.
(** src/knot/events/handlers/refresh.c:1182-1262: the code and the zone that is published afterwards. The new version
    takes the place of the old one only in the end of a commit *)
Definition transfer_consume (bump : contents -> contents -> res contents) (check : contents -> contents -> Z) (cf : xconf) (z : contents) (d : xdata) (m : msg) : res (kstate * xdata * contents) :=
  if m_expired m then Ok (IGNORE, d, z) else
  let* (k, d) := match d_type d with XFR_AXFR => axfr_consume cf d m false | _ => ixfr_consume cf d m end in
  match k with
  | DONE =>
    let fail e := Ok (FAIL, mkd (d_type d) (d_isoa d) (d_state d) (d_final d) (d_chs d) (d_by_one d) (d_size d) (d_axfr d) e, z) in
    if m_unsigned m then fail KNOT_EMALF else
    let publish (r : res contents) := match r with Ok z1 => Ok (DONE, d, z1) | Err e => fail e | UB => UB | OOF => OOF end in
    match d_type d with
    | XFR_IXFR => publish (ixfr_finalize bump check cf z d)
    | XFR_AXFR => publish (axfr_finalize check z d)
    | _ => Ok (DONE, d, z)
    end
  | _ => Ok (k, d, z)
  end.
(** src/knot/query/requestor.c:490-523: messages are processed while they are wanted *)
Fixpoint transfer (bump : contents -> contents -> res contents) (check : contents -> contents -> Z) (cf : xconf) (l : list msg) (z : contents) (d : xdata) : res (kstate * xdata * contents) :=
  match l with
  | [] => Ok (CONSUME, d, z)
  | m :: l =>
    let* (k, d, z) := transfer_consume bump check cf z d m in
    match k with CONSUME => transfer bump check cf l z d | _ => Ok (k, d, z) end
  end.
(** src/knot/events/handlers/refresh.c:1264-1283: the start of an incremental or of a full transfer *)
Definition xinit (t : xfr_type) (by_one : bool) : xdata := mkd t None None None [] by_one 0 None KNOT_EOK.
