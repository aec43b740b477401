(** Access control lists: src/knot/updates/acl.c. The configuration is a value: a multi-valued item is the list of its
    values, empty if the item is not set (KNOT_ENOENT); the ids of remotes and groups of remotes are replaced by the list
    of the remotes (conf_mix_iter). A name is the list of its bytes. *)
From Verif Require Import Base DnameModel WireModel SockaddrModel CookiesModel.

(** src/knot/updates/acl.h:26-54 *)
Inductive proto := UDP | TCP | TLS | QUIC.
Definition ACTION_QUERY : Z := 0.
Definition ACTION_UPDATE : Z := 3.
Definition OWNER_NONE : Z := 0.
Definition OWNER_KEY : Z := 1.
Definition OWNER_ZONE : Z := 2.
Definition OWNER_NAME : Z := 3.
Definition MATCH_SUBEQ : Z := 0.
Definition MATCH_EQ : Z := 1.
Definition MATCH_SUB : Z := 2.
Definition MATCH_PATTERN : Z := 3.

(** an item of an address list: network with prefix or range *)
Inductive addr_item := ANet (a : sockaddr) (prefix : Z) | ARange (mn mx : sockaddr).
Record key := mkkey { k_name : list Z; k_alg : Z; k_secret : list Z }.
Record remote := mkrmt { rm_addrs : list sockaddr; rm_key : option key; rm_pins : list (list Z); rm_quic : bool; rm_tls : bool; rm_auto : bool }.
Record rule := mkrule { ru_remotes : list remote; ru_deny : bool; ru_addrs : list addr_item; ru_keys : list key; ru_pins : list (list Z);
  ru_protos : list Z; ru_actions : list Z; ru_types : list Z; ru_owner : Z; ru_match : Z; ru_names : list (list Z) }.
(** the request: source, key name and algorithm if signed, pin of the certificate (empty without TLS), protocol, zone,
    owners and types of the records of the update section *)
Record request := mkreq { q_addr : sockaddr; q_key : option (list Z * Z); q_pin : list Z; q_proto : proto; q_zone : list Z; q_rrs : list (list Z * Z) }.

(** src/knot/updates/acl.c:22-43 *)
Definition cert_pin_check (session_pin : list Z) (pins : list (list Z)) : bool :=
  match pins with
  | [] => true
  | _ =>
    if zlen session_pin =? 0 then false
    else existsb (fun pin => (zlen pin =? zlen session_pin) && (const_time_memcmp pin session_pin 0 =? 0)) pins
  end.
(** src/knot/updates/acl.c:45-60 *)
Definition match_type (type : Z) (types : list Z) : bool :=
  match types with [] => true | _ => existsb (fun t => type =? t) types end.
(** src/knot/updates/acl.c:62-85 *)
Fixpoint match_pattern_loop (fuel : nat) (rr_owner name : list Z) : res bool :=
  match fuel with
  | O => OOF
  | S fuel =>
    let* name_len := rd0 name in
    let* name := advance name 1 in
    let* owner_len := rd0 rr_owner in
    let* rr_owner := advance rr_owner 1 in
    let* star := if name_len =? 1 then let* c := rd0 name in Ok (c =? 42) else Ok false in
    let next :=
      let* name := advance name name_len in
      let* rr_owner := advance rr_owner owner_len in
      match_pattern_loop fuel rr_owner name in
    if star then if owner_len =? 0 then Ok false else next
    else if negb (name_len =? owner_len) then Ok false
    else if name_len =? 0 then Ok true
    else
      let* a := take name name_len in
      let* b := take rr_owner name_len in
      if negb (bytes_eqb a b) then Ok false else next
  end.
Definition match_pattern (rr_owner name : list Z) : res bool := match_pattern_loop (S (length name)) rr_owner name.
(** src/knot/updates/acl.c:87-110; [None] is NULL *)
Definition match_name (rr_owner : list Z) (name : option (list Z)) (mtch : Z) : res bool :=
  match name with
  | None => Ok true
  | Some name =>
    if mtch =? MATCH_PATTERN then match_pattern rr_owner name else
    let* ret := match in_bailiwick rr_owner name with Ok n => Ok n | Err e => Ok e | UB => UB | OOF => OOF end in
    Ok (if mtch =? MATCH_SUBEQ then ret >=? 0 else if mtch =? MATCH_EQ then ret =? 0 else if mtch =? MATCH_SUB then ret >? 0 else false)
  end.
(** src/knot/updates/acl.c:112-142 *)
Fixpoint match_names_loop (rr_owner zone_name : list Z) (names : list (list Z)) (mtch : Z) : res bool :=
  match names with
  | [] => Ok false
  | name :: names =>
    let* z := dname_size zone_name in
    let* zn := take zone_name z in
    if negb (last name 0 =? 0) then
      if zlen name + zlen zn >? 255 then Ok false else
      let* m := match_name rr_owner (Some (name ++ zn)) mtch in
      if m then Ok true else match_names_loop rr_owner zone_name names mtch
    else
      let* m := match_name rr_owner (Some name) mtch in
      if m then Ok true else match_names_loop rr_owner zone_name names mtch
  end.
Definition match_names (rr_owner zone_name : list Z) (names : list (list Z)) (mtch : Z) : res bool :=
  match names with [] => Ok true | _ => match_names_loop rr_owner zone_name names mtch end.
(** src/knot/updates/acl.c:144-207, the loop *)
Fixpoint update_loop (r : rule) (mtch : Z) (key_name : option (list Z)) (zone_name : list Z) (rrs : list (list Z * Z)) : res bool :=
  match rrs with
  | [] => Ok true
  | (owner, type) :: rrs =>
    if negb (match_type type (ru_types r)) then Ok false else
    let* m :=
      if ru_owner r =? OWNER_NAME then match_names owner zone_name (ru_names r) mtch
      else if ru_owner r =? OWNER_KEY then match_name owner key_name mtch
      else if ru_owner r =? OWNER_ZONE then match_name owner (Some zone_name) mtch
      else Ok true in
    if negb m then Ok false else update_loop r mtch key_name zone_name rrs
  end.
Definition update_match (r : rule) (key_name : option (list Z)) (zone_name : list Z) (rrs : list (list Z * Z)) : res bool :=
  if match ru_types r with [] => ru_owner r =? OWNER_NONE | _ => false end then Ok true else
  let mtch := if negb (ru_owner r =? OWNER_NONE) then ru_match r else MATCH_SUBEQ in
  update_loop r mtch key_name zone_name rrs.
(** src/knot/updates/acl.c:209-222 *)
Definition check_proto_rmt (p : proto) (rm : remote) : bool :=
  if rm_quic rm then match p with QUIC => true | _ => false end
  else if rm_tls rm then match p with TLS => true | _ => false end
  else match p with TCP | UDP => true | _ => false end.
(** src/knot/updates/acl.c:224-252 *)
Definition proto_mask (p : proto) : Z := match p with UDP => 1 | TCP => 2 | TLS => 4 | QUIC => 8 end.
Definition check_proto (p : proto) (protos : list Z) : bool := existsb (fun v => negb (Z.land v (proto_mask p) =? 0)) protos.
(** src/knot/conf/conf.c:778-796 *)
Definition addr_match (addrs : list sockaddr) (a : sockaddr) : bool := existsb (fun m => sockaddr_cmp m a true =? 0) addrs.
(** src/knot/conf/conf.c:851-878 *)
Fixpoint addr_range_match (items : list addr_item) (a : sockaddr) : res bool :=
  match items with
  | [] => Ok false
  | ANet n p :: items => let* m := sockaddr_net_match a n p in if m then Ok true else addr_range_match items a
  | ARange mn mx :: items => if sockaddr_range_match a mn mx then Ok true else addr_range_match items a
  end.
(** src/knot/updates/acl.c:277-305, the key loop; a remote has one key at most *)
Fixpoint find_key (keys : list key) (tsig : option (list Z * Z)) : res (option key) :=
  match keys with
  | [] => Ok None
  | k :: keys =>
    match tsig with
    | None => find_key keys tsig
    | Some (name, alg) =>
      let* e := dname_is_equal (k_name k) name in
      if negb e then find_key keys tsig else
      if negb (k_alg k =? alg) then find_key keys tsig else Ok (Some k)
    end
  end.
(** src/knot/updates/acl.c:254-323; [addr_ok] is the result of the address comparison. [None]: no match, [Some k]: match
    with the key k or without a key *)
Definition check_addr_key (addr_ok : bool) (keys : list key) (pins : list (list Z)) (q : request) (deny forward : bool) : res (option (option key)) :=
  if negb addr_ok then Ok None else
  if negb (cert_pin_check (q_pin q) pins) then Ok None else
  match keys with
  | [] => Ok (if match q_key q with None => true | _ => false end || forward || deny then Some None else None)
  | _ => let* k := find_key keys (q_key q) in Ok (match k with Some k => Some (Some k) | None => None end)
  end.
Definition key_list (k : option key) : list key := match k with Some k => [k] | None => [] end.
(** src/knot/updates/acl.c:359-371 *)
Fixpoint remotes_loop (rms : list remote) (q : request) (deny forward : bool) : res (option (option key)) :=
  match rms with
  | [] => Ok None
  | rm :: rms =>
    let* m := check_addr_key (match rm_addrs rm with [] => true | l => addr_match l (q_addr q) end) (key_list (rm_key rm)) (rm_pins rm) q deny forward in
    match m with
    | Some k => if check_proto_rmt (q_proto q) rm then Ok (Some k) else remotes_loop rms q deny forward
    | None => remotes_loop rms q deny forward
    end
  end.
(** src/knot/updates/acl.c:346-435, one rule: [inl b] is a decision with the key, [inr tt] is "goto next_acl" *)
Definition rule_eval (r : rule) (action : Z) (q : request) (forward : bool) : res (bool * option key + unit) :=
  let* who :=
    match ru_remotes r with
    | [] =>
      let* a := match ru_addrs r with [] => Ok true | l => addr_range_match l (q_addr q) end in
      let* m := check_addr_key a (ru_keys r) (ru_pins r) q (ru_deny r) forward in
      match m with
      | Some k => Ok (match ru_protos r with [] => Some k | l => if check_proto (q_proto q) l then Some k else None end)
      | None => Ok None
      end
    | rms => remotes_loop rms q (ru_deny r) forward
    end in
  match who with
  | None => Ok (inr tt)
  | Some k =>
    let act := if negb (action =? ACTION_QUERY) then match ru_actions r with [] => None | l => Some (existsb (fun a => a =? action) l) end else Some true in
    match act with
    | None => Ok (inl (false, None))
    | Some false => Ok (inr tt)
    | Some true =>
      let* u := if action =? ACTION_UPDATE then update_match r (match q_key q with Some (n, _) => Some n | None => None end) (q_zone q) (q_rrs q) else Ok true in
      if negb u then Ok (inr tt) else
      if ru_deny r then Ok (inl (false, None)) else
      Ok (inl (true, match q_key q with Some _ => k | None => None end))
    end
  end.
Fixpoint acl_loop (rules : list rule) (action : Z) (q : request) (forward : bool) : res (bool * option key) :=
  match rules with
  | [] => Ok (false, None)
  | r :: rules =>
    let* d := rule_eval r action q forward in
    match d with inl x => Ok x | inr _ => acl_loop rules action q forward end
  end.
(** src/knot/updates/acl.c:325-437; [master]: the zone has a primary, [ddns_master]: forwarding of updates is not
    switched off. The answer and the key whose secret will be used *)
Definition acl_allowed (rules : list rule) (action : Z) (master ddns_master : bool) (q : request) : res (bool * option key) :=
  acl_loop rules action q ((action =? ACTION_UPDATE) && master && ddns_master).
(** src/knot/updates/acl.c:439-506 *)
Fixpoint rmt_loop (rms : list remote) (q : request) : res (bool * option key) :=
  match rms with
  | [] => Ok (false, None)
  | rm :: rms =>
    if negb (rm_auto rm) then rmt_loop rms q else
    if negb (check_proto_rmt (q_proto q) rm) then rmt_loop rms q else
    if negb (cert_pin_check (q_pin q) (rm_pins rm)) then rmt_loop rms q else
    let* k :=
      match rm_key rm with
      | Some k => let* f := find_key [k] (q_key q) in Ok (match f with Some k => Some (Some k) | None => None end)
      | None => Ok (match q_key q with None => Some None | Some _ => None end)
      end in
    match k with
    | None => rmt_loop rms q
    | Some k =>
      if negb (addr_match (rm_addrs rm) (q_addr q)) then rmt_loop rms q else
      Ok (true, match q_key q with Some _ => k | None => None end)
    end
  end.
Definition rmt_allowed (auto_acl : bool) (rms : list remote) (q : request) : res (bool * option key) :=
  if negb auto_acl then Ok (false, None) else rmt_loop rms q.
(** src/knot/nameserver/process_query.c:681-783: the remotes the action concerns first, then the rules *)
Definition process_query_acl_check (auto_acl : bool) (masters notifies : list remote) (rules : list rule) (action : Z) (master ddns_master : bool) (q : request) : res (bool * option key) :=
  let* (allowed, k) :=
    if negb (action =? ACTION_UPDATE) then rmt_allowed auto_acl (if action =? 1 then masters else notifies) q else Ok (false, None) in
  if allowed then Ok (allowed, k) else acl_allowed rules action master ddns_master q.
