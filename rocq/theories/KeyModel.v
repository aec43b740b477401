(** Automatic key management: src/knot/dnssec/key-events.c, with the key states of
    src/knot/dnssec/kasp/keystate.c, the times of src/contrib/time.h and the use of keys by
    src/knot/dnssec/zone-keys.c.

    Simplifications. Shared KSKs (ksk_shared, key-events.c:149-232) are not modelled. Logging, DBus and the
    planning of DS checks are left out. A run that fails leaves the database as it was: the earlier writes
    of kasp_db_delete_key and of clear_future_timers in a run that fails later are not modelled. The keys
    are saved all at once. Key identifiers, tags and key material are left out. *)
From Verif Require Import Base.


(** uint32_t and uint64_t arithmetic *)
Definition w32 (x : Z) : Z := x mod 2 ^ 32.
Definition w64 (x : Z) : Z := x mod 2 ^ 64.

(** *** src/contrib/time.h; 0 is never *)
(** time.h:87-90 knot_time_cmp *)
Definition knot_time_cmp (a b : Z) : Z :=
  (if a =? b then 0 else 1) * (if (a =? 0) || (b =? 0) then -1 else 1) * (if a <? b then -1 else 1).
(** time.h:100-107 knot_time_min *)
Definition knot_time_min (a b : Z) : Z :=
  if (a =? 0) || (b =? 0) then w64 (a + b) else if a <? b then a else b.
(** time.h:126-129 knot_time_add *)
Definition knot_time_add (since howlong : Z) : Z := if negb (since =? 0) then w64 (since + howlong) else since.
(** time.h:131-134 knot_time_plus *)
Definition knot_time_plus (a b : Z) : Z := if negb (a =? 0) && negb (b =? 0) then w64 (a + b) else 0.

(** *** Keys *)
(** kasp/policy.h:28-39 knot_kasp_key_timing_t *)
Record timing := mktm {
  t_created : Z; t_pre_active : Z; t_publish : Z; t_ready : Z; t_active : Z;
  t_retire_active : Z; t_retire : Z; t_post_active : Z; t_revoke : Z; t_remove : Z }.
(** kasp/policy.h:58-65 knot_kasp_key_t; the algorithm is that of its dnssec_key_t *)
Record key := mkkey { k_alg : Z; k_ksk : bool; k_zsk : bool; k_pub_only : bool; k_t : timing }.
(** kasp/policy.h:90-137 knot_kasp_policy_t, what is used here; context.h:50 keep_deleted_keys *)
Record policy := mkpol {
  p_manual : bool; p_alg : Z; p_sts : bool; p_zsk_lifetime : Z; p_ksk_lifetime : Z; p_delete_delay : Z;
  p_max_ttl : Z; p_key_ttl : Z; p_prop : Z; p_sbm_timeout : Z; p_keep_deleted : bool }.
(** zone-events.h:31-41 zone_sign_roll_flags_t *)
Record rflags := mkfl { fl_ksk : bool; fl_force_ksk : bool; fl_zsk : bool; fl_force_zsk : bool; fl_preserve : bool }.
(** What may fail: generating the n-th key, deleting a key, saving the keys *)
Record env := mkenv { e_gen : Z -> bool; e_del : bool; e_commit : bool }.

Definition set_pre_active (t : timing) x := mktm (t_created t) x (t_publish t) (t_ready t) (t_active t) (t_retire_active t) (t_retire t) (t_post_active t) (t_revoke t) (t_remove t).
Definition set_publish (t : timing) x := mktm (t_created t) (t_pre_active t) x (t_ready t) (t_active t) (t_retire_active t) (t_retire t) (t_post_active t) (t_revoke t) (t_remove t).
Definition set_ready (t : timing) x := mktm (t_created t) (t_pre_active t) (t_publish t) x (t_active t) (t_retire_active t) (t_retire t) (t_post_active t) (t_revoke t) (t_remove t).
Definition set_active (t : timing) x := mktm (t_created t) (t_pre_active t) (t_publish t) (t_ready t) x (t_retire_active t) (t_retire t) (t_post_active t) (t_revoke t) (t_remove t).
Definition set_retire_active (t : timing) x := mktm (t_created t) (t_pre_active t) (t_publish t) (t_ready t) (t_active t) x (t_retire t) (t_post_active t) (t_revoke t) (t_remove t).
Definition set_retire (t : timing) x := mktm (t_created t) (t_pre_active t) (t_publish t) (t_ready t) (t_active t) (t_retire_active t) x (t_post_active t) (t_revoke t) (t_remove t).
Definition set_post_active (t : timing) x := mktm (t_created t) (t_pre_active t) (t_publish t) (t_ready t) (t_active t) (t_retire_active t) (t_retire t) x (t_revoke t) (t_remove t).
Definition set_remove (t : timing) x := mktm (t_created t) (t_pre_active t) (t_publish t) (t_ready t) (t_active t) (t_retire_active t) (t_retire t) (t_post_active t) (t_revoke t) x.
(** Writing key->timing *)
Definition with_t (k : key) (f : timing -> timing) : key := mkkey (k_alg k) (k_ksk k) (k_zsk k) (k_pub_only k) (f (k_t k)).

(** kasp/keystate.h:22-33 key_state_t *)
Inductive kstate := KInvalid | KPreActive | KPublished | KReady | KActive | KRetireActive | KRetired | KPostActive | KRevoked | KRemoved.
(** knot_time_cmp(t, moment) <= 0 *)
Definition past (t moment : Z) : bool := knot_time_cmp t moment <=? 0.
(** keystate.c:19-74 get_key_state *)
Definition get_key_state (k : key) (moment : Z) : kstate :=
  if moment <=? 0 then KInvalid else
  let t := k_t k in
  if past (t_remove t) moment then KRemoved else
  if past (t_revoke t) moment then KRevoked else
  if past (t_post_active t) moment then (if past (t_retire t) moment then KInvalid else KPostActive) else
  if past (t_retire t) moment then KRetired else
  if past (t_retire_active t) moment then KRetireActive else
  if past (t_active t) moment then KActive else
  if past (t_ready t) moment then KReady else
  if past (t_publish t) moment then KPublished else
  if past (t_pre_active t) moment then KPreActive else
  KInvalid.
Definition kstate_eqb (a b : kstate) : bool :=
  match a, b with
  | KInvalid, KInvalid | KPreActive, KPreActive | KPublished, KPublished | KReady, KReady | KActive, KActive
  | KRetireActive, KRetireActive | KRetired, KRetired | KPostActive, KPostActive | KRevoked, KRevoked | KRemoved, KRemoved => true
  | _, _ => false
  end.
Definition in_state (now : Z) (s : kstate) (k : key) : bool := kstate_eqb (get_key_state k now) s.

(** key-events.c:27-39 key_present *)
Definition key_present (now : Z) (ks : list key) (ksk zsk : bool) : bool :=
  existsb (fun k => Bool.eqb (k_ksk k) ksk && Bool.eqb (k_zsk k) zsk && negb (k_pub_only k) && negb (in_state now KRemoved k)) ks.
(** key-events.c:56-71 algorithm_present *)
Definition alg_counted (now alg : Z) (k : key) : bool :=
  past (knot_time_min (knot_time_min (t_pre_active (k_t k)) (t_ready (k_t k))) (t_active (k_t k))) now &&
  negb (in_state now KRemoved k) && (k_alg k =? alg) && negb (k_pub_only k).
Definition algorithm_present (now : Z) (ks : list key) (alg : Z) : Z := zlen (filter (alg_counted now alg) ks).
(** key-events.c:73-80 signing_scheme_present *)
Definition signing_scheme_present (now : Z) (p : policy) (ks : list key) : bool :=
  if p_sts p then negb (key_present now ks true false) || negb (key_present now ks false true) || key_present now ks true true
  else key_present now ks true false && key_present now ks false true.

(** key-events.c:95-102 clear_future_timer *)
Definition clear_future_timer (now t : Z) : Z := if t >? now then 0 else t.
(** key-events.c:105-127 clear_future_timers *)
Definition clear_future_timers (now : Z) (k : key) : key :=
  with_t k (fun t =>
    let c := clear_future_timer now in
    let ra := c (t_retire_active t) in
    mktm (t_created t) (c (t_pre_active t)) (c (t_publish t)) (c (t_ready t)) (c (t_active t)) ra
      (if ra =? 0 then c (t_retire t) else t_retire t) (t_post_active t) (t_revoke t)
      (if ra =? 0 then c (t_remove t) else t_remove t)).
(** key-events.c:121: change > 0 *)
Definition timing_eqb (a b : timing) : bool :=
  (t_created a =? t_created b) && (t_pre_active a =? t_pre_active b) && (t_publish a =? t_publish b) && (t_ready a =? t_ready b) &&
  (t_active a =? t_active b) && (t_retire_active a =? t_retire_active b) && (t_retire a =? t_retire b) &&
  (t_post_active a =? t_post_active b) && (t_revoke a =? t_revoke b) && (t_remove a =? t_remove b).

(** key-events.c:128-147 generate_key with zone-keys.c:150-197 kdnssec_generate_key *)
Definition generate_key (e : env) (p : policy) (now : Z) (ks : list key) (ksk zsk : bool) (when_active : Z) (pre_active : bool) : res (list key) :=
  if pre_active && negb (when_active =? 0) then UB else
  if negb (e_gen e (zlen ks)) then Err KNOT_ENOMEM else
  Ok (ks ++ [mkkey (p_alg p) ksk zsk false
    (mktm now (if pre_active then now else 0) (if pre_active then 0 else now)
       (if ksk then when_active else 0) (if ksk then 0 else when_active) 0 0 0 0 0)]).
(** key-events.c:233 GEN_KSK_FLAGS, 235-242 generate_ksk without ksk_shared *)
Definition generate_ksk (e : env) (p : policy) (now : Z) (ks : list key) (when_active : Z) (pre_active : bool) : res (list key) :=
  generate_key e p now ks true (p_sts p) when_active pre_active.
Definition generate_zsk (e : env) (p : policy) (now : Z) (ks : list key) (when_active : Z) (pre_active : bool) : res (list key) :=
  generate_key e p now ks false true when_active pre_active.

(** key-events.c:244-282 running_rollover *)
Definition in_roll (now : Z) (k : key) : bool :=
  match get_key_state k now with KPreActive | KPublished | KRetireActive | KPostActive => true | _ => false end.
Definition zcount {A} (f : A -> bool) (l : list A) : Z := zlen (filter f l).
Definition running_rollover (now : Z) (ks : list key) : bool :=
  let own := filter (fun k => negb (k_pub_only k)) ks in
  let ready_ksk := zcount (fun k => in_state now KReady k && k_ksk k) own in
  let active_ksk := zcount (fun k => in_state now KActive k && k_ksk k) own in
  let active_zsk := zcount (fun k => in_state now KActive k && k_zsk k) own in
  existsb (in_roll now) own || (ready_ksk + active_ksk >? 1) || (active_zsk >? 1).

(** key-events.c:284-293 roll_action_type_t *)
Inductive atype := AInvalid | AGenerate | APublish | ASubmit | AReplace | ARetire | ARemove | AReallyRemove.
(** key-events.c:295-303 roll_action_t; the key is its index *)
Record action := mkact { a_type : atype; a_ksk : bool; a_time : Z; a_key : Z }.

(** key-events.c:320-326 zsk_rollover_time *)
Definition zsk_rollover_time (p : policy) (x : Z) : Z := if (x <=? 0) || (p_zsk_lifetime p =? 0) then 0 else knot_time_plus x (p_zsk_lifetime p).
(** key-events.c:328-334 zsk_active_time, 352-358 ksk_ready_time; uint32_t sum *)
Definition publish_delay (p : policy) : Z := w32 (p_prop p + p_key_ttl p).
Definition zsk_active_time (p : policy) (x : Z) : Z := if x <=? 0 then 0 else knot_time_add x (publish_delay p).
Definition ksk_ready_time (p : policy) (x : Z) : Z := if x <=? 0 then 0 else knot_time_add x (publish_delay p).
(** key-events.c:336-342 zsk_remove_time *)
Definition zsk_remove_time (p : policy) (x : Z) : Z := if x <=? 0 then 0 else knot_time_add x (w32 (p_prop p + p_max_ttl p)).
(** key-events.c:344-350 ksk_rollover_time *)
Definition ksk_rollover_time (p : policy) (x : Z) : Z := if (x <=? 0) || (p_ksk_lifetime p =? 0) then 0 else knot_time_plus x (p_ksk_lifetime p).
(** key-events.c:360-366 ksk_sbm_max_time *)
Definition ksk_sbm_max_time (p : policy) (x : Z) : Z := if (x <=? 0) || (p_sbm_timeout p =? 0) then 0 else knot_time_plus x (p_sbm_timeout p).
(** key-events.c:368-375 ksk_retire_time *)
Definition ksk_retire_time (p : policy) (x : Z) : Z := if x <=? 0 then 0 else knot_time_add x (publish_delay p).
(** key-events.c:377-387 ksk_remove_time: here the sum is that of knot_timediff_t *)
Definition ksk_remove_time (p : policy) (x : Z) (is_csk : bool) : Z :=
  if x <=? 0 then 0 else knot_time_add x (p_prop p + (if is_csk then p_max_ttl p else p_key_ttl p)).
(** key-events.c:389-403 ksk_really_remove_time, zsk_really_remove_time *)
Definition really_remove_time (p : policy) (x : Z) : Z := if p_keep_deleted p then 0 else knot_time_add x (p_delete_delay p).
(** key-events.c:407-413 alg_publish_time *)
Definition alg_publish_time (p : policy) (x : Z) : Z := if x <=? 0 then 0 else knot_time_add x (w32 (p_prop p + p_max_ttl p)).
(** key-events.c:415-418 alg_remove_time *)
Definition alg_remove_time (p : policy) (x : Z) : Z := knot_time_add x (publish_delay p).

(** key-events.c:436-528: what is to be done with a key, and when; None for continue. [run] is
    running_rollover(ctx). *)
Definition key_action (p : policy) (now : Z) (run : bool) (k : key) : option (atype * Z) :=
  let t := k_t k in
  let really := let x := really_remove_time p (t_remove t) in Some (AReallyRemove, if knot_time_cmp x now >? 0 then 0 else x) in
  if k_ksk k then
    match get_key_state k now with
    | KPreActive => Some (APublish, alg_publish_time p (t_pre_active t))
    | KPublished => Some (ASubmit, ksk_ready_time p (t_publish t))
    | KReady => Some (AReplace, ksk_sbm_max_time p (t_ready t))
    | KActive =>
      if negb run && (k_alg k =? p_alg p) then
        Some (AGenerate, ksk_rollover_time p (if t_created t =? 0 then t_active t else t_created t))
      else Some (AInvalid, 0)
    | KRetireActive =>
      if (t_retire t =? 0) && (t_post_active t =? 0) && (t_remove t =? 0) then Some (ARetire, ksk_retire_time p (t_retire_active t))
      else Some (AInvalid, 0)
    | KPostActive => Some (ARemove, alg_remove_time p (t_post_active t))
    | KRetired => Some (ARemove, ksk_remove_time p (knot_time_min (t_retire t) (t_remove t)) (k_zsk k))
    | KRemoved => really
    | _ => None
    end
  else
    match get_key_state k now with
    | KPreActive => Some (APublish, alg_publish_time p (t_pre_active t))
    | KPublished => Some (AReplace, zsk_active_time p (t_publish t))
    | KActive =>
      if negb run && (k_alg k =? p_alg p) then Some (AGenerate, zsk_rollover_time p (t_active t)) else Some (AInvalid, 0)
    | KRetireActive => Some (AInvalid, 0)
    | KPostActive => Some (ARemove, alg_remove_time p (t_post_active t))
    | KRetired => Some (ARemove, zsk_remove_time p (knot_time_min (t_retire t) (t_remove t)))
    | KRemoved => really
    | _ => None
    end.
(** key-events.c:428-432: keys that are passed over *)
Definition skipped (fl : rflags) (k : key) : bool :=
  k_pub_only k || (k_ksk k && negb (fl_ksk fl)) || (k_zsk k && negb (fl_zsk fl)).
(** key-events.c:424-536 the loop of next_action, from the key of index i, n keys are left: the keys, whether
    timers were cleared (and saved), and the action *)
Fixpoint next_loop (p : policy) (fl : rflags) (now : Z) (ks : list key) (i : Z) (n : nat) (ch : bool) (r : action)
  : list key * bool * action :=
  match n with
  | O => (ks, ch, r)
  | S n =>
    match zget ks i with
    | None => (ks, ch, r)
    | Some k =>
      if skipped fl k then next_loop p fl now ks (i + 1) n ch r else
      let k' := if fl_preserve fl then k else clear_future_timers now k in
      let ks := zset ks i k' in
      let ch := ch || negb (timing_eqb (k_t k) (k_t k')) in
      match key_action p now (running_rollover now ks) k' with
      | None => next_loop p fl now ks (i + 1) n ch r
      | Some (ty, tm) =>
        let r := if knot_time_cmp tm (a_time r) <? 0 then mkact ty (k_ksk k') tm i else r in
        next_loop p fl now ks (i + 1) n ch r
      end
    end
  end.
(** key-events.c:420-539 next_action *)
Definition next_action (p : policy) (fl : rflags) (now : Z) (ks : list key) : list key * bool * action :=
  next_loop p fl now ks 0 (length ks) false (mkact AInvalid false 0 0).

(** Index of the first key with a property *)
Fixpoint find_key (f : key -> bool) (ks : list key) (i : Z) : option Z :=
  match ks with [] => None | k :: ks => if f k then Some i else find_key f ks (i + 1) end.
(** Writing a key in place *)
Definition upd (ks : list key) (i : Z) (f : timing -> timing) : res (list key) :=
  match zget ks i with Some k => Ok (zset ks i (with_t k f)) | None => UB end.

(** key-events.c:541-557 submit_key *)
Definition submit_key (now : Z) (ks : list key) (i : Z) : res (list key) :=
  match zget ks i with
  | None => UB
  | Some k =>
    if negb (in_state now KPublished k && k_ksk k) then UB else
    let ks := map (fun k => if k_ksk k && negb (k_pub_only k) && in_state now KReady k then with_t k (fun t => set_active t now) else k) ks in
    upd ks i (fun t => set_ready t now)
  end.
(** key-events.c:559-570 knot_dnssec_key2retire *)
Definition key2retire (now : Z) (ks : list key) (new_ksk : bool) : option Z :=
  find_key (fun k => Bool.eqb new_ksk (k_ksk k) && in_state now KActive k) ks 0.
(** key-events.c:572-588 zsk2retire *)
Definition zsk2retire (now : Z) (ks : list key) (newksk : key) : option Z :=
  find_key (fun k => k_zsk k && negb (k_ksk k) && (negb (k_alg k =? k_alg newksk) || k_zsk newksk) &&
                     (in_state now KActive k || in_state now KRetireActive k)) ks 0.
(** key-events.c:590-634 exec_new_signatures *)
Definition exec_new_signatures (now : Z) (ks : list key) (i : Z) (delay : Z) : res (list key) :=
  match zget ks i with
  | None => UB
  | Some new =>
    let* ks :=
      match key2retire now ks (k_ksk new) with
      | None => Ok ks
      | Some o =>
        match zget ks o with
        | None => UB
        | Some old =>
          let algdiff := negb (k_alg old =? k_alg new) in
          let fin := w64 (now + delay) in
          let* ks := upd ks o (fun t =>
            if algdiff then
              let t := set_retire_active t now in if k_ksk old then set_post_active t fin else t
            else if k_ksk old then
              let t := set_retire_active t now in if k_zsk old then set_retire t fin else set_remove t fin
            else set_retire t now) in
          if k_ksk new then
            match zsk2retire now ks new with
            | None => Ok ks
            | Some z => upd ks z (fun t => if algdiff then set_post_active t fin else set_retire t now)
            end
          else Ok ks
        end
      end in
    match zget ks i with
    | None => UB
    | Some new =>
      if negb (in_state now (if k_ksk new then KReady else KPublished) new) then UB else
      upd ks i (fun t => set_active t (knot_time_min now (t_active t)))
    end
  end.
(** key-events.c:636-642 exec_publish *)
Definition exec_publish (now : Z) (ks : list key) (i : Z) : res (list key) :=
  match zget ks i with
  | None => UB
  | Some k => if negb (in_state now KPreActive k) then UB else upd ks i (fun t => set_publish t now)
  end.
(** key-events.c:644-669 exec_ksk_retire; the last friend found *)
Definition exec_ksk_retire (now : Z) (ks : list key) (i : Z) : res (list key) :=
  let friend k := k_zsk k && in_state now KRetireActive k &&
    (algorithm_present now ks (k_alg k) <? (if k_ksk k && k_zsk k then 2 else 3)) in
  match zget ks i with
  | None => UB
  | Some k =>
    if negb (in_state now KRetireActive k) then UB else
    match find_key friend (rev ks) 0 with
    | Some j =>
      let* ks := upd ks i (fun t => set_post_active t now) in
      upd ks (zlen ks - 1 - j) (fun t => set_post_active t now)
    | None => upd ks i (fun t => set_retire t now)
    end
  end.
(** key-events.c:671-678 exec_remove_old_key *)
Definition exec_remove_old_key (now : Z) (ks : list key) (i : Z) : res (list key) :=
  match zget ks i with
  | None => UB
  | Some k =>
    if negb (in_state now KRetired k || in_state now KPostActive k || in_state now KRemoved k) then UB else
    upd ks i (fun t => set_remove t now)
  end.
(** key-events.c:680-685 exec_really_remove, zone-keys.c:225-256 kdnssec_delete_key *)
Definition exec_really_remove (e : env) (p : policy) (now : Z) (ks : list key) (i : Z) : res (list key) :=
  match zget ks i with
  | None => UB
  | Some k =>
    if negb (in_state now KRemoved k) || p_keep_deleted p then UB else
    if negb (e_del e) then Err KNOT_ENOMEM else
    Ok (zfirstn i ks ++ zskipn (i + 1) ks)
  end.

(** key-events.c:727-749 generate initial keys if missing; the second value is keys_changed *)
Definition gen_initial (e : env) (p : policy) (fl : rflags) (now : Z) (ks : list key) : res (list key * bool) :=
  let zsk_only := negb (fl_ksk fl) && fl_zsk fl in
  let has ksk zsk := key_present now ks ksk zsk in
  if (negb (has true false) && negb (has true true)) || (zsk_only && negb (has false true) && negb (has true true)) then
    let* ks := if fl_ksk fl then generate_ksk e p now ks now false else Ok ks in
    if fl_zsk fl then
      let* ks := if negb (p_sts p) && negb (key_present now ks false true) then generate_zsk e p now ks now false else Ok ks in
      Ok (ks, true)
    else Ok (ks, false)
  else Ok (ks, false).
(** key-events.c:750-763 forced KSK rollover *)
Definition gen_forced_ksk (e : env) (p : policy) (fl : rflags) (now : Z) (ks : list key) (ch : bool) : res (list key * bool) :=
  if fl_force_ksk fl && fl_ksk fl then
    if running_rollover now ks then Ok (ks, ch) else let* ks := generate_ksk e p now ks 0 false in Ok (ks, true)
  else Ok (ks, ch).
(** key-events.c:764-777 forced ZSK rollover *)
Definition gen_forced_zsk (e : env) (p : policy) (fl : rflags) (now : Z) (ks : list key) (ch : bool) : res (list key * bool) :=
  if fl_force_zsk fl && fl_zsk fl then
    if running_rollover now ks then Ok (ks, ch) else let* ks := generate_zsk e p now ks 0 false in Ok (ks, true)
  else Ok (ks, ch).
(** a new KSK and, unless it is a CSK, a new ZSK *)
Definition gen_both (e : env) (p : policy) (now : Z) (ks : list key) (pre : bool) : res (list key) :=
  let* ks := generate_ksk e p now ks 0 pre in
  if negb (p_sts p) then generate_zsk e p now ks 0 pre else Ok ks.
(** key-events.c:778-789 algorithm rollover *)
Definition gen_alg (e : env) (p : policy) (fl : rflags) (now : Z) (ks : list key) (ch : bool) : res (list key * bool) :=
  if (algorithm_present now ks (p_alg p) =? 0) && negb (running_rollover now ks) && (fl_ksk fl && fl_zsk fl) then
    let* ks := gen_both e p now ks true in Ok (ks, true)
  else Ok (ks, ch).
(** key-events.c:790-801 scheme rollover *)
Definition gen_scheme (e : env) (p : policy) (fl : rflags) (now : Z) (ks : list key) (ch : bool) : res (list key * bool) :=
  if negb (signing_scheme_present now p ks) && (fl_ksk fl && fl_zsk fl) && negb (running_rollover now ks) then
    let* ks := gen_both e p now ks false in Ok (ks, true)
  else Ok (ks, ch).
(** key-events.c:812-851 the switch *)
Definition exec_action (e : env) (p : policy) (now : Z) (ks : list key) (a : action) : res (list key) :=
  match a_type a with
  | AGenerate => if a_ksk a then generate_ksk e p now ks 0 false else generate_zsk e p now ks 0 false
  | APublish => exec_publish now ks (a_key a)
  | ASubmit => submit_key now ks (a_key a)
  | AReplace => exec_new_signatures now ks (a_key a) 0
  | ARetire => exec_ksk_retire now ks (a_key a)
  | ARemove => exec_remove_old_key now ks (a_key a)
  | AReallyRemove => exec_really_remove e p now ks (a_key a)
  | AInvalid => Err KNOT_EINVAL
  end.
(** key-events.c:709-902 knot_dnssec_key_rollover, without saving; [ch] is reschedule->keys_changed. The
    fuel is the depth of the recursion in line 877. *)
Fixpoint roll (fuel : nat) (e : env) (p : policy) (fl : rflags) (now : Z) (ks : list key) (ch : bool) : res (list key * bool) :=
  match fuel with
  | O => OOF
  | S fuel =>
    if p_manual p then Ok (ks, ch) else
    let* (ks, c1) := gen_initial e p fl now ks in
    let* (ks, ch) := gen_forced_ksk e p fl now ks (ch || c1) in
    let* (ks, ch) := gen_forced_zsk e p fl now ks ch in
    let fl := mkfl (fl_ksk fl) (fl_force_ksk fl && negb (fl_ksk fl)) (fl_zsk fl) (fl_force_zsk fl && negb (fl_zsk fl)) (fl_preserve fl) in
    let* (ks, ch) := gen_alg e p fl now ks ch in
    let* (ks, ch) := gen_scheme e p fl now ks ch in
    let '(ks, c2, next) := next_action p fl now ks in
    let ch := ch || c2 in
    if past (a_time next) now then
      let* ks := exec_action e p now ks next in
      let '(ks, _, next) := next_action p fl now ks in
      if past (a_time next) now then roll fuel e p fl now ks true else Ok (ks, true)
    else Ok (ks, ch)
  end.
(** key-events.c:709-902 knot_dnssec_key_rollover: the keys in the database afterwards *)
Definition key_rollover (fuel : nat) (e : env) (p : policy) (fl : rflags) (now : Z) (ks : list key) : res (list key) :=
  let* (ks', ch) := roll fuel e p fl now ks false in
  if ch then (if e_commit e then Ok ks' else Err KNOT_ENOMEM) else Ok ks.
(** key-events.c:904-918 knot_dnssec_ksk_sbm_confirm *)
Definition sbm_confirm (e : env) (now delay : Z) (ks : list key) : res (list key) :=
  match find_key (fun k => k_ksk k && negb (k_pub_only k) && in_state now KReady k) ks 0 with
  | None => Err KNOT_NO_READY_KEY
  | Some i =>
    let* ks := exec_new_signatures now ks i delay in
    if e_commit e then Ok ks else Err KNOT_ENOMEM
  end.

(** *** Use of keys for signing *)
(** zone-keys.h zone_key_t: what matters *)
Record zkey := mkz { z_alg : Z; z_ksk : bool; z_zsk : bool; z_public : bool; z_ready : bool; z_active : bool; z_kplus : bool; z_zplus : bool; z_pub_only : bool }.
(** zone-keys.c:258-263 is_published *)
Definition is_published (t : timing) (now : Z) : bool := past (t_publish t) now && negb (past (t_post_active t) now) && negb (past (t_remove t) now).
(** zone-keys.c:265-269 is_ready *)
Definition is_ready (t : timing) (now : Z) : bool := past (t_ready t) now && negb (past (t_active t) now).
(** zone-keys.c:271-277 is_active *)
Definition is_active (t : timing) (now : Z) : bool :=
  past (t_active t) now && negb (past (t_retire t) now) && negb (past (t_retire_active t) now) && negb (past (t_remove t) now).
(** zone-keys.c:279-289 alg_has_active_zsk *)
Definition alg_has_active_zsk (now : Z) (ks : list key) (alg : Z) : bool :=
  existsb (fun k => (k_alg k =? alg) && k_zsk k && is_active (k_t k) now) ks.
(** zone-keys.c:302-385 set_key *)
Definition set_key (now : Z) (same_alg_act_zsk : bool) (k : key) : zkey :=
  let t := k_t k in
  let at_ x := past x now in
  let public := is_published t now in
  let ready := k_ksk k && is_ready t now in
  let active := is_active t now in
  let kplus := public && k_ksk k && negb active in
  let zplus := ready && negb same_alg_act_zsk in
  let zplus := if at_ (t_pre_active t) && negb (at_ (t_ready t)) && negb (at_ (t_active t)) && negb (at_ (t_remove t)) then k_zsk k else zplus in
  let c := at_ (t_retire t) && negb (at_ (t_remove t)) in
  let kplus := if c then false else kplus in
  let public := if c then k_zsk k else public in
  let c := at_ (t_retire_active t) && negb (at_ (t_retire t)) && negb (at_ (t_remove t)) in
  let kplus := if c then k_ksk k else kplus in
  let zplus := if c then negb same_alg_act_zsk else zplus in
  let c := at_ (t_post_active t) && negb (at_ (t_remove t)) in
  let kplus := if c then false else kplus in
  let zplus := if c then k_zsk k else zplus in
  let c := k_ksk k && at_ (t_revoke t) && negb (at_ (t_remove t)) in
  let ready := if c then false else ready in
  let active := if c then false else active in
  let kplus := if c then true else kplus in
  let public := if c then true else public in
  if k_pub_only k then mkz (k_alg k) (k_ksk k) (k_zsk k) public ready false false false true
  else mkz (k_alg k) (k_ksk k) (k_zsk k) public ready active kplus zplus false.
(** zone-keys.c:547-551 the keys as load_zone_keys prepares them *)
Definition zone_keys (now : Z) (ks : list key) : list zkey := map (fun k => set_key now (alg_has_active_zsk now ks (k_alg k)) k) ks.
(** zone-keys.c:400-459 walk_algorithms, without NSEC3 and offline KSK: the usage of an algorithm *)
Definition usage (zs : list zkey) (alg : Z) : bool * bool * bool * bool :=
  let own := filter (fun z => negb (z_pub_only z) && (z_alg z =? alg)) zs in
  (existsb (fun z => z_ksk z && z_public z) own, existsb (fun z => z_zsk z && z_public z) own,
   existsb (fun z => z_ksk z && (z_active z || z_kplus z)) own, existsb (fun z => z_zsk z && (z_active z || z_zplus z)) own).
Definition walk_algorithms (zs : list zkey) : Z :=
  let us := map (fun a => usage zs (Z.of_nat a)) (seq 0 256) in
  let pub u := let '(a, b, _, _) := u in a || b in
  let full u := let '(a, b, c, d) := u in a && b && c && d in
  if existsb (fun u => pub u && negb (full u)) us then KNOT_DNSSEC_EMISSINGKEYTYPE
  else if existsb full us then 0 else KNOT_DNSSEC_ENOKEY.
