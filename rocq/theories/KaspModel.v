(** The database of keys and of their policy: src/knot/dnssec/kasp/kasp_db.c, over the model of LMDB of LmdbModel.v.

    Simplifications. Memory allocation succeeds and the database is open. [io] is the list of the results of the LMDB
    calls, as in LmdbModel.v; loops get the number of the pairs as fuel. The memory of a value ends with it, also
    where the code reads with a wrong size, and reading an output left as it was is [UB]. Records made with offline
    keys and sweeping of the whole database are left out. *)
From Verif Require Import Base WireModel DnameModel LmdbModel KeyModel.

(** kasp_db.c:26-35 *)
Definition KC_PARAMS : Z := 1.
Definition KC_POLICYLAST : Z := 2.
Definition KC_NSEC3SALT : Z := 3.
Definition KC_NSEC3TIME : Z := 4.
Definition KC_MASTERSERIAL : Z := 5.
Definition KC_LASTSIGNEDSERIAL : Z := 6.
Definition KC_OFFLINE_RECORDS : Z := 7.
Definition KC_SAVED_TTLS : Z := 8.
(** kasp_db.c:37-45 *)
Definition zone_related_classes : list Z :=
  [KC_PARAMS; KC_NSEC3SALT; KC_NSEC3TIME; KC_MASTERSERIAL; KC_LASTSIGNEDSERIAL; KC_OFFLINE_RECORDS; KC_SAVED_TTLS].

(** src/knot/dnssec/kasp/policy.h:28-53, with the times in the order they are stored *)
Record kparams : Type := mkkp {
  kp_id : list Z; kp_ksk : bool; kp_csk : bool; kp_pub_only : bool; kp_keytag : Z; kp_alg : Z; kp_public : list Z;
  kt_created : Z; kt_pre_active : Z; kt_publish : Z; kt_ready : Z; kt_active : Z; kt_retire_active : Z;
  kt_retire : Z; kt_post_active : Z; kt_remove : Z; kt_revoke : Z }.

(** kasp_db.c:68-94 make_key_str; the name is the memory at the zone name *)
Definition made (r : res (option (list Z))) : res (list Z) :=
  let* o := r in match o with Some k => Ok k | None => Err KNOT_ENOMEM end.
Definition make_key_str (kclass : Z) (dname : option (list Z)) (str : option (list Z)) : res (list Z) :=
  if kclass =? KC_POLICYLAST then
    match dname, str with None, Some s => made (make_key true 0 [KB kclass; KS s]) | _, _ => UB end
  else if (kclass =? KC_PARAMS) || (kclass =? KC_OFFLINE_RECORDS) then
    match dname, str with
    | Some d, None => made (make_key true 0 [KB kclass; KN d])
    | Some d, Some s => made (make_key true 0 [KB kclass; KN d; KS s])
    | None, _ => UB
    end
  else match dname, str with Some d, None => made (make_key true 0 [KB kclass; KN d]) | _, _ => UB end.

(** a string in memory, up to its zero *)
Fixpoint cstr (m : list Z) : res (list Z) :=
  match m with [] => UB | c :: m => if c =? 0 then Ok [] else let* s := cstr m in Ok (c :: s) end.
(** kasp_db.c:103-110 unmake_key_str *)
Definition unmake_key_str (keyv : list Z) : res (option (list Z)) :=
  let* (ok, vs) := unmake_key (Some keyv) [FB true; FN true; FS true] in
  if negb ok then Ok None
  else match vs with
       | [_; _; VPos p] => let* s := cstr (zskipn p keyv) in Ok (Some s)
       | _ => UB
       end.

(** kasp_db.c:121-134 params_serialize *)
Definition kp_flags (p : kparams) : Z :=
  Z.lor (Z.lor (Z.lor 2 (if kp_ksk p then 1 else 0)) (if kp_pub_only p then 4 else 0)) (if kp_csk p then 8 else 0).
Definition params_serialize (p : kparams) : res (list Z) :=
  made (make_key true 0
    [KL (zlen (kp_public p)); KL 8; KH (kp_keytag p); KB (kp_alg p); KB (kp_flags p);
     KL (kt_created p); KL (kt_pre_active p); KL (kt_publish p); KL (kt_ready p); KL (kt_active p);
     KL (kt_retire_active p); KL (kt_retire p); KL (kt_post_active p); KL (kt_remove p);
     KD (kp_public p); KL (kt_revoke p)]).

(** kasp_db.c:137-179 params_deserialize; without the name of the key. [None] is false. *)
Definition params_deserialize (val : list Z) : res (option kparams) :=
  if zlen val <? 16 then Ok None
  else
    let keylen := unbe (zfirstn 8 val) in
    let future := unbe (zfirstn 8 (zskipn 8 val)) in
    let size := w64 (zlen val - future) in
    if size >? zlen val then UB
    else
      let* (ok, vs) := unmake_key (Some (zfirstn size val))
        [FL true; FL true; FH true; FB true; FB true; FL true; FL true; FL true; FL true; FL true; FL true; FL true; FL true; FL true; FD true keylen] in
      if negb ok then Ok None
      else match vs with
      | [VInt keylen; VInt future; VInt tag; VInt alg; VInt flags; VInt t1; VInt t2; VInt t3; VInt t4; VInt t5; VInt t6; VInt t7; VInt t8; VInt t9; VData key] =>
        let ksk := negb (Z.land flags 1 =? 0) in
        let csk := negb (Z.land flags 8 =? 0) in
        if (future >? 0) && (future <? 8) then Ok None
        else
          let* revoke := (if future >? 0 then let* b := mem_read val (zlen val - future) 8 in Ok (unbe b) else Ok 0) in
          if negb (Z.land flags 2 =? 0) && (ksk || negb csk) then
            Ok (Some (mkkp [] ksk csk (negb (Z.land flags 4 =? 0)) tag alg key t1 t2 t3 t4 t5 t6 t7 t8 t9 revoke))
          else Ok None
      | _ => UB
      end.
Definition set_id (p : kparams) (id : list Z) : kparams :=
  mkkp id (kp_ksk p) (kp_csk p) (kp_pub_only p) (kp_keytag p) (kp_alg p) (kp_public p)
    (kt_created p) (kt_pre_active p) (kt_publish p) (kt_ready p) (kt_active p) (kt_retire_active p)
    (kt_retire p) (kt_post_active p) (kt_remove p) (kt_revoke p).

(** kasp_db.c:181-195 txn2params; [None] sets the result of the transaction to KNOT_EMALF *)
Definition pair2params (k v : list Z) : res (option kparams) :=
  let* p := params_deserialize v in
  match p with
  | None => Ok None
  | Some p => let* id := unmake_key_str k in Ok (match id with Some id => Some (set_id p id) | None => None end)
  end.
(** kasp_db.c:197-216 kasp_db_list_keys *)
Definition list_body (l : list kparams) (t : txn) : res (list kparams * txn) :=
  let* p := pair2params (t_ck t) (t_cv t) in
  match p with
  | Some p => Ok (l ++ [p], t)
  | None => Ok (l, set_ret t KNOT_EMALF)
  end.
Definition kasp_db_list_keys (d : db) (zone : list Z) (io : list Z) : res (Z * list kparams) :=
  let* prefix := make_key_str KC_PARAMS (Some zone) None in
  let t := lmdb_begin d false io in
  let* (l, t) := foreach (S (length d)) prefix list_body [] t in
  let t := lmdb_abort t in
  if negb (t_ret t =? KNOT_EOK) then Ok (t_ret t, [])
  else Ok (match l with [] => KNOT_ENOENT | _ => KNOT_EOK end, l).

(** kasp_db.c:218-233 kasp_db_get_key_algorithm; the result of the search itself is not looked at *)
Definition kasp_db_get_key_algorithm (d : db) (zone id : list Z) (io : list Z) : res Z :=
  let* search := make_key_str KC_PARAMS (Some zone) (Some id) in
  let t := lmdb_begin d false io in
  let ret := if t_ret t =? KNOT_EOK then KNOT_ENOENT else t_ret t in
  let (found, t) := lmdb_find t (Some search) EXACT false in
  if found then let* p := params_deserialize (t_cv t) in Ok (match p with Some p => kp_alg p | None => KNOT_EMALF end)
  else Ok ret.

(** kasp_db.c:235-252 keyid_inuse without the parameters. The code stops at the first hit; here the loop goes on
    and may meet more failures of LMDB. *)
Definition inuse_body (id : list Z) (used : bool) (t : txn) : res (bool * txn) :=
  let* f := unmake_key_str (t_ck t) in
  Ok (used || match f with Some f => bytes_eqb f id | None => false end, t).
Definition keyid_inuse (fuel : nat) (t : txn) (id : list Z) : res (bool * txn) :=
  foreach fuel [KC_PARAMS] (inuse_body id) false t.
(** kasp_db.c:255-267 kasp_db_delete_key *)
Definition kasp_db_delete_key (d : db) (zone id : list Z) (io : list Z) : res (db * Z * bool) :=
  let* search := make_key_str KC_PARAMS (Some zone) (Some id) in
  let t := lmdb_begin d true io in
  let* t := lmdb_del_prefix (S (length d)) t search in
  let* (used, t) := keyid_inuse (S (length d)) t id in
  let (d', t) := lmdb_commit d t in
  Ok (d', t_ret t, used).

(** kasp_db.c:270-282 kasp_db_delete_all *)
Fixpoint delete_classes (fuel : nat) (t : txn) (rest : list Z) (classes : list Z) : res txn :=
  match classes with
  | [] => Ok t
  | c :: classes => let* t := lmdb_del_prefix fuel t (c :: rest) in delete_classes fuel t rest classes
  end.
Definition kasp_db_delete_all (d : db) (zone : list Z) (io : list Z) : res (db * Z) :=
  let* prefix := make_key_str KC_PARAMS (Some zone) None in
  let t := lmdb_begin d true io in
  let* t := delete_classes (S (length d)) t (tl prefix) zone_related_classes in
  let (d', t) := lmdb_commit d t in
  Ok (d', t_ret t).

(** kasp_db.c:337-342 kasp_db_add_key *)
Definition kasp_db_add_key (d : db) (zone : list Z) (p : kparams) (io : list Z) : res (db * Z) :=
  let* v := params_serialize p in
  let* k := make_key_str KC_PARAMS (Some zone) (Some (kp_id p)) in
  Ok (quick_insert d (Some k) (Some v) io).

(** kasp_db.c:344-358 kasp_db_share_key *)
Definition kasp_db_share_key (d : db) (zone_from zone_to id : list Z) (io : list Z) : res (db * Z) :=
  let* from := make_key_str KC_PARAMS (Some zone_from) (Some id) in
  let* to := make_key_str KC_PARAMS (Some zone_to) (Some id) in
  let t := lmdb_begin d true io in
  let (found, t) := lmdb_find t (Some from) EXACT true in
  let t := if found then snd (lmdb_insert t (Some to) (t_cv t)) else t in
  let (d', t) := lmdb_commit d t in
  Ok (d', t_ret t).

(** kasp_db.c:360-377 kasp_db_store_nsec3salt *)
Definition kasp_db_store_nsec3salt (d : db) (zone salt : list Z) (created : Z) (io : list Z) : res (db * Z) :=
  let* key := make_key_str KC_NSEC3SALT (Some zone) None in
  let t := lmdb_begin d true io in
  let t := snd (lmdb_insert t (Some key) salt) in
  let t := snd (lmdb_insert t (Some (KC_NSEC3TIME :: tl key)) (be 8 created)) in
  let (d', t) := lmdb_commit d t in
  Ok (d', t_ret t).
(** kasp_db.c:379-407 kasp_db_load_nsec3salt: result, salt and its time *)
Definition kasp_db_load_nsec3salt (d : db) (zone : list Z) (io : list Z) : res (Z * list Z * Z) :=
  let* key := make_key_str KC_NSEC3SALT (Some zone) None in
  let t := lmdb_begin d false io in
  let (found, t) := lmdb_find t (Some key) EXACT true in
  let salt := if found then t_cv t else [] in
  let (found, t) := lmdb_find t (Some (KC_NSEC3TIME :: tl key)) EXACT true in
  if found then
    let* (ok, vs, t) := unmake_curval t [FL true] in
    match vs with
    | [VInt c] => Ok (t_ret t, salt, c)
    | _ => Ok (t_ret t, salt, 0)
    end
  else Ok (t_ret t, salt, 0).

(** kasp_db.c:409-419 kasp_db_store_serial; the type is the class *)
Definition kasp_db_store_serial (d : db) (zone : list Z) (serial_type serial : Z) (io : list Z) : res (db * Z) :=
  let* k := make_key_str serial_type (Some zone) None in
  let* v := made (make_key true 0 [KI serial]) in
  Ok (quick_insert d (Some k) (Some v) io).
(** kasp_db.c:421-440 kasp_db_load_serial *)
Definition kasp_db_load_serial (d : db) (zone : list Z) (serial_type : Z) (io : list Z) : res (Z * Z) :=
  let* k := make_key_str serial_type (Some zone) None in
  let t := lmdb_begin d false io in
  let (found, t) := lmdb_find t (Some k) EXACT true in
  if found then
    let* (ok, vs, t) := unmake_curval t [FI true] in
    match vs with [VInt s] => Ok (t_ret t, s) | _ => Ok (t_ret t, 0) end
  else Ok (t_ret t, 0).

(** kasp_db.c:471-492 kasp_db_set_policy_last *)
Definition kasp_db_set_policy_last (d : db) (policy : list Z) (last : option (list Z)) (zone id : list Z) (io : list Z) : res (db * Z) :=
  let* k := make_key_str KC_POLICYLAST None (Some policy) in
  let t := lmdb_begin d true io in
  let (found, t) := lmdb_find t (Some k) EXACT false in
  let* t := (if found then
               let* (ok, vs, t) := unmake_curval t [FB true; FN true; FS true] in
               if ok then
                 match vs with
                 | [_; _; VPos p] =>
                   let* real := cstr (zskipn p (t_cv t)) in
                   Ok (if match last with None => true | Some l => negb (bytes_eqb l real) end then set_ret t KNOT_ESEMCHECK else t)
                 | _ => UB
                 end
               else Ok t
             else Ok t) in
  let* v := make_key_str KC_PARAMS (Some zone) (Some id) in
  let t := snd (lmdb_insert t (Some k) v) in
  let (d', t) := lmdb_commit d t in
  Ok (d', t_ret t).
(** kasp_db.c:442-469 kasp_db_get_policy_last: result, zone and key; the check that the key exists searches for the
    value just found *)
Definition kasp_db_get_policy_last (d : db) (policy : list Z) (io : list Z) : res (Z * list Z * list Z) :=
  let* k := make_key_str KC_POLICYLAST None (Some policy) in
  let t := lmdb_begin d false io in
  let (found, t) := lmdb_find t (Some k) EXACT true in
  if found then
    let* (ok, vs, t) := unmake_curval t [FB true; FN true; FS true] in
    if ok then
      match vs with
      | [VInt kclass; VPos pz; VPos ps] =>
        let m := zskipn pz (t_cv t) in
        let* n := dname_size m in
        let* zone := take m n in
        let* id := cstr (zskipn ps (t_cv t)) in
        if negb (kclass =? KC_PARAMS) then Ok (KNOT_EMALF, zone, id)
        else let (_, t) := lmdb_find t (Some (t_cv t)) EXACT true in Ok (t_ret t, zone, id)
      | _ => UB
      end
    else Ok (t_ret t, [], [])
  else Ok (t_ret t, [], []).

(** kasp_db.c:581-587 kasp_db_set_saved_ttls *)
Definition kasp_db_set_saved_ttls (d : db) (zone : list Z) (max_ttl key_ttl : Z) (io : list Z) : res (db * Z) :=
  let* key := make_key_str KC_SAVED_TTLS (Some zone) None in
  let* val := made (make_key true 0 [KI max_ttl; KI key_ttl]) in
  Ok (quick_insert d (Some key) (Some val) io).
(** kasp_db.c:567-579 kasp_db_get_saved_ttls *)
Definition kasp_db_get_saved_ttls (d : db) (zone : list Z) (io : list Z) : res (Z * Z * Z) :=
  let* key := make_key_str KC_SAVED_TTLS (Some zone) None in
  let t := lmdb_begin d false io in
  let (found, t) := lmdb_find t (Some key) EXACT true in
  if found then
    let* (ok, vs, t) := unmake_curval t [FI true; FI true] in
    match vs with [VInt a; VInt b] => Ok (t_ret t, a, b) | _ => Ok (t_ret t, 0, 0) end
  else Ok (t_ret t, 0, 0).
