(** What the database of keys stores: facts about zones, their keys and the policies, with no word of octets. *)
From Verif Require Import Base DnameSpec SerialModel LmdbModel LmdbProofs2 KaspModel.

Definition zname : Type := list label.
(** The things the database knows something about, and what it knows *)
Inductive subject : Type :=
| SubKey (z : zname) (id : list Z)
| SubSalt (z : zname)
| SubSaltTime (z : zname)
| SubMasterSerial (z : zname)
| SubSignedSerial (z : zname)
| SubTtls (z : zname)
| SubPolicy (policy : list Z).
Inductive content : Type :=
| IsKey (p : kparams)
| IsSalt (salt : list Z)
| IsTime (t : Z)
| IsSerial (s : Z)
| IsTtls (max_ttl key_ttl : Z)
| IsLast (z : zname) (id : list Z).
Definition state : Type := subject -> content -> Prop.

(** A fact replaced, facts removed *)
Definition put (st : state) (s : subject) (c : content) : state := fun s' c' => (s' = s /\ c' = c) \/ (s' <> s /\ st s' c').
Definition without (st : state) (gone : subject -> Prop) : state := fun s c => st s c /\ ~ gone s.
Definition about_zone (z : zname) (s : subject) : Prop :=
  match s with
  | SubKey z' _ | SubSalt z' | SubSaltTime z' | SubMasterSerial z' | SubSignedSerial z' | SubTtls z' => z' = z
  | SubPolicy _ => False
  end.

(** Well formed arguments: names within the limits of DNS, strings as in C, numbers that fit their types, and a key
    used as both must be a key signing key *)
Definition string_ok (s : list Z) : Prop := bytes s /\ ~ In 0 s /\ zlen s <= 254.
Definition zone_ok (z : zname) : Prop := Forall legal_label z /\ name_size z <= 255.
Definition u64_ok (v : Z) : Prop := 0 <= v < 2 ^ 64.
Definition u32_ok (v : Z) : Prop := 0 <= v < 2 ^ 32.
Definition params_ok (p : kparams) : Prop :=
  string_ok (kp_id p) /\ 0 <= kp_keytag p < 2 ^ 16 /\ 0 <= kp_alg p < 2 ^ 8 /\ bytes (kp_public p) /\ 0 < zlen (kp_public p) < 2 ^ 32 /\
  (kp_csk p = true -> kp_ksk p = true) /\
  u64_ok (kt_created p) /\ u64_ok (kt_pre_active p) /\ u64_ok (kt_publish p) /\ u64_ok (kt_ready p) /\ u64_ok (kt_active p) /\
  u64_ok (kt_retire_active p) /\ u64_ok (kt_retire p) /\ u64_ok (kt_post_active p) /\ u64_ok (kt_remove p) /\ u64_ok (kt_revoke p).

(** The operations that change the database *)
Inductive kop : Type :=
| AddKey (z : zname) (p : kparams)
| DeleteKey (z : zname) (id : list Z)
| DeleteAll (z : zname)
| ShareKey (from to : zname) (id : list Z)
| StoreSalt (z : zname) (salt : list Z) (created : Z)
| StoreMasterSerial (z : zname) (s : Z)
| StoreSignedSerial (z : zname) (s : Z)
| SetTtls (z : zname) (max_ttl key_ttl : Z)
| SetPolicyLast (policy : list Z) (last : option (list Z)) (z : zname) (id : list Z).
Definition kop_ok (o : kop) : Prop :=
  match o with
  | AddKey z p => zone_ok z /\ params_ok p
  | DeleteKey z id => zone_ok z /\ string_ok id
  | DeleteAll z => zone_ok z
  | ShareKey a b id => zone_ok a /\ zone_ok b /\ string_ok id
  | StoreSalt z salt created => zone_ok z /\ bytes salt /\ u64_ok created
  | StoreMasterSerial z s | StoreSignedSerial z s => zone_ok z /\ u32_ok s
  | SetTtls z a b => zone_ok z /\ u32_ok a /\ u32_ok b
  | SetPolicyLast pol last z id => string_ok pol /\ zone_ok z /\ string_ok id /\ match last with Some l => string_ok l | None => True end
  end.
(** What the operation does when it succeeds *)
Definition effect (o : kop) (st st' : state) : Prop :=
  match o with
  | AddKey z p => st' = put st (SubKey z (kp_id p)) (IsKey p)
  | DeleteKey z id => st' = without st (fun s => s = SubKey z id)
  | DeleteAll z => st' = without st (about_zone z)
  | ShareKey a b id => exists p, st (SubKey a id) (IsKey p) /\ st' = put st (SubKey b id) (IsKey p)
  | StoreSalt z salt created => st' = put (put st (SubSalt z) (IsSalt salt)) (SubSaltTime z) (IsTime created)
  | StoreMasterSerial z s => st' = put st (SubMasterSerial z) (IsSerial s)
  | StoreSignedSerial z s => st' = put st (SubSignedSerial z) (IsSerial s)
  | SetTtls z a b => st' = put st (SubTtls z) (IsTtls a b)
  | SetPolicyLast pol last z id => (forall z' id', st (SubPolicy pol) (IsLast z' id') -> last = Some id') /\ st' = put st (SubPolicy pol) (IsLast z id)
  end.
(** When it may succeed *)
Definition possible (o : kop) (st : state) : Prop :=
  match o with
  | ShareKey a _ id => exists p, st (SubKey a id) (IsKey p)
  | SetPolicyLast pol last _ _ => forall z' id', st (SubPolicy pol) (IsLast z' id') -> last = Some id'
  | _ => True
  end.

(** Running them on the model; each comes with the results of its LMDB calls *)
Definition exec (d : LmdbModel.db) (o : kop) (io : list Z) : res (LmdbModel.db * Z) :=
  match o with
  | AddKey z p => kasp_db_add_key d (wire z) p io
  | DeleteKey z id => let* (d', ret, _) := kasp_db_delete_key d (wire z) id io in Ok (d', ret)
  | DeleteAll z => kasp_db_delete_all d (wire z) io
  | ShareKey a b id => kasp_db_share_key d (wire a) (wire b) id io
  | StoreSalt z salt created => kasp_db_store_nsec3salt d (wire z) salt created io
  | StoreMasterSerial z s => kasp_db_store_serial d (wire z) 5 s io
  | StoreSignedSerial z s => kasp_db_store_serial d (wire z) 6 s io
  | SetTtls z a b => kasp_db_set_saved_ttls d (wire z) a b io
  | SetPolicyLast pol last z id => kasp_db_set_policy_last d pol last (wire z) id io
  end.
(** A history: the database and what is known after it *)
Inductive history : LmdbModel.db -> state -> Prop :=
| HEmpty : history [] (fun _ _ => False)
| HDone : forall d st o io d' st', history d st -> kop_ok o -> LmdbProofs2.io_sane io -> exec d o io = Ok (d', 0) -> effect o st st' -> history d' st'
| HFailed : forall d st o io d' ret, history d st -> kop_ok o -> LmdbProofs2.io_sane io -> exec d o io = Ok (d', ret) -> ret <> 0 -> history d' st.
