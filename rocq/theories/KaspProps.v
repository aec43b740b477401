(** C65: the database of keys does what it says, over any history of operations and failures of LMDB. *)
From Verif Require Import Base WireModel WireProofs WireProps DnameModel DnameSpec DnameProofs DnameProofs2 DnameProofs4 LmdbModel LmdbProofs LmdbProofs2 LmdbProps KeyModel SerialModel KaspModel KaspSpec KaspProofs KaspProofs2 KaspProofs3 KaspProofs4.
From Coq Require Import Sorting.Sorted.

(** An operation ends; when it reports success its effect is there, when it reports a failure nothing has changed,
    and with no failure of LMDB it succeeds if it is possible at all. *)
Theorem c65_runs : forall d st o io, history d st -> kop_ok o -> io_sane io ->
  exists d' ret, exec d o io = Ok (d', ret) /\
  (ret = 0 -> possible o st /\ exists st', effect o st st' /\ history d' st') /\
  (ret <> 0 -> d' = d) /\ (io = [] -> possible o st -> ret = 0).
Proof.
  intros d st o io H K S. destruct (exec_ok d st o io (history_rep d st H) K S) as (d' & ret & E & O1 & O2 & O3). exists d', ret. split; [exact E|]. split; [|split; assumption].
  intros R. destruct (O1 R) as (P & st' & F & _). split; [exact P|]. exists st'. split; [exact F|]. apply (HDone d st o io d' st' H K S); [rewrite E, R; reflexivity|exact F].
Qed.
(** A subject has one value at most. *)
Theorem c65_one_value : forall d st s c c', history d st -> st s c -> st s c' -> c = c'.
Proof. intros d st s c c' H. destruct (history_rep d st H) as (_ & _ & _ & Fn). apply Fn. Qed.

(** Deleting a key tells whether another zone has it. *)
Theorem c65_still_used : forall d st z id io d' used, history d st -> zone_ok z -> string_ok id -> io_sane io ->
  kasp_db_delete_key d (wire z) id io = Ok (d', 0, used) -> (used = true <-> exists z' p, z' <> z /\ st (SubKey z' id) (IsKey p)).
Proof.
  intros d st z id io d' used H Hz Hi S E. destruct (exec_delete d st io z id (history_rep d st H) Hz Hi S) as (d1 & r & u & E1 & _ & U). rewrite E in E1. injection E1 as <- <- <-. apply U. reflexivity.
Qed.

(** Listing the keys of a zone *)
Definition entry (k v : list Z) : list kparams := match pair2params k v with Ok (Some p) => [p] | _ => [] end.
Lemma fold_entry : forall l a, fold_kv (fun a k v => a ++ entry k v) l a = a ++ concat (map (fun x => entry (fst x) (snd x)) l).
Proof.
  unfold fold_kv. induction l as [|x l IH]; intros a; cbn [fold_left map concat]; [rewrite app_nil_r; reflexivity|]. rewrite IH, <- app_assoc. reflexivity.
Qed.
Lemma sorted_nodup : forall d, sorted d -> NoDup (map fst d).
Proof.
  induction d as [|[k v] d IH]; intros S; cbn [map fst]; [constructor|]. apply sorted_inv in S. destruct S as (S & L). constructor; [|apply IH; exact S]. intros H. apply in_map_iff in H. destruct H as ((k' & v') & E & H). cbn [fst] in E. subst k'. apply L in H. rewrite kcmp_refl in H. discriminate H.
Qed.
Lemma list_step : forall d st z io, represents d st -> zone_ok z -> io_sane io ->
  exists l t, foreach (S (length d)) (1 :: wire z) list_body [] (lmdb_begin d false io) = Ok (l, t) /\
  ((t_ret t = KNOT_EOK /\ (forall p, In p l <-> st (SubKey z (kp_id p)) (IsKey p)) /\ NoDup (map kp_id l)) \/ dead t io).
Proof.
  intros d st z io R Hz S. pose proof R as (So & I & Ok1 & _). destruct (begin_step d false io S) as [(Rd & D & W & Sa & N)|X].
  2:{ destruct X as (X & Y). rewrite foreach_dead by (try assumption; lia). exists [], (lmdb_abort (lmdb_begin d false io)). split; [reflexivity|]. right. split; [rewrite abort_ret; exact X|exact Y]. }
  set (P := fun k v => exists p, params_ok p /\ k = kenc (SubKey z (kp_id p)) /\ v = venc (IsKey p)).
  assert (HB : body_ok_on P (fun a k v => a ++ entry k v) (fun _ _ => true) false list_body).
  { intros a t0 k v (p & Hp & Ek & Ev) R0 S0 So0 C CK CV. unfold list_body, entry. rewrite CK, CV, Ek, Ev. rewrite pair_ok by assumption. cbn [rbind]. exists t0. split; [reflexivity|]. left. subst k. auto 8. }
  assert (HP : forall k v, In (k, v) d -> is_prefix_of (1 :: wire z) k = true -> P k v).
  { intros k v H Hp. apply I in H. destruct H as (s & c & H & -> & ->). pose proof (Ok1 _ _ H) as (Hs & Hc). apply is_prefix_of_iff in Hp. apply starts_zone in Hp; [|lia|exact Hz|exact Hs]. destruct Hp as (Hcl & Ha). destruct s; try discriminate Hcl. cbn [about_zone] in Ha. subst z0. destruct c; try contradiction. destruct Hc as (Hp & <-). exists p. auto. }
  destruct (foreach_spec_on _ P _ _ _ _ (1 :: wire z) HB (Datatypes.S (length d)) [] (lmdb_begin d false io)) as (l & t & E & H); try (rewrite D); try assumption; try lia.
  exists l, t. split; [exact E|]. destruct H as [(A & B & _ & _ & _ & _)|(A & B)].
  - left. split; [apply A|]. rewrite fold_entry in B. cbn [app] in B. rewrite D in B. set (m := filter (inp (1 :: wire z)) d) in *.
    assert (Hm : forall k v, In (k, v) m -> exists p, st (SubKey z (kp_id p)) (IsKey p) /\ entry k v = [p] /\ k = kenc (SubKey z (kp_id p))).
    { intros k v H. apply filter_In in H. destruct H as (H & Hp). unfold inp in Hp. cbn [fst] in Hp. destruct (HP k v H Hp) as (p & Hpo & -> & ->). exists p. split; [|split; [unfold entry; rewrite pair_ok by assumption; reflexivity|reflexivity]].
      destruct (rep_find d st (SubKey z (kp_id p)) _ R (conj Hz (proj1 Hpo)) H) as (c & Hc & Ev & Ck). destruct c as [q| | | | |]; try contradiction. destruct Ck as (Hq & Eq). assert (p = q) as ->; [|exact Hc].
      pose proof (pair_ok z p Hz Hpo) as E1. rewrite Ev, <- Eq in E1. rewrite pair_ok in E1 by assumption. congruence. }
    split.
    + intros p. rewrite B. split.
      * intros H. apply in_concat in H. destruct H as (x & Hx & Hi). apply in_map_iff in Hx. destruct Hx as ((k & v) & <- & Hx). cbn [fst snd] in Hi. destruct (Hm k v Hx) as (q & Hq & Ee & _). rewrite Ee in Hi. destruct Hi as [<-|[]]. exact Hq.
      * intros H. pose proof (Ok1 _ _ H) as (Hs & Hc). destruct Hc as (Hp & _). apply in_concat. exists [p]. split; [|left; reflexivity]. apply in_map_iff. exists (kenc (SubKey z (kp_id p)), venc (IsKey p)). cbn [fst snd]. split; [unfold entry; rewrite pair_ok by assumption; reflexivity|].
        apply filter_In. split; [apply (rep_in d st _ _ R H)|]. unfold inp. cbn [fst]. apply is_prefix_of_iff. exists (kp_id p ++ [0]). reflexivity.
    + assert (M : map fst m = map (fun i => kenc (SubKey z i)) (map kp_id l)).
      { rewrite B. clear - Hm. induction m as [|[k v] m IH]; [reflexivity|]. cbn [map concat fst snd]. destruct (Hm k v (or_introl eq_refl)) as (p & _ & Ee & Ek). rewrite Ee. cbn [app map]. rewrite <- Ek. f_equal. apply IH. intros k' v' H. apply (Hm k' v'). right. exact H. }
      apply (NoDup_map_inv (fun i => kenc (SubKey z i))). rewrite <- M. apply sorted_nodup. apply sorted_filter. exact So.
  - right. split; [exact A|]. intros H. apply B. repeat split; auto; discriminate.
Qed.
(** The keys of a zone are listed: exactly those stored, each once. *)
Theorem c65_list : forall d st z io, history d st -> zone_ok z -> io_sane io ->
  exists ret l, kasp_db_list_keys d (wire z) io = Ok (ret, l) /\
  (ret = 0 -> l <> [] /\ NoDup (map kp_id l) /\ forall p, In p l <-> st (SubKey z (kp_id p)) (IsKey p)) /\
  (ret <> 0 -> l = []) /\
  (io = [] -> (ret = 0 /\ exists id p, st (SubKey z id) (IsKey p)) \/ (ret = KNOT_ENOENT /\ forall id p, ~ st (SubKey z id) (IsKey p))).
Proof.
  intros d st z io H Hz S. pose proof (history_rep d st H) as R. unfold kasp_db_list_keys. rewrite make_class; [|unfold KC_PARAMS; lia|unfold KC_PARAMS; lia|exact Hz]. cbn [rbind].
  destruct (list_step d st z io R Hz S) as (l & t & E & G). change KC_PARAMS with 1. rewrite E. cbn [rbind]. rewrite abort_ret. destruct G as [(A & B & C)|(A & B)].
  - rewrite A. cbn [negb]. change (KNOT_EOK =? KNOT_EOK) with true. cbn [negb]. destruct l as [|p l].
    + exists KNOT_ENOENT, []. split; [reflexivity|]. split; [discriminate|]. split; [reflexivity|]. intros _. right. split; [reflexivity|]. intros id p Hp. pose proof R as (_ & _ & Ok1 & _). pose proof (Ok1 _ _ Hp) as (_ & (_ & Ei)). rewrite <- Ei in Hp. apply B in Hp. destruct Hp.
    + exists 0, (p :: l). split; [reflexivity|]. split; [intros _; split; [discriminate|split; [exact C|exact B]]|]. split; [congruence|]. intros _. left. split; [reflexivity|]. exists (kp_id p), p. apply B. left. reflexivity.
  - assert (negb (t_ret t =? KNOT_EOK) = true) as -> by lia. exists (t_ret t), []. split; [reflexivity|]. split; [intros C; unfold KNOT_EOK in A; contradiction|]. split; [reflexivity|]. intros; contradiction.
Qed.
(** The algorithm of a key *)
Theorem c65_algorithm : forall d st z id io, history d st -> zone_ok z -> string_ok id -> io_sane io ->
  exists r, kasp_db_get_key_algorithm d (wire z) id io = Ok r /\
  (0 <= r -> exists p, st (SubKey z id) (IsKey p) /\ r = kp_alg p) /\
  (io = [] -> (exists p, st (SubKey z id) (IsKey p) /\ r = kp_alg p) \/ (r = KNOT_ENOENT /\ forall p, ~ st (SubKey z id) (IsKey p))).
Proof.
  intros d st z id io H Hz Hi S. pose proof (history_rep d st H) as R. unfold kasp_db_get_key_algorithm. rewrite make_keyid by assumption. cbn [rbind].
  assert (B : t_ret (lmdb_begin d false io) <= 0).
  { unfold lmdb_begin. destruct (io_next io) as [e io']. destruct (e =? 0); cbn [t_ret]; [reflexivity|]. unfold err_to_knot, KNOT_EOK, KNOT_ENOENT, KNOT_ELIMIT, KNOT_ESPACE. destruct (e =? 0); [lia|]. destruct (e =? MDB_NOTFOUND); [lia|]. destruct (e =? MDB_TXN_FULL); [lia|]. destruct ((e =? MDB_MAP_FULL) || (e =? ENOSPC)); [lia|]. destruct (e <? 0) eqn:E; lia. }
  assert (B' : (if t_ret (lmdb_begin d false io) =? KNOT_EOK then KNOT_ENOENT else t_ret (lmdb_begin d false io)) < 0) by (unfold KNOT_EOK, KNOT_ENOENT; destruct (t_ret (lmdb_begin d false io) =? 0) eqn:E; lia).
  destruct (lookup d st (SubKey z id) false false io R (conj Hz Hi) S) as (f & t & E & G). rewrite E. destruct G as [(-> & L & c & Hc & Hv & Hk)|[(-> & _ & L & N)|[(_ & X & _)|(-> & X & Y)]]].
  - destruct c as [p| | | | |]; try contradiction. destruct Hk as (Hp & _). rewrite Hv. cbn [venc]. rewrite deserialize_ok by exact Hp. cbn [rbind]. exists (kp_alg p). split; [reflexivity|]. split; intros _; [|left]; exists p; split; try exact Hc; reflexivity.
  - eexists. split; [reflexivity|]. split; [lia|]. intros ->. right. split; [reflexivity|]. intros p C. apply (N _ C).
  - discriminate X.
  - eexists. split; [reflexivity|]. split; [lia|]. intros; contradiction.
Qed.

(** What was stored is loaded: numbers *)
Lemma unmake_i : forall s, u32_ok s -> unmake_key (Some (be 4 s)) [FI true] = Ok (true, [VInt s]).
Proof.
  intros s H. assert (E : encs [KI s] = be 4 s) by (unfold encs; cbn [map concat enc]; apply app_nil_r). rewrite <- E. apply (c53_key_round_trip [KI s]); [discriminate|constructor; [exact H|constructor]|rewrite E, be_length; lia].
Qed.
Lemma unmake_l : forall s, u64_ok s -> unmake_key (Some (be 8 s)) [FL true] = Ok (true, [VInt s]).
Proof.
  intros s H. assert (E : encs [KL s] = be 8 s) by (unfold encs; cbn [map concat enc]; apply app_nil_r). rewrite <- E. apply (c53_key_round_trip [KL s]); [discriminate|constructor; [exact H|constructor]|rewrite E, be_length; lia].
Qed.
Lemma unmake_ii : forall a b, u32_ok a -> u32_ok b -> unmake_key (Some (be 4 a ++ be 4 b)) [FI true; FI true] = Ok (true, [VInt a; VInt b]).
Proof.
  intros a b Ha Hb. assert (E : encs [KI a; KI b] = be 4 a ++ be 4 b) by (unfold encs; cbn [map concat enc]; rewrite app_nil_r; reflexivity). rewrite <- E.
  apply (c53_key_round_trip [KI a; KI b]); [discriminate|constructor; [exact Ha|constructor; [exact Hb|constructor]]|rewrite E, zlen_app, !be_length; lia].
Qed.
Lemma load_serial : forall d st z c sub io, represents d st -> zone_ok z -> (c = 5 /\ sub = SubMasterSerial z) \/ (c = 6 /\ sub = SubSignedSerial z) -> io_sane io ->
  exists ret s, kasp_db_load_serial d (wire z) c io = Ok (ret, s) /\ (ret = 0 -> st sub (IsSerial s)) /\
  (io = [] -> ret = 0 \/ (ret = KNOT_ENOENT /\ forall s, ~ st sub (IsSerial s))).
Proof.
  intros d st z c sub io R Hz Hc S. unfold kasp_db_load_serial. rewrite make_class; [|lia|lia|exact Hz]. cbn [rbind].
  assert (Hs : subject_ok sub) by (destruct Hc as [(_ & ->)|(_ & ->)]; exact Hz). assert (Ek : c :: wire z = kenc sub) by (destruct Hc as [(-> & ->)|(-> & ->)]; reflexivity). rewrite Ek.
  destruct (lookup d st sub false true io R Hs S) as (f & t & E & G). rewrite E. destruct G as [(-> & L & v & Hv & Ev & Hk)|[(_ & X & _)|[(-> & _ & X & N)|(-> & X & Y)]]].
  - assert (exists s, v = IsSerial s /\ u32_ok s) as (s & -> & Hu) by (destruct Hc as [(_ & ->)|(_ & ->)]; destruct v; try contradiction; eexists; split; try reflexivity; exact Hk).
    unfold unmake_curval. rewrite Ev. cbn [venc]. rewrite unmake_i by exact Hu. cbn [rbind negb andb]. exists (t_ret t), s. split; [reflexivity|]. split; [intros _; exact Hv|]. intros _. left. destruct L as ((_ & L) & _). exact L.
  - discriminate X.
  - exists (t_ret t), 0. split; [reflexivity|]. rewrite X. split; [discriminate|]. intros _. right. split; [reflexivity|]. intros s. apply N.
  - exists (t_ret t), 0. split; [reflexivity|]. split; [intros C; unfold KNOT_EOK in X; contradiction|]. intros; contradiction.
Qed.
Theorem c65_load_serials : forall d st z io, history d st -> zone_ok z -> io_sane io ->
  (exists ret s, kasp_db_load_serial d (wire z) KC_MASTERSERIAL io = Ok (ret, s) /\ (ret = 0 -> st (SubMasterSerial z) (IsSerial s)) /\
     (io = [] -> ret = 0 \/ (ret = KNOT_ENOENT /\ forall s, ~ st (SubMasterSerial z) (IsSerial s)))) /\
  (exists ret s, kasp_db_load_serial d (wire z) KC_LASTSIGNEDSERIAL io = Ok (ret, s) /\ (ret = 0 -> st (SubSignedSerial z) (IsSerial s)) /\
     (io = [] -> ret = 0 \/ (ret = KNOT_ENOENT /\ forall s, ~ st (SubSignedSerial z) (IsSerial s)))).
Proof. intros d st z io H Hz S. apply history_rep in H. split; apply load_serial; auto. Qed.
Theorem c65_load_ttls : forall d st z io, history d st -> zone_ok z -> io_sane io ->
  exists ret a b, kasp_db_get_saved_ttls d (wire z) io = Ok (ret, a, b) /\ (ret = 0 -> st (SubTtls z) (IsTtls a b)) /\
  (io = [] -> ret = 0 \/ (ret = KNOT_ENOENT /\ forall a b, ~ st (SubTtls z) (IsTtls a b))).
Proof.
  intros d st z io H Hz S. apply history_rep in H. unfold kasp_db_get_saved_ttls. rewrite make_class; [|unfold KC_SAVED_TTLS; lia|unfold KC_SAVED_TTLS; lia|exact Hz]. cbn [rbind]. change (KC_SAVED_TTLS :: wire z) with (kenc (SubTtls z)).
  destruct (lookup d st (SubTtls z) false true io H Hz S) as (f & t & E & G). rewrite E. destruct G as [(-> & L & v & Hv & Ev & Hk)|[(_ & X & _)|[(-> & _ & X & N)|(-> & X & Y)]]].
  - destruct v as [| | | |a b|]; try contradiction. destruct Hk as (Ha & Hb). unfold unmake_curval. rewrite Ev. cbn [venc]. rewrite unmake_ii by assumption. cbn [rbind negb andb]. exists (t_ret t), a, b. split; [reflexivity|]. split; [intros _; exact Hv|]. intros _. left. destruct L as ((_ & L) & _). exact L.
  - discriminate X.
  - exists (t_ret t), 0, 0. split; [reflexivity|]. rewrite X. split; [discriminate|]. intros _. right. split; [reflexivity|]. intros a b. apply N.
  - exists (t_ret t), 0, 0. split; [reflexivity|]. split; [intros C; unfold KNOT_EOK in X; contradiction|]. intros; contradiction.
Qed.
(** ... the salt of NSEC3 with its time, *)
Theorem c65_load_salt : forall d st z io, history d st -> zone_ok z -> io_sane io ->
  exists ret salt created, kasp_db_load_nsec3salt d (wire z) io = Ok (ret, salt, created) /\
  (ret = 0 -> st (SubSalt z) (IsSalt salt) /\ st (SubSaltTime z) (IsTime created)) /\
  (io = [] -> ret = 0 \/ (ret = KNOT_ENOENT /\ ((forall s, ~ st (SubSalt z) (IsSalt s)) \/ (forall c, ~ st (SubSaltTime z) (IsTime c))))).
Proof.
  intros d st z io H Hz S. apply history_rep in H. pose proof H as (So & _). unfold kasp_db_load_nsec3salt. rewrite make_class; [|unfold KC_NSEC3SALT; lia|unfold KC_NSEC3SALT; lia|exact Hz]. cbn [rbind tl]. change (KC_NSEC3SALT :: wire z) with (kenc (SubSalt z)). change (KC_NSEC3TIME :: wire z) with (kenc (SubSaltTime z)).
  assert (F : forall t s, t_ret t <> 0 -> (io = [] -> t_ret t = KNOT_ENOENT /\ forall s, ~ st (SubSalt z) (IsSalt s)) -> exists ret salt created,
    (let (found, t) := lmdb_find t (Some (kenc (SubSaltTime z))) EXACT true in if found then let* (ok, vs, t) := unmake_curval t [FL true] in match vs with [VInt c] => Ok (t_ret t, s, c) | _ => Ok (t_ret t, s, 0) end else Ok (t_ret t, s, 0)) = Ok (ret, salt, created) /\
    (ret = 0 -> st (SubSalt z) (IsSalt salt) /\ st (SubSaltTime z) (IsTime created)) /\ (io = [] -> ret = 0 \/ (ret = KNOT_ENOENT /\ ((forall s, ~ st (SubSalt z) (IsSalt s)) \/ (forall c, ~ st (SubSaltTime z) (IsTime c)))))).
  { intros t s X Y. rewrite find_dead by exact X. rewrite abort_ret. exists (t_ret t), s, 0. split; [reflexivity|]. split; [intros; contradiction|]. intros Hn. right. destruct (Y Hn). split; [assumption|]. left. assumption. }
  destruct (lookup d st (SubSalt z) false true io H Hz S) as (f & t & E & G). rewrite E. cbv zeta. destruct G as [(-> & L & v & Hv & Ev & Hk)|[(_ & X & _)|[(-> & _ & X & N)|(-> & X & Y)]]].
  - destruct v as [|s| | | |]; try contradiction. rewrite Ev. cbn [venc]. destruct (lmdb_find t (Some (kenc (SubSaltTime z))) EXACT true) as [b t2] eqn:E2.
    destruct (find_step _ _ _ _ _ _ _ _ L So (kenc_nonempty (SubSaltTime z) Hz) E2) as [(-> & L2 & _ & I2)|[(_ & X & _)|[(-> & _ & X & N)|(-> & X & Y)]]].
    + destruct (rep_find d st (SubSaltTime z) _ H Hz I2) as (v & Hv2 & Ev2 & Hk2). destruct v as [| |c| | |]; try contradiction. unfold unmake_curval. rewrite Ev2. cbn [venc]. rewrite unmake_l by exact Hk2. cbn [rbind negb andb]. exists (t_ret t2), s, c. split; [reflexivity|]. split; [intros _; split; assumption|]. intros _. left. destruct L2 as ((_ & L2) & _). exact L2.
    + discriminate X.
    + exists (t_ret t2), s, 0. split; [reflexivity|]. rewrite X. split; [discriminate|]. intros _. right. split; [reflexivity|]. right. intros c. apply (rep_none d st _ H N).
    + exists (t_ret t2), s, 0. split; [reflexivity|]. split; [intros C; unfold KNOT_EOK in X; contradiction|]. intros; contradiction.
  - discriminate X.
  - apply F; [rewrite X; discriminate|]. intros _. split; [exact X|]. intros s. apply N.
  - apply F; [exact X|]. intros; contradiction.
Qed.
(** ... and the last key of a policy, which must still be there. *)
Theorem c65_load_policy : forall d st pol io, history d st -> string_ok pol -> io_sane io ->
  exists ret zn id, kasp_db_get_policy_last d pol io = Ok (ret, zn, id) /\
  (ret = 0 -> exists z p, zn = wire z /\ st (SubPolicy pol) (IsLast z id) /\ st (SubKey z id) (IsKey p)) /\
  (io = [] -> ret = 0 \/ (ret = KNOT_ENOENT /\ forall z id p, st (SubPolicy pol) (IsLast z id) -> ~ st (SubKey z id) (IsKey p))).
Proof.
  intros d st pol io H Hp S. apply history_rep in H. pose proof H as (So & _ & _ & Fn). unfold kasp_db_get_policy_last. rewrite make_policy by exact Hp. cbn [rbind].
  destruct (lookup d st (SubPolicy pol) false true io H Hp S) as (f & t & E & G). rewrite E. destruct G as [(-> & L & v & Hv & Ev & Hk)|[(_ & X & _)|[(-> & _ & X & N)|(-> & X & Y)]]].
  - destruct v as [| | | | |z id]; try contradiction. destruct Hk as (Hz & Hi). unfold unmake_curval. rewrite Ev. change (venc (IsLast z id)) with (kenc (SubKey z id)). rewrite unmake_keyid by assumption. cbn [rbind negb andb]. rewrite Ev. change (venc (IsLast z id)) with (kenc (SubKey z id)).
    assert (M : zskipn 1 (kenc (SubKey z id)) = wire z ++ (id ++ [0])) by reflexivity. rewrite M. rewrite (proj2 (name_bytes_wire z (id ++ [0]) (proj1 Hz))). cbn [rbind]. assert (T : take (wire z ++ (id ++ [0])) (zlen (wire z)) = Ok (wire z)).
    { unfold take. rewrite zlen_app. pose proof (zlen_nonneg (id ++ [0])). assert (zlen (wire z) >? zlen (wire z) + zlen (id ++ [0]) = false) as -> by lia. rewrite zfirstn_app_exact. reflexivity. }
    rewrite T. cbn [rbind]. assert (M2 : zskipn (1 + zlen (wire z)) (kenc (SubKey z id)) = id ++ [0]) by (cbn [kenc]; apply skip_zone). rewrite M2. pose proof Hi as (_ & I2 & _). rewrite cstr_ok by exact I2. cbn [rbind]. change (negb (1 =? KC_PARAMS)) with false. cbv iota.
    destruct (lmdb_find t (Some (kenc (SubKey z id))) EXACT true) as [b t2] eqn:E2. exists (t_ret t2), (wire z), id. split; [reflexivity|].
    destruct (find_step _ _ _ _ _ _ _ _ L So (kenc_nonempty (SubKey z id) (conj Hz Hi)) E2) as [(-> & L2 & _ & J2)|[(_ & X & _)|[(-> & _ & X & N)|(-> & X & Y)]]].
    + destruct (rep_find d st (SubKey z id) _ H (conj Hz Hi) J2) as (v & Hv2 & _ & Hk2). destruct v as [p| | | | |]; try contradiction. split; [intros _; exists z, p; auto|]. intros _. left. destruct L2 as ((_ & L2) & _). exact L2.
    + discriminate X.
    + rewrite X. split; [discriminate|]. intros _. right. split; [reflexivity|]. intros z' id' p H'. pose proof (Fn _ _ _ Hv H') as Q. injection Q as <- <-. apply (rep_none d st _ H N).
    + split; [intros C; unfold KNOT_EOK in X; contradiction|]. intros; contradiction.
  - discriminate X.
  - exists (t_ret t), [], []. split; [reflexivity|]. rewrite X. split; [discriminate|]. intros _. right. split; [reflexivity|]. intros z id p H'. exfalso. apply (N _ H').
  - exists (t_ret t), [], []. split; [reflexivity|]. split; [intros C; unfold KNOT_EOK in X; contradiction|]. intros; contradiction.
Qed.

(** The salt and its time are stored and removed together, so the salt alone decides. *)
Lemma salt_with_time : forall d st, history d st -> forall z c, st (SubSalt z) c -> exists c', st (SubSaltTime z) c'.
Proof.
  intros d st H. induction H as [|d st o io d' st' H IH K S E F|d st o io d' ret H IH K S E N]; intros z0 c0; [contradiction| |apply IH].
  destruct o; cbn [effect] in F.
  - subst st'. intros [(C & _)|(_ & C)]; [discriminate C|]. destruct (IH _ _ C) as (c' & Hc). exists c'. right. split; [discriminate|exact Hc].
  - subst st'. intros (C & _). destruct (IH _ _ C) as (c' & Hc). exists c'. split; [exact Hc|discriminate].
  - subst st'. intros (C & G). destruct (IH _ _ C) as (c' & Hc). exists c'. split; [exact Hc|exact G].
  - destruct F as (p & _ & ->). intros [(C & _)|(_ & C)]; [discriminate C|]. destruct (IH _ _ C) as (c' & Hc). exists c'. right. split; [discriminate|exact Hc].
  - subst st'. intros [(C & _)|(_ & [(C & _)|(N & C)])]; [discriminate C| |].
    + injection C as ->. exists (IsTime created). left. split; reflexivity.
    + destruct (IH _ _ C) as (c' & Hc). exists c'. right. split; [intros Q; injection Q as ->; apply N; reflexivity|]. right. split; [discriminate|exact Hc].
  - subst st'. intros [(C & _)|(_ & C)]; [discriminate C|]. destruct (IH _ _ C) as (c' & Hc). exists c'. right. split; [discriminate|exact Hc].
  - subst st'. intros [(C & _)|(_ & C)]; [discriminate C|]. destruct (IH _ _ C) as (c' & Hc). exists c'. right. split; [discriminate|exact Hc].
  - subst st'. intros [(C & _)|(_ & C)]; [discriminate C|]. destruct (IH _ _ C) as (c' & Hc). exists c'. right. split; [discriminate|exact Hc].
  - destruct F as (_ & ->). intros [(C & _)|(_ & C)]; [discriminate C|]. destruct (IH _ _ C) as (c' & Hc). exists c'. right. split; [discriminate|exact Hc].
Qed.
Theorem c65_salt_found : forall d st z salt, history d st -> zone_ok z -> st (SubSalt z) (IsSalt salt) ->
  exists created, kasp_db_load_nsec3salt d (wire z) [] = Ok (0, salt, created) /\ st (SubSaltTime z) (IsTime created).
Proof.
  intros d st z salt H Hz Hs. destruct (c65_load_salt d st z [] H Hz ltac:(constructor)) as (ret & s & c & E & A & B). destruct (B eq_refl) as [->|(_ & [N|N])].
  - destruct (A eq_refl) as (A1 & A2). pose proof (c65_one_value d st _ _ _ H Hs A1) as Q. injection Q as ->. exists c. split; [exact E|exact A2].
  - exfalso. apply (N _ Hs).
  - exfalso. destruct (salt_with_time d st H z _ Hs) as (c' & Hc). pose proof (history_rep d st H) as (_ & _ & Ok1 & _). pose proof (Ok1 _ _ Hc) as (_ & Hk). destruct c'; try contradiction. apply (N _ Hc).
Qed.

(** A concrete history: a key of one zone shared with another, then deleted in the first; salt, serial, TTLs, policy *)
Definition kx_z1 : zname := [[97]; [99; 122]].
Definition kx_z2 : zname := [[98]; [99; 122]].
Definition kx_id : list Z := [100; 52; 102].
Definition kx_key : kparams := mkkp kx_id true true false 4711 13 [1; 0; 255; 7] 100 0 110 120 130 0 0 0 0 999.
Definition kx_ops : list kop :=
  [AddKey kx_z1 kx_key; ShareKey kx_z1 kx_z2 kx_id; StoreSalt kx_z1 [171; 205] 77; StoreSalt kx_z2 [] 78;
   StoreMasterSerial kx_z2 4294967295; StoreSignedSerial kx_z2 5; SetTtls kx_z2 3600 7200; SetPolicyLast [112] None kx_z2 kx_id].
Fixpoint kx_run (d : LmdbModel.db) (l : list kop) : LmdbModel.db :=
  match l with [] => d | o :: l => match exec d o [] with Ok (d, 0) => kx_run d l | _ => d end end.
Definition kx_db : LmdbModel.db := Eval vm_compute in kx_run [] kx_ops.
Definition kx_state : state :=
  put (put (put (put (put (put (put (put (put (put (fun _ _ => False) (SubKey kx_z1 kx_id) (IsKey kx_key)) (SubKey kx_z2 kx_id) (IsKey kx_key))
    (SubSalt kx_z1) (IsSalt [171; 205])) (SubSaltTime kx_z1) (IsTime 77)) (SubSalt kx_z2) (IsSalt [])) (SubSaltTime kx_z2) (IsTime 78))
    (SubMasterSerial kx_z2) (IsSerial 4294967295)) (SubSignedSerial kx_z2) (IsSerial 5)) (SubTtls kx_z2) (IsTtls 3600 7200)) (SubPolicy [112]) (IsLast kx_z2 kx_id).
Ltac all_bytes := unfold bytes, byte; repeat (apply Forall_cons; [lia|]); apply Forall_nil.
Lemma kx_zones : zone_ok kx_z1 /\ zone_ok kx_z2.
Proof.
  assert (L : forall l, zlen l = 1 \/ zlen l = 2 -> bytes l -> legal_label l) by (intros l H B; split; [lia|exact B]).
  split; (split; [|vm_compute; discriminate]); (apply Forall_cons; [apply L; [left; reflexivity|all_bytes]|apply Forall_cons; [apply L; [right; reflexivity|all_bytes]|apply Forall_nil]]).
Qed.
Lemma kx_strings : string_ok kx_id /\ string_ok [112].
Proof. split; (split; [all_bytes|split; [cbn; lia|vm_compute; discriminate]]). Qed.
Lemma kx_params : params_ok kx_key.
Proof.
  split; [apply kx_strings|]. unfold kx_key, u64_ok. cbn [kp_keytag kp_alg kp_public kp_csk kp_ksk kt_created kt_pre_active kt_publish kt_ready kt_active kt_retire_active kt_retire kt_post_active kt_remove kt_revoke].
  split; [lia|]. split; [lia|]. split; [all_bytes|]. split; [vm_compute; split; reflexivity|]. split; [auto|]. repeat match goal with |- _ /\ _ => split end; lia.
Qed.
Ltac kx_step H o f K :=
  match type of H with
  | history ?d ?st => let r := eval vm_compute in (exec d o []) in
    match r with Ok (?d1, 0) => let H1 := fresh in assert (H1 : history d1 (f st)); [apply (HDone d st o [] d1 (f st) H K); [constructor|vm_compute; reflexivity|cbn [effect]]|clear H; rename H1 into H; cbv beta in H] end
  end.
Example c65_example_history : history kx_db kx_state.
Proof.
  destruct kx_zones as (Z1 & Z2). destruct kx_strings as (I1 & I2). pose proof kx_params as P. pose proof HEmpty as H.
  assert (U : forall v, 0 <= v < 2 ^ 32 -> u32_ok v) by auto. assert (B1 : bytes [171; 205]) by all_bytes. assert (B0 : bytes []) by constructor.
  assert (K1 : kop_ok (AddKey kx_z1 kx_key)) by (split; assumption). kx_step H (AddKey kx_z1 kx_key) (fun st => put st (SubKey kx_z1 kx_id) (IsKey kx_key)) K1; [reflexivity|].
  assert (K2 : kop_ok (ShareKey kx_z1 kx_z2 kx_id)) by (split; [|split]; assumption). kx_step H (ShareKey kx_z1 kx_z2 kx_id) (fun st => put st (SubKey kx_z2 kx_id) (IsKey kx_key)) K2; [exists kx_key; split; [left; split; reflexivity|reflexivity]|].
  assert (K3 : kop_ok (StoreSalt kx_z1 [171; 205] 77)) by (split; [exact Z1|split; [exact B1|unfold u64_ok; lia]]). kx_step H (StoreSalt kx_z1 [171; 205] 77) (fun st => put (put st (SubSalt kx_z1) (IsSalt [171; 205])) (SubSaltTime kx_z1) (IsTime 77)) K3; [reflexivity|].
  assert (K4 : kop_ok (StoreSalt kx_z2 [] 78)) by (split; [exact Z2|split; [exact B0|unfold u64_ok; lia]]). kx_step H (StoreSalt kx_z2 [] 78) (fun st => put (put st (SubSalt kx_z2) (IsSalt [])) (SubSaltTime kx_z2) (IsTime 78)) K4; [reflexivity|].
  assert (K5 : kop_ok (StoreMasterSerial kx_z2 4294967295)) by (split; [exact Z2|unfold u32_ok; lia]). kx_step H (StoreMasterSerial kx_z2 4294967295) (fun st => put st (SubMasterSerial kx_z2) (IsSerial 4294967295)) K5; [reflexivity|].
  assert (K6 : kop_ok (StoreSignedSerial kx_z2 5)) by (split; [exact Z2|unfold u32_ok; lia]). kx_step H (StoreSignedSerial kx_z2 5) (fun st => put st (SubSignedSerial kx_z2) (IsSerial 5)) K6; [reflexivity|].
  assert (K7 : kop_ok (SetTtls kx_z2 3600 7200)) by (split; [exact Z2|unfold u32_ok; lia]). kx_step H (SetTtls kx_z2 3600 7200) (fun st => put st (SubTtls kx_z2) (IsTtls 3600 7200)) K7; [reflexivity|].
  assert (K8 : kop_ok (SetPolicyLast [112] None kx_z2 kx_id)) by (split; [exact I2|split; [exact Z2|split; [exact I1|exact I]]]). kx_step H (SetPolicyLast [112] None kx_z2 kx_id) (fun st => put st (SubPolicy [112]) (IsLast kx_z2 kx_id)) K8; [split; [|reflexivity]|].
  - intros z' id' C. exfalso. repeat (destruct C as [(C & _)|(_ & C)]; [discriminate C|]). exact C.
  - exact H.
Qed.
(** What can then be read, what the deletions say and leave, and a change of the policy by someone who has not seen
    the last key *)
Example c65_example :
  kasp_db_list_keys kx_db (wire kx_z2) [] = Ok (0, [kx_key]) /\
  kasp_db_list_keys kx_db (wire [[99; 122]]) [] = Ok (KNOT_ENOENT, []) /\
  kasp_db_load_nsec3salt kx_db (wire kx_z1) [] = Ok (0, [171; 205], 77) /\
  kasp_db_load_serial kx_db (wire kx_z2) KC_MASTERSERIAL [] = Ok (0, 4294967295) /\
  kasp_db_get_policy_last kx_db [112] [] = Ok (0, wire kx_z2, kx_id) /\
  kasp_db_set_policy_last kx_db [112] None (wire kx_z1) kx_id [] = Ok (kx_db, KNOT_ESEMCHECK) /\
  match kasp_db_delete_key kx_db (wire kx_z1) kx_id [] with
  | Ok (d1, 0, true) =>
    kasp_db_list_keys d1 (wire kx_z1) [] = Ok (KNOT_ENOENT, []) /\
    match kasp_db_delete_key d1 (wire kx_z2) kx_id [] with
    | Ok (d2, 0, false) => kasp_db_get_policy_last d2 [112] [] = Ok (KNOT_ENOENT, wire kx_z2, kx_id) /\ kasp_db_get_saved_ttls d2 (wire kx_z2) [] = Ok (0, 3600, 7200)
    | _ => False
    end
  | _ => False
  end /\
  match kasp_db_delete_all kx_db (wire kx_z2) [] with
  | Ok (d1, 0) => kasp_db_get_saved_ttls d1 (wire kx_z2) [] = Ok (KNOT_ENOENT, 0, 0) /\ kasp_db_list_keys d1 (wire kx_z1) [] = Ok (0, [kx_key])
  | _ => False
  end /\
  kasp_db_add_key kx_db (wire kx_z1) kx_key [0; 0; 12] = Ok (kx_db, -12).
Proof. vm_compute. repeat match goal with |- _ /\ _ => split end; reflexivity. Qed.

(** That a key is reported missing only when it is. Refuted: the result of the search is not looked at, so that a
    failure of LMDB while searching looks like a missing key. *)
Theorem c65_algorithm_refuted : ~ (forall d st z id io p, history d st -> zone_ok z -> string_ok id -> io_sane io -> st (SubKey z id) (IsKey p) -> kasp_db_get_key_algorithm d (wire z) id io <> Ok KNOT_ENOENT).
Proof.
  intros H. apply (H kx_db kx_state kx_z1 kx_id [0; 12] kx_key c65_example_history (proj1 kx_zones) (proj1 kx_strings)).
  - unfold io_sane. repeat (apply Forall_cons; [lia|]). apply Forall_nil.
  - unfold kx_state. do 8 (right; split; [discriminate|]). right. split; [intros C; injection C as C; discriminate C|]. left. split; reflexivity.
  - vm_compute. reflexivity.
Qed.
(** That any stored value can be read, even a damaged one. Refuted: a too large size of the extension is taken from the
    size of the value, which wraps around. *)
Theorem c65_damaged_refuted : ~ (forall v, bytes v -> params_deserialize v <> UB).
Proof. intros H. apply (H [0; 0; 0; 0; 0; 0; 0; 4; 0; 0; 0; 0; 0; 0; 1; 0]); [all_bytes|]. vm_compute. reflexivity. Qed.
Definition kx_bad : kparams := mkkp [120] false true false 1 13 [9] 0 0 0 0 0 0 0 0 0 0.
Definition kx_bad_db : LmdbModel.db := Eval vm_compute in match kasp_db_add_key kx_db (wire kx_z1) kx_bad [] with Ok (d, _) => d | _ => [] end.
(** That what is stored can be listed, for any flags. Refuted: a key marked as combined but not as signing keys is stored,
    and after that no key of the zone can be listed. *)
Theorem c65_csk_refuted : ~ (forall d st z p d', history d st -> zone_ok z -> string_ok (kp_id p) -> kasp_db_add_key d (wire z) p [] = Ok (d', 0) -> exists l, kasp_db_list_keys d' (wire z) [] = Ok (0, l)).
Proof.
  intros H. assert (E1 : kasp_db_add_key kx_db (wire kx_z1) kx_bad [] = Ok (kx_bad_db, 0)) by (vm_compute; reflexivity).
  assert (E2 : kasp_db_list_keys kx_bad_db (wire kx_z1) [] = Ok (KNOT_EMALF, [])) by (vm_compute; reflexivity).
  assert (S : string_ok (kp_id kx_bad)) by (split; [unfold kx_bad; cbn [kp_id]; all_bytes|split; [cbn; lia|vm_compute; discriminate]]).
  destruct (H kx_db kx_state kx_z1 kx_bad kx_bad_db c65_example_history (proj1 kx_zones) S E1) as (l & E3). rewrite E2 in E3. discriminate E3.
Qed.
Print Assumptions c65_runs. Print Assumptions c65_list. Print Assumptions c65_load_policy. Print Assumptions c65_load_salt. Print Assumptions c65_still_used.
