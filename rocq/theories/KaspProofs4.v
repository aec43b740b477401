From Verif Require Import Base WireModel WireProofs WireProps DnameModel DnameSpec DnameProofs DnameProofs2 DnameProofs4 LmdbModel LmdbProofs LmdbProofs2 LmdbProps KeyModel SerialModel KaspModel KaspSpec KaspProofs KaspProofs2 KaspProofs3.
From Coq Require Import Sorting.Sorted.

(** What an operation gives *)
Definition outcome (d : db) (st : state) (o : kop) (io : list Z) (d' : db) (ret : Z) : Prop :=
  (ret = 0 -> possible o st /\ exists st', effect o st st' /\ represents d' st') /\ (ret <> 0 -> d' = d) /\ (io = [] -> possible o st -> ret = 0).
Lemma quick_ok : forall d st s c io, represents d st -> subject_ok s -> content_ok s c -> io_sane io ->
  exists d' ret, quick_insert d (Some (kenc s)) (Some (venc c)) io = (d', ret) /\ (ret = 0 -> represents d' (put st s c)) /\ (ret <> 0 -> d' = d) /\ (io = [] -> ret = 0).
Proof.
  intros d st s c io R Hs Hc S. unfold quick_insert. pose proof (begin_step d true io S) as B. pose proof (insert_any _ d io (kenc s) (venc c) B (kenc_len s Hs)) as H. cbv zeta in H.
  destruct (lmdb_insert (lmdb_begin d true io) (Some (kenc s)) (venc c)) as [b t]. cbn [snd] in H. destruct (finish t d _ io H) as (d' & t' & E & A1 & A2 & A3). rewrite E. exists d', (t_ret t'). split; [reflexivity|]. split; [|split; assumption].
  intros H0. rewrite (A1 H0). apply rep_put; assumption.
Qed.
Lemma made_ints : forall l, Forall karg_ok l -> l <> [] -> zlen (encs l) < 2 ^ 63 -> made (make_key true 0 l) = Ok (encs l).
Proof. intros. apply made_ok; assumption. Qed.
Lemma exec_add : forall d st io z p, represents d st -> kop_ok (AddKey z p) -> io_sane io -> exists d' ret, exec d (AddKey z p) io = Ok (d', ret) /\ outcome d st (AddKey z p) io d' ret.
Proof.
  intros d st io z p R (Hz & Hp) S. cbn [exec]. unfold kasp_db_add_key. rewrite serialize_ok by exact Hp. cbn [rbind]. rewrite make_keyid; [|exact Hz|apply Hp]. cbn [rbind].
  destruct (quick_ok d st (SubKey z (kp_id p)) (IsKey p) io R) as (d' & ret & E & A & B & C); [split; [exact Hz|apply Hp]|split; [exact Hp|reflexivity]|exact S|]. cbn [venc] in E. rewrite E. exists d', ret. split; [reflexivity|].
  split; [|split; [exact B|auto]]. intros H. split; [exact I|]. exists (put st (SubKey z (kp_id p)) (IsKey p)). split; [reflexivity|auto].
Qed.
Lemma exec_serial : forall d st io z s c sub, represents d st -> (c = 5 /\ sub = SubMasterSerial z) \/ (c = 6 /\ sub = SubSignedSerial z) -> zone_ok z -> u32_ok s -> io_sane io ->
  exists d' ret, kasp_db_store_serial d (wire z) c s io = Ok (d', ret) /\ (ret = 0 -> represents d' (put st sub (IsSerial s))) /\ (ret <> 0 -> d' = d) /\ (io = [] -> ret = 0).
Proof.
  intros d st io z s c sub R Hc Hz Hs S. unfold kasp_db_store_serial. rewrite make_class; [|lia|lia|exact Hz]. cbn [rbind].
  assert (E1 : encs [KI s] = be 4 s) by (unfold encs; cbn [map concat enc]; apply app_nil_r). rewrite made_ok; [|discriminate|constructor; [exact Hs|constructor]|rewrite E1, be_length; lia]. rewrite E1. cbn [rbind].
  destruct (quick_ok d st sub (IsSerial s) io R) as (d' & ret & E & H); [destruct Hc as [(_ & ->)|(_ & ->)]; exact Hz|destruct Hc as [(_ & ->)|(_ & ->)]; exact Hs|exact S|].
  exists d', ret. split; [|exact H]. rewrite <- E. destruct Hc as [(-> & ->)|(-> & ->)]; reflexivity.
Qed.
Lemma exec_ttls : forall d st io z a b, represents d st -> kop_ok (SetTtls z a b) -> io_sane io -> exists d' ret, exec d (SetTtls z a b) io = Ok (d', ret) /\ outcome d st (SetTtls z a b) io d' ret.
Proof.
  intros d st io z a b R (Hz & Ha & Hb) S. cbn [exec]. unfold kasp_db_set_saved_ttls. rewrite make_class; [|unfold KC_SAVED_TTLS; lia|unfold KC_SAVED_TTLS; lia|exact Hz]. cbn [rbind].
  assert (E1 : encs [KI a; KI b] = be 4 a ++ be 4 b) by (unfold encs; cbn [map concat enc]; rewrite app_nil_r; reflexivity).
  rewrite made_ok; [|discriminate|constructor; [exact Ha|constructor; [exact Hb|constructor]]|rewrite E1, zlen_app, !be_length; lia]. rewrite E1. cbn [rbind].
  destruct (quick_ok d st (SubTtls z) (IsTtls a b) io R) as (d' & ret & E & A & B & C); [exact Hz|split; assumption|exact S|]. cbn [venc kenc] in E. unfold KC_SAVED_TTLS. rewrite E. exists d', ret. split; [reflexivity|].
  split; [|split; [exact B|auto]]. intros H. split; [exact I|]. exists (put st (SubTtls z) (IsTtls a b)). split; [reflexivity|auto].
Qed.
Lemma exec_delete : forall d st io z id, represents d st -> zone_ok z -> string_ok id -> io_sane io ->
  exists d' ret u, kasp_db_delete_key d (wire z) id io = Ok (d', ret, u) /\ outcome d st (DeleteKey z id) io d' ret /\ (ret = 0 -> (u = true <-> exists z' p, z' <> z /\ st (SubKey z' id) (IsKey p))).
Proof.
  intros d st io z id R Hz Hi S. unfold kasp_db_delete_key. rewrite make_keyid by assumption. cbn [rbind]. pose proof R as (So & _).
  destruct (del_any _ d io (kenc (SubKey z id)) (Datatypes.S (length d)) (begin_step d true io S) So (kenc_nonempty (SubKey z id) (conj Hz Hi)) ltac:(lia)) as (t1 & E1 & H1). rewrite E1. cbn [rbind].
  set (d1 := filter (fun x : list Z * list Z => negb (is_prefix_of (kenc (SubKey z id)) (fst x))) d) in *.
  assert (R1 : represents d1 (without st (fun s => s = SubKey z id))) by (apply rep_filter; [exact R|]; intros s Hs; apply key_prefix; assumption).
  assert (U : exists u t2, keyid_inuse (Datatypes.S (length d)) t1 id = Ok (u, t2) /\ (live t2 d1 true io /\ (u = true <-> exists z' p, without st (fun s => s = SubKey z id) (SubKey z' id) (IsKey p)) \/ dead t2 io)).
  { destruct H1 as [H1|H1].
    - pose proof (filter_len _ (fun x : list Z * list Z => negb (is_prefix_of (kenc (SubKey z id)) (fst x))) d) as Hl. fold d1 in Hl. apply inuse_step; [exact H1|exact R1|exact Hi|lia].
    - destruct (inuse_failed t1 io id (Datatypes.S (length d)) H1 ltac:(lia)) as (t2 & E2 & H2). exists false, t2. split; [exact E2|right; exact H2]. }
  destruct U as (u & t2 & E2 & H2). rewrite E2. cbn [rbind]. assert (H2' : live t2 d1 true io \/ dead t2 io) by tauto.
  destruct (finish t2 d d1 io H2') as (d' & t' & E & A1 & A2 & A3). rewrite E. exists d', (t_ret t'), u. split; [reflexivity|]. split.
  - split; [|split; [exact A2|auto]]. intros H. split; [exact I|]. exists (without st (fun s => s = SubKey z id)). split; [reflexivity|]. rewrite (A1 H). exact R1.
  - intros H. destruct H2 as [(_ & U)|(X & _)].
    + rewrite U. split; intros (z' & p & Q).
      * destruct Q as (Q1 & Q2). exists z', p. split; [intros ->; apply Q2; reflexivity|exact Q1].
      * destruct Q as (Q1 & Q2). exists z', p. split; [exact Q2|]. intros C. injection C as C. contradiction.
    + exfalso. destruct (commit_failed t2 d X) as (t3 & E3 & H3). rewrite E in E3. injection E3 as _ <-. unfold KNOT_EOK in X. congruence.
Qed.
Lemma exec_delete_all : forall d st io z, represents d st -> zone_ok z -> io_sane io -> exists d' ret, exec d (DeleteAll z) io = Ok (d', ret) /\ outcome d st (DeleteAll z) io d' ret.
Proof.
  intros d st io z R Hz S. cbn [exec]. unfold kasp_db_delete_all. rewrite make_class; [|unfold KC_PARAMS; lia|unfold KC_PARAMS; lia|exact Hz]. cbn [rbind tl]. pose proof R as (So & _).
  destruct (classes_step (wire z) zone_related_classes _ d io (Datatypes.S (length d)) (begin_step d true io S) So ltac:(lia)) as (t1 & E1 & H1). rewrite E1. cbn [rbind].
  destruct (finish t1 d _ io H1) as (d' & t' & E & A1 & A2 & A3). rewrite E. exists d', (t_ret t'). split; [reflexivity|]. split; [|split; [exact A2|auto]]. intros H. split; [exact I|]. exists (without st (about_zone z)). split; [reflexivity|]. rewrite (A1 H).
  apply (rep_filter d st (fun k => existsb (fun c => is_prefix_of (c :: wire z) k) zone_related_classes)); [exact R|]. intros s Hs. rewrite existsb_exists. split.
  - intros (c & Hc & Hp). apply is_prefix_of_iff in Hp. apply starts_zone in Hp; [apply Hp| |exact Hz|exact Hs]. intros ->. unfold zone_related_classes in Hc. cbn in Hc. clear - Hc. unfold KC_PARAMS, KC_NSEC3SALT, KC_NSEC3TIME, KC_MASTERSERIAL, KC_LASTSIGNEDSERIAL, KC_OFFLINE_RECORDS, KC_SAVED_TTLS in Hc. lia.
  - intros Ha. exists (class_of s). split; [destruct s; cbn [about_zone] in Ha; try contradiction; unfold zone_related_classes; cbn; tauto|]. apply is_prefix_of_iff. apply starts_zone; [destruct s; cbn [about_zone class_of] in *; try contradiction; lia|exact Hz|exact Hs|]. split; [reflexivity|exact Ha].
Qed.
(** A search for one fact from the start *)
Lemma lookup : forall d st s rw force io, represents d st -> subject_ok s -> io_sane io ->
  exists b t, lmdb_find (lmdb_begin d rw io) (Some (kenc s)) EXACT force = (b, t) /\
  ((b = true /\ live t d rw io /\ exists c, st s c /\ t_cv t = venc c /\ content_ok s c) \/
   (b = false /\ force = false /\ live t d rw io /\ (forall c, ~ st s c)) \/
   (b = false /\ force = true /\ t_ret t = KNOT_ENOENT /\ (forall c, ~ st s c)) \/
   (b = false /\ dead t io)).
Proof.
  intros d st s rw force io R Hs S. destruct (lmdb_find (lmdb_begin d rw io) (Some (kenc s)) EXACT force) as [b t] eqn:E. exists b, t. split; [reflexivity|]. destruct (begin_step d rw io S) as [L|(X & Y)].
  - pose proof R as (So & _). destruct (find_step _ _ _ _ _ _ _ _ L So (kenc_nonempty s Hs) E) as [(-> & H1 & _ & H2)|[(-> & Hf & H1 & H2)|[(-> & Hf & H1 & H2)|(-> & H1)]]].
    + left. split; [reflexivity|]. split; [exact H1|]. apply (rep_find d st s (t_cv t) R Hs H2).
    + right. left. split; [reflexivity|]. split; [exact Hf|]. split; [exact H1|]. apply (rep_none d st s R H2).
    + right. right. left. split; [reflexivity|]. split; [exact Hf|]. split; [exact H1|]. apply (rep_none d st s R H2).
    + right. right. right. split; [reflexivity|exact H1].
  - rewrite find_dead in E by exact X. injection E as <- <-. right. right. right. split; [reflexivity|]. split; [rewrite abort_ret; exact X|exact Y].
Qed.
Lemma exec_share : forall d st io a b id, represents d st -> kop_ok (ShareKey a b id) -> io_sane io -> exists d' ret, exec d (ShareKey a b id) io = Ok (d', ret) /\ outcome d st (ShareKey a b id) io d' ret.
Proof.
  intros d st io a b id R (Ha & Hb & Hi) S. cbn [exec]. unfold kasp_db_share_key. rewrite !make_keyid by assumption. cbn [rbind].
  destruct (lookup d st (SubKey a id) true true io R (conj Ha Hi) S) as (f & t & E & H). rewrite E. destruct H as [(-> & L & c & Hc & Hv & Hk)|[(_ & X & _)|[(-> & _ & H1 & H2)|(-> & H1)]]].
  - destruct c as [p| | | | |]; try contradiction. destruct Hk as (Hp & Hid). rewrite Hv. pose proof (insert_any t d io (kenc (SubKey b id)) (venc (IsKey p)) (or_introl L) (kenc_len (SubKey b id) (conj Hb Hi))) as H1. cbv zeta in H1.
    destruct (finish _ d _ io H1) as (d' & t' & E1 & A1 & A2 & A3). rewrite E1. exists d', (t_ret t'). split; [reflexivity|]. split; [|split; [exact A2|auto]]. intros H0. split; [exists p; exact Hc|]. exists (put st (SubKey b id) (IsKey p)). split; [exists p; split; [exact Hc|reflexivity]|].
    rewrite (A1 H0). apply rep_put; [exact R|split; assumption|split; assumption].
  - discriminate X.
  - assert (X : t_ret t <> KNOT_EOK) by (rewrite H1; discriminate). destruct (commit_failed t d X) as (t' & E1 & E2). rewrite E1. exists d, (t_ret t'). split; [reflexivity|]. rewrite E2, H1. split; [discriminate|]. split; [reflexivity|]. intros _ (p & Hp). exfalso. apply (H2 _ Hp).
  - destruct (finish t d d io (or_intror H1)) as (d' & t' & E1 & A1 & A2 & A3). destruct H1 as (X & Y). destruct (commit_failed t d X) as (t2 & E2 & H2). rewrite E2 in *. injection E1 as <- <-. exists d, (t_ret t2). split; [reflexivity|]. split; [intros C; exfalso; apply X; unfold KNOT_EOK; congruence|]. split; [auto|]. intros; contradiction.
Qed.
Lemma exec_salt : forall d st io z salt created, represents d st -> kop_ok (StoreSalt z salt created) -> io_sane io -> exists d' ret, exec d (StoreSalt z salt created) io = Ok (d', ret) /\ outcome d st (StoreSalt z salt created) io d' ret.
Proof.
  intros d st io z salt created R (Hz & Hs & Hc) S. cbn [exec]. unfold kasp_db_store_nsec3salt. rewrite make_class; [|unfold KC_NSEC3SALT; lia|unfold KC_NSEC3SALT; lia|exact Hz]. cbn [rbind tl].
  pose proof (insert_any _ d io (kenc (SubSalt z)) salt (begin_step d true io S) (kenc_len (SubSalt z) Hz)) as H1. cbv zeta in H1. cbn [kenc] in H1. unfold KC_NSEC3SALT, KC_NSEC3TIME.
  pose proof (insert_any _ _ io (kenc (SubSaltTime z)) (be 8 created) H1 (kenc_len (SubSaltTime z) Hz)) as H2. cbv zeta in H2. cbn [kenc] in H2.
  destruct (finish _ d _ io H2) as (d' & t' & E & A1 & A2 & A3). rewrite E. exists d', (t_ret t'). split; [reflexivity|]. split; [|split; [exact A2|auto]]. intros H0. split; [exact I|]. eexists. split; [reflexivity|]. rewrite (A1 H0).
  apply (rep_put _ _ (SubSaltTime z) (IsTime created)); [|exact Hz|exact Hc]. apply (rep_put _ _ (SubSalt z) (IsSalt salt)); [exact R|exact Hz|exact Hs].
Qed.
Lemma exec_policy : forall d st io pol last z id, represents d st -> kop_ok (SetPolicyLast pol last z id) -> io_sane io -> exists d' ret, exec d (SetPolicyLast pol last z id) io = Ok (d', ret) /\ outcome d st (SetPolicyLast pol last z id) io d' ret.
Proof.
  intros d st io pol last z id R (Hp & Hz & Hi & Hl) S. cbn [exec]. unfold kasp_db_set_policy_last. rewrite make_policy by exact Hp. cbn [rbind].
  destruct (lookup d st (SubPolicy pol) true false io R Hp S) as (f & t & E & H). rewrite E. rewrite make_keyid by assumption.
  assert (G : forall t1, live t1 d true io \/ dead t1 io -> possible (SetPolicyLast pol last z id) st -> exists d' ret, (let t2 := snd (lmdb_insert t1 (Some (kenc (SubPolicy pol))) (kenc (SubKey z id))) in let (d', t2) := lmdb_commit d t2 in Ok (d', t_ret t2)) = Ok (d', ret) /\ outcome d st (SetPolicyLast pol last z id) io d' ret).
  { intros t1 L Q. pose proof (insert_any t1 d io (kenc (SubPolicy pol)) (kenc (SubKey z id)) L (kenc_len (SubPolicy pol) Hp)) as H1. cbv zeta in H1 |- *. destruct (finish _ d _ io H1) as (d' & t' & E1 & A1 & A2 & A3). rewrite E1. exists d', (t_ret t'). split; [reflexivity|].
    split; [|split; [exact A2|auto]]. intros H0. split; [exact Q|]. exists (put st (SubPolicy pol) (IsLast z id)). split; [split; [exact Q|reflexivity]|]. rewrite (A1 H0). apply (rep_put d st (SubPolicy pol) (IsLast z id)); [exact R|exact Hp|split; assumption]. }
  assert (F : forall t1 e, t_ret t1 = e -> e <> KNOT_EOK -> (io = [] -> ~ possible (SetPolicyLast pol last z id) st) -> exists d' ret, (let t2 := snd (lmdb_insert t1 (Some (kenc (SubPolicy pol))) (kenc (SubKey z id))) in let (d', t2) := lmdb_commit d t2 in Ok (d', t_ret t2)) = Ok (d', ret) /\ outcome d st (SetPolicyLast pol last z id) io d' ret).
  { intros t1 e He Ne Q. assert (X : t_ret t1 <> KNOT_EOK) by congruence. cbv zeta. rewrite insert_dead by exact X. cbn [snd]. assert (X' : t_ret (lmdb_abort t1) <> KNOT_EOK) by (rewrite abort_ret; exact X). destruct (commit_failed (lmdb_abort t1) d X') as (t' & E1 & E2). rewrite E1. exists d, (t_ret t'). split; [reflexivity|].
    rewrite E2. split; [intros C; unfold KNOT_EOK in X'; contradiction|]. split; [reflexivity|]. intros A B. exfalso. apply (Q A B). }
  destruct H as [(-> & L & c & Hc & Hv & Hk)|[(-> & _ & L & H2)|[(-> & X & _)|(-> & H1)]]].
  - destruct c as [| | | | |z0 id0]; try contradiction. destruct Hk as (Hz0 & Hi0). unfold unmake_curval. rewrite Hv. change (venc (IsLast z0 id0)) with (kenc (SubKey z0 id0)). rewrite unmake_keyid by assumption. cbn [rbind negb andb]. rewrite Hv. change (venc (IsLast z0 id0)) with (kenc (SubKey z0 id0)). cbn [kenc].
    rewrite skip_zone. pose proof Hi0 as (_ & I2 & _). rewrite cstr_ok by exact I2. cbn [rbind]. assert (Fn : forall z' id', st (SubPolicy pol) (IsLast z' id') -> id' = id0) by (intros z' id' H'; destruct R as (_ & _ & _ & Fn); pose proof (Fn _ _ _ Hc H') as Q; injection Q as _ Q; congruence).
    destruct (match last with Some l => negb (bytes_eqb l id0) | None => true end) eqn:El.
    + apply (F _ KNOT_ESEMCHECK); [reflexivity|discriminate|]. intros _ Q. specialize (Q z0 id0 Hc). rewrite Q in El. assert (bytes_eqb id0 id0 = true) as T by (apply bytes_eqb_eq; reflexivity). rewrite T in El. discriminate El.
    + apply G; [left; exact L|]. intros z' id' H'. apply Fn in H'. subst id'. destruct last as [l|]; [|discriminate El]. f_equal. apply bytes_eqb_eq. destruct (bytes_eqb l id0); [reflexivity|discriminate El].
  - cbn [rbind]. apply G; [left; exact L|]. intros z' id' H'. exfalso. apply (H2 _ H').
  - discriminate X.
  - cbn [rbind]. destruct H1 as (X & Y). apply (F t (t_ret t)); [reflexivity|exact X|]. intros; contradiction.
Qed.
Lemma exec_ok : forall d st o io, represents d st -> kop_ok o -> io_sane io -> exists d' ret, exec d o io = Ok (d', ret) /\ outcome d st o io d' ret.
Proof.
  intros d st o io R K S. destruct o.
  - apply exec_add; assumption.
  - destruct K as (Hz & Hi). destruct (exec_delete d st io z id R Hz Hi S) as (d' & ret & u & E & H & _). exists d', ret. split; [|exact H]. cbn [exec]. rewrite E. reflexivity.
  - apply exec_delete_all; assumption.
  - apply exec_share; assumption.
  - apply exec_salt; assumption.
  - destruct K as (Hz & Hs). destruct (exec_serial d st io z s 5 (SubMasterSerial z) R ltac:(left; split; reflexivity) Hz Hs S) as (d' & ret & E & A & B & C). exists d', ret. split; [exact E|]. split; [|split; [exact B|auto]]. intros H. split; [exact I|]. eexists. split; [reflexivity|auto].
  - destruct K as (Hz & Hs). destruct (exec_serial d st io z s 6 (SubSignedSerial z) R ltac:(right; split; reflexivity) Hz Hs S) as (d' & ret & E & A & B & C). exists d', ret. split; [exact E|]. split; [|split; [exact B|auto]]. intros H. split; [exact I|]. eexists. split; [reflexivity|auto].
  - apply exec_ttls; assumption.
  - apply exec_policy; assumption.
Qed.
Lemma effect_det : forall d st o a b, represents d st -> effect o st a -> effect o st b -> a = b.
Proof.
  intros d st o a b (_ & _ & _ & Fn) Ha Hb. destruct o; cbn [effect] in *; try congruence.
  - destruct Ha as (p & P1 & ->), Hb as (q & Q1 & ->). pose proof (Fn _ _ _ P1 Q1) as E. injection E as ->. reflexivity.
  - destruct Ha as (_ & ->), Hb as (_ & ->). reflexivity.
Qed.
Lemma history_rep : forall d st, history d st -> represents d st.
Proof.
  intros d st H. induction H as [|d st o io d' st' H IH K S E F|d st o io d' ret H IH K S E N].
  - apply rep_empty.
  - destruct (exec_ok d st o io IH K S) as (d1 & ret & E1 & (O1 & _ & _)). rewrite E in E1. injection E1 as <- <-. destruct (O1 eq_refl) as (_ & st1 & F1 & R1). rewrite (effect_det d st o st' st1 IH F F1). exact R1.
  - destruct (exec_ok d st o io IH K S) as (d1 & r1 & E1 & (_ & O2 & _)). rewrite E in E1. injection E1 as <- <-. rewrite (O2 N). exact IH.
Qed.
