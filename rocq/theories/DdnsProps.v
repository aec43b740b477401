(** Dynamic updates, C26: prerequisites. *)
From Verif Require Import Base RdatasetModel RdatasetSpec RdatasetProofs RdatasetProps NodeModel NodeProps ZoneModel ZoneProofs ZoneView ZoneFold ChangesetProofs UpdateModel SerialModel DiffModel DdnsModel DdnsProofs ZoneExamples ChangesetProps.

(** ** What RFC 2136, section 3.2 says *)
(** the zone has a record *)
Definition zone_has (z : contents) (o : name) (t : Z) (x : list Z) : Prop := exists k, crec z (k, o, t) x.
(** the record data of a record in the message *)
Definition rdata_is (m : mrr) (x : list Z) : Prop := is (rr_rrs (m_rr m)) [x].
Definition type_of (m : mrr) : Z := rr_type (m_rr m).
Definition ttl_of (m : mrr) : Z := rr_ttl (m_rr m).
Definition rrset_in (z : contents) (o : name) (t : Z) : Prop := exists x, zone_has z o t x.
Definition name_in (z : contents) (o : name) : Prop := exists t, rrset_in z o t.
(** RFC 2136, section 3.2.5: one record, apart from the comparison of RRsets with values *)
Definition prereq_ok (z : contents) (q : Z) (m : mrr) : Prop :=
  ttl_of m = 0 /\ under (m_owner m) (z_apex z) = true /\
  ((m_class m = CLASS_ANY /\ rdata_is m [] /\ (if type_of m =? T_ANY then name_in z (m_owner m) else rrset_in z (m_owner m) (type_of m))) \/
   (m_class m = CLASS_NONE /\ rdata_is m [] /\ (if type_of m =? T_ANY then ~ name_in z (m_owner m) else ~ rrset_in z (m_owner m) (type_of m))) \/
   m_class m = q).
(** the RCODE for a record that does not pass *)
Definition prereq_rcode (z : contents) (q : Z) (m : mrr) (rc : Z) : Prop :=
  (ttl_of m <> 0 /\ rc = RC_FORMERR) \/
  (ttl_of m = 0 /\ under (m_owner m) (z_apex z) = false /\ rc = RC_NOTZONE) \/
  (ttl_of m = 0 /\ under (m_owner m) (z_apex z) = true /\
    ((m_class m <> CLASS_ANY /\ m_class m <> CLASS_NONE /\ m_class m <> q /\ rc = RC_FORMERR) \/
     ((m_class m = CLASS_ANY \/ m_class m = CLASS_NONE) /\ ~ rdata_is m [] /\ rc = RC_FORMERR) \/
     (m_class m = CLASS_ANY /\ rdata_is m [] /\ type_of m = T_ANY /\ ~ name_in z (m_owner m) /\ rc = RC_NXDOMAIN) \/
     (m_class m = CLASS_ANY /\ rdata_is m [] /\ type_of m <> T_ANY /\ ~ rrset_in z (m_owner m) (type_of m) /\ rc = RC_NXRRSET) \/
     (m_class m = CLASS_NONE /\ rdata_is m [] /\ type_of m = T_ANY /\ name_in z (m_owner m) /\ rc = RC_YXDOMAIN) \/
     (m_class m = CLASS_NONE /\ rdata_is m [] /\ type_of m <> T_ANY /\ rrset_in z (m_owner m) (type_of m) /\ rc = RC_YXRRSET))).
(** a record with the class of the zone *)
Definition asks (q : Z) (ms : list mrr) (o : name) (t : Z) (x : list Z) : Prop := exists m, In m ms /\ m_class m = q /\ m_owner m = o /\ type_of m = t /\ rdata_is m x.
(** the RRsets named are the same in the zone and in the message *)
Definition sets_equal (z : contents) (q : Z) (ms : list mrr) : Prop := forall o t, (exists x, asks q ms o t x) -> forall x, zone_has z o t x <-> asks q ms o t x.
Definition prereqs_hold (z : contents) (q : Z) (ms : list mrr) : Prop := Forall (prereq_ok z q) ms /\ sets_equal z q ms.
(** records as they come from a message; a name is in one of the trees only; no type ANY with the class of the zone *)
Definition prereq_wf (z : contents) (q : Z) (m : mrr) : Prop := (exists x, rdata_is m x) /\ one_tree z (m_owner m) /\ (m_class m = q -> type_of m <> T_ANY).

(** ** Proofs *)
Lemma zone_found : forall z o t x, one_tree z o -> (records (found z o) t x <-> zone_has z o t x).
Proof. intros. apply found_recs. auto. Qed.
Lemma in_use_found : forall z o, cwf z -> one_tree z o -> ((zlen (found z o) =? 0) = false <-> name_in z o).
Proof.
  intros z o W O. rewrite (nonempty_recs _ (found_wf z o W)). unfold name_in, rrset_in. split; intros (t & x & H); exists t, x; apply (zone_found z o t x O); auto.
Qed.
Lemma type_found : forall z o t, cwf z -> one_tree z o -> (type_exists (node_or_nsec3 z o) t = true <-> rrset_in z o t).
Proof.
  intros z o t W O. rewrite (exists_recs (node_or_nsec3 z o) t (found_wf z o W)). unfold rrset_in. split; intros (x & H); exists x; apply (zone_found z o t x O); auto.
Qed.
Lemma empty_spec : forall m x, rdata_is m x -> exists e, rrset_empty (m_rr m) = Ok e /\ (e = true <-> rdata_is m []).
Proof.
  intros m x H. unfold rrset_empty. rewrite (is_count _ _ H). change (zlen [x]) with 1. change (1 =? 0) with false. change (1 =? 1) with true. cbv iota. pose proof (c07_at _ _ 0 H ltac:(lia)) as A. change (Base.zget [x] 0) with (Some x) in A. rewrite A. cbn [rbind]. exists (zlen x =? 0). split; auto. rewrite zlen0. split; [intros ->; exact H|]. intros H2. pose proof (is_fun _ _ _ H H2) as E. congruence.
Qed.
Lemma one_prereq : forall z q m l x n, cwf z -> one_tree z (m_owner m) -> q <> CLASS_ANY -> q <> CLASS_NONE -> rdata_is m x -> linv n l -> 0 <= n < 60000 ->
  exists ret rc l', process_prereq z q m l = Ok (ret, rc, l') /\
  ((ret = KNOT_EOK /\ rc = RC_NOERROR /\ prereq_ok z q m /\ linv (n + 1) l' /\ (m_class m <> q -> l' = l) /\
     (m_class m = q -> (forall k, In k (map key l') <-> In k (map key l) \/ k = (m_owner m, type_of m)) /\ forall o t y, listed l' o t y <-> listed l o t y \/ (o = m_owner m /\ t = type_of m /\ y = x))) \/
   (ret <> KNOT_EOK /\ rc <> RC_NOERROR /\ ~ prereq_ok z q m /\ prereq_rcode z q m rc)).
Proof.
  intros z q m l x n W O QA QN HX LI HN. pose proof (linv_mono n (n + 1) l ltac:(lia) LI) as LM. destruct (empty_spec m x HX) as (e & HE & HEI). unfold process_prereq. cbv zeta. fold (ttl_of m). destruct (Z.eqb_spec (ttl_of m) 0) as [T|T]; cbn [negb].
  2:{ exists KNOT_EMALF, RC_FORMERR, l. split; auto. right. split; [discriminate|]. split; [discriminate|]. split; [intros [H _]; auto|left; auto]. }
  destruct (under (m_owner m) (z_apex z)) eqn:U; cbn [negb].
  2:{ exists KNOT_EOUTOFZONE, RC_NOTZONE, l. split; auto. right. split; [discriminate|]. split; [discriminate|]. split; [intros (_ & H & _); congruence|right; left; auto]. }
  assert (LA : forall (P : Prop), m_class m <> q -> P \/ (m_class m <> q)) by auto. clear LA.
  destruct (Z.eqb_spec (m_class m) CLASS_ANY) as [CA|CA]; [|destruct (Z.eqb_spec (m_class m) CLASS_NONE) as [CN|CN]].
  - rewrite HE. cbn [rbind]. destruct e; cbn [negb].
    2:{ assert (NE : ~ rdata_is m []) by (intros H; apply HEI in H; discriminate). exists KNOT_EMALF, RC_FORMERR, l. split; auto. right. split; [discriminate|]. split; [discriminate|]. split; [|right; right; split; auto; split; auto; right; left; auto]. intros (_ & _ & [(_ & H & _)|[(_ & H & _)|H]]); auto. congruence. }
    pose proof (proj1 HEI eq_refl) as E. fold (type_of m). destruct (type_of m =? T_ANY) eqn:TA.
    + unfold check_in_use. fold (found z (m_owner m)). pose proof (in_use_found z _ W O) as I. destruct (zlen (found z (m_owner m)) =? 0).
      * assert (NI : ~ name_in z (m_owner m)) by (intros H; apply I in H; discriminate). eexists _, _, l. split; [reflexivity|]. right. split; [discriminate|]. split; [discriminate|]. split; [|right; right; split; auto; split; auto; right; right; left; repeat (split; auto); lia]. intros (_ & _ & [(_ & _ & H)|[(H & _)|H]]); [rewrite TA in H; auto|rewrite CA in H; discriminate|congruence].
      * eexists _, _, l. split; [reflexivity|]. left. split; auto. split; auto. split; [|split; auto; split; [auto|congruence]]. split; auto. split; auto. left. rewrite TA. split; auto. split; auto. apply I. auto.
    + unfold check_type_exist, check_type. rewrite TA. cbn [rbind]. pose proof (type_found z _ (type_of m) W O) as I. destruct (type_exists (node_or_nsec3 z (m_owner m)) (type_of m)).
      * eexists _, _, l. split; [reflexivity|]. left. split; auto. split; auto. split; [|split; auto; split; [auto|congruence]]. split; auto. split; auto. left. rewrite TA. split; auto. split; auto. apply I. auto.
      * assert (NI : ~ rrset_in z (m_owner m) (type_of m)) by (intros H; apply I in H; discriminate). eexists _, _, l. split; [reflexivity|]. right. split; [discriminate|]. split; [discriminate|]. split; [|right; right; split; auto; split; auto; right; right; right; left; repeat (split; auto); lia]. intros (_ & _ & [(_ & _ & H)|[(H & _)|H]]); [rewrite TA in H; auto|rewrite CA in H; discriminate|congruence].
  - rewrite HE. cbn [rbind]. destruct e; cbn [negb].
    2:{ assert (NE : ~ rdata_is m []) by (intros H; apply HEI in H; discriminate). exists KNOT_EMALF, RC_FORMERR, l. split; auto. right. split; [discriminate|]. split; [discriminate|]. split; [|right; right; split; auto; split; auto; right; left; auto]. intros (_ & _ & [(_ & H & _)|[(_ & H & _)|H]]); auto. congruence. }
    pose proof (proj1 HEI eq_refl) as E. fold (type_of m). destruct (type_of m =? T_ANY) eqn:TA.
    + unfold check_not_in_use. fold (found z (m_owner m)). pose proof (in_use_found z _ W O) as I. destruct (zlen (found z (m_owner m)) =? 0).
      * assert (NI : ~ name_in z (m_owner m)) by (intros H; apply I in H; discriminate). eexists _, _, l. split; [reflexivity|]. left. split; auto. split; auto. split; [|split; auto; split; [auto|congruence]]. split; auto. split; auto. right. left. rewrite TA. auto.
      * eexists _, _, l. split; [reflexivity|]. right. split; [discriminate|]. split; [discriminate|]. pose proof (proj1 I eq_refl) as NI. split; [|right; right; split; auto; split; auto; right; right; right; right; left; repeat (split; auto); lia]. intros (_ & _ & [(H & _)|[(_ & _ & H)|H]]); [rewrite CN in H; discriminate|rewrite TA in H; auto|congruence].
    + unfold check_type_not_exist, check_type. rewrite TA. cbn [rbind]. pose proof (type_found z _ (type_of m) W O) as I. destruct (type_exists (node_or_nsec3 z (m_owner m)) (type_of m)).
      * eexists _, _, l. split; [reflexivity|]. right. split; [discriminate|]. split; [discriminate|]. pose proof (proj1 I eq_refl) as NI. split; [|right; right; split; auto; split; auto; right; right; right; right; right; repeat (split; auto); lia]. intros (_ & _ & [(H & _)|[(_ & _ & H)|H]]); [rewrite CN in H; discriminate|rewrite TA in H; auto|congruence].
      * assert (NI : ~ rrset_in z (m_owner m) (type_of m)) by (intros H; apply I in H; discriminate). eexists _, _, l. split; [reflexivity|]. left. split; auto. split; auto. split; [|split; auto; split; [auto|congruence]]. split; auto. split; auto. right. left. rewrite TA. auto.
  - destruct (Z.eqb_spec (m_class m) q) as [CQ|CQ].
    + destruct (add_list l (m_owner m) (m_rr m) x n LI HN HX) as (l' & E & L' & K & HL). rewrite E. cbn [rbind]. eexists _, _, l'. split; [reflexivity|]. left. split; auto. split; auto. split; [split; auto|]. split; auto. split; [congruence|]. auto.
    + eexists _, _, l. split; [reflexivity|]. right. split; [discriminate|]. split; [discriminate|]. split; [|right; right; split; auto; split; auto]. intros (_ & _ & [(H & _)|[(H & _)|H]]); congruence.
Qed.

(** what has been collected *)
Definition collected (q : Z) (ms : list mrr) (l : list rrset) : Prop := forall o t x, listed l o t x <-> asks q ms o t x.
Lemma prereq_loop_spec : forall z q rest done l n, cwf z -> q <> CLASS_ANY -> q <> CLASS_NONE -> Forall (prereq_wf z q) (done ++ rest) -> linv n l -> 0 <= n -> n + zlen rest < 60000 -> collected q done l -> Forall (prereq_ok z q) done ->
  exists ret rc, prereq_loop z q rest l = Ok (ret, rc) /\
  ((ret = KNOT_EOK /\ rc = RC_NOERROR /\ prereqs_hold z q (done ++ rest)) \/
   (ret <> KNOT_EOK /\ exists pre m post, done ++ rest = pre ++ m :: post /\ Forall (prereq_ok z q) pre /\ ~ prereq_ok z q m /\ prereq_rcode z q m rc /\ rc <> RC_NOERROR) \/
   (ret = KNOT_EPREREQ /\ Forall (prereq_ok z q) (done ++ rest) /\ ~ sets_equal z q (done ++ rest) /\ rc = RC_NXRRSET)).
Proof.
  intros z q. induction rest as [|m rest IH]; intros done l n W QA QN WF LI N0 NB CO OK; cbn [prereq_loop].
  - rewrite app_nil_r in *. rewrite Forall_forall in WF. assert (AT : forall o t, In (o, t) (map key l) <-> exists x, asks q done o t x) by (intros o t; rewrite (listed_key l n o t LI); split; intros [x H]; exists x; apply CO; auto).
    assert (NT : Forall (fun s => rr_type (snd s) <> T_ANY) l). { apply Forall_forall. intros [o r] HI. cbn [snd]. destruct (proj1 (AT o (rr_type r))) as (x & m & HM & HC & _ & HT & _); [apply in_map_iff; exists (o, r); auto|]. rewrite <- HT. apply (WF m HM). auto. }
    destruct (check_stored l z n W LI NT l (fun s H => H)) as (ret & rc & E & H1 & H2 & H3 & H4). exists ret, rc. split; auto.
    assert (SE : (forall o t, In (o, t) (map key l) -> agrees z l o t) <-> sets_equal z q done).
    { unfold sets_equal, agrees. assert (OT : forall o t, (exists x, asks q done o t x) -> one_tree z o) by (intros o t (x & m & HM & _ & HO & _); rewrite <- HO; apply (WF m HM)).
      split; intros H o t HI x; [|apply AT in HI]; [rewrite <- (zone_found z o t x (OT o t HI)), <- (CO o t x); apply H, AT; auto|rewrite (zone_found z o t x (OT o t HI)), (CO o t x); auto]. }
    destruct H1 as [->| ->]; [left; split; auto; split; [apply H2; auto|split; auto; apply SE, H4; auto]|right; right]. split; auto. split; auto. split; [|auto]. intros HS. pose proof (proj2 H4 (proj2 SE HS)). discriminate.
  - rewrite zlen_cons in NB. pose proof (zlen_nonneg rest). rewrite Forall_forall in WF. destruct (WF m) as ((x & HX) & O & TA); [apply in_or_app; right; left; auto|].
    destruct (one_prereq z q m l x n W O QA QN HX LI ltac:(lia)) as (ret & rc & l' & E & H1). rewrite E. cbn [rbind]. destruct H1 as [(-> & -> & PO & LI' & NQ & YQ)|(NR & NC & NO & PR)].
    + change (KNOT_EOK =? KNOT_EOK) with true. cbn [negb]. destruct (IH (done ++ [m]) l' (n + 1)) as (ret & rc & E2 & H2); auto; try lia.
      * rewrite <- app_assoc. apply Forall_forall. exact WF.
      * intros o t y. unfold collected in CO. assert (AS : asks q (done ++ [m]) o t y <-> asks q done o t y \/ (m_class m = q /\ m_owner m = o /\ type_of m = t /\ y = x)).
        { unfold asks. split; [intros (m2 & HI & H3); apply in_app_or in HI; destruct HI as [HI|[<-|[]]]; [left; exists m2; auto|right]; destruct H3 as (H3 & H4 & H5 & H6); split; auto; split; auto; split; auto; pose proof (is_fun _ _ _ H6 HX); congruence|].
          intros [(m2 & HI & H3)|(H3 & H4 & H5 & ->)]; [exists m2; split; auto; apply in_or_app; auto|exists m; split; [apply in_or_app; right; left; auto|auto]]. }
        rewrite AS. destruct (Z.eq_dec (m_class m) q) as [CQ|CQ]; [destruct (YQ CQ) as [_ HL]; rewrite HL, CO; split; intros [H3|H3]; auto; right; intuition congruence|rewrite (NQ CQ), CO; tauto].
      * apply Forall_app. split; auto.
      * exists ret, rc. rewrite <- app_assoc in H2. auto.
    + replace (ret =? KNOT_EOK) with false by lia. cbn [negb]. exists ret, rc. split; auto. right. left. split; auto. exists done, m, rest. auto.
Qed.

(** ** C26 *)
(** The result for any prerequisite section: success, or the RCODE of the first record that does not pass, or NXRRSET from
    the comparison of RRsets. *)
Theorem c26_prereqs : forall z q ms, cwf z -> q <> CLASS_ANY -> q <> CLASS_NONE -> Forall (prereq_wf z q) ms -> zlen ms < 60000 ->
  exists ret rc, ddns_process_prereqs z q ms = Ok (ret, rc) /\
  ((ret = KNOT_EOK /\ rc = RC_NOERROR /\ prereqs_hold z q ms) \/
   (ret <> KNOT_EOK /\ exists pre m post, ms = pre ++ m :: post /\ Forall (prereq_ok z q) pre /\ ~ prereq_ok z q m /\ prereq_rcode z q m rc /\ rc <> RC_NOERROR) \/
   (ret = KNOT_EPREREQ /\ Forall (prereq_ok z q) ms /\ ~ sets_equal z q ms /\ rc = RC_NXRRSET)).
Proof.
  intros z q ms W QA QN WF HL. apply (prereq_loop_spec z q ms [] [] 0); auto; try lia.
  - split; constructor.
  - intros o t x. split; [intros (? & ? & [] & _)|intros (? & [] & _)].
Qed.
(** Success exactly when all prerequisites hold. *)
Theorem c26_iff : forall z q ms, cwf z -> q <> CLASS_ANY -> q <> CLASS_NONE -> Forall (prereq_wf z q) ms -> zlen ms < 60000 ->
  exists ret rc, ddns_process_prereqs z q ms = Ok (ret, rc) /\ (ret = KNOT_EOK <-> prereqs_hold z q ms) /\ (rc = RC_NOERROR <-> prereqs_hold z q ms).
Proof.
  intros z q ms W QA QN WF HL. destruct (c26_prereqs z q ms W QA QN WF HL) as (ret & rc & E & H). exists ret, rc. split; auto.
  destruct H as [(-> & -> & H)|[(NR & pre & m & post & -> & _ & NO & _ & NC)|(-> & _ & NS & ->)]].
  - split; split; auto.
  - assert (N : ~ prereqs_hold z q (pre ++ m :: post)) by (intros [F _]; rewrite Forall_forall in F; apply NO, F, in_or_app; right; left; auto). split; split; intros; contradiction.
  - assert (N : ~ prereqs_hold z q ms) by (intros [_ F]; auto). split; split; intros; try discriminate; contradiction.
Qed.

(** ** Concrete cases *)
Definition dd_a : name := [[3]].
Definition dd_w : name := [[1]; [3]].
Definition dd_x : name := [[2]; [3]].
Definition dd_soa (n : Z) : rrset := rs dd_a SOA 600 [[0; 0; 0; 0; 0; n; 0; 0; 0; 0; 0; 0; 0; 0; 0; 0; 0; 0; 0; 0; 0; 0]].
Definition dd_zone : list rrset := [dd_soa 1; rs dd_a T_NS 600 [[1; 0]; [2; 0]]; rs dd_w 1 100 [[1]; [2]]].
Definition dd_Z : contents := Eval vm_compute in of_res (contents_new dd_a) (build dd_a dd_zone).
Lemma dd_wf : cwf dd_Z /\ z_apex dd_Z = dd_a.
Proof. apply (build_wf dd_a dd_zone dd_Z); [|vm_compute; reflexivity]. unfold dd_zone, dd_soa, T_NS, SOA. repeat (constructor; [gex false|]). constructor. Qed.
Definition dd_m (o : name) (c t ttl : Z) (x : list Z) : mrr := mkm o c (mkrr t ttl (ex_s [x])).
Definition dd_pre : list mrr := [dd_m dd_w CLASS_IN 1 0 [2]; dd_m dd_a CLASS_ANY T_NS 0 []; dd_m dd_w CLASS_IN 1 0 [1]; dd_m dd_x CLASS_NONE T_ANY 0 []; dd_m dd_w CLASS_ANY T_ANY 0 []; dd_m dd_w CLASS_NONE 28 0 []].
Ltac dd_rd := eexists; unfold rdata_is; cbn [m_rr dd_m rr_rrs]; apply ex_is; [canon|cbv; reflexivity|cbv; reflexivity].
Example c26_ex_wf : Forall (prereq_wf dd_Z CLASS_IN) dd_pre.
Proof. unfold dd_pre. repeat (constructor; [split; [dd_rd|]; split; [right; reflexivity|cbv; try discriminate; auto]|]). constructor. Qed.
Example c26_ex_holds : ddns_process_prereqs dd_Z CLASS_IN dd_pre = Ok (KNOT_EOK, RC_NOERROR) /\ prereqs_hold dd_Z CLASS_IN dd_pre.
Proof.
  assert (E : ddns_process_prereqs dd_Z CLASS_IN dd_pre = Ok (KNOT_EOK, RC_NOERROR)) by (vm_compute; reflexivity). split; auto.
  destruct (c26_iff dd_Z CLASS_IN dd_pre (proj1 dd_wf) ltac:(discriminate) ltac:(discriminate) c26_ex_wf ltac:(vm_compute; reflexivity)) as (ret & rc & E2 & H & _). apply H. congruence.
Qed.
(** one of two records is not the RRset *)
Example c26_ex_subset : ddns_process_prereqs dd_Z CLASS_IN [dd_m dd_w CLASS_IN 1 0 [2]] = Ok (KNOT_EPREREQ, RC_NXRRSET).
Proof. vm_compute. reflexivity. Qed.
(** ** What does not hold *)
(** A record of type ANY with the class of the zone is not refused as malformed: an assertion fails. *)
Theorem c26_any_refuted : exists z m, cwf z /\ m_class m = CLASS_IN /\ type_of m = T_ANY /\ (exists x, rdata_is m x) /\ one_tree z (m_owner m) /\ ddns_process_prereqs z CLASS_IN [m] = UB.
Proof.
  exists dd_Z, (dd_m dd_w CLASS_IN T_ANY 0 [1]). split; [apply dd_wf|]. split; auto. split; auto. split; [dd_rd|]. split; [right; reflexivity|]. vm_compute. reflexivity.
Qed.
(** A name with a normal node and an NSEC3 node: the NSEC3 record is there, but the prerequisite fails. *)
Definition dd_two : list rrset := [dd_soa 1; rs dd_w 1 100 [[1]; [2]]; rs dd_w NSEC3 100 [[1; 0]]].
Definition dd_T : contents := Eval vm_compute in of_res (contents_new dd_a) (build dd_a dd_two).
Lemma dd_twf : cwf dd_T /\ z_apex dd_T = dd_a.
Proof. apply (build_wf dd_a dd_two dd_T); [|vm_compute; reflexivity]. unfold dd_two, dd_soa, NSEC3, SOA. constructor; [gex false|]. constructor; [gex false|]. constructor; [gex true; intros _ H; discriminate H|]. constructor. Qed.
Theorem c26_tree_refuted : exists z m, cwf z /\ rdata_is m [] /\ prereqs_hold z CLASS_IN [m] /\ ddns_process_prereqs z CLASS_IN [m] = Ok (KNOT_EPREREQ, RC_NXRRSET).
Proof.
  exists dd_T, (dd_m dd_w CLASS_ANY NSEC3 0 []). split; [apply dd_twf|]. assert (R : rdata_is (dd_m dd_w CLASS_ANY NSEC3 0 []) []) by (unfold rdata_is; cbn [m_rr dd_m rr_rrs]; apply ex_is; [canon|cbv; reflexivity|cbv; reflexivity]). split; auto. split; [|vm_compute; reflexivity]. split.
  - constructor; [|constructor]. split; auto. split; [reflexivity|]. left. split; auto. split; auto. cbn. exists [1; 0], true. exists 100, [[1; 0]]. split; [|left; auto]. eexists. split; [left; reflexivity|]. split; auto. split; auto. apply ex_is; [canon|cbv; reflexivity|cbv; reflexivity].
  - intros o t (x & m & [<-|[]] & H & _). discriminate.
Qed.
Print Assumptions c26_prereqs.
Print Assumptions c26_iff.
Print Assumptions c26_any_refuted.
Print Assumptions c26_tree_refuted.
