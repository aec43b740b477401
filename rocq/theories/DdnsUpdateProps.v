(** Dynamic updates, C27: the update section. *)
From Verif Require Import Base RdatasetModel RdatasetSpec RdatasetProofs RdatasetProps NodeModel NodeProps ZoneModel ZoneProofs ZoneView ZoneFold ChangesetProofs UpdateModel SerialModel SerialSpec SerialProps DiffModel DdnsModel DdnsProofs DdnsSteps DdnsAdd ZoneExamples ChangesetProps DdnsProps DdnsRun.

(** ** Whole messages *)
(** Any sequence of update requests. A record of an update section as it comes from a message; owner and class are not
    limited here: they are checked by the code. *)
Definition wire_wf (a : name) (m : mrr) : Prop := exists x,
  rdata_is m x /\ 1 <= type_of m <= 65535 /\ (type_of m = RRSIG -> 2 <= zlen x) /\ (rel (type_of m) x = true -> m_owner m <> a) /\ (type_of m = SOA -> m_class m = CLASS_IN -> exists s, soa_serial x = Ok s /\ serial32 s).
Definition requests_wf (a : name) (reqs : list (list mrr * list mrr)) : Prop := Forall (fun r => Forall (wire_wf a) (snd r)) reqs.
Lemma check_wf : forall z ms rc, Forall (wire_wf (z_apex z)) ms -> ddns_precheck_update z CLASS_IN ms = Ok (KNOT_EOK, rc) -> Forall (fun m => exists x, update_wf (z_apex z) m x) ms.
Proof.
  intros z. induction ms as [|m ms IH]; intros rc F H; [constructor|]. cbn [ddns_precheck_update] in H. destruct (check_update z CLASS_IN m) as [[ret rc1]| | |] eqn:E; cbn [rbind] in H; try discriminate. destruct (ret =? KNOT_EOK) eqn:ER; cbn [negb] in H; [|injection H as -> _; discriminate].
  constructor; [|eapply IH; eauto; eapply Forall_inv_tail; eauto]. destruct (Forall_inv F) as (x & HX & HT & HR & HA & HS). exists x. unfold check_update in E. cbv zeta in E. fold (type_of m) in E. destruct (under (m_owner m) (z_apex z)) eqn:EU; cbn [negb] in E; [|injection E as <- _; discriminate].
  destruct ((type_of m =? T_NSEC3PARAM) && (negb (name_eqb (m_owner m) (z_apex z)) || type_exists (Some (false, z_apexn z)) (type_of m))); [injection E as <- _; discriminate|].
  split; auto. split; [|intros HC; split; [split; auto|auto]].
  destruct (Z.eqb_spec (m_class m) CLASS_IN) as [|N1]; auto. destruct (Z.eqb_spec (m_class m) CLASS_ANY) as [|N2]; auto. destruct (Z.eqb_spec (m_class m) CLASS_NONE) as [|N3]; auto. injection E as <- _. discriminate.
Qed.
Lemma bulk_inv : forall z0 old sn reqs zs z u, inv sn zs z -> requests_wf (z_apex zs) reqs -> process_bulk z0 old sn CLASS_IN reqs (mkup z None) = Ok u -> exists z', u = mkup z' None /\ inv sn zs z'.
Proof.
  intros z0 old sn. induction reqs as [|[pre upd] reqs IH]; intros zs z u I F H; cbn [process_bulk] in H; [injection H as <-; eauto|]. pose proof (Forall_inv_tail F) as FT. pose proof (Forall_inv F) as FH. cbn [snd] in FH.
  cbn [u_new] in H. destruct (ddns_process_prereqs z CLASS_IN pre) as [[ret rc]| | |]; cbn [rbind] in H; try discriminate. destruct (negb (ret =? KNOT_EOK)); [eapply IH; eauto|]. destruct (ddns_precheck_update z CLASS_IN upd) as [[ret2 rc2]| | |] eqn:EP; cbn [rbind] in H; try discriminate. destruct (ret2 =? KNOT_EOK) eqn:E2; cbn [negb] in H; [|eapply IH; eauto].
  assert (ret2 = KNOT_EOK) as -> by lia. rewrite <- (iv_apex _ _ _ I) in FH. pose proof (check_wf z upd rc2 FH EP) as UW. rewrite (iv_apex _ _ _ I) in UW. destruct (update_inv z0 old sn upd zs z I UW) as [(z1 & E & I1)|(e & E & _)]; rewrite E in H; cbn [rbind] in H; [|discriminate]. eapply IH; eauto.
Qed.
(** [old] tells how the versions of nodes are seen, see DdnsModel.v: the theorems hold for all of them. *)
Definition updated (z : contents) (sn : Z) (reqs : list (list mrr * list mrr)) (z' : contents) : Prop := exists old, process_bulk z old sn CLASS_IN reqs (mkup z None) = Ok (mkup z' None).
Lemma updated_inv : forall z sn reqs z', cwf z -> soa_only z -> requests_wf (z_apex z) reqs -> updated z sn reqs z' -> inv sn z z'.
Proof. intros z sn reqs z' W S F (old & E). destruct (bulk_inv z old sn reqs z z _ (inv_refl sn z W S) F E) as (z1 & E1 & I). congruence. Qed.

(** The apex keeps a SOA. *)
Theorem c27_soa : forall z sn reqs z', cwf z -> soa_only z -> requests_wf (z_apex z) reqs -> updated z sn reqs z' -> has_soa z -> z_apex z' = z_apex z /\ has_soa z'.
Proof. intros z sn reqs z' W S F U HS. destruct (updated_inv _ _ _ _ W S F U). auto. Qed.
(** The apex keeps an NS record. *)
Theorem c27_ns : forall z sn reqs z', cwf z -> soa_only z -> requests_wf (z_apex z) reqs -> updated z sn reqs z' -> has_soa z -> has_ns z -> has_ns z'.
Proof. intros z sn reqs z' W S F U HS HN. destruct (updated_inv _ _ _ _ W S F U). auto. Qed.
(** A CNAME has another type beside it only if it was so before. *)
Theorem c27_cname : forall z sn reqs z' o t x y, cwf z -> soa_only z -> requests_wf (z_apex z) reqs -> updated z sn reqs z' -> t <> T_CNAME ->
  crec z' (false, o, T_CNAME) x -> crec z' (false, o, t) y -> (exists x', crec z (false, o, T_CNAME) x') /\ exists y', crec z (false, o, t) y'.
Proof. intros z sn reqs z' o t x y W S F U NT HX HY. destruct (updated_inv _ _ _ _ W S F U). eauto. Qed.
(** A name has at most one CNAME, one DNAME and one NSEC3PARAM if it was so before. *)
Theorem c27_single : forall z sn reqs z' t, cwf z -> soa_only z -> requests_wf (z_apex z) reqs -> updated z sn reqs z' -> t = T_CNAME \/ t = T_DNAME \/ t = T_NSEC3PARAM -> single z t -> single z' t.
Proof. intros z sn reqs z' t W S F U HT HS. destruct (updated_inv _ _ _ _ W S F U). auto. Qed.
(** The serial is the one from before or a greater one. *)
Theorem c27_serial : forall z sn reqs z', cwf z -> soa_only z -> requests_wf (z_apex z) reqs -> updated z sn reqs z' -> zone_serial z sn -> exists s, zone_serial z' s /\ (s = sn \/ rfc1982_gt s sn).
Proof.
  intros z sn reqs z' W S F U HS. destruct (updated_inv _ _ _ _ W S F U) as [_ _ _ _ _ _ _ IE]. destruct (IE HS) as (s & Hs & HC). exists s. split; auto. destruct HC as [->|HC]; auto. right. destruct HS as (_ & _ & _ & S1). destruct Hs as (_ & _ & _ & S2). apply (c16_compare_rfc1982 s sn S2 S1). auto.
Qed.
(** The SOA stays at the apex. *)
Theorem c27_soa_apex : forall z sn reqs z', cwf z -> soa_only z -> requests_wf (z_apex z) reqs -> updated z sn reqs z' -> forall o x, zone_has z' o SOA x -> o = z_apex z.
Proof. intros z sn reqs z' W S F U o x (k & H). destruct (updated_inv _ _ _ _ W S F U) as [_ A O _ _ _ _ _]. rewrite <- A. eapply O; eauto. Qed.
(** An update section is carried out unless a limit on sizes is hit. *)
Theorem c27_total : forall z0 old sn z ms, cwf z -> soa_only z -> Forall (fun m => exists x, update_wf (z_apex z) m x) ms ->
  (exists z', ddns_process_update z0 old sn ms (mkup z None) = Ok (mkup z' None)) \/ exists e, ddns_process_update z0 old sn ms (mkup z None) = Err e /\ limit e.
Proof. intros z0 old sn z ms W S F. destruct (update_inv z0 old sn ms z z (inv_refl sn z W S) F) as [(z' & E & _)|(e & E & L)]; [left|right]; eauto. Qed.

(** ** Single records of the update section, RFC 2136, section 3.4.2 *)
Definition run1 (z0 : contents) (old : name -> bool) (sn : Z) (z : contents) (m : mrr) (z' : contents) : Prop := process_step z0 old sn (mkup z None) m = Ok (mkup z' None).
Lemma found_has : forall z o k n t x, one_tree z o -> node_or_nsec3 z o = Some (k, n) -> (zone_has z o t x <-> crec z (k, o, t) x).
Proof. intros z o k n t x O E. rewrite <- (zone_found z o t x O). destruct (found_at z o k n E) as [_ ->]. split; auto. Qed.
Lemma missing_has : forall z o t x, one_tree z o -> node_or_nsec3 z o = None -> ~ zone_has z o t x.
Proof. intros z o t x O E H. apply (zone_found z o t x O) in H. rewrite found_none in H by auto. eapply recs_nil; eauto. Qed.
Lemma found_unique : forall z o k n, one_tree z o -> node_or_nsec3 z o = Some (k, n) -> forall k' t x, crec z (k', o, t) x -> k' = k.
Proof.
  intros z o k n O E k' t x C. unfold crec, ck, co, ct in C. cbn [fst snd] in C. unfold node_or_nsec3 in E. unfold rrs_at in C. destruct O as [O|O]; rewrite O in E.
  - destruct (ZoneModel.zget z true o); [injection E as <- _|discriminate]. destruct k'; auto. rewrite O in C. exfalso. eapply recs_nil; eauto.
  - destruct (ZoneModel.zget z false o); [injection E as <- _|discriminate]. destruct k'; auto. rewrite O in C. exfalso. eapply recs_nil; eauto.
Qed.
Lemma cell_has : forall z z' k o0 (Q : Z -> list Z -> Prop), (forall k' t x, crec z (k', o0, t) x -> k' = k) -> (forall c x, crec z' c x <-> crec z c x /\ ~ (ck c = k /\ co c = o0 /\ Q (ct c) x)) ->
  forall o t x, zone_has z' o t x <-> zone_has z o t x /\ ~ (o = o0 /\ Q t x).
Proof.
  intros z z' k o0 Q U R o t x. split.
  - intros [k' C]. apply R in C. unfold ck, co, ct in C. cbn [fst snd] in C. destruct C as [C N]. split; [exists k'; auto|]. intros [-> HQ]. apply N. split; auto. eapply U; eauto.
  - intros [[k' C] N]. exists k'. apply R. split; auto. unfold ck, co, ct. cbn [fst snd]. intros (_ & H1 & H2). auto.
Qed.
Lemma same_has : forall z z', (forall c x, crec z' c x <-> crec z c x) -> forall o t x, zone_has z' o t x <-> zone_has z o t x.
Proof. intros z z' R o t x. split; intros [k H]; exists k; apply R; auto. Qed.
(** the zone has a SOA at its apex and nowhere else *)
Definition zone_ok (z : contents) : Prop := cwf z /\ soa_only z /\ has_soa z.
Lemma kept_apex : forall z o k n t, zone_ok z -> one_tree z o -> node_or_nsec3 z o = Some (k, n) -> (kept z k o t <-> t = SOA \/ (t = T_NS /\ o = z_apex z)).
Proof.
  intros z o k n t (W & S & (x & HS)) O E. unfold kept. split; (intros [H|[H1 H2]]; [left; auto|right; split; auto]); [destruct H2 as [y H2]; eapply S; eauto|]. exists x. subst o. rewrite <- (found_unique z _ k n O E _ _ _ HS). exact HS.
Qed.
(** Deleting one record: it goes, unless it is the SOA or the last NS record of the apex. *)
Theorem c27_delete_rr : forall z0 old sn z m x, zone_ok z -> one_tree z (m_owner m) -> m_class m = CLASS_NONE -> rdata_is m x ->
  exists z', run1 z0 old sn z m z' /\ zone_ok z' /\ z_apex z' = z_apex z /\
  forall o t y, zone_has z' o t y <-> zone_has z o t y /\ ~ (o = m_owner m /\ t = type_of m /\ y = x /\ t <> SOA /\ ~ (t = T_NS /\ o = z_apex z /\ forall y', zone_has z o T_NS y' -> y' = x)).
Proof.
  intros z0 old sn z m x ZO O HC HX. destruct ZO as (W & SO & HS). unfold run1, process_step, skip_soa. fold (type_of m). assert (IN : (m_class m =? CLASS_NONE) || (m_class m =? CLASS_ANY) = true) by (rewrite HC; reflexivity). rewrite IN. destruct (Z.eqb_spec (type_of m) SOA) as [TS|TS]; cbn [negb rbind].
  { exists z. split; auto. split; [split; auto|]. split; auto. intros o t y. split; [|tauto]. intros H. split; auto. intros (_ & -> & _ & N & _). contradiction. }
  unfold process_rr, is_addition, is_removal. rewrite IN, HC. change (CLASS_NONE =? CLASS_IN) with false. cbv iota. unfold process_remove, is_rr_removal. rewrite HC. change (CLASS_NONE =? CLASS_NONE) with true. cbv iota. cbn [u_new]. destruct (node_or_nsec3 z (m_owner m)) as [[k n]|] eqn:EN.
  - destruct (rem_rr z m x k n W HX EN) as (z' & E & H). rewrite E. exists z'. split; auto. pose proof (fun t y => found_has z _ k n t y O EN) as FH. pose proof (found_unique z _ k n O EN) as FU.
    assert (LA : forall y', crec z (k, m_owner m, T_NS) y' <-> zone_has z (m_owner m) T_NS y') by (intros; symmetry; apply FH).
    assert (SA : (exists y, crec z (k, m_owner m, SOA) y) <-> m_owner m = z_apex z). { split; [intros [y Hy]; eapply SO; eauto|]. intros E2. destruct HS as [s HS]. exists s. unfold soa_cell in HS. rewrite <- E2 in HS. rewrite <- (FU _ _ _ HS). exact HS. }
    cbv zeta in H. fold (type_of m) in H. destruct H as [(H & ->)|(H1 & H2 & H3 & (W' & A' & R' & T'))].
    + split; [split; auto|]. split; auto. intros o t y. split; [|tauto]. intros HZ. split; auto. intros (-> & -> & -> & _ & NL). destruct H as [H|[(H1 & H2 & H3)|H]]; [contradiction| |apply H, FH; auto]. apply NL. split; auto. split; [apply SA; auto|]. intros y' HY. apply H3; [apply LA; auto|]. rewrite <- H1. apply FH. auto.
    + assert (SC : forall k' o' y, crec z' (k', o', SOA) y <-> crec z (k', o', SOA) y) by (intros k' o' y; rewrite R'; split; [tauto|]; intros HX2; split; auto; intros [[= _ _ E2] _]; unfold type_of in TS; auto). split; [|split; auto].
      * split; auto. split; [intros k' o' y HY; rewrite A'; apply SC in HY; eapply SO; eauto|]. destruct HS as [s HS]. exists s. rewrite A'. apply SC. auto.
      * assert (CE : forall c : cell, c = (k, m_owner m, type_of m) <-> ck c = k /\ co c = m_owner m /\ ct c = type_of m) by (intros c; split; [intros ->; auto|intros (? & ? & ?); rewrite (cell_eta c); congruence]).
        intros o t y. rewrite (cell_has z z' k (m_owner m) (fun t y => t = type_of m /\ y = x) FU).
        -- split; intros [HA HB]; split; auto; intros HD; apply HB; [tauto|]. destruct HD as (-> & -> & ->). split; [reflexivity|]. split; [reflexivity|]. split; [reflexivity|]. split; [exact TS|]. intros (E1 & E2 & E3). apply H2. split; auto. split; [apply SA; auto|]. intros y1 y2 Y1 Y2. rewrite (E3 y1), (E3 y2); auto; apply LA; auto.
        -- intros c w. rewrite R'. cbn [In]. rewrite CE. split; intros [HA HB]; split; auto; intros HD; apply HB; [destruct HD as (? & ? & ? & ->); auto|destruct HD as ((? & ? & ?) & [->|[]]); auto].
  - exists z. split; auto. split; [split; auto|]. split; auto. intros o t y. split; [|tauto]. intros HZ. split; auto. intros (-> & _). exfalso. eapply missing_has; eauto.
Qed.
(** Deleting an RRset: it goes, unless it is the SOA or the NS records of the apex. *)
Theorem c27_delete_rrset : forall z0 old sn z m, zone_ok z -> one_tree z (m_owner m) -> m_class m = CLASS_ANY -> type_of m <> T_ANY ->
  exists z', run1 z0 old sn z m z' /\ zone_ok z' /\ z_apex z' = z_apex z /\
  forall o t y, zone_has z' o t y <-> zone_has z o t y /\ ~ (o = m_owner m /\ t = type_of m /\ t <> SOA /\ ~ (t = T_NS /\ o = z_apex z)).
Proof.
  intros z0 old sn z m ZO O HC TA. pose proof ZO as (W & SO & HS). unfold run1, process_step, skip_soa. fold (type_of m). assert (IN : (m_class m =? CLASS_NONE) || (m_class m =? CLASS_ANY) = true) by (rewrite HC; reflexivity). rewrite IN. destruct (Z.eqb_spec (type_of m) SOA) as [TS|TS]; cbn [negb rbind].
  { exists z. split; auto. split; [auto|]. split; auto. intros o t y. split; [|tauto]. intros H. split; auto. intros (_ & -> & N & _). contradiction. }
  unfold process_rr, is_addition, is_removal. rewrite IN, HC. change (CLASS_ANY =? CLASS_IN) with false. cbv iota. unfold process_remove, is_rr_removal, is_rrset_removal. rewrite HC. change (CLASS_ANY =? CLASS_NONE) with false. change (CLASS_ANY =? CLASS_ANY) with true. cbn [andb]. fold (type_of m). replace (type_of m =? T_ANY) with false by lia. cbn [negb u_new]. cbv iota. destruct (node_or_nsec3 z (m_owner m)) as [[k n]|] eqn:EN.
  - destruct (found_at z _ k n EN) as [RA _]. destruct (rem_rrset z (Some (k, n)) k (m_owner m) (type_of m) W RA) as (z' & E & H). rewrite E. exists z'. split; auto. pose proof (found_unique z _ k n O EN) as FU. rewrite (kept_apex z _ k n (type_of m) ZO O EN) in H. destruct H as [(H & ->)|(H & (W' & A' & R' & T'))].
    + split; auto. split; auto. intros o t y. split; [|tauto]. intros HZ. split; auto. intros (-> & -> & _ & NL). destruct H as [H|H]; [contradiction|apply NL; auto].
    + split; [|split; auto].
      * assert (SC : forall k' o' y, crec z' (k', o', SOA) y <-> crec z (k', o', SOA) y) by (intros k' o' y; rewrite R'; split; [tauto|]; intros HX2; split; auto; intros [= _ _ E2]; unfold type_of in TS; auto). split; auto. split; [intros k' o' y HY; rewrite A'; apply SC in HY; eapply SO; eauto|]. destruct HS as [s HS]. exists s. rewrite A'. apply SC. auto.
      * assert (CE : forall c : cell, c = (k, m_owner m, type_of m) <-> ck c = k /\ co c = m_owner m /\ ct c = type_of m) by (intros c; split; [intros ->; auto|intros (? & ? & ?); rewrite (cell_eta c); congruence]).
        intros o t y. rewrite (cell_has z z' k (m_owner m) (fun t y => t = type_of m) FU).
        -- split; intros [HA HB]; split; auto; intros HD; apply HB; [tauto|]. destruct HD as (-> & ->). split; [reflexivity|]. split; [reflexivity|]. split; [exact TS|]. intros (E1 & E2). apply H. auto.
        -- intros c w. rewrite R', CE. tauto.
  - exists z. split; [|split; auto; split; auto; intros o t y; split; [|tauto]; intros HZ; split; auto; intros (-> & _); exfalso; eapply missing_has; eauto]. unfold process_rem_rrset. cbn [type_exists node_rrs]. reflexivity.
Qed.
(** Deleting a name: all of its RRsets go, but the SOA and the NS records of the apex. *)
Theorem c27_delete_name : forall z0 old sn z m, zone_ok z -> one_tree z (m_owner m) -> m_class m = CLASS_ANY -> type_of m = T_ANY ->
  exists z', run1 z0 old sn z m z' /\ zone_ok z' /\ z_apex z' = z_apex z /\
  forall o t y, zone_has z' o t y <-> zone_has z o t y /\ ~ (o = m_owner m /\ t <> SOA /\ ~ (t = T_NS /\ o = z_apex z)).
Proof.
  intros z0 old sn z m ZO O HC TA. pose proof ZO as (W & SO & HS). unfold run1, process_step, skip_soa. fold (type_of m). rewrite TA. change (negb (T_ANY =? SOA)) with true. cbn [rbind]. cbv iota.
  unfold process_rr, is_addition, is_removal. rewrite HC. change (CLASS_ANY =? CLASS_IN) with false. change ((CLASS_ANY =? CLASS_NONE) || (CLASS_ANY =? CLASS_ANY)) with true. cbv iota. unfold process_remove, is_rr_removal, is_rrset_removal, is_node_removal. rewrite HC. change (CLASS_ANY =? CLASS_NONE) with false. change (CLASS_ANY =? CLASS_ANY) with true. cbn [andb]. fold (type_of m). rewrite TA. change (T_ANY =? T_ANY) with true. cbn [negb]. cbv iota.
  destruct (rem_node z (m_owner m) W) as (k & z' & E & HK & W' & A' & R' & _). rewrite E. exists z'. split; auto.
  assert (SC : forall k' o' y, crec z' (k', o', SOA) y <-> crec z (k', o', SOA) y) by (intros k' o' y; rewrite R'; split; [tauto|]; intros HX2; split; auto; intros (_ & _ & _ & N); apply N; left; auto). split; [|split; auto].
  - split; auto. split; [intros k' o' y HY; rewrite A'; apply SC in HY; eapply SO; eauto|]. destruct HS as [s HS]. exists s. rewrite A'. apply SC. auto.
  - intros o t y. destruct (node_or_nsec3 z (m_owner m)) as [[k0 n]|] eqn:EN.
    + pose proof (HK _ eq_refl) as K. cbn [fst] in K. subst k0. pose proof (found_unique z _ k n O EN) as FU. rewrite (cell_has z z' k (m_owner m) (fun t y => ~ (t = SOA \/ (t = T_NS /\ m_owner m = z_apex z))) FU).
      * split; intros [HA HB]; split; auto; intros HD; apply HB; [destruct HD as (-> & H1 & H2); split; auto; tauto|]. destruct HD as (-> & HD). tauto.
      * intros c w. rewrite R', (kept_apex z _ k n (ct c) ZO O EN). split; intros [HA HB]; (split; [exact HA|]); intros HD; apply HB; [destruct HD as (? & ? & ?)|destruct HD as (? & ? & _ & ?)]; repeat (split; auto). discriminate.
    + rewrite (same_has z z'); [|intros c w; rewrite R'; split; [tauto|]; intros; split; auto; intros (_ & _ & N & _); apply N; auto]. split; [|tauto]. intros HZ. split; auto. intros (-> & _). exfalso. eapply missing_has; eauto.
Qed.
(** ** Additions *)
(** no DNAME at a name above *)
Definition no_dname_above (z : contents) (o : name) : Prop := forall k p x, under o p = true -> p <> o -> ~ crec z (k, p, T_DNAME) x.
Lemma has_dname_spec : forall n, node_wf n -> has_dname n = true -> exists x, records n T_DNAME x.
Proof.
  intros n W H. unfold has_dname in H. pose proof (lookup_recs n T_DNAME W) as HL. destruct (node_rrset n T_DNAME) as [e|]; [|discriminate]. destruct HL as (b & _ & _ & NB & _ & _ & HR). destruct b as [|x b]; [contradiction|]. exists x. apply HR. left. auto.
Qed.
Lemma under_step : forall l p q, under p q = true -> under (l :: p) q = true.
Proof. intros l p q H. cbn [under]. rewrite H, orb_true_r. auto. Qed.
Lemma under_len : forall o p, under o p = true -> (length p <= length o)%nat.
Proof. induction o as [|l o IH]; intros p H; cbn [under] in H; apply orb_true_iff in H; (destruct H as [H|H]; [apply neqb_spec in H; subst; auto|]); [discriminate|]. apply IH in H. cbn [length]. lia. Qed.
Lemma dname_above_none : forall z0 old z o k, cwf z0 -> cwf z -> no_dname_above z0 o -> no_dname_above z o -> dname_above z0 old z k o = false.
Proof.
  intros z0 old z. induction o as [|l p IH]; intros k W0 W N0 N; cbn [dname_above]; auto. destruct (name_eqb (l :: p) (z_apex z)); auto.
  assert (UP : under (l :: p) p = true) by (apply under_step, under_refl). assert (NE : p <> l :: p) by (intros E; apply (f_equal (@length _)) in E; cbn [length] in E; lia).
  apply orb_false_iff. split.
  - set (pk := if name_eqb p (z_apex z) then false else k). set (src := if old (l :: p) && match ZoneModel.zget z0 k (l :: p) with Some _ => true | None => false end then z0 else z). destruct (has_dname _) eqn:E; auto. exfalso. change (match ZoneModel.zget src pk p with Some n => zn_rrs n | None => [] end) with (rrs_at src pk p) in E. assert (WS : cwf src) by (unfold src; destruct (old _ && _); auto). apply has_dname_spec in E; [|apply WS]. destruct E as [x Hx]. unfold src in Hx. destruct (old (l :: p) && _); [eapply (N0 pk p x)|eapply (N pk p x)]; eauto.
  - apply IH; auto; intros k' q x HU HN; [apply (N0 k' q x)|apply (N k' q x)]; try (apply under_step; auto); intros ->; apply under_len in HU; cbn [length] in HU; lia.
Qed.
Lemma dname_enclosing_none : forall z0 old z o, cwf z0 -> cwf z -> no_dname_above z0 o -> no_dname_above z o -> dname_enclosing z0 old z o = false.
Proof.
  intros z0 old z. induction o as [|l p IH]; intros W0 W N0 N; cbn [dname_enclosing]; auto.
  assert (UP : under (l :: p) p = true) by (apply under_step, under_refl). assert (NE : p <> l :: p) by (intros E; apply (f_equal (@length _)) in E; cbn [length] in E; lia).
  assert (NA : forall zz, no_dname_above zz (l :: p) -> no_dname_above zz p) by (intros zz H k' q x HU HN; apply (H k' q x); [apply under_step; auto|]; intros ->; apply under_len in HU; cbn [length] in HU; lia).
  destruct (node_or_nsec3 z p) as [[k n]|] eqn:EN; [|apply IH; auto]. apply orb_false_iff. split; [|apply dname_above_none; auto]. destruct (has_dname (zn_rrs n)) eqn:E; auto. destruct (found_at z p k n EN) as [RA _]. rewrite RA in E. apply has_dname_spec in E; [|apply W]. destruct E as [x Hx]. exfalso. eapply (N k p x); eauto.
Qed.
Lemma not_aliased : forall z0 old z o, cwf z0 -> cwf z -> no_dname_above z0 o -> no_dname_above z o -> (forall x, ~ zone_has z o T_CNAME x) -> adding_to_cname z0 old z o (node_or_nsec3 z o) = false.
Proof.
  intros z0 old z o W0 W N0 N NC. unfold adding_to_cname. destruct (node_or_nsec3 z o) as [[k n]|] eqn:EN; [|apply dname_enclosing_none; auto]. rewrite (dname_above_none z0 old z o k) by auto. rewrite orb_false_r. destruct (found_at z o k n EN) as [RA _]. rewrite RA. pose proof (lookup_recs _ T_CNAME (proj1 (proj2 W) k o)) as HL. destruct (node_rrset (rrs_at z k o) T_CNAME) as [e|]; auto. destruct HL as (b & _ & _ & NB & _ & _ & HR). destruct b as [|x b]; [contradiction|]. exfalso. apply (NC x). exists k. apply HR. left. auto.
Qed.
Lemma add_unfold : forall z0 old sn z m x, update_wf (z_apex z) m x -> m_class m = CLASS_IN -> type_of m <> SOA -> process_step z0 old sn (mkup z None) m = process_add z0 old (node_or_nsec3 z (m_owner m)) (m_owner m) (m_rr m) (mkup z None).
Proof.
  intros z0 old sn z m x _ HC TS. unfold process_step, skip_soa. fold (type_of m). replace (type_of m =? SOA) with false by lia. cbn [negb rbind]. unfold process_rr, is_addition. rewrite HC. reflexivity.
Qed.
(** Adding a record of an ordinary type where no CNAME is and no DNAME above: the zone has it afterwards, with the TTL given. *)
Theorem c27_add : forall z0 old sn z m x, cwf z0 -> cwf z -> update_wf (z_apex z) m x -> m_class m = CLASS_IN -> type_of m <> SOA -> type_of m <> T_CNAME -> type_of m <> T_DNAME -> type_of m <> T_NSEC3PARAM ->
  (forall y, ~ zone_has z (m_owner m) T_CNAME y) -> no_dname_above z0 (m_owner m) -> no_dname_above z (m_owner m) ->
  (exists z', run1 z0 old sn z m z' /\ cwf z' /\ z_apex z' = z_apex z /\ (forall o t y, zone_has z' o t y <-> zone_has z o t y \/ (o = m_owner m /\ t = type_of m /\ y = x)) /\
     (~ zone_has z (m_owner m) (type_of m) x -> type_of m <> RRSIG -> forall v, cttl z' (cellof m x) v <-> v = ttl_of m)) \/
  exists e, process_step z0 old sn (mkup z None) m = Err e /\ limit e.
Proof.
  intros z0 old sn z m x W0 W U HC TS T1 T2 T3 NC N0 N. unfold run1. rewrite (add_unfold z0 old sn z m x U HC TS). unfold process_add. fold (type_of m). replace (type_of m =? T_CNAME) with false by lia. replace (type_of m =? T_DNAME) with false by lia. replace (type_of m =? SOA) with false by lia. cbn [orb]. destruct U as (HX & _ & HA). destruct (HA HC) as [AD _]. pose proof (not_aliased z0 old z _ W0 W N0 N NC) as NA.
  destruct (add_normal z0 old z m x W AD T1 T2 TS) as [(z' & E & H)|(e & E & L)]; [left|right; eauto]. exists z'. split; auto. fold (type_of m) in H. destruct H as [(H & _)|[(H & ->)|(_ & _ & [(H & _)|(_ & [EF|(HR & HC2 & SM)])])]]; [congruence| |contradiction| |].
  - assert (Z : zone_has z (m_owner m) (type_of m) x) by (destruct (found_crec _ _ _ _ H) as [k C]; exists k; auto). split; auto. split; auto. split; [|intros; contradiction]. intros o t y. split; auto. intros [HZ|(-> & -> & ->)]; auto.
  - destruct EF as (W' & A' & R' & T'). split; auto. split; auto. split.
    + intros o t y. split; [intros [k C]; apply R' in C; destruct C as [C|[C [<-|[]]]]; [left; exists k; auto|right; injection C as _ -> ->; auto]|intros [[k C]|(-> & -> & ->)]; [exists k; apply R'; auto|exists (rel (type_of m) x); apply R'; right; split; auto; left; auto]].
    + intros _ NR v. rewrite T'. unfold ttl_of. split; [intros [[H _]|[_ [[H _]|[H _]]]]; [contradiction|contradiction|auto]|]. intros ->. right. split; [reflexivity|]. right. split; [reflexivity|]. intros H. contradiction (NR H).
  - destruct SM as (W' & A' & R' & T'). assert (Z : zone_has z (m_owner m) (type_of m) x) by (eexists; exact HC2). split; auto. split; auto. split; [|intros; contradiction]. intros o t y. rewrite (same_has z z' R'). split; auto. intros [HZ|(-> & -> & ->)]; auto.
Qed.
(** Adding to a name with a CNAME: nothing happens, unless it is a CNAME or SOA. *)
Theorem c27_add_at_cname : forall z0 old sn z m x y, cwf z -> update_wf (z_apex z) m x -> m_class m = CLASS_IN -> type_of m <> SOA -> type_of m <> T_CNAME -> (type_of m = T_DNAME -> forall w, ~ zone_has z (m_owner m) T_DNAME w) ->
  crec z (false, m_owner m, T_CNAME) y -> run1 z0 old sn z m z \/ exists e, process_step z0 old sn (mkup z None) m = Err e /\ limit e.
Proof.
  intros z0 old sn z m x y W U HC TS T1 T2 CN. unfold run1. rewrite (add_unfold z0 old sn z m x U HC TS). unfold process_add. fold (type_of m). replace (type_of m =? T_CNAME) with false by lia. replace (type_of m =? SOA) with false by lia. cbn [orb]. destruct U as (HX & _ & HA). destruct (HA HC) as [AD _]. destruct (Z.eqb_spec (type_of m) T_DNAME) as [TD|TD].
  - destruct (add_cname z0 old z m x W AD (or_intror TD)) as [(z' & E & H)|(e & E & L)]; [left|right; eauto]. fold (type_of m) in H. rewrite TD in H. destruct H as [[[w H] _]|[(_ & _ & ->)|(_ & NB & _)]]; auto; exfalso; [apply (T2 TD w); exists false; exact H|]. apply NB. right. right. right. split; auto. exists y. apply found_normal. auto.
  - left. unfold process_add_normal. cbn [u_new]. destruct (adding_to_cname z0 old z (m_owner m) (node_or_nsec3 z (m_owner m))) eqn:E; auto. exfalso. eapply no_cname; eauto.
Qed.
(** Adding a CNAME or a DNAME where one is: it is replaced. *)
Theorem c27_add_replaces : forall z0 old sn z m x y, cwf z -> update_wf (z_apex z) m x -> m_class m = CLASS_IN -> type_of m = T_CNAME \/ type_of m = T_DNAME -> zone_has z (m_owner m) (type_of m) y ->
  (exists z', run1 z0 old sn z m z' /\ (forall o t w, zone_has z' o t w <-> (zone_has z o t w /\ ~ (o = m_owner m /\ t = type_of m)) \/ (o = m_owner m /\ t = type_of m /\ w = x)) /\ forall v, cttl z' (false, m_owner m, type_of m) v <-> v = ttl_of m) \/
  exists e, process_step z0 old sn (mkup z None) m = Err e /\ limit e.
Proof.
  intros z0 old sn z m x y W U HC TT [k0 HZ]. assert (SL : sole (type_of m)) by (unfold sole; tauto). pose proof (sole_cell z k0 _ _ y W SL HZ) as ->. assert (TS : type_of m <> SOA) by (destruct TT as [->| ->]; discriminate). unfold run1. rewrite (add_unfold z0 old sn z m x U HC TS). unfold process_add. fold (type_of m). replace ((type_of m =? T_CNAME) || (type_of m =? T_DNAME)) with true by lia. destruct U as (HX & _ & HA). destruct (HA HC) as [AD _].
  destruct (add_cname z0 old z m x W AD TT) as [(z' & E & H)|(e & E & L)]; [left|right; eauto]. exists z'. split; auto. fold (type_of m) in H. destruct H as [[_ (W' & A' & R' & T')]|[(H & _)|(H & _)]]; [|exfalso; eapply H; eauto|exfalso; eapply H; eauto]. split.
  - intros o t w. split.
    + intros [k C]. apply R' in C. destruct (cell_dec (k, o, t) (false, m_owner m, type_of m)) as [E2|N]; [injection E2 as -> -> ->; right; auto|]. left. split; [exists k; auto|]. intros [-> ->]. apply N. rewrite (sole_cell z k _ _ w W SL C). auto.
    + intros [[[k C] N]|(-> & -> & ->)]; [exists k|exists false]; apply R'; [destruct (cell_dec (k, o, t) (false, m_owner m, type_of m)) as [E2|]; auto; injection E2 as -> -> ->; exfalso; auto|]. destruct (cell_dec _ _) as [|N]; [auto|contradiction].
  - intros v. rewrite T'. destruct (cell_dec _ _) as [|N]; [tauto|contradiction].
Qed.
(** Adding a CNAME to a name without data and without a DNAME above. *)
Theorem c27_add_cname : forall z0 old sn z m x, cwf z0 -> cwf z -> update_wf (z_apex z) m x -> m_class m = CLASS_IN -> type_of m = T_CNAME -> (forall t y, ~ zone_has z (m_owner m) t y) -> no_dname_above z0 (m_owner m) -> no_dname_above z (m_owner m) ->
  (exists z', run1 z0 old sn z m z' /\ forall o t y, zone_has z' o t y <-> zone_has z o t y \/ (o = m_owner m /\ t = T_CNAME /\ y = x)) \/
  exists e, process_step z0 old sn (mkup z None) m = Err e /\ limit e.
Proof.
  intros z0 old sn z m x W0 W U HC TT NZ N0 N. assert (TS : type_of m <> SOA) by (rewrite TT; discriminate). unfold run1. rewrite (add_unfold z0 old sn z m x U HC TS). unfold process_add. fold (type_of m). rewrite TT. change ((T_CNAME =? T_CNAME) || (T_CNAME =? T_DNAME)) with true. cbv iota. destruct U as (HX & _ & HA). destruct (HA HC) as [AD _].
  destruct (add_cname z0 old z m x W AD (or_introl TT)) as [(z' & E & H)|(e & E & L)]; [left|right; eauto]. exists z'. split; auto. fold (type_of m) in H. rewrite TT in H. destruct H as [[[y H] _]|[(_ & NB & _)|(_ & _ & (W' & A' & R' & T'))]].
  - exfalso. eapply NZ. exists false. eauto.
  - exfalso. destruct NB as [[_ (t & y & H)]|[[_ H]|[[H _]|[H _]]]]; try discriminate H; [destruct (found_crec _ _ _ _ H) as [k C]; eapply NZ; exists k; eauto|]. rewrite (not_aliased z0 old z _ W0 W N0 N) in H; [discriminate|]. intros y. apply NZ.
  - intros o t y. split; [intros [k C]; apply R' in C; destruct C as [C|[C [<-|[]]]]; [left; exists k; auto|right; injection C as _ -> ->; auto]|intros [[k C]|(-> & -> & ->)]; [exists k; apply R'; auto|exists false; apply R'; right; split; auto; left; auto]].
Qed.
(** Adding a SOA: it replaces the one at the apex if its serial is greater than that of the zone before the update. *)
Theorem c27_add_soa : forall z0 old sn z m x s, zone_ok z -> update_wf (z_apex z) m x -> m_class m = CLASS_IN -> type_of m = SOA -> serial32 sn -> soa_serial x = Ok s -> 
  (exists z', run1 z0 old sn z m z' /\ ((m_owner m = z_apex z /\ rfc1982_gt s sn /\ forall o t y, zone_has z' o t y <-> (zone_has z o t y /\ t <> SOA) \/ (o = z_apex z /\ t = SOA /\ y = x)) \/ (~ (m_owner m = z_apex z /\ rfc1982_gt s sn) /\ z' = z))) \/
  exists e, process_step z0 old sn (mkup z None) m = Err e /\ limit e.
Proof.
  intros z0 old sn z m x s (W & SO & HS) U HC TS S32 ES. destruct U as (HX & _ & HA). destruct (HA HC) as [AD HSs]. destruct (HSs TS) as (s' & ES' & S32'). assert (s' = s) as -> by congruence. pose proof (proj1 (proj2 (proj2 (c16_compare_rfc1982 s sn S32' S32)))) as HG.
  unfold run1, process_step, skip_soa. fold (type_of m). rewrite TS, HC. change (negb (SOA =? SOA)) with false. change ((CLASS_IN =? CLASS_NONE) || (CLASS_IN =? CLASS_ANY)) with false. cbv iota. rewrite (serial_rd m x HX). cbn [rbind]. rewrite ES. cbn [rbind].
  destruct (serial_compare s sn) eqn:EC; try (left; exists z; split; auto; right; split; auto; intros [_ H]; apply HG in H; discriminate).
  unfold process_rr, is_addition. rewrite HC. change (CLASS_IN =? CLASS_IN) with true. cbn [u_new]. unfold process_add. unfold type_of in TS. rewrite TS. change ((SOA =? T_CNAME) || (SOA =? T_DNAME)) with false. change (SOA =? SOA) with true. cbv iota.
  destruct (add_soa_rr z m x W SO HX TS) as [(z' & E & H)|(e & E & L)]; [left|right; eauto]. exists z'. split; auto. destruct H as [(OA & _ & (W' & A' & R' & T'))|(NO & ->)].
  - left. split; auto. split; [apply HG; auto|]. intros o t y. split.
    + intros [k C]. apply R' in C. destruct (cell_dec (k, o, t) (soa_cell (z_apex z))) as [E2|N]; [injection E2 as -> -> ->; right; split; auto; split; auto; destruct C as [->|[]]; auto|]. left. split; [exists k; auto|]. intros ->. apply N. rewrite (SO _ _ _ C). assert (K : k = false); [|rewrite K; auto]. apply W in C. destruct C as [C _]. symmetry. exact C.
    + intros [[[k C] N]|(-> & -> & ->)]; [exists k; apply R'; destruct (cell_dec (k, o, t) (soa_cell (z_apex z))) as [E2|]; auto; injection E2 as -> -> ->; contradiction|]. exists false. apply R'. destruct (cell_dec _ _) as [|N]; [left; auto|]. exfalso. apply N. auto.
  - right. split; auto. intros [H _]. apply NO. auto.
Qed.

(** ** Concrete cases *)
Lemma dd_soa_only : soa_only dd_Z.
Proof. intros k o x H. destruct (crec_in _ _ _ (proj1 dd_wf) H) as (e & b & HI & _). vm_compute in HI. repeat (destruct HI as [HI|HI]; [inversion HI; subst; reflexivity|]). destruct HI. Qed.
Lemma dd_has : forall l z o t v b x, z = of_res (contents_new dd_a) (build dd_a l) -> In (mkrr t v (ex_s b)) (rrs_at z false o) -> is (ex_s b) b -> In x b -> crec z (false, o, t) x.
Proof. intros l z o t v b x _ H HB HX. exists v, b. split; auto. exists (mkrr t v (ex_s b)). auto. Qed.
Definition dd_soa_rd (n : Z) : list Z := [0; 0; 0; 0; 0; n; 0; 0; 0; 0; 0; 0; 0; 0; 0; 0; 0; 0; 0; 0; 0; 0].
Lemma dd_is1 : is (ex_s [dd_soa_rd 1]) [dd_soa_rd 1]. Proof. apply ex_is; [canon|cbv; reflexivity|cbv; reflexivity]. Qed.
Lemma dd_has_soa : has_soa dd_Z.
Proof. exists (dd_soa_rd 1), 600, [dd_soa_rd 1]. split; [|left; auto]. eexists. split; [right; left; reflexivity|]. split; auto. split; auto. apply dd_is1. Qed.
Example c27_ex_ok : zone_ok dd_Z. Proof. split; [apply dd_wf|]. split; [apply dd_soa_only|apply dd_has_soa]. Qed.
Example c27_ex_ns : has_ns dd_Z.
Proof. exists [1; 0], 600, [[1; 0]; [2; 0]]. split; [|left; auto]. eexists. split; [left; reflexivity|]. split; auto. split; auto. apply ex_is; [canon|cbv; reflexivity|cbv; reflexivity]. Qed.
Example c27_ex_serial : zone_serial dd_Z 1.
Proof.
  exists (dd_soa_rd 1). split; [|split; [reflexivity|split; cbv; [discriminate|reflexivity]]]. intros y. split.
  - intros H. destruct (crec_in _ _ _ (proj1 dd_wf) H) as (e & b & HI & HB & HY). vm_compute in HI. repeat (destruct HI as [HI|HI]; [inversion HI; subst; cbn [rr_rrs] in HB; pose proof (is_fun _ _ _ HB dd_is1) as E; rewrite E in HY; destruct HY as [HY|[]]; auto|]). destruct HI.
  - intros ->. exists 600, [dd_soa_rd 1]. split; [|left; auto]. eexists. split; [right; left; reflexivity|]. split; auto. split; auto. apply dd_is1.
Qed.
(** two requests: the NS records of the apex are deleted, one by one and at once, the whole apex too, a CNAME is added at a new
    name and then an address there, and the SOA is replaced by one with serial 7, then by one with serial 1 *)
Definition dd_reqs : list (list mrr * list mrr) :=
  [([dd_m dd_w CLASS_ANY 1 0 []], [dd_m dd_a CLASS_NONE T_NS 0 [1; 0]; dd_m dd_a CLASS_NONE T_NS 0 [2; 0]; dd_m dd_x CLASS_IN T_CNAME 60 [7; 0]; dd_m dd_x CLASS_IN 1 60 [9]; dd_m dd_a CLASS_IN SOA 60 (dd_soa_rd 7); dd_m dd_a CLASS_IN SOA 60 (dd_soa_rd 1)]);
   ([dd_m dd_x CLASS_NONE T_ANY 0 []], [dd_m dd_w CLASS_ANY T_ANY 0 []]);
   ([], [dd_m dd_a CLASS_ANY T_ANY 0 []; dd_m dd_a CLASS_ANY T_NS 0 []; dd_m dd_a CLASS_ANY SOA 0 []; dd_m dd_w CLASS_NONE 1 0 [2]])].
Definition dd_Z1 : contents := Eval vm_compute in of_res dd_Z (let* u := process_bulk dd_Z (fun _ => false) 1 CLASS_IN dd_reqs (mkup dd_Z None) in Ok (u_new u)).
Ltac dd_wire := match goal with |- wire_wf _ (dd_m _ _ _ _ ?x) => exists x end; split; [unfold rdata_is; cbn [m_rr dd_m rr_rrs]; apply ex_is; [canon|cbv; reflexivity|cbv; reflexivity]|]; split; [cbv; split; discriminate|]; split; [let H := fresh in intros H; vm_compute in H; discriminate H|]; split; [let H := fresh in intros H; vm_compute in H; discriminate H|]; let H1 := fresh in let H2 := fresh in intros H1 H2; vm_compute in H1, H2; first [discriminate H1|discriminate H2|eexists; split; [reflexivity|split; [cbv; discriminate|reflexivity]]].
Example c27_ex_wf : requests_wf dd_a dd_reqs.
Proof. unfold dd_reqs. repeat (constructor; [cbn [snd]; repeat (constructor; [dd_wire|]); constructor|]). constructor. Qed.
Example c27_ex : updated dd_Z 1 dd_reqs dd_Z1 /\ has_ns dd_Z1 /\ has_soa dd_Z1 /\ (exists s, zone_serial dd_Z1 s /\ (s = 1 \/ rfc1982_gt s 1)) /\ zone_has dd_Z1 dd_x T_CNAME [7; 0] /\ map (fun p => (fst p, map rr_type (zn_rrs (snd p)))) (z_nodes dd_Z1) = [(dd_w, [1]); (dd_x, [T_CNAME])].
Proof.
  assert (U : updated dd_Z 1 dd_reqs dd_Z1) by (exists (fun _ => false); vm_compute; reflexivity). assert (R : requests_wf (z_apex dd_Z) dd_reqs) by (rewrite (proj2 dd_wf); apply c27_ex_wf). split; auto. split; [apply (c27_ns dd_Z 1 dd_reqs); auto; [apply dd_wf|apply dd_soa_only|apply dd_has_soa|apply c27_ex_ns]|]. split; [apply (c27_soa dd_Z 1 dd_reqs); auto; [apply dd_wf|apply dd_soa_only|apply dd_has_soa]|]. split; [apply (c27_serial dd_Z 1 dd_reqs); auto; [apply dd_wf|apply dd_soa_only|apply c27_ex_serial]|].
  split; [|vm_compute; reflexivity]. exists false, 60, [[7; 0]]. split; [|left; auto]. eexists. split; [left; reflexivity|]. split; auto. split; auto. apply ex_is; [canon|cbv; reflexivity|cbv; reflexivity].
Qed.
(** the hypotheses of the theorems about single records *)
Example c27_ex_single : one_tree dd_Z dd_w /\ update_wf (z_apex dd_Z) (dd_m dd_w CLASS_IN 28 60 [9]) [9] /\ (forall y, ~ zone_has dd_Z dd_w T_CNAME y) /\ no_dname_above dd_Z dd_w.
Proof.
  rewrite (proj2 dd_wf). split; [right; reflexivity|]. assert (IS : is (ex_s [[9]]) [[9]]) by (apply ex_is; [canon|cbv; reflexivity|cbv; reflexivity]). split; [split; auto; split; auto; intros _; split; [|discriminate]; split; auto; split; [cbv; split; discriminate|]; split; [discriminate|]; split; [reflexivity|discriminate]|].
  split; [intros y (k & H)|intros k p x _ _ H]; destruct (crec_in _ _ _ (proj1 dd_wf) H) as (e & b & HI & _); vm_compute in HI; repeat (destruct HI as [HI|HI]; [inversion HI|]); destruct HI.
Qed.
(** ** What does not hold *)
Definition dd_dn : list rrset := [dd_soa 1; rs dd_w T_DNAME 100 [[1; 0]]].
Definition dd_D : contents := Eval vm_compute in of_res (contents_new dd_a) (build dd_a dd_dn).
Lemma dd_dwf : cwf dd_D /\ z_apex dd_D = dd_a.
Proof. apply (build_wf dd_a dd_dn dd_D); [|vm_compute; reflexivity]. unfold dd_dn, dd_soa, SOA, T_DNAME. repeat (constructor; [gex false|]). constructor. Qed.
(** A DNAME may be added below a DNAME, where nothing else may. *)
Theorem c27_dname_refuted : exists z m x z', cwf z /\ update_wf (z_apex z) m x /\ m_class m = CLASS_IN /\ type_of m = T_DNAME /\ (exists p y, under (m_owner m) p = true /\ p <> m_owner m /\ zone_has z p T_DNAME y) /\
  (forall old, run1 z old 1 z m z') /\ zone_has z' (m_owner m) T_DNAME x.
Proof.
  exists dd_D, (dd_m ([5] :: dd_w) CLASS_IN T_DNAME 60 [2; 0]), [2; 0]. eexists. split; [apply dd_dwf|]. assert (IS : is (ex_s [[2; 0]]) [[2; 0]]) by (apply ex_is; [canon|cbv; reflexivity|cbv; reflexivity]). split; [rewrite (proj2 dd_dwf); split; [exact IS|]; split; auto; intros _; split; [|discriminate]; split; [exact IS|]; split; [cbv; split; discriminate|]; split; [discriminate|]; split; [reflexivity|discriminate]|]. split; auto. split; auto. split.
  - exists dd_w, [1; 0]. split; [reflexivity|]. split; [discriminate|]. exists false, 100, [[1; 0]]. split; [|left; auto]. eexists. split; [left; reflexivity|]. split; auto. split; auto. apply ex_is; [canon|cbv; reflexivity|cbv; reflexivity].
  - split; [intros old; vm_compute; reflexivity|]. exists false, 60, [[2; 0]]. split; [|left; auto]. eexists. split; [left; reflexivity|]. auto.
Qed.
(** Two NSEC3PARAM records in a message: neither is in the zone afterwards. *)
Theorem c27_nsec3param_refuted : exists z reqs z', zone_ok z /\ requests_wf (z_apex z) reqs /\ (forall old, process_bulk z old 1 CLASS_IN reqs (mkup z None) = Ok (mkup z' None)) /\
  (exists m1 m2, reqs = [([], [m1; m2])] /\ type_of m1 = T_NSEC3PARAM /\ type_of m2 = T_NSEC3PARAM /\ m_class m1 = CLASS_IN /\ m_class m2 = CLASS_IN) /\ type_exists (Some (false, z_apexn z')) T_NSEC3PARAM = false.
Proof.
  exists dd_Z, [([], [dd_m dd_a CLASS_IN T_NSEC3PARAM 60 [1]; dd_m dd_a CLASS_IN T_NSEC3PARAM 60 [2]])]. eexists. split; [apply c27_ex_ok|]. split; [rewrite (proj2 dd_wf); constructor; [cbn [snd]; repeat (constructor; [dd_wire|]); constructor|constructor]|]. split; [intros old; vm_compute; reflexivity|]. split; [|vm_compute; reflexivity]. eexists. eexists. split; [reflexivity|]. auto.
Qed.
(** Adding a record that is there with another TTL: the TTL stays. *)
Theorem c27_ttl_refuted : exists z m x, zone_ok z /\ update_wf (z_apex z) m x /\ m_class m = CLASS_IN /\ zone_has z (m_owner m) (type_of m) x /\ (forall old, run1 z old 1 z m z) /\ exists v, cttl z (false, m_owner m, type_of m) v /\ v <> ttl_of m.
Proof.
  exists dd_Z, (dd_m dd_w CLASS_IN 1 60 [1]), [1]. split; [apply c27_ex_ok|]. assert (IS : is (ex_s [[1]]) [[1]]) by (apply ex_is; [canon|cbv; reflexivity|cbv; reflexivity]). assert (IS2 : is (ex_s [[1]; [2]]) [[1]; [2]]) by (apply ex_is; [canon|cbv; reflexivity|cbv; reflexivity]). split; [rewrite (proj2 dd_wf); split; [exact IS|]; split; auto; intros _; split; [|discriminate]; split; [exact IS|]; split; [cbv; split; discriminate|]; split; [discriminate|]; split; [reflexivity|discriminate]|]. split; auto.
  assert (HH : has (rrs_at dd_Z false dd_w) 1 100 [[1]; [2]]) by (eexists; split; [left; reflexivity|auto]). split; [exists false, 100, [[1]; [2]]; split; auto; left; auto|]. split; [intros old; vm_compute; destruct (old _); reflexivity|]. exists 100. split; [exists [[1]; [2]]; exact HH|discriminate].
Qed.
Print Assumptions c27_soa.
Print Assumptions c27_ns.
Print Assumptions c27_cname.
Print Assumptions c27_single.
Print Assumptions c27_serial.
Print Assumptions c27_soa_apex.
Print Assumptions c27_total.
Print Assumptions c27_delete_rr.
Print Assumptions c27_delete_rrset.
Print Assumptions c27_delete_name.
Print Assumptions c27_add.
Print Assumptions c27_add_at_cname.
Print Assumptions c27_add_replaces.
Print Assumptions c27_add_cname.
Print Assumptions c27_add_soa.
Print Assumptions c27_dname_refuted.
Print Assumptions c27_nsec3param_refuted.
Print Assumptions c27_ttl_refuted.
