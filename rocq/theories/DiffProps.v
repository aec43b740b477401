(** C23: the difference of two zones. *)
From Verif Require Import Base DnameModel RdatasetModel RdatasetSpec RdatasetProofs RdatasetProps NodeModel NodeProps SerialModel ZoneModel ZoneProofs ZoneView ZoneFold ChangesetProofs MergeProofs ZoneExamples ChangesetProps DiffModel DiffProofs.

(** ** Specification *)
(** A record set is a cell: the tree, the owner and the type. [crec z c x]: the zone has the record [x] there,
    [cttl z c v]: with the TTL [v]. *)
(** The SOA is at the apex only. *)
Definition soa_apex_only (z : contents) : Prop := forall c x, crec z c x -> ct c = SOA -> c = soa_cell (z_apex z).
(** RRsets are not within 64 KiB of the largest possible size, 4 GiB. *)
Definition fits (z : contents) : Prop := forall k o, Forall rr_fits (rrs_at z k o).
Definition zone_ok (z : contents) : Prop := cwf z /\ soa_apex_only z /\ fits z.
(** Types that the caller does not want compared: RRSIG, NSEC, NSEC3; ZONEMD. *)
Definition left_out (di zi : bool) (t : Z) : Prop := (di = true /\ (t = 46 \/ t = 47 \/ t = 50)) \/ (zi = true /\ t = 63).
(** The RRset has different TTLs. *)
Definition ttls_differ (z1 z2 : contents) (c : cell) : Prop := ct c <> 46 /\ exists v1 v2, cttl z1 c v1 /\ cttl z2 c v2 /\ v1 <> v2.
(** The serial of a zone *)
Definition serial_is (z : contents) (s : Z) : Prop := exists e d, node_rrset (rrs_at z false (z_apex z)) SOA = Some e /\ rdataset_at (rr_rrs e) 0 = Ok d /\ soa_serial d = Ok s.
(** Zones that are equal up to the SOA and types left out *)
Definition same_data (di zi : bool) (z z' : contents) : Prop :=
  (forall c x, ct c <> SOA -> ~ left_out di zi (ct c) -> (crec z c x <-> crec z' c x)) /\ (forall c v, ct c <> SOA -> ct c <> 46 -> ~ left_out di zi (ct c) -> (cttl z c v <-> cttl z' c v)).

(** ** Proofs *)
Lemma at_tree : forall z k o, at_ (tree_of z k) o = rrs_at z k o.
Proof. intros z k o. unfold at_, tree_of, rrs_at, ZoneModel.zget. destruct k; auto. cbn [tget]. destruct (name_eqb (z_apex z) o) eqn:E; destruct (name_eqb o (z_apex z)) eqn:E'; auto; [apply neqb_spec in E; subst; rewrite neqb_refl in E'|apply neqb_spec in E'; subst; rewrite neqb_refl in E]; discriminate. Qed.
Lemma tree_okz : forall z k, zone_ok z -> tree_ok (tree_of z k).
Proof.
  intros z k (W & S & F). split; [|intros o; rewrite at_tree; split; [apply W|apply F]]. destruct W as ((K1 & K2 & K3 & K4) & _). destruct k; cbn [tree_of map fst]; auto. constructor; auto.
Qed.
Lemma skip_spec : forall di zi e, skip di zi e = false <-> rr_type e <> SOA /\ ~ left_out di zi (rr_type e).
Proof. intros di zi e. unfold skip, ignored, is_dnssec, left_out, RRSIG, NSEC, NSEC3, ZONEMD. destruct di, zi; cbn [andb orb]; lia. Qed.
Definition whole (di zi : bool) (z1 z2 : contents) : list ent := tlist di zi false (tree_of z1 false) (tree_of z2 false) ++ tlist di zi true (tree_of z1 true) (tree_of z2 true).
Lemma whole_in : forall di zi z1 z2 b c e, zone_ok z1 -> zone_ok z2 ->
  (In (b, (c, e)) (whole di zi z1 z2) <-> ct c = rr_type e /\ let (l, l') := if b then (rrs_at z2 (ck c) (co c), rrs_at z1 (ck c) (co c)) else (rrs_at z1 (ck c) (co c), rrs_at z2 (ck c) (co c)) in rec_of di zi l l' e).
Proof.
  intros di zi z1 z2 b c e H1 H2. unfold whole. rewrite in_app_iff. rewrite !tlist_in by (apply tree_okz; auto). rewrite !at_tree. destruct (ck c), b; split; try tauto; intros [(X & Y & Z)|(X & Y & Z)]; try discriminate; auto.
Qed.
(** an RRset that is recorded, in terms of the zones *)
Lemma rec_of_view : forall di zi z z' c e, zone_ok z -> zone_ok z' -> ct c = rr_type e -> rec_of di zi (rrs_at z (ck c) (co c)) (rrs_at z' (ck c) (co c)) e ->
  ct c <> SOA /\ ~ left_out di zi (ct c) /\ cttl z c (rr_ttl e) /\ entry_ok e /\ exists l, is (rr_rrs e) l /\ forall x, In x l <-> crec z c x /\ (ttls_differ z z' c \/ ~ crec z' c x).
Proof.
  intros di zi z z' c e (W & S & F) (W' & S' & F') HT (e1 & I1 & SK & TE & H). apply skip_spec in SK. rewrite <- TE, <- HT in SK. destruct SK as [NS NL]. split; auto. split; auto.
  assert (HI : In (c, e1) (cells z)) by (apply cells_in; [apply W|split; auto; congruence]). destruct (cells_good z c e1 W HI (cells_apex z c e1 W HI)) as (b1 & G1 & R1 & T1).
  rewrite <- TE, <- HT in H. pose proof (cwf_wf z' c W') as WN'. pose proof (c52_lookup _ (ct c) WN') as HL. destruct (node_rrset (rrs_at z' (ck c) (co c)) (ct c)) as [e2|] eqn:EN.
  - destruct (lookup_in _ _ _ WN' EN) as [I2 T2]. assert (HI2 : In (c, e2) (cells z')) by (apply cells_in; [apply W'|auto]). destruct (cells_good z' c e2 W' HI2 (cells_apex z' c e2 W' HI2)) as (b2 & G2 & R2 & TT2).
    assert (B1 : is (rr_rrs e1) b1) by apply G1. assert (B2 : is (rr_rrs e2) b2) by apply G2. pose proof (F (ck c) (co c)) as FF. rewrite Forall_forall in FF. destruct (changes_spec e1 e2 b1 b2 B1 B2 (FF _ I1)) as (r & l & E & HTy & HTt & IS & HX). unfold chg in H. rewrite E in H. destruct (rr_empty r) eqn:EM; [destruct H|]. destruct H as [<-|[]]. rewrite HTt. split; auto.
    assert (XX : forall x, In x l <-> crec z c x /\ (ttls_differ z z' c \/ ~ crec z' c x)).
    { intros x. rewrite HX, R1, R2. assert (D : ttl_diff e1 e2 <-> ttls_differ z z' c).
      { unfold ttl_diff, ttls_differ. change 46 with RRSIG. split; [intros [D1 D2]; split; [congruence|exists (rr_ttl e1), (rr_ttl e2); auto]|]. intros [D1 (v1 & v2 & V1 & V2 & D)]. rewrite (cttl_fun z c _ _ W V1 T1), (cttl_fun z' c _ _ W' V2 TT2) in D. split; auto. congruence. }
      rewrite D. tauto. }
    split; [|exists l; auto]. split; [rewrite <- HT; destruct G1 as ((? & _) & _); cbn [snd] in *; lia|]. exists l. split; auto. intros ->. unfold rr_empty in EM. rewrite (is_count _ _ IS) in EM. discriminate.
  - subst e1. split; auto. split; [apply G1|]. exists b1. split; [apply G1|]. intros x. rewrite R1. split; [|tauto]. intros Hx. split; auto. right. intros (v & rs & HH & _). destruct HL as [HL _]. eapply HL; eauto.
Qed.
Lemma rec_of_exists : forall di zi z z' c x, zone_ok z -> zone_ok z' -> ct c <> SOA -> ~ left_out di zi (ct c) -> crec z c x -> ttls_differ z z' c \/ ~ crec z' c x ->
  exists e, ct c = rr_type e /\ rec_of di zi (rrs_at z (ck c) (co c)) (rrs_at z' (ck c) (co c)) e.
Proof.
  intros di zi z z' c x (W & S & F) (W' & S' & F') NS NL HX HD. destruct (crec_cells z c x W HX) as [e1 HI]. destruct (cells_good z c e1 W HI (cells_apex z c e1 W HI)) as (b1 & G1 & R1 & T1). apply cells_in in HI; [|apply W]. destruct HI as [HT I1].
  assert (SK : skip di zi e1 = false) by (apply skip_spec; rewrite <- HT; auto). pose proof (cwf_wf z' c W') as WN'. destruct (node_rrset (rrs_at z' (ck c) (co c)) (rr_type e1)) as [e2|] eqn:EN; [|exists e1; split; auto; exists e1; rewrite EN; auto].
  destruct (lookup_in _ _ _ WN' EN) as [I2 T2]. assert (HI2 : In (c, e2) (cells z')) by (apply cells_in; [apply W'|split; congruence]). destruct (cells_good z' c e2 W' HI2 (cells_apex z' c e2 W' HI2)) as (b2 & G2 & R2 & TT2).
  assert (B1 : is (rr_rrs e1) b1) by apply G1. assert (B2 : is (rr_rrs e2) b2) by apply G2. pose proof (F (ck c) (co c)) as FF. rewrite Forall_forall in FF. destruct (changes_spec e1 e2 b1 b2 B1 B2 (FF _ I1)) as (r & l & E & HTy & HTt & IS & HXX). exists r. split; [congruence|]. exists e1. split; auto. split; auto. split; auto. rewrite EN. unfold chg. rewrite E. destruct (rr_empty r) eqn:EM; [|left; auto]. exfalso.
  assert (In x l). { apply HXX. split; [apply R1; auto|]. destruct HD as [[D1 (v1 & v2 & V1 & V2 & D)]|D]; [left|right; rewrite <- R2; auto]. split; [|change RRSIG with 46; congruence]. rewrite (cttl_fun z c _ _ W V1 T1), (cttl_fun z' c _ _ W' V2 TT2) in D. auto. }
  unfold rr_empty in EM. rewrite (is_count _ _ IS) in EM. destruct l; [auto|]. rewrite zlen_cons in EM. pose proof (zlen_nonneg l0). lia.
Qed.
Lemma differ_sym : forall z z' c, ttls_differ z z' c <-> ttls_differ z' z c.
Proof. intros. unfold ttls_differ. split; intros [H (v1 & v2 & H1 & H2 & H3)]; split; auto; exists v2, v1; auto. Qed.
(** The recorded differences *)
Record tells (di zi : bool) (z1 z2 : contents) (ch : changeset) : Prop := {
  te_rem : forall c x, crec (ch_rem ch) c x <-> ct c <> SOA /\ ~ left_out di zi (ct c) /\ crec z1 c x /\ (ttls_differ z1 z2 c \/ ~ crec z2 c x);
  te_add : forall c x, crec (ch_add ch) c x <-> ct c <> SOA /\ ~ left_out di zi (ct c) /\ crec z2 c x /\ (ttls_differ z1 z2 c \/ ~ crec z1 c x);
  te_rttl : forall c v, cttl (ch_rem ch) c v -> cttl z1 c v;
  te_attl : forall c v, cttl (ch_add ch) c v -> cttl z2 c v }.
Lemma rec_fun : forall di zi l l' e e', node_wf l -> rr_type e = rr_type e' -> rec_of di zi l l' e -> rec_of di zi l l' e' -> e = e'.
Proof.
  intros di zi l l' e e' W HT (e1 & I1 & S1 & T1 & H1) (e2 & I2 & S2 & T2 & H2). assert (e1 = e2) as <-. { pose proof (in_lookup l e1 W I1). pose proof (in_lookup l e2 W I2). assert (X : rr_type e1 = rr_type e2) by congruence. rewrite X in H. congruence. }
  destruct (node_rrset l' (rr_type e1)) as [e2|]; [|congruence]. unfold chg in *. destruct (rdata_return_changes e1 e2) as [r0| | |]; [|destruct H1|destruct H1|destruct H1]. destruct (rr_empty r0); [destruct H1|]. destruct H1 as [<-|[]], H2 as [<-|[]]. auto.
Qed.
Lemma list_tells : forall di zi z1 z2 ch, zone_ok z1 -> zone_ok z2 -> holds_list (z_apex z1) (whole di zi z1 z2) ch -> tells di zi z1 z2 ch.
Proof.
  intros di zi z1 z2 ch O1 O2 [W A R T]. split.
  - intros c x. change (ch_rem ch) with (side false ch). rewrite R. unfold ein. split.
    + intros (e & l & HI & IS & HX). apply whole_in in HI; auto. cbv zeta in HI. destruct HI as [HT HR]. destruct (rec_of_view di zi z1 z2 c e O1 O2 HT HR) as (NS & NL & _ & _ & l' & IS' & HL). rewrite (is_fun _ _ _ IS IS') in HX. apply HL in HX. tauto.
    + intros (NS & NL & HX & HD). destruct (rec_of_exists di zi z1 z2 c x O1 O2 NS NL HX HD) as (e & HT & HR). destruct (rec_of_view di zi z1 z2 c e O1 O2 HT HR) as (_ & _ & _ & _ & l & IS & HL). exists e, l. split; [apply whole_in; auto|]. split; auto. apply HL. auto.
  - intros c x. change (ch_add ch) with (side true ch). rewrite R. unfold ein. split.
    + intros (e & l & HI & IS & HX). apply whole_in in HI; auto. cbv zeta in HI. destruct HI as [HT HR]. destruct (rec_of_view di zi z2 z1 c e O2 O1 HT HR) as (NS & NL & _ & _ & l' & IS' & HL). rewrite (is_fun _ _ _ IS IS') in HX. apply HL in HX. rewrite (differ_sym z1 z2). tauto.
    + intros (NS & NL & HX & HD). rewrite differ_sym in HD. destruct (rec_of_exists di zi z2 z1 c x O2 O1 NS NL HX HD) as (e & HT & HR). destruct (rec_of_view di zi z2 z1 c e O2 O1 HT HR) as (_ & _ & _ & _ & l & IS & HL). exists e, l. split; [apply whole_in; auto|]. split; auto. apply HL. auto.
  - intros c v H. change (ch_rem ch) with (side false ch) in H. apply T in H. destruct H as (e & HI & ->). apply whole_in in HI; auto. destruct HI as [HT HR]. apply (rec_of_view di zi z1 z2 c e O1 O2 HT HR).
  - intros c v H. change (ch_add ch) with (side true ch) in H. apply T in H. destruct H as (e & HI & ->). apply whole_in in HI; auto. destruct HI as [HT HR]. apply (rec_of_view di zi z2 z1 c e O2 O1 HT HR).
Qed.
Lemma whole_good : forall di zi z1 z2, zone_ok z1 -> zone_ok z2 -> z_apex z2 = z_apex z1 -> egood (z_apex z1) (whole di zi z1 z2) /\ efun (whole di zi z1 z2).
Proof.
  intros di zi z1 z2 O1 O2 AP. split.
  - assert (G : forall z z' c e, zone_ok z -> zone_ok z' -> ct c = rr_type e -> rec_of di zi (rrs_at z (ck c) (co c)) (rrs_at z' (ck c) (co c)) e -> (exists l, good (z_apex z) (co c, e) c l) /\ under (co c) (z_apex z) = true /\ ct c <> SOA).
    { intros z z' c e O O' HT HR. destruct (rec_of_view di zi z z' c e O O' HT HR) as (NS & _ & _ & HE & l & IS & HL). destruct HR as (e1 & I1 & _ & TE & _). destruct O as (W & _). assert (HI : In (c, e1) (cells z)) by (apply cells_in; [apply W|split; auto; congruence]). split; [|split; [eapply cells_under; eauto|auto]]. exists l. split; auto. split; auto. split; auto. split; auto. split; [|cbn [fst]; eapply cells_apex; eauto]. intros x Hx. apply HL in Hx. apply W. tauto. }
    intros b c e HI. apply whole_in in HI; auto. destruct HI as [HT HR]. destruct b; [rewrite <- AP; eapply G; [exact O2|exact O1|auto|exact HR]|eapply G; [exact O1|exact O2|auto|exact HR]].
  - intros b c e e' H H'. apply whole_in in H, H'; auto. destruct H as [HT HR], H' as [HT' HR']. assert (rr_type e = rr_type e') by congruence. destruct O1 as (W1 & _), O2 as (W2 & _). destruct b; eapply rec_fun; eauto; [apply W2|apply W1].
Qed.
Lemma soa_in : forall z e, cwf z -> node_rrset (rrs_at z false (z_apex z)) SOA = Some e -> entry_ok e /\ rr_type e = SOA /\ exists b, is (rr_rrs e) b /\ (forall x, crec z (soa_cell (z_apex z)) x <-> In x b) /\ (forall v, cttl z (soa_cell (z_apex z)) v <-> v = rr_ttl e).
Proof.
  intros z e W EN. pose proof (cwf_wf z (soa_cell (z_apex z)) W) as WN. change (rrs_at z (ck (soa_cell (z_apex z))) (co (soa_cell (z_apex z)))) with (rrs_at z false (z_apex z)) in WN. destruct (lookup_in _ _ _ WN EN) as [IN TE]. split; [eapply entry_in; eauto|]. split; auto.
  assert (HI : In (soa_cell (z_apex z), e) (cells z)) by (apply cells_in; [apply W|split; [cbn [ct soa_cell snd]; auto|exact IN]]). destruct (cells_good z _ e W HI (cells_apex z _ e W HI)) as (b & G & R & T). exists b. split; [apply G|]. split; auto. intros v. split; [intros H; apply (cttl_fun z _ _ _ W H T)|intros ->; auto].
Qed.
Definition soa_none (z : contents) : Prop := node_rrset (rrs_at z false (z_apex z)) SOA = None.
Lemma init_holds : forall a, holds_list a [] (changeset_init a).
Proof.
  intros a. assert (E : forall b, side b (changeset_init a) = contents_new a) by (intros []; reflexivity). split; intros b; rewrite E; [apply new_wf|reflexivity| |].
  - intros c x. split; [intros H|intros (e & l & [] & _)]. exfalso. assert (R : rrs_at (contents_new a) (ck c) (co c) = []). { unfold rrs_at, ZoneModel.zget, contents_new. cbn [z_apex z_apexn z_nodes z_nsec3]. destruct (ck c); auto. destruct (name_eqb _ _); auto. } unfold crec in H. rewrite R in H. eapply recs_nil; eauto.
  - intros c v. split; [intros H|intros (e & [] & _)]. exfalso. assert (R : rrs_at (contents_new a) (ck c) (co c) = []). { unfold rrs_at, ZoneModel.zget, contents_new. cbn [z_apex z_apexn z_nodes z_nsec3]. destruct (ck c); auto. destruct (name_eqb _ _); auto. } unfold cttl in H. rewrite R in H. eapply nttl_nil; eauto.
Qed.
Lemma first_rr : forall e, entry_ok e -> exists d, rdataset_at (rr_rrs e) 0 = Ok d.
Proof. intros e [_ (b & IS & NB)]. rewrite (c07_at _ _ 0 IS) by lia. destruct b; [contradiction|]. cbn. eauto. Qed.
Lemma no_soa : forall z1 z2 k, zone_ok z1 -> zone_ok z2 -> z_apex z2 = z_apex z1 -> rrs_at z1 false (z_apex z1) <> [] ->
  forall o, tget (tree_of z2 k) o = None \/ at_ (tree_of z1 k) o = [] -> Forall (fun e => rr_type e <> SOA) (at_ (tree_of z1 k) o) /\ Forall (fun e => rr_type e <> SOA) (at_ (tree_of z2 k) o).
Proof.
  intros z1 z2 k O1 O2 AP NE o H. assert (NA : (k, o) <> (false, z_apex z1)). { intros [= -> ->]. destruct H as [H|H]; [|rewrite at_tree in H; contradiction]. cbn [tree_of tget] in H. rewrite <- AP, neqb_refl in H. discriminate. }
  assert (G : forall z, zone_ok z -> z_apex z = z_apex z1 -> Forall (fun e => rr_type e <> SOA) (at_ (tree_of z k) o)).
  { intros z (W & S & _) A. rewrite at_tree. apply Forall_forall. intros e HI HT. assert (HC : In ((k, o, SOA), e) (cells z)) by (apply cells_in; [apply W|auto]). destruct (cells_good z _ e W HC (cells_apex z _ e W HC)) as (b & G & R & _). pose proof (good_b _ _ _ _ G) as NB. destruct b as [|x b]; [contradiction|]. assert (X : crec z (k, o, SOA) x) by (apply R; left; auto). specialize (S _ _ X eq_refl). apply NA. unfold soa_cell in S. rewrite A in S. congruence. }
  split; apply G; auto.
Qed.
(** What the function does *)
Lemma diff_view : forall di zi z1 z2, zone_ok z1 -> zone_ok z2 -> z_apex z2 = z_apex z1 -> forall s1 s2 e1 e2 d1 d2,
  node_rrset (rrs_at z1 false (z_apex z1)) SOA = Some e1 -> node_rrset (rrs_at z2 false (z_apex z2)) SOA = Some e2 -> rdataset_at (rr_rrs e1) 0 = Ok d1 -> rdataset_at (rr_rrs e2) 0 = Ok d2 -> soa_serial d1 = Ok s1 -> soa_serial d2 = Ok s2 ->
  let r := contents_diff di zi z1 z2 (changeset_init (z_apex z1)) in
  match serial_compare s1 s2 with
  | SERIAL_EQUAL => (exists ch, tells di zi z1 z2 ch /\ chwf (z_apex z1) ch /\ soa_from ch = None /\ soa_to ch = None /\ (whole di zi z1 z2 = [] -> ch = changeset_init (z_apex z1)) /\ ((changeset_empty ch = Ok true /\ r = Ok (KNOT_ENODIFF, ch)) \/ (changeset_empty ch = Ok false /\ r = Err KNOT_ESEMCHECK))) \/ exists e, r = Err e /\ limit e
  | SERIAL_LOWER => (exists ch, tells di zi z1 z2 ch /\ chwf (z_apex z1) ch /\ soa_from ch = Some (z_apex z1, e1) /\ soa_to ch = Some (z_apex z2, e2) /\ r = Ok (KNOT_EOK, ch)) \/ exists e, r = Err e /\ limit e
  | _ => r = Err KNOT_ERANGE
  end.
Proof.
  intros di zi z1 z2 O1 O2 AP s1 s2 e1 e2 d1 d2 EN1 EN2 D1 D2 S1 S2. cbv zeta. unfold contents_diff, load_soas. rewrite !apexn_rrs, EN1, EN2. destruct (soa_in z1 e1 (proj1 O1) EN1) as (HE1 & HT1 & _). destruct (soa_in z2 e2 (proj1 O2) EN2) as (HE2 & HT2 & _). rewrite (not_empty _ HE1), (not_empty _ HE2). cbn [orb]. rewrite D1, D2. cbn [rbind]. rewrite S1, S2. cbn [rbind].
  assert (NE : rrs_at z1 false (z_apex z1) <> []) by (intros X; rewrite X in EN1; discriminate).
  assert (GEN : forall ch0, holds_list (z_apex z1) [] ch0 -> (exists ch, (let* ch := load_trees di zi (tree_of z1 false) (tree_of z2 false) ch0 in load_trees di zi (tree_of z1 true) (tree_of z2 true) ch) = Ok ch /\ soa_from ch = soa_from ch0 /\ soa_to ch = soa_to ch0 /\ tells di zi z1 z2 ch /\ (forall b, cwf (side b ch) /\ z_apex (side b ch) = z_apex z1) /\ (forall b c x, crec (side b ch) c x -> ct c <> SOA) /\ (whole di zi z1 z2 = [] -> ch = ch0)) \/ exists e, (let* ch := load_trees di zi (tree_of z1 false) (tree_of z2 false) ch0 in load_trees di zi (tree_of z1 true) (tree_of z2 true) ch) = Err e /\ limit e).
  { intros ch0 H0. rewrite (trees_list di zi false) by (try apply tree_okz; auto; apply no_soa; auto). assert (EQ : (let* ch := fold_res emit1 (tlist di zi false (tree_of z1 false) (tree_of z2 false)) ch0 in load_trees di zi (tree_of z1 true) (tree_of z2 true) ch) = fold_res emit1 (whole di zi z1 z2) ch0).
    { unfold whole. rewrite fold_app. destruct (fold_res emit1 _ ch0); cbn [rbind]; auto. apply trees_list; try apply tree_okz; auto. apply no_soa; auto. }
    rewrite EQ. destruct (whole_good di zi z1 z2 O1 O2 AP) as [HG HF]. destruct (emit_fold (whole di zi z1 z2) [] (z_apex z1) ch0 HG HF H0) as [(ch & E & F1 & F2 & HH)|H]; [|right; auto]. left. exists ch. split; auto. split; auto. split; auto. cbn [app] in HH. pose proof (list_tells di zi z1 z2 ch O1 O2 HH) as TE. split; auto. split; [intros b; split; apply HH|]. split; [intros [] c x Hx; [apply TE in Hx|apply TE in Hx]; tauto|]. intros WE. rewrite WE in E. cbn [fold_res] in E. congruence. }
  destruct (serial_compare s1 s2) eqn:EC; auto.
  - cbn [rbind]. destruct (GEN (mkch (ch_add (changeset_init (z_apex z1))) (ch_rem (changeset_init (z_apex z1))) (Some (z_apex z1, e1)) (Some (z_apex z2, e2)))) as [(ch & E & F1 & F2 & TE & CW & NS & WH)|(e & E & He)].
    { destruct (init_holds (z_apex z1)) as [I1 I2 I3 I4]. split; auto. }
    + left. exists ch. cbn [soa_from soa_to] in F1, F2. split; auto. split.
      { split; [apply (CW true)|]. split; [apply (CW false)|]. split; [apply (CW true)|]. split; [apply (CW false)|]. split; [intros c x [H|H]; [apply (NS true c x H)|apply (NS false c x H)]|]. split; [intros x Hx; rewrite F1 in Hx; injection Hx as <-; auto|intros x Hx; rewrite F2 in Hx; injection Hx as <-; auto]. }
      split; auto. split; auto. destruct (load_trees di zi (tree_of z1 false) (tree_of z2 false) _) as [c1| | |]; cbn [rbind] in *; try discriminate. rewrite E. reflexivity.
    + right. exists e. split; auto. destruct (load_trees di zi (tree_of z1 false) (tree_of z2 false) _) as [c1| | |]; cbn [rbind] in *; try discriminate; [|congruence]. rewrite E. reflexivity.
  - cbn [rbind]. destruct (GEN (changeset_init (z_apex z1)) (init_holds _)) as [(ch & E & F1 & F2 & TE & CW & NS & WH)|(e & E & He)].
    + left. exists ch. cbn [soa_from soa_to changeset_init] in F1, F2. split; auto. split.
      { split; [apply (CW true)|]. split; [apply (CW false)|]. split; [apply (CW true)|]. split; [apply (CW false)|]. split; [intros c x [H|H]; [apply (NS true c x H)|apply (NS false c x H)]|]. split; [intros x Hx; rewrite F1 in Hx; discriminate|intros x Hx; rewrite F2 in Hx; discriminate]. }
      split; auto. split; auto. split; auto. destruct (load_trees di zi (tree_of z1 false) (tree_of z2 false) _) as [c1| | |]; cbn [rbind] in *; try discriminate. rewrite E. cbn [rbind]. change (KNOT_ENODIFF =? KNOT_ENODIFF) with true. cbv iota. assert (CE : changeset_empty ch = Ok true \/ changeset_empty ch = Ok false). { unfold changeset_empty. rewrite F2. destruct (contents_is_empty (ch_rem ch) && contents_is_empty (ch_add ch)); auto. }
      destruct CE as [->| ->]; cbn [rbind]; auto.
    + right. exists e. split; auto. destruct (load_trees di zi (tree_of z1 false) (tree_of z2 false) _) as [c1| | |]; cbn [rbind] in *; try discriminate; [|congruence]. rewrite E. reflexivity.
Qed.

(** ** Theorems *)
Lemma serial_at : forall z s, serial_is z s -> exists e d, node_rrset (rrs_at z false (z_apex z)) SOA = Some e /\ rdataset_at (rr_rrs e) 0 = Ok d /\ soa_serial d = Ok s.
Proof. auto. Qed.
Lemma left_dec : forall di zi t, left_out di zi t \/ ~ left_out di zi t.
Proof. intros. unfold left_out. destruct di, zi; lia. Qed.
Lemma differ_dec : forall z z' c, cwf z -> cwf z' -> ttls_differ z z' c \/ ~ ttls_differ z z' c.
Proof.
  intros z z' c W W'. unfold ttls_differ. destruct (Z.eq_dec (ct c) 46) as [E|E]; [right; tauto|]. destruct (cne_dec z c W) as [H|H]; [|right; intros [_ (v1 & v2 & V1 & _)]; destruct (proj2 (crec_cttl z c W) (ex_intro _ v1 V1)) as [x Hx]; eapply H; eauto]. destruct (cne_dec z' c W') as [H'|H']; [|right; intros [_ (v1 & v2 & _ & V2 & _)]; destruct (proj2 (crec_cttl z' c W') (ex_intro _ v2 V2)) as [x Hx]; eapply H'; eauto].
  destruct (proj1 (crec_cttl z c W) H) as [v V]. destruct (proj1 (crec_cttl z' c W') H') as [w Ww]. destruct (Z.eq_dec v w) as [->|N]; [right|left; split; auto; exists v, w; auto]. intros [_ (v1 & v2 & V1 & V2 & D)]. rewrite (cttl_fun z c _ _ W V1 V), (cttl_fun z' c _ _ W' V2 Ww) in D. auto.
Qed.
Lemma apply_tells : forall di zi z1 z2 ch, zone_ok z1 -> zone_ok z2 -> z_apex z2 = z_apex z1 -> tells di zi z1 z2 ch -> chwf (z_apex z1) ch -> soa_change z1 ch ->
  (exists z', applies z1 ch z' /\ same_data di zi z' z2 /\ (forall c, left_out di zi (ct c) -> ct c <> SOA -> (forall x, crec z' c x <-> crec z1 c x) /\ forall v, ct c <> 46 -> (cttl z' c v <-> cttl z1 c v)) /\ applied z1 ch z') \/ exists e, apply_changeset true (mkup z1 None) ch = Err e /\ limit e.
Proof.
  intros di zi z1 z2 ch (W1 & S1 & F1) (W2 & S2 & F2) AP [TR TA TRT TAT] CW SC. destruct (apply_can z1 ch W1 CW) as [[u E]|H]; [intros c x H; apply TR in H; tauto| |auto| |right; auto].
  { intros c x H HZ. apply TA in H. apply TR. destruct H as (H1 & H2 & H3 & [H4|H4]); auto. contradiction. }
  left. destruct (apply_ok z1 ch u W1 CW E) as (z' & -> & A). exists z'. split; auto. pose proof A as [W' A' PR PA PS REC TTL SR STT]. pose proof CW as (WA & WR & _).
  assert (NT : forall c, ct c <> SOA -> ~ touches z1 ch c) by (intros c H [_ ->]; apply H; reflexivity).
  assert (RECS : forall c x, ct c <> SOA -> ~ left_out di zi (ct c) -> (crec z' c x <-> crec z2 c x)).
  { intros c x NS NL. rewrite REC by auto. rewrite TR, TA. destruct (crec_dec z1 c x W1), (crec_dec z2 c x W2), (differ_dec z1 z2 c W1 W2); tauto. }
  assert (HALF : forall c v, ct c <> SOA -> ct c <> 46 -> ~ left_out di zi (ct c) -> cttl z' c v -> cttl z2 c v).
  { intros c v NS NR NL Hv. apply TTL in Hv; auto. destruct Hv as [(HE & Hv & x & Hx & Hy)|(w & Hw & [(H & _)|(-> & _)])]; [|contradiction|apply TAT; auto].
    assert (X : crec z2 c x /\ ~ ttls_differ z1 z2 c). { rewrite TR in Hy. destruct (crec_dec z2 c x W2), (differ_dec z1 z2 c W1 W2); tauto. } destruct X as [X Y]. destruct (proj1 (crec_cttl z2 c W2) (ex_intro _ x X)) as [w Hw]. destruct (Z.eq_dec v w) as [->|N]; auto. exfalso. apply Y. split; auto. exists v, w. auto. }
  split; [split; auto|split; auto].
  - intros c v NS NR NL. split; [apply HALF; auto|]. intros Hv. destruct (proj2 (crec_cttl z2 c W2) (ex_intro _ v Hv)) as [x Hx]. apply RECS in Hx; auto. destruct (proj1 (crec_cttl z' c W') (ex_intro _ x Hx)) as [w Hw]. rewrite (cttl_fun z2 c v w W2 Hv (HALF c w NS NR NL Hw)). auto.
  - intros c HL NS. assert (NA : forall x, ~ crec (ch_add ch) c x /\ ~ crec (ch_rem ch) c x) by (intros x; rewrite TR, TA; tauto). split.
    + intros x. rewrite REC by auto. specialize (NA x). tauto.
    + intros v NR. rewrite TTL by auto. split; [intros [(_ & H & _)|(w & Hw & _)]; auto; destruct (proj2 (crec_cttl _ c WA) (ex_intro _ w Hw)) as [x Hx]; exfalso; eapply (proj1 (NA x)); eauto|].
      intros Hv. left. split; [intros x; apply NA|]. split; auto. destruct (proj2 (crec_cttl z1 c W1) (ex_intro _ v Hv)) as [x Hx]. exists x. split; auto. apply NA.
Qed.

(** C23. The difference of two zones of which the second is newer takes the first one to the second one: it has the
    same records and the same TTLs (signatures aside). The only other outcome is that an RRset does not fit the size
    limits. *)
Theorem c23_exact : forall z1 z2 s1 s2, zone_ok z1 -> zone_ok z2 -> z_apex z2 = z_apex z1 -> serial_is z1 s1 -> serial_is z2 s2 -> serial_compare s1 s2 = SERIAL_LOWER ->
  (exists ch, contents_diff false false z1 z2 (changeset_init (z_apex z1)) = Ok (KNOT_EOK, ch) /\ ((exists z', applies z1 ch z' /\ same_zone z' z2) \/ exists e, apply_changeset true (mkup z1 None) ch = Err e /\ limit e)) \/
  (exists e, contents_diff false false z1 z2 (changeset_init (z_apex z1)) = Err e /\ limit e).
Proof.
  intros z1 z2 s1 s2 O1 O2 AP (e1 & d1 & EN1 & D1 & S1) (e2 & d2 & EN2 & D2 & S2) SL. pose proof (diff_view false false z1 z2 O1 O2 AP s1 s2 e1 e2 d1 d2 EN1 EN2 D1 D2 S1 S2) as H. cbv zeta in H. rewrite SL in H. destruct H as [(ch & TE & CW & F1 & F2 & E)|H]; [|right; auto]. left. exists ch. split; auto.
  destruct (soa_in z1 e1 (proj1 O1) EN1) as (HE1 & HT1 & b1 & B1 & RS1 & TS1). destruct (soa_in z2 e2 (proj1 O2) EN2) as (HE2 & HT2 & b2 & B2 & RS2 & TS2).
  destruct (apply_tells false false z1 z2 ch O1 O2 AP TE CW) as [(z' & E' & [SD1 SD2] & _ & A)|H]; [|left|right; auto].
  { unfold soa_change. rewrite F2. cbn [fst]. split; auto. destruct HE1 as [_ (b & IS & NB)]. rewrite (is_fun _ _ _ IS B1) in NB. destruct b1 as [|x b1]; [contradiction|]. exists x. apply RS1. left. auto. }
  exists z'. split; auto. assert (NL : forall t, ~ left_out false false t) by (intros t [[X _]|[X _]]; discriminate). destruct A as [W' A' PR PA PS REC TTL SR STT]. assert (TO : touches z1 ch (soa_cell (z_apex z1))) by (split; [rewrite F2; discriminate|auto]).
  assert (OTH : forall z, zone_ok z -> z_apex z = z_apex z1 -> forall c x, crec z c x -> ct c = SOA -> c = soa_cell (z_apex z1)) by (intros z (W & S & _) HA c x H HT; rewrite <- HA; eapply S; eauto).
  assert (NRC : forall c, ct c = SOA -> c <> soa_cell (z_apex z1) -> forall x, ~ crec z' c x /\ ~ crec z2 c x).
  { intros c HT NC x. split; [|intros H; apply NC; eapply (OTH z2); eauto]. rewrite REC by (intros [_ X]; auto). intros [[H _]|H]; [apply NC; eapply (OTH z1); eauto|]. destruct CW as (_ & _ & _ & _ & NSO & _). apply (NSO c x); auto. }
  split.
  - intros c x. destruct (Z.eq_dec (ct c) SOA) as [HT|NS]; [|apply SD1; auto]. destruct (cell_dec c (soa_cell (z_apex z1))) as [->|NC].
    + rewrite SR by auto. rewrite <- AP, RS2. unfold in_soa. rewrite F2. split; [intros (s & b & [= <-] & IS & HX); cbn [snd] in IS; rewrite <- (is_fun _ _ _ IS B2); auto|intros HX; exists (z_apex z2, e2), b2; auto].
    + pose proof (NRC c HT NC x). tauto.
  - intros c v NR. destruct (Z.eq_dec (ct c) SOA) as [HT|NS]; [|apply SD2; auto]. destruct (cell_dec c (soa_cell (z_apex z1))) as [->|NC].
    + rewrite STT by auto. rewrite <- AP, TS2. rewrite F2. split; [intros (s & [= <-] & ->); auto|intros ->; eauto].
    + split; intros H; exfalso; [destruct (proj2 (crec_cttl z' c W') (ex_intro _ v H)) as [x Hx]|destruct (proj2 (crec_cttl z2 c (proj1 O2)) (ex_intro _ v H)) as [x Hx]]; destruct (NRC c HT NC x); auto.
Qed.
(** With types left out, they stay as they are and all others become the same. *)
Theorem c23_left_out : forall di zi z1 z2 ch, zone_ok z1 -> zone_ok z2 -> z_apex z2 = z_apex z1 -> forall s1 s2, serial_is z1 s1 -> serial_is z2 s2 -> contents_diff di zi z1 z2 (changeset_init (z_apex z1)) = Ok (KNOT_EOK, ch) ->
  (exists z', applies z1 ch z' /\ same_data di zi z' z2 /\ forall c, left_out di zi (ct c) -> ct c <> SOA -> (forall x, crec z' c x <-> crec z1 c x) /\ forall v, ct c <> 46 -> (cttl z' c v <-> cttl z1 c v)) \/
  exists e, apply_changeset true (mkup z1 None) ch = Err e /\ limit e.
Proof.
  intros di zi z1 z2 ch O1 O2 AP s1 s2 (e1 & d1 & EN1 & D1 & S1) (e2 & d2 & EN2 & D2 & S2) E. pose proof (diff_view di zi z1 z2 O1 O2 AP s1 s2 e1 e2 d1 d2 EN1 EN2 D1 D2 S1 S2) as H. cbv zeta in H. rewrite E in H.
  destruct (serial_compare s1 s2); [discriminate| |discriminate|destruct H as [(ch' & _ & _ & _ & _ & _ & [[_ H]|[_ H]])|(e & H & _)]; discriminate]. destruct H as [(ch' & TE & CW & F1 & F2 & [= <-])|(e & H & _)]; [|discriminate].
  destruct (apply_tells di zi z1 z2 ch O1 O2 AP TE CW) as [(z' & E' & SD & LO & _)|H]; [|left; eauto|right; auto].
  destruct (soa_in z1 e1 (proj1 O1) EN1) as (HE1 & HT1 & b1 & B1 & RS1 & TS1). unfold soa_change. rewrite F2. cbn [fst]. split; auto. destruct HE1 as [_ (b & IS & NB)]. rewrite (is_fun _ _ _ IS B1) in NB. destruct b1 as [|x b1]; [contradiction|]. exists x. apply RS1. left. auto.
Qed.
(** A record is in both parts only if the TTL of its RRset changes: then it is removed with one TTL and added with the other. *)
Theorem c23_disjoint : forall di zi z1 z2 ret ch, zone_ok z1 -> zone_ok z2 -> z_apex z2 = z_apex z1 -> forall s1 s2, serial_is z1 s1 -> serial_is z2 s2 -> contents_diff di zi z1 z2 (changeset_init (z_apex z1)) = Ok (ret, ch) ->
  forall c x, crec (ch_rem ch) c x -> crec (ch_add ch) c x -> crec z1 c x /\ crec z2 c x /\ forall v w, cttl (ch_rem ch) c v -> cttl (ch_add ch) c w -> v <> w.
Proof.
  intros di zi z1 z2 ret ch O1 O2 AP s1 s2 (e1 & d1 & EN1 & D1 & S1) (e2 & d2 & EN2 & D2 & S2) E. pose proof (diff_view di zi z1 z2 O1 O2 AP s1 s2 e1 e2 d1 d2 EN1 EN2 D1 D2 S1 S2) as H. cbv zeta in H. rewrite E in H.
  assert (TE : tells di zi z1 z2 ch). { destruct (serial_compare s1 s2); try discriminate; [destruct H as [(ch' & TE & _ & _ & _ & [= -> ->])|(e & H & _)]; [auto|discriminate]|destruct H as [(ch' & TE & _ & _ & _ & _ & [[_ [= -> ->]]|[_ H]])|(e & H & _)]; [auto|discriminate|discriminate]]. }
  destruct TE as [TR TA TRT TAT]. intros c x H1 H2. apply TR in H1. apply TA in H2. split; [tauto|]. split; [tauto|]. intros v w Hv Hw. apply TRT in Hv. apply TAT in Hw. assert (D : ttls_differ z1 z2 c) by tauto. destruct D as [_ (v1 & v2 & V1 & V2 & D)]. destruct O1 as (W1 & _), O2 as (W2 & _). rewrite (cttl_fun z1 c v v1 W1 Hv V1), (cttl_fun z2 c w v2 W2 Hw V2). exact D.
Qed.
(** Every outcome. With equal serials, no difference is reported if all records but the SOA are the same, and an error
    otherwise; a zone that is not newer is an error. *)
Theorem c23_outcome : forall di zi z1 z2, zone_ok z1 -> zone_ok z2 -> z_apex z2 = z_apex z1 -> forall s1 s2, serial_is z1 s1 -> serial_is z2 s2 ->
  let r := contents_diff di zi z1 z2 (changeset_init (z_apex z1)) in
  match serial_compare s1 s2 with
  | SERIAL_LOWER => (exists ch, r = Ok (KNOT_EOK, ch)) \/ exists e, r = Err e /\ limit e
  | SERIAL_EQUAL => (same_data di zi z1 z2 /\ exists ch, r = Ok (KNOT_ENODIFF, ch) /\ changeset_empty ch = Ok true) \/ (~ same_data di zi z1 z2 /\ r = Err KNOT_ESEMCHECK) \/ exists e, r = Err e /\ limit e
  | _ => r = Err KNOT_ERANGE
  end.
Proof.
  intros di zi z1 z2 O1 O2 AP s1 s2 (e1 & d1 & EN1 & D1 & S1) (e2 & d2 & EN2 & D2 & S2). pose proof (diff_view di zi z1 z2 O1 O2 AP s1 s2 e1 e2 d1 d2 EN1 EN2 D1 D2 S1 S2) as H. cbv zeta in *.
  destruct (serial_compare s1 s2); auto; [destruct H as [(ch & _ & _ & _ & _ & E)|H]; eauto|]. destruct H as [(ch & TE & CW & F1 & F2 & WH & H)|H]; [|auto]. pose proof TE as [TR TA TRT TAT]. pose proof (proj1 O1) as W1. pose proof (proj1 O2) as W2. destruct CW as (WA & WR & AA & AR & _).
  assert (NR : same_data di zi z1 z2 <-> forall c x, ~ crec (ch_rem ch) c x /\ ~ crec (ch_add ch) c x).
  { split.
    - intros [SD1 SD2] c x. assert (NX : ct c <> SOA -> ~ left_out di zi (ct c) -> ~ ttls_differ z1 z2 c). { intros NS NL [NQ (v1 & v2 & V1 & V2 & D)]. apply SD2 in V1; auto. apply D. apply (cttl_fun z2 c v1 v2 W2 V1 V2). } rewrite TR, TA. pose proof (SD1 c x). tauto.
    - intros HN. assert (SD : forall c x, ct c <> SOA -> ~ left_out di zi (ct c) -> (crec z1 c x <-> crec z2 c x)). { intros c x NS NL. specialize (HN c x). rewrite TR, TA in HN. destruct (crec_dec z1 c x W1), (crec_dec z2 c x W2); tauto. }
      assert (ND : forall c, ct c <> SOA -> ~ left_out di zi (ct c) -> ~ ttls_differ z1 z2 c). { intros c NS NL D. pose proof D as [_ (v1 & v2 & V1 & V2 & _)]. destruct (proj2 (crec_cttl z1 c W1) (ex_intro _ v1 V1)) as [x Hx]. apply (proj1 (HN c x)), TR. auto. }
      split; auto. intros c v NS NQ NL. split; intros Hv.
      + destruct (proj2 (crec_cttl z1 c W1) (ex_intro _ v Hv)) as [x Hx]. apply SD in Hx; auto. destruct (proj1 (crec_cttl z2 c W2) (ex_intro _ x Hx)) as [w Hw]. destruct (Z.eq_dec v w) as [->|N]; auto. exfalso. apply (ND c NS NL). split; auto. exists v, w. auto.
      + destruct (proj2 (crec_cttl z2 c W2) (ex_intro _ v Hv)) as [x Hx]. apply SD in Hx; auto. destruct (proj1 (crec_cttl z1 c W1) (ex_intro _ x Hx)) as [w Hw]. destruct (Z.eq_dec v w) as [->|N]; auto. exfalso. apply (ND c NS NL). split; auto. exists w, v. auto. }
  assert (EMP : forall z, contents_is_empty z = true -> forall c x, ~ crec z c x).
  { intros z HE c x (v & rs & (e & HI & _) & _). unfold contents_is_empty in HE. unfold rrs_at, ZoneModel.zget in HI. destruct (z_nodes z) as [|p t]; [|rewrite zlen_cons in HE; pose proof (zlen_nonneg t); lia]. destruct (z_nsec3 z) as [|p t]; [|rewrite zlen_cons in HE; pose proof (zlen_nonneg t); lia]. destruct (ck c); cbn [tget] in HI; [destruct HI|]. destruct (name_eqb (co c) (z_apex z)); [|destruct HI]. destruct (zn_rrs (z_apexn z)) as [|p t]; [destruct HI|]. rewrite zlen_cons in HE. pose proof (zlen_nonneg t). lia. }
  destruct H as [[H E]|[H E]].
  - left. split; [|eauto]. apply NR. intros c x. unfold changeset_empty in H. destruct (contents_is_empty (ch_rem ch) && contents_is_empty (ch_add ch)) eqn:EE; [|discriminate]. apply andb_prop in EE. destruct EE. split; eapply EMP; eauto.
  - right. left. split; auto. intros SD0. pose proof (proj1 NR SD0) as SD. destruct (whole di zi z1 z2) as [|[b [c e]] L] eqn:EW; [rewrite (WH eq_refl) in H; discriminate|].
    assert (HI : In (b, (c, e)) (whole di zi z1 z2)) by (rewrite EW; left; auto). apply whole_in in HI; auto. cbv zeta in HI. destruct HI as [HT HI]. destruct b.
    + destruct (rec_of_view di zi z2 z1 c e O2 O1 HT HI) as (NS & NL & _ & [_ (b & IB & NB)] & l & IS & HL). rewrite (is_fun _ _ _ IB IS) in NB. destruct l as [|x l]; [contradiction|]. apply (proj2 (SD c x)). apply TA. rewrite differ_sym. split; auto. split; auto. apply HL. left. auto.
    + destruct (rec_of_view di zi z1 z2 c e O1 O2 HT HI) as (NS & NL & _ & [_ (b & IB & NB)] & l & IS & HL). rewrite (is_fun _ _ _ IB IS) in NB. destruct l as [|x l]; [contradiction|]. apply (proj1 (SD c x)). apply TR. split; auto. split; auto. apply HL. left. auto.
Qed.

(** ** Examples *)
Definition soa_rd (n m : Z) : list Z := [0; 0] ++ [0; 0; 0; n] ++ [0; 0; 0; m] ++ [0; 0; 0; 0] ++ [0; 0; 0; 0] ++ [0; 0; 0; 0].
Definition zsoa (n m : Z) : rrset := rs ex_a 6 60 [soa_rd n m].
Definition ex_n : name := [[110]; [99]].
Definition l1 : list rrset := [zsoa 1 0; rs ex_w 1 100 [[1]; [2]]; rs ex_w 16 7 [[5]]; rs ex_n 16 7 [[6]]].
Definition l2 : list rrset := [zsoa 2 0; rs ex_w 1 100 [[2]; [3]]; rs ex_w 16 8 [[5]]].
Definition ex_z1 := Eval vm_compute in of_res (contents_new []) (build ex_a l1).
Definition ex_z2 := Eval vm_compute in of_res (contents_new []) (build ex_a l2).
Lemma ex_zone_ok : forall l z, Forall (fun s => exists c b, good ex_a s c b) l -> build ex_a l = Ok z -> (forall c e, In (c, e) (cells z) -> (ct c = SOA -> c = soa_cell ex_a) /\ rr_fits e) -> zone_ok z.
Proof.
  intros l z HF E HC. destruct (build_wf ex_a l z HF E) as [W A]. split; auto. split.
  - intros c x H HT. destruct (crec_cells z c x W H) as [e HI]. rewrite A. eapply HC; eauto.
  - intros k o. apply Forall_forall. intros e HI. apply (HC (k, o, rr_type e)). apply cells_in; [apply W|auto].
Qed.
Ltac zok l := apply (ex_zone_ok l); [repeat (constructor; [gex false|]); constructor|vm_compute; reflexivity|intros c e H; incell H; (split; [first [reflexivity|intros X; vm_compute in X; discriminate]|vm_compute; discriminate])].
Example c23_case : zone_ok ex_z1 /\ zone_ok ex_z2 /\ z_apex ex_z2 = z_apex ex_z1 /\ serial_is ex_z1 1 /\ serial_is ex_z2 2 /\ serial_compare 1 2 = SERIAL_LOWER /\
  exists ch z', contents_diff false false ex_z1 ex_z2 (changeset_init ex_a) = Ok (KNOT_EOK, ch) /\ cells (ch_rem ch) = [((false, ex_w, 1), snd (rs ex_w 1 100 [[1]])); ((false, ex_w, 16), snd (rs ex_w 16 7 [[5]])); ((false, ex_n, 16), snd (rs ex_n 16 7 [[6]]))] /\ cells (ch_add ch) = [((false, ex_w, 1), snd (rs ex_w 1 100 [[3]])); ((false, ex_w, 16), snd (rs ex_w 16 8 [[5]]))] /\ applies ex_z1 ch z' /\ cells z' = cells ex_z2.
Proof.
  split; [zok l1|]. split; [zok l2|]. split; [reflexivity|]. split; [eexists; eexists; split; [vm_compute; reflexivity|split; vm_compute; reflexivity]|]. split; [eexists; eexists; split; [vm_compute; reflexivity|split; vm_compute; reflexivity]|]. split; [vm_compute; reflexivity|].
  eexists. eexists. split; [vm_compute; reflexivity|]. split; [vm_compute; reflexivity|]. split; [vm_compute; reflexivity|]. split; vm_compute; reflexivity.
Qed.
(** Zones that differ in the other fields of the SOA only are taken for equal. *)
Definition ex_z3 := Eval vm_compute in of_res (contents_new []) (build ex_a [zsoa 1 9]).
Definition ex_z4 := Eval vm_compute in of_res (contents_new []) (build ex_a [zsoa 1 0]).
Theorem c23_soa_refuted : exists z1 z2 ch x, zone_ok z1 /\ zone_ok z2 /\ z_apex z2 = z_apex z1 /\ contents_diff false false z1 z2 (changeset_init (z_apex z1)) = Ok (KNOT_ENODIFF, ch) /\ crec z1 (soa_cell (z_apex z1)) x /\ ~ crec z2 (soa_cell (z_apex z1)) x.
Proof.
  exists ex_z3, ex_z4. eexists. exists (soa_rd 1 9). assert (O3 : zone_ok ex_z3) by zok [zsoa 1 9]. assert (O4 : zone_ok ex_z4) by zok [zsoa 1 0]. split; auto. split; auto. split; [reflexivity|]. split; [vm_compute; reflexivity|].
  assert (E3 : exists e, node_rrset (rrs_at ex_z3 false (z_apex ex_z3)) SOA = Some e /\ rr_rrs e = ex_s [soa_rd 1 9]) by (eexists; split; vm_compute; reflexivity). assert (E4 : exists e, node_rrset (rrs_at ex_z4 false (z_apex ex_z4)) SOA = Some e /\ rr_rrs e = ex_s [soa_rd 1 0]) by (eexists; split; vm_compute; reflexivity).
  destruct E3 as (e3 & N3 & R3), E4 as (e4 & N4 & R4). destruct (soa_in _ _ (proj1 O3) N3) as (_ & _ & b3 & B3 & RS3 & _). destruct (soa_in _ _ (proj1 O4) N4) as (_ & _ & b4 & B4 & RS4 & _). rewrite R3 in B3. rewrite R4 in B4.
  assert (I3 : is (ex_s [soa_rd 1 9]) [soa_rd 1 9]) by (apply ex_is; [canon|cbv; auto|cbv; auto]). assert (I4 : is (ex_s [soa_rd 1 0]) [soa_rd 1 0]) by (apply ex_is; [canon|cbv; auto|cbv; auto]).
  rewrite (is_fun _ _ _ B3 I3) in RS3. rewrite (is_fun _ _ _ B4 I4) in RS4. split; [apply RS3; left; auto|]. change (z_apex ex_z3) with (z_apex ex_z4). rewrite RS4. intros [X|[]]. discriminate.
Qed.
(** The TTL of a signature is not compared. *)
Definition ex_z5 := Eval vm_compute in of_res (contents_new []) (build ex_a [zsoa 1 0; rs ex_w 46 1 [ex_sig 1]]).
Definition ex_z6 := Eval vm_compute in of_res (contents_new []) (build ex_a [zsoa 1 0; rs ex_w 46 2 [ex_sig 1]]).
Theorem c23_rrsig_ttl_refuted : exists z1 z2 ch c v, zone_ok z1 /\ zone_ok z2 /\ z_apex z2 = z_apex z1 /\ contents_diff false false z1 z2 (changeset_init (z_apex z1)) = Ok (KNOT_ENODIFF, ch) /\ cttl z1 c v /\ ~ cttl z2 c v.
Proof.
  exists ex_z5, ex_z6. eexists. exists (false, ex_w, 46), 1. assert (O3 : zone_ok ex_z5) by zok [zsoa 1 0; rs ex_w 46 1 [ex_sig 1]]. assert (O4 : zone_ok ex_z6) by zok [zsoa 1 0; rs ex_w 46 2 [ex_sig 1]]. split; auto. split; auto. split; [reflexivity|]. split; [vm_compute; reflexivity|]. rewrite !cttl_in by (apply O3 || apply O4). split; [eexists; split; [right; left; reflexivity|reflexivity]|]. intros (e & HI & HV). incell HI. vm_compute in HV. discriminate.
Qed.
Print Assumptions c23_exact. Print Assumptions c23_left_out. Print Assumptions c23_disjoint. Print Assumptions c23_outcome. Print Assumptions c23_case. Print Assumptions c23_soa_refuted. Print Assumptions c23_rrsig_ttl_refuted.
