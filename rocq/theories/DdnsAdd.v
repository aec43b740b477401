(** Proofs about the update section of dynamic updates: additions and the whole section. *)
From Verif Require Import Base RdatasetModel RdatasetSpec RdatasetProofs RdatasetProps NodeModel NodeProps ZoneModel ZoneProofs ZoneView ZoneFold ChangesetProofs UpdateModel SerialModel SerialSpec SerialProps DiffModel DdnsModel DdnsProofs DdnsSteps.

(** a record of the message that may be added *)
Definition addable (a : name) (m : mrr) (x : list Z) : Prop :=
  rdv m x /\ 1 <= rr_type (m_rr m) <= 65535 /\ (rr_type (m_rr m) = RRSIG -> 2 <= zlen x) /\ under (m_owner m) a = true /\ (rel (rr_type (m_rr m)) x = true -> m_owner m <> a).
Definition cellof (m : mrr) (x : list Z) : cell := (rel (rr_type (m_rr m)) x, m_owner m, rr_type (m_rr m)).
Lemma add_good : forall a m x, addable a m x -> good a (m_owner m, m_rr m) (cellof m x) [x].
Proof.
  intros a m x (HX & HT & HR & HU & HA). split; [split; auto; exists [x]; split; auto; discriminate|]. split; auto. split; auto. split; auto. split; auto. intros y [<-|[]]. split; auto.
Qed.
Lemma found_none : forall z o, node_or_nsec3 z o = None -> found z o = []. Proof. intros z o H. unfold found. rewrite H. auto. Qed.
Lemma found_at : forall z o k n, node_or_nsec3 z o = Some (k, n) -> zn_rrs n = rrs_at z k o /\ found z o = rrs_at z k o.
Proof.
  intros z o k n EN. assert (RA : zn_rrs n = rrs_at z k o). { unfold node_or_nsec3 in EN. unfold rrs_at. destruct (ZoneModel.zget z false o) eqn:E1; [injection EN as <- ->; rewrite E1; auto|]. destruct (ZoneModel.zget z true o) eqn:E2; [injection EN as <- ->; rewrite E2; auto|discriminate]. }
  split; auto. unfold found. rewrite EN. exact RA.
Qed.
Lemma found_cell : forall z o t y, cwf z -> records (found z o) t y -> exists k n, node_or_nsec3 z o = Some (k, n) /\ zn_rrs n = rrs_at z k o /\ crec z (k, o, t) y /\ rel t y = k.
Proof.
  intros z o t y W H. destruct (node_or_nsec3 z o) as [[k n]|] eqn:E; [|rewrite found_none in H by auto; exfalso; eapply recs_nil; eauto]. destruct (found_at z o k n E) as [E1 E2]. exists k, n. split; auto. split; auto. rewrite E2 in H. assert (C : crec z (k, o, t) y) by exact H. split; auto. apply W in C. destruct C as [C _]. auto.
Qed.
Lemma records_dec : forall n t, node_wf n -> (exists y, records n t y) \/ forall y, ~ records n t y.
Proof.
  intros n t W. pose proof (lookup_recs n t W) as H. destruct (node_rrset n t) as [e|]; [|right; apply H]. destruct H as (b & _ & _ & NB & _ & _ & HR). left. destruct b as [|x b]; [contradiction|]. exists x. apply HR. left. auto.
Qed.

(** ** add_rr_to_changeset *)
Lemma remove_rrset_none : forall z o t, cwf z -> (forall y, ~ records (found z o) t y) -> exists e, zone_update_remove_rrset false (mkup z None) o t = Err e.
Proof.
  intros z o t W H. unfold zone_update_remove_rrset. cbn [u_new]. destruct (node_or_nsec3 z o) as [[k n]|] eqn:EN; [|eauto]. pose proof (found_wf z o W) as WN. unfold found in *. rewrite EN in *. cbn [node_rrs] in *. pose proof (lookup_recs _ t WN) as HL. destruct (node_rrset (zn_rrs n) t) as [e|]; [|eauto]. destruct HL as (b & _ & _ & NB & _ & _ & HR). destruct b as [|x b]; [contradiction|]. exfalso. apply (H x), HR. left. auto.
Qed.
Lemma arc_add : forall z o r, cwf z -> (should_replace (rr_type r) = true -> forall y, ~ records (found z o) (rr_type r) y) -> add_rr_to_changeset (mkup z None) o r = zone_update_add 3 false (mkup z None) (o, r).
Proof.
  intros z o r W H. unfold add_rr_to_changeset, singleton_replaced. destruct (should_replace (rr_type r)) eqn:E; cbn [negb]; [|auto]. destruct (remove_rrset_none z o (rr_type r) W (H eq_refl)) as [e ->]. auto.
Qed.
Lemma arc_cut : forall z o r y, cwf z -> should_replace (rr_type r) = true -> records (found z o) (rr_type r) y -> exists z', add_rr_to_changeset (mkup z None) o r = Ok (mkup z' None) /\ rrset_cut z z' false o (rr_type r).
Proof.
  intros z o r y W HS H. destruct (found_cell z o _ y W H) as (k & n & EN & RA & CR & HK). assert (k = false) as ->. { rewrite <- HK. unfold should_replace, rel, T_CNAME, T_DNAME, T_NSEC3PARAM in *. replace (rr_type r =? NSEC3) with false by (unfold NSEC3; lia). replace (rr_type r =? RRSIG) with false by (unfold RRSIG; lia). auto. }
  unfold add_rr_to_changeset, singleton_replaced. rewrite HS. cbn [negb]. unfold zone_update_remove_rrset. cbn [u_new]. rewrite EN, RA. pose proof (lookup_recs _ (rr_type r) (proj1 (proj2 W) false o)) as HL. destruct (node_rrset (rrs_at z false o) (rr_type r)) as [e|] eqn:EE; [|exfalso; destruct HL as [_ HL]; exact (HL y CR)].
  destruct HL as (b & HB & TE & NB & HT & _ & HR). rewrite <- TE in *. destruct (entry_good z false o e b W EE HB) as [G CE]. destruct (zu_remove z _ _ _ W G) as (z' & E & EF); [unfold ct; cbn [snd]; rewrite TE; unfold should_replace, SOA, T_CNAME, T_DNAME, T_NSEC3PARAM in *; lia|intros; apply CE; auto|]. rewrite E. cbn [rbind]. exists z'. split; auto. eapply cut_of_rem; eauto.
Qed.

(** ** CNAME and DNAME *)
Definition replaced (z z' : contents) (c0 : cell) (ttl : Z) (x : list Z) : Prop := cwf z' /\ z_apex z' = z_apex z /\
  (forall c y, crec z' c y <-> if cell_dec c c0 then y = x else crec z c y) /\ (forall c v, cttl z' c v <-> if cell_dec c c0 then v = ttl else cttl z c v).
(** why an alias is not added *)
Definition blocked (z0 : contents) (old : name -> bool) (z : contents) (o : name) (t : Z) : Prop :=
  (t = T_CNAME /\ exists t' y, records (found z o) t' y) \/ (t = T_CNAME /\ adding_to_cname z0 old z o (node_or_nsec3 z o) = true) \/
  (t = T_DNAME /\ subtree_empty z o (node_or_nsec3 z o) = false) \/ (t = T_DNAME /\ exists y, records (found z o) T_CNAME y).
Lemma alias_rel : forall t x, t = T_CNAME \/ t = T_DNAME -> rel t x = false.
Proof. intros t x [->| ->]; reflexivity. Qed.
Lemma equal_one : forall o e r x b, is (rr_rrs e) b -> is (rr_rrs r) [x] -> rr_type e = rr_type r -> b <> [] ->
  exists q, rrset_equal o e o r true = Ok q /\ (q = true <-> rr_ttl e = rr_ttl r /\ b = [x]).
Proof.
  intros o e r x b HB HX HT NB. unfold rrset_equal. rewrite HT, Z.eqb_refl, neqb_refl. cbn [negb orb andb]. destruct (Z.eqb_spec (rr_ttl e) (rr_ttl r)) as [ET|ET]; cbn [negb]; [|exists false; split; auto; split; [discriminate|tauto]].
  destruct (c07_eq _ _ _ _ HB HX) as (q & EQ & HQ). exists q. split; auto. rewrite HQ. split; [|intros [_ ->]; tauto]. intros H. split; auto. destruct HB as ([SS _] & _). destruct b as [|a [|a2 b]]; [contradiction| |].
  - destruct (proj1 (H a) (or_introl eq_refl)) as [->|[]]. auto.
  - exfalso. destruct (proj1 (H a) (or_introl eq_refl)) as [<-|[]]. destruct (proj1 (H a2) (or_intror (or_introl eq_refl))) as [<-|[]]. inversion SS as [|? ? _ F]; subst. pose proof (Forall_inv F) as L. unfold rd_lt in L. clear -L. induction x; cbn in L; [discriminate|]. rewrite Z.compare_refl in L. auto.
Qed.
Lemma add_cname : forall z0 old z m x, cwf z -> addable (z_apex z) m x -> rr_type (m_rr m) = T_CNAME \/ rr_type (m_rr m) = T_DNAME ->
  let o := m_owner m in let t := rr_type (m_rr m) in
  runs (process_add_cname z0 old (node_or_nsec3 z o) o (m_rr m) (mkup z None)) (fun z' =>
    ((exists y, crec z (false, o, t) y) /\ replaced z z' (false, o, t) (rr_ttl (m_rr m)) x) \/
    ((forall y, ~ crec z (false, o, t) y) /\ blocked z0 old z o t /\ z' = z) \/
    ((forall y, ~ crec z (false, o, t) y) /\ ~ blocked z0 old z o t /\ eff_add z z' (false, o, t) (rr_ttl (m_rr m)) [x])).
Proof.
  intros z0 old z m x W A TT o t. pose proof (alias_rel _ x TT) as RL. pose proof (add_good _ _ _ A) as G. unfold cellof in G. rewrite RL in G. fold o t in G. fold t in TT. pose proof A as (HX & HT & _ & HU & _). assert (TS : t <> SOA) by (unfold T_CNAME, T_DNAME, SOA in *; lia).
  assert (SR : should_replace t = true) by (unfold should_replace; destruct TT as [->| ->]; auto).
  unfold process_add_cname. fold t. cbv zeta. cbn [u_new]. fold (found z o). pose proof (lookup_recs (found z o) t (found_wf z o W)) as HL. destruct (node_rrset (found z o) t) as [e|] eqn:EE.
  - destruct HL as (b & HB & TE & NB & _ & _ & HR). assert (EX : exists y, In y b) by (destruct b as [|y b]; [contradiction|exists y; left; auto]). destruct EX as [y Hy]. destruct (found_cell z o t y W (proj2 (HR y) Hy)) as (k & n & EN & RA & CR & HK). rewrite (alias_rel t y TT) in HK. subst k. destruct (found_at z o false n EN) as [_ FA]. rewrite FA in *.
    rewrite <- TE in EE. destruct (entry_good z false o e b W EE HB) as [GE CE]. rewrite TE in GE, CE. destruct (equal_one o e (m_rr m) x b HB HX TE NB) as (q & EQ & HQ). rewrite EQ. cbn [rbind]. destruct q.
    + apply runs_ok. left. split; [exists y; auto|]. destruct (proj1 HQ eq_refl) as [H1 ->]. split; auto. split; auto. split.
      * intros c w. destruct (cell_dec c (false, o, t)) as [->|]; [|tauto]. rewrite CE. split; [intros [->|[]]; auto|intros ->; left; auto].
      * intros c v. destruct (cell_dec c (false, o, t)) as [->|]; [|tauto]. assert (CT : cttl z (false, o, t) (rr_ttl e)). { pose proof (c52_lookup _ t (proj1 (proj2 W) false o)) as L2. rewrite <- TE, EE in L2. destruct L2 as (b2 & HB2 & _ & H2 & _). exists b2. unfold ck, co, ct. cbn [fst snd]. rewrite <- TE. exact H2. } rewrite <- H1.
        split; [intros H; eapply cttl_fun; eauto|intros ->; auto].
    + destruct (zu_remove z _ _ _ W GE TS (fun w Hw => proj2 (CE w) Hw)) as (z1 & E1 & EF). rewrite E1. cbn [rbind]. pose proof (cut_of_rem _ _ _ _ _ _ W CE EF) as (W1 & A1 & R1 & T1).
      assert (N1 : forall w, ~ crec z1 (false, o, t) w) by (intros w H; apply R1 in H; tauto). assert (NF : forall w, ~ records (found z1 o) t w) by (intros w H; destruct (found_cell z1 o t w W1 H) as (k & ? & _ & _ & C & K); rewrite (alias_rel t w TT) in K; subst k; eapply N1; eauto).
      rewrite (arc_add z1 o (m_rr m) W1) by (intros _; exact NF). destruct (zu_add 2 z1 (o, m_rr m) (false, o, t) [x] W1) as [H _]; [rewrite A1; exact G|exact TS|rewrite A1; exact HU|].
      eapply runs_impl; [apply H; intros w _; apply N1|]. intros z' (W' & A' & R' & T'). left. split; [exists y; auto|]. split; auto. split; [congruence|]. cbn [snd] in T'. split.
      * intros c w. rewrite R', R1. destruct (cell_dec c (false, o, t)) as [->|N]; [|tauto]. split; [intros [[_ N]|[_ [->|[]]]]; [contradiction|auto]|intros ->; right; split; auto; left; auto].
      * intros c v. rewrite T', T1. destruct (cell_dec c (false, o, t)) as [->|N]; [|tauto]. split; [intros [[N _]|[_ [[_ [_ N]]|[-> _]]]]; [contradiction|contradiction|auto]|]. intros ->. right. split; auto. right. split; auto. intros _ w Hw. apply T1 in Hw. destruct Hw as [_ HN]. exact (HN eq_refl).
  - destruct HL as [_ HL]. assert (N0 : forall y, ~ crec z (false, o, t) y) by (intros y H; eapply HL, found_normal; eauto). pose proof (nonempty_recs (found z o) (found_wf z o W)) as NE.
    destruct ((t =? T_CNAME) && negb (zlen (found z o) =? 0)) eqn:B1.
    { apply runs_ok. right. left. split; auto. split; auto. left. apply andb_true_iff in B1. destruct B1 as [B1 B2]. split; [lia|]. apply NE. destruct (zlen (found z o) =? 0); [discriminate|auto]. }
    destruct ((t =? T_DNAME) && negb (subtree_empty z o (node_or_nsec3 z o))) eqn:B2.
    { apply runs_ok. right. left. split; auto. split; auto. right. right. left. apply andb_true_iff in B2. destruct B2 as [B2 B3]. split; [lia|]. destruct (subtree_empty z o (node_or_nsec3 z o)); [discriminate|auto]. }
    destruct ((t =? T_DNAME) && type_exists (node_or_nsec3 z o) T_CNAME) eqn:B3.
    { apply runs_ok. right. left. split; auto. split; auto. right. right. right. apply andb_true_iff in B3. destruct B3 as [B3 B4]. split; [lia|]. apply (exists_recs (node_or_nsec3 z o) T_CNAME (found_wf z o W)). auto. }
    destruct ((t =? T_CNAME) && adding_to_cname z0 old z o (node_or_nsec3 z o)) eqn:B4.
    { apply runs_ok. right. left. split; auto. split; auto. right. left. apply andb_true_iff in B4. destruct B4 as [B4 B5]. split; [lia|auto]. }
    rewrite (arc_add z o (m_rr m) W) by (intros _; exact HL). destruct (zu_add 2 z (o, m_rr m) (false, o, t) [x] W G TS HU) as [H _]. eapply runs_impl; [apply H; intros y _; apply N0|]. intros z' EF. right. right. split; auto. split; auto.
    intros [[H1 H2]|[[H1 H2]|[[H1 H2]|[H1 H2]]]]; rewrite H1, ?Z.eqb_refl in *; cbn [andb] in *.
    + apply NE in H2. rewrite H2 in B1. discriminate.
    + congruence.
    + rewrite H2 in B2. discriminate.
    + apply (exists_recs (node_or_nsec3 z o) T_CNAME (found_wf z o W)) in H2. congruence.
Qed.
(** ** SOA *)
Definition soa_only (z : contents) : Prop := forall k o x, crec z (k, o, SOA) x -> o = z_apex z.
Lemma add_soa_rr : forall z m x, cwf z -> soa_only z -> rdv m x -> rr_type (m_rr m) = SOA ->
  let o := m_owner m in
  runs (process_add_soa (node_or_nsec3 z o) o (m_rr m) (mkup z None)) (fun z' =>
    (o = z_apex z /\ has_soa z /\ soa_replaced z z' (rr_ttl (m_rr m)) [x]) \/ (~ (o = z_apex z /\ has_soa z) /\ z' = z)).
Proof.
  intros z m x W SO HX TS o. unfold process_add_soa. fold (found z o). pose proof (lookup_recs (found z o) SOA (found_wf z o W)) as HL. destruct (node_rrset (found z o) SOA) as [e|] eqn:EE.
  - destruct HL as (b & HB & TE & NB & _ & _ & HR). assert (EX : exists y, In y b) by (destruct b as [|y b]; [contradiction|exists y; left; auto]). destruct EX as [y Hy]. destruct (found_cell z o SOA y W (proj2 (HR y) Hy)) as (k & n & EN & RA & CR & HK). change (rel SOA y) with false in HK. subst k. pose proof (SO _ _ _ CR) as OA. destruct (found_at z o false n EN) as [_ FA]. rewrite FA in *.
    assert (HS : has_soa z) by (exists y; unfold soa_cell; rewrite <- OA; auto). assert (TE2 : rr_type e = rr_type (m_rr m)) by congruence. destruct (equal_one o e (m_rr m) x b HB HX TE2 NB) as (q & EQ & HQ). rewrite EQ. cbn [rbind].
    rewrite <- TE in EE. destruct (entry_good z false o e b W EE HB) as [GE CE]. rewrite TE in GE, CE. destruct q.
    + apply runs_ok. left. split; auto. split; auto. destruct (proj1 HQ eq_refl) as [H1 ->]. split; auto. split; auto. rewrite <- OA. change (soa_cell o) with (false, o, SOA). split.
      * intros c w. destruct (cell_dec c (false, o, SOA)) as [->|]; [apply CE|tauto].
      * intros c v. destruct (cell_dec c (false, o, SOA)) as [->|]; [|tauto]. assert (CT : cttl z (false, o, SOA) (rr_ttl e)). { pose proof (c52_lookup _ SOA (proj1 (proj2 W) false o)) as L2. rewrite <- TE, EE in L2. destruct L2 as (b2 & HB2 & _ & H2 & _). exists b2. unfold ck, co, ct. cbn [fst snd]. rewrite <- TE. exact H2. } rewrite <- H1. split; [intros H; eapply cttl_fun; eauto|intros ->; auto].
    + rewrite (arc_add z o (m_rr m) W) by (rewrite TS; discriminate). eapply runs_impl; [apply (zu_soa 2 z (o, m_rr m) [x] W); auto|]. { split; [cbn [snd]; rewrite TS; unfold SOA; lia|exists [x]; split; auto; discriminate]. } intros z' H. left. auto.
  - destruct HL as [_ HL]. apply runs_ok. right. split; auto. intros [H1 (y & H2)]. unfold soa_cell in H2. rewrite <- H1 in H2. eapply HL, found_normal; eauto.
Qed.
(** ** Other types *)
Definition param_cut (z z' : contents) (m : mrr) : Prop := rr_type (m_rr m) = T_NSEC3PARAM /\ rrset_cut z z' false (m_owner m) T_NSEC3PARAM.
Lemma add_normal : forall z0 old z m x, cwf z -> addable (z_apex z) m x -> rr_type (m_rr m) <> T_CNAME -> rr_type (m_rr m) <> T_DNAME -> rr_type (m_rr m) <> SOA ->
  let o := m_owner m in let t := rr_type (m_rr m) in
  runs (process_add_normal z0 old (node_or_nsec3 z o) o (m_rr m) (mkup z None)) (fun z' =>
    (adding_to_cname z0 old z o (node_or_nsec3 z o) = true /\ z' = z) \/ (records (found z o) t x /\ z' = z) \/
    (adding_to_cname z0 old z o (node_or_nsec3 z o) = false /\ ~ records (found z o) t x /\ ((t = T_NSEC3PARAM /\ (exists y, crec z (false, o, t) y) /\ param_cut z z' m) \/
       ((t = T_NSEC3PARAM -> forall y, ~ crec z (false, o, t) y) /\ (eff_add z z' (cellof m x) (rr_ttl (m_rr m)) [x] \/ (rel t x = true /\ crec z (cellof m x) x /\ same z z')))))).
Proof.
  intros z0 old z m x W A N1 N2 N3 o t. pose proof (add_good _ _ _ A) as G. pose proof A as (HX & HT & _ & HU & _). unfold process_add_normal. cbn [u_new]. destruct (adding_to_cname z0 old z o (node_or_nsec3 z o)) eqn:EC; [apply runs_ok; left; auto|].
  assert (CO : exists q, match node_or_nsec3 z o with Some (_, n) => node_contains_rr (zn_rrs n) (m_rr m) | None => Ok false end = Ok q /\ (q = true <-> records (found z o) t x)).
  { destruct (node_or_nsec3 z o) as [[k n]|] eqn:EN; [|exists false; split; auto; rewrite found_none by auto; split; [discriminate|intros H; exfalso; eapply recs_nil; eauto]]. destruct (found_at z o k n EN) as [E1 E2]. rewrite E2, E1. unfold node_contains_rr. fold t. pose proof (lookup_recs _ t (proj1 (proj2 W) k o)) as HL. destruct (node_rrset (rrs_at z k o) t) as [e|].
    - destruct HL as (b & HB & _ & _ & _ & EB & HR). rewrite EB, (is_count _ _ HX). change (zlen [x]) with 1. cbn [negb]. change (1 =? 1) with true. cbn [negb]. pose proof (c07_at _ _ 0 HX ltac:(lia)) as AT. change (Base.zget [x] 0) with (Some x) in AT. rewrite AT. cbn [rbind]. destruct (c07_member _ _ x HB) as (q & EQ & HQ). exists q. split; auto. rewrite HQ, HR. tauto.
    - destruct HL as [-> HL]. exists false. split; auto. split; [discriminate|]. intros H. exfalso. eapply HL; eauto. }
  destruct CO as (q & -> & HQ). cbn [rbind]. destruct q; [apply runs_ok; right; left; split; auto; apply HQ; auto|]. assert (NR : ~ records (found z o) t x) by (intros H; apply HQ in H; discriminate).
  assert (AD : forall P : contents -> Prop, (forall z', eff_add z z' (cellof m x) (rr_ttl (m_rr m)) [x] -> P z') -> (forall z', rel t x = true -> crec z (cellof m x) x -> same z z' -> P z') -> runs (zone_update_add 3 false (mkup z None) (o, m_rr m)) P).
  { intros P P1 P2. destruct (zu_add 2 z (o, m_rr m) (cellof m x) [x] W G N3 HU) as [H1 H2]. destruct (crec_dec z (cellof m x) x W) as [C|C].
    - assert (RK : rel t x = true). { destruct (rel t x) eqn:E; auto. exfalso. apply NR. apply found_normal. unfold cellof in C. fold t o in C. rewrite E in C. auto. } eapply runs_impl; [apply H2; [unfold cellof; exact RK|intros H; exact (H x (or_introl eq_refl) C)]|]. intros z' S. apply P2; auto.
    - eapply runs_impl; [apply H1; intros y [<-|[]]; auto|]. intros z' S. apply P1; auto. }
  destruct (Z.eq_dec t T_NSEC3PARAM) as [TP|TP].
  - destruct (records_dec (found z o) t (found_wf z o W)) as [[y Hy]|NY].
    + destruct (arc_cut z o (m_rr m) y W) as (z' & E & CUT); [fold t; rewrite TP; auto|auto|]. rewrite E. apply runs_ok. right. right. split; auto. split; auto. left. split; auto. fold t in CUT. rewrite TP in CUT. split; [|split; auto]. destruct (found_cell z o t y W Hy) as (k & ? & _ & _ & C & K). rewrite TP in K. change (rel T_NSEC3PARAM y) with false in K. subst k. eauto.
    + rewrite (arc_add z o (m_rr m) W) by (intros _; exact NY). apply AD; intros z' H; intros; right; right; (split; [auto|]); (split; [auto|]); right; (split; [intros _ y Hy; eapply NY, found_normal; eauto|]); auto.
  - rewrite (arc_add z o (m_rr m) W). 2:{ fold t. unfold should_replace. intros H. exfalso. fold t in N1, N2. lia. } apply AD; intros z' H; intros; right; right; (split; [auto|]); (split; [auto|]); right; (split; [intros H3; contradiction|]); auto.
Qed.
