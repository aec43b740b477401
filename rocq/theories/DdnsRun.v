(** Proofs about the update section of dynamic updates: the invariants over whole messages. *)
From Verif Require Import Base RdatasetModel RdatasetSpec RdatasetProofs RdatasetProps NodeModel NodeProps ZoneModel ZoneProofs ZoneView ZoneFold ChangesetProofs UpdateModel SerialModel SerialSpec SerialProps DiffModel DdnsModel DdnsProofs DdnsSteps DdnsAdd DdnsProps.

(** a record of the update section, as it comes from a message for the zone *)
Definition update_wf (a : name) (m : mrr) (x : list Z) : Prop :=
  rdata_is m x /\ (m_class m = CLASS_IN \/ m_class m = CLASS_NONE \/ m_class m = CLASS_ANY) /\
  (m_class m = CLASS_IN -> addable a m x /\ (type_of m = SOA -> exists s, soa_serial x = Ok s /\ serial32 s)).
Definition has_ns (z : contents) : Prop := exists y, crec z (false, z_apex z, T_NS) y.
Definition shrink (z z' : contents) : Prop := cwf z' /\ z_apex z' = z_apex z /\ (forall c y, crec z' c y -> crec z c y) /\ (forall k o y, crec z (k, o, SOA) y -> crec z' (k, o, SOA) y) /\ (has_soa z -> has_ns z -> has_ns z').
Definition single (z : contents) (t : Z) : Prop := forall k o x y, crec z (k, o, t) x -> crec z (k, o, t) y -> x = y.
Definition sole (t : Z) : Prop := t = T_CNAME \/ t = T_DNAME \/ t = T_NSEC3PARAM.
Definition grow (z z' : contents) (m : mrr) (x : list Z) : Prop := m_class m = CLASS_IN /\ type_of m <> SOA /\ eff_add z z' (cellof m x) (ttl_of m) [x] /\
  (type_of m = T_CNAME -> forall t y, ~ crec z (false, m_owner m, t) y) /\ (type_of m <> T_CNAME -> forall y, ~ crec z (false, m_owner m, T_CNAME) y) /\ (sole (type_of m) -> forall y, ~ crec z (false, m_owner m, type_of m) y).
Definition alias_set (z z' : contents) (m : mrr) (x : list Z) : Prop := (type_of m = T_CNAME \/ type_of m = T_DNAME) /\ (exists y, crec z (false, m_owner m, type_of m) y) /\ replaced z z' (false, m_owner m, type_of m) (ttl_of m) x.
Definition soa_set (sn : Z) (z z' : contents) (m : mrr) (x : list Z) : Prop := has_soa z /\ soa_replaced z z' (ttl_of m) [x] /\ exists s, soa_serial x = Ok s /\ serial32 s /\ serial_compare s sn = SERIAL_GREATER.
Definition stepped (sn : Z) (z z' : contents) (m : mrr) (x : list Z) : Prop := shrink z z' \/ grow z z' m x \/ alias_set z z' m x \/ soa_set sn z z' m x.

Lemma shrink_refl : forall z, cwf z -> shrink z z. Proof. intros z W. split; auto. Qed.
Lemma shrink_same : forall z z', same z z' -> shrink z z'.
Proof. intros z z' (W & A & R & T). split; auto. split; auto. split; [intros; apply R; auto|]. split; [intros; apply R; auto|]. intros _ (y & H). exists y. rewrite A. apply R. auto. Qed.
Lemma shrink_cut : forall z z' k o t, ~ kept z k o t -> rrset_cut z z' k o t -> shrink z z'.
Proof.
  intros z z' k o t NK (W & A & R & T). split; auto. split; auto. split; [intros c y H; apply R in H; tauto|]. split.
  - intros k' o' y H. apply R. split; auto. intros [= _ _ E]. apply NK. left. auto.
  - intros (s & HS) (y & H). exists y. rewrite A. apply R. split; auto. intros [= E1 E2 E3]. apply NK. right. split; auto. exists s. subst. exact HS.
Qed.
Lemma shrink_rem : forall z z' m x k, let o := m_owner m in let t := rr_type (m_rr m) in t <> SOA -> ~ (t = T_NS /\ (exists y, crec z (k, o, SOA) y) /\ (forall y1 y2, crec z (k, o, T_NS) y1 -> crec z (k, o, T_NS) y2 -> y1 = y2)) -> crec z (k, o, t) x -> eff_rem z z' (k, o, t) [x] -> cwf z -> shrink z z'.
Proof.
  intros z z' m x k o t NS NL CR (W & A & R & T) W0. split; auto. split; auto. split; [intros c y H; apply R in H; tauto|]. split.
  - intros k' o' y H. apply R. split; auto. intros [[= _ _ E] _]. auto.
  - intros (s & HS) (y & H). rewrite <- A in H. unfold has_ns. destruct (cell_dec (false, z_apex z, T_NS) (k, o, t)) as [E|E].
    + injection E as E1 E2 E3. (* another NS record is there *)
      assert (exists y2, crec z (k, o, T_NS) y2 /\ y2 <> x) as (y2 & H2 & N2).
      { pose proof (lookup_recs _ T_NS (proj1 (proj2 W0) k o)) as HL. destruct (node_rrset (rrs_at z k o) T_NS) as [e|]; [|exfalso; destruct HL as [_ HL]; rewrite <- E3 in CR; exact (HL x CR)]. destruct HL as (b & HB & _ & NB & _ & _ & HR). destruct b as [|b1 [|b2 b]]; [contradiction| |].
        - exfalso. apply NL. split; auto. split; [exists s; subst k; rewrite <- E2; exact HS|]. intros y1 y2 H1 H2. apply HR in H1. apply HR in H2. destruct H1 as [<-|[]], H2 as [<-|[]]. auto.
        - assert (N12 : b1 <> b2). { intros ->. destruct HB as ([SS _] & _). inversion SS as [|? ? _ F]; subst. pose proof (Forall_inv F) as L. unfold rd_lt in L. clear -L. induction b2; cbn in L; [discriminate|]. rewrite Z.compare_refl in L. auto. }
          destruct (list_eq_dec Z.eq_dec b1 x) as [->|N]; [exists b2|exists b1]; (split; [apply HR|]); auto; [right; left; auto|left; auto]. }
      exists y2. rewrite A. apply R. rewrite E1, E2. split; auto. intros [_ [H3|[]]]. congruence.
    + exists y. rewrite A in H |- *. apply R. split; auto. intros [H3 _]. auto.
Qed.
Lemma no_cname : forall z0 old z o, cwf z -> adding_to_cname z0 old z o (node_or_nsec3 z o) = false -> forall y, ~ crec z (false, o, T_CNAME) y.
Proof.
  intros z0 old z o W H y C. pose proof (found_normal _ _ _ _ C) as F. destruct (found_cell z o T_CNAME y W F) as (k & n & EN & RA & _ & HK). change (rel T_CNAME y) with false in HK. subst k. rewrite EN in H. unfold adding_to_cname in H. rewrite RA in H. pose proof (lookup_recs _ T_CNAME (proj1 (proj2 W) false o)) as HL. destruct (node_rrset (rrs_at z false o) T_CNAME) as [e|]; [|destruct HL as [_ HL]; exact (HL y C)]. destruct HL as (b & HB & _ & NB & _). unfold rr_empty in H. rewrite (is_count _ _ HB) in H. destruct b; [contradiction|]. rewrite zlen_cons in H. pose proof (zlen_nonneg b). replace (1 + zlen b =? 0) with false in H by lia. replace (zlen b + 1 =? 0) with false in H by lia. discriminate.
Qed.
Lemma serial_rd : forall m x, rdata_is m x -> rdataset_at (rr_rrs (m_rr m)) 0 = Ok x.
Proof. intros m x H. pose proof (c07_at _ _ 0 H ltac:(lia)) as A. change (Base.zget [x] 0) with (Some x) in A. auto. Qed.
Lemma step_spec : forall z0 old sn z m x, cwf z -> soa_only z -> update_wf (z_apex z) m x -> runs (process_step z0 old sn (mkup z None) m) (fun z' => stepped sn z z' m x).
Proof.
  intros z0 old sn z m x W SO (HX & HC & HA). unfold process_step, skip_soa. fold (type_of m). destruct HC as [HC|[HC|HC]].
  - destruct (HA HC) as [AD HS]. assert (IN : (m_class m =? CLASS_NONE) || (m_class m =? CLASS_ANY) = false) by (rewrite HC; reflexivity). rewrite IN. destruct (Z.eqb_spec (type_of m) SOA) as [TS|TS]; cbn [negb].
    + rewrite (serial_rd m x HX). cbn [rbind]. destruct (HS TS) as (s & ES & S32). rewrite ES. cbn [rbind]. destruct (serial_compare s sn) eqn:EC; try (apply runs_ok; left; apply shrink_refl; auto; fail).
      unfold process_rr. unfold is_addition. rewrite HC. change (CLASS_IN =? CLASS_IN) with true. cbn [u_new]. unfold process_add. unfold type_of in TS. rewrite TS. change ((SOA =? T_CNAME) || (SOA =? T_DNAME)) with false. change (SOA =? SOA) with true. cbv iota.
      eapply runs_impl; [apply (add_soa_rr z m x W SO HX TS)|]. intros z' [(OA & HS' & HR)|(_ & ->)]; [|left; apply shrink_refl; auto]. right. right. right. split; auto. split; auto. exists s. auto.
    + cbn [rbind]. unfold process_rr, is_addition. rewrite HC. change (CLASS_IN =? CLASS_IN) with true. cbn [u_new]. unfold process_add. fold (type_of m). replace (type_of m =? SOA) with false by lia. destruct ((type_of m =? T_CNAME) || (type_of m =? T_DNAME)) eqn:ET.
      * assert (TT : type_of m = T_CNAME \/ type_of m = T_DNAME) by lia. eapply runs_impl; [apply (add_cname z0 old z m x W AD TT)|]. intros z' [[EX RP]|[(_ & _ & ->)|(NO & NB & EF)]]; [right; right; left; split; auto|left; apply shrink_refl; auto|right; left].
        split; auto. split; auto. assert (CE : cellof m x = (false, m_owner m, type_of m)) by (unfold cellof; fold (type_of m); rewrite (alias_rel _ x TT); reflexivity). rewrite CE. split; auto. fold (type_of m) in *. split; [|split; [|intros _; exact NO]].
        -- intros TC t y C. apply NB. left. split; auto. exists t, y. apply found_normal; auto.
        -- intros TC y C. apply NB. right. right. right. split; [destruct TT; [contradiction|auto]|]. exists y. apply found_normal; auto.
      * assert (T1 : type_of m <> T_CNAME) by lia. assert (T2 : type_of m <> T_DNAME) by lia. eapply runs_impl; [apply (add_normal z0 old z m x W AD T1 T2 TS)|]. intros z' [(_ & ->)|[(_ & ->)|(NC & NR & [(TP & _ & [_ CUT])|(NP & [EF|(_ & _ & SM)])])]]; [left; apply shrink_refl; auto|left; apply shrink_refl; auto| | |left; apply shrink_same; auto].
        -- left. eapply shrink_cut; [|exact CUT]. intros [H|[H _]]; discriminate H.
        -- right. left. split; auto. split; auto. split; auto. split; [intros; contradiction|]. split; [intros _; eapply no_cname; eauto|]. intros [H|[H|H]]; [contradiction|contradiction|exact (NP H)].
  - assert (IN : (m_class m =? CLASS_NONE) || (m_class m =? CLASS_ANY) = true) by (rewrite HC; reflexivity). rewrite IN. destruct (negb (type_of m =? SOA)); cbn [rbind]; [|apply runs_ok; left; apply shrink_refl; auto]. unfold process_rr, is_addition, is_removal. rewrite IN, HC. change (CLASS_NONE =? CLASS_IN) with false. cbv iota. unfold process_remove, is_rr_removal. rewrite HC. change (CLASS_NONE =? CLASS_NONE) with true. cbv iota. cbn [u_new]. destruct (node_or_nsec3 z (m_owner m)) as [[k n]|] eqn:EN; [|apply runs_ok; left; apply shrink_refl; auto].
    destruct (rem_rr z m x k n W HX EN) as (z' & E & H). rewrite E. apply runs_ok. left. destruct H as [(_ & ->)|(H1 & H2 & H3 & H4)]; [apply shrink_refl; auto|eapply (shrink_rem z z' m x k); eauto].
  - assert (IN : (m_class m =? CLASS_NONE) || (m_class m =? CLASS_ANY) = true) by (rewrite HC; reflexivity). rewrite IN. destruct (negb (type_of m =? SOA)); cbn [rbind]; [|apply runs_ok; left; apply shrink_refl; auto]. unfold process_rr, is_addition, is_removal. rewrite IN, HC. change (CLASS_ANY =? CLASS_IN) with false. cbv iota. unfold process_remove, is_rr_removal, is_rrset_removal, is_node_removal. rewrite HC. change (CLASS_ANY =? CLASS_NONE) with false. change (CLASS_ANY =? CLASS_ANY) with true. cbn [andb]. fold (type_of m). cbn [u_new]. destruct (type_of m =? T_ANY); cbn [negb]; cbv iota.
    + destruct (rem_node z (m_owner m) W) as (k & z' & E & _ & W' & A' & R' & _). rewrite E. apply runs_ok. left. split; auto. split; auto. split; [intros c y H; apply R' in H; tauto|]. split.
      * intros k' o' y H. apply R'. split; auto. intros (_ & _ & _ & NK). apply NK. left. auto.
      * intros (s & HS) (y & H). exists y. rewrite A'. apply R'. split; auto. unfold ck, co, ct. cbn [fst snd]. intros (E1 & E2 & _ & NK). apply NK. right. split; auto. exists s. subst k. rewrite <- E2. exact HS.
    + assert (EX : exists k, node_rrs (node_or_nsec3 z (m_owner m)) = rrs_at z k (m_owner m)) by (destruct (found_tree z (m_owner m)) as (k & H & _); exists k; exact H). destruct EX as [k EX]. destruct (rem_rrset z _ k (m_owner m) (type_of m) W EX) as (z' & E & H). rewrite E. apply runs_ok. left. destruct H as [(_ & ->)|(H1 & H2)]; [apply shrink_refl; auto|eapply shrink_cut; eauto].
Qed.

(** ** The whole section *)
(** the serial in the SOA *)
Definition zone_serial (z : contents) (s : Z) : Prop := exists x, (forall y, crec z (soa_cell (z_apex z)) y <-> y = x) /\ soa_serial x = Ok s /\ serial32 s.
Record inv (sn : Z) (z0 z : contents) : Prop := {
  iv_wf : cwf z; iv_apex : z_apex z = z_apex z0; iv_only : soa_only z;
  iv_soa : has_soa z0 -> has_soa z;
  iv_ns : has_soa z0 -> has_ns z0 -> has_ns z;
  iv_cname : forall o t x y, t <> T_CNAME -> crec z (false, o, T_CNAME) x -> crec z (false, o, t) y -> (exists x', crec z0 (false, o, T_CNAME) x') /\ exists y', crec z0 (false, o, t) y';
  iv_single : forall t, sole t -> single z0 t -> single z t;
  iv_serial : zone_serial z0 sn -> exists s, zone_serial z s /\ (s = sn \/ serial_compare s sn = SERIAL_GREATER) }.
Lemma inv_refl : forall sn z, cwf z -> soa_only z -> inv sn z z.
Proof. intros sn z W S. constructor; eauto. Qed.
Lemma sole_cell : forall z k o t y, cwf z -> sole t -> crec z (k, o, t) y -> k = false.
Proof. intros z k o t y W S C. apply W in C. destruct C as [C _]. unfold ck, ct in C. cbn [fst snd] in C. rewrite <- C. destruct S as [->|[->| ->]]; reflexivity. Qed.
Lemma inv_step : forall sn z0 z z' m x, inv sn z0 z -> stepped sn z z' m x -> inv sn z0 z'.
Proof.
  intros sn z0 z z' m x [W A SO IS IN IC IG IE] [ST|[ST|[ST|ST]]].
  - destruct ST as (W' & A' & R' & S' & N'). constructor; auto.
    + congruence.
    + intros k o y H. rewrite A'. eapply SO; eauto.
    + intros H. destruct (IS H) as [y Hy]. exists y. rewrite A'. apply S'. exact Hy.
    + intros o t x1 y1 NT H1 H2. eapply IC; eauto.
    + intros t HS H k o x1 y1 H1 H2. eapply (IG t HS H); eauto.
    + intros H. destruct (IE H) as (s & (x1 & HX & E1) & HS). exists s. split; auto. exists x1. split; auto. intros y. rewrite <- HX, A'. split; [apply R'|apply S'].
  - destruct ST as (_ & NS & (W' & A' & R' & T') & C1 & C2 & C3). assert (SC : forall k o y, crec z' (k, o, SOA) y <-> crec z (k, o, SOA) y) by (intros k o y; rewrite R'; split; [intros [H|[[= _ _ E] _]]; auto; exfalso; apply NS; unfold type_of; auto|auto]). constructor; auto.
    + congruence.
    + intros k o y H. rewrite A'. apply SC in H. eapply SO; eauto.
    + intros H. destruct (IS H) as [y Hy]. exists y. rewrite A'. apply SC. exact Hy.
    + intros H1 H2. destruct (IN H1 H2) as [y Hy]. exists y. rewrite A'. apply R'. auto.
    + intros o t x1 y1 NT H1 H2. apply R' in H1. apply R' in H2. unfold cellof in *. fold (type_of m) in *. destruct H1 as [H1|[E1 _]], H2 as [H2|[E2 _]]; [eapply IC; eauto| | |].
      * exfalso. injection E2 as E3 E4 E5. eapply C2; [|rewrite <- E4; exact H1]. congruence.
      * exfalso. injection E1 as E3 E4 E5. apply (C1 ltac:(auto) t y1). rewrite <- E4. exact H2.
      * exfalso. congruence.
    + intros t HS H k o x1 y1 H1 H2. apply R' in H1. apply R' in H2. destruct H1 as [H1|[E1 [<-|[]]]], H2 as [H2|[E2 [<-|[]]]]; auto; [eapply (IG t HS H); eauto| |]; exfalso; [pose proof (sole_cell z k o t x1 W HS H1) as K; injection E2 as E3 E4 E5; apply (C3 ltac:(unfold type_of; rewrite <- E5; auto) x1); unfold type_of; rewrite <- E4, <- E5, <- K; exact H1|pose proof (sole_cell z k o t y1 W HS H2) as K; injection E1 as E3 E4 E5; apply (C3 ltac:(unfold type_of; rewrite <- E5; auto) y1); unfold type_of; rewrite <- E4, <- E5, <- K; exact H2].
    + intros H. destruct (IE H) as (s & (x1 & HX & E1) & HS). exists s. split; auto. exists x1. split; auto. intros y. rewrite <- HX, A'. apply SC.
  - destruct ST as (TT & (y0 & EX) & (W' & A' & R' & T')). assert (ND : forall c y, c <> (false, m_owner m, type_of m) -> (crec z' c y <-> crec z c y)) by (intros c y N; rewrite R'; destruct (cell_dec c (false, m_owner m, type_of m)); [contradiction|tauto]). assert (SC : forall k o y, crec z' (k, o, SOA) y <-> crec z (k, o, SOA) y) by (intros k o y; apply ND; intros [= _ _ E]; destruct TT as [TT|TT]; rewrite TT in E; discriminate). assert (SUB : forall c y, crec z' c y -> exists y', crec z c y') by (intros c y H; apply R' in H; destruct (cell_dec c (false, m_owner m, type_of m)) as [->|]; eauto). constructor; auto.
    + congruence.
    + intros k o y H. rewrite A'. apply SC in H. eapply SO; eauto.
    + intros H. destruct (IS H) as [y Hy]. exists y. rewrite A'. apply SC. exact Hy.
    + intros H1 H2. destruct (IN H1 H2) as [y Hy]. exists y. rewrite A'. apply ND; auto. intros [= _ E]. destruct TT as [TT|TT]; rewrite TT in E; discriminate.
    + intros o t x1 y1 NT H1 H2. destruct (SUB _ _ H1) as [x2 H3]. destruct (SUB _ _ H2) as [y2 H4]. eapply IC; eauto.
    + intros t HS H k o x1 y1 H1 H2. apply R' in H1. apply R' in H2. destruct (cell_dec (k, o, t) (false, m_owner m, type_of m)); [congruence|eapply (IG t HS H); eauto].
    + intros H. destruct (IE H) as (s & (x1 & HX & E1) & HS). exists s. split; auto. exists x1. split; auto. intros y. rewrite <- HX, A'. apply SC.
  - destruct ST as (HS & (W' & A' & R' & T') & (s & ES & S32 & EC)). assert (ND : forall c y, c <> soa_cell (z_apex z) -> (crec z' c y <-> crec z c y)) by (intros c y N; rewrite R'; destruct (cell_dec c (soa_cell (z_apex z))); [contradiction|tauto]). assert (SR : forall y, crec z' (soa_cell (z_apex z)) y <-> y = x) by (intros y; rewrite R'; destruct (cell_dec (soa_cell (z_apex z)) (soa_cell (z_apex z))); [split; [intros [->|[]]; auto|intros ->; left; auto]|contradiction]). constructor; auto.
    + congruence.
    + intros k o y H. rewrite A'. destruct (cell_dec (k, o, SOA) (soa_cell (z_apex z))) as [E|N]; [injection E as _ E; auto|]. apply ND in H; auto. eapply SO; eauto.
    + intros _. exists x. rewrite A'. apply SR. auto.
    + intros H1 H2. destruct (IN H1 H2) as [y Hy]. exists y. rewrite A'. apply ND; auto. discriminate.
    + intros o t x1 y1 NT H1 H2. apply ND in H1; [|discriminate]. destruct (cell_dec (false, o, t) (soa_cell (z_apex z))) as [E|N]; [|apply ND in H2; auto; eapply IC; eauto]. rewrite E in H2. destruct HS as [w HS]. rewrite <- E in HS. eapply IC; eauto.
    + intros t HT H k o x1 y1 H1 H2. apply ND in H1; [apply ND in H2; [eapply (IG t HT H); eauto|]|]; intros [= _ _ ->]; destruct HT as [HT|[HT|HT]]; discriminate HT.
    + intros _. exists s. split; auto. exists x. rewrite A'. auto.
Qed.
Lemma fold_app : forall z0 old sn ms u, ddns_process_update z0 old sn ms u = fold_res (process_step z0 old sn) ms u. Proof. auto. Qed.
Lemma update_inv : forall z0 old sn ms zs z, inv sn zs z -> Forall (fun m => exists x, update_wf (z_apex zs) m x) ms -> runs (ddns_process_update z0 old sn ms (mkup z None)) (inv sn zs).
Proof.
  intros z0 old sn. unfold ddns_process_update. induction ms as [|m ms IH]; intros zs z I F; cbn [fold_res]; [apply runs_ok; auto|]. destruct (Forall_inv F) as [x HX]. rewrite <- (iv_apex _ _ _ I) in HX. destruct (step_spec z0 old sn z m x (iv_wf _ _ _ I) (iv_only _ _ _ I) HX) as [(z1 & E & H)|(e & E & L)]; rewrite E; cbn [rbind]; [|right; exists e; auto]. apply IH; [eapply inv_step; eauto|eapply Forall_inv_tail; eauto].
Qed.
