(** Proofs about the update section of dynamic updates: what a record of the message does to the zone. *)
From Verif Require Import Base RdatasetModel RdatasetSpec RdatasetProofs RdatasetProps NodeModel NodeProps ZoneModel ZoneProofs ZoneView ZoneFold ChangesetProofs UpdateModel SerialModel SerialSpec SerialProps DiffModel DdnsModel DdnsProofs.

Definition same (z z' : contents) : Prop := cwf z' /\ z_apex z' = z_apex z /\ (forall c x, crec z' c x <-> crec z c x) /\ (forall c v, cttl z' c v <-> cttl z c v).
(** a size limit *)
Definition limit (e : Z) : Prop := e = KNOT_ESPACE \/ e = KNOT_ENOMEM.
Definition runs (r : res update) (P : contents -> Prop) : Prop := (exists z', r = Ok (mkup z' None) /\ P z') \/ exists e, r = Err e /\ limit e.
Lemma same_refl : forall z, cwf z -> same z z. Proof. intros z W. split; auto. split; auto. split; tauto. Qed.
Lemma runs_ok : forall z (P : contents -> Prop), P z -> runs (Ok (mkup z None)) P. Proof. intros. left. eauto. Qed.
Lemma runs_impl : forall r (P Q : contents -> Prop), runs r P -> (forall z, P z -> Q z) -> runs r Q.
Proof. intros r P Q [(z & E & H)|H] HI; [left; eauto|right; auto]. Qed.

Lemma zu_remove : forall z s c b, cwf z -> good (z_apex z) s c b -> ct c <> SOA -> (forall x, In x b -> crec z c x) ->
  exists z', zone_update_remove false (mkup z None) s = Ok (mkup z' None) /\ eff_rem z z' c b.
Proof.
  intros z s c b W G NS HA. rewrite (remove_strict false z None s c b G NS). destruct (apply_remove_view z s c b false W G) as [H _]. destruct (H HA) as (z' & -> & E). cbn [rbind record]. eauto.
Qed.
Lemma good_rel : forall a s c b, good a s c b -> ct c <> RRSIG -> ck c = (ct c =? NSEC3).
Proof.
  intros a s c b G NR. pose proof (good_b _ _ _ _ G) as NB. destruct G as (_ & _ & _ & _ & HR & _). destruct b as [|y b]; [contradiction|]. destruct (HR y (or_introl eq_refl)) as [H _]. unfold rel in H. replace (ct c =? RRSIG) with false in H by lia. cbn [andb] in H. rewrite orb_false_r in H. auto.
Qed.
(** the check of the TTL finds nothing to do *)
Lemma zu_ttl : forall z' o r c b (A : Type) (k : A) (k2 : rr_data -> A), cwf z' -> good (z_apex z') (o, r) c b -> (ck c = false -> ct c <> RRSIG -> forall v, cttl z' c v -> v = rr_ttl r) ->
  (if (ct c =? RRSIG) then k else match ZoneModel.zget z' false o with None => k | Some n => match node_rrset (zn_rrs n) (ct c) with None => k | Some e => if rr_empty e || (rr_ttl e =? rr_ttl r) then k else k2 e end end) = k.
Proof.
  intros z' o r c b A k k2 W' G T'. pose proof G as (HE & HI & HO & HT & HR & HA). cbn [fst snd] in *. destruct (ct c =? RRSIG) eqn:ES; auto. pose proof (proj1 (proj2 W') false o) as WN. unfold rrs_at in WN. destruct (ZoneModel.zget z' false o) as [n|] eqn:EG; auto. pose proof (c52_lookup (zn_rrs n) (ct c) WN) as HL. destruct (node_rrset (zn_rrs n) (ct c)) as [e|]; auto. destruct HL as (rs & IE & TE & HH & _).
  destruct (ck c) eqn:EK.
  - exfalso. destruct (c52_nonempty _ _ _ _ WN HH) as [NE _]. destruct rs as [|x rs]; [contradiction|]. assert (CR : crec z' (false, o, ct c) x). { unfold crec, ck, co, ct, rrs_at. cbn [fst snd]. rewrite EG. exists (rr_ttl e), (x :: rs). split; auto. left. auto. } destruct W' as (_ & _ & WR & _). apply WR in CR. destruct CR as [CR _]. unfold ck, ct in CR. cbn [fst snd] in CR. pose proof (good_b _ _ _ _ G) as NB. destruct b as [|y b]; [contradiction|]. destruct (HR y (or_introl eq_refl)) as [RY _]. unfold rel in *. fold (ct c) in CR. rewrite ES in *. cbn [andb] in *. rewrite orb_false_r in *. congruence.
  - assert (CT : cttl z' c (rr_ttl e)). { unfold cttl, rrs_at. rewrite EK, HO, EG. exists rs. auto. } rewrite (T' eq_refl ltac:(lia) _ CT), Z.eqb_refl, orb_true_r. auto.
Qed.
Lemma zu_add : forall f z s c b, cwf z -> good (z_apex z) s c b -> ct c <> SOA -> under (fst s) (z_apex z) = true ->
  ((forall x, In x b -> ~ crec z c x) -> runs (zone_update_add (S f) false (mkup z None) s) (fun z' => eff_add z z' c (rr_ttl (snd s)) b)) /\
  (ck c = true -> ~ (forall x, In x b -> ~ crec z c x) -> runs (zone_update_add (S f) false (mkup z None) s) (same z)).
Proof.
  intros f z [o r] c b W G NS U. cbn [zone_update_add]. pose proof (good_empty _ _ _ _ G) as HEm. cbn [snd] in HEm. rewrite HEm. pose proof G as (HE & HI & HO & HT & HR & HA). cbn [fst snd] in *. rewrite <- HT. replace (ct c =? SOA) with false by lia. cbn [u_new u_chg]. rewrite orb_false_r. destruct (apply_add_view z (o, r) c b false W G U) as [V1 V2]. split.
  - intros H. destruct (V1 H) as [(z' & E & EF)|(e & E & HL)]; [|right; exists e; rewrite E; auto]. left. exists z'. split; auto. rewrite E. cbn [rbind u_new u_chg]. destruct EF as (W' & A' & R' & T'). rewrite (zu_ttl z' o r c b _ _ _ W'); [cbn [rbind]; auto|rewrite A'; auto|]. intros HK HN v Hv. apply T' in Hv. cbn [snd] in Hv. destruct Hv as [[Hv _]|[_ [[Hv _]|[Hv _]]]]; [contradiction|contradiction|auto].
  - intros HK H. destruct (V2 H) as (z' & h & E1 & E). left. exists z'. cbn [fst] in E1. destruct (add_node_view _ _ _ _ _ W E1) as (W' & A' & R' & T'). split; [|split; auto]. rewrite E. cbn [rbind u_new u_chg]. rewrite (zu_ttl z' o r c b _ _ _ W'); [auto|rewrite A'; auto|congruence].
Qed.
(** the SOA is replaced *)
Definition soa_replaced (z z' : contents) (ttl : Z) (b : list (list Z)) : Prop := cwf z' /\ z_apex z' = z_apex z /\
  (forall c x, crec z' c x <-> if cell_dec c (soa_cell (z_apex z)) then In x b else crec z c x) /\
  (forall c v, cttl z' c v <-> if cell_dec c (soa_cell (z_apex z)) then v = ttl else cttl z c v).
Lemma zu_soa : forall f z s b, cwf z -> entry_ok (snd s) -> rr_type (snd s) = SOA -> is (rr_rrs (snd s)) b -> fst s = z_apex z -> has_soa z ->
  runs (zone_update_add (S f) false (mkup z None) s) (fun z' => soa_replaced z z' (rr_ttl (snd s)) b).
Proof.
  intros f z [o r] b W HE HT HB HO HS. pose proof (empty_soa (o, r) b HE HB) as HM. cbn [fst snd] in *. cbn [zone_update_add]. rewrite HM, HT. change (SOA =? SOA) with true. rewrite orb_true_r. cbn [u_new u_chg]. unfold apply_replace_soa. subst o. rewrite neqb_refl. cbn [negb].
  pose proof (cwf_wf z (soa_cell (z_apex z)) W) as WN. change (rrs_at z (ck (soa_cell (z_apex z))) (co (soa_cell (z_apex z)))) with (rrs_at z false (z_apex z)) in WN. rewrite apexn_rrs. pose proof (c52_lookup _ SOA WN) as HL. destruct (node_rrset (rrs_at z false (z_apex z)) SOA) as [e|] eqn:EN.
  2:{ exfalso. destruct HS as (x & v & rs & H & _). destruct HL as [HL _]. eapply HL; eauto. }
  destruct HL as (rs & IE & TE & HH & _). assert (HEe : entry_ok e). { destruct (c52_nonempty _ _ _ _ WN HH). split; [unfold SOA in *; lia|eauto]. }
  pose proof (soa_good (z_apex z) (z_apex z, e) rs HEe TE IE eq_refl) as G. assert (CR : forall x, crec z (soa_cell (z_apex z)) x <-> In x rs). { intros x. split; [intros (v & rs' & H1 & H2); destruct (c52_unique _ _ _ _ _ _ WN H1 HH) as [_ ->]; auto|intros; exists (rr_ttl e), rs; auto]. }
  destruct (proj1 (apply_remove_view z _ _ _ false W G)) as (z1 & E1 & W1 & A1 & R1 & T1); [intros x Hx; apply CR; auto|]. rewrite E1. cbn [rbind]. rewrite apexn_rrs, A1.
  assert (NR : forall x, ~ crec z1 (soa_cell (z_apex z)) x) by (intros x H; apply R1 in H; rewrite CR in H; tauto).
  pose proof (cwf_wf z1 (soa_cell (z_apex z)) W1) as WN1. change (rrs_at z1 (ck (soa_cell (z_apex z))) (co (soa_cell (z_apex z)))) with (rrs_at z1 false (z_apex z)) in WN1. pose proof (c52_lookup _ SOA WN1) as HL1. destruct (node_rrset (rrs_at z1 false (z_apex z)) SOA) as [e1|].
  { exfalso. destruct HL1 as (rs1 & _ & _ & HH1 & _). destruct (c52_nonempty _ _ _ _ WN1 HH1) as [N1 _]. destruct rs1 as [|x rs1]; [contradiction|]. apply (NR x). exists (rr_ttl e1), (x :: rs1). split; auto. left. auto. }
  pose proof (soa_good (z_apex z) (z_apex z, r) b HE HT HB eq_refl) as G2. rewrite <- A1 in G2 at 1. assert (U : under (fst (z_apex z, r)) (z_apex z1) = true) by (rewrite A1; apply under_refl).
  destruct (proj1 (apply_add_view z1 _ _ _ false W1 G2 U)) as [(z' & E2 & W2 & A2 & R2 & T2)|(e' & E2 & H2)]; [intros x _; apply NR| |right; exists e'; rewrite E2; auto].
  left. exists z'. rewrite E2. cbn [rbind u_chg]. split; auto. split; auto. split; [congruence|]. cbn [snd] in T2. split.
  - intros c x. rewrite R2, R1. destruct (cell_dec c (soa_cell (z_apex z))) as [->|N]; [rewrite CR; tauto|tauto].
  - intros c v. rewrite T2. destruct (cell_dec c (soa_cell (z_apex z))) as [->|N]; [|rewrite T1; split; [tauto|]; intros H; left; split; auto; split; auto; destruct (proj2 (crec_cttl z c W) (ex_intro _ v H)) as [x Hx]; exists x; tauto]. split; [intros [[H _]|[_ [[H _]|[H _]]]]; [contradiction|discriminate|auto]|]. intros ->. right. split; auto. right. split; auto. discriminate.
Qed.

(** ** Removals *)
Lemma tree_apex : forall z k o t x, cwf z -> records (rrs_at z k o) t x -> k = true -> o <> z_apex z.
Proof.
  intros z k o t x W H -> E. subst o. unfold rrs_at in H. destruct (ZoneModel.zget z true (z_apex z)) as [n|] eqn:EG; [|eapply recs_nil; eauto]. destruct W as ((_ & _ & _ & NA) & _). unfold ZoneModel.zget in EG. revert EG NA. generalize (z_nsec3 z). intros l. induction l as [|[o n'] l IH]; cbn; [discriminate|]. destruct (name_eqb o (z_apex z)) eqn:E; [apply neqb_spec in E; subst; intros _ H2; apply H2; left; auto|intros H1 H2; apply IH; auto].
Qed.
Definition rdv (m : mrr) (x : list Z) : Prop := is (rr_rrs (m_rr m)) [x].
Lemma entry_good : forall z k o e b, cwf z -> node_rrset (rrs_at z k o) (rr_type e) = Some e -> is (rr_rrs e) b -> good (z_apex z) (o, e) (k, o, rr_type e) b /\ forall x, crec z (k, o, rr_type e) x <-> In x b.
Proof.
  intros z k o e b W E HB. pose proof (lookup_recs (rrs_at z k o) (rr_type e) (proj1 (proj2 W) k o)) as H. rewrite E in H. destruct H as (b' & HB' & _ & NB & HT & _ & HR). rewrite (is_fun _ _ _ HB' HB) in *. clear b' HB'. assert (CR : forall x, crec z (k, o, rr_type e) x <-> In x b) by (intros x; apply HR). split; auto.
  split; [split; [auto|exists b; auto]|]. split; auto. split; auto. split; auto. split; [intros x Hx; apply W, CR; auto|]. intros HK. destruct b as [|x b]; [contradiction|]. apply (tree_apex z k o (rr_type e) x W); auto. apply CR. left. auto.
Qed.
Lemma lookup_type : forall n t e, node_wf n -> node_rrset n t = Some e -> rr_type e = t.
Proof. intros n t e W E. pose proof (lookup_recs n t W) as H. rewrite E in H. destruct H as (b & _ & H & _). auto. Qed.
(** RRset deletion at a node of the tree [k] *)
Definition rrset_cut (z z' : contents) (k : bool) (o : name) (t : Z) : Prop := cwf z' /\ z_apex z' = z_apex z /\
  (forall c x, crec z' c x <-> crec z c x /\ c <> (k, o, t)) /\ (forall c v, cttl z' c v <-> cttl z c v /\ c <> (k, o, t)).
Lemma cut_of_rem : forall z z' k o t b, cwf z -> (forall x, crec z (k, o, t) x <-> In x b) -> eff_rem z z' (k, o, t) b -> rrset_cut z z' k o t.
Proof.
  intros z z' k o t b W HB (W' & A' & R' & T'). split; auto. split; auto. split.
  - intros c x. rewrite R'. split; [intros [H N]; split; auto; intros ->; apply N; split; auto; apply HB; auto|tauto].
  - intros c v. rewrite T'. split; [intros [H (x & Hx & N)]; split; auto; intros ->; apply N; split; auto; apply HB; auto|]. intros [H N]. split; auto. destruct (proj2 (crec_cttl z c W) (ex_intro _ v H)) as [x Hx]. exists x. tauto.
Qed.
Definition kept (z : contents) (k : bool) (o : name) (t : Z) : Prop := t = SOA \/ (t = T_NS /\ exists x, crec z (k, o, SOA) x).
Lemma rem_rrset : forall z n k o t, cwf z -> node_rrs n = rrs_at z k o ->
  exists z', process_rem_rrset n o t (mkup z None) = Ok (mkup z' None) /\ ((kept z k o t /\ z' = z) \/ (~ kept z k o t /\ rrset_cut z z' k o t)).
Proof.
  intros z n k o t W HN. unfold process_rem_rrset. pose proof (exists_recs n SOA) as HS. rewrite HN in HS. specialize (HS (proj1 (proj2 W) k o)). destruct (type_exists n SOA && (t =? T_NS)) eqn:EK.
  - exists z. split; auto. left. split; auto. right. apply andb_true_iff in EK. destruct EK as [E1 E2]. split; [lia|]. destruct (proj1 HS E1) as [x Hx]. exists x. exact Hx.
  - rewrite HN. pose proof (lookup_recs (rrs_at z k o) t (proj1 (proj2 W) k o)) as HL. destruct (node_rrset (rrs_at z k o) t) as [e|] eqn:EN.
    + destruct HL as (b & HB & TE & NB & HT & _ & HR). subst t. destruct (entry_good z k o e b W EN HB) as [G CR]. destruct (Z.eq_dec (rr_type e) SOA) as [TS|TS].
      * exists z. split; [|left; split; [left; auto|auto]]. unfold zone_update_remove. rewrite (good_empty _ _ _ _ G). cbn [snd]. rewrite TS. change (SOA =? SOA) with true. auto.
      * destruct (zu_remove z _ _ _ W G TS (fun x Hx => proj2 (CR x) Hx)) as (z' & E & EF). exists z'. split; auto. right. split; [|eapply cut_of_rem; eauto]. intros [H|[H1 (x & Hx)]]; auto. rewrite H1 in EK. change (T_NS =? T_NS) with true in EK. rewrite andb_true_r in EK. assert (type_exists n SOA = true) by (apply HS; exists x; exact Hx). congruence.
    + destruct HL as [_ HL]. exists z. split; auto. assert (CUT : rrset_cut z z k o t). { split; auto. split; auto. assert (N : forall c x, crec z c x -> c <> (k, o, t)) by (intros c x Hx ->; exact (HL x Hx)). split; [intros c x; split; [intros H; split; auto; eapply N; eauto|tauto]|]. intros c v. split; [|tauto]. intros H. split; auto. destruct (proj2 (crec_cttl z c W) (ex_intro _ v H)) as [x Hx]. eapply N; eauto. }
      destruct (Z.eq_dec t SOA) as [->|TS]; [left; split; [left; auto|auto]|]. right. split; auto. intros [H|[H1 (x & Hx)]]; auto. assert (type_exists n SOA = true) by (apply HS; exists x; exact Hx). rewrite H1, H in EK. discriminate.
Qed.
(** deletion of one record *)
Lemma rem_rr : forall z m x k n, cwf z -> rdv m x -> node_or_nsec3 z (m_owner m) = Some (k, n) ->
  let o := m_owner m in let t := rr_type (m_rr m) in
  let last := t = T_NS /\ (exists y, crec z (k, o, SOA) y) /\ (forall y1 y2, crec z (k, o, T_NS) y1 -> crec z (k, o, T_NS) y2 -> y1 = y2) in
  exists z', process_rem_rr (Some (k, n)) o (m_rr m) (mkup z None) = Ok (mkup z' None) /\
  (((t = SOA \/ last \/ ~ crec z (k, o, t) x) /\ z' = z) \/ (t <> SOA /\ ~ last /\ crec z (k, o, t) x /\ eff_rem z z' (k, o, t) [x])).
Proof.
  intros z m x k n W HX EN o t last. fold o in EN. assert (RA : zn_rrs n = rrs_at z k o). { unfold node_or_nsec3 in EN. unfold rrs_at. destruct (ZoneModel.zget z false o) eqn:E1; [injection EN as <- ->; rewrite E1; auto|]. destruct (ZoneModel.zget z true o) eqn:E2; [injection EN as <- ->; rewrite E2; auto|discriminate]. }
  pose proof (proj1 (proj2 W) k o) as WN. unfold process_rem_rr. fold t. rewrite RA. pose proof (exists_recs (Some (k, n)) SOA) as HS. cbn [node_rrs] in HS. rewrite RA in HS. specialize (HS WN).
  match goal with |- context [if ?b then Ok (mkup z None) else _] => set (lb := b) end.
  assert (HLB : lb = true -> last \/ ~ crec z (k, o, t) x). { unfold lb. intros H. apply andb_true_iff in H. destruct H as [H H3]. apply andb_true_iff in H. destruct H as [H1 H2]. assert (TN : t = T_NS) by lia. pose proof (lookup_recs _ T_NS WN) as HL. destruct (node_rrset (rrs_at z k o) T_NS) as [e|].
    - left. split; auto. split; [destruct (proj1 HS H1) as [y Hy]; exists y; exact Hy|]. destruct HL as (b & HB & _ & _ & _ & EB & HR). rewrite EB, (is_count _ _ HB) in H3. intros y1 y2 Y1 Y2. apply HR in Y1. apply HR in Y2. destruct b as [|a [|a2 b]]; [destruct Y1|destruct Y1 as [<-|[]], Y2 as [<-|[]]; auto|]. rewrite !zlen_cons in H3. pose proof (zlen_nonneg b). lia.
    - right. rewrite TN. apply HL. }
  assert (HLN : last -> crec z (k, o, t) x -> lb = true). { intros (H1 & (y & H2) & H3) HC. unfold lb. rewrite (proj2 HS (ex_intro _ y H2)), H1. change (T_NS =? T_NS) with true. cbn [andb]. pose proof (lookup_recs _ T_NS WN) as HL. destruct (node_rrset (rrs_at z k o) T_NS) as [e|].
    - destruct HL as (b & HB & _ & NB & _ & EB & HR). rewrite EB, (is_count _ _ HB). destruct b as [|a [|a2 b]]; [contradiction|reflexivity|]. exfalso. pose proof (H3 a a2 (proj2 (HR a) ltac:(left; auto)) (proj2 (HR a2) ltac:(right; left; auto))) as E. subst a2. destruct HB as ([SS _] & _). inversion SS as [|? ? _ F]; subst. pose proof (Forall_inv F) as L. unfold rd_lt in L. clear -L. induction a; cbn in L; [discriminate|]. rewrite Z.compare_refl in L. auto.
    - destruct HL as [-> _]. auto. }
  destruct lb.
  { exists z. split; [reflexivity|]. left. split; [|reflexivity]. destruct (HLB eq_refl); auto. }
  clear HLB. pose proof (lookup_recs _ t WN) as HL. destruct (node_rrset (rrs_at z k o) t) as [e|] eqn:EE; [|exists z; split; auto; left; split; auto; right; right; apply HL].
  destruct HL as (b & HB & TE & NB & HT & _ & HR). unfold rr_empty. rewrite (is_count _ _ HB). replace (zlen b =? 0) with false by (destruct b; [contradiction|]; rewrite zlen_cons; pose proof (zlen_nonneg b); lia).
  pose proof (c07_at _ _ 0 HX ltac:(lia)) as A. change (Base.zget [x] 0) with (Some x) in A. rewrite A. cbn [rbind]. assert (RX : rdata_ok x) by (destruct HX as ([_ F] & _); exact (Forall_inv F)). destruct (c07_member _ _ x HB) as (q & EQ & HQ). rewrite EQ. cbn [rbind]. destruct q; cbn [negb].
  - assert (CR : crec z (k, o, t) x) by (apply HR, HQ; auto). assert (G : good (z_apex z) (o, mkrr t (rr_ttl e) (rr_rrs (m_rr m))) (k, o, t) [x]).
    { split; [split; [cbn [rr_type]; auto|exists [x]; split; auto; discriminate]|]. split; [exact HX|]. split; auto. split; auto. split; [intros y [<-|[]]; apply W; auto|]. intros HK. apply (tree_apex z k o t x W); auto. }
    destruct (Z.eq_dec t SOA) as [TS|TS].
    + exists z. split; [|left; auto]. unfold zone_update_remove. rewrite (good_empty _ _ _ _ G). cbn [snd rr_type]. rewrite TS. auto.
    + destruct (zu_remove z _ _ _ W G TS) as (z' & E & EF); [intros y [<-|[]]; auto|]. exists z'. split; auto. right. split; auto. split; auto. intros HLS. specialize (HLN HLS CR). discriminate.
  - exists z. split; auto. left. split; auto. right. right. intros H. apply HR in H. apply HQ in H. discriminate.
Qed.
(** deletion of all RRsets of a name *)
Definition node_cut (z z' : contents) (k : bool) (o : name) (ts : list Z) : Prop := cwf z' /\ z_apex z' = z_apex z /\
  (forall c x, crec z' c x <-> crec z c x /\ ~ (ck c = k /\ co c = o /\ In (ct c) ts /\ ~ kept z k o (ct c))) /\
  (forall c v, cttl z' c v <-> cttl z c v /\ ~ (ck c = k /\ co c = o /\ In (ct c) ts /\ ~ kept z k o (ct c))).
Lemma kept_dec : forall z k o t, cwf z -> kept z k o t \/ ~ kept z k o t.
Proof.
  intros z k o t W. unfold kept. destruct (Z.eq_dec t SOA); auto. destruct (Z.eq_dec t T_NS); [|right; intros [H|[H _]]; auto]. destruct (has_dec (rrs_at z k o) SOA (proj1 (proj2 W) k o)) as [(v & b & H)|H].
  - destruct (c52_nonempty _ _ _ _ (proj1 (proj2 W) k o) H) as [NB _]. destruct b as [|x b]; [contradiction|]. left. right. split; auto. exists x, v, (x :: b). split; auto. left. auto.
  - right. intros [H1|[_ (x & v & b & H1 & _)]]; auto. eapply H; eauto.
Qed.
Lemma rem_types : forall k o es z, cwf z -> exists z', fold_res (fun u e => process_rem_rrset (match ZoneModel.zget (u_new u) k o with Some n => Some (k, n) | None => None end) o (rr_type e) u) es (mkup z None) = Ok (mkup z' None) /\ node_cut z z' k o (map rr_type es).
Proof.
  intros k o. induction es as [|e es IH]; intros z W; cbn [fold_res map].
  - exists z. split; auto. split; auto. split; auto. split; intros; split; try tauto; intros H; split; auto; intros (_ & _ & [] & _).
  - destruct (rem_rrset z (match ZoneModel.zget z k o with Some n => Some (k, n) | None => None end) k o (rr_type e) W) as (z1 & E1 & H1); [unfold rrs_at, node_rrs; destruct (ZoneModel.zget z k o); auto|]. cbn [u_new]. rewrite E1. cbn [rbind].
    assert (W1 : cwf z1 /\ z_apex z1 = z_apex z) by (destruct H1 as [[_ ->]|[_ (? & ? & _)]]; auto). destruct (IH z1 (proj1 W1)) as (z' & E & W' & A' & R' & T'). exists z'. split; auto. split; auto. split; [destruct W1; congruence|].
    assert (KS : forall t, kept z1 k o t <-> kept z k o t). { intros t. unfold kept. destruct H1 as [[_ ->]|[NK (_ & _ & R1 & _)]]; [tauto|]. assert (X : (exists x, crec z1 (k, o, SOA) x) <-> exists x, crec z (k, o, SOA) x); [|tauto]. split; intros [x Hx]; exists x; [apply R1 in Hx; tauto|]. apply R1. split; auto. intros [= HE]. apply NK. left. auto. }
    assert (CE : forall c : cell, c = (k, o, rr_type e) <-> ck c = k /\ co c = o /\ ct c = rr_type e) by (intros c; split; [intros ->; auto|intros (? & ? & ?); rewrite (cell_eta c); congruence]).
    cbn [In]. destruct H1 as [[HK ->]|[NK (_ & _ & R1 & T1)]].
    + split; [intros c x; rewrite R'|intros c v; rewrite T']; (split; intros [H N]; (split; [exact H|]); intros (H1 & H2 & H3 & H4); apply N; (split; [exact H1|]; split; [exact H2|]; split; [|exact H4])); try (destruct H3 as [H3|H3]; auto; exfalso; apply H4; rewrite <- H3; auto); auto.
    + split; [intros c x; rewrite R', R1|intros c v; rewrite T', T1]; rewrite KS, CE; (split; [intros [[H N1] N2]; (split; [exact H|]); intros (H1 & H2 & [H3|H3] & H4); [apply N1; auto|apply N2; auto]|]); intros [H N]; (split; [split; [exact H|]; intros (H1 & H2 & H3); apply N; rewrite H3; auto|]); intros (H1 & H2 & H3 & H4); apply N; auto.
Qed.
Lemma rem_node : forall z o, cwf z -> exists k z', process_rem_node o (mkup z None) = Ok (mkup z' None) /\ (forall n, node_or_nsec3 z o = Some n -> fst n = k) /\ cwf z' /\ z_apex z' = z_apex z /\
  (forall c x, crec z' c x <-> crec z c x /\ ~ (ck c = k /\ co c = o /\ node_or_nsec3 z o <> None /\ ~ kept z k o (ct c))) /\ (forall c v, cttl z' c v <-> cttl z c v /\ ~ (ck c = k /\ co c = o /\ node_or_nsec3 z o <> None /\ ~ kept z k o (ct c))).
Proof.
  intros z o W. unfold process_rem_node. cbn [u_new]. destruct (node_or_nsec3 z o) as [[k n]|] eqn:EN.
  - destruct (rem_types k o (rev (zn_rrs n)) z W) as (z' & E & W' & A' & R' & T'). exists k, z'. split; auto. split; [intros ? [= <-]; auto|]. split; auto. split; auto.
    assert (RA : zn_rrs n = rrs_at z k o). { unfold node_or_nsec3 in EN. unfold rrs_at. destruct (ZoneModel.zget z false o) eqn:E1; [injection EN as <- ->; rewrite E1; auto|]. destruct (ZoneModel.zget z true o) eqn:E2; [injection EN as <- ->; rewrite E2; auto|discriminate]. }
    assert (IT : forall c, ck c = k -> co c = o -> (exists x, crec z c x) -> In (ct c) (map rr_type (rev (zn_rrs n)))). { intros c H1 H2 (x & v & b & (e & HI & HT & _) & _). rewrite H1, H2, <- RA in HI. apply in_map_iff. exists e. split; auto. rewrite <- in_rev. auto. }
    split; intros c x; [rewrite R'|rewrite T']; split; intros [H N]; (split; [exact H|]); intros (H1 & H2 & H3 & H4); apply N; (split; [exact H1|]); (split; [exact H2|]); (split; [|exact H4]); try discriminate; apply IT; auto; [exists x; auto|]. apply (crec_cttl z c W). exists x. auto.
  - exists false, z. split; auto. split; [discriminate|]. split; auto. split; auto. split; intros; split; try tauto; intros H; split; auto; intros (_ & _ & H2 & _); contradiction.
Qed.
