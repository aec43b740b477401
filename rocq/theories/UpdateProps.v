(** C56: the changeset recorded by an update tells the difference. *)
From Verif Require Import Base RdatasetModel RdatasetSpec RdatasetProofs RdatasetProps NodeModel NodeProps ZoneModel ZoneProofs ZoneView ZoneFold ChangesetProofs MergeProofs ZoneExamples ChangesetProps UpdateModel.

(** ** Specification *)
(** The TTL of an RRset that is added or removed is the one the zone has for it, if it has any (signatures aside). *)
Definition ttl_agrees (z : contents) (s : rrset) (c : cell) : Prop := ct c <> RRSIG -> forall v, cttl z c v -> v = rr_ttl (snd s).
Definition op_rrset (op : uop) : rrset := match op with UAdd s => s | URemove s => s end.
Definition op_ok (z : contents) (op : uop) : Prop :=
  exists c b, good (z_apex z) (op_rrset op) c b /\ (ct c <> SOA -> ttl_agrees z (op_rrset op) c).
(** All operations succeed, each of them with a good RRset for the zone at that moment. *)
Inductive history : update -> list uop -> update -> Prop :=
| h_nil : forall u, history u [] u
| h_cons : forall u op u1 ops u2, op_ok (u_new u) op -> ustep true u op = Ok u1 -> history u1 ops u2 -> history u (op :: ops) u2.

(** ** Proofs *)
Record tracks (z0 z R A : contents) (c : cell) : Prop := {
  t_rem : forall w, crec R c w -> crec z0 c w;
  t_add : forall w, crec A c w -> crec z0 c w -> crec R c w;
  t_rec : forall w, crec z c w <-> (crec z0 c w /\ ~ crec R c w) \/ crec A c w;
  t_rttl : ct c <> RRSIG -> forall v, cttl R c v -> cttl z0 c v;
  t_attl : ct c <> RRSIG -> forall v, cttl A c v -> cttl z c v;
  t_keep : ct c <> RRSIG -> forall w, crec z0 c w -> ~ crec R c w -> forall v, cttl z c v <-> cttl z0 c v }.
Lemma tracks_same : forall z0 z R A z' R' A' c, same_at z z' c -> same_at R R' c -> same_at A A' c -> tracks z0 z R A c -> tracks z0 z' R' A' c.
Proof.
  intros z0 z R A z' R' A' c [Z1 Z2] [R1 R2] [A1 A2] [H1 H2 H3 H4 H5 H6]. split.
  - intros w H. apply H1, R1. auto.
  - intros w H HZ. apply R1. apply H2; auto. apply A1. auto.
  - intros w. rewrite <- Z1, <- R1, <- A1. auto.
  - intros N v H. apply H4; auto. apply R2. auto.
  - intros N v H. apply Z2. apply H5; auto. apply A2. auto.
  - intros N w HZ HR v. rewrite <- Z2. apply (H6 N w); auto. rewrite R1. auto.
Qed.
Ltac prop := repeat match goal with
  | H : ct _ <> RRSIG -> forall _, _ |- _ => clear H
  | H : forall _ : ?T, _ |- _ => match type of T with Prop => fail 1 | _ => clear H end
  | H : cwf _ |- _ => clear H end; tauto.
Ltac same := match goal with H1 : cttl ?z ?c ?v, H2 : cttl ?z ?c ?w |- _ => assert (v = w) by (apply (cttl_fun z c v w); assumption) end.
Lemma track_remove : forall z0 z R A z' R' A' c ttl b, cwf z0 -> cwf z -> cwf R -> cwf A -> cwf R' -> cwf A' -> cwf z' -> b <> [] -> tracks z0 z R A c -> eff_rem z z' c b -> (forall w, In w b -> crec z c w) -> (ct c <> RRSIG -> forall v, cttl z c v -> v = ttl) ->
  lstep A R A' R' c ttl (fun w => In w b) -> tracks z0 z' R' A' c.
Proof.
  intros z0 z R A z' R' A' c ttl b W0 W WR WA WR' WA' W' NB [H1 H2 H3 H4 H5 H6] (_ & _ & RZ & TZ) SUB TT (L1 & L2 & L3 & L4).
  assert (E : (forall w, crec A' c w <-> crec A c w /\ ~ In w b) /\ (forall w, crec R' c w <-> crec R c w \/ (In w b /\ ~ crec A c w))).
  { destruct (hits_dec A c ttl WA) as [HH|HH]; [destruct (L1 HH); auto|]. destruct (L2 HH) as [E1 E2]. assert (NA : forall w, ~ crec A c w). { intros w Hw. apply HH. destruct (proj1 (crec_cttl A c WA) (ex_intro _ w Hw)) as [v Hv]. exists v. split; auto. destruct (Z.eq_dec (ct c) RRSIG); auto. } split; intros w; [rewrite E1|rewrite E2]; pose proof (NA w) as Q; clear - Q; prop. }
  destruct E as [EA ER]. assert (RZ' : forall w, crec z' c w <-> crec z c w /\ ~ In w b) by (intros w; rewrite RZ; prop).
  assert (NEW : forall w, In w b -> ~ crec A c w -> crec z0 c w /\ ~ crec R c w). { intros w Hb HA. destruct (proj1 (H3 w) (SUB w Hb)) as [|]; prop. }
  assert (TTR : ct c <> RRSIG -> forall v, cttl z c v -> exists w, In w b /\ cttl z c ttl). { intros N v Hv. destruct b as [|w b]; [contradiction|]. exists w. split; [left; auto|]. rewrite <- (TT N v Hv). auto. }
  split.
  - intros w H. apply ER in H. destruct H as [H|[Hb HA]]; auto. apply NEW; auto.
  - intros w H HZ. apply EA in H. apply ER. left. apply H2; prop.
  - intros w. rewrite RZ', H3, ER, EA. pose proof (H2 w) as Q2. destruct (in_dec_bytes w b) as [Hb|Hb]; destruct (crec_dec A c w WA) as [Ha|Ha]; clear - Q2 Hb Ha; prop.
  - intros N v Hv. apply L4 in Hv; auto. destruct Hv as [[(w & Hb & HN) ->]|[_ Hv]]; [|apply H4; auto].
    assert (HA : ~ crec A c w). { intros HA. apply HN. split; auto. destruct (proj1 (crec_cttl A c WA) (ex_intro _ w HA)) as [v Hv]. exists v. split; [assumption|]. left. apply TT; auto. }
    destruct (NEW w Hb HA) as [Hz Hr]. destruct (proj1 (crec_cttl z0 c W0) (ex_intro _ w Hz)) as [v Hv]. pose proof (proj2 (H6 N w Hz Hr v) Hv) as Hv'. rewrite <- (TT N v Hv'). auto.
  - intros N v Hv. apply L3 in Hv. destruct Hv as [Hv (w & Hw)]. apply TZ. split; [apply H5; auto|]. exists w. apply EA in Hw. split; [apply H3|]; prop.
  - intros N w Hz Hr v. assert (Hr0 : ~ crec R c w) by (intros X; apply Hr, ER; auto). rewrite <- (H6 N w Hz Hr0 v). rewrite TZ. split; [prop|]. intros Hv. split; auto. exists w. split; [apply H3; auto|]. intros [_ Hb]. apply Hr, ER. right. split; [assumption|]. intros HA. apply Hr0. apply H2; assumption.
Qed.
Lemma track_add : forall z0 z R A z' R' A' c ttl b, cwf z0 -> cwf z -> cwf R -> cwf A -> cwf R' -> cwf A' -> cwf z' -> b <> [] -> tracks z0 z R A c -> eff_add z z' c ttl b -> (forall w, In w b -> ~ crec z c w) -> (ct c <> RRSIG -> forall v, cttl z c v -> v = ttl) ->
  lstep R A R' A' c ttl (fun w => In w b) -> tracks z0 z' R' A' c.
Proof.
  intros z0 z R A z' R' A' c ttl b W0 W WR WA WR' WA' W' NB [H1 H2 H3 H4 H5 H6] (_ & _ & RZ & TZ) SUB TT (L1 & L2 & L3 & L4).
  assert (RZ' : forall w, crec z' c w <-> crec z c w \/ In w b) by (intros w; rewrite RZ; prop).
  assert (TZ' : ct c <> RRSIG -> forall v, cttl z' c v <-> v = ttl). { intros N v. rewrite TZ. split; [intros [[X _]|[_ [[X _]|[X _]]]]; [contradiction|contradiction|auto]|]. intros ->. right. split; [reflexivity|]. right. split; [reflexivity|]. intros X. contradiction. }
  assert (INR : forall w, In w b -> crec z0 c w -> crec R c w). { intros w Hb HZ. destruct (crec_dec R c w WR) as [|N]; auto. exfalso. apply (SUB w Hb). apply H3. auto. }
  destruct (hits_dec R c ttl WR) as [HH|HH].
  - destruct (L1 HH) as [ER EA]. split.
    + intros w H. apply ER in H. apply H1. prop.
    + intros w H HZ. apply EA in H. apply ER. destruct H as [H|[Hb HR]]; [|exfalso; apply HR; auto]. split; [apply H2; auto|]. intros Hb. apply (SUB w Hb), H3. auto.
    + intros w. rewrite RZ', H3, ER, EA. pose proof (INR w) as Q1. pose proof (H1 w) as Q2. destruct (in_dec_bytes w b) as [Hb|Hb]; destruct (crec_dec R c w WR) as [Hr|Hr]; clear - Q1 Q2 Hb Hr; prop.
    + intros N v Hv. apply L3 in Hv. apply H4; prop.
    + intros N v Hv. apply TZ'; auto. apply L4 in Hv; auto. destruct Hv as [[_ ->]|[_ Hv]]; auto.
    + intros N w Hz Hr v. rewrite (TZ' N). destruct HH as (v0 & Hv0 & [->|X]); [|contradiction]. pose proof (H4 N _ Hv0). split; [intros ->; auto|]. intros Hv. same. auto.
  - destruct (L2 HH) as [ER EA]. split.
    + intros w H. apply H1, ER. auto.
    + intros w H HZ. apply ER. apply EA in H. destruct H as [H|H]; auto.
    + intros w. rewrite RZ', H3, ER, EA. prop.
    + intros N v Hv. apply L3 in Hv. apply H4; prop.
    + intros N v Hv. apply TZ'; auto. apply L4 in Hv; auto. destruct Hv as [[_ ->]|[_ Hv]]; auto.
    + intros N w Hz Hr v. rewrite ER in Hr. rewrite (TZ' N). rewrite <- (H6 N w Hz Hr v). assert (Hw : crec z c w) by (apply H3; auto). destruct (proj1 (crec_cttl z c W) (ex_intro _ w Hw)) as [v1 Hv1]. pose proof (TT N v1 Hv1). subst v1. split; [intros ->; auto|]. intros. same. auto.
Qed.
(** The whole state *)
Record recorded (z0 : contents) (u : update) (ch : changeset) : Prop := {
  rc_ch : u_chg u = Some ch; rc_wf : cwf (u_new u); rc_apex : z_apex (u_new u) = z_apex z0; rc_chwf : chwf (z_apex z0) ch;
  rc_cell : forall c, c <> soa_cell (z_apex z0) -> tracks z0 (u_new u) (ch_rem ch) (ch_add ch) c;
  rc_soa : let c := soa_cell (z_apex z0) in
    match soa_to ch with
    | None => same_at z0 (u_new u) c
    | Some s => fst s = z_apex z0 /\ (exists x, crec z0 c x) /\ exists b, is (rr_rrs (snd s)) b /\ (forall x, crec (u_new u) c x <-> In x b) /\ (forall v, cttl (u_new u) c v <-> v = rr_ttl (snd s))
    end }.
Lemma good_soa : forall a s c b, good a s c b -> ct c = SOA -> ck c = false.
Proof. intros a s c b G H. pose proof (good_b _ _ _ _ G) as NB. destruct G as (_ & _ & _ & _ & HR & _). destruct b as [|x b]; [contradiction|]. destruct (HR x (or_introl eq_refl)) as [HR' _]. rewrite H in HR'. rewrite <- HR'. reflexivity. Qed.
Lemma lstep_sub : forall x y x' y' c ttl B, cwf x -> lstep x y x' y' c ttl B -> (forall w, crec x' c w -> crec x c w) /\ (forall w, crec y' c w -> crec y c w \/ B w).
Proof. intros x y x' y' c ttl B W (L1 & L2 & _). destruct (hits_dec x c ttl W) as [H|H]; [destruct (L1 H) as [E1 E2]|destruct (L2 H) as [E1 E2]]; split; intros w Hw; [apply E1 in Hw; tauto|apply E2 in Hw; tauto|apply E1 in Hw; tauto|apply E2 in Hw; tauto]. Qed.
Lemma add_soa_rec : forall z ch (s : rrset) b, entry_ok (snd s) -> rr_type (snd s) = SOA -> is (rr_rrs (snd s)) b ->
  zone_update_add 3 true (mkup z (Some ch)) s = let* z' := apply_replace_soa true z s in Ok (mkup z' (Some (mkch (ch_add ch) (ch_rem ch) (soa_from ch) (Some s)))).
Proof. intros z ch [o r] b HE HT HB. pose proof (empty_soa _ _ HE HB) as H. cbn [snd] in *. cbn [zone_update_add]. rewrite H, HT. change (SOA =? SOA) with true. rewrite orb_true_r. cbn [u_new u_chg]. destruct (apply_replace_soa true z (o, r)); auto. cbn [rbind u_chg]. unfold changeset_add_addition. cbn [snd]. rewrite HT. change (SOA =? SOA) with true. auto. Qed.
Lemma step_recorded : forall z0 u ch op u1, cwf z0 -> recorded z0 u ch -> op_ok (u_new u) op -> ustep true u op = Ok u1 -> exists ch1, recorded z0 u1 ch1 /\ soa_from ch1 = soa_from ch.
Proof.
  intros z0 [z chg] ch op u1 W0 [HC W AZ CW CELL HS] (c & b & G & TT) E. cbn [u_new u_chg] in *. subst chg. pose proof (good_b _ _ _ _ G) as NB. pose proof CW as (WA & WR & AA & AR & NS & SF & ST). pose proof G as (HE & HI & HO & HT & HR & HA).
  destruct op as [s|s]; cbn [ustep op_rrset] in *.
  - destruct (Z.eq_dec (ct c) SOA) as [ES|ES].
    + rewrite (add_soa_rec z ch s b) in E by (auto; congruence). destruct (apply_replace_soa true z s) as [z'| | |] eqn:E1; cbn [rbind] in E; try discriminate. injection E as <-. destruct (proj1 (replace_view z s b W HE ltac:(congruence) HI) z' E1) as (OS & HSO & W' & A' & R' & T'). rewrite AZ in *. eexists. split; [split; cbn [u_new u_chg ch_add ch_rem soa_to]; [reflexivity|auto|congruence| | |]|reflexivity].
      * split; auto. split; auto. split; auto. split; auto. split; auto. split; auto. intros x [= <-]. split; auto. congruence.
      * intros d Hd. eapply tracks_same; [|apply same_refl|apply same_refl|apply CELL; auto]. split; intros; [rewrite R'|rewrite T']; destruct (cell_dec d (soa_cell (z_apex z0))); tauto.
      * cbv zeta. split; auto. split.
        { destruct (soa_to ch) as [s0|]; [tauto|]. destruct HSO as [x Hx]. rewrite AZ in Hx. exists x. apply HS. auto. }
        exists b. split; auto. split; intros; [rewrite R'|rewrite T']; destruct (cell_dec (soa_cell (z_apex z0)) (soa_cell (z_apex z0))); tauto.
    + assert (NC : c <> soa_cell (z_apex z0)) by (intros X; apply ES; rewrite X; reflexivity). rewrite (add_strict 2 z (Some ch) s c b W G ES) in E. destruct (apply_add_rr true z s) as [z'| | |] eqn:E1; cbn [rbind record] in E; try discriminate. destruct (apply_add_strict z s c b z' W G E1) as (SUB & HU & EFF). rewrite addition_step in E by congruence.
      assert (AY : z_apex (ch_add ch) = z_apex (ch_rem ch)) by congruence. rewrite AZ, <- AR in G, HU. destruct (merge_step_view (ch_rem ch) (ch_add ch) s c b WR WA AY G HU) as [(x' & y' & E2 & WX & WY & AX & AY' & SD & LS)|(e & E2 & _)]; rewrite E2 in E; cbn [rbind] in E; [|discriminate]. injection E as <-.
      destruct (lstep_sub _ _ _ _ _ _ _ WR LS) as [S1 S2]. eexists. split; [split; cbn [u_new u_chg ch_add ch_rem soa_to]; [reflexivity|apply EFF|destruct EFF as (_ & EA & _); congruence| | |]|reflexivity].
      * split; auto. split; auto. cbn [ch_add ch_rem soa_from soa_to]. split; [congruence|]. split; [congruence|]. split; auto. intros d w Hd. destruct (cell_dec d c) as [->|N]; auto. destruct (SD d N) as [[D1 _] [D2 _]]. apply (NS d w). destruct Hd as [Hd|Hd]; [left; apply D2|right; apply D1]; auto.
      * intros d Hd. destruct (cell_dec d c) as [->|N].
        -- eapply track_add; [exact W0|exact W|exact WR|exact WA|exact WX|exact WY|apply EFF|exact NB|apply CELL; auto|exact EFF|exact SUB|apply TT; auto|exact LS].
        -- destruct (SD d N) as [D1 D2]. destruct EFF as (_ & _ & ER & ET). eapply tracks_same; [|exact D1|exact D2|apply CELL; auto]. split; intros; [rewrite ER|rewrite ET]; tauto.
      * cbv zeta. destruct EFF as (_ & _ & ER & ET). assert (SS : same_at z z' (soa_cell (z_apex z0))) by (split; intros; [rewrite ER|rewrite ET]; split; [auto|intros [|[X _]]; [auto|congruence]|intros; left; auto|intros [[_ X]|[X _]]; [auto|congruence]]). destruct (soa_to ch) as [s0|]; [|eapply same_trans; eauto]. destruct HS as (Q1 & Q2 & b0 & Q3 & Q4 & Q5). destruct SS as [SS1 SS2]. split; auto. split; auto. exists b0. split; auto. split; intros; [rewrite <- SS1|rewrite <- SS2]; auto.
  - destruct (Z.eq_dec (ct c) SOA) as [ES|ES].
    + unfold zone_update_remove in E. rewrite (good_empty _ _ _ _ G), <- HT, ES in E. change (SOA =? SOA) with true in E. injection E as <-. exists ch. split; auto. split; auto.
    + assert (NC : c <> soa_cell (z_apex z0)) by (intros X; apply ES; rewrite X; reflexivity). rewrite (remove_strict true z (Some ch) s c b G ES) in E. destruct (apply_remove_rr true z s) as [z'| | |] eqn:E1; cbn [rbind record] in E; try discriminate. destruct (apply_remove_strict z s c b z' W G E1) as (SUB & EFF). rewrite removal_step in E by congruence.
      assert (HU : under (fst s) (z_apex z) = true). { destruct b as [|w b]; [contradiction|]. pose proof (SUB w (or_introl eq_refl)) as Hw. destruct W as (_ & _ & _ & WU). rewrite <- HO. apply (WU (ck c)). intros X. unfold crec, rrs_at in Hw. rewrite X in Hw. eapply recs_nil; eauto. }
      assert (AY : z_apex (ch_rem ch) = z_apex (ch_add ch)) by congruence. rewrite AZ, <- AA in G, HU. destruct (merge_step_view (ch_add ch) (ch_rem ch) s c b WA WR AY G HU) as [(x' & y' & E2 & WX & WY & AX & AY' & SD & LS)|(e & E2 & _)]; rewrite E2 in E; cbn [rbind] in E; [|discriminate]. injection E as <-.
      destruct (lstep_sub _ _ _ _ _ _ _ WA LS) as [S1 S2]. eexists. split; [split; cbn [u_new u_chg ch_add ch_rem soa_to]; [reflexivity|apply EFF|destruct EFF as (_ & EA & _); congruence| | |]|reflexivity].
      * split; auto. split; auto. cbn [ch_add ch_rem soa_from soa_to]. split; [congruence|]. split; [congruence|]. split; auto. intros d w Hd. destruct (cell_dec d c) as [->|N]; auto. destruct (SD d N) as [[D1 _] [D2 _]]. apply (NS d w). destruct Hd as [Hd|Hd]; [left; apply D1|right; apply D2]; auto.
      * intros d Hd. destruct (cell_dec d c) as [->|N].
        -- eapply track_remove; [exact W0|exact W|exact WR|exact WA|exact WY|exact WX|apply EFF|exact NB|apply CELL; auto|exact EFF|exact SUB|apply TT; auto|exact LS].
        -- destruct (SD d N) as [D1 D2]. destruct EFF as (_ & _ & ER & ET). eapply tracks_same; [|exact D2|exact D1|apply CELL; auto]. split; intros; [rewrite ER; tauto|]. rewrite ET. split; [|tauto]. intros Hv. split; auto. destruct (proj2 (crec_cttl z d W) (ex_intro _ v Hv)) as [w Hw]. exists w. tauto.
      * cbv zeta. destruct EFF as (_ & _ & ER & ET). assert (SS : same_at z z' (soa_cell (z_apex z0))). { split; intros; [rewrite ER; split; [intros; split; auto; intros [X _]; congruence|tauto]|]. rewrite ET. split; [|tauto]. intros Hv. split; auto. destruct (proj2 (crec_cttl z _ W) (ex_intro _ v Hv)) as [w Hw]. exists w. split; auto. intros [X _]. congruence. }
        destruct (soa_to ch) as [s0|]; [|eapply same_trans; eauto]. destruct HS as (Q1 & Q2 & b0 & Q3 & Q4 & Q5). destruct SS as [SS1 SS2]. split; auto. split; auto. exists b0. split; auto. split; intros; [rewrite <- SS1|rewrite <- SS2]; auto.
Qed.
Lemma init_recorded : forall z0 u, cwf z0 -> update_init z0 = Ok u -> exists ch, recorded z0 u ch /\ soa_from ch <> None /\ u_new u = z0.
Proof.
  intros z0 u W E. unfold update_init in E. destruct (node_rrset (zn_rrs (z_apexn z0)) SOA) as [e|] eqn:EN; [|discriminate]. injection E as <-. exists (mkch (contents_new (z_apex z0)) (contents_new (z_apex z0)) (Some (z_apex z0, e)) None). split; [|split; [|reflexivity]]; [|cbn [soa_from]; discriminate].
  assert (NR : forall c x, ~ crec (contents_new (z_apex z0)) c x). { intros c x H. assert (R : rrs_at (contents_new (z_apex z0)) (ck c) (co c) = []). { unfold rrs_at, ZoneModel.zget, contents_new. cbn [z_apex z_apexn z_nodes z_nsec3]. destruct (ck c); auto. destruct (name_eqb _ _); auto. } unfold crec in H. rewrite R in H. eapply recs_nil; eauto. }
  assert (NT : forall c v, ~ cttl (contents_new (z_apex z0)) c v). { intros c v H. destruct (proj2 (crec_cttl _ c (new_wf (z_apex z0))) (ex_intro _ v H)) as [x Hx]. eapply NR; eauto. }
  split; cbn [u_new u_chg ch_add ch_rem soa_to]; auto; [| |apply same_refl].
  - split; [apply new_wf|]. split; [apply new_wf|]. split; auto. split; auto. cbn [ch_add ch_rem soa_from soa_to]. split; [intros c x [H|H]; exfalso; eapply NR; eauto|]. split; [|intros x [=]]. intros x [= <-]. pose proof (cwf_wf z0 (soa_cell (z_apex z0)) W) as WN. change (rrs_at z0 (ck (soa_cell (z_apex z0))) (co (soa_cell (z_apex z0)))) with (rrs_at z0 false (z_apex z0)) in WN. rewrite apexn_rrs in EN. pose proof (c52_lookup _ SOA WN) as HL. rewrite EN in HL. destruct HL as (rs & IE & TE & HH & _). cbn [snd]. split; auto. destruct (c52_nonempty _ _ _ _ WN HH). split; [unfold SOA in *; lia|eauto].
  - intros c _. split.
    + intros w H. exfalso. eapply NR; eauto.
    + intros w H. exfalso. eapply NR; eauto.
    + intros w. split; [intros H; left; split; auto|]. intros [[H _]|H]; auto. exfalso. eapply NR; eauto.
    + intros _ v H. exfalso. eapply NT; eauto.
    + intros _ v H. exfalso. eapply NT; eauto.
    + intros. tauto.
Qed.
Lemma history_recorded : forall u ops u', history u ops u' -> forall z0 ch, cwf z0 -> recorded z0 u ch -> exists ch', recorded z0 u' ch' /\ soa_from ch' = soa_from ch.
Proof.
  induction 1 as [u|u op u1 ops u2 OK E H IH]; intros z0 ch W R; [exists ch; auto|]. destruct (step_recorded z0 u ch op u1 W R OK E) as (ch1 & R1 & S1). destruct (IH z0 ch1 W R1) as (ch' & R2 & S2). exists ch'. split; auto. congruence.
Qed.
Lemma recorded_applied : forall z0 u ch z', cwf z0 -> recorded z0 u ch -> applied z0 ch z' -> same_zone z' (u_new u).
Proof.
  intros z0 u ch z' W0 [HC W AZ CW CELL HS] AP. pose proof CW as (WA & WR & AA & AR & NS & SF & ST). destruct AP as [PW PA PR PD PS PC PT PSR PST]. cbv zeta in HS.
  assert (TC : forall c, touches z0 ch c \/ (~ touches z0 ch c /\ c = soa_cell (z_apex z0) /\ soa_to ch = None) \/ (~ touches z0 ch c /\ c <> soa_cell (z_apex z0))).
  { intros c. unfold touches. destruct (cell_dec c (soa_cell (z_apex z0))) as [->|N]; [|right; right; tauto]. destruct (soa_to ch); [left; split; [discriminate|auto]|right; left; tauto]. }
  assert (SC : forall c x, c = soa_cell (z_apex z0) -> ~ crec (ch_add ch) c x /\ ~ crec (ch_rem ch) c x) by (intros c x H; apply (touch_no_add (z_apex z0)); auto).
  split.
  - intros c x. destruct (TC c) as [H|[(H & HC' & HN)|(H & HC')]].
    + rewrite PSR by auto. destruct H as [HN ->]. unfold in_soa. destruct (soa_to ch) as [s|]; [|contradiction]. destruct HS as (_ & _ & b & HB & Q & _). rewrite Q. split; [intros (s' & b' & [= <-] & H1 & H2); rewrite (is_fun _ _ _ HB H1); auto|intros; exists s, b; auto].
    + rewrite PC by auto. rewrite HN in HS. destruct HS as [HS _]. subst c. rewrite <- HS. destruct (SC _ x eq_refl). tauto.
    + rewrite PC by auto. symmetry. apply (CELL c); auto.
  - intros c v NR. destruct (TC c) as [H|[(H & HC' & HN)|(H & HC')]].
    + rewrite PST by auto. destruct H as [HN ->]. destruct (soa_to ch) as [s|]; [|contradiction]. destruct HS as (_ & _ & b & HB & _ & Q). rewrite Q. split; [intros (s' & [= <-] & H1); auto|intros; exists s; auto].
    + rewrite PT by auto. rewrite HN in HS. destruct HS as [_ HS]. subst c. rewrite <- HS. split.
      * intros [(_ & H1 & _)|(w & Hw & _)]; auto. exfalso. destruct (proj2 (crec_cttl _ _ WA) (ex_intro _ w Hw)) as [x Hx]. destruct (SC _ x eq_refl). auto.
      * intros Hv. left. split; [intros x; apply SC; auto|]. split; auto. destruct (proj2 (crec_cttl _ _ W0) (ex_intro _ v Hv)) as [x Hx]. exists x. split; auto. apply SC. auto.
    + rewrite PT by auto. destruct (CELL c HC') as [H1 H2 H3 H4 H5 H6]. split.
      * intros [(_ & Hv & (x & Hx1 & Hx2))|(w & Hw & [[X _]|[-> _]])]; [apply (H6 NR x); auto|contradiction|apply H5; auto].
      * intros Hv. destruct (cne_dec (ch_add ch) c WA) as [(x & Hx)|HN].
        -- right. destruct (proj1 (crec_cttl _ _ WA) (ex_intro _ x Hx)) as [w Hw]. exists w. split; auto. right. split; [|intros; contradiction]. pose proof (H5 NR w Hw). same. auto.
        -- left. split; auto. destruct (proj2 (crec_cttl _ _ W) (ex_intro _ v Hv)) as [x Hx]. pose proof Hx as Hx0. apply H3 in Hx. destruct Hx as [[Hx1 Hx2]|Hx]; [|exfalso; eapply HN; eauto]. split; [apply (H6 NR x Hx1 Hx2); auto|eauto].
Qed.

(** ** C56 *)
(** Let an update of a zone succeed. The recorded changeset, applied to the zone as it was, gives the zone as it is now (or
    the application runs into the limit of the size of an RRset). *)
Theorem c56_recorded : forall z0 u0 ops u, cwf z0 -> update_init z0 = Ok u0 -> history u0 ops u ->
  exists ch, u_chg u = Some ch /\ soa_from ch <> None /\
    ((exists z', applies z0 ch z' /\ same_zone z' (u_new u)) \/ exists e, apply_changeset true (mkup z0 None) ch = Err e /\ limit e).
Proof.
  intros z0 u0 ops u W E H. destruct (init_recorded z0 u0 W E) as (ch0 & R0 & S0 & _). destruct (history_recorded _ _ _ H z0 ch0 W R0) as (ch & R & S). exists ch. split; [apply R|]. split; [congruence|]. pose proof R as [HC WU AZ CW CELL HS].
  assert (SC : forall c x, c = soa_cell (z_apex z0) -> ~ crec (ch_add ch) c x /\ ~ crec (ch_rem ch) c x) by (intros c x X; apply (touch_no_add (z_apex z0)); auto).
  destruct (apply_can z0 ch W CW) as [(u1 & E1)|(e & E1 & He)].
  - intros c x Hx. destruct (cell_dec c (soa_cell (z_apex z0))) as [X|N]; [exfalso; apply (proj2 (SC c x X)); auto|]. eapply t_rem; [apply CELL; exact N|auto].
  - intros c x Hx Hz. destruct (cell_dec c (soa_cell (z_apex z0))) as [X|N]; [exfalso; apply (proj1 (SC c x X)); auto|]. eapply t_add; [apply CELL; exact N|auto|auto].
  - unfold soa_change. cbv zeta in HS. destruct (soa_to ch); auto. destruct HS as (Q1 & Q2 & _). split; auto.
  - left. destruct (apply_ok z0 ch u1 W CW E1) as (z' & -> & AP). exists z'. split; [exact E1|]. apply (recorded_applied z0 u ch z'); auto.
  - right. exists e. auto.
Qed.

(** ** Examples *)
(** One record replaced by another, with a new serial. *)
Definition up_ops : list uop := [URemove (rs ex_w 1 100 [[1]]); UAdd (rs ex_w 1 100 [[3]; [4]]); UAdd (ex_soa 2); URemove (rs ex_w 1 100 [[3]])].
Definition up0 (z : contents) : update := of_res (mkup z None) (update_init z).
Definition up_1 := Eval vm_compute in of_res (up0 ex_Z) (urun true up_ops (up0 ex_Z)).
Definition op_good (s : rrset) : Prop := exists c b, good ex_a s c b.
Lemma ok_by : forall z s c b op, cwf z -> z_apex z = ex_a -> op_rrset op = s -> good ex_a s c b -> (forall e, In (c, e) (cells z) -> ct c <> SOA -> rr_ttl e = rr_ttl (snd s)) -> op_ok z op.
Proof. intros z s c b op W A <- G H. exists c, b. rewrite A. split; auto. intros NS _ v Hv. apply cttl_in in Hv; auto. destruct Hv as (e & HI & <-). auto. Qed.
Lemma run_case : forall z0 u ch c b op u1 ops u2, cwf z0 -> z_apex z0 = ex_a -> recorded z0 u ch -> good ex_a (op_rrset op) c b ->
  (forall e, In (c, e) (cells (u_new u)) -> ct c <> SOA -> rr_ttl e = rr_ttl (snd (op_rrset op))) -> ustep true u op = Ok u1 -> (forall ch1, recorded z0 u1 ch1 -> history u1 ops u2) -> history u (op :: ops) u2.
Proof.
  intros z0 u ch c b op u1 ops u2 W A R G H E K. assert (OK : op_ok (u_new u) op). { destruct R as [_ WU AZ _ _ _]. eapply ok_by; [auto|congruence|reflexivity|exact G|exact H]. } destruct (step_recorded z0 u ch op u1 W R OK E) as (ch1 & R1 & _). eapply h_cons; eauto.
Qed.
Ltac gx := apply (good_ex _ _ _ _ _ false); [lia|canon|discriminate|cbv; reflexivity|cbv; reflexivity|repeat (constructor; [split; [reflexivity|intros; discriminate]|]); constructor|discriminate].
Example c56_case : cwf ex_Z /\ update_init ex_Z = Ok (up0 ex_Z) /\ history (up0 ex_Z) up_ops up_1 /\
  (exists ch, u_chg up_1 = Some ch /\ map (fun q => (fst q, rr_rrs (snd q))) (cells (ch_rem ch)) = [((false, ex_w, 1), ex_s [[1]])] /\ map (fun q => (fst q, rr_rrs (snd q))) (cells (ch_add ch)) = [((false, ex_w, 1), ex_s [[4]])] /\ soa_to ch = Some (ex_soa 2)).
Proof.
  destruct ex_wf as [W A]. split; auto. assert (EI : update_init ex_Z = Ok (up0 ex_Z)) by (vm_compute; reflexivity). split; auto. split.
  - destruct (init_recorded ex_Z (up0 ex_Z) W EI) as (ch0 & R0 & _).
    eapply (run_case ex_Z _ ch0); [exact W|exact A|exact R0|cbn [op_rrset]; gx|intros e H; cbn [op_rrset]; incell H; reflexivity|vm_compute; reflexivity|intros ch1 R1].
    eapply (run_case ex_Z _ ch1); [exact W|exact A|exact R1|cbn [op_rrset]; gx|intros e H; cbn [op_rrset]; incell H; reflexivity|vm_compute; reflexivity|intros ch2 R2].
    eapply (run_case ex_Z _ ch2); [exact W|exact A|exact R2|cbn [op_rrset]; unfold ex_soa; gx|intros e H NS; exfalso; apply NS; reflexivity|vm_compute; reflexivity|intros ch3 R3].
    eapply (run_case ex_Z _ ch3); [exact W|exact A|exact R3|cbn [op_rrset]; gx|intros e H; cbn [op_rrset]; incell H; reflexivity|vm_compute; reflexivity|intros ch4 R4].
    apply h_nil.
  - eexists. split; [reflexivity|]. split; [reflexivity|]. split; reflexivity.
Qed.
(** Without the condition on TTLs: a record is added with another TTL, which changes the TTL of the whole RRset, and removed
    again. The changeset is empty, the TTL of the zone stays changed. *)
Definition up_ttl : list uop := [UAdd (rs ex_w 1 200 [[3]]); URemove (rs ex_w 1 200 [[3]])].
Definition up_2 := Eval vm_compute in of_res (up0 ex_Z) (urun true up_ttl (up0 ex_Z)).
Theorem c56_ttl_refuted : exists z0 u0 ops u ch z', cwf z0 /\ update_init z0 = Ok u0 /\ Forall (fun op => exists c b, good (z_apex z0) (op_rrset op) c b) ops /\ urun true ops u0 = Ok u /\
  u_chg u = Some ch /\ applies z0 ch z' /\ ~ same_zone z' (u_new u).
Proof.
  destruct ex_wf as [W A]. exists ex_Z, (up0 ex_Z), up_ttl, up_2. eexists. exists ex_Z. split; auto. split; [vm_compute; reflexivity|]. split; [rewrite A; repeat (constructor; [eexists; eexists; cbn [op_rrset]; gx|]); constructor|]. split; [vm_compute; reflexivity|]. split; [reflexivity|]. split; [vm_compute; reflexivity|].
  intros [_ H]. assert (T1 : cttl ex_Z (false, ex_w, 1) 100) by (apply cttl_in; auto; eexists; split; [right; left; reflexivity|reflexivity]). apply H in T1; [|discriminate]. destruct T1 as (rs0 & e & HI & _ & TE & _). vm_compute in HI. destruct HI as [<-|[]]. vm_compute in TE. discriminate.
Qed.
(** Without strictness: adding a record that is there does nothing but it is recorded. Removing it later only cancels the
    record of the addition: the zone loses it and the changeset does not tell. *)
Definition up_len : list uop := [UAdd (rs ex_w 1 100 [[1]]); URemove (rs ex_w 1 100 [[1]])].
Definition up_3 := Eval vm_compute in of_res (up0 ex_Z) (urun false up_len (up0 ex_Z)).
Theorem c56_lenient_refuted : exists z0 u0 ops u ch z', cwf z0 /\ update_init z0 = Ok u0 /\ Forall (fun op => exists c b, good (z_apex z0) (op_rrset op) c b) ops /\ urun false ops u0 = Ok u /\
  u_chg u = Some ch /\ cells (ch_add ch) = [] /\ cells (ch_rem ch) = [] /\ applies z0 ch z' /\ exists c x, crec z' c x /\ ~ crec (u_new u) c x.
Proof.
  destruct ex_wf as [W A]. exists ex_Z, (up0 ex_Z), up_len, up_3. eexists. exists ex_Z. split; auto. split; [vm_compute; reflexivity|]. split; [rewrite A; repeat (constructor; [eexists; eexists; cbn [op_rrset]; gx|]); constructor|]. split; [vm_compute; reflexivity|]. split; [reflexivity|]. split; [reflexivity|]. split; [reflexivity|]. split; [vm_compute; reflexivity|].
  exists (false, ex_w, 1), [1]. split.
  - exists 100, [[1]; [2]]. split; [|left; auto]. eexists. split; [left; reflexivity|]. split; [reflexivity|]. split; [reflexivity|]. apply ex_is; [canon|cbv; reflexivity|cbv; reflexivity].
  - intros (v & rs0 & (e & HI & _ & _ & IS) & HX). vm_compute in HI. destruct HI as [<-|[]]. assert (IS2 : is (ex_s [[2]]) [[2]]) by (apply ex_is; [canon|cbv; reflexivity|cbv; reflexivity]). rewrite (is_fun _ _ _ IS IS2) in HX. destruct HX as [HX|[]]. discriminate.
Qed.
Print Assumptions c56_recorded. Print Assumptions c56_ttl_refuted. Print Assumptions c56_lenient_refuted.
