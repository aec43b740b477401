(** C24: merging changesets is the same as applying them one after the other. *)
From Verif Require Import Base RdatasetModel RdatasetSpec RdatasetProofs RdatasetProps NodeModel NodeProps ZoneModel ZoneProofs ZoneView ZoneFold ChangesetProofs MergeProofs ZoneExamples.

Ltac ttl_eq := match goal with H1 : cttl ?z ?c ?v, H2 : cttl ?z ?c ?w |- ?v = ?w => apply (cttl_fun z c v w); [assumption|exact H1|exact H2] end.
Definition ostep (x y x' y' : contents) (c : cell) (S : contents) : Prop :=
  ((forall w, ~ crec S c w) /\ same_at x x' c /\ same_at y y' c) \/ (exists ttl, cttl S c ttl /\ lstep x y x' y' c ttl (crec S c)).
Lemma merge_cells : forall x y S, cwf x -> cwf y -> cwf S -> z_apex y = z_apex x -> z_apex S = z_apex x ->
  (exists x' y', msteps (iter S) (x, y) = Ok (x', y') /\ cwf x' /\ cwf y' /\ z_apex x' = z_apex x /\ z_apex y' = z_apex x /\ forall c, ostep x y x' y' c S) \/ (exists e, msteps (iter S) (x, y) = Err e /\ limit e).
Proof.
  intros x y S WX WY WS AY AS. rewrite iter_cells. destruct (merge_phase (cells S) x y WX WY AY) as [(x' & y' & E & WX' & WY' & AX' & AY' & SD & LS)|H]; [rewrite <- AS; apply cells_lgood; auto|apply Forall_forall; intros [c e] HI; rewrite <- AS; eapply cells_under; eauto| |right; auto].
  left. exists x', y'. split; auto. split; auto. split; auto. split; auto. split; auto. intros c. destruct (cne_dec S c WS) as [(w & Hw)|HN].
  - right. destruct (crec_cells S c w WS Hw) as [e HI]. destruct (cells_good S c e WS HI) as (b & _ & _ & TE); [eapply cells_apex; eauto|]. exists (rr_ttl e). split; auto. eapply lstep_ext; [apply same_refl|apply same_refl|apply same_refl|apply same_refl| |apply LS; exact HI]. intros w'. apply inl_cells. auto.
  - left. split; auto. apply SD. intros X. apply in_map_iff in X. destruct X as ([c' e] & EC & HI). cbn [fst] in EC. subst c'. destruct (cells_good S c e WS HI) as (b & G & CR & _); [eapply cells_apex; eauto|]. pose proof (good_b _ _ _ _ G) as NB. destruct b as [|w b]; [contradiction|]. apply (HN w), CR. left. auto.
Qed.
(** Records never come from nowhere. *)
Lemma ostep_sub : forall x y x' y' c S w, cwf x -> ostep x y x' y' c S -> (crec x' c w -> crec x c w) /\ (crec y' c w -> crec y c w \/ crec S c w).
Proof.
  intros x y x' y' c S w WX [(_ & [RX _] & [RY _])|(ttl & _ & L1 & L2 & _)]; [rewrite RX, RY; tauto|]. destruct (hits_dec x c ttl WX) as [H|H]; [destruct (L1 H) as [H1 H2]|destruct (L2 H) as [H1 H2]]; rewrite H1, H2; tauto.
Qed.
Definition soa_both (ch : changeset) : Prop := soa_from ch = None <-> soa_to ch = None.
Lemma merge_view : forall a ch1 ch2, chwf a ch1 -> chwf a ch2 ->
  (exists m A' R', changeset_merge ch1 ch2 = Ok m /\ chwf a m /\ cwf A' /\ cwf R' /\ (forall c, ostep (ch_add ch1) (ch_rem ch1) A' R' c (ch_rem ch2)) /\ (forall c, ostep R' A' (ch_rem m) (ch_add m) c (ch_add ch2)) /\
     soa_from m = soa_from ch1 /\ soa_to m = (match soa_to ch2, soa_from ch2 with None, None => soa_to ch1 | to, _ => to end)) \/
  (exists e, changeset_merge ch1 ch2 = Err e /\ limit e).
Proof.
  intros a ch1 ch2 (WA1 & WR1 & AA1 & AR1 & NS1 & SF1 & ST1) (WA2 & WR2 & AA2 & AR2 & NS2 & SF2 & ST2). unfold changeset_merge.
  assert (F : forall z, cwf z -> (forall c x, crec z c x -> ct c <> SOA) -> Forall (fun s : rrset => rr_type (snd s) <> SOA) (iter z)).
  { intros z W H. rewrite iter_cells. apply Forall_forall. intros s HI. apply in_map_iff in HI. destruct HI as ([c e] & <- & HI). cbn [sof fst snd]. pose proof (cells_nosoa z W H) as HF. rewrite Forall_forall in HF. specialize (HF _ HI). cbn [fst] in HF. apply cells_in in HI; [|apply W]. destruct HI. congruence. }
  rewrite removal_fold by (apply F; auto; intros; eapply NS2; eauto).
  destruct (merge_cells (ch_add ch1) (ch_rem ch1) (ch_rem ch2) WA1 WR1 WR2) as [(A' & R' & E1 & WA' & WR' & AA' & AR' & O1)|(e & E1 & He)]; [congruence|congruence| |]; rewrite E1; cbn [rbind]; [|right; eauto].
  rewrite addition_fold by (apply F; auto; intros; eapply NS2; eauto). cbn [ch_add ch_rem soa_from soa_to].
  destruct (merge_cells R' A' (ch_add ch2) WR' WA' WA2) as [(Rm & Am & E2 & WRm & WAm & ARm & AAm & O2)|(e & E2 & He)]; [congruence|congruence| |]; rewrite E2; cbn [rbind]; [|right; eauto].
  assert (NS : forall c x, crec Am c x \/ crec Rm c x -> ct c <> SOA).
  { intros c x H. destruct (ostep_sub _ _ _ _ c _ x WA1 (O1 c)) as [P1 P2]. destruct (ostep_sub _ _ _ _ c _ x WR' (O2 c)) as [P3 P4]. assert (X : crec (ch_add ch1) c x \/ crec (ch_rem ch1) c x \/ crec (ch_add ch2) c x \/ crec (ch_rem ch2) c x) by tauto. destruct X as [X|[X|[X|X]]]; [eapply NS1|eapply NS1|eapply NS2|eapply NS2]; eauto. }
  left. exists (mkch Am Rm (soa_from ch1) (match soa_to ch2, soa_from ch2 with None, None => soa_to ch1 | to, _ => to end)). exists A', R'. split; [destruct (soa_to ch2), (soa_from ch2); reflexivity|]. split.
  { split; auto. split; auto. split; [cbn [ch_add]; congruence|]. split; [cbn [ch_rem]; congruence|]. split; auto. split; auto. cbn [soa_to]. destruct (soa_to ch2), (soa_from ch2); auto. }
  split; auto.
Qed.

(** TTLs in a changeset agree with the zone: RRsets are removed with their TTL, and records are added to an RRset with
    its TTL unless all of it is removed. *)
Record consistent (z : contents) (ch : changeset) : Prop := {
  cs_rem : forall c v w, ct c <> RRSIG -> cttl (ch_rem ch) c v -> cttl z c w -> v = w;
  cs_add : forall c v w, ct c <> RRSIG -> cttl (ch_add ch) c v -> cttl z c w -> v = w \/ forall x, crec z c x -> crec (ch_rem ch) c x }.

Lemma cell_merge : forall z R1 A1 R2 A2 R' A' Rm Am c (z1 z2 : list Z -> Prop), cwf z -> cwf R1 -> cwf A1 -> cwf R2 -> cwf A2 -> cwf R' -> cwf A' ->
  ostep A1 R1 A' R' c R2 -> ostep R' A' Rm Am c A2 ->
  (forall w, crec A' c w <-> crec A1 c w /\ ~ crec R2 c w) -> (forall w, crec R' c w <-> crec R1 c w \/ (crec R2 c w /\ ~ crec A1 c w)) ->
  (forall x, crec R1 c x -> crec z c x) -> (forall x, crec A1 c x -> crec z c x -> crec R1 c x) -> (forall x, z1 x <-> (crec z c x /\ ~ crec R1 c x) \/ crec A1 c x) ->
  (forall x, crec R2 c x -> z1 x) -> (forall x, crec A2 c x -> z1 x -> crec R2 c x) -> (forall x, z2 x <-> (z1 x /\ ~ crec R2 c x) \/ crec A2 c x) ->
  forall x, (crec Rm c x -> crec z c x) /\ (crec Am c x -> crec z c x -> crec Rm c x) /\ ((crec z c x /\ ~ crec Rm c x) \/ crec Am c x <-> z2 x).
Proof.
  intros z R1 A1 R2 A2 R' A' Rm Am c z1 z2 Wz WR1 WA1 WR2 WA2 WR' WA' O1 O2 HA' HR' H1 H2 H3 H4 H5 H6 x. specialize (HA' x). specialize (HR' x). specialize (H1 x). specialize (H2 x). specialize (H3 x). specialize (H4 x). specialize (H5 x). specialize (H6 x).
  assert (Q : (crec Rm c x <-> crec R' c x /\ ~ crec A2 c x) /\ (crec Am c x <-> crec A' c x \/ (crec A2 c x /\ ~ crec R' c x)) \/ (crec Rm c x <-> crec R' c x) /\ (crec Am c x <-> crec A' c x \/ crec A2 c x)).
  { destruct O2 as [(N & [RX _] & [RY _])|(ttl & _ & L1 & L2 & _)].
    - right. rewrite <- RX, <- RY. split; [tauto|]. specialize (N x). tauto.
    - destruct (hits_dec R' c ttl WR') as [H|H]; [left; destruct (L1 H)|right; destruct (L2 H)]; auto. }
  rewrite HA', HR' in Q. clear O1 O2 HA' HR'. pose proof (crec_dec z c x Wz). pose proof (crec_dec R1 c x WR1). pose proof (crec_dec A1 c x WA1). pose proof (crec_dec R2 c x WR2). pose proof (crec_dec A2 c x WA2).
  rewrite H6, H3. rewrite H3 in H4, H5. clear H3 H6 Wz WR1 WA1 WR2 WA2 WR' WA'. destruct Q as [[-> ->]|[-> ->]]; tauto.
Qed.
Definition applies (z : contents) (ch : changeset) (z' : contents) : Prop := apply_changeset true (mkup z None) ch = Ok (mkup z' None).
Definition same_zone (z z' : contents) : Prop := (forall c x, crec z c x <-> crec z' c x) /\ (forall c v, ct c <> RRSIG -> (cttl z c v <-> cttl z' c v)).

Lemma removal_sets : forall z ch1 z1 R2 A' R' c, cwf z -> chwf (z_apex z) ch1 -> consistent z ch1 -> applied z ch1 z1 -> ~ touches z ch1 c -> cwf R2 ->
  (forall x, crec R2 c x -> crec z1 c x) -> (forall v w, ct c <> RRSIG -> cttl R2 c v -> cttl z1 c w -> v = w) -> ostep (ch_add ch1) (ch_rem ch1) A' R' c R2 ->
  (forall w, crec A' c w <-> crec (ch_add ch1) c w /\ ~ crec R2 c w) /\ (forall w, crec R' c w <-> crec (ch_rem ch1) c w \/ (crec R2 c w /\ ~ crec (ch_add ch1) c w)) /\
  (forall v, cttl A' c v -> cttl (ch_add ch1) c v) /\ (ct c <> RRSIG -> forall v, cttl R' c v -> cttl z c v).
Proof.
  intros z ch1 z1 R2 A' R' c Wz CW CS AP NT WR2 HS HT O. pose proof CW as (WA1 & WR1 & _). destruct AP as [W1 A1 PR PA PS REC TTL _ _]. destruct O as [(N & [RX TX] & [RY TY])|(ttl & HTT & L1 & L2 & L3 & L4)].
  - split; [intros w; rewrite <- RX; specialize (N w); tauto|]. split; [intros w; rewrite <- RY; specialize (N w); tauto|]. split; [intros v; rewrite TX; auto|]. intros NS v Hv. apply TY in Hv. destruct (proj2 (crec_cttl _ c WR1) (ex_intro _ v Hv)) as [x Hx]. destruct (proj1 (crec_cttl z c Wz) (ex_intro _ x (PR _ _ Hx))) as [w Hw]. rewrite (cs_rem _ _ CS c v w NS Hv Hw). auto.
  - destruct (proj2 (crec_cttl R2 c WR2) (ex_intro _ ttl HTT)) as [y Hy]. destruct (proj1 (crec_cttl z1 c W1) (ex_intro _ y (HS y Hy))) as [t1 Ht1].
    (* whatever has been added is matched *)
    assert (HH : (exists w, crec (ch_add ch1) c w) -> hits (ch_add ch1) c ttl).
    { intros HE. destruct (proj1 (crec_cttl _ c WA1) HE) as [a1 Ha1]. exists a1. split; auto. destruct (Z.eq_dec (ct c) RRSIG) as [|NS]; auto. left. rewrite (HT ttl t1 NS HTT Ht1). apply TTL in Ht1; auto. destruct Ht1 as [(H & _)|(w & Hw & [(H & _)|(-> & _)])]; [destruct HE as [u Hu]; exfalso; eapply H; eauto|contradiction|]. ttl_eq. }
    assert (HA' : forall w, crec A' c w <-> crec (ch_add ch1) c w /\ ~ crec R2 c w).
    { intros w. destruct (hits_dec (ch_add ch1) c ttl WA1) as [H|H]; [apply L1; auto|]. destruct (L2 H) as [Q _]. rewrite Q. split; [|tauto]. intros X. exfalso. apply H, HH. eauto. }
    assert (HR' : forall w, crec R' c w <-> crec (ch_rem ch1) c w \/ (crec R2 c w /\ ~ crec (ch_add ch1) c w)).
    { intros w. destruct (hits_dec (ch_add ch1) c ttl WA1) as [H|H]; [apply L1; auto|]. destruct (L2 H) as [_ Q]. rewrite Q. assert (~ crec (ch_add ch1) c w) by (intros X; apply H, HH; eauto). tauto. }
    split; auto. split; auto. split; [intros v Hv; apply L3 in Hv; tauto|]. intros NS v Hv. apply L4 in Hv; auto. destruct Hv as [[(w & Hw1 & Hw2) ->]|[_ Hv]].
    + assert (NA : ~ crec (ch_add ch1) c w) by (intros X; apply Hw2; split; auto; apply HH; eauto). pose proof (HS w Hw1) as HZ. apply REC in HZ; auto. destruct HZ as [[HZ HNR]|HZ]; [|contradiction]. destruct (proj1 (crec_cttl z c Wz) (ex_intro _ w HZ)) as [t0 Ht0]. rewrite (HT ttl t1 NS HTT Ht1). apply TTL in Ht1; auto. destruct Ht1 as [(_ & H & _)|(a1 & Ha1 & [(H & _)|(-> & _)])]; auto; [contradiction|]. destruct (cs_add _ _ CS c a1 t0 NS Ha1 Ht0) as [->|H]; auto. exfalso. auto.
    + destruct (proj2 (crec_cttl _ c WR1) (ex_intro _ v Hv)) as [x Hx]. destruct (proj1 (crec_cttl z c Wz) (ex_intro _ x (PR _ _ Hx))) as [w Hw]. rewrite (cs_rem _ _ CS c v w NS Hv Hw). auto.
Qed.
Lemma touch_no_add : forall a ch c w, chwf a ch -> c = soa_cell a -> ~ crec (ch_add ch) c w /\ ~ crec (ch_rem ch) c w.
Proof. intros a ch c w (_ & _ & _ & _ & NS & _) ->. split; intros H; [apply (NS _ _ (or_introl H))|apply (NS _ _ (or_intror H))]; reflexivity. Qed.

(** C24. Let a changeset take a zone to a second version and another one take that to a third. The merged changeset takes
    the first version to the third: it has the same records, with the same TTLs (signatures aside). The only other
    outcome is that an RRset does not fit the size limits. *)
Theorem c24_compose : forall z ch1 ch2 z1 z2, cwf z -> chwf (z_apex z) ch1 -> chwf (z_apex z) ch2 -> soa_both ch2 -> consistent z ch1 -> consistent z1 ch2 ->
  applies z ch1 z1 -> applies z1 ch2 z2 ->
  (exists m, changeset_merge ch1 ch2 = Ok m /\ chwf (z_apex z) m /\ ((exists z3, applies z m z3 /\ same_zone z3 z2) \/ exists e, apply_changeset true (mkup z None) m = Err e /\ limit e)) \/
  (exists e, changeset_merge ch1 ch2 = Err e /\ limit e).
Proof.
  intros z ch1 ch2 z1 z2 Wz CW1 CW2 SB CS1 CS2 E1 E2. unfold applies in E1, E2.
  destruct (apply_ok z ch1 _ Wz CW1 E1) as (z1' & [= <-] & AP1). pose proof AP1 as [W1 A1 PR1 PA1 PS1 REC1 TTL1 SR1 STT1]. rewrite <- A1 in CW2.
  destruct (apply_ok z1 ch2 _ W1 CW2 E2) as (z2' & [= <-] & AP2). pose proof AP2 as [W2 A2 PR2 PA2 PS2 REC2 TTL2 SR2 STT2]. rewrite A1 in CW2.
  destruct (merge_view (z_apex z) ch1 ch2 CW1 CW2) as [(m & A' & R' & EM & CM & WA' & WR' & O1 & O2 & SFm & STm)|H]; [|right; auto]. left. exists m. split; auto. split; auto.
  pose proof CW1 as (WA1 & WR1 & _). pose proof CW2 as (WA2 & WR2 & _). pose proof CM as (WAm & WRm & _).
  (* a cell that is not the SOA *)
  assert (CELL : forall c, c <> soa_cell (z_apex z) -> 
     (forall w, crec A' c w <-> crec (ch_add ch1) c w /\ ~ crec (ch_rem ch2) c w) /\ (forall w, crec R' c w <-> crec (ch_rem ch1) c w \/ (crec (ch_rem ch2) c w /\ ~ crec (ch_add ch1) c w)) /\
     (forall v, cttl A' c v -> cttl (ch_add ch1) c v) /\ (ct c <> RRSIG -> forall v, cttl R' c v -> cttl z c v)).
  { intros c NC. apply (removal_sets z ch1 z1 (ch_rem ch2) A' R' c); auto; [intros [_ H]; auto|intros v w; apply (cs_rem _ _ CS2)]. }
  assert (REC1' : forall c x, c <> soa_cell (z_apex z) -> (crec z1 c x <-> (crec z c x /\ ~ crec (ch_rem ch1) c x) \/ crec (ch_add ch1) c x)) by (intros c x NC; apply REC1; intros [_ H]; auto).
  assert (REC2' : forall c x, c <> soa_cell (z_apex z) -> (crec z2 c x <-> (crec z1 c x /\ ~ crec (ch_rem ch2) c x) \/ crec (ch_add ch2) c x)) by (intros c x NC; apply REC2; intros [_ H]; rewrite A1 in H; auto).
  assert (SETS : forall c, c <> soa_cell (z_apex z) -> forall x, (crec (ch_rem m) c x -> crec z c x) /\ (crec (ch_add m) c x -> crec z c x -> crec (ch_rem m) c x) /\ ((crec z c x /\ ~ crec (ch_rem m) c x) \/ crec (ch_add m) c x <-> crec z2 c x)).
  { intros c NC. destruct (CELL c NC) as (HA' & HR' & _). apply (cell_merge z (ch_rem ch1) (ch_add ch1) (ch_rem ch2) (ch_add ch2) R' A' (ch_rem m) (ch_add m) c (crec z1 c) (crec z2 c)); auto. }
  assert (SOAM : forall w, ~ crec (ch_add m) (soa_cell (z_apex z)) w /\ ~ crec (ch_rem m) (soa_cell (z_apex z)) w) by (intros w; eapply touch_no_add; eauto).
  assert (SOA1 : forall w, ~ crec (ch_add ch1) (soa_cell (z_apex z)) w /\ ~ crec (ch_rem ch1) (soa_cell (z_apex z)) w) by (intros w; eapply touch_no_add; eauto).
  assert (SOA2 : forall w, ~ crec (ch_add ch2) (soa_cell (z_apex z)) w /\ ~ crec (ch_rem ch2) (soa_cell (z_apex z)) w) by (intros w; eapply touch_no_add; eauto).
  assert (HSM : soa_change z m).
  { unfold soa_change in *. rewrite STm. destruct (soa_to ch2) as [s|] eqn:ES2.
    - destruct PS2 as [H1 (x & H2)]. split; [congruence|]. rewrite A1 in H2. destruct (soa_to ch1) as [s1|] eqn:ES1; [tauto|]. exists x. apply REC1 in H2; [|intros [Q _]; rewrite ES1 in Q; auto]. destruct H2 as [[H2 _]|H2]; auto. exfalso. eapply (proj1 (SOA1 _)); eauto.
    - destruct (soa_from ch2) eqn:EF; [|auto]. auto. }
  assert (SUBR : forall c x, crec (ch_rem m) c x -> crec z c x) by (intros c x H; destruct (cell_dec c (soa_cell (z_apex z))) as [->|NC]; [exfalso; eapply (proj2 (SOAM _)); eauto|apply SETS; auto]).
  assert (SUBA : forall c x, crec (ch_add m) c x -> crec z c x -> crec (ch_rem m) c x) by (intros c x H; destruct (cell_dec c (soa_cell (z_apex z))) as [->|NC]; [exfalso; eapply (proj1 (SOAM _)); eauto|apply SETS; auto]).
  destruct (apply_can z m Wz CM SUBR SUBA HSM) as [[u E3]|H]; [left|right; auto].
  destruct (apply_ok z m u Wz CM E3) as (z3 & -> & [W3 A3 PR3 PA3 PS3 REC3 TTL3 SR3 STT3]). exists z3. split; auto.
  assert (RECS : forall c x, crec z3 c x <-> crec z2 c x).
  { intros c x. destruct (cell_dec c (soa_cell (z_apex z))) as [->|NC].
    - destruct (soa_to ch2) as [s|] eqn:ES2.
      + rewrite SR3, SR2; [|split; [rewrite ES2; discriminate|rewrite A1; auto]|split; [rewrite STm; discriminate|auto]]. unfold in_soa. rewrite STm, ES2. tauto.
      + assert (EF2 : soa_from ch2 = None) by (apply SB; auto). rewrite EF2 in STm. rewrite REC2; [|intros [Q _]; contradiction]. destruct (soa_to ch1) as [s|] eqn:ES1.
        * rewrite SR3; [|split; [rewrite STm; discriminate|auto]]. rewrite SR1; [|split; [rewrite ES1; discriminate|auto]]. unfold in_soa. rewrite STm, ES1. pose proof (SOA2 x). tauto.
        * rewrite REC3; [|intros [Q _]; rewrite STm in Q; contradiction]. rewrite REC1; [|intros [Q _]; rewrite ES1 in Q; contradiction]. pose proof (SOA2 x). pose proof (SOA1 x). pose proof (SOAM x). tauto.
    - rewrite REC3 by (intros [_ H]; auto). apply SETS. auto. }
  split; auto.
  (* one direction for TTLs suffices *)
  assert (HALF : forall c v, ct c <> RRSIG -> cttl z2 c v -> cttl z3 c v).
  2:{ intros c v NS. split; [|apply HALF; auto]. intros Hv. destruct (proj2 (crec_cttl z3 c W3) (ex_intro _ v Hv)) as [x Hx]. apply RECS in Hx. destruct (proj1 (crec_cttl z2 c W2) (ex_intro _ x Hx)) as [w Hw]. rewrite (cttl_fun z3 c v w W3 Hv (HALF c w NS Hw)). auto. }
  intros c v NS Hv. destruct (cell_dec c (soa_cell (z_apex z))) as [->|NC].
  - destruct (soa_to ch2) as [s|] eqn:ES2.
    + apply STT3; [split; [rewrite STm; discriminate|auto]|]. apply STT2 in Hv; [|split; [rewrite ES2; discriminate|rewrite A1; auto]]. rewrite STm. auto.
    + assert (EF2 : soa_from ch2 = None) by (apply SB; auto). rewrite EF2 in STm. apply TTL2 in Hv; [|intros [Q _]; contradiction]. destruct Hv as [(_ & Hv & _)|(w & Hw & _)]; [|destruct (proj2 (crec_cttl _ _ WA2) (ex_intro _ w Hw)) as [x Hx]; exfalso; eapply (proj1 (SOA2 _)); eauto]. destruct (soa_to ch1) as [s|] eqn:ES1.
      * apply STT3; [split; [rewrite STm; discriminate|auto]|]. apply STT1 in Hv; [|split; [rewrite ES1; discriminate|auto]]. rewrite STm. auto.
      * apply TTL1 in Hv; [|intros [Q _]; rewrite ES1 in Q; contradiction]. destruct Hv as [(_ & Hv & x & Hx & _)|(w & Hw & _)]; [|destruct (proj2 (crec_cttl _ _ WA1) (ex_intro _ w Hw)) as [x Hx]; exfalso; eapply (proj1 (SOA1 _)); eauto]. apply TTL3; [intros [Q _]; rewrite STm in Q; contradiction|]. left. split; [intros y; apply SOAM|]. split; auto. exists x. split; auto. apply SOAM.
  - assert (NT1 : ~ touches z ch1 c) by (intros [_ H]; auto). assert (NT2 : ~ touches z1 ch2 c) by (intros [_ H]; rewrite A1 in H; auto). assert (NT3 : ~ touches z m c) by (intros [_ H]; auto).
    destruct (CELL c NC) as (HA' & HR' & TA' & TR'). pose proof (SETS c NC) as ST. apply TTL3; auto. specialize (O2 c).
    assert (TA1 : forall a1 t1, cttl (ch_add ch1) c a1 -> cttl z1 c t1 -> t1 = a1).
    { intros a1 t1 Ha1 Ht1. apply TTL1 in Ht1; auto. destruct Ht1 as [(H & _)|(w & Hw & [(H & _)|(-> & _)])]; [|contradiction|ttl_eq]. destruct (proj2 (crec_cttl _ c WA1) (ex_intro _ a1 Ha1)) as [x Hx]. exfalso. eapply H; eauto. }
    (* a record of z that stays in both steps *)
    assert (OLD : forall t1 x, cttl z1 c t1 -> crec z c x -> ~ crec (ch_rem ch1) c x -> cttl z c t1).
    { intros t1 x Ht1 Hx HN. destruct (proj1 (crec_cttl z c Wz) (ex_intro _ x Hx)) as [t0 Ht0]. apply TTL1 in Ht1; auto. destruct Ht1 as [(_ & H & _)|(a1 & Ha1 & [(H & _)|(-> & _)])]; [auto|contradiction|]. destruct (cs_add _ _ CS1 c a1 t0 NS Ha1 Ht0) as [->|H]; auto. exfalso. auto. }
    destruct (cne_dec (ch_add m) c WAm) as [HNE|HE].
    + right. destruct (proj1 (crec_cttl _ c WAm) HNE) as [am Ham]. exists am. split; auto. right. split; [|intros; contradiction].
      destruct O2 as [(N & [RX TX] & [RY TY])|(a2 & Ha2 & L1 & L2 & L3 & L4)].
      * apply TTL2 in Hv; auto. destruct Hv as [(_ & Hv & _)|(w & Hw & _)]; [|destruct (proj2 (crec_cttl _ _ WA2) (ex_intro _ w Hw)) as [x Hx]; exfalso; eapply N; eauto]. apply TY in Ham. apply TA' in Ham. apply TA1; auto.
      * assert (v = a2) as ->. { apply TTL2 in Hv; auto. destruct Hv as [(H & _)|(w & Hw & [(H & _)|(-> & _)])]; [destruct (proj2 (crec_cttl _ _ WA2) (ex_intro _ a2 Ha2)) as [x Hx]; exfalso; eapply H; eauto|contradiction|ttl_eq]. }
        apply L4 in Ham; auto. destruct Ham as [[_ ->]|[_ Ham]]; auto. destruct (proj2 (crec_cttl _ c WA') (ex_intro _ am Ham)) as [x Hx]. apply HA' in Hx. destruct Hx as [Hx1 Hx2]. assert (Hx3 : crec z1 c x) by (apply REC1'; auto). destruct (proj1 (crec_cttl z1 c W1) (ex_intro _ x Hx3)) as [t1 Ht1]. apply TA' in Ham. rewrite <- (TA1 am t1 Ham Ht1). destruct (cs_add _ _ CS2 c a2 t1 NS Ha2 Ht1) as [->|H]; auto. exfalso. auto.
    + left. split; auto. destruct (proj2 (crec_cttl z2 c W2) (ex_intro _ v Hv)) as [x Hx]. apply ST in Hx. destruct Hx as [[Hx1 Hx2]|Hx]; [|exfalso; eapply HE; eauto]. split; [|eauto].
      destruct O2 as [(N & [RX TX] & [RY TY])|(a2 & Ha2 & L1 & L2 & L3 & L4)].
      * apply TTL2 in Hv; auto. destruct Hv as [(_ & Hv & y & Hy1 & Hy2)|(w & Hw & _)]; [|destruct (proj2 (crec_cttl _ _ WA2) (ex_intro _ w Hw)) as [y Hy]; exfalso; eapply N; eauto]. rewrite <- RX in Hx2. apply (OLD v x); auto. intros X. apply Hx2, HR'. auto.
      * destruct (hits_dec R' c a2 WR') as [H|H].
        -- assert (v = a2) as ->. { apply TTL2 in Hv; auto. destruct Hv as [(Hn & _)|(w & Hw & [(Hn & _)|(-> & _)])]; [destruct (proj2 (crec_cttl _ _ WA2) (ex_intro _ a2 Ha2)) as [y Hy]; exfalso; eapply Hn; eauto|contradiction|ttl_eq]. }
           destruct H as (t & Ht & [->|Hn]); [|contradiction]. apply TR'; auto.
        -- exfalso. destruct (L2 H) as [_ Q]. destruct (proj2 (crec_cttl _ _ WA2) (ex_intro _ a2 Ha2)) as [y Hy]. apply (HE y), Q. auto.
Qed.
(** No record is both added and removed with one TTL (with any TTL, for signatures). *)
Definition disjoint (ch : changeset) : Prop :=
  forall c x v, crec (ch_add ch) c x -> crec (ch_rem ch) c x -> ct c = RRSIG \/ (cttl (ch_add ch) c v /\ cttl (ch_rem ch) c v) -> False.
Theorem c24_disjoint : forall z ch1 ch2 z1 z2 m, cwf z -> chwf (z_apex z) ch1 -> chwf (z_apex z) ch2 -> consistent z ch1 -> consistent z1 ch2 ->
  applies z ch1 z1 -> applies z1 ch2 z2 -> changeset_merge ch1 ch2 = Ok m -> disjoint ch1 -> disjoint m.
Proof.
  intros z ch1 ch2 z1 z2 m Wz CW1 CW2 CS1 CS2 E1 E2 EM DJ. unfold applies in E1, E2.
  destruct (apply_ok z ch1 _ Wz CW1 E1) as (z1' & [= <-] & AP1). pose proof AP1 as [W1 A1 PR1 PA1 PS1 REC1 TTL1 SR1 STT1]. rewrite <- A1 in CW2.
  destruct (apply_ok z1 ch2 _ W1 CW2 E2) as (z2' & [= <-] & AP2). pose proof AP2 as [W2 A2 PR2 PA2 PS2 REC2 TTL2 SR2 STT2]. rewrite A1 in CW2.
  destruct (merge_view (z_apex z) ch1 ch2 CW1 CW2) as [(m' & A' & R' & EM' & CM & WA' & WR' & O1 & O2 & _)|(e & EM' & _)]; [|congruence]. rewrite EM in EM'. injection EM' as <-.
  pose proof CW1 as (WA1 & WR1 & _). pose proof CW2 as (WA2 & WR2 & _). pose proof CM as (WAm & WRm & _).
  intros c x v HA HR HV. assert (NC : c <> soa_cell (z_apex z)) by (intros ->; eapply (proj1 (touch_no_add _ m _ x CM eq_refl)); eauto).
  destruct (removal_sets z ch1 z1 (ch_rem ch2) A' R' c) as (HA' & HR' & TA' & TR'); auto; [intros [_ H]; auto|intros a b; apply (cs_rem _ _ CS2)|].
  assert (KEY : forall w, crec A' c x -> crec R' c x -> ct c = RRSIG \/ (cttl (ch_add ch1) c w /\ cttl R' c w) -> False).
  { intros w H1 H2 H3. apply HA' in H1. destruct H1 as [H1 _]. apply HR' in H2. destruct H2 as [H2|[_ H2]]; [|contradiction]. apply (DJ c x w H1 H2). destruct H3 as [H3|[H3 H4]]; auto. destruct (Z.eq_dec (ct c) RRSIG) as [|NS]; auto. right. split; auto. destruct (proj1 (crec_cttl _ c WR1) (ex_intro _ x H2)) as [r1 Hr1]. rewrite <- (cs_rem _ _ CS1 c r1 w NS Hr1 (TR' NS w H4)). auto. }
  destruct (O2 c) as [(N & [RX TX] & [RY TY])|(a2 & Ha2 & L1 & L2 & L3 & L4)].
  - apply (KEY v); [apply RY; auto|apply RX; auto|]. destruct HV as [HV|[HV1 HV2]]; auto. right. split; [apply TA', TY; auto|apply TX; auto].
  - destruct (hits_dec R' c a2 WR') as [H|H].
    + destruct (L1 H) as [Q1 Q2]. apply Q1 in HR. destruct HR as [HR NA2]. apply Q2 in HA. destruct HA as [HA|[HA _]]; [|contradiction]. apply (KEY v); auto. destruct (Z.eq_dec (ct c) RRSIG) as [|NS]; auto. destruct HV as [HV|[HV1 HV2]]; auto. right. split; [|apply L3; auto]. apply L4 in HV1; auto. destruct HV1 as [[_ ->]|[_ HV1]]; [|apply TA'; auto].
      apply HA' in HA. destruct HA as [Hx1 Hx2]. assert (Hx3 : crec z1 c x) by (apply REC1; auto; intros [_ X]; auto). destruct (proj1 (crec_cttl z1 c W1) (ex_intro _ x Hx3)) as [t1 Ht1]. destruct (cs_add _ _ CS2 c a2 t1 NS Ha2 Ht1) as [->|X]; [|exfalso; auto]. destruct (proj1 (crec_cttl _ c WA1) (ex_intro _ x Hx1)) as [a1 Ha1]. apply TTL1 in Ht1; [|intros [_ X]; auto]. destruct Ht1 as [(X & _)|(w & Hw & [(X & _)|(-> & _)])]; [exfalso; eapply X; eauto|contradiction|auto].
    + destruct (L2 H) as [Q1 Q2]. apply Q1 in HR. destruct (proj1 (crec_cttl _ c WR') (ex_intro _ x HR)) as [r Hr]. destruct (Z.eq_dec (ct c) RRSIG) as [ES|NS]; [apply H; exists r; auto|]. destruct HV as [HV|[HV1 HV2]]; auto. apply L3 in HV2. destruct HV2 as [HV2 _]. apply L4 in HV1; auto. destruct (proj2 (crec_cttl _ _ WA2) (ex_intro _ a2 Ha2)) as [y Hy]. destruct HV1 as [[_ ->]|[X _]]; [apply H; exists a2; auto|]. apply X. exists y. tauto.
Qed.

(** ** Examples *)
Definition ex_a : name := [[99]].
Definition ex_w : name := [[119]; [99]].
Definition ex_change (rem add : list rrset) (from to : option rrset) : res changeset :=
  let* r := build ex_a rem in let* a := build ex_a add in Ok (mkch a r from to).
Definition ex_soa (n : Z) : rrset := rs ex_a 6 60 [[n]].
(** A record is replaced by another one and the change is undone: nothing but the SOA is left. *)
Definition ex_z : res contents := build ex_a [ex_soa 1; rs ex_w 1 100 [[1]; [2]]].
Definition ex_c1 : res changeset := ex_change [rs ex_w 1 100 [[1]]] [rs ex_w 1 100 [[3]]] (Some (ex_soa 1)) (Some (ex_soa 2)).
Definition ex_c2 : res changeset := ex_change [rs ex_w 1 100 [[3]]] [rs ex_w 1 100 [[1]]; rs ex_w 16 7 [[5]]] (Some (ex_soa 2)) (Some (ex_soa 3)).
Definition of_res {A} (d : A) (r : res A) : A := match r with Ok x => x | _ => d end.
Definition ex_Z := Eval vm_compute in of_res (contents_new []) ex_z.
Definition ex_ch0 := changeset_init [].
Definition ex_C1 := Eval vm_compute in of_res ex_ch0 ex_c1.
Definition ex_C2 := Eval vm_compute in of_res ex_ch0 ex_c2.
Definition ex_up (z : contents) (c : changeset) : contents := u_new (of_res (mkup z None) (apply_changeset true (mkup z None) c)).
Definition ex_Z1 := Eval vm_compute in ex_up ex_Z ex_C1.
Definition ex_Z2 := Eval vm_compute in ex_up ex_Z1 ex_C2.
Lemma ex_chwf : forall rem add f t ch, Forall (fun s => exists c b, good ex_a s c b /\ ct c <> SOA) rem -> Forall (fun s => exists c b, good ex_a s c b /\ ct c <> SOA) add -> ex_change rem add (Some (ex_soa f)) (Some (ex_soa t)) = Ok ch -> 0 <= f < 256 -> 0 <= t < 256 ->
  (forall c e, In (c, e) (cells (ch_add ch)) \/ In (c, e) (cells (ch_rem ch)) -> ct c <> SOA) -> chwf ex_a ch.
Proof.
  intros rem add f t ch HR HA E Hf Ht HS. unfold ex_change in E. destruct (build ex_a rem) as [r| | |] eqn:E1; cbn [rbind] in E; try discriminate. destruct (build ex_a add) as [a| | |] eqn:E2; cbn [rbind] in E; try discriminate. injection E as <-. cbn [ch_add ch_rem soa_from soa_to] in *.
  destruct (build_wf ex_a rem r) as [W1 A1]; auto. { eapply Forall_impl; [|exact HR]. intros s (c & b & G & _). eauto. }
  destruct (build_wf ex_a add a) as [W2 A2]; auto. { eapply Forall_impl; [|exact HA]. intros s (c & b & G & _). eauto. }
  assert (OKS : forall n, 0 <= n < 256 -> soa_ok (Some (ex_soa n))).
  { intros n Hn x [= <-]. split; [|reflexivity]. split; [cbn; lia|]. exists [[n]]. split; [|discriminate]. apply ex_is; [|cbv; auto|cbv; auto]. split; [repeat constructor|constructor; [split; [repeat constructor; unfold byte; lia|cbv; discriminate]|constructor]]. }
  split; auto. split; auto. split; auto. split; auto. split; [|split; apply OKS; auto]. intros c x [H|H]; [destruct (crec_cells _ c x W2 H) as [e He]|destruct (crec_cells _ c x W1 H) as [e He]]; eapply HS; eauto.
Qed.
Ltac exg := repeat (constructor; [eexists; eexists; split; [apply (good_ex _ _ _ _ _ false); [lia|canon|discriminate|cbv; reflexivity|cbv; reflexivity|repeat (constructor; [split; [reflexivity|intros; discriminate]|]); constructor|discriminate]|cbv; discriminate]|]); constructor.
Lemma ex_wf : cwf ex_Z /\ z_apex ex_Z = ex_a.
Proof. apply (build_wf ex_a [ex_soa 1; rs ex_w 1 100 [[1]; [2]]]); [|vm_compute; reflexivity]. repeat (constructor; [gex false|]); constructor. Qed.
Ltac incell H := cbn in H; repeat (destruct H as [H|H]; [inversion H; subst; clear H|]); try destruct H.
Lemma ex_wf1 : chwf ex_a ex_C1.
Proof.
  apply (ex_chwf [rs ex_w 1 100 [[1]]] [rs ex_w 1 100 [[3]]] 1 2); [exg|exg|vm_compute; reflexivity|lia|lia|]. intros c e [H|H]; incell H; cbv; discriminate.
Qed.
Lemma ex_wf2 : chwf ex_a ex_C2.
Proof.
  apply (ex_chwf [rs ex_w 1 100 [[3]]] [rs ex_w 1 100 [[1]]; rs ex_w 16 7 [[5]]] 2 3); [exg|exg|vm_compute; reflexivity|lia|lia|]. intros c e [H|H]; incell H; cbv; discriminate.
Qed.
Lemma ex_cons : forall z ch, cwf z -> chwf (z_apex z) ch -> 
  (forall c e e', In (c, e) (cells (ch_rem ch)) \/ In (c, e) (cells (ch_add ch)) -> In (c, e') (cells z) -> rr_ttl e = rr_ttl e') -> consistent z ch.
Proof.
  intros z ch W (WA & WR & _) H. split; intros c v w _ Hv Hw; apply cttl_in in Hv; auto; apply cttl_in in Hw; auto; destruct Hv as (e & He & <-), Hw as (e' & He' & <-); [|left]; eapply H; eauto.
Qed.
Example c24_case : cwf ex_Z /\ chwf (z_apex ex_Z) ex_C1 /\ chwf (z_apex ex_Z) ex_C2 /\ soa_both ex_C2 /\ consistent ex_Z ex_C1 /\ consistent ex_Z1 ex_C2 /\ applies ex_Z ex_C1 ex_Z1 /\ applies ex_Z1 ex_C2 ex_Z2 /\
  exists m, changeset_merge ex_C1 ex_C2 = Ok m /\ cells (ch_rem m) = [] /\ map fst (cells (ch_add m)) = [(false, ex_w, 16)] /\ soa_to m = Some (ex_soa 3).
Proof.
  destruct ex_wf as [W A]. pose proof ex_wf1 as C1. pose proof ex_wf2 as C2. rewrite A. split; auto. split; auto. split; auto. split; [split; discriminate|].
  assert (E1 : applies ex_Z ex_C1 ex_Z1) by (vm_compute; reflexivity). rewrite <- A in C1. destruct (apply_ok _ _ _ W C1 E1) as (z1 & [= <-] & AP). destruct AP as [W1 A1 _ _ _ _ _ _ _].
  split; [apply ex_cons; auto|]. { intros c e e' [H|H] H'; incell H; incell H'; reflexivity. }
  split; [apply ex_cons; auto|]. { intros c e e' [H|H] H'; incell H; incell H'; reflexivity. }
  split; auto. split; [vm_compute; reflexivity|]. eexists. split; [vm_compute; reflexivity|]. split; [reflexivity|]. split; reflexivity.
Qed.
(** The TTL of signatures is not kept: a signature removed and added again with another TTL is taken for no change. *)
Definition ex_sig (n : Z) : list Z := [0; 1; n].
Definition ex_Zs := Eval vm_compute in of_res (contents_new []) (build ex_a [rs ex_w 46 1 [ex_sig 1]]).
Definition ex_S1 := Eval vm_compute in of_res ex_ch0 (ex_change [rs ex_w 46 1 [ex_sig 1]] [rs ex_w 46 2 [ex_sig 2]] None None).
Definition ex_S2 := Eval vm_compute in of_res ex_ch0 (ex_change [rs ex_w 46 2 [ex_sig 2]] [rs ex_w 46 3 [ex_sig 1]] None None).
Theorem c24_rrsig_ttl_refuted : exists z ch1 ch2 z1 z2 m z3, cwf z /\ applies z ch1 z1 /\ applies z1 ch2 z2 /\ changeset_merge ch1 ch2 = Ok m /\ applies z m z3 /\
  map (fun q => rr_ttl (snd q)) (cells z2) = [3] /\ map (fun q => rr_ttl (snd q)) (cells z3) = [1] /\ map (fun q => rr_rrs (snd q)) (cells z2) = map (fun q => rr_rrs (snd q)) (cells z3).
Proof.
  exists ex_Zs, ex_S1, ex_S2, (ex_up ex_Zs ex_S1), (ex_up (ex_up ex_Zs ex_S1) ex_S2), (of_res ex_ch0 (changeset_merge ex_S1 ex_S2)), (ex_up ex_Zs (of_res ex_ch0 (changeset_merge ex_S1 ex_S2))).
  split; [apply (build_wf ex_a [rs ex_w 46 1 [ex_sig 1]]); [constructor; [gex false|constructor]|vm_compute; reflexivity]|]. repeat (split; [vm_compute; reflexivity|]). vm_compute. reflexivity.
Qed.
(** With TTLs that do not agree, a record may be both added and removed: the zone {x} with TTL 3 gets TTL 5, then y with
    TTL 3 is added. *)
Definition ex_T1 := Eval vm_compute in of_res ex_ch0 (ex_change [rs ex_w 1 3 [[1]]] [rs ex_w 1 5 [[1]]] None None).
Definition ex_T2 := Eval vm_compute in of_res ex_ch0 (ex_change [] [rs ex_w 1 3 [[2]]] None None).
Theorem c24_disjoint_refuted : exists ch1 ch2 m, disjoint ch1 /\ disjoint ch2 /\ changeset_merge ch1 ch2 = Ok m /\ map snd (cells (ch_add m)) = [snd (rs ex_w 1 3 [[1]; [2]])] /\ map snd (cells (ch_rem m)) = [snd (rs ex_w 1 3 [[1]])].
Proof.
  assert (B : forall l z, Forall (fun s => exists c b, good ex_a s c b) l -> build ex_a l = Ok z -> cwf z) by (intros l z H E; eapply build_wf; eauto).
  exists ex_T1, ex_T2, (of_res ex_ch0 (changeset_merge ex_T1 ex_T2)). split; [|split; [|split; [vm_compute; reflexivity|split; vm_compute; reflexivity]]].
  - assert (W1 : cwf (ch_add ex_T1)) by (apply (B [rs ex_w 1 5 [[1]]]); [constructor; [gex false|constructor]|vm_compute; reflexivity]). assert (W2 : cwf (ch_rem ex_T1)) by (apply (B [rs ex_w 1 3 [[1]]]); [constructor; [gex false|constructor]|vm_compute; reflexivity]). intros c x v HA HR HV.
    destruct (crec_cells _ _ _ W1 HA) as [e He]. destruct HV as [HV|[H1 H2]]; [incell He; discriminate|]. apply cttl_in in H1; auto. apply cttl_in in H2; auto. destruct H1 as (e1 & I1 & <-), H2 as (e2 & I2 & HH). clear He HA HR. incell I1; incell I2; discriminate.
  - assert (W2 : cwf (ch_rem ex_T2)) by (apply (B []); [constructor|vm_compute; reflexivity]). intros c x v HA HR HV. destruct (crec_cells _ _ _ W2 HR) as [e He]. incell He.
Qed.
Print Assumptions c24_compose. Print Assumptions c24_disjoint. Print Assumptions c24_rrsig_ttl_refuted. Print Assumptions c24_disjoint_refuted.
