(** Applying a changeset to zone contents. *)
From Verif Require Import Base RdatasetModel RdatasetSpec RdatasetProofs RdatasetProps NodeModel NodeProps ZoneModel ZoneProofs ZoneView ZoneFold.

Definition soa_ok (s : option rrset) : Prop := forall x, s = Some x -> entry_ok (snd x) /\ rr_type (snd x) = SOA.
(** A changeset for a zone with the apex [a]: the SOA is kept apart, both are given or none *)
Definition chwf (a : name) (ch : changeset) : Prop :=
  cwf (ch_add ch) /\ cwf (ch_rem ch) /\ z_apex (ch_add ch) = a /\ z_apex (ch_rem ch) = a /\
  (forall c x, crec (ch_add ch) c x \/ crec (ch_rem ch) c x -> ct c <> SOA) /\ soa_ok (soa_from ch) /\ soa_ok (soa_to ch).
Definition soa_cell (a : name) : cell := (false, a, SOA).

Definition record (ch : option changeset) (f : changeset -> res changeset) (z : contents) : res update :=
  match ch with None => Ok (mkup z None) | Some ch => let* ch := f ch in Ok (mkup z (Some ch)) end.
Lemma remove_strict : forall st z chg s c b, good (z_apex z) s c b -> ct c <> SOA ->
  zone_update_remove st (mkup z chg) s = let* z' := apply_remove_rr st z s in record chg (fun ch => changeset_add_removal ch s true) z'.
Proof.
  intros st z chg s c b G NS. unfold zone_update_remove. rewrite (good_empty _ _ _ _ G). destruct G as (_ & _ & _ & HT & _). rewrite <- HT. replace (ct c =? SOA) with false by lia. cbn [u_new u_chg]. destruct (apply_remove_rr st z s); auto.
Qed.
Lemma add_strict : forall f z chg s c b, cwf z -> good (z_apex z) s c b -> ct c <> SOA ->
  zone_update_add (S f) true (mkup z chg) s = let* z' := apply_add_rr true z s in record chg (fun ch => changeset_add_addition ch s true) z'.
Proof.
  intros f z chg [o r] c b W G NS. cbn [zone_update_add]. pose proof (good_empty _ _ _ _ G) as HEm. cbn [snd] in HEm. rewrite HEm. pose proof G as (HE & HI & HO & HT & HR & HA). cbn [fst snd] in *. rewrite <- HT. replace (ct c =? SOA) with false by lia. cbn [u_new u_chg]. destruct (apply_add_rr true z (o, r)) as [z'| | |] eqn:E; cbn [rbind]; auto. cbn [u_new u_chg]. destruct (apply_add_strict z _ _ _ z' W G E) as (_ & _ & W' & A' & R' & T'). cbn [snd] in T'. rewrite orb_false_r.
  assert (X : forall (A : Type) (k : A) (k2 : rr_data -> A), (if ct c =? RRSIG then k else match ZoneModel.zget z' false o with None => k | Some n => match node_rrset (zn_rrs n) (ct c) with None => k | Some e => if rr_empty e || (rr_ttl e =? rr_ttl r) then k else k2 e end end) = k).
  { intros A k k2. destruct (ct c =? RRSIG) eqn:ES; auto. pose proof (proj1 (proj2 W') false o) as WN. unfold rrs_at in WN. destruct (ZoneModel.zget z' false o) as [n|] eqn:EG; auto. pose proof (c52_lookup (zn_rrs n) (ct c) WN) as HL. destruct (node_rrset (zn_rrs n) (ct c)) as [e|]; auto. destruct HL as (rs & IE & TE & HH & _).
    destruct (ck c) eqn:EK.
    - exfalso. destruct (c52_nonempty _ _ _ _ WN HH) as [NE _]. destruct rs as [|x rs]; [contradiction|]. assert (CR : crec z' (false, o, ct c) x). { unfold crec, ck, co, ct, rrs_at. cbn [fst snd]. rewrite EG. exists (rr_ttl e), (x :: rs). split; auto. left. auto. } destruct W' as (_ & _ & WR & _). apply WR in CR. destruct CR as [CR _]. unfold ck, ct in CR. cbn [fst snd] in CR. pose proof (good_b _ _ _ _ G) as NB. destruct b as [|y b]; [contradiction|]. destruct (HR y (or_introl eq_refl)) as [RY _]. unfold rel in *. fold (ct c) in CR. rewrite ES in *. cbn [andb] in *. rewrite orb_false_r in *. congruence.
    - assert (CT : cttl z' c (rr_ttl e)). { unfold cttl, rrs_at. rewrite EK, HO, EG. exists rs. auto. } apply T' in CT. destruct CT as [[CT _]|[_ [[CT _]|[CT _]]]]; [contradiction|lia|]. rewrite CT, Z.eqb_refl, orb_true_r. auto. }
  rewrite X. cbn [rbind u_chg u_new]. destruct chg; auto.
Qed.

(** ** Applying without recording *)
Lemma fold_remove : forall L z, cwf z -> lgood (z_apex z) L -> Forall (fun q => ct (fst q) <> SOA) L ->
  fold_res (fun u s => zone_update_remove true u s) (map sof L) (mkup z None) = let* z' := fold_res (apply_remove_rr true) (map sof L) z in Ok (mkup z' None).
Proof.
  induction L as [|q L IH]; intros z W HL HS; cbn [map fold_res]; auto. apply lgood_cons in HL. destruct HL as ((b & G) & HL & NI). rewrite (remove_strict true z None _ _ _ G (Forall_inv HS)). destruct (apply_remove_rr true z (sof q)) as [z1| | |] eqn:E1; cbn [rbind record]; auto. destruct (apply_remove_strict z _ _ _ z1 W G E1) as (_ & W1 & A1 & _). apply IH; auto; [rewrite A1; auto|eapply Forall_inv_tail; eauto].
Qed.
Lemma fold_add : forall L z, cwf z -> lgood (z_apex z) L -> Forall (fun q => ct (fst q) <> SOA) L ->
  fold_res (fun u s => zone_update_add 3 true u s) (map sof L) (mkup z None) = let* z' := fold_res (apply_add_rr true) (map sof L) z in Ok (mkup z' None).
Proof.
  induction L as [|q L IH]; intros z W HL HS; cbn [map fold_res]; auto. apply lgood_cons in HL. destruct HL as ((b & G) & HL & NI). rewrite (add_strict 2 z None _ _ _ W G (Forall_inv HS)). destruct (apply_add_rr true z (sof q)) as [z1| | |] eqn:E1; cbn [rbind record]; auto. destruct (apply_add_strict z _ _ _ z1 W G E1) as (_ & _ & W1 & A1 & _). apply IH; auto; [rewrite A1; auto|eapply Forall_inv_tail; eauto].
Qed.
Lemma cells_nosoa : forall z, cwf z -> (forall c x, crec z c x -> ct c <> SOA) -> Forall (fun q => ct (fst q) <> SOA) (cells z).
Proof.
  intros z W H. apply Forall_forall. intros [c e] HI. destruct (cells_good z c e W HI) as (b & G & CR & _); [eapply cells_apex; eauto|]. pose proof (good_b _ _ _ _ G) as NB. destruct b as [|x b]; [contradiction|]. apply (H c x), CR. left. auto.
Qed.
(** The SOA of the zone and its records *)
Definition has_soa (z : contents) : Prop := exists x, crec z (soa_cell (z_apex z)) x.
Lemma soa_good : forall a s b, entry_ok (snd s) -> rr_type (snd s) = SOA -> is (rr_rrs (snd s)) b -> fst s = a -> good a s (soa_cell a) b.
Proof. intros a s b HE HT HB HO. split; auto. split; auto. split; [cbn; auto|]. split; [cbn; auto|]. split; [|discriminate]. intros x _. split; [reflexivity|discriminate]. Qed.
Lemma apexn_rrs : forall z, zn_rrs (z_apexn z) = rrs_at z false (z_apex z).
Proof. intros. unfold rrs_at, ZoneModel.zget. rewrite neqb_refl. auto. Qed.
Lemma replace_view : forall z s b, cwf z -> entry_ok (snd s) -> rr_type (snd s) = SOA -> is (rr_rrs (snd s)) b ->
  (forall z', apply_replace_soa true z s = Ok z' -> fst s = z_apex z /\ has_soa z /\ cwf z' /\ z_apex z' = z_apex z /\
     (forall c x, crec z' c x <-> if cell_dec c (soa_cell (z_apex z)) then In x b else crec z c x) /\
     (forall c v, cttl z' c v <-> if cell_dec c (soa_cell (z_apex z)) then v = rr_ttl (snd s) else cttl z c v)) /\
  (fst s = z_apex z -> has_soa z -> (exists z', apply_replace_soa true z s = Ok z') \/ exists e, apply_replace_soa true z s = Err e /\ (e = KNOT_ESPACE \/ e = KNOT_ENOMEM)).
Proof.
  intros z [o r] b W HE HT HB. unfold apply_replace_soa. cbn [fst snd] in *. destruct (name_eqb o (z_apex z)) eqn:EO; cbn [negb].
  2:{ split; [discriminate|]. intros ->. rewrite neqb_refl in EO. discriminate. }
  apply neqb_spec in EO. subst o. pose proof (cwf_wf z (soa_cell (z_apex z)) W) as WN. change (rrs_at z (ck (soa_cell (z_apex z))) (co (soa_cell (z_apex z)))) with (rrs_at z false (z_apex z)) in WN. rewrite apexn_rrs. pose proof (c52_lookup _ SOA WN) as HL. destruct (node_rrset (rrs_at z false (z_apex z)) SOA) as [e|] eqn:EN.
  - destruct HL as (rs & IE & TE & HH & _). assert (HEe : entry_ok e). { destruct (c52_nonempty _ _ _ _ WN HH). split; [unfold SOA in *; lia|eauto]. }
    pose proof (soa_good (z_apex z) (z_apex z, e) rs HEe TE IE eq_refl) as G. assert (CR : forall x, crec z (soa_cell (z_apex z)) x <-> In x rs). { intros x. split; [intros (v & rs' & H1 & H2); destruct (c52_unique _ _ _ _ _ _ WN H1 HH) as [_ ->]; auto|intros; exists (rr_ttl e), rs; auto]. }
    destruct (proj1 (apply_remove_view z _ _ _ true W G)) as (z1 & E1 & W1 & A1 & R1 & T1); [intros x Hx; apply CR; auto|]. rewrite E1. cbn [rbind]. rewrite apexn_rrs, A1.
    assert (NR : forall x, ~ crec z1 (soa_cell (z_apex z)) x) by (intros x H; apply R1 in H; rewrite CR in H; tauto).
    pose proof (cwf_wf z1 (soa_cell (z_apex z)) W1) as WN1. change (rrs_at z1 (ck (soa_cell (z_apex z))) (co (soa_cell (z_apex z)))) with (rrs_at z1 false (z_apex z)) in WN1. pose proof (c52_lookup _ SOA WN1) as HL1. destruct (node_rrset (rrs_at z1 false (z_apex z)) SOA) as [e1|].
    { exfalso. destruct HL1 as (rs1 & _ & _ & HH1 & _). destruct (c52_nonempty _ _ _ _ WN1 HH1) as [N1 _]. destruct rs1 as [|x rs1]; [contradiction|]. apply (NR x). exists (rr_ttl e1), (x :: rs1). split; auto. left. auto. }
    pose proof (soa_good (z_apex z) (z_apex z, r) b HE HT HB eq_refl) as G2. rewrite <- A1 in G2 at 1.
    assert (HS : has_soa z). { destruct (c52_nonempty _ _ _ _ WN HH) as [NR' _]. destruct rs as [|x rs]; [contradiction|]. exists x. apply CR. left. auto. }
    split.
    + intros z' E2. destruct (apply_add_strict z1 _ _ _ z' W1 G2 E2) as (_ & _ & W2 & A2 & R2 & T2). split; auto. split; auto. split; auto. split; [congruence|]. cbn [snd] in T2. split.
      * intros c x. rewrite R2, R1. destruct (cell_dec c (soa_cell (z_apex z))) as [->|N]; [rewrite CR; tauto|tauto].
      * intros c v. rewrite T2. destruct (cell_dec c (soa_cell (z_apex z))) as [->|N]; [|rewrite T1; split; [tauto|]; intros H; left; split; auto; split; auto; destruct (proj2 (crec_cttl z c W) (ex_intro _ v H)) as [x Hx]; exists x; tauto]. split; [intros [[H _]|[_ [[H _]|[H _]]]]; [contradiction|discriminate|auto]|]. intros ->. right. split; auto. right. split; auto. discriminate.
    + intros _ _. assert (U : under (fst (z_apex z, r)) (z_apex z1) = true) by (rewrite A1; apply under_refl). destruct (proj1 (apply_add_view z1 _ _ _ true W1 G2 U)) as [(z' & E2 & _)|H]; [intros x _; apply NR|left; eauto|right; auto].
  - destruct HL as [HL _]. split; [discriminate|]. intros _ (x & (v & rs & H & _)). exfalso. eapply HL; eauto.
Qed.

(** ** The whole *)
Definition soa_change (z : contents) (ch : changeset) : Prop := match soa_to ch with None => True | Some s => fst s = z_apex z /\ has_soa z end.
Definition in_soa (ch : changeset) (x : list Z) : Prop := exists s b, soa_to ch = Some s /\ is (rr_rrs (snd s)) b /\ In x b.
Definition touches (z : contents) (ch : changeset) (c : cell) : Prop := soa_to ch <> None /\ c = soa_cell (z_apex z).
Record applied (z : contents) (ch : changeset) (z' : contents) : Prop := {
  ap_wf : cwf z'; ap_apex : z_apex z' = z_apex z;
  ap_rem : forall c x, crec (ch_rem ch) c x -> crec z c x;
  ap_add : forall c x, crec (ch_add ch) c x -> crec z c x -> crec (ch_rem ch) c x;
  ap_soa : soa_change z ch;
  ap_rec : forall c x, ~ touches z ch c -> (crec z' c x <-> (crec z c x /\ ~ crec (ch_rem ch) c x) \/ crec (ch_add ch) c x);
  ap_ttl : forall c v, ~ touches z ch c -> (cttl z' c v <-> ((forall x, ~ crec (ch_add ch) c x) /\ cttl z c v /\ exists x, crec z c x /\ ~ crec (ch_rem ch) c x) \/
     exists w, cttl (ch_add ch) c w /\ ((ct c = RRSIG /\ cttl z c v /\ exists x, crec z c x /\ ~ crec (ch_rem ch) c x) \/ (v = w /\ (ct c = RRSIG -> forall x, crec z c x -> crec (ch_rem ch) c x))));
  ap_soa_rec : forall c x, touches z ch c -> (crec z' c x <-> in_soa ch x);
  ap_soa_ttl : forall c v, touches z ch c -> (cttl z' c v <-> exists s, soa_to ch = Some s /\ v = rr_ttl (snd s)) }.
Lemma walk_soa_from : forall ch u a, chwf a ch -> (match soa_from ch with Some s => zone_update_remove true u s | None => Ok u end) = Ok u.
Proof. intros ch u a (_ & _ & _ & _ & _ & HF & _). destruct (soa_from ch) as [s|]; auto. destruct (HF s eq_refl) as [_ HT]. unfold zone_update_remove. rewrite HT. destruct (rr_empty (snd s)); auto. Qed.
Lemma empty_soa : forall (s : rrset) b, entry_ok (snd s) -> is (rr_rrs (snd s)) b -> rr_empty (snd s) = false.
Proof. intros s b (_ & b' & H1 & H2) HB. unfold rr_empty. rewrite (is_count _ _ H1). destruct b'; [contradiction|]. rewrite zlen_cons. pose proof (zlen_nonneg b'). lia. Qed.
Lemma add_soa : forall z (s : rrset) b, entry_ok (snd s) -> rr_type (snd s) = SOA -> is (rr_rrs (snd s)) b -> zone_update_add 3 true (mkup z None) s = let* z' := apply_replace_soa true z s in Ok (mkup z' None).
Proof. intros z [o r] b HE HT HB. pose proof (empty_soa _ _ HE HB) as H. cbn [snd] in *. cbn [zone_update_add]. rewrite H, HT. change (SOA =? SOA) with true. rewrite orb_true_r. cbn [u_new u_chg]. destruct (apply_replace_soa true z (o, r)); auto. Qed.
Lemma apply_unfold : forall z ch, cwf z -> chwf (z_apex z) ch -> apply_changeset true (mkup z None) ch =
  let* z1 := fold_res (apply_remove_rr true) (map sof (cells (ch_rem ch))) z in
  let* z2 := fold_res (apply_add_rr true) (map sof (cells (ch_add ch))) z1 in
  match soa_to ch with None => Ok (mkup z2 None) | Some s => let* z3 := apply_replace_soa true z2 s in Ok (mkup z3 None) end.
Proof.
  intros z ch W CW. pose proof CW as (WA & WR & AA & AR & NS & SF & ST). unfold apply_changeset, changeset_walk. rewrite !iter_cells.
  assert (HL1 : lgood (z_apex z) (cells (ch_rem ch))) by (rewrite <- AR; apply cells_lgood; auto). assert (HL2 : lgood (z_apex z) (cells (ch_add ch))) by (rewrite <- AA; apply cells_lgood; auto).
  rewrite fold_remove; auto; [|apply cells_nosoa; auto; intros; eapply NS; eauto]. destruct (fold_res (apply_remove_rr true) (map sof (cells (ch_rem ch))) z) as [z1| | |] eqn:E1; cbn [rbind]; auto. destruct (proj1 (rem_phase _ z W HL1) z1 E1) as (_ & W1 & A1 & _). rewrite (walk_soa_from ch (mkup z1 None) _ CW). cbn [rbind].
  rewrite fold_add; auto; [|rewrite A1; auto|apply cells_nosoa; auto; intros; eapply NS; eauto]. destruct (fold_res (apply_add_rr true) (map sof (cells (ch_add ch))) z1) as [z2| | |]; cbn [rbind]; auto. destruct (soa_to ch) as [s|]; auto. destruct (ST s eq_refl) as [HE HT]. pose proof HE as [_ (b & HB & _)]. apply (add_soa z2 s b); auto.
Qed.
Lemma apply_ok : forall z ch u, cwf z -> chwf (z_apex z) ch -> apply_changeset true (mkup z None) ch = Ok u -> exists z', u = mkup z' None /\ applied z ch z'.
Proof.
  intros z ch u W CW E. pose proof CW as (WA & WR & AA & AR & NS & SF & ST). rewrite apply_unfold in E by auto.
  assert (HL1 : lgood (z_apex z) (cells (ch_rem ch))) by (rewrite <- AR; apply cells_lgood; auto). assert (HL2 : lgood (z_apex z) (cells (ch_add ch))) by (rewrite <- AA; apply cells_lgood; auto).
  destruct (fold_res (apply_remove_rr true) _ z) as [z1| | |] eqn:E1; cbn [rbind] in E; try discriminate. destruct (proj1 (rem_phase _ z W HL1) z1 E1) as (S1 & W1 & A1 & R1 & T1). rewrite <- A1 in HL2.
  destruct (fold_res (apply_add_rr true) _ z1) as [z2| | |] eqn:E2; cbn [rbind] in E; try discriminate. destruct (proj1 (add_phase _ z1 W1 HL2) z2 E2) as (S2 & W2 & A2 & R2 & T2).
  assert (Q1 : forall c x, crec (ch_rem ch) c x -> crec z c x) by (intros c x H; apply S1, inl_cells; auto).
  assert (Q2 : forall c x, crec (ch_add ch) c x -> crec z c x -> crec (ch_rem ch) c x).
  { intros c x H H1. destruct (crec_dec (ch_rem ch) c x WR) as [|N]; auto. exfalso. apply (S2 c x); [apply inl_cells; auto|]. apply R1. rewrite inl_cells by auto. auto. }
  assert (Q3 : forall c x, crec z2 c x <-> (crec z c x /\ ~ crec (ch_rem ch) c x) \/ crec (ch_add ch) c x) by (intros c x; rewrite R2, R1, !inl_cells by auto; tauto).
  assert (ML : forall c, In c (map fst (cells (ch_add ch))) <-> exists x, crec (ch_add ch) c x).
  { intros c. split; [|intros (x & H); apply inl_cells in H; auto; eapply inl_fst; eauto]. intros H. apply in_map_iff in H. destruct H as ([c' e] & EC & HI). cbn [fst] in EC. subst c'. destruct (cells_good (ch_add ch) c e WA HI) as (b & G & CR & _); [eapply cells_apex; eauto|]. pose proof (good_b _ _ _ _ G) as NB. destruct b as [|x b]; [contradiction|]. exists x. apply CR. left. auto. }
  assert (Q4 : forall c v, cttl z2 c v <-> ((forall x, ~ crec (ch_add ch) c x) /\ cttl z c v /\ exists x, crec z c x /\ ~ crec (ch_rem ch) c x) \/
     exists w, cttl (ch_add ch) c w /\ ((ct c = RRSIG /\ cttl z c v /\ exists x, crec z c x /\ ~ crec (ch_rem ch) c x) \/ (v = w /\ (ct c = RRSIG -> forall x, crec z c x -> crec (ch_rem ch) c x)))).
  { intros c v. assert (T1' : forall v, cttl z1 c v <-> cttl z c v /\ exists x, crec z c x /\ ~ crec (ch_rem ch) c x). { intros v'. rewrite T1. split; intros [H (x & Hx)]; split; auto; exists x; [rewrite R1, inl_cells in Hx by auto|rewrite R1, inl_cells by auto]; auto. }
    rewrite T2, ML. split.
    - intros [[H1 H2]|(e & HI & H)].
      + left. split; [intros x Hx; apply H1; eauto|]. apply T1'. auto.
      + right. destruct (cells_good (ch_add ch) c e WA HI) as (b & _ & _ & TE); [eapply cells_apex; eauto|]. exists (rr_ttl e). split; auto. destruct H as [[H1 H2]|[H1 H2]]; [left; split; auto; apply T1'; auto|right; split; auto]. intros HS x Hx. destruct (crec_dec (ch_rem ch) c x WR) as [|N]; auto. exfalso. destruct (proj1 (crec_cttl z c W) (ex_intro _ x Hx)) as [w Hw]. apply (H2 HS w), T1'. split; eauto.
    - intros [(H1 & H2)|(w & H1 & H2)].
      + left. split; [intros (x & Hx); eapply H1; eauto|]. apply T1'. auto.
      + right. destruct (proj2 (crec_cttl _ c WA) (ex_intro _ w H1)) as [y Hy]. destruct (crec_cells _ c y WA Hy) as [e HI]. destruct (cells_good (ch_add ch) c e WA HI) as (b & _ & _ & TE); [eapply cells_apex; eauto|]. rewrite (cttl_fun _ _ _ _ WA H1 TE) in H2. exists e. split; auto. destruct H2 as [(H3 & H4)|(H3 & H4)]; [left; split; auto; apply T1'; auto|right; split; auto]. intros HS w' Hw. apply T1' in Hw. destruct Hw as [_ (x & Hx1 & Hx2)]. apply Hx2. auto. }
  destruct (soa_to ch) as [s|] eqn:ES.
  - destruct (ST s eq_refl) as [HE HT]. pose proof HE as [_ (b & HB & NB)]. destruct (apply_replace_soa true z2 s) as [z3| | |] eqn:E3; cbn [rbind] in E; try discriminate. injection E as <-. exists z3. split; auto. destruct (proj1 (replace_view z2 s b W2 HE HT HB) z3 E3) as (HO & HSO & W3 & A3 & R3 & T3).
    assert (AZ : z_apex z2 = z_apex z) by congruence. rewrite AZ in *. split; auto.
    + unfold soa_change. rewrite ES. split; auto. destruct HSO as [x HX]. exists x. rewrite AZ in HX. apply Q3 in HX. destruct HX as [[HX _]|HX]; auto. exfalso. apply (NS _ _ (or_introl HX)). reflexivity.
    + intros c x H. rewrite R3. destruct (cell_dec c (soa_cell (z_apex z))) as [->|N]; auto. exfalso. apply H. split; [rewrite ES; discriminate|auto].
    + intros c v H. rewrite T3. destruct (cell_dec c (soa_cell (z_apex z))) as [->|N]; auto. exfalso. apply H. split; [rewrite ES; discriminate|auto].
    + intros c x [_ ->]. rewrite R3. destruct (cell_dec _ _) as [_|N]; [|contradiction]. unfold in_soa. rewrite ES. split; [intros; exists s, b; auto|]. intros (s' & b' & [= <-] & H1 & H2). rewrite (is_fun _ _ _ HB H1). auto.
    + intros c v [_ ->]. rewrite T3. destruct (cell_dec _ _) as [_|N]; [|contradiction]. rewrite ES. split; [intros ->; eauto|]. intros (s' & [= <-] & H). auto.
  - injection E as <-. exists z2. split; auto. split; auto; [congruence|unfold soa_change; rewrite ES; auto|intros c x [H _]; rewrite ES in H; contradiction|intros c x [H _]; rewrite ES in H; contradiction].
Qed.
Lemma apply_can : forall z ch, cwf z -> chwf (z_apex z) ch -> (forall c x, crec (ch_rem ch) c x -> crec z c x) -> (forall c x, crec (ch_add ch) c x -> crec z c x -> crec (ch_rem ch) c x) -> soa_change z ch ->
  (exists u, apply_changeset true (mkup z None) ch = Ok u) \/ exists e, apply_changeset true (mkup z None) ch = Err e /\ (e = KNOT_ESPACE \/ e = KNOT_ENOMEM).
Proof.
  intros z ch W CW H1 H2 H3. pose proof CW as (WA & WR & AA & AR & NS & SF & ST). rewrite apply_unfold by auto.
  assert (HL1 : lgood (z_apex z) (cells (ch_rem ch))) by (rewrite <- AR; apply cells_lgood; auto). assert (HL2 : lgood (z_apex z) (cells (ch_add ch))) by (rewrite <- AA; apply cells_lgood; auto).
  destruct (proj2 (rem_phase _ z W HL1)) as [z1 E1]; [intros c x H; apply inl_cells in H; auto|]. rewrite E1. cbn [rbind]. destruct (proj1 (rem_phase _ z W HL1) z1 E1) as (S1 & W1 & A1 & R1 & T1). rewrite <- A1 in HL2.
  destruct (proj2 (add_phase _ z1 W1 HL2)) as [[z2 E2]|(e & E2 & He)].
  { intros c x H. apply inl_cells in H; auto. intros X. apply R1 in X. rewrite inl_cells in X by auto. destruct X as [X1 X2]. apply X2. eauto. }
  { apply Forall_forall. intros [c e] HI. rewrite A1, <- AA. eapply cells_under; eauto. }
  2:{ rewrite E2. cbn [rbind]. right. exists e. auto. }
  rewrite E2. cbn [rbind]. destruct (proj1 (add_phase _ z1 W1 HL2) z2 E2) as (S2 & W2 & A2 & R2 & T2). unfold soa_change in H3. destruct (soa_to ch) as [s|]; [|left; eauto]. destruct (ST s eq_refl) as [HE HT]. pose proof HE as [_ (b & HB & NB)]. destruct H3 as [HO (x & HX)]. assert (AZ : z_apex z2 = z_apex z) by congruence.
  destruct (proj2 (replace_view z2 s b W2 HE HT HB)) as [[z3 E3]|(e & E3 & He)]; [congruence| | |].
  - exists x. rewrite AZ. apply R2. left. apply R1. split; auto. rewrite inl_cells by auto. intros X. apply (NS _ _ (or_intror X)). reflexivity.
  - rewrite E3. cbn [rbind]. left. eauto.
  - rewrite E3. cbn [rbind]. right. exists e. auto.
Qed.
