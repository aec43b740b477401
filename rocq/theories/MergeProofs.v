(** Merging changesets. *)
From Verif Require Import Base RdatasetModel RdatasetSpec RdatasetProofs RdatasetProps NodeModel NodeProps ZoneModel ZoneProofs ZoneView ZoneFold ChangesetProofs.

(** [x]: where redundant records are looked for, [y]: where the others go *)
Definition merge_step (x y : contents) (s : rrset) : res (contents * contents) :=
  let* (x, s) := check_redundancy x s in
  if rr_empty (snd s) then Ok (x, y) else let* y := add_rr_to_contents y s in Ok (x, y).
Definition limit (e : Z) : Prop := e = KNOT_ESPACE \/ e = KNOT_ENOMEM.
Definition same_at (z z' : contents) (c : cell) : Prop := (forall x, crec z c x <-> crec z' c x) /\ (forall v, cttl z c v <-> cttl z' c v).
Definition lstep (x y x' y' : contents) (c : cell) (ttl : Z) (B : list Z -> Prop) : Prop :=
  (hits x c ttl -> (forall w, crec x' c w <-> crec x c w /\ ~ B w) /\ (forall w, crec y' c w <-> crec y c w \/ (B w /\ ~ crec x c w))) /\
  (~ hits x c ttl -> (forall w, crec x' c w <-> crec x c w) /\ (forall w, crec y' c w <-> crec y c w \/ B w)) /\
  (forall v, cttl x' c v <-> cttl x c v /\ exists w, crec x' c w) /\
  (ct c <> RRSIG -> forall v, cttl y' c v <-> ((exists w, B w /\ ~ (hits x c ttl /\ crec x c w)) /\ v = ttl) \/ (~ (exists w, B w /\ ~ (hits x c ttl /\ crec x c w)) /\ cttl y c v)).
Lemma merge_step_view : forall x y s c b, cwf x -> cwf y -> z_apex y = z_apex x -> good (z_apex x) s c b -> under (fst s) (z_apex x) = true ->
  (exists x' y', merge_step x y s = Ok (x', y') /\ cwf x' /\ cwf y' /\ z_apex x' = z_apex x /\ z_apex y' = z_apex x /\ (forall d, d <> c -> same_at x x' d /\ same_at y y' d) /\ lstep x y x' y' c (rr_ttl (snd s)) (fun w => In w b)) \/
  (exists e, merge_step x y s = Err e /\ limit e).
Proof.
  intros x y s c b WX WY AY G HU. unfold merge_step. destruct (redundancy_view x s c b WX G) as (x' & r' & b' & E1 & TY & TT & IB & HH & HN). rewrite E1. cbn [rbind snd].
  pose proof G as (HE & HI & HO & HT & HR & HA).
  assert (X : cwf x' /\ z_apex x' = z_apex x /\ (forall d, d <> c -> same_at x x' d) /\ (forall w, In w b' -> In w b) /\ (forall v, cttl x' c v <-> cttl x c v /\ exists w, crec x' c w) /\
    (hits x c (rr_ttl (snd s)) -> (forall w, crec x' c w <-> crec x c w /\ ~ In w b)) /\ (~ hits x c (rr_ttl (snd s)) -> (forall w, crec x' c w <-> crec x c w)) /\
    (forall w, In w b' <-> In w b /\ ~ (hits x c (rr_ttl (snd s)) /\ crec x c w))).
  { destruct (hits_dec x c (rr_ttl (snd s)) WX) as [H|H].
    - destruct (HH H) as [(W' & A' & R' & T') HB]. split; auto. split; auto. split; [|split; [intros w Hw; apply HB in Hw; tauto|split; [|split; [|split; [tauto|]]]]].
      + intros d Hd. split; [intros w; rewrite R'; tauto|]. intros v. rewrite T'. split; [|tauto]. intros Hv. split; auto. destruct (proj2 (crec_cttl x d WX) (ex_intro _ v Hv)) as [w Hw]. exists w. tauto.
      + intros v. rewrite T'. split; intros [H1 (w & Hw)]; split; auto; exists w; [apply R'; auto|apply R' in Hw; auto].
      + intros _ w. rewrite R'. tauto.
      + intros w. rewrite HB. tauto.
    - destruct (HN H) as [-> ->]. split; auto. split; auto. split; [intros; split; tauto|]. split; auto. split; [|split; [tauto|split; [tauto|intros; tauto]]]. intros v. split; [|tauto]. intros Hv. split; auto. apply crec_cttl; auto. exists v. auto. }
  destruct X as (WX' & AX & SX & SUB & TX & RX1 & RX2 & HB). unfold rr_empty. cbn [snd]. rewrite (is_count _ _ IB). destruct (zlen b' =? 0) eqn:EZ.
  - assert (b' = []) as -> by (destruct b'; auto; rewrite zlen_cons in EZ; pose proof (zlen_nonneg b'); lia). left. exists x', y. split; auto. split; auto. split; auto. split; auto. split; auto. split; [intros d Hd; split; auto; split; tauto|]. split; [|split; [|split; auto]].
    + intros H. split; auto. intros w. pose proof (HB w) as Q. cbn [In] in Q. split; auto. intros [|[H1 H2]]; auto. exfalso. apply Q. split; auto. tauto.
    + intros H. split; auto. intros w. pose proof (HB w) as Q. cbn [In] in Q. split; auto. intros [|H1]; auto. exfalso. apply Q. tauto.
    + intros _ v. split; [intros Hv; right; split; auto|]. { intros (w & H1 & H2). pose proof (HB w) as Q. cbn [In] in Q. tauto. } intros [[(w & H1 & H2) _]|[_ H]]; auto. pose proof (HB w) as Q. cbn [In] in Q. tauto.
  - assert (NB : b' <> []) by (intros ->; discriminate). assert (G' : good (z_apex y) (fst s, r') c b').
    { rewrite AY. split; [split; [cbn [snd]; rewrite TY; apply HE|exists b'; auto]|]. split; auto. split; auto. split; [cbn [snd]; congruence|]. split; auto. }
    unfold add_rr_to_contents. destruct (contents_add_rr y (fst s, r')) as [[ret y']|e| |] eqn:E2; cbn [rbind].
    + left. exists x', y'. split; auto. destruct (contents_add_view y _ _ _ _ _ WY G' E2) as (WY' & AY' & RY & TTY). cbn [snd] in TTY. split; auto. split; auto. split; auto. split; [congruence|]. split.
      { intros d Hd. split; auto. split; [intros w; rewrite RY; tauto|]. intros v. rewrite TTY. tauto. }
      split; [|split; [|split; auto]].
      * intros H. split; auto. intros w. rewrite RY, HB. tauto.
      * intros H. split; auto. intros w. rewrite RY, HB. tauto.
      * intros NS v. rewrite TTY, TT. assert (EX : exists w, In w b /\ ~ (hits x c (rr_ttl (snd s)) /\ crec x c w)). { destruct b' as [|w b']; [contradiction|]. exists w. apply HB. left. auto. } split; [intros [[H _]|[_ [[H _]|[H _]]]]; [contradiction|contradiction|left; auto]|]. intros [[_ H]|[H _]]; [|contradiction]. right. split; auto.
    + right. exists e. split; auto. unfold contents_add_rr in E2. pose proof (good_empty _ _ _ _ G') as HEm. cbn [snd] in HEm. rewrite HEm in E2. pose proof (rel_ok _ _ _ _ G') as HRl. cbn [snd] in HRl. rewrite HRl in E2. cbn [rbind] in E2. rewrite <- AY in HU. destruct (add_node_ok (fst s) y (ck c) (proj1 WY) HU) as (y1 & h & E3). rewrite E3 in E2. cbn [rbind] in E2. destruct (add_at y (fst s, r') c b' y1 h WY G' E3) as (-> & n & GN & _). rewrite GN in E2.
      assert (WN : node_wf (zn_rrs n)). { destruct (add_node_rrs _ _ _ _ _ (proj1 WY) E3) as (_ & _ & RR & _). pose proof (cwf_wf y c WY) as H. rewrite <- RR in H. unfold rrs_at in H. rewrite GN in H. auto. }
      destruct (c52_add (zn_rrs n) r' b' WN (proj1 G') (proj1 (proj2 G'))) as (ret & n' & EA & HRet & _). rewrite EA in E2. cbn [rbind] in E2. destruct ((ret =? KNOT_EOK) || (ret =? KNOT_ETTL)) eqn:ER; [discriminate|]. injection E2 as <-. unfold limit. lia.
    + exfalso. unfold contents_add_rr in E2. pose proof (good_empty _ _ _ _ G') as HEm. cbn [snd] in HEm. rewrite HEm in E2. pose proof (rel_ok _ _ _ _ G') as HRl. cbn [snd] in HRl. rewrite HRl in E2. cbn [rbind] in E2. rewrite <- AY in HU. destruct (add_node_ok (fst s) y (ck c) (proj1 WY) HU) as (y1 & h & E3). rewrite E3 in E2. cbn [rbind] in E2. destruct (add_at y (fst s, r') c b' y1 h WY G' E3) as (-> & n & GN & _). rewrite GN in E2.
      assert (WN : node_wf (zn_rrs n)). { destruct (add_node_rrs _ _ _ _ _ (proj1 WY) E3) as (_ & _ & RR & _). pose proof (cwf_wf y c WY) as H. rewrite <- RR in H. unfold rrs_at in H. rewrite GN in H. auto. }
      destruct (c52_add (zn_rrs n) r' b' WN (proj1 G') (proj1 (proj2 G'))) as (ret & n' & EA & HRet & _). rewrite EA in E2. cbn [rbind] in E2. destruct ((ret =? KNOT_EOK) || (ret =? KNOT_ETTL)) eqn:ER; discriminate.
    + exfalso. unfold contents_add_rr in E2. pose proof (good_empty _ _ _ _ G') as HEm. cbn [snd] in HEm. rewrite HEm in E2. pose proof (rel_ok _ _ _ _ G') as HRl. cbn [snd] in HRl. rewrite HRl in E2. cbn [rbind] in E2. rewrite <- AY in HU. destruct (add_node_ok (fst s) y (ck c) (proj1 WY) HU) as (y1 & h & E3). rewrite E3 in E2. cbn [rbind] in E2. destruct (add_at y (fst s, r') c b' y1 h WY G' E3) as (-> & n & GN & _). rewrite GN in E2.
      assert (WN : node_wf (zn_rrs n)). { destruct (add_node_rrs _ _ _ _ _ (proj1 WY) E3) as (_ & _ & RR & _). pose proof (cwf_wf y c WY) as H. rewrite <- RR in H. unfold rrs_at in H. rewrite GN in H. auto. }
      destruct (c52_add (zn_rrs n) r' b' WN (proj1 G') (proj1 (proj2 G'))) as (ret & n' & EA & HRet & _). rewrite EA in E2. cbn [rbind] in E2. destruct ((ret =? KNOT_EOK) || (ret =? KNOT_ETTL)) eqn:ER; discriminate.
Qed.

Lemma hits_ext : forall x x2 c ttl, same_at x x2 c -> (hits x c ttl <-> hits x2 c ttl).
Proof. intros x x2 c ttl [_ H]. unfold hits. split; intros (v & Hv & Hc); exists v; split; auto; apply H; auto. Qed.
Lemma lstep_ext : forall x y x' y' x2 y2 x2' y2' c ttl (B B2 : list Z -> Prop), same_at x x2 c -> same_at y y2 c -> same_at x' x2' c -> same_at y' y2' c -> (forall w, B w <-> B2 w) -> lstep x y x' y' c ttl B -> lstep x2 y2 x2' y2' c ttl B2.
Proof.
  intros x y x' y' x2 y2 x2' y2' c ttl B B2 SX [RY TY] [RX' TX'] [RY' TY'] HB. pose proof (hits_ext _ _ _ ttl SX) as HH. destruct SX as [RX TX]. intros (L1 & L2 & L3 & L4).
  assert (EX : (exists w, B2 w /\ ~ (hits x2 c ttl /\ crec x2 c w)) <-> (exists w, B w /\ ~ (hits x c ttl /\ crec x c w))).
  { split; intros (w & H1 & H2); exists w; rewrite HB, HH, RX in *; auto. }
  split; [|split; [|split]].
  - intros H. apply HH in H. destruct (L1 H) as [H1 H2]. split; intros w; [rewrite <- RX', <- RX, <- HB|rewrite <- RY', <- RY, <- HB, <- RX]; auto.
  - intros H. rewrite <- HH in H. destruct (L2 H) as [H1 H2]. split; intros w; [rewrite <- RX', <- RX|rewrite <- RY', <- RY, <- HB]; auto.
  - intros v. rewrite <- TX', <- TX, L3. split; intros [H1 (w & H2)]; split; auto; exists w; apply RX'; auto.
  - intros NS v. rewrite EX, <- TY', <- TY. apply L4. auto.
Qed.
Lemma same_refl : forall z c, same_at z z c. Proof. split; tauto. Qed.
Lemma same_trans : forall a b d c, same_at a b c -> same_at b d c -> same_at a d c.
Proof. intros a b d c [R1 T1] [R2 T2]. split; intros; [rewrite R1, R2|rewrite T1, T2]; tauto. Qed.
Lemma same_sym : forall a b c, same_at a b c -> same_at b a c.
Proof. intros a b c [R1 T1]. split; intros; [rewrite R1|rewrite T1]; tauto. Qed.
Definition msteps (l : list rrset) (xy : contents * contents) : res (contents * contents) := fold_res (fun p s => merge_step (fst p) (snd p) s) l xy.
Lemma merge_phase : forall L x y, cwf x -> cwf y -> z_apex y = z_apex x -> lgood (z_apex x) L -> Forall (fun q => under (co (fst q)) (z_apex x) = true) L ->
  (exists x' y', msteps (map sof L) (x, y) = Ok (x', y') /\ cwf x' /\ cwf y' /\ z_apex x' = z_apex x /\ z_apex y' = z_apex x /\
     (forall c, ~ In c (map fst L) -> same_at x x' c /\ same_at y y' c) /\ (forall c e, In (c, e) L -> lstep x y x' y' c (rr_ttl e) (inl L c))) \/
  (exists e, msteps (map sof L) (x, y) = Err e /\ limit e).
Proof.
  induction L as [|q L IH]; intros x y WX WY AY HL HU; unfold msteps; cbn [map fold_res].
  - left. exists x, y. split; auto. split; auto. split; auto. split; auto. split; auto. split; [intros; split; apply same_refl|intros c e []].
  - apply lgood_cons in HL. destruct HL as ((b & G) & HL & NI). cbn [fst snd]. destruct (merge_step_view x y (sof q) (fst q) b WX WY AY G (Forall_inv HU)) as [(x1 & y1 & E1 & WX1 & WY1 & AX1 & AY1 & SD & LS)|(e & E1 & He)]; rewrite E1; cbn [rbind].
    2:{ right. exists e. auto. }
    destruct (IH x1 y1 WX1 WY1) as [(x' & y' & E' & WX' & WY' & AX' & AY' & SD' & LS')|(e & E' & He)]; [congruence|rewrite AX1; auto|rewrite AX1; eapply Forall_inv_tail; eauto| |].
    + left. exists x', y'. split; [exact E'|]. split; auto. split; auto. split; [congruence|]. split; [congruence|]. cbn [map In]. split.
      * intros c Hc. assert (c <> fst q) by (intros ->; apply Hc; auto). destruct (SD c H) as [S1 S2]. destruct (SD' c) as [S3 S4]; [intros X; apply Hc; auto|]. split; eapply same_trans; eauto.
      * intros c e [HI|HI].
        -- subst q. cbn [fst snd sof] in *. destruct (SD' c NI) as [S3 S4]. eapply lstep_ext; [apply same_refl|apply same_refl|exact S3|exact S4| |exact LS]. intros w. rewrite (inl_cons _ _ _ _ c w G). cbn [fst]. split; [auto|]. intros [[_ H]|H]; auto. exfalso. apply NI. eapply inl_fst; eauto.
        -- assert (N : c <> fst q). { intros ->. apply NI, in_map_iff. exists (fst q, e). auto. } destruct (SD c N) as [S1 S2]. eapply lstep_ext; [apply same_sym; exact S1|apply same_sym; exact S2|apply same_refl|apply same_refl| |apply LS'; auto]. intros w. rewrite (inl_cons _ _ _ _ c w G). split; [auto|]. intros [[H _]|H]; auto. contradiction.
    + right. exists e. auto.
Qed.

(** ** changeset_merge *)
Lemma removal_step : forall ch s, rr_type (snd s) <> SOA -> changeset_add_removal ch s true = let* (x, y) := merge_step (ch_add ch) (ch_rem ch) s in Ok (mkch x y (soa_from ch) (soa_to ch)).
Proof. intros ch s H. unfold changeset_add_removal, merge_step. replace (rr_type (snd s) =? SOA) with false by lia. destruct (check_redundancy (ch_add ch) s) as [[x s']| | |]; cbn [rbind]; auto. destruct (rr_empty (snd s')); auto. destruct (add_rr_to_contents (ch_rem ch) s'); auto. Qed.
Lemma addition_step : forall ch s, rr_type (snd s) <> SOA -> changeset_add_addition ch s true = let* (x, y) := merge_step (ch_rem ch) (ch_add ch) s in Ok (mkch y x (soa_from ch) (soa_to ch)).
Proof. intros ch s H. unfold changeset_add_addition, merge_step. replace (rr_type (snd s) =? SOA) with false by lia. destruct (check_redundancy (ch_rem ch) s) as [[x s']| | |]; cbn [rbind]; auto. destruct (rr_empty (snd s')); auto. destruct (add_rr_to_contents (ch_add ch) s'); auto. Qed.
Lemma removal_fold : forall l ch, Forall (fun s => rr_type (snd s) <> SOA) l -> fold_res (fun ch s => changeset_add_removal ch s true) l ch = let* (x, y) := msteps l (ch_add ch, ch_rem ch) in Ok (mkch x y (soa_from ch) (soa_to ch)).
Proof.
  induction l as [|s l IH]; intros ch HF; unfold msteps; cbn [fold_res fst snd]; [destruct ch; auto|]. rewrite removal_step by (apply (Forall_inv HF)). destruct (merge_step (ch_add ch) (ch_rem ch) s) as [[x y]| | |]; cbn [rbind]; auto. rewrite IH by (eapply Forall_inv_tail; eauto). auto.
Qed.
Lemma addition_fold : forall l ch, Forall (fun s => rr_type (snd s) <> SOA) l -> fold_res (fun ch s => changeset_add_addition ch s true) l ch = let* (x, y) := msteps l (ch_rem ch, ch_add ch) in Ok (mkch y x (soa_from ch) (soa_to ch)).
Proof.
  induction l as [|s l IH]; intros ch HF; unfold msteps; cbn [fold_res fst snd]; [destruct ch; auto|]. rewrite addition_step by (apply (Forall_inv HF)). destruct (merge_step (ch_rem ch) (ch_add ch) s) as [[x y]| | |]; cbn [rbind]; auto. rewrite IH by (eapply Forall_inv_tail; eauto). auto.
Qed.
