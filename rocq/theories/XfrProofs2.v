(** Transfers record by record and message by message. *)
From Verif Require Import Base RdatasetModel RdatasetSpec RdatasetProofs RdatasetProps NodeModel NodeProps SerialModel ZoneModel ZoneProofs ZoneView ZoneFold ZoneExamples ZoneTreeProps ChangesetProofs MergeProofs DiffModel DiffProofs ChangesetProps XfrModel XfrSpec XfrProofs.

Lemma inzone_app : forall a l1 l2, inzone a (l1 ++ l2) = inzone a l1 ++ inzone a l2. Proof. intros. apply filter_app. Qed.
Lemma inv_state : forall cf b1 d seen, inv cf b1 d seen -> d_state d <> None.
Proof. intros cf b1 d seen H. unfold inv in H. destruct (d_state d); [discriminate|contradiction]. Qed.
Lemma step_state : forall cf d st r k d', ixfr_consume_rr cf d st r = Ok (k, d') -> d_state d <> None -> d_state d' <> None /\ d_isoa d' = d_isoa d /\ d_type d' = d_type d /\ (k = CONSUME -> d_ret d = KNOT_EOK -> d_ret d' = KNOT_EOK).
Proof.
  intros cf d st r k d' E HS. unfold ixfr_consume_rr in E. destruct (negb (under (fst r) (c_zone cf))); [injection E as <- <-; auto|]. destruct (next_state st (d_final d) (d_by_one d) r) as [[st' b']| | |]; cbn [rbind] in E; try discriminate. destruct (solve (c_zone cf) st' (d_final d) (d_chs d) r) as [[f c]| | |]; try discriminate; [|injection E as <- <-; cbn; repeat split; discriminate]. destruct (rrset_size r); cbn [rbind] in E; try discriminate. destruct ((d_size d + a) / 2 >? c_max cf); injection E as <- <-; cbn; repeat split; try discriminate; auto.
Qed.
Lemma rrs_state : forall cf l d k d', ixfr_rrs cf l d = Ok (k, d') -> d_state d <> None -> d_state d' <> None /\ d_isoa d' = d_isoa d /\ d_type d' = d_type d.
Proof.
  induction l as [|r l IH]; intros d k d' E HS; cbn [ixfr_rrs] in E; [injection E as <- <-; auto|]. destruct (d_state d) as [st|] eqn:ES; [|contradiction]. destruct (ixfr_consume_rr cf d st r) as [[k1 d1]| | |] eqn:E1; cbn [rbind] in E; try discriminate. destruct (step_state _ _ _ _ _ _ E1) as (H1 & H2 & H3 & _); [congruence|]. destruct k1; try (injection E as <- <-; auto). destruct (IH _ _ _ E H1) as (Q1 & Q2 & Q3). split; auto. split; congruence.
Qed.
Lemma rrs_filter : forall cf l d, d_state d <> None -> ixfr_rrs cf l d = ixfr_rrs cf (inzone (c_zone cf) l) d.
Proof.
  induction l as [|r l IH]; intros d HS; cbn [ixfr_rrs inzone filter]; auto. destruct (d_state d) as [st|] eqn:ES; [|contradiction]. destruct (under (fst r) (c_zone cf)) eqn:EU.
  - cbn [ixfr_rrs]. rewrite ES. destruct (ixfr_consume_rr cf d st r) as [[k1 d1]| | |] eqn:E1; cbn [rbind]; auto. destruct (step_state _ _ _ _ _ _ E1) as (H1 & _); [congruence|]. destruct k1; auto.
  - unfold ixfr_consume_rr. rewrite EU. cbn [negb rbind]. apply IH. congruence.
Qed.
Lemma rrs_sound : forall cf b1 l d seen k d', inv cf b1 d seen -> known d (c_zone cf) -> kind (d_state d) = CONSUME -> Forall (proper (c_zone cf)) l -> ixfr_rrs cf l d = Ok (k, d') -> k <> FAIL ->
  k = kind (d_state d') /\ known d' (c_zone cf) /\ exists used rest, l = used ++ rest /\ (k = CONSUME -> rest = []) /\ inv cf b1 d' (seen ++ inzone (c_zone cf) used).
Proof.
  induction l as [|r l IH]; intros d seen k d' I K KD HP E NF; cbn [ixfr_rrs] in E.
  - injection E as <- <-. split; auto. split; auto. exists [], []. cbn [inzone filter]. split; [reflexivity|]. split; [reflexivity|]. change (inzone (c_zone cf) []) with (@nil rrset). rewrite app_nil_r. exact I.
  - destruct (d_state d) as [st|] eqn:ES; [|discriminate]. destruct (ixfr_consume_rr cf d st r) as [[k1 d1]| | |] eqn:E1; cbn [rbind] in E; try discriminate. pose proof (Forall_inv HP) as PR. cbv beta in PR. assert (ND : st <> IXFR_DONE) by (intros ->; discriminate).
    assert (N1 : k1 <> FAIL) by (intros ->; injection E as <- <-; contradiction). destruct (step_sound _ _ _ _ _ _ _ _ I K ES ND PR E1 N1) as (HK & I1 & K1 & _).
    assert (IN : inzone (c_zone cf) [r] = if under (fst r) (c_zone cf) then [r] else []) by reflexivity. rewrite <- IN in I1.
    destruct k1.
    + symmetry in HK. destruct (IH d1 _ _ _ I1 K1 HK (Forall_inv_tail HP) E NF) as (Q1 & Q2 & used & rest & -> & Q3 & Q4). split; auto. split; auto. exists (r :: used), rest. split; auto. split; auto. rewrite <- app_assoc, <- inzone_app in Q4. auto.
    + injection E as <- <-. split; auto. split; auto. exists [r], l. split; auto. split; [discriminate|]. auto.
    + contradiction.
    + unfold kind in HK. destruct (d_state d1) as [[]|]; discriminate.
Qed.
Lemma form_more : forall b1 l ds more, ixfr_form b1 l ds -> ixfr_form b1 (l ++ more) ds.
Proof. intros b1 l ds more (f & la & rest & -> & H). exists f, la, (rest ++ more). split; auto. cbn [app]. f_equal. rewrite <- app_assoc. auto. Qed.

(** ** Changesets and the records *)
Definition pzone (a : name) (r : rrset) : Prop := proper a r /\ under (fst r) a = true.
Lemma listed_cons : forall a r l c v, listed a (r :: l) c v <-> listed a [r] c v \/ listed a l c v.
Proof.
  intros a r l c v. split.
  - intros (s & b & [<-|H] & G & HV); [left; exists r, b; split; [left; auto|auto]|right; exists s, b; auto].
  - intros [(s & b & [<-|[]] & G & HV)|(s & b & H & G & HV)]; [exists r, b; split; [left; auto|auto]|exists s, b; split; [right; auto|auto]].
Qed.
Lemma listed_nil : forall a c v, ~ listed a [] c v. Proof. intros a c v (s & b & [] & _). Qed.
Lemma good_cell : forall a s c1 b1 c2 b2, good a s c1 b1 -> good a s c2 b2 -> c1 = c2 /\ b1 = b2.
Proof.
  intros a s c1 b1 c2 b2 G1 G2. pose proof (rel_ok _ _ _ _ G1) as R1. pose proof (rel_ok _ _ _ _ G2) as R2. rewrite R1 in R2. injection R2 as R2. destruct G1 as (_ & I1 & O1 & T1 & _). destruct G2 as (_ & I2 & O2 & T2 & _). split; [rewrite (cell_eta c1), (cell_eta c2); congruence|apply (is_fun _ _ _ I1 I2)].
Qed.
Lemma listed_one : forall a r c0 b c v, good a r c0 b -> (listed a [r] c v <-> c = c0 /\ In v b).
Proof.
  intros a r c0 b c v G. split.
  - intros (s & b' & [<-|[]] & G' & HV). destruct (good_cell _ _ _ _ _ _ G G') as [-> ->]. auto.
  - intros [-> HV]. exists r, b. split; [left; auto|auto].
Qed.
Definition chside (a : name) (c : changeset) : Prop := cwf (ch_add c) /\ cwf (ch_rem c) /\ z_apex (ch_add c) = a /\ z_apex (ch_rem c) = a.
Lemma removal_view : forall a c r, chside a c -> proper a r -> ~ soa_rr r ->
  (exists c', changeset_add_removal c r false = Ok c' /\ chside a c' /\ ch_add c' = ch_add c /\ soa_from c' = soa_from c /\ soa_to c' = soa_to c /\ (forall k v, crec (ch_rem c') k v <-> crec (ch_rem c) k v \/ listed a [r] k v)) \/
  (exists e, changeset_add_removal c r false = Err e /\ (under (fst r) a = true -> limit e)).
Proof.
  intros a c r (WA & WR & AA & AR) (c0 & b & G) NS. unfold changeset_add_removal. assert (ET : (rr_type (snd r) =? SOA) = false) by (unfold soa_rr in NS; lia). rewrite ET. cbn [rbind]. rewrite (good_empty _ _ _ _ G). rewrite <- AR in G. destruct (under (fst r) a) eqn:EU.
  - rewrite <- AR in EU. destruct (contents_add_can _ _ _ _ WR G EU) as [(z' & -> & W' & A' & R' & _)|(e & -> & He)]; cbn [rbind]; [left|right; eauto]. eexists. split; [reflexivity|]. split; [split; [auto|split; [auto|split; [auto|cbn [ch_rem]; congruence]]]|]. cbn [ch_add ch_rem soa_from soa_to]. split; auto. split; auto. split; auto. intros k v. rewrite R', AR in *. rewrite (listed_one _ _ _ _ _ _ G). tauto.
  - right. unfold add_rr_to_contents, contents_add_rr. destruct r as [o r]. pose proof (good_empty _ _ _ _ G) as HE. cbn [snd fst] in *. rewrite HE. pose proof (rel_ok _ _ _ _ G) as HR. cbn [snd] in HR. rewrite HR. cbn [rbind]. rewrite add_node_out by congruence. cbn [rbind]. eexists. split; [reflexivity|discriminate].
Qed.
Lemma addition_view : forall a c r, chside a c -> proper a r -> ~ soa_rr r ->
  (exists c', changeset_add_addition c r false = Ok c' /\ chside a c' /\ ch_rem c' = ch_rem c /\ soa_from c' = soa_from c /\ soa_to c' = soa_to c /\ (forall k v, crec (ch_add c') k v <-> crec (ch_add c) k v \/ listed a [r] k v)) \/
  (exists e, changeset_add_addition c r false = Err e /\ (under (fst r) a = true -> limit e)).
Proof.
  intros a c r (WA & WR & AA & AR) (c0 & b & G) NS. unfold changeset_add_addition. assert (ET : (rr_type (snd r) =? SOA) = false) by (unfold soa_rr in NS; lia). rewrite ET. cbn [rbind]. rewrite (good_empty _ _ _ _ G). rewrite <- AA in G. destruct (under (fst r) a) eqn:EU.
  - rewrite <- AA in EU. destruct (contents_add_can _ _ _ _ WA G EU) as [(z' & -> & W' & A' & R' & _)|(e & -> & He)]; cbn [rbind]; [left|right; eauto]. eexists. split; [reflexivity|]. split; [split; [auto|split; [auto|split; [cbn [ch_add]; congruence|auto]]]|]. cbn [ch_add ch_rem soa_from soa_to]. split; auto. split; auto. split; auto. intros k v. rewrite R', AA in *. rewrite (listed_one _ _ _ _ _ _ G). tauto.
  - right. unfold add_rr_to_contents, contents_add_rr. destruct r as [o r]. pose proof (good_empty _ _ _ _ G) as HE. cbn [snd fst] in *. rewrite HE. pose proof (rel_ok _ _ _ _ G) as HR. cbn [snd] in HR. rewrite HR. cbn [rbind]. rewrite add_node_out by congruence. cbn [rbind]. eexists. split; [reflexivity|discriminate].
Qed.
Lemma dels_view : forall a l c c', chside a c -> Forall (proper a) l -> Forall (fun r => ~ soa_rr r) l -> dels c l = Ok c' ->
  chside a c' /\ ch_add c' = ch_add c /\ soa_from c' = soa_from c /\ soa_to c' = soa_to c /\ (forall k v, crec (ch_rem c') k v <-> crec (ch_rem c) k v \/ listed a l k v).
Proof.
  induction l as [|r l IH]; intros c c' CS HP HN E; unfold dels in E; cbn [fold_res] in E.
  - injection E as <-. split; auto. split; auto. split; auto. split; auto. intros k v. pose proof (listed_nil a k v). tauto.
  - destruct (removal_view a c r CS (Forall_inv HP) (Forall_inv HN)) as [(c1 & E1 & CS1 & Q1 & Q2 & Q3 & Q4)|(e & E1 & _)]; rewrite E1 in E; cbn [rbind] in E; [|discriminate]. destruct (IH c1 c' CS1 (Forall_inv_tail HP) (Forall_inv_tail HN) E) as (P0 & P1 & P2 & P3 & P4). split; auto. split; [congruence|]. split; [congruence|]. split; [congruence|]. intros k v. rewrite P4, Q4, (listed_cons a r l). tauto.
Qed.
Lemma adds_view : forall a l c c', chside a c -> Forall (proper a) l -> Forall (fun r => ~ soa_rr r) l -> adds c l = Ok c' ->
  chside a c' /\ ch_rem c' = ch_rem c /\ soa_from c' = soa_from c /\ soa_to c' = soa_to c /\ (forall k v, crec (ch_add c') k v <-> crec (ch_add c) k v \/ listed a l k v).
Proof.
  induction l as [|r l IH]; intros c c' CS HP HN E; unfold adds in E; cbn [fold_res] in E.
  - injection E as <-. split; auto. split; auto. split; auto. split; auto. intros k v. pose proof (listed_nil a k v). tauto.
  - destruct (addition_view a c r CS (Forall_inv HP) (Forall_inv HN)) as [(c1 & E1 & CS1 & Q1 & Q2 & Q3 & Q4)|(e & E1 & _)]; rewrite E1 in E; cbn [rbind] in E; [|discriminate]. destruct (IH c1 c' CS1 (Forall_inv_tail HP) (Forall_inv_tail HN) E) as (P0 & P1 & P2 & P3 & P4). split; auto. split; [congruence|]. split; [congruence|]. split; [congruence|]. intros k v. rewrite P4, Q4, (listed_cons a r l). tauto.
Qed.
Lemma dels_can : forall a l c, chside a c -> Forall (pzone a) l -> Forall (fun r => ~ soa_rr r) l -> (exists c', dels c l = Ok c') \/ exists e, dels c l = Err e /\ limit e.
Proof.
  induction l as [|r l IH]; intros c CS HP HN; unfold dels; cbn [fold_res]; [left; eauto|]. destruct (Forall_inv HP) as [PR PU]. destruct (removal_view a c r CS PR (Forall_inv HN)) as [(c1 & -> & CS1 & _)|(e & -> & He)]; cbn [rbind]; [apply IH; auto; eapply Forall_inv_tail; eauto|right; eauto].
Qed.
Lemma adds_can : forall a l c, chside a c -> Forall (pzone a) l -> Forall (fun r => ~ soa_rr r) l -> (exists c', adds c l = Ok c') \/ exists e, adds c l = Err e /\ limit e.
Proof.
  induction l as [|r l IH]; intros c CS HP HN; unfold adds; cbn [fold_res]; [left; eauto|]. destruct (Forall_inv HP) as [PR PU]. destruct (addition_view a c r CS PR (Forall_inv HN)) as [(c1 & -> & CS1 & _)|(e & -> & He)]; cbn [rbind]; [apply IH; auto; eapply Forall_inv_tail; eauto|right; eauto].
Qed.
Lemma new_none : forall a c v, ~ crec (contents_new a) c v.
Proof. intros a c v H. destruct (crec_in _ _ _ (new_wf a) H) as (e & b & HI & _). cbn in HI. exact HI. Qed.
Lemma cfrom_side : forall a r, chside a (cfrom a r).
Proof. intros a r. split; [apply new_wf|]. split; [apply new_wf|]. auto. Qed.
(** Everything about a changeset made of a difference *)
Record makes (a : name) (x : diff) (c : changeset) : Prop := {
  mk_wf : chwf a c; mk_rem : forall k v, crec (ch_rem c) k v <-> listed a (df_del x) k v; mk_add : forall k v, crec (ch_add c) k v <-> listed a (df_add x) k v; mk_to : soa_to c = Some (df_to x) }.
Lemma listed_type : forall a l c v, Forall (fun r => ~ soa_rr r) l -> listed a l c v -> ct c <> SOA.
Proof. intros a l c v HF (r & b & HI & G & _). rewrite Forall_forall in HF. specialize (HF r HI). destruct G as (_ & _ & _ & T & _). unfold soa_rr in HF. congruence. Qed.
Lemma made_makes : forall a x c, diff_ok x -> Forall (proper a) (drecords x) -> made1 a x c -> makes a x c.
Proof.
  intros a x c (S1 & S2 & N1 & N2) HP (c1 & E1 & E2). unfold drecords in HP. apply Forall_cons_iff in HP. destruct HP as [PF HP]. apply Forall_app in HP. destruct HP as [PD HP]. apply Forall_cons_iff in HP. destruct HP as [PT PA].
  destruct (dels_view a _ _ _ (cfrom_side a _) PD N1 E1) as (C1 & Q1 & Q2 & Q3 & Q4). destruct (adds_view a _ (cto c1 (df_to x)) _ C1 PA N2 E2) as (C2 & P1 & P2 & P3 & P4).
  assert (R1 : forall k v, crec (ch_rem c) k v <-> listed a (df_del x) k v) by (intros k v; rewrite P1; cbn [cto ch_rem]; rewrite Q4; pose proof (new_none a k v); cbn [cfrom ch_rem]; tauto).
  assert (R2 : forall k v, crec (ch_add c) k v <-> listed a (df_add x) k v) by (intros k v; rewrite P4; cbn [cto ch_add]; rewrite Q1; pose proof (new_none a k v); cbn [cfrom ch_add]; tauto).
  cbn [cto soa_to soa_from] in P2, P3. rewrite Q2 in P2. cbn [cfrom soa_from] in P2. split; auto. destruct C2 as (W1 & W2 & A1 & A2). split; auto. split; auto. split; auto. split; auto. split.
  - intros k v [H|H]; [apply R2 in H; eapply listed_type; [|eauto]; auto|apply R1 in H; eapply listed_type; [|eauto]; auto].
  - assert (EO : forall r, proper a r -> soa_rr r -> soa_ok (Some r)) by (intros r (k & b & G) HS y [= <-]; split; [apply G|auto]). split; [rewrite P2; auto|rewrite P3; auto].
Qed.

(** ** Application *)
Lemma after_ext : forall a S S' x, (forall c v, S c v <-> S' c v) -> forall c v, after a S x c v <-> after a S' x c v.
Proof. intros a S S' x H c v. unfold after. rewrite H. tauto. Qed.
Lemma fits_ext : forall a ds S S', (forall c v, S c v <-> S' c v) -> fits a S ds -> fits a S' ds.
Proof.
  induction ds as [|x ds IH]; intros S S' H; cbn [fits]; auto. intros [(F1 & F2 & F3) F]. split; [split; [intros c v Q; apply H; auto|split; [intros c v Q1 Q2; apply F2; auto; apply H; auto|auto]]|]. apply (IH (after a S x)); auto. apply after_ext. auto.
Qed.
Lemma patched_ext : forall a ds S S', (forall c v, S c v <-> S' c v) -> forall c v, patched a S ds c v <-> patched a S' ds c v.
Proof. induction ds as [|x ds IH]; intros S S' H c v; cbn [patched]; auto. apply IH. apply after_ext. auto. Qed.
Lemma soa_listed : forall a x s c v, proper a s -> soa_rr s -> fst s = a -> soa_to x = Some s -> c = soa_cell a -> (in_soa x v <-> listed a [s] c v).
Proof.
  intros a x s c v (k & b & G) HS HF HT ->. pose proof G as (HE & HI & _). assert (G' : good a s (soa_cell a) b) by (apply soa_good; auto). rewrite (listed_one _ _ _ _ _ _ G'). unfold in_soa. split.
  - intros (s' & b' & E & HI' & HV). rewrite HT in E. injection E as <-. rewrite (is_fun _ _ _ HI HI'). auto.
  - intros [_ HV]. exists s, b. auto.
Qed.
Lemma applied_after : forall z x c z1, proper (z_apex z) (df_to x) -> soa_rr (df_to x) -> makes (z_apex z) x c -> applied z c z1 ->
  fits1 (z_apex z) (crec z) x /\ forall k v, crec z1 k v <-> after (z_apex z) (crec z) x k v.
Proof.
  intros z x c z1 PT ST [MW MR MA MT] [W1 A1 PR PA PS REC TTL SR STT]. assert (HF : fst (df_to x) = z_apex z) by (unfold soa_change in PS; rewrite MT in PS; apply PS). split.
  - split; [intros k v H; apply PR, MR; auto|]. split; [intros k v H1 H2; apply MR, PA; auto; apply MA; auto|auto].
  - intros k v. unfold after. destruct (cell_dec k (soa_cell (z_apex z))) as [->|NC].
    + rewrite SR by (split; [rewrite MT; discriminate|auto]). rewrite (soa_listed (z_apex z) c (df_to x) (soa_cell (z_apex z)) v PT ST HF MT eq_refl). tauto.
    + rewrite REC by (intros [_ X]; auto). rewrite MR, MA. tauto.
Qed.
Lemma apply_sound : forall ds cs z u, cwf z -> Forall diff_ok ds -> Forall (proper (z_apex z)) (flat ds) -> made (z_apex z) ds cs -> fold_res (apply_changeset true) cs (mkup z None) = Ok u ->
  exists z1, u = mkup z1 None /\ cwf z1 /\ z_apex z1 = z_apex z /\ fits (z_apex z) (crec z) ds /\ forall c v, crec z1 c v <-> patched (z_apex z) (crec z) ds c v.
Proof.
  induction ds as [|x ds IH]; intros cs z u W DO HP MD E; inversion MD as [|? c ? cs' M1 M2]; subst; cbn [fold_res] in E.
  - injection E as <-. exists z. split; auto. split; auto. split; auto. split; [exact I|]. intros; cbn; tauto.
  - unfold flat in HP. cbn [map concat] in HP. apply Forall_app in HP. destruct HP as [HP1 HP2]. pose proof (made_makes _ _ _ (Forall_inv DO) HP1 M1) as MK.
    destruct (apply_changeset true (mkup z None) c) as [u1| | |] eqn:E1; cbn [rbind] in E; try discriminate. destruct (apply_ok z c u1 W (mk_wf _ _ _ MK) E1) as (z1 & -> & AP).
    assert (PT : proper (z_apex z) (df_to x)) by (unfold drecords in HP1; rewrite Forall_forall in HP1; apply HP1; right; apply in_or_app; right; left; auto).
    destruct (applied_after z x c z1 PT (proj1 (proj2 (Forall_inv DO))) MK AP) as [F1 R1]. pose proof (ap_apex _ _ _ AP) as A1. rewrite <- A1 in HP2, M2. destruct (IH cs' z1 u (ap_wf _ _ _ AP) (Forall_inv_tail DO) HP2 M2 E) as (z2 & -> & W2 & A2 & F2 & R2). rewrite A1 in *. exists z2. split; auto. split; auto. split; auto. split.
    + split; auto. apply (fits_ext _ _ (crec z1)); auto.
    + intros k v. rewrite R2. cbn [patched]. apply patched_ext. auto.
Qed.
Lemma apply_complete : forall ds cs z, cwf z -> has_soa z -> Forall diff_ok ds -> Forall (proper (z_apex z)) (flat ds) -> made (z_apex z) ds cs -> fits (z_apex z) (crec z) ds ->
  (exists u, fold_res (apply_changeset true) cs (mkup z None) = Ok u) \/ exists e, fold_res (apply_changeset true) cs (mkup z None) = Err e /\ limit e.
Proof.
  induction ds as [|x ds IH]; intros cs z W HS DO HP MD FT; inversion MD as [|? c ? cs' M1 M2]; subst; cbn [fold_res].
  - left. eauto.
  - unfold flat in HP. cbn [map concat] in HP. apply Forall_app in HP. destruct HP as [HP1 HP2]. pose proof (made_makes _ _ _ (Forall_inv DO) HP1 M1) as MK. pose proof MK as [MW MR MA MT]. destruct FT as [(F1 & F2 & F3) FT].
    destruct (apply_can z c W MW) as [[u E]|(e & E & He)]; [intros k v H; apply F1, MR; auto|intros k v H1 H2; apply MR, F2; auto; apply MA; auto|unfold soa_change; rewrite MT; auto| |rewrite E; right; exists e; split; [reflexivity|exact He]]. rewrite E. cbn [rbind]. destruct (apply_ok z c u W MW E) as (z1 & -> & AP).
    assert (PT : proper (z_apex z) (df_to x)) by (unfold drecords in HP1; rewrite Forall_forall in HP1; apply HP1; right; apply in_or_app; right; left; auto).
    destruct (applied_after z x c z1 PT (proj1 (proj2 (Forall_inv DO))) MK AP) as [_ R1]. pose proof (ap_apex _ _ _ AP) as A1. rewrite <- A1 in HP2, M2, FT. apply (IH cs' z1); auto; [apply AP| |eapply Forall_inv_tail; eauto|].
    + destruct PT as (k & b & G). destruct b as [|v b]; [exfalso; apply (good_b _ _ _ _ G); auto|]. exists v. rewrite A1. apply R1. left. split; auto. apply (soa_listed (z_apex z) c (df_to x) (soa_cell (z_apex z)) v); auto; [exists k, (v :: b); auto|apply (Forall_inv DO)|]. exists (df_to x), (v :: b). split; auto. split; [apply G|left; auto].
    + apply (fits_ext _ _ (after (z_apex z) (crec z) x)); [intros; rewrite R1; tauto|]. rewrite <- A1. auto.
Qed.
