(** Transfers message by message. *)
From Verif Require Import Base RdatasetModel RdatasetSpec RdatasetProofs RdatasetProps NodeModel NodeProps SerialModel ZoneModel ZoneProofs ZoneView ZoneFold ZoneExamples ZoneTreeProps ChangesetProofs MergeProofs DiffModel DiffProofs ChangesetProps XfrModel XfrSpec XfrProofs XfrProofs2 XfrProofs3.

Definition records_of (l : list msg) : list rrset := concat (map m_answer l).
Definition usable (m : msg) : Prop := m_rcode m = 0 /\ m_expired m = false.
Definition all_proper (a : name) (l : list msg) : Prop := Forall (fun m => Forall (proper a) (m_answer m)) l.
Definition noisoa (d : xdata) : xdata := mkd (d_type d) None (d_state d) (d_final d) (d_chs d) (d_by_one d) (d_size d) (d_axfr d) (d_ret d).
Lemma inv_noisoa : forall cf b1 d seen, inv cf b1 d seen -> inv cf b1 (noisoa d) seen.
Proof. intros cf b1 d seen H. exact H. Qed.

(** ** Incremental *)
Definition ix_outcome (bump : contents -> contents -> res contents) (check : contents -> contents -> Z) (cf : xconf) (b1 : bool) (seen : list rrset) (msgs : list msg) (z : contents) (d' : xdata) (z' : contents) : Prop :=
  exists used rest ds, msgs = used ++ rest /\ used <> [] /\ Forall usable used /\ ixfr_form b1 (seen ++ inzone (c_zone cf) (records_of used)) ds /\ made (c_zone cf) ds (rev (d_chs d')) /\ d_type d' = XFR_IXFR /\ ixfr_finalize bump check cf z d' = Ok z'.
Lemma inv_done : forall cf b1 d seen, inv cf b1 d seen -> kind (d_state d) = DONE -> exists ds, ixfr_form b1 seen ds /\ made (c_zone cf) ds (rev (d_chs d)).
Proof. intros cf b1 d seen H K. unfold inv in H. unfold kind in K. destruct (d_state d) as [[]|]; try discriminate. exact H. Qed.
Lemma kind_cases : forall st, kind st = CONSUME \/ kind st = DONE. Proof. intros [[]|]; cbn; auto. Qed.
(** One message in the middle *)
Lemma ix_go : forall cf b1 d seen l k d', inv cf b1 d seen -> known d (c_zone cf) -> kind (d_state d) = CONSUME -> Forall (proper (c_zone cf)) l -> ixfr_rrs cf l d = Ok (k, d') -> k <> FAIL ->
  d_type d' = d_type d /\ d_isoa d' = d_isoa d /\ known d' (c_zone cf) /\ k = kind (d_state d') /\
  ((k = CONSUME /\ inv cf b1 d' (seen ++ inzone (c_zone cf) l)) \/ (k = DONE /\ exists ds, ixfr_form b1 (seen ++ inzone (c_zone cf) l) ds /\ made (c_zone cf) ds (rev (d_chs d')))).
Proof.
  intros cf b1 d seen l k d' I K KD HP E NF. destruct (rrs_state _ _ _ _ _ E) as (_ & S2 & S3); [eapply inv_state; eauto|]. destruct (rrs_sound _ _ _ _ _ _ _ I K KD HP E NF) as (Q1 & Q2 & used & rest & -> & Q3 & Q4). split; auto. split; auto. split; auto. split; auto. destruct (kind_cases (d_state d')) as [HK|HK]; rewrite HK in Q1; subst k.
  - left. split; auto. rewrite (Q3 eq_refl), app_nil_r. auto.
  - right. split; auto. destruct (inv_done _ _ _ _ Q4 HK) as (ds & F & M). exists ds. split; auto. rewrite inzone_app, app_assoc. apply form_more. auto.
Qed.
Lemma publish_done : forall bump check cf z m k d1 d' z',
  (let* (k, d) := Ok (k, d1) in
   match k with
   | DONE =>
     let fail e := Ok (FAIL, mkd (d_type d) (d_isoa d) (d_state d) (d_final d) (d_chs d) (d_by_one d) (d_size d) (d_axfr d) e, z) in
     if m_unsigned m then fail KNOT_EMALF else
     let publish (r : res contents) := match r with Ok z1 => Ok (DONE, d, z1) | Err e => fail e | UB => UB | OOF => OOF end in
     match d_type d with
     | XFR_IXFR => publish (ixfr_finalize bump check cf z d)
     | XFR_AXFR => publish (axfr_finalize check z d)
     | _ => Ok (DONE, d, z)
     end
   | _ => Ok (k, d, z)
   end) = Ok (DONE, d', z') -> k = DONE /\ d' = d1 /\ m_unsigned m = false /\
   ((d_type d1 = XFR_IXFR /\ ixfr_finalize bump check cf z d1 = Ok z') \/ (d_type d1 = XFR_AXFR /\ axfr_finalize check z d1 = Ok z') \/ (d_type d1 <> XFR_IXFR /\ d_type d1 <> XFR_AXFR /\ z' = z)).
Proof.
  intros bump check cf z m k d1 d' z' E. cbn [rbind] in E. destruct k; try discriminate. cbv zeta in E. destruct (m_unsigned m); [discriminate|]. destruct (d_type d1) eqn:ET; try (injection E as <- <-; split; auto; split; auto; split; auto; right; right; split; [congruence|split; [congruence|auto]]).
  - destruct (axfr_finalize check z d1) eqn:EF; try discriminate. injection E as <- <-. split; [reflexivity|]. split; [reflexivity|]. split; [reflexivity|]. auto.
  - destruct (ixfr_finalize bump check cf z d1) eqn:EF; try discriminate. injection E as <- <-. split; [reflexivity|]. split; [reflexivity|]. split; [reflexivity|]. auto.
Qed.
Lemma ix_msgs : forall bump check cf b1 msgs z d seen d' z', inv cf b1 d seen -> known d (c_zone cf) -> kind (d_state d) = CONSUME -> d_isoa d = None -> d_type d = XFR_IXFR -> all_proper (c_zone cf) msgs ->
  transfer bump check cf msgs z d = Ok (DONE, d', z') -> ix_outcome bump check cf b1 seen msgs z d' z'.
Proof.
  induction msgs as [|m msgs IH]; intros z d seen d' z' I K KD HI HT HP E; cbn [transfer] in E; [discriminate|]. pose proof (Forall_inv HP) as HM. cbv beta in HM.
  destruct (transfer_consume bump check cf z d m) as [[[k d1] z1]| | |] eqn:ET; cbn [rbind] in E; try discriminate. unfold transfer_consume in ET. destruct (m_expired m) eqn:EX; [injection ET as <- <- <-; discriminate|]. rewrite HT in ET.
  unfold ixfr_consume in ET. destruct (negb (m_rcode m =? 0)) eqn:ER; [cbn [rbind] in ET; injection ET as <- <- <-; discriminate|]. destruct (d_state d) as [st|] eqn:ES; [|exfalso; eapply inv_state; eauto]. rewrite HI in ET. destruct (ixfr_rrs cf (m_answer m) d) as [[k2 d2]| | |] eqn:E2; try discriminate.
  assert (NF : k2 <> FAIL). { intros ->. cbn [rbind] in ET. injection ET as <- <- <-. discriminate. } rewrite <- ES in KD. destruct (ix_go _ _ _ _ _ _ _ I K KD HM E2 NF) as (Q1 & Q2 & Q3 & Q4 & Q5). assert (US : usable m) by (split; [lia|auto]).
  destruct Q5 as [[-> I2]|(-> & ds & F & M)].
  - cbn [rbind] in ET. injection ET as <- <- <-. destruct (IH z d2 _ d' z' I2 Q3 (eq_sym Q4) (eq_trans Q2 HI) (eq_trans Q1 HT) (Forall_inv_tail HP) E) as (used & rest & ds & -> & _ & P2 & P3 & P4 & P5). exists (m :: used), rest, ds. split; auto. split; [discriminate|]. split; [constructor; auto|]. split; auto. unfold records_of. cbn [map concat]. rewrite inzone_app, app_assoc. auto.
  - assert (X : Ok (k, d1, z1) = Ok (DONE, d', z')). { cbn [rbind] in ET. cbv zeta in ET. destruct k; auto. exfalso. rewrite Q1, HT in ET. destruct (m_unsigned m); [discriminate|]. destruct (ixfr_finalize bump check cf z d2); discriminate. }
    rewrite X in ET. destruct (publish_done _ _ _ _ _ _ _ _ _ ET) as (_ & -> & _ & FIN). exists [m], msgs, ds. split; auto. split; [discriminate|]. split; [constructor; auto|]. unfold records_of. cbn [map concat]. rewrite app_nil_r. split; auto. split; auto. split; [congruence|]. destruct FIN as [[_ FIN]|[[X1 _]|(X1 & _)]]; [auto|congruence|congruence].
Qed.

(** ** Full *)
Record axinv (cf : xconf) (d : xdata) (seen : list rrset) (z : contents) : Prop := {
  ax_z : d_axfr d = Some z; ax_wf : cwf z; ax_apex : z_apex z = c_zone cf; ax_rec : forall c v, crec z c v <-> listed (c_zone cf) (inzone (c_zone cf) seen) c v;
  ax_soa : forall p r q, seen = p ++ r :: q -> soa_rr r -> ~ zone_soa (c_zone cf) p }.
Lemma listed_app : forall a l1 l2 c v, listed a (l1 ++ l2) c v <-> listed a l1 c v \/ listed a l2 c v.
Proof.
  intros a l1 l2 c v. split.
  - intros (s & b & HI & G & HV). apply in_app_or in HI. destruct HI as [HI|HI]; [left|right]; exists s, b; auto.
  - intros [(s & b & HI & G & HV)|(s & b & HI & G & HV)]; exists s, b; (split; [apply in_or_app; auto|auto]).
Qed.
Lemma apex_has : forall z, cwf z -> match node_rrset (zn_rrs (z_apexn z)) SOA with Some e => rr_empty e = false /\ has_soa z | None => ~ has_soa z end.
Proof.
  intros z W. pose proof (cwf_wf z (soa_cell (z_apex z)) W) as WN. change (rrs_at z (ck (soa_cell (z_apex z))) (co (soa_cell (z_apex z)))) with (rrs_at z false (z_apex z)) in WN. rewrite apexn_rrs. pose proof (c52_lookup _ SOA WN) as HL. destruct (node_rrset (rrs_at z false (z_apex z)) SOA) as [e|].
  - destruct HL as (rs & IE & TE & HH & _). destruct (c52_nonempty _ _ _ _ WN HH) as [NR NT]. split.
    + apply not_empty. split; [unfold SOA in *; lia|eauto].
    + destruct rs as [|x rs]; [contradiction|]. exists x, (rr_ttl e), (x :: rs). split; [exact HH|left; auto].
  - destruct HL as [HL _]. intros (x & v & rs & H & _). eapply HL; eauto.
Qed.
Lemma add_out : forall z r, proper (z_apex z) r -> under (fst r) (z_apex z) = false -> contents_add_rr z r = Err KNOT_EOUTOFZONE.
Proof.
  intros z r (c & b & G) HU. destruct r as [o r]. unfold contents_add_rr. pose proof (good_empty _ _ _ _ G) as HE. cbn [snd fst] in *. rewrite HE. pose proof (rel_ok _ _ _ _ G) as HR. cbn [snd] in HR. rewrite HR. cbn [rbind]. rewrite add_node_out by auto. reflexivity.
Qed.
Lemma limit_in : forall e, limit e -> (e =? KNOT_EOUTOFZONE) = false.
Proof. intros e [-> | ->]; reflexivity. Qed.
Definition ends (r : rrset) (z : contents) : bool := is_soa r && match node_rrset (zn_rrs (z_apexn z)) SOA with Some e => negb (rr_empty e) | None => false end.
Lemma ends_spec : forall cf d seen z r, axinv cf d seen z -> (ends r z = true <-> soa_rr r /\ zone_soa (c_zone cf) seen).
Proof.
  intros cf d seen z r [H1 H2 H3 H4 H5]. unfold ends. pose proof (apex_has z H2) as HA. assert (X : has_soa z <-> zone_soa (c_zone cf) seen). { unfold has_soa, zone_soa. rewrite H3. split; intros [v Hv]; exists v; apply H4; auto. } rewrite andb_true_iff, soa_spec. destruct (node_rrset (zn_rrs (z_apexn z)) SOA) as [e|].
  - destruct HA as [-> HA]. cbn [negb]. rewrite X in HA. tauto.
  - rewrite X in HA. split; [intros [_ Y]; discriminate|tauto].
Qed.
Lemma ax_step : forall cf d seen z r, axinv cf d seen z -> proper (c_zone cf) r ->
  axfr_consume_rr cf d z r = Ok (DONE, d) /\ soa_rr r /\ zone_soa (c_zone cf) seen \/
  ~ (soa_rr r /\ zone_soa (c_zone cf) seen) /\ exists k d', axfr_consume_rr cf d z r = Ok (k, d') /\ d_type d' = d_type d /\ d_isoa d' = d_isoa d /\ d_state d' = d_state d /\ 
    ((k = FAIL /\ (limit (d_ret d') \/ ~ (exists v, is (rr_rrs (snd r)) [v]) \/ exists n, rrset_size r = Ok n /\ d_size d + n > c_max cf)) \/ (k = CONSUME /\ exists z' n, axinv cf d' (seen ++ [r]) z' /\ rrset_size r = Ok n /\ d_size d' = d_size d + n)).
Proof.
  intros cf d seen z r AX PR. pose proof AX as [H1 H2 H3 H4 H5]. pose proof (ends_spec cf d seen z r AX) as HEND. unfold axfr_consume_rr. fold (ends r z). destruct (ends r z); [left; split; auto; apply HEND; auto|]. right. assert (NE : ~ (soa_rr r /\ zone_soa (c_zone cf) seen)) by (intros X; apply HEND in X; discriminate). split; auto.
  destruct PR as (c0 & b & G). pose proof G as (_ & HI & _). destruct (size_is r b HI) as (n & EN & PN & _). destruct (negb (RdatasetModel.count (rr_rrs (snd r)) =? 1)) eqn:EC.
  { eexists _, _. split; [reflexivity|]. cbn. split; auto. split; auto. split; auto. left. split; auto. right. left. intros (v & HV). apply is_holds in HV. destruct HV as (HV & _). change (zlen [v]) with 1 in HV. lia. }
  assert (SO : forall z', z_apex z' = c_zone cf -> forall p r0 q, seen ++ [r] = p ++ r0 :: q -> soa_rr r0 -> ~ zone_soa (c_zone cf) p).
  { intros z' _ p r0 q EQ SR. destruct q as [|x q] using rev_ind; [apply app_inj_tail in EQ; destruct EQ as [-> ->]; tauto|]. clear IHq. rewrite app_comm_cons, app_assoc in EQ. apply app_inj_tail in EQ. destruct EQ as [EQ _]. eapply H5; eauto. }
  rewrite EN. cbn [rbind]. destruct (under (fst r) (c_zone cf)) eqn:EU.
  - rewrite <- H3 in G, EU. pose proof (contents_add_can z r c0 b H2 G EU) as HC. unfold add_rr_to_contents in HC. destruct (contents_add_rr z r) as [[ret z']|e| |]; cbn [rbind] in HC.
    + destruct HC as [(z2 & [= <-] & W' & A' & R' & _)|(e & HC & _)]; [|discriminate]. destruct (d_size d + n >? c_max cf) eqn:ESZ; eexists _, _; (split; [reflexivity|]); cbn; (split; [auto|]); (split; [auto|]); (split; [auto|]); [left; split; auto; right; right; exists n; split; auto; lia|]. right. split; auto. exists z', n. split; [|auto]. split; auto; [congruence| |apply (SO z'); congruence]. intros c v. rewrite inzone_app, listed_app. cbn [inzone filter]. rewrite <- H3, EU, (listed_one _ _ _ _ _ _ G), H3. rewrite R', H4. tauto.
    + destruct HC as [(z2 & HC & _)|(e' & [= <-] & HL)]; [discriminate|]. rewrite (limit_in _ HL). eexists _, _. split; [reflexivity|]. cbn. auto 8.
    + destruct HC as [(z2 & HC & _)|(e' & HC & _)]; discriminate.
    + destruct HC as [(z2 & HC & _)|(e' & HC & _)]; discriminate.
  - rewrite <- H3 in EU, G. rewrite (add_out z r) by (auto; exists c0, b; auto). change (KNOT_EOUTOFZONE =? KNOT_EOUTOFZONE) with true. cbn iota. destruct (d_size d + n >? c_max cf) eqn:ESZ; eexists _, _; (split; [reflexivity|]); cbn; (split; [auto|]); (split; [auto|]); (split; [auto|]); [left; split; auto; right; right; exists n; split; auto; lia|]. right. split; auto. exists z, n. split; [|auto]. split; auto; [|apply (SO z); auto]. intros c v. rewrite inzone_app, listed_app. cbn [inzone filter]. rewrite <- H3, EU. rewrite H3, H4. pose proof (listed_nil (c_zone cf) c v). tauto.
Qed.
Lemma ax_rrs : forall cf l d seen z k d', axinv cf d seen z -> Forall (proper (c_zone cf)) l -> axfr_rrs cf l d = Ok (k, d') -> k <> FAIL -> d_type d' = d_type d /\ d_isoa d' = d_isoa d /\ d_state d' = d_state d /\
  ((k = CONSUME /\ exists z', axinv cf d' (seen ++ l) z') \/ (k = DONE /\ exists used last rest z', l = used ++ last :: rest /\ axinv cf d' (seen ++ used) z' /\ soa_rr last /\ zone_soa (c_zone cf) (seen ++ used))).
Proof.
  induction l as [|r l IH]; intros d seen z k d' AX HP E NF; cbn [axfr_rrs] in E.
  - injection E as <- <-. split; auto. split; auto. split; auto. left. split; auto. exists z. rewrite app_nil_r. auto.
  - rewrite (ax_z _ _ _ _ AX) in E. destruct (ax_step cf d seen z r AX (Forall_inv HP)) as [(E1 & SR & ZS)|(_ & k1 & d1 & E1 & T1 & T2 & T3 & HK)]; rewrite E1 in E; cbn [rbind] in E.
    + injection E as <- <-. split; auto. split; auto. split; auto. right. split; auto. exists [], r, l, z. rewrite app_nil_r. auto.
    + destruct HK as [[-> _]|(-> & z1 & n & AX1 & _)]; [injection E as <- <-; contradiction|]. destruct (IH d1 (seen ++ [r]) z1 k d' AX1 (Forall_inv_tail HP) E NF) as (Q1 & Q2 & Q3 & HQ). split; [congruence|]. split; [congruence|]. split; [congruence|]. destruct HQ as [[-> (z' & AX')]|(-> & used & last & rest & z' & -> & AX' & SL & ZS)].
      * left. split; auto. exists z'. rewrite <- app_assoc in AX'. auto.
      * right. split; auto. exists (r :: used), last, rest, z'. rewrite <- app_assoc in AX', ZS. auto.
Qed.
Definition ax_outcome (check : contents -> contents -> Z) (cf : xconf) (seen : list rrset) (msgs : list msg) (z : contents) (d' : xdata) (z' : contents) : Prop :=
  exists used rest rs, msgs = used ++ rest /\ used <> [] /\ Forall usable used /\ d_type d' = XFR_AXFR /\ axfr_form (c_zone cf) (seen ++ records_of used) rs /\ check z z' = KNOT_EOK /\ cwf z' /\ z_apex z' = c_zone cf /\ forall c v, crec z' c v <-> listed (c_zone cf) (inzone (c_zone cf) rs) c v.
Lemma ax_final : forall check cf d seen z0 z z', axinv cf d seen z0 -> axfr_finalize check z d = Ok z' -> z' = z0 /\ check z z' = KNOT_EOK.
Proof.
  intros check cf d seen z0 z z' [H1 H2 H3 H4 H5] E. unfold axfr_finalize in E. rewrite H1 in E. unfold commit_full in E. destruct (node_rrset (zn_rrs (z_apexn z0)) SOA) as [e|]; [|discriminate]. destruct (rr_empty e); [discriminate|]. destruct (negb (check z z0 =? KNOT_EOK)) eqn:EC; [discriminate|]. injection E as <-. split; auto. lia.
Qed.
Lemma ax_end : forall check cf d seen used last rest z0 z d' z' tail, axinv cf d' (seen ++ used) z0 -> soa_rr last -> zone_soa (c_zone cf) (seen ++ used) -> axfr_finalize check z d' = Ok z' -> d_type d' = d_type d ->
  axfr_form (c_zone cf) (seen ++ used ++ last :: rest ++ tail) (seen ++ used) /\ check z z' = KNOT_EOK /\ cwf z' /\ z_apex z' = c_zone cf /\ forall c v, crec z' c v <-> listed (c_zone cf) (inzone (c_zone cf) (seen ++ used)) c v.
Proof.
  intros check cf d seen used last rest z0 z d' z' tail AX SL ZS EF _. destruct (ax_final _ _ _ _ _ _ _ AX EF) as [-> EC]. destruct AX as [H1 H2 H3 H4 H5]. split; [|split; [auto|]; split; [auto|]; split; auto]. exists last, (rest ++ tail). split; [rewrite <- app_assoc; auto|]. split; auto.
Qed.
Lemma ax_msgs : forall bump check cf msgs z d seen z0 d' z', axinv cf d seen z0 -> d_isoa d = None -> d_type d = XFR_AXFR -> all_proper (c_zone cf) msgs ->
  transfer bump check cf msgs z d = Ok (DONE, d', z') -> ax_outcome check cf seen msgs z d' z'.
Proof.
  induction msgs as [|m msgs IH]; intros z d seen z0 d' z' AX HI HT HP E; cbn [transfer] in E; [discriminate|]. pose proof (Forall_inv HP) as HM. cbv beta in HM.
  destruct (transfer_consume bump check cf z d m) as [[[k d1] z1]| | |] eqn:ET; cbn [rbind] in E; try discriminate. unfold transfer_consume in ET. destruct (m_expired m) eqn:EX; [injection ET as <- <- <-; discriminate|]. rewrite HT in ET.
  unfold axfr_consume in ET. destruct (negb (m_rcode m =? 0)) eqn:ER; [cbn [rbind] in ET; injection ET as <- <- <-; discriminate|]. rewrite (ax_z _ _ _ _ AX) in ET. cbv zeta in ET. rewrite HI in ET. destruct (axfr_rrs cf (m_answer m) d) as [[k2 d2]| | |] eqn:E2; try discriminate.
  assert (NF : k2 <> FAIL). { intros ->. cbn [rbind] in ET. injection ET as <- <- <-. discriminate. } destruct (ax_rrs _ _ _ _ _ _ _ AX HM E2 NF) as (Q1 & Q2 & Q3 & Q5). assert (US : usable m) by (split; [lia|auto]).
  destruct Q5 as [[-> (z2 & AX2)]|(-> & used & last & rest & z2 & EM & AX2 & SL & ZS)].
  - cbn [rbind] in ET. injection ET as <- <- <-. destruct (IH z d2 _ z2 d' z' AX2 (eq_trans Q2 HI) (eq_trans Q1 HT) (Forall_inv_tail HP) E) as (used & rest & rs & -> & _ & P2 & P3 & P4 & P5). exists (m :: used), rest, rs. split; auto. split; [discriminate|]. split; [constructor; auto|]. split; auto. unfold records_of. cbn [map concat]. rewrite app_assoc. auto.
  - assert (X : Ok (k, d1, z1) = Ok (DONE, d', z')). { cbn [rbind] in ET. cbv zeta in ET. destruct k; auto. exfalso. rewrite Q1, HT in ET. destruct (m_unsigned m); [discriminate|]. destruct (axfr_finalize check z d2); discriminate. }
    rewrite X in ET. destruct (publish_done _ _ _ _ _ _ _ _ _ ET) as (_ & -> & _ & FIN). destruct FIN as [[X1 _]|[[_ FIN]|(_ & X1 & _)]]; [congruence| |congruence]. exists [m], msgs, (seen ++ used). split; auto. split; [discriminate|]. split; [constructor; auto|]. unfold records_of. cbn [map concat]. split; [congruence|]. rewrite EM, <- app_assoc. cbn [app]. apply (ax_end check cf d seen used last rest z2 z d2 z' [] AX2 SL ZS FIN Q1).
Qed.
Lemma ax_new : forall cf d, d_axfr d = Some (contents_new (c_zone cf)) -> axinv cf d [] (contents_new (c_zone cf)).
Proof.
  intros cf d H. split; auto; [apply new_wf| |].
  - intros c v. cbn [inzone filter]. pose proof (new_none (c_zone cf) c v). pose proof (listed_nil (c_zone cf) c v). tauto.
  - intros p r q EQ. destruct p; discriminate.
Qed.

(** ** From the beginning *)
Inductive start (a : name) : xdata -> list rrset -> Prop :=
| st_init : forall b1 t, t = XFR_IXFR \/ t = XFR_AXFR -> start a (xinit t b1) []
| st_und : forall b1 s, soa_rr s -> proper a s -> start a (mkd XFR_UNDETERMINED (Some s) None None [] b1 0 None KNOT_EOK) [s].
(** The first message of a full transfer *)
Lemma ax_first : forall cf m d0 seen reuse k d1, d_axfr d0 = None -> Forall (proper (c_zone cf)) seen -> (d_isoa d0 = None /\ seen = [] \/ exists s, d_isoa d0 = Some s /\ reuse = true /\ seen = [s]) -> Forall (proper (c_zone cf)) (m_answer m) -> axfr_consume cf d0 m reuse = Ok (k, d1) -> k <> FAIL ->
  m_rcode m = 0 /\ d_type d1 = d_type d0 /\ d_isoa d1 = None /\ d_state d1 = d_state d0 /\
  ((k = CONSUME /\ exists z', axinv cf d1 (seen ++ m_answer m) z') \/ (k = DONE /\ exists used last rest z', seen ++ m_answer m = used ++ last :: rest /\ axinv cf d1 used z' /\ soa_rr last /\ zone_soa (c_zone cf) used)).
Proof.
  intros cf m d0 seen reuse k d1 HA HS HI HP E NF. unfold axfr_consume in E. destruct (negb (m_rcode m =? 0)) eqn:ER; [injection E as <- <-; contradiction|]. rewrite HA in E. cbv zeta in E. set (d2 := mkd (d_type d0) (d_isoa d0) (d_state d0) (d_final d0) (d_chs d0) (d_by_one d0) 0 (Some (contents_new (c_zone cf))) KNOT_EOK) in *.
  assert (AX : axinv cf d2 [] (contents_new (c_zone cf))) by (apply ax_new; reflexivity). split; [lia|]. destruct HI as [[HI ->]|(s & HI & -> & ->)].
  - change (d_isoa d2) with (d_isoa d0) in E. rewrite HI in E. destruct (ax_rrs _ _ _ _ _ _ _ AX HP E NF) as (Q1 & Q2 & Q3 & Q5). split; auto. split; [rewrite Q2; exact HI|]. split; [rewrite Q3; reflexivity|]. exact Q5.
  - change (d_isoa d2) with (d_isoa d0) in E. rewrite HI in E. destruct (axfr_rrs cf [s] d2) as [[k3 d3]| | |] eqn:E3; cbn [rbind] in E; try discriminate. assert (N3 : k3 <> FAIL) by (intros ->; injection E as <- <-; contradiction). destruct (ax_rrs _ _ _ _ _ _ _ AX HS E3 N3) as (Q1 & Q2 & Q3 & Q5). destruct Q5 as [[-> (z3 & AX3)]|(-> & used & last & rest & z3 & EQ & AX3 & SL & ZS)].
    + cbn [app] in AX3. assert (AX4 : axinv cf (noisoa d3) [s] z3) by (destruct AX3 as [A1 A2 A3 A4 A5]; split; auto). destruct (ax_rrs _ _ _ _ _ _ _ AX4 HP E NF) as (T1 & T2 & T3 & T5). split; [rewrite T1; exact Q1|]. split; [rewrite T2; reflexivity|]. split; [rewrite T3; exact Q3|]. destruct T5 as [T5|(-> & used & last & rest & z4 & EQ & T)]; [left; auto|right]. split; auto. exists ([s] ++ used), last, rest, z4. rewrite EQ, app_assoc. auto.
    + exfalso. destruct used as [|x used]; [|destruct used; discriminate]. destruct ZS as (v & ZS). cbn [inzone filter app] in ZS. eapply listed_nil; eauto.
Qed.
Lemma ix_first : forall cf d0 m seen k d1, d_state d0 = Some IXFR_START -> d_final d0 = None -> d_chs d0 = [] -> Forall (proper (c_zone cf)) seen -> (d_isoa d0 = None /\ seen = [] \/ exists s, d_isoa d0 = Some s /\ seen = [s]) -> Forall (proper (c_zone cf)) (m_answer m) ->
  match d_isoa d0 with
    | Some s =>
      let* (k, d) := ixfr_rrs cf [s] d0 in
      let d := mkd (d_type d) None (d_state d) (d_final d) (d_chs d) (d_by_one d) (d_size d) (d_axfr d) (d_ret d) in
      match k with CONSUME => ixfr_rrs cf (m_answer m) d | _ => Ok (k, d) end
    | None => ixfr_rrs cf (m_answer m) d0
    end = Ok (k, d1) -> k <> FAIL ->
  d_type d1 = d_type d0 /\ d_isoa d1 = None /\ known d1 (c_zone cf) /\ k = kind (d_state d1) /\
  ((k = CONSUME /\ inv cf (d_by_one d0) d1 (inzone (c_zone cf) (seen ++ m_answer m))) \/ (k = DONE /\ exists ds, ixfr_form (d_by_one d0) (inzone (c_zone cf) (seen ++ m_answer m)) ds /\ made (c_zone cf) ds (rev (d_chs d1)))).
Proof.
  intros cf d0 m seen k d1 HS HF HC PS HI HP E NF. assert (I : inv cf (d_by_one d0) d0 []) by (unfold inv; rewrite HS; split; auto). assert (K : known d0 (c_zone cf)) by (unfold known; rewrite HF; exact Logic.I). assert (KD : kind (d_state d0) = CONSUME) by (rewrite HS; reflexivity). rewrite inzone_app. destruct HI as [[HI ->]|(s & HI & ->)]; rewrite HI in E.
  - destruct (ix_go _ _ _ _ _ _ _ I K KD HP E NF) as (Q1 & Q2 & Q3 & Q4 & Q5). split; auto. split; [congruence|]. split; auto.
  - destruct (ixfr_rrs cf [s] d0) as [[k3 d3]| | |] eqn:E3; cbn [rbind] in E; try discriminate. fold (noisoa d3) in E. assert (N3 : k3 <> FAIL) by (intros ->; injection E as <- <-; contradiction). destruct (ix_go _ _ _ _ _ _ _ I K KD PS E3 N3) as (Q1 & Q2 & Q3 & Q4 & Q5). destruct Q5 as [[-> I3]|(-> & ds & F & _)].
    + cbn [app] in I3. destruct (ix_go cf (d_by_one d0) (noisoa d3) _ _ _ _ I3 Q3 (eq_sym Q4) HP E NF) as (R1 & R2 & R3 & R4 & R5). split; [rewrite R1; exact Q1|]. split; auto.
    + exfalso. destruct F as (f & la & rest & F & _ & _ & NE & _). cbn [app inzone filter] in F. destruct (under (fst s) (c_zone cf)); [|discriminate]. injection F as _ F. destruct ds as [|x ds]; [contradiction|]. cbn [map concat drecords app] in F. discriminate.
Qed.
Definition outcome (bump : contents -> contents -> res contents) (check : contents -> contents -> Z) (cf : xconf) (b1 : bool) (seen : list rrset) (msgs : list msg) (z : contents) (d' : xdata) (z' : contents) : Prop :=
  match d_type d' with
  | XFR_UPTODATE => z' = z
  | XFR_AXFR => ax_outcome check cf seen msgs z d' z'
  | XFR_IXFR => ix_outcome bump check cf b1 (inzone (c_zone cf) seen) msgs z d' z'
  | _ => False
  end.
Lemma start_msgs : forall bump check cf msgs z d seen d' z', start (c_zone cf) d seen -> all_proper (c_zone cf) msgs -> transfer bump check cf msgs z d = Ok (DONE, d', z') -> outcome bump check cf (d_by_one d) seen msgs z d' z'.
Proof.
  induction msgs as [|m msgs IH]; intros z d seen d' z' ST HP E; cbn [transfer] in E; [discriminate|]. pose proof (Forall_inv HP) as HM. cbv beta in HM. pose proof (Forall_inv_tail HP) as HP'.
  destruct (transfer_consume bump check cf z d m) as [[[k d1] z1]| | |] eqn:ET; cbn [rbind] in E; try discriminate. unfold transfer_consume in ET. destruct (m_expired m) eqn:EX; [injection ET as <- <- <-; discriminate|].
  assert (DS : Forall (proper (c_zone cf)) seen) by (inversion ST; subst; [constructor|constructor; auto]). assert (DI : d_isoa d = None /\ seen = [] \/ exists s, d_isoa d = Some s /\ seen = [s]) by (inversion ST; subst; [left; auto|right; exists s; auto]).
  assert (DA : d_axfr d = None /\ d_state d = None /\ d_final d = None /\ d_chs d = [] /\ d_size d = 0) by (inversion ST; subst; cbn; auto). destruct DA as (DA & DST & DF & DC & DZ).
  (* a full transfer *)
  assert (FULL : forall dx reuse, d_axfr dx = None -> d_type dx = XFR_AXFR -> d_isoa dx = d_isoa d -> (seen = [] \/ reuse = true) ->
    (let* (k, d0) := axfr_consume cf dx m reuse in
     match k with
     | DONE =>
       let fail e := Ok (FAIL, mkd (d_type d0) (d_isoa d0) (d_state d0) (d_final d0) (d_chs d0) (d_by_one d0) (d_size d0) (d_axfr d0) e, z) in
       if m_unsigned m then fail KNOT_EMALF else
       let publish (r : res contents) := match r with Ok z1 => Ok (DONE, d0, z1) | Err e => fail e | UB => UB | OOF => OOF end in
       match d_type d0 with XFR_IXFR => publish (ixfr_finalize bump check cf z d0) | XFR_AXFR => publish (axfr_finalize check z d0) | _ => Ok (DONE, d0, z) end
     | _ => Ok (k, d0, z)
     end) = Ok (k, d1, z1) -> outcome bump check cf (d_by_one d) seen (m :: msgs) z d' z').
  { intros dx reuse HA HT HI HR EF. destruct (axfr_consume cf dx m reuse) as [[k2 d2]| | |] eqn:E2; try discriminate. assert (NF : k2 <> FAIL) by (intros ->; cbn [rbind] in EF; injection EF as <- <- <-; discriminate).
    destruct (ax_first cf m dx seen reuse k2 d2 HA DS) as (RC & Q1 & Q2 & Q3 & Q5); auto; [rewrite HI; destruct DI as [DI|(s & D1 & D2)]; [left; auto|right; exists s; split; auto; split; auto; destruct HR as [HR|HR]; [congruence|auto]]|]. assert (US : usable m) by (split; auto).
    destruct Q5 as [[-> (z2 & AX2)]|(-> & used & last & rest & z2 & EM & AX2 & SL & ZS)].
    - cbn [rbind] in EF. injection EF as <- <- <-. destruct (ax_msgs bump check cf msgs z d2 _ z2 d' z' AX2 Q2 (eq_trans Q1 HT) HP' E) as (used & rest & rs & -> & _ & P2 & P3 & P4 & P5). unfold outcome. rewrite P3. exists (m :: used), rest, rs. split; auto. split; [discriminate|]. split; [constructor; auto|]. split; auto. unfold records_of. cbn [map concat]. rewrite app_assoc. auto.
    - assert (X : Ok (k, d1, z1) = Ok (DONE, d', z')). { cbn [rbind] in EF. cbv zeta in EF. destruct k; auto. exfalso. rewrite Q1, HT in EF. destruct (m_unsigned m); [discriminate|]. destruct (axfr_finalize check z d2); discriminate. }
      rewrite X in EF. destruct (publish_done _ _ _ _ _ _ _ _ _ EF) as (_ & -> & _ & FIN). destruct FIN as [[X1 _]|[[_ FIN]|(_ & X1 & _)]]; [congruence| |congruence]. unfold outcome. rewrite Q1, HT. exists [m], msgs, used. split; auto. split; [discriminate|]. split; [constructor; auto|]. unfold records_of. cbn [map concat]. rewrite app_nil_r, EM. split; [congruence|]. pose proof (ax_end check cf d2 [] used last rest z2 z d2 z' [] AX2 SL ZS FIN eq_refl) as R. cbn [app] in R. rewrite app_nil_r in R. exact R. }
  destruct (d_type d) eqn:HT; try (exfalso; inversion ST as [? ? [T|T]|]; subst; discriminate); [|apply (FULL d false); auto; destruct DI as [[_ DI]|(s & D1 & _)]; [left; auto|inversion ST; subst; discriminate]|].
  all: unfold ixfr_consume in ET; destruct (negb (m_rcode m =? 0)) eqn:ER; [cbn [rbind] in ET; injection ET as <- <- <-; discriminate|]; rewrite DST in ET; destruct (determine_xfr_type (m_answer m) (c_serial cf) (d_isoa d)) as [t| | |] eqn:ED; try (cbn [rbind] in ET; discriminate).
  all: destruct t; try (cbn [rbind] in ET; injection ET as <- <- <-; discriminate).
  all: try (cbn [rbind d_type] in ET; destruct (m_unsigned m); [injection ET as <- <- <-; discriminate|]; injection ET as <- <- <-; injection E as <- <-; exact eq_refl).
  all: try (apply (FULL (mkd XFR_AXFR (d_isoa d) None (d_final d) (d_chs d) (d_by_one d) (d_size d) (d_axfr d) KNOT_EOK) true); auto; exact ET).
  (* still unknown *)
  all: try (cbn [rbind] in ET; injection ET as <- <- <-; assert (X : d_isoa d = None /\ exists s, m_answer m = [s] /\ soa_rr s) by
    (unfold determine_xfr_type in ED; destruct (m_answer m) as [|one [|two more]]; [discriminate| |]; (destruct (d_isoa d); [destruct (is_soa one); [destruct (rrset_equal r one) as [[]| | |]; discriminate|discriminate]|]); [split; auto; exists one; split; auto; apply soa_spec; destruct (is_soa one); [auto|discriminate]|
       destruct more; [destruct (is_soa one); [destruct (rrset_equal one two) as [[]| | |]; cbn [rbind] in ED; destruct (is_soa two); discriminate|discriminate]|destruct (is_soa one), (is_soa two); discriminate]]); destruct X as (X1 & s & X2 & X3); destruct DI as [[_ ->]|(s0 & X & _)]; [|congruence];
    rewrite X2, DF, DC, DZ, DA in E; cbn [hd_error] in E; assert (PR : proper (c_zone cf) s) by (rewrite X2 in HM; exact (Forall_inv HM)); specialize (IH z _ [s] d' z' (st_und (c_zone cf) (d_by_one d) s X3 PR) HP' E); cbn [d_by_one] in IH; unfold outcome in *; destruct (d_type d'); auto;
    [destruct IH as (used & rest & rs & -> & _ & P2 & P3 & P4 & P5); exists (m :: used), rest, rs; split; auto; split; [discriminate|]; split; [constructor; auto; split; [lia|auto]|]; split; auto; unfold records_of; cbn [map concat]; rewrite X2; auto
    |destruct IH as (used & rest & ds & -> & _ & P2 & P3 & P4 & P5); exists (m :: used), rest, ds; split; auto; split; [discriminate|]; split; [constructor; auto; split; [lia|auto]|]; split; auto; unfold records_of; cbn [map concat]; rewrite X2, <- inzone_app in *; auto]; fail).
  (* incremental *)
  all: cbn [rbind] in ET; match type of ET with (let* _ := ?g in _) = _ => destruct g as [[k2 d2]| | |] eqn:E2; try discriminate end.
  all: assert (NF : k2 <> FAIL) by (intros ->; cbn [rbind] in ET; injection ET as <- <- <-; discriminate).
  all: pose proof (ix_first cf (mkd XFR_IXFR (d_isoa d) (Some IXFR_START) None [] (d_by_one d) 0 (d_axfr d) KNOT_EOK) m seen k2 d2 eq_refl eq_refl eq_refl DS DI HM E2 NF) as (Q1 & Q2 & Q3 & Q4 & Q5).
  all: cbn [d_type d_by_one] in *; assert (US : usable m) by (split; [lia|auto]).
  all: destruct Q5 as [[-> I2]|(-> & ds & F & M)].
  1,3: cbn [rbind] in ET; injection ET as <- <- <-; destruct (ix_msgs bump check cf (d_by_one d) msgs z d2 _ d' z' I2 Q3 (eq_sym Q4) Q2 Q1 HP' E) as (used & rest & ds & -> & _ & P2 & P3 & P4 & P5 & P6); unfold outcome; rewrite P5; exists (m :: used), rest, ds; split; auto; split; [discriminate|]; split; [constructor; auto|]; unfold records_of; cbn [map concat]; rewrite <- inzone_app, app_assoc, inzone_app; auto.
  all: assert (X : Ok (k, d1, z1) = Ok (DONE, d', z')) by (cbn [rbind] in ET; cbv zeta in ET; destruct k; auto; exfalso; rewrite Q1 in ET; destruct (m_unsigned m); [discriminate|]; destruct (ixfr_finalize bump check cf z d2); discriminate).
  all: rewrite X in ET; destruct (publish_done _ _ _ _ _ _ _ _ _ ET) as (_ & -> & _ & FIN); destruct FIN as [[_ FIN]|[[X1 _]|(X1 & _)]]; [|congruence|congruence]; unfold outcome; rewrite Q1; exists [m], msgs, ds; split; auto; split; [discriminate|]; split; [constructor; auto|]; unfold records_of; cbn [map concat]; rewrite app_nil_r, <- inzone_app; auto.
Qed.
(** Nothing is published unless the transfer ends well. *)
Lemma not_done : forall bump check cf msgs z d k d' z', transfer bump check cf msgs z d = Ok (k, d', z') -> k <> DONE -> z' = z.
Proof.
  induction msgs as [|m msgs IH]; intros z d k d' z' E NK; cbn [transfer] in E; [injection E as <- <- <-; auto|]. destruct (transfer_consume bump check cf z d m) as [[[k1 d1] z1]| | |] eqn:ET; cbn [rbind] in E; try discriminate.
  assert (X : k1 <> DONE -> z1 = z).
  { intros NK1. unfold transfer_consume in ET. destruct (m_expired m); [injection ET as <- <- <-; auto|]. match type of ET with (let* _ := ?g in _) = _ => destruct g as [[k2 d2]| | |] end; cbn [rbind] in ET; try discriminate. destruct k2; try (injection ET as <- <- <-; auto; fail). cbv zeta in ET. destruct (m_unsigned m); [injection ET as <- <- <-; auto|]. destruct (d_type d2); try (injection ET as <- <- <-; auto; fail); [destruct (axfr_finalize check z d2)|destruct (ixfr_finalize bump check cf z d2)]; try discriminate; injection ET as <- <- <-; auto; contradiction. }
  destruct k1; try (injection E as <- <- <-; auto). rewrite X in E by discriminate. eapply IH; eauto.
Qed.
