(** C52: RRsets at a node. *)
From Verif Require Import Base DnameSpec RdatasetModel RdatasetSpec RdatasetProofs RdatasetProps NodeModel.
From Coq Require Import Sorting.Sorted.

(** ** Specification: a node is a map from types to a TTL and a non-empty set of records.
    [is s rs] (RdatasetProps.v): the record set [s] holds exactly the records [rs], in canonical order. *)
Definition has (n : list rr_data) (t ttl : Z) (rs : list (list Z)) : Prop := exists e, In e n /\ rr_type e = t /\ rr_ttl e = ttl /\ is (rr_rrs e) rs.
Definition type_lt (a b : rr_data) : Prop := rr_type a < rr_type b.
Definition entry_ok (e : rr_data) : Prop := 1 <= rr_type e <= 65535 /\ exists rs, is (rr_rrs e) rs /\ rs <> [].
Definition node_wf (n : list rr_data) : Prop := StronglySorted type_lt n /\ Forall entry_ok n.

Lemma split_at : forall n t, (exists a e b, n = a ++ e :: b /\ rr_type e = t /\ Forall (fun x => rr_type x <> t) a) \/ Forall (fun x => rr_type x <> t) n.
Proof.
  induction n as [|e n IH]; intros t; auto. destruct (Z.eq_dec (rr_type e) t) as [E|E].
  - left. exists [], e, n. auto.
  - destruct (IH t) as [(a & x & b & -> & H1 & H2)|H]; [left; exists (e :: a), x, b; auto|right; auto].
Qed.
Lemma sorted_app : forall a (e : rr_data) b, StronglySorted type_lt (a ++ e :: b) <-> StronglySorted type_lt a /\ StronglySorted type_lt b /\ Forall (fun x => rr_type x < rr_type e) a /\ Forall (fun x => rr_type e < rr_type x) b /\ forall x y, In x a -> In y b -> rr_type x < rr_type y.
Proof.
  induction a as [|h a IH]; intros e b; cbn [app].
  - split.
    + intros H. inversion H; subst. split; [constructor|]. split; auto. split; auto. split; [auto|]. intros x y [].
    + intros (_ & H & _ & F & _). constructor; auto.
  - split.
    + intros H. inversion H as [|? ? H1 H2]; subst. apply IH in H1. destruct H1 as (S1 & S2 & F1 & F2 & F3). rewrite Forall_app in H2. destruct H2 as [H2 H3]. pose proof (Forall_inv H3) as H4. pose proof (Forall_inv_tail H3) as H5. split; [constructor; auto|]. split; auto. split; [constructor; auto|]. split; auto. intros x y [<-|Hx] Hy; [rewrite Forall_forall in H5; apply H5; auto|auto].
    + intros (S1 & S2 & F1 & F2 & F3). inversion S1 as [|? ? H1 H2]; subst. pose proof (Forall_inv F1). pose proof (Forall_inv_tail F1). constructor.
      * apply IH. split; auto. split; auto. split; auto. split; auto. intros; apply F3; [right|]; auto.
      * apply Forall_app. split; auto. constructor; auto. apply Forall_forall. intros y Hy. apply F3; [left|]; auto.
Qed.
Lemma is_fun : forall s a b, is s a -> is s b -> a = b.
Proof. intros s a b H1 H2. apply is_holds in H1, H2. destruct H1 as (_ & R1 & _ & [_ K1] & _), H2 as (_ & R2 & _ & [_ K2] & _). apply enc_inj; congruence. Qed.
(** A type has one entry at most. *)
Theorem c52_unique : forall n t ttl1 rs1 ttl2 rs2, node_wf n -> has n t ttl1 rs1 -> has n t ttl2 rs2 -> ttl1 = ttl2 /\ rs1 = rs2.
Proof.
  intros n t ttl1 rs1 ttl2 rs2 [HS HF] (e1 & I1 & T1 & L1 & R1) (e2 & I2 & T2 & L2 & R2). assert (e1 = e2) as ->.
  { destruct (in_split e1 n I1) as (a & b & ->). apply sorted_app in HS. destruct HS as (_ & _ & F1 & F2 & _). rewrite Forall_forall in F1, F2. apply in_app_or in I2. destruct I2 as [I2|[I2|I2]]; auto; [apply F1 in I2|apply F2 in I2]; lia. }
  split; [congruence|]. eapply is_fun; eauto.
Qed.
(** No entry is empty, and rrset_count does not wrap. *)
Theorem c52_nonempty : forall n t ttl rs, node_wf n -> has n t ttl rs -> rs <> [] /\ 1 <= t <= 65535.
Proof. intros n t ttl rs [_ HF] (e & I & T & L & R). rewrite Forall_forall in HF. destruct (HF e I) as [HT (rs' & H1 & H2)]. rewrite (is_fun _ _ _ R H1). split; [auto|lia]. Qed.
Lemma sorted_bound : forall n lo, StronglySorted type_lt n -> Forall (fun e => lo <= rr_type e <= 65535) n -> lo <= 65536 -> zlen n <= 65536 - lo.
Proof.
  induction n as [|e n IH]; intros lo HS HF HL; rewrite ?zlen_nil, ?zlen_cons; [lia|]. inversion HS; subst. pose proof (Forall_inv HF). cbv beta in *. assert (zlen n <= 65536 - (rr_type e + 1)); [|lia]. apply IH; [auto| |lia]. rewrite Forall_forall in *. intros x Hx. pose proof (HF x (or_intror Hx)). match goal with H : forall x, In x n -> type_lt e x |- _ => specialize (H x Hx); unfold type_lt in H end. cbv beta in *. lia.
Qed.
Theorem c52_count : forall n, node_wf n -> zlen n <= 65535.
Proof. intros n [HS HF]. assert (zlen n <= 65536 - 1); [|lia]. apply sorted_bound; [auto| |lia]. rewrite Forall_forall in *. intros x Hx. apply HF; auto. Qed.

Lemma insert_pos_spec : forall n t, StronglySorted type_lt n -> Forall (fun x => rr_type x <> t) n -> exists a b, insert_pos n t = (a, b) /\ n = a ++ b /\ Forall (fun x => rr_type x < t) a /\ Forall (fun x => t < rr_type x) b.
Proof.
  induction n as [|e n IH]; intros t HS HF; cbn [insert_pos]; [exists [], []; auto|]. inversion HS as [|? ? S1 S2]; subst. pose proof (Forall_inv HF). destruct (rr_type e <? t) eqn:E.
  - destruct (IH t S1 (Forall_inv_tail HF)) as (a & b & -> & -> & F1 & F2). exists (e :: a), b. split; [auto|]. split; [auto|]. split; [constructor; auto; lia|auto].
  - exists [], (e :: n). split; [auto|]. split; [auto|]. split; [auto|]. cbv beta in *. constructor; [lia|]. rewrite Forall_forall in *. intros x Hx. specialize (S2 x Hx). unfold type_lt in S2. lia.
Qed.
Lemma wf_insert : forall a b e, node_wf (a ++ b) -> entry_ok e -> Forall (fun x => rr_type x < rr_type e) a -> Forall (fun x => rr_type e < rr_type x) b -> node_wf (a ++ e :: b).
Proof.
  intros a b e [HS HF] He F1 F2. split; [|apply Forall_app; apply Forall_app in HF; split; [tauto|constructor; tauto]]. apply sorted_app. clear HF. rewrite Forall_forall in F1, F2.
  assert (G : forall a, StronglySorted type_lt (a ++ b) -> StronglySorted type_lt a /\ StronglySorted type_lt b).
  { induction a0 as [|h a0 IH]; intros H; cbn [app] in H; [split; [constructor|auto]|]. inversion H as [|? ? H1 H2]; subst. apply IH in H1. apply Forall_app in H2. split; [constructor; tauto|tauto]. }
  destruct (G a HS). split; auto. split; auto. rewrite !Forall_forall. split; auto. split; auto. intros x y Hx Hy. specialize (F1 x Hx). specialize (F2 y Hy). cbv beta in *. lia.
Qed.
Lemma add_loop_none : forall al n r, Forall (fun x => rr_type x <> rr_type r) n -> add_loop al n r = Ok None.
Proof. induction n as [|e n IH]; intros r HF; auto. cbn [add_loop]. pose proof (Forall_inv HF). cbv beta in *. replace (rr_type e =? rr_type r) with false by lia. rewrite IH by (eapply Forall_inv_tail; eauto). auto. Qed.
Lemma add_loop_some : forall al a e b r ret s, Forall (fun x => rr_type x <> rr_type r) a -> rr_type e = rr_type r -> rdataset_merge al (rr_rrs e) (rr_rrs r) = Ok (ret, s) ->
  add_loop al (a ++ e :: b) r = Ok (Some (if negb (ret =? KNOT_EOK) then ret else if ttl_changed e r then KNOT_ETTL else KNOT_EOK, a ++ mkrr (rr_type e) (if ttl_changed e r then rr_ttl r else rr_ttl e) s :: b)).
Proof.
  induction a as [|h a IH]; intros e b r ret s HF HT HM; cbn [app add_loop].
  - replace (rr_type e =? rr_type r) with true by lia. cbv zeta. rewrite HM. reflexivity.
  - pose proof (Forall_inv HF). cbv beta in *. replace (rr_type h =? rr_type r) with false by lia. rewrite (IH e b r ret s) by (auto; eapply Forall_inv_tail; eauto). reflexivity.
Qed.
Lemma has_mid : forall a e b t ttl rs, has (a ++ e :: b) t ttl rs <-> (rr_type e = t /\ rr_ttl e = ttl /\ is (rr_rrs e) rs) \/ has (a ++ b) t ttl rs.
Proof.
  intros a e b t ttl rs. unfold has. split.
  - intros (x & I & H). apply in_app_or in I. destruct I as [I|[->|I]]; [right; exists x; split; [apply in_or_app|]; tauto|tauto|right; exists x; split; [apply in_or_app|]; tauto].
  - intros [H|(x & I & H)]; [exists e; split; [apply in_or_app; right; left; auto|tauto]|]. exists x. split; auto. apply in_app_or in I. apply in_or_app. cbn [In]. tauto.
Qed.
Lemma sorted_others : forall a e b x, StronglySorted type_lt (a ++ e :: b) -> In x (a ++ b) -> rr_type x <> rr_type e.
Proof. intros a e b x HS I. apply sorted_app in HS. destruct HS as (_ & _ & F1 & F2 & _). rewrite Forall_forall in F1, F2. apply in_app_or in I. destruct I as [I|I]; [apply F1 in I|apply F2 in I]; lia. Qed.
Lemma wf_mid : forall a e b e', node_wf (a ++ e :: b) -> entry_ok e' -> rr_type e' = rr_type e -> node_wf (a ++ e' :: b).
Proof.
  intros a e b e' [HS HF] He HT. split; [|apply Forall_app in HF; destruct HF as [F1 F2]; apply Forall_app; split; auto; constructor; [auto|eapply Forall_inv_tail; eauto]]. apply sorted_app in HS. apply sorted_app. rewrite HT. auto.
Qed.
Lemma wf_del : forall a e b, node_wf (a ++ e :: b) -> node_wf (a ++ b).
Proof.
  intros a e b [HS HF]. split; [|apply Forall_app in HF; destruct HF as [F1 F2]; apply Forall_app; split; auto; eapply Forall_inv_tail; eauto]. apply sorted_app in HS. destruct HS as (S1 & S2 & F1 & F2 & F3). clear HF F1 F2. induction a as [|h a IH]; cbn [app]; auto. inversion S1 as [|? ? T1 T2]; subst. constructor; [apply IH; auto; intros; apply F3; [right|]; auto|]. apply Forall_app. split; auto. apply Forall_forall. intros y Hy. apply F3; [left|]; auto.
Qed.
Lemma is_count : forall s rs, is s rs -> count s = zlen rs.
Proof. intros s rs (_ & _ & H & _). auto. Qed.
(** Adding an RRset: its records join those of its type and no other type is touched. KNOT_ETTL tells that the TTL of
    the type changed (for signatures, the TTL of the first one stays). KNOT_ESPACE is for an oversized set only. *)
Theorem c52_add : forall n r b, node_wf n -> entry_ok r -> is (rr_rrs r) b -> exists ret n', node_add_rrset yes true n r = Ok (ret, n') /\ (ret = KNOT_EOK \/ ret = KNOT_ETTL \/ ret = KNOT_ESPACE \/ ret = KNOT_ENOMEM) /\
  ((forall ttl rs, ~ has n (rr_type r) ttl rs) -> ret = KNOT_EOK /\ node_wf n' /\ forall t ttl rs, has n' t ttl rs <-> (t <> rr_type r /\ has n t ttl rs) \/ (t = rr_type r /\ ttl = rr_ttl r /\ rs = b)) /\
  (forall ttl0 rs0, has n (rr_type r) ttl0 rs0 -> ret = KNOT_EOK \/ ret = KNOT_ETTL -> node_wf n' /\ exists rs', (forall x, In x rs' <-> In x rs0 \/ In x b) /\
     (ret = KNOT_ETTL <-> rr_type r <> RRSIG /\ rr_ttl r <> ttl0) /\
     forall t ttl rs, has n' t ttl rs <-> (t <> rr_type r /\ has n t ttl rs) \/ (t = rr_type r /\ ttl = (if rr_type r =? RRSIG then ttl0 else rr_ttl r) /\ rs = rs')).
Proof.
  intros n r b HW HR HB. unfold node_add_rrset. destruct (split_at n (rr_type r)) as [(a & e & p & -> & HT & HF)|HF].
  - pose proof HW as [HS HE]. assert (OKe : entry_ok e) by (rewrite Forall_forall in HE; apply HE; apply in_or_app; right; left; auto). destruct OKe as [Te (rs0 & I0 & N0)]. destruct (c07_merge yes _ _ _ _ I0 HB) as (ret & s & rs' & EM & IS & HOK & HNO). rewrite (add_loop_some yes a e p r ret s HF HT EM). cbn [rbind]. eexists _, _. split; [reflexivity|].
    assert (HASe : has (a ++ e :: p) (rr_type r) (rr_ttl e) rs0) by (apply has_mid; auto). assert (CE : ttl_changed e r = negb (rr_type r =? RRSIG) && negb (rr_ttl r =? rr_ttl e)). { unfold ttl_changed. rewrite (is_count _ _ I0). replace (zlen rs0 =? 0) with false by (destruct rs0; [congruence|rewrite zlen_cons; pose proof (zlen_nonneg rs0); lia]). rewrite orb_false_r. destruct (rr_type r =? RRSIG); auto. }
    split; [|split].
    + destruct (ret =? KNOT_EOK) eqn:E; cbn [negb]; [destruct (ttl_changed e r); auto|]. assert (ret <> KNOT_EOK) as Hn by lia. apply HNO in Hn. tauto.
    + intros HN. exfalso. eapply HN; eauto.
    + intros ttl0 rs0' HH HC. destruct (c52_unique _ _ _ _ _ _ HW HH HASe) as [-> ->]. destruct (ret =? KNOT_EOK) eqn:E; cbn [negb] in *. 2:{ exfalso. assert (ret <> KNOT_EOK) as Hn by lia. apply HNO in Hn. unfold KNOT_EOK, KNOT_ETTL, KNOT_ESPACE, KNOT_ENOMEM in *. lia. }
      specialize (HOK ltac:(lia)). assert (rs' <> []) as N' by (intros ->; destruct rs0 as [|x rs0]; [congruence|]; apply (HOK x); left; left; auto). split.
      * apply (wf_mid _ e); auto. split; [exact Te|exists rs'; split; auto].
      * exists rs'. split; auto. split.
        -- rewrite CE. destruct (rr_type r =? RRSIG) eqn:E1, (rr_ttl r =? rr_ttl e) eqn:E2; cbn [negb andb]; unfold KNOT_EOK, KNOT_ETTL in *; lia.
        -- intros t ttl rs. rewrite has_mid. cbn [rr_type rr_ttl rr_rrs]. replace (if rr_type r =? RRSIG then rr_ttl e else rr_ttl r) with (if ttl_changed e r then rr_ttl r else rr_ttl e) by (rewrite CE; destruct (rr_type r =? RRSIG) eqn:E1, (rr_ttl r =? rr_ttl e) eqn:E2; cbn [negb andb]; auto; lia).
           assert (OT : has (a ++ p) t ttl rs -> t <> rr_type r) by (intros (x & I & <- & _); rewrite <- HT; eapply sorted_others; eauto). split.
           ++ intros [(H1 & H2 & H3)|H]; [right; split; [lia|]; split; [auto|eapply is_fun; eauto]|left; split; [auto|apply has_mid; auto]].
           ++ intros [[H1 H2]|(H1 & H2 & ->)]; [apply has_mid in H2; destruct H2 as [H2|H2]; [lia|auto]|left; split; [lia|split; auto]].
  - rewrite add_loop_none by auto. cbn [rbind]. unfold add_rrset_no_merge. cbn [negb]. destruct (insert_pos_spec n (rr_type r) (proj1 HW) HF) as (a & p & -> & -> & F1 & F2). unfold rr_data_from. destruct (c07_copy yes _ _ HB) as [->|[_ Hx]]; [|discriminate]. cbn [rbind]. change (KNOT_EOK =? KNOT_EOK) with true. cbn [negb]. exists KNOT_EOK, (a ++ mkrr (rr_type r) (rr_ttl r) (rr_rrs r) :: p). split; [reflexivity|]. split; [auto|]. split.
    + intros HN. split; auto. split; [apply wf_insert; auto|]. intros t ttl rs. rewrite has_mid. cbn [rr_type rr_ttl rr_rrs]. rewrite Forall_forall in HF. assert (OT : has (a ++ p) t ttl rs -> t <> rr_type r) by (intros (x & I & <- & _); apply HF; auto). split.
      * intros [(H1 & H2 & H3)|H]; [right; split; [lia|]; split; [auto|eapply is_fun; eauto]|left; auto].
      * intros [[H1 H2]|(H1 & H2 & ->)]; [auto|left; split; [lia|split; auto]].
    + intros ttl0 rs0 (x & I & Hx & _). exfalso. rewrite Forall_forall in HF. eapply HF; eauto.
Qed.
Lemma rdataset_none : forall n t, Forall (fun x => rr_type x <> t) n -> node_rdataset n t = None /\ node_rrset n t = None.
Proof. induction n as [|e n IH]; intros t HF; auto. cbn [node_rdataset node_rrset]. pose proof (Forall_inv HF). cbv beta in *. replace (rr_type e =? t) with false by lia. apply IH. eapply Forall_inv_tail; eauto. Qed.
Lemma rdataset_some : forall a e b, Forall (fun x => rr_type x <> rr_type e) a -> node_rdataset (a ++ e :: b) (rr_type e) = Some (rr_rrs e) /\ node_rrset (a ++ e :: b) (rr_type e) = Some e /\ (forall s, set_rdataset (a ++ e :: b) (rr_type e) s = a ++ mkrr (rr_type e) (rr_ttl e) s :: b) /\ node_remove_rdataset (a ++ e :: b) (rr_type e) = a ++ b.
Proof.
  induction a as [|h a IH]; intros e b HF; cbn [app node_rdataset node_rrset set_rdataset node_remove_rdataset]; [rewrite Z.eqb_refl; auto|]. pose proof (Forall_inv HF). cbv beta in *. replace (rr_type h =? rr_type e) with false by lia. destruct (IH e b) as (H1 & H2 & H3 & H4); [eapply Forall_inv_tail; eauto|]. split; auto. split; auto. split; [intros; rewrite H3; auto|rewrite H4; auto].
Qed.
(** Looking up a type. *)
Theorem c52_lookup : forall n t, node_wf n -> match node_rrset n t with Some e => exists rs, is (rr_rrs e) rs /\ rr_type e = t /\ has n t (rr_ttl e) rs /\ node_rdataset n t = Some (rr_rrs e) | None => (forall ttl rs, ~ has n t ttl rs) /\ node_rdataset n t = None end.
Proof.
  intros n t [HS HF]. destruct (split_at n t) as [(a & e & p & -> & HT & H)|H].
  - subst t. destruct (rdataset_some a e p H) as (H1 & -> & _). assert (OKe : entry_ok e) by (rewrite Forall_forall in HF; apply HF; apply in_or_app; right; left; auto). destruct OKe as [Te (rs0 & I0 & N0)]. exists rs0. split; auto. split; auto. split; auto. apply has_mid. auto.
  - destruct (rdataset_none n t H) as [H1 ->]. split; auto. intros ttl rs (x & I & Hx & _). rewrite Forall_forall in H. eapply H; eauto.
Qed.
(** Removing an RRset: exactly its records disappear from its type; the type itself disappears with its last record. *)
Theorem c52_remove : forall n r b same, node_wf n -> is (rr_rrs r) b -> (same = true -> node_rdataset n (rr_type r) = Some (rr_rrs r)) ->
  ((forall ttl rs, ~ has n (rr_type r) ttl rs) -> node_remove_rrset yes same n r = Ok (KNOT_ENOENT, n)) /\
  (forall ttl0 rs0, has n (rr_type r) ttl0 rs0 -> exists n', node_remove_rrset yes same n r = Ok (KNOT_EOK, n') /\ node_wf n' /\ exists rs', (forall x, In x rs' <-> In x rs0 /\ ~ In x b) /\
     forall t ttl rs, has n' t ttl rs <-> (t <> rr_type r /\ has n t ttl rs) \/ (t = rr_type r /\ ttl = ttl0 /\ rs = rs' /\ rs <> [])).
Proof.
  intros n r b same HW HB Hs. unfold node_remove_rrset. destruct (split_at n (rr_type r)) as [(a & e & p & -> & HT & HF)|HF].
  - pose proof HW as [HS HE]. assert (OKe : entry_ok e) by (rewrite Forall_forall in HE; apply HE; apply in_or_app; right; left; auto). destruct OKe as [Te (rs0 & I0 & N0)]. assert (HASe : has (a ++ e :: p) (rr_type r) (rr_ttl e) rs0) by (apply has_mid; auto). rewrite <- HT in *. destruct (rdataset_some a e p HF) as (E1 & E2 & E3 & E4). rewrite E1 in *. split; [intros HN; exfalso; eapply HN; eauto|].
    intros ttl0 rs0' HH. destruct (c52_unique _ _ _ _ _ _ HW HH HASe) as [-> ->]. assert (Hs' : same = true -> rr_rrs e = rr_rrs r) by (intros Hx; apply Hs in Hx; congruence). destruct (c07_subtract yes same _ _ _ _ I0 HB Hs') as (ret & s1 & s2 & ES & _ & HOK & HNO). rewrite ES. cbn [rbind]. destruct (Z.eq_dec ret KNOT_EOK) as [->|Hn]. 2:{ apply HNO in Hn. destruct Hn as [_ [k Hk]]. discriminate. }
    destruct (HOK eq_refl) as (rs' & I' & HI). cbv zeta. change (KNOT_EOK =? KNOT_EOK) with true. cbn [negb]. rewrite E3, (is_count _ _ I').
    assert (OT : forall t ttl rs, has (a ++ p) t ttl rs -> t <> rr_type e) by (intros t ttl rs (x & I & <- & _); eapply sorted_others; eauto). destruct (zlen rs' =? 0) eqn:EZ.
    + assert (rs' = []) as -> by (destruct rs'; auto; rewrite zlen_cons in EZ; pose proof (zlen_nonneg rs'); lia). set (e' := mkrr (rr_type e) (rr_ttl e) s1). change (rr_type e) with (rr_type e') at 1. destruct (rdataset_some a e' p HF) as (_ & _ & _ & ->). exists (a ++ p). split; auto. split; [eapply wf_del; eauto|]. exists []. split; auto. intros t ttl rs. rewrite has_mid. split; [intros H; left; split; [eauto|auto]|]. intros [[H1 [H2|H2]]|(_ & _ & -> & H)]; [lia|auto|congruence].
    + assert (rs' <> []) as N' by (intros ->; rewrite zlen_nil in EZ; lia). eexists. split; [reflexivity|]. split; [apply (wf_mid _ e); auto; split; [exact Te|exists rs'; split; auto]|]. exists rs'. split; auto. intros t ttl rs. rewrite !has_mid. cbn [rr_type rr_ttl rr_rrs]. split.
      * intros [(H1 & H2 & H3)|H]; [right; split; [lia|]; split; [auto|]; rewrite (is_fun _ _ _ H3 I'); auto|left; split; [eauto|auto]].
      * intros [[H1 [H2|H2]]|(H1 & H2 & -> & H3)]; [lia|auto|left; auto].
  - destruct (rdataset_none n _ HF) as [-> _]. split; auto. intros ttl0 rs0 (x & I & Hx & _). exfalso. rewrite Forall_forall in HF. eapply HF; eauto.
Qed.
(** Dropping a whole type. *)
Theorem c52_remove_type : forall n ty, node_wf n -> node_wf (node_remove_rdataset n ty) /\ forall t ttl rs, has (node_remove_rdataset n ty) t ttl rs <-> t <> ty /\ has n t ttl rs.
Proof.
  intros n ty HW. destruct (split_at n ty) as [(a & e & p & -> & HT & HF)|HF].
  - subst ty. destruct (rdataset_some a e p HF) as (_ & _ & _ & ->). split; [eapply wf_del; eauto|]. intros t ttl rs. rewrite has_mid. split; [intros H; split; [destruct H as (x & I & <- & _); eapply sorted_others; [apply HW|auto]|auto]|]. intros [H1 [H2|H2]]; [lia|auto].
  - assert (E : node_remove_rdataset n ty = n). { clear HW. induction n as [|e n IH]; auto. cbn [node_remove_rdataset]. pose proof (Forall_inv HF). cbv beta in *. replace (rr_type e =? ty) with false by lia. rewrite IH; auto. eapply Forall_inv_tail; eauto. }
    rewrite E. split; auto. intros t ttl rs. split; [|tauto]. intros H. split; auto. destruct H as (x & I & <- & _). rewrite Forall_forall in HF. apply HF; auto.
Qed.

(** ** Any history *)
Inductive nop := NAdd (r : rr_data) | NRemove (r : rr_data) | NDrop (t : Z).
Definition nstep (n : list rr_data) (o : nop) : res (list rr_data) :=
  match o with
  | NAdd r => let* (ret, n') := node_add_rrset yes true n r in if (ret =? KNOT_EOK) || (ret =? KNOT_ETTL) then Ok n' else Err ret
  | NRemove r => let* (ret, n') := node_remove_rrset yes false n r in Ok n'
  | NDrop t => Ok (node_remove_rdataset n t)
  end.
Fixpoint nrun (n : list rr_data) (os : list nop) : res (list rr_data) :=
  match os with [] => Ok n | o :: os => let* n := nstep n o in nrun n os end.
(** the abstract effect on the set of (type, record) pairs *)
Definition nspec (o : nop) (old : Z -> list Z -> Prop) : Z -> list Z -> Prop := fun t x =>
  match o with
  | NAdd r => old t x \/ (t = rr_type r /\ exists b, is (rr_rrs r) b /\ In x b)
  | NRemove r => old t x /\ ~ (t = rr_type r /\ exists b, is (rr_rrs r) b /\ In x b)
  | NDrop ty => old t x /\ t <> ty
  end.
Definition nspecs (os : list nop) (old : Z -> list Z -> Prop) : Z -> list Z -> Prop := fold_left (fun s o => nspec o s) os old.
Definition records (n : list rr_data) : Z -> list Z -> Prop := fun t x => exists ttl rs, has n t ttl rs /\ In x rs.
Definition nop_ok (o : nop) : Prop := match o with NAdd r => entry_ok r | NRemove r => exists b, is (rr_rrs r) b | NDrop _ => True end.
Lemma has_dec : forall n t, node_wf n -> (exists ttl rs, has n t ttl rs) \/ (forall ttl rs, ~ has n t ttl rs).
Proof. intros n t HW. pose proof (c52_lookup n t HW) as H. destruct (node_rrset n t) as [e|]; [destruct H as (rs & _ & _ & H & _); left; eauto|right; tauto]. Qed.
Lemma nstep_ok : forall n o n', node_wf n -> nop_ok o -> nstep n o = Ok n' -> node_wf n' /\ forall t x, records n' t x <-> nspec o (records n) t x.
Proof.
  intros n o n' HW HO E. destruct o as [r|r|ty]; cbn [nstep nop_ok] in *.
  - pose proof HO as [_ (b & HB & NB)]. destruct (c52_add n r b HW HO HB) as (ret & n1 & EA & _ & HNEW & HOLD). rewrite EA in E. cbn [rbind] in E. destruct ((ret =? KNOT_EOK) || (ret =? KNOT_ETTL)) eqn:ER; [|discriminate]. injection E as <-. unfold records, nspec. destruct (has_dec n (rr_type r) HW) as [(ttl0 & rs0 & HH)|HN].
    + destruct (HOLD ttl0 rs0 HH ltac:(lia)) as (W & rs' & HI & _ & HS). split; auto. intros t x. split.
      * intros (ttl & rs & H1 & H2). apply HS in H1. destruct H1 as [[_ H1]|(-> & -> & ->)]; [left; eauto|]. apply HI in H2. destruct H2; [left; eauto|right; eauto].
      * intros [(ttl & rs & H1 & H2)|(-> & b' & H1 & H2)].
        -- destruct (Z.eq_dec t (rr_type r)) as [->|Ht]; [|exists ttl, rs; split; auto; apply HS; auto]. destruct (c52_unique _ _ _ _ _ _ HW HH H1) as [-> ->]. eexists _, rs'. split; [apply HS; right; split; [auto|split; reflexivity]|apply HI; auto].
        -- rewrite (is_fun _ _ _ H1 HB) in H2. eexists _, rs'. split; [apply HS; right; split; [auto|split; reflexivity]|apply HI; auto].
    + destruct (HNEW HN) as (_ & W & HS). split; auto. intros t x. split.
      * intros (ttl & rs & H1 & H2). apply HS in H1. destruct H1 as [[_ H1]|(-> & -> & ->)]; [left; eauto|right; eauto].
      * intros [(ttl & rs & H1 & H2)|(-> & b' & H1 & H2)].
        -- exists ttl, rs. split; auto. apply HS. left. split; auto. intros ->. eapply HN; eauto.
        -- rewrite (is_fun _ _ _ H1 HB) in H2. eexists _, b. split; [apply HS; right; split; [auto|split; reflexivity]|auto].
  - destruct HO as [b HB]. destruct (c52_remove n r b false HW HB ltac:(discriminate)) as [HNEW HOLD]. unfold records, nspec. destruct (has_dec n (rr_type r) HW) as [(ttl0 & rs0 & HH)|HN].
    + destruct (HOLD _ _ HH) as (n1 & E1 & W & rs' & HI & HS). rewrite E1 in E. cbn [rbind] in E. injection E as <-. split; auto. intros t x. split.
      * intros (ttl & rs & H1 & H2). apply HS in H1. destruct H1 as [[Ht H1]|(-> & -> & -> & _)]; [split; [eauto|tauto]|]. apply HI in H2. split; [exists ttl0, rs0; tauto|]. intros (_ & b' & H3 & H4). rewrite (is_fun _ _ _ H3 HB) in H4. tauto.
      * intros [(ttl & rs & H1 & H2) H3]. destruct (Z.eq_dec t (rr_type r)) as [->|Ht]; [|exists ttl, rs; split; auto; apply HS; auto]. destruct (c52_unique _ _ _ _ _ _ HW HH H1) as [-> ->]. assert (In x rs') by (apply HI; split; [auto|intros H4; apply H3; split; eauto]). exists ttl, rs'. split; auto. apply HS. right. split; auto. split; auto. split; auto. intros ->. contradiction.
    + rewrite (HNEW HN) in E. cbn [rbind] in E. injection E as <-. split; auto. intros t x. split; [|tauto]. intros H. split; auto. intros (-> & _). destruct H as (ttl & rs & H & _). eapply HN; eauto.
  - injection E as <-. destruct (c52_remove_type n ty HW) as [W HS]. split; auto. intros t x. unfold records, nspec. split.
    + intros (ttl & rs & H1 & H2). apply HS in H1. split; [exists ttl, rs|]; tauto.
    + intros [(ttl & rs & H1 & H2) H3]. exists ttl, rs. split; auto. apply HS. auto.
Qed.
Lemma nspecs_ext : forall os s1 s2, (forall t x, s1 t x <-> s2 t x) -> forall t x, nspecs os s1 t x <-> nspecs os s2 t x.
Proof. induction os as [|o os IH]; intros s1 s2 H t x; [apply H|]. unfold nspecs. cbn [fold_left]. apply IH. intros t' x'. unfold nspec. destruct o; rewrite H; tauto. Qed.
(** After any history of additions, removals and drops a node holds the records a map of sets would. *)
Theorem c52_history : forall os n, Forall nop_ok os -> nrun [] os = Ok n -> node_wf n /\ forall t x, records n t x <-> nspecs os (fun _ _ => False) t x.
Proof.
  intros os n HO E. assert (G : forall os n0 n, Forall nop_ok os -> node_wf n0 -> nrun n0 os = Ok n -> node_wf n /\ forall t x, records n t x <-> nspecs os (records n0) t x).
  { clear. induction os as [|o os IH]; intros n0 n HO HW E; cbn [nrun] in E; [injection E as <-; split; [auto|]; intros; reflexivity|]. destruct (nstep n0 o) as [n1| | |] eqn:E1; try discriminate. cbn [rbind] in E. destruct (nstep_ok n0 o n1 HW (Forall_inv HO) E1) as [W1 H1]. destruct (IH n1 n (Forall_inv_tail HO) W1 E) as [W H]. split; auto. intros t x. rewrite H. change (nspecs (o :: os) (records n0)) with (nspecs os (nspec o (records n0))). apply nspecs_ext. auto. }
  destruct (G os [] n HO ltac:(split; constructor) E) as [W H]. split; auto. intros t x. rewrite H. apply nspecs_ext. intros t' x'. split; [|tauto]. intros (ttl & rs & (e & [] & _) & _).
Qed.
(** Out of memory, entries get lost and others are there twice. *)
Definition ex_s (l : list (list Z)) : rdataset := mkset (zlen l) (zlen (layout l)) (layout l).
Theorem c52_nomem_refuted : exists al n r ret n', node_wf n /\ entry_ok r /\ node_add_rrset al true n r = Ok (ret, n') /\ ret = KNOT_ENOMEM /\ map rr_type n = [2; 16] /\ map rr_type n' = [2; 2] /\ ~ node_wf n'.
Proof.
  assert (I : forall x, byte x -> is (ex_s [[x]]) [[x]]). { intros x Hx. split; [split; [repeat constructor|constructor; [split; [repeat constructor; apply Hx|cbv; discriminate]|constructor]]|]. repeat split; reflexivity. }
  exists (fun _ => false), [mkrr 2 0 (ex_s [[1]]); mkrr 16 0 (ex_s [[2]])], (mkrr 1 0 (ex_s [[3]])). eexists _, _. split.
  { split; [repeat constructor|]. repeat constructor; cbn [rr_type rr_rrs]; try lia; eexists; (split; [apply I; unfold byte; lia|discriminate]). }
  split; [split; [cbn; lia|eexists; split; [apply I; unfold byte; lia|discriminate]]|]. split; [reflexivity|]. split; [reflexivity|]. split; [reflexivity|]. split; [reflexivity|]. intros [H _]. inversion H as [|? ? _ H2]; subst. apply Forall_inv in H2. unfold type_lt in H2. cbn in H2. lia.
Qed.
(** An empty RRset is stored as an empty entry. *)
Theorem c52_add_empty_refuted : exists n r n', node_wf n /\ is (rr_rrs r) [] /\ node_add_rrset yes true n r = Ok (KNOT_EOK, n') /\ has n' (rr_type r) (rr_ttl r) [].
Proof. exists [], (mkrr 1 0 rdataset_init), [mkrr 1 0 rdataset_init]. split; [split; constructor|]. split; [apply c07_init|]. split; [reflexivity|]. eexists. split; [left; reflexivity|]. split; [auto|]. split; [auto|]. apply c07_init. Qed.
Example c52_case : exists n, nrun [] [NAdd (mkrr 16 60 (ex_s [[1]; [2]])); NAdd (mkrr 1 60 (ex_s [[3]])); NRemove (mkrr 16 60 (ex_s [[1]]))] = Ok n /\ map rr_type n = [1; 16].
Proof. eexists. split; reflexivity. Qed.
Print Assumptions c52_add. Print Assumptions c52_remove. Print Assumptions c52_history.
