(** Well formed transfers are accepted. *)
From Verif Require Import Base RdatasetModel RdatasetSpec RdatasetProofs RdatasetProps NodeModel NodeProps SerialModel ZoneModel ZoneProofs ZoneView ZoneFold ZoneExamples ZoneTreeProps ChangesetProofs MergeProofs DiffModel DiffProofs ChangesetProps XfrModel XfrSpec XfrProofs XfrProofs2.

Definition osize (o : name) (v : list Z) : Z := name_size o + 10 + zlen v.
Lemma name_size_pos : forall o, 0 <= name_size o.
Proof. induction o as [|l o IH]; cbn [name_size fold_right]; [lia|]. unfold name_size in IH. pose proof (zlen_nonneg l). lia. Qed.
Lemma octets_pos : forall l n, octets l n -> 0 <= n.
Proof. induction 1 as [|o r v l n HI HO IH]; [lia|]. pose proof (name_size_pos o) as HN. unfold name_size in HN. pose proof (zlen_nonneg v). lia. Qed.
Lemma octets_app : forall l1 l2 n, octets (l1 ++ l2) n -> exists n1 n2, octets l1 n1 /\ octets l2 n2 /\ n = n1 + n2.
Proof.
  induction l1 as [|r l1 IH]; intros l2 n H; cbn [app] in H; [exists 0, n; split; [constructor|auto]|]. inversion H as [|o r' v l n' HI HO]; subst. destruct (IH _ _ HO) as (n1 & n2 & H1 & H2 & ->). eexists _, n2. split; [econstructor; eauto|]. split; auto. lia.
Qed.
Lemma sizes_spec : forall a pa, Forall rdata_ok a -> exists n, sizes_loop (length a) (enc (pa ++ a)) (zlen (enc pa)) = Ok n /\ n = fold_right (fun x s => zlen x + 10 + s) 0 a.
Proof.
  induction a as [|x a IH]; intros pa HA; cbn [length sizes_loop]; [exists 0; auto|]. inversion HA as [|? ? Hx HA']; subst.
  replace (enc (pa ++ x :: a)) with (enc pa ++ rdata_init x ++ enc a) by (rewrite enc_app; auto). rewrite rr_len_at by apply Hx. cbn [rbind]. rewrite next_at by apply Hx. cbn [rbind].
  replace (enc pa ++ rdata_init x) with (enc (pa ++ [x])) by (rewrite enc_app, enc_cons, app_nil_r; auto). replace (enc pa ++ rdata_init x ++ enc a) with (enc ((pa ++ [x]) ++ a)) by (rewrite <- app_assoc, enc_app; auto).
  destruct (IH (pa ++ [x]) HA') as (n & -> & ->). cbn [rbind]. eexists. split; [reflexivity|]. reflexivity.
Qed.
Lemma size_is : forall r b, is (rr_rrs (snd r)) b -> exists n, rrset_size r = Ok n /\ 0 <= n /\ forall v, b = [v] -> n = osize (fst r) v.
Proof.
  intros r b HI. apply is_holds in HI. unfold rrset_size. rewrite (holds_len _ _ HI). pose proof HI as (HC & -> & _ & [_ F] & _). destruct (sizes_spec b [] F) as (n & E & EN). change (zlen (enc [])) with 0 in E. cbn [app] in E. rewrite E. cbn [rbind]. eexists. split; [reflexivity|]. rewrite HC. split.
  - pose proof (name_size_pos (fst r)). pose proof (zlen_nonneg b). assert (0 <= n). { subst n. clear. induction b as [|x b IH]; cbn [fold_right]; [lia|]. pose proof (zlen_nonneg x). lia. } nia.
  - intros v ->. subst n. unfold osize. cbn [fold_right]. change (zlen [v]) with 1. lia.
Qed.
Lemma size_ok : forall r v, is (rr_rrs (snd r)) [v] -> rrset_size r = Ok (osize (fst r) v).
Proof. intros r v HI. destruct (size_is r [v] HI) as (n & E & _ & H). rewrite E, (H v eq_refl). auto. Qed.

(** ** Running forward *)
Definition goes (cf : xconf) (l : list rrset) (d : xdata) (P : xdata -> Prop) : Prop :=
  (exists d', ixfr_rrs cf l d = Ok (CONSUME, d') /\ P d') \/ (exists d', ixfr_rrs cf l d = Ok (FAIL, d') /\ limit (d_ret d')).
Lemma goes_app : forall cf l1 l2 d (P Q : xdata -> Prop), goes cf l1 d P -> (forall d', P d' -> goes cf l2 d' Q) -> goes cf (l1 ++ l2) d Q.
Proof.
  intros cf l1 l2 d P Q [(d1 & E & H)|(d1 & E & H)] HQ.
  - destruct (HQ _ H) as [(d2 & E2 & H2)|(d2 & E2 & H2)]; [left|right]; exists d2; rewrite ixfr_app, E; cbn [rbind]; auto.
  - right. exists d1. rewrite ixfr_app, E. auto.
Qed.
Lemma goes_weaken : forall cf l d (P Q : xdata -> Prop), goes cf l d P -> (forall d', P d' -> Q d') -> goes cf l d Q.
Proof. intros cf l d P Q [(d1 & E & H)|H] HQ; [left; eauto|right; auto]. Qed.
Definition step (d : xdata) (st : ixfr_state) (f : option rrset) (chs : list changeset) (b1 : bool) (n : Z) : xdata :=
  mkd (d_type d) (d_isoa d) (Some st) f chs b1 (d_size d + n) (d_axfr d) KNOT_EOK.
Lemma step_fwd : forall cf d st r v st' b' f chs, under (fst r) (c_zone cf) = true -> is (rr_rrs (snd r)) [v] -> next_state st (d_final d) (d_by_one d) r = Ok (st', b') ->
  solve (c_zone cf) st' (d_final d) (d_chs d) r = Ok (f, chs) -> (d_size d + osize (fst r) v) / 2 <= c_max cf ->
  ixfr_consume_rr cf d st r = Ok (match st' with IXFR_DONE => DONE | _ => CONSUME end, step d st' f chs b' (osize (fst r) v)).
Proof.
  intros cf d st r v st' b' f chs HU HI EN ES HS. unfold ixfr_consume_rr. rewrite HU. cbn [negb]. rewrite EN. cbn [rbind]. rewrite ES, (size_ok r v HI). cbn [rbind]. destruct ((d_size d + osize (fst r) v) / 2 >? c_max cf) eqn:E; [lia|]. reflexivity.
Qed.
Lemma step_limit : forall cf d st r st' b' e, under (fst r) (c_zone cf) = true -> next_state st (d_final d) (d_by_one d) r = Ok (st', b') ->
  solve (c_zone cf) st' (d_final d) (d_chs d) r = Err e -> exists d', ixfr_consume_rr cf d st r = Ok (FAIL, d') /\ d_ret d' = e.
Proof. intros cf d st r st' b' e HU EN ES. unfold ixfr_consume_rr. rewrite HU. cbn [negb]. rewrite EN. cbn [rbind]. rewrite ES. eexists. split; reflexivity. Qed.
Definition isd (st : option ixfr_state) : Prop := st = Some IXFR_SOA_DEL \/ st = Some IXFR_DEL.
Definition isa (st : option ixfr_state) : Prop := st = Some IXFR_SOA_ADD \/ st = Some IXFR_ADD.
Lemma next_del : forall st f b r, st = IXFR_SOA_DEL \/ st = IXFR_DEL -> next_state st f b r = Ok (if is_soa r then IXFR_SOA_ADD else IXFR_DEL, b).
Proof. intros st f b r [-> | ->]; reflexivity. Qed.
Lemma next_add_ok : forall a st s b r, proper a r -> proper a s -> st = IXFR_SOA_ADD \/ st = IXFR_ADD -> ~ same_rr r s -> (soa_rr r -> b = false) -> next_state st (Some s) b r = Ok (if is_soa r then IXFR_SOA_DEL else IXFR_ADD, b).
Proof.
  intros a st s b r PR PS HST NS HB. destruct (equal_spec a r s PR PS) as (e & EE & He). destruct e; [exfalso; apply NS, He; auto|]. unfold next_state. rewrite EE. destruct (is_soa r) eqn:ES; [apply soa_spec in ES; rewrite (HB ES)|]; destruct HST as [-> | ->]; reflexivity.
Qed.
Lemma next_end : forall a st s b r, proper a r -> proper a s -> st = IXFR_SOA_ADD \/ st = IXFR_ADD -> soa_rr r -> same_rr r s \/ b = true -> exists b', next_state st (Some s) b r = Ok (IXFR_DONE, b').
Proof.
  intros a st s b r PR PS HST SR HB. destruct (equal_spec a r s PR PS) as (e & EE & He). apply soa_spec in SR. unfold next_state. rewrite EE, SR. destruct e; [destruct HST as [-> | ->]; eexists; reflexivity|]. destruct HB as [HB| ->]; [apply He in HB; discriminate|]. destruct HST as [-> | ->]; eexists; reflexivity.
Qed.
Lemma half_le : forall x y m, 0 <= y -> (x + y) / 2 <= m -> x / 2 <= m.
Proof. intros. assert (x / 2 <= (x + y) / 2) by (apply Z.div_le_mono; lia). lia. Qed.
Lemma fwd_dels : forall cf dl d c cs n, Forall (pzone (c_zone cf)) dl -> Forall (fun r => ~ soa_rr r) dl -> octets dl n -> (d_size d + n) / 2 <= c_max cf -> isd (d_state d) -> d_chs d = c :: cs -> chside (c_zone cf) c ->
  goes cf dl d (fun d' => isd (d_state d') /\ d_final d' = d_final d /\ d_by_one d' = d_by_one d /\ d_size d' = d_size d + n /\ exists c', d_chs d' = c' :: cs /\ dels c dl = Ok c').
Proof.
  induction dl as [|r dl IH]; intros d c cs n HP HN HO HS ST HC CS; inversion HO as [|o r' v l n' HI HO']; subst.
  - left. exists d. split; [reflexivity|]. split; auto. split; auto. split; auto. split; [lia|]. exists c. auto.
  - destruct (Forall_inv HP) as [PR PU]. pose proof (Forall_inv HN) as NS. cbv beta in NS. pose proof (octets_pos _ _ HO') as P0. cbn [ixfr_rrs]. assert (X : exists st, d_state d = Some st /\ (st = IXFR_SOA_DEL \/ st = IXFR_DEL)) by (destruct ST as [ST|ST]; rewrite ST; eauto). destruct X as (st & EST & HST). 
    pose proof (next_del st (d_final d) (d_by_one d) (o, r') HST) as EN. apply soa_nspec in NS as NS'. rewrite NS' in EN. change (fold_right (fun x s => zlen x + 1 + s) 1 o) with (name_size o) in *. fold (osize o v) in *.
    destruct (removal_view (c_zone cf) c (o, r') CS PR NS) as [(c1 & E1 & CS1 & _)|(e & E1 & He)].
    + assert (EV : solve (c_zone cf) IXFR_DEL (d_final d) (d_chs d) (o, r') = Ok (d_final d, c1 :: cs)) by (unfold solve; rewrite HC, E1; reflexivity).
      assert (SZ : (d_size d + osize o v) / 2 <= c_max cf) by (apply (half_le _ n'); auto; rewrite <- Z.add_assoc; auto).
      pose proof (step_fwd cf d st (o, r') v IXFR_DEL (d_by_one d) (d_final d) (c1 :: cs) PU HI EN EV SZ) as ES. cbn [fst] in ES.
      destruct (IH (step d IXFR_DEL (d_final d) (c1 :: cs) (d_by_one d) (osize o v)) c1 cs n' (Forall_inv_tail HP) (Forall_inv_tail HN) HO') as [(d2 & E2 & H2)|(d2 & E2 & H2)]; auto; [cbn [d_size step]; rewrite <- Z.add_assoc; auto|right; reflexivity| |].
      * left. exists d2. cbn [ixfr_rrs]. rewrite EST, ES. cbn [rbind]. split; auto. destruct H2 as (Q1 & Q2 & Q3 & Q4 & c' & Q5 & Q6). split; auto. split; auto. split; auto. split; [rewrite Q4; cbn [d_size step]; lia|]. exists c'. split; auto. unfold dels. cbn [fold_res]. rewrite E1. exact Q6.
      * right. exists d2. cbn [ixfr_rrs]. rewrite EST, ES. cbn [rbind]. auto.
    + assert (EV : solve (c_zone cf) IXFR_DEL (d_final d) (d_chs d) (o, r') = Err e) by (unfold solve; rewrite HC, E1; reflexivity).
      destruct (step_limit cf d st (o, r') _ _ _ PU EN EV) as (d' & E' & Hr). right. exists d'. cbn [ixfr_rrs]. rewrite EST, E'. cbn [rbind]. rewrite Hr. auto.
Qed.
Lemma fwd_adds : forall cf dl d c cs n s, proper (c_zone cf) s -> soa_rr s -> d_final d = Some s -> Forall (pzone (c_zone cf)) dl -> Forall (fun r => ~ soa_rr r) dl -> octets dl n -> (d_size d + n) / 2 <= c_max cf -> isa (d_state d) -> d_chs d = c :: cs -> chside (c_zone cf) c ->
  goes cf dl d (fun d' => isa (d_state d') /\ d_final d' = d_final d /\ d_by_one d' = d_by_one d /\ d_size d' = d_size d + n /\ exists c', d_chs d' = c' :: cs /\ adds c dl = Ok c').
Proof.
  induction dl as [|r dl IH]; intros d c cs n s PS SS HF HP HN HO HS ST HC CS; inversion HO as [|o r' v l n' HI HO']; subst.
  - left. exists d. split; [reflexivity|]. split; auto. split; auto. split; auto. split; [lia|]. exists c. auto.
  - destruct (Forall_inv HP) as [PR PU]. pose proof (Forall_inv HN) as NS. cbv beta in NS. pose proof (octets_pos _ _ HO') as P0. cbn [ixfr_rrs]. assert (X : exists st, d_state d = Some st /\ (st = IXFR_SOA_ADD \/ st = IXFR_ADD)) by (destruct ST as [ST|ST]; rewrite ST; eauto). destruct X as (st & EST & HST).
    assert (EN : next_state st (d_final d) (d_by_one d) (o, r') = Ok (if is_soa (o, r') then IXFR_SOA_DEL else IXFR_ADD, d_by_one d)). { rewrite HF. apply (next_add_ok (c_zone cf)); auto; [|intros X; contradiction]. intros (_ & X & _). apply NS. unfold soa_rr in *. congruence. }
    apply soa_nspec in NS as NS'. rewrite NS' in EN. change (fold_right (fun x s => zlen x + 1 + s) 1 o) with (name_size o) in *. fold (osize o v) in *.
    destruct (addition_view (c_zone cf) c (o, r') CS PR NS) as [(c1 & E1 & CS1 & _)|(e & E1 & He)].
    + assert (EV : solve (c_zone cf) IXFR_ADD (d_final d) (d_chs d) (o, r') = Ok (d_final d, c1 :: cs)) by (unfold solve; rewrite HC, E1; reflexivity).
      assert (SZ : (d_size d + osize o v) / 2 <= c_max cf) by (apply (half_le _ n'); auto; rewrite <- Z.add_assoc; auto).
      pose proof (step_fwd cf d st (o, r') v IXFR_ADD (d_by_one d) (d_final d) (c1 :: cs) PU HI EN EV SZ) as ES. cbn [fst] in ES.
      destruct (IH (step d IXFR_ADD (d_final d) (c1 :: cs) (d_by_one d) (osize o v)) c1 cs n' s PS SS HF (Forall_inv_tail HP) (Forall_inv_tail HN) HO') as [(d2 & E2 & H2)|(d2 & E2 & H2)]; auto; [cbn [d_size step]; rewrite <- Z.add_assoc; auto|right; reflexivity| |].
      * left. exists d2. cbn [ixfr_rrs]. rewrite EST, ES. cbn [rbind]. split; auto. destruct H2 as (Q1 & Q2 & Q3 & Q4 & c' & Q5 & Q6). split; auto. split; auto. split; auto. split; [rewrite Q4; cbn [d_size step]; lia|]. exists c'. split; auto. unfold adds. cbn [fold_res]. rewrite E1. exact Q6.
      * right. exists d2. cbn [ixfr_rrs]. rewrite EST, ES. cbn [rbind]. auto.
    + assert (EV : solve (c_zone cf) IXFR_ADD (d_final d) (d_chs d) (o, r') = Err e) by (unfold solve; rewrite HC, E1; reflexivity).
      destruct (step_limit cf d st (o, r') _ _ _ PU EN EV) as (d' & E' & Hr). right. exists d'. cbn [ixfr_rrs]. rewrite EST, E'. cbn [rbind]. rewrite Hr. auto.
Qed.
Lemma one_fwd : forall cf d st r v st' b' f chs (P : xdata -> Prop), d_state d = Some st -> under (fst r) (c_zone cf) = true -> is (rr_rrs (snd r)) [v] -> next_state st (d_final d) (d_by_one d) r = Ok (st', b') ->
  solve (c_zone cf) st' (d_final d) (d_chs d) r = Ok (f, chs) -> (d_size d + osize (fst r) v) / 2 <= c_max cf -> st' <> IXFR_DONE -> P (step d st' f chs b' (osize (fst r) v)) -> goes cf [r] d P.
Proof.
  intros cf d st r v st' b' f chs P EST HU HI EN ES SZ ND HP. left. eexists. split; [|exact HP]. cbn [ixfr_rrs]. rewrite EST. rewrite (step_fwd cf d st r v st' b' f chs HU HI EN ES SZ). cbn [rbind]. destruct st'; try reflexivity. contradiction.
Qed.
Lemma octets_one : forall r n, octets [r] n -> exists v, is (rr_rrs (snd r)) [v] /\ n = osize (fst r) v.
Proof. intros r n H. inversion H as [|o r' v l n' HI HO]; subst. inversion HO; subst. exists v. split; auto. unfold osize, name_size. cbn [fst]. lia. Qed.
Definition entry (d : xdata) (s : rrset) (x : diff) : Prop := d_final d = Some s /\ (d_state d = Some IXFR_START \/ (isa (d_state d) /\ d_by_one d = false /\ ~ same_rr (df_from x) s)).
Lemma fwd_diff : forall cf x d s n, proper (c_zone cf) s -> soa_rr s -> diff_ok x -> Forall (pzone (c_zone cf)) (drecords x) -> octets (drecords x) n -> (d_size d + n) / 2 <= c_max cf -> entry d s x ->
  goes cf (drecords x) d (fun d' => isa (d_state d') /\ d_final d' = Some s /\ d_by_one d' = d_by_one d /\ d_size d' = d_size d + n /\ exists c, d_chs d' = c :: d_chs d /\ made1 (c_zone cf) x c).
Proof.
  intros cf x d s n PS SS (S1 & S2 & N1 & N2) HP HO SZ (HF & EN). unfold drecords in *.
  change (df_from x :: df_del x ++ df_to x :: df_add x) with ([df_from x] ++ df_del x ++ [df_to x] ++ df_add x) in *.
  apply Forall_app in HP. destruct HP as [HP1 HP]. apply Forall_app in HP. destruct HP as [HP2 HP]. apply Forall_app in HP. destruct HP as [HP3 HP4].
  destruct (octets_app _ _ _ HO) as (n1 & m1 & O1 & HO1 & ->). destruct (octets_app _ _ _ HO1) as (n2 & m2 & O2 & HO2 & ->). destruct (octets_app _ _ _ HO2) as (n3 & n4 & O3 & O4 & ->).
  pose proof (octets_pos _ _ O1). pose proof (octets_pos _ _ O2). pose proof (octets_pos _ _ O3). pose proof (octets_pos _ _ O4).
  destruct (octets_one _ _ O1) as (v1 & I1 & E1). destruct (octets_one _ _ O3) as (v3 & I3 & E3). destruct (Forall_inv HP1) as [PF UF]. destruct (Forall_inv HP3) as [PT UT]. apply soa_spec in S1 as S1'. apply soa_spec in S2 as S2'.
  apply goes_app with (P := fun d' => isd (d_state d') /\ d_final d' = Some s /\ d_by_one d' = d_by_one d /\ d_size d' = d_size d + n1 /\ d_chs d' = cfrom (c_zone cf) (df_from x) :: d_chs d).
  { assert (X : exists st, d_state d = Some st /\ next_state st (d_final d) (d_by_one d) (df_from x) = Ok (IXFR_SOA_DEL, d_by_one d)).
    { rewrite HF. destruct EN as [ES|(HA & HB & NS)]; [exists IXFR_START; split; auto|]. assert (X : exists st, d_state d = Some st /\ (st = IXFR_SOA_ADD \/ st = IXFR_ADD)) by (destruct HA as [HA|HA]; rewrite HA; eauto). destruct X as (st & EST & HST). exists st. split; auto. rewrite (next_add_ok (c_zone cf) st s (d_by_one d) (df_from x) PF PS HST NS (fun _ => HB)), S1'. auto. }
    destruct X as (st & EST & ENX). eapply one_fwd; [exact EST|exact UF|exact I1|exact ENX|unfold solve; rewrite S1'; reflexivity|apply (half_le _ (n2 + (n3 + n4))); [lia|]; rewrite <- E1, <- Z.add_assoc; auto|discriminate|].
    split; [left; reflexivity|]. split; [exact HF|]. split; [reflexivity|]. split; [cbn [step d_size]; lia|reflexivity]. }
  intros d1 (Q1 & Q2 & Q3 & Q4 & Q5). eapply goes_app; [apply (fwd_dels cf (df_del x) d1 (cfrom (c_zone cf) (df_from x)) (d_chs d) n2 HP2 N1 O2); auto; [rewrite Q4; apply (half_le _ (n3 + n4)); [lia|]; replace (d_size d + n1 + n2 + (n3 + n4)) with (d_size d + (n1 + (n2 + (n3 + n4)))) by lia; auto|apply cfrom_side]|]. cbv beta.
  intros d2 (R1 & R2 & R3 & R4 & c1 & R5 & R6). assert (CS : chside (c_zone cf) c1) by (apply (dels_view _ _ _ _ (cfrom_side (c_zone cf) _)) in R6; [apply R6|rewrite Forall_forall in *; intros r Hr; apply (HP2 r Hr)|auto]).
  apply goes_app with (P := fun d' => isa (d_state d') /\ d_final d' = Some s /\ d_by_one d' = d_by_one d /\ d_size d' = d_size d + (n1 + n2 + n3) /\ d_chs d' = cto c1 (df_to x) :: d_chs d).
  { assert (X : exists st, d_state d2 = Some st /\ (st = IXFR_SOA_DEL \/ st = IXFR_DEL)) by (destruct R1 as [HA|HA]; rewrite HA; eauto). destruct X as (st & EST & HST). pose proof (next_del st (d_final d2) (d_by_one d2) (df_to x) HST) as ENX. rewrite S2' in ENX.
    eapply one_fwd; [exact EST|exact UT|exact I3|exact ENX|unfold solve; rewrite R5, S2'; reflexivity|rewrite R4, Q4, <- E3; apply (half_le _ n4); [lia|]; replace (d_size d + n1 + n2 + n3 + n4) with (d_size d + (n1 + (n2 + (n3 + n4)))) by lia; auto|discriminate|].
    split; [left; reflexivity|]. cbn [step d_final d_by_one d_size d_chs]. split; [congruence|]. split; [congruence|]. split; [lia|reflexivity]. }
  intros d3 (T1 & T2 & T3 & T4 & T5). eapply goes_weaken; [apply (fwd_adds cf (df_add x) d3 (cto c1 (df_to x)) (d_chs d) n4 s PS SS T2 HP4 N2 O4); auto; rewrite T4; replace (d_size d + (n1 + n2 + n3) + n4) with (d_size d + (n1 + (n2 + (n3 + n4)))) by lia; auto|]. cbv beta.
  intros d4 (U1 & U2 & U3 & U4 & c & U5 & U6). split; auto. split; [congruence|]. split; [congruence|]. split; [lia|]. exists c. split; auto. exists c1. auto.
Qed.
Lemma fwd_diffs : forall cf ds d s n, proper (c_zone cf) s -> soa_rr s -> Forall diff_ok ds -> Forall (pzone (c_zone cf)) (flat ds) -> octets (flat ds) n -> (d_size d + n) / 2 <= c_max cf ->
  Forall (fun x => ~ same_rr (df_from x) s) (tl ds) -> (d_by_one d = true -> tl ds = []) -> match ds with [] => True | x :: _ => entry d s x end ->
  goes cf (flat ds) d (fun d' => (ds = [] /\ d' = d) \/ (ds <> [] /\ isa (d_state d') /\ d_final d' = Some s /\ d_by_one d' = d_by_one d /\ d_size d' = d_size d + n /\ exists cs, d_chs d' = rev cs ++ d_chs d /\ made (c_zone cf) ds cs)).
Proof.
  induction ds as [|x ds IH]; intros d s n PS SS DO HP HO SZ NF HB EN.
  - left. exists d. split; auto.
  - unfold flat in *. cbn [map concat tl] in *. apply Forall_app in HP. destruct HP as [HP1 HP2]. destruct (octets_app _ _ _ HO) as (n1 & n2 & O1 & O2 & ->). pose proof (octets_pos _ _ O2). eapply goes_app; [apply (fwd_diff cf x d s n1 PS SS (Forall_inv DO) HP1 O1); auto; apply (half_le _ n2); [auto|]; rewrite <- Z.add_assoc; auto|]. cbv beta.
    intros d1 (Q1 & Q2 & Q3 & Q4 & c & Q5 & Q6). eapply goes_weaken; [apply (IH d1 s n2 PS SS (Forall_inv_tail DO) HP2 O2); auto|].
    + rewrite Q4, <- Z.add_assoc. auto.
    + destruct ds; [constructor|]. eapply Forall_inv_tail; eauto.
    + rewrite Q3. intros X. rewrite (HB X). auto.
    + destruct ds as [|y ds]; auto. split; auto. right. split; auto. split; [destruct (d_by_one d) eqn:E; [specialize (HB eq_refl); discriminate|congruence]|apply (Forall_inv NF)].
    + cbv beta. intros d2 H2. right. split; [discriminate|]. destruct H2 as [[-> ->]|(_ & R1 & R2 & R3 & R4 & cs & R5 & R6)].
      * split; auto. split; auto. split; auto. assert (n2 = 0) by (inversion O2; auto). split; [lia|]. exists [c]. split; [rewrite Q5; reflexivity|]. constructor; [auto|constructor].
      * split; auto. split; auto. split; [congruence|]. split; [lia|]. exists (c :: cs). split; [cbn [rev]; rewrite R5, Q5, <- app_assoc; reflexivity|constructor; auto].
Qed.
Lemma fwd_all : forall cf b1 d l ds n, ixfr_form b1 l ds -> Forall (pzone (c_zone cf)) l -> octets l n -> (d_size d + n) / 2 <= c_max cf ->
  d_state d = Some IXFR_START -> d_final d = None -> d_chs d = [] -> d_by_one d = b1 ->
  (exists d', ixfr_rrs cf l d = Ok (DONE, d') /\ made (c_zone cf) ds (rev (d_chs d')) /\ d_type d' = d_type d) \/ (exists d', ixfr_rrs cf l d = Ok (FAIL, d') /\ limit (d_ret d') /\ d_type d' = d_type d).
Proof.
  intros cf b1 d l ds n (s & last & rest & EL & SS & SL & NE & DO & HB & NF) HP HO SZ ST FN CH BY.
  assert (EL' : l = [s] ++ flat ds ++ [last] ++ rest) by (rewrite EL; reflexivity). clear EL. subst l.
  apply Forall_app in HP. destruct HP as [HP1 HP]. apply Forall_app in HP. destruct HP as [HP2 HP]. apply Forall_app in HP. destruct HP as [HP3 _]. destruct (octets_app _ _ _ HO) as (n1 & m1 & O1 & HO1 & ->). destruct (octets_app _ _ _ HO1) as (n2 & m2 & O2 & HO2 & ->). destruct (octets_app _ _ _ HO2) as (n3 & n4 & O3 & O4 & ->).
  pose proof (octets_pos _ _ O4) as P4. assert (SZ' : (d_size d + (n1 + (n2 + n3))) / 2 <= c_max cf) by (apply (half_le _ n4); auto; replace (d_size d + (n1 + (n2 + n3)) + n4) with (d_size d + (n1 + (n2 + (n3 + n4)))) by lia; auto). clear SZ. rename SZ' into SZ.
  pose proof (octets_pos _ _ O1). pose proof (octets_pos _ _ O2). pose proof (octets_pos _ _ O3). destruct (octets_one _ _ O1) as (v1 & I1 & E1). destruct (octets_one _ _ O3) as (v3 & I3 & E3). destruct (Forall_inv HP1) as [PF UF]. destruct (Forall_inv HP3) as [PT UT]. apply soa_spec in SS as S1'. apply soa_spec in SL as S2'.
  assert (G : goes cf ([s] ++ flat ds) d (fun d' => isa (d_state d') /\ d_final d' = Some s /\ d_by_one d' = b1 /\ d_size d' = d_size d + (n1 + n2) /\ made (c_zone cf) ds (rev (d_chs d')))).
  { eapply goes_app; [apply (one_fwd cf d IXFR_START s v1 IXFR_START (d_by_one d) (Some s) [] (fun d' => d' = step d IXFR_START (Some s) [] (d_by_one d) n1)); auto; [rewrite FN; reflexivity|unfold solve; rewrite FN, S1'; auto|apply (half_le _ (n2 + n3)); [lia|]; rewrite <- E1, <- Z.add_assoc; auto|discriminate|rewrite E1; auto]|]. cbv beta.
    intros d1 ->. eapply goes_weaken; [apply (fwd_diffs cf ds _ s n2 PF SS DO HP2 O2)|].
    - cbn [step d_size]. apply (half_le _ n3); [lia|]. replace (d_size d + n1 + n2 + n3) with (d_size d + (n1 + (n2 + n3))) by lia. auto.
    - auto.
    - cbn [step d_by_one]. rewrite BY. intros ->. auto.
    - destruct ds as [|x ds]; auto. split; [reflexivity|left; reflexivity].
    - cbv beta. intros d2 [[X _]|(_ & R1 & R2 & R3 & R4 & cs & R5 & R6)]; [contradiction|]. split; auto. split; auto. split; [rewrite R3; exact BY|]. split; [rewrite R4; cbn [step d_size]; lia|]. rewrite R5. cbn [step d_chs]. rewrite app_nil_r, rev_involutive. auto. }
  replace ([s] ++ flat ds ++ [last] ++ rest) with (([s] ++ flat ds) ++ last :: rest) by (rewrite <- !app_assoc; reflexivity). rewrite ixfr_app.
  destruct G as [(d1 & EG & Q1 & Q2 & Q3 & Q4 & Q5)|(d1 & EG & Q)]; rewrite EG; cbn [rbind].
  - assert (X : exists st, d_state d1 = Some st /\ (st = IXFR_SOA_ADD \/ st = IXFR_ADD)) by (destruct Q1 as [HA|HA]; rewrite HA; eauto). destruct X as (st & EST & HST). assert (EN : exists b', next_state st (d_final d1) (d_by_one d1) last = Ok (IXFR_DONE, b')) by (rewrite Q2, Q3; apply (next_end (c_zone cf)); auto; destruct b1; auto). destruct EN as (b' & EN).
    left. cbn [ixfr_rrs]. rewrite EST. rewrite (step_fwd cf d1 st last v3 IXFR_DONE b' (d_final d1) (d_chs d1)); auto; [|rewrite Q4, <- E3; replace (d_size d + (n1 + n2) + n3) with (d_size d + (n1 + (n2 + n3))) by lia; auto]. cbn [rbind]. eexists. split; [reflexivity|]. split; [exact Q5|]. destruct (rrs_state _ _ _ _ _ EG) as (_ & _ & X); [congruence|]. exact X.
  - right. exists d1. split; auto. split; auto. destruct (rrs_state _ _ _ _ _ EG) as (_ & _ & X); [congruence|]. exact X.
Qed.
