(** Proofs about prerequisites of dynamic updates. *)
From Verif Require Import Base RdatasetModel RdatasetSpec RdatasetProofs RdatasetProps NodeModel NodeProps ZoneModel ZoneProofs ZoneView ZoneFold ChangesetProofs UpdateModel SerialModel DiffModel DdnsModel.

(** ** The node found for a name *)
Definition found (z : contents) (o : name) : list rr_data := node_rrs (node_or_nsec3 z o).
Definition one_tree (z : contents) (o : name) : Prop := ZoneModel.zget z false o = None \/ ZoneModel.zget z true o = None.
Lemma found_tree : forall z o, exists k, found z o = rrs_at z k o /\ (k = true -> ZoneModel.zget z false o = None) /\ (forall n k', node_or_nsec3 z o = Some (k', n) -> k' = k).
Proof.
  intros z o. unfold found, node_or_nsec3, rrs_at. destruct (ZoneModel.zget z false o) as [n|] eqn:E; [exists false; rewrite E; split; auto; split; [discriminate|intros ? ? [= -> ->]; auto]|].
  exists true. destruct (ZoneModel.zget z true o) as [n|]; split; auto; split; auto; [intros ? ? [= -> ->]; auto|discriminate].
Qed.
Lemma found_wf : forall z o, cwf z -> node_wf (found z o).
Proof. intros z o W. destruct (found_tree z o) as (k & -> & _). apply W. Qed.
Lemma found_crec : forall z o t x, records (found z o) t x -> exists k, crec z (k, o, t) x.
Proof. intros z o t x H. destruct (found_tree z o) as (k & E & _). rewrite E in H. exists k. exact H. Qed.
Lemma found_recs : forall z o t x, one_tree z o -> (records (found z o) t x <-> exists k, crec z (k, o, t) x).
Proof.
  intros z o t x HO. split; [apply found_crec|]. intros (k & H). unfold crec, ck, co, ct in H. cbn [fst snd] in H. unfold found, node_or_nsec3. unfold rrs_at in H. destruct HO as [E|E]; destruct k; rewrite E in *; cbn [node_rrs]; try (exfalso; eapply recs_nil; eauto; fail).
  - destruct (ZoneModel.zget z true o) as [n|]; [exact H|exfalso; eapply recs_nil; eauto].
  - destruct (ZoneModel.zget z false o) as [n|]; [exact H|exfalso; eapply recs_nil; eauto].
Qed.
(** the normal tree is seen first *)
Lemma found_normal : forall z o t x, crec z (false, o, t) x -> records (found z o) t x.
Proof.
  intros z o t x H. unfold crec, ck, co, ct in H. cbn [fst snd] in H. unfold found, node_or_nsec3. unfold rrs_at in H. destruct (ZoneModel.zget z false o) as [n|]; [exact H|exfalso; eapply recs_nil; eauto].
Qed.
Lemma lookup_recs : forall n t, node_wf n -> match node_rrset n t with Some e => exists b, is (rr_rrs e) b /\ rr_type e = t /\ b <> [] /\ 1 <= t <= 65535 /\ node_rdataset n t = Some (rr_rrs e) /\ forall x, records n t x <-> In x b | None => node_rdataset n t = None /\ forall x, ~ records n t x end.
Proof.
  intros n t W. pose proof (c52_lookup n t W) as H. destruct (node_rrset n t) as [e|].
  - destruct H as (b & I & T & HH & E). destruct (c52_nonempty _ _ _ _ W HH). exists b. split; auto. split; auto. split; auto. split; auto. split; auto. intros x. split; [intros (v & rs & H1 & H2); destruct (c52_unique _ _ _ _ _ _ W H1 HH) as [_ ->]; auto|intros; exists (rr_ttl e), b; auto].
  - destruct H as [H E]. split; auto. intros x (v & rs & H1 & _). eapply H; eauto.
Qed.
Lemma exists_recs : forall n t, node_wf (node_rrs n) -> (type_exists n t = true <-> exists x, records (node_rrs n) t x).
Proof.
  intros n t W. unfold type_exists. pose proof (lookup_recs _ t W) as H. destruct (node_rrset (node_rrs n) t) as [e|].
  - destruct H as (b & I & T & NB & _ & -> & HR). split; auto. intros _. destruct b as [|x b]; [contradiction|]. exists x. apply HR. left. auto.
  - destruct H as [-> H]. split; [discriminate|]. intros [x Hx]. exfalso. eapply H; eauto.
Qed.
Lemma zlen0 : forall A (l : list A), (zlen l =? 0) = true <-> l = [].
Proof. intros A [|x l]; [split; auto|]. rewrite zlen_cons. pose proof (zlen_nonneg l). split; [lia|discriminate]. Qed.
Lemma nonempty_recs : forall n, node_wf n -> ((zlen n =? 0) = false <-> exists t x, records n t x).
Proof.
  intros n W. pose proof (recs_nonempty n W) as H. pose proof (zlen0 _ n) as Z. destruct (zlen n =? 0).
  - rewrite (proj1 Z eq_refl). split; [discriminate|]. intros (t & x & X). exfalso. eapply recs_nil; eauto.
  - split; auto. intros _. destruct W as [WS WF]. destruct n as [|e n]; [discriminate (proj2 Z eq_refl)|]. destruct (Forall_inv WF) as (HT & b & HI & NB). destruct b as [|x b]; [contradiction|]. exists (rr_type e), x, (rr_ttl e), (x :: b). split; [|left; auto]. exists e. split; [left; auto|auto].
Qed.

(** ** The list of RRsets to be compared *)
Definition key (s : rrset) : name * Z := (fst s, rr_type (snd s)).
Definition linv (n : Z) (l : list rrset) : Prop := NoDup (map key l) /\ Forall (fun s => exists b, is (rr_rrs (snd s)) b /\ b <> [] /\ zlen b <= n) l.
Definition listed (l : list rrset) (o : name) (t : Z) (x : list Z) : Prop := exists r b, In (o, r) l /\ rr_type r = t /\ is (rr_rrs r) b /\ In x b.
Lemma size_bound : forall s b, is s b -> size s <= 65538 * zlen b.
Proof.
  intros s b H. apply is_holds in H. destruct H as (_ & _ & -> & [_ F] & _). clear s. induction b as [|x b IH]; [cbn; lia|]. change (enc (x :: b)) with (rdata_init x ++ enc b). rewrite zlen_app, zlen_cons, zlen_init. pose proof (Forall_inv F) as [_ HX]. pose proof (zlen_nonneg x). pose proof (rdata_size_max (zlen x)). specialize (IH (Forall_inv_tail F)). lia.
Qed.
Lemma merge_one : forall s b s2 x, is s b -> is s2 [x] -> zlen b < 60000 -> exists s' b', rdataset_merge yes s s2 = Ok (KNOT_EOK, s') /\ is s' b' /\ (forall y, In y b' <-> y = x \/ In y b) /\ zlen b' <= zlen b + 1.
Proof.
  intros s b s2 x H H2 HB. pose proof (c07_at s2 [x] 0 H2 ltac:(lia)) as HA. pose proof (is_count _ _ H2) as HC. change (zlen [x]) with 1 in HC. unfold rdataset_at in HA. rewrite HC in HA. change ((1 =? 0) || (0 >=? 1)) with false in HA. cbv iota in HA. unfold rr_seek in HA. rewrite HC in HA. change (negb (0 <? 1) || negb (0 <? 1)) with false in HA. cbv iota in HA. change (Z.to_nat 0) with O in HA. cbn [rr_seek_loop rbind] in HA. change (Base.zget [x] 0) with (Some x) in HA.
  assert (HX : rdata_ok x) by (destruct H2 as ([_ F] & _); exact (Forall_inv F)).
  unfold rdataset_merge. rewrite HC. change (Z.to_nat 1) with 1%nat. cbn [merge_loop]. rewrite HA. cbn [rbind]. assert (NX : exists off, rdataset_next (raw s2) 0 = Ok off). { unfold rr_get in HA. unfold rdataset_next. destruct (rr_len (raw s2) 0); cbn [rbind] in *; try discriminate. eauto. }
  destruct NX as [off NX]. pose proof (is_count _ _ H) as HCS. pose proof (size_bound _ _ H) as HSZ. destruct (c07_add yes s b x H HX) as [(s' & b' & E & I' & HI & HS)|[(_ & HL & _)|(_ & [n Hn] & _)]]; [|exfalso; lia|discriminate].
  rewrite E, NX. cbn [rbind]. exists s', b'. split; auto. split; auto. split; auto.
  assert (ND : NoDup b'). { destruct I' as ([SS _] & _). clear -SS. induction SS as [|a l SS IH F]; constructor; auto. intros HI. rewrite Forall_forall in F. specialize (F a HI). unfold rd_lt in F. clear -F. induction a; cbn in F; [discriminate|]. rewrite Z.compare_refl in F. auto. }
  assert (LE : (length b' <= length (x :: b))%nat) by (apply NoDup_incl_length; auto; intros y Hy; apply HI in Hy; destruct Hy; [left; auto|right; auto]). unfold zlen. cbn [length] in LE. lia.
Qed.
Lemma linv_mono : forall n m l, n <= m -> linv n l -> linv m l.
Proof. intros n m l H [H1 H2]. split; auto. eapply Forall_impl; [|exact H2]. intros s (b & H3 & H4 & H5). exists b. split; auto. split; auto. lia. Qed.
Lemma add_list : forall l o r x n, linv n l -> 0 <= n < 60000 -> is (rr_rrs r) [x] -> exists l', add_rr_to_list l o r = Ok (KNOT_EOK, l') /\ linv (n + 1) l' /\ (forall k, In k (map key l') <-> In k (map key l) \/ k = (o, rr_type r)) /\
  forall o' t y, listed l' o' t y <-> listed l o' t y \/ (o' = o /\ t = rr_type r /\ y = x).
Proof.
  induction l as [|[o1 r1] l IH]; intros o r x n [ND FA] HN HR; cbn [add_rr_to_list].
  - exists [(o, r)]. split; auto. split; [|split].
    + split; [constructor; [intros []|constructor]|]. constructor; auto. exists [x]. split; auto. split; [discriminate|]. change (zlen [x]) with 1. lia.
    + intros k. cbn [map In]. change (key (o, r)) with (o, rr_type r). split; [intros [H|[]]; auto|intros [[]|H]; auto].
    + intros o' t y. split; [|intros [(? & ? & [] & _)|(-> & -> & ->)]; exists r, [x]; split; [left; auto|]; split; auto; split; auto; left; auto]. intros (r' & b & [[= <- <-]|[]] & HT & HI & HX). rewrite (is_fun _ _ _ HI HR) in HX. destruct HX as [->|[]]. auto.
  - cbn [map] in ND. inversion ND as [|? ? N1 N2]; subst. destruct (Forall_inv FA) as (b & HB & NB & LB). cbn [snd] in HB. pose proof (Forall_inv_tail FA) as FT. destruct ((rr_type r1 =? rr_type r) && name_eqb o1 o) eqn:EQ.
    + apply andb_true_iff in EQ. destruct EQ as [EQ1 EQ2]. apply neqb_spec in EQ2. subst o1. apply Z.eqb_eq in EQ1. destruct (merge_one _ _ _ _ HB HR ltac:(lia)) as (s' & b' & E & I' & HI & HL). rewrite E. cbn [rbind]. eexists. split; [reflexivity|]. split; [|split].
      * split; [exact ND|]. constructor; [|eapply Forall_impl; [|exact FT]; intros s (b2 & H3 & H4 & H5); exists b2; split; auto; split; auto; lia]. exists b'. cbn [snd rr_rrs]. split; auto. split; [intros ->; apply (proj2 (HI x)); auto|lia].
      * intros k. cbn [map In]. unfold key at 1 3. cbn [fst snd rr_type]. rewrite <- EQ1. split; [intros [H|H]; auto|intros [[H|H]|H]; auto].
      * intros o' t y. split.
        -- intros (r' & b2 & [[= <- <-]|HIn] & HT & H2 & HX); [|left; exists r', b2; split; [right; auto|auto]]. cbn [rr_type rr_rrs] in *. rewrite (is_fun _ _ _ H2 I') in HX. apply HI in HX. destruct HX as [->|HX]; [right; split; auto; split; congruence|left]. exists r1, b. split; [left; auto|auto].
        -- intros [(r' & b2 & [[= <- <-]|HIn] & HT & H2 & HX)|(-> & -> & ->)].
           ++ eexists _, b'. split; [left; reflexivity|]. cbn [rr_type rr_rrs]. split; auto. split; auto. apply HI. rewrite (is_fun _ _ _ H2 HB) in HX. auto.
           ++ exists r', b2. split; [right; auto|auto].
           ++ eexists _, b'. split; [left; reflexivity|]. cbn [rr_type rr_rrs]. split; auto. split; auto. apply HI. auto.
    + destruct (IH o r x n (conj N2 FT) HN HR) as (l' & E & [ND' FA'] & HK & HL). rewrite E. cbn [rbind]. eexists. split; [reflexivity|]. split; [|split].
      * split; [|constructor; auto; exists b; split; auto; split; auto; lia]. cbn [map]. constructor; auto. intros HI. apply HK in HI. destruct HI as [HI|HI]; auto. unfold key in HI. cbn [fst snd] in HI. injection HI as H1 H2. rewrite H1, H2, Z.eqb_refl, neqb_refl in EQ. discriminate.
      * intros k. cbn [map In]. rewrite HK. tauto.
      * intros o' t y. split.
        -- intros (r' & b2 & [[= <- <-]|HIn] & HT & H2 & HX); [left; exists r1, b2; split; [left; auto|auto]|]. destruct (proj1 (HL o' t y)) as [(r3 & b3 & H3)|H3]; [exists r', b2; auto|left|right; auto]. exists r3, b3. destruct H3. split; [right; auto|auto].
        -- intros [(r' & b2 & [[= <- <-]|HIn] & HT & H2 & HX)|H3]; [exists r1, b2; split; [left; auto|auto]| |]; [destruct (proj2 (HL o' t y)) as (r3 & b3 & H4 & H5); [left; exists r', b2; auto|]|destruct (proj2 (HL o' t y)) as (r3 & b3 & H4 & H5); [right; auto|]]; exists r3, b3; split; auto; right; auto.
Qed.
Lemma listed_key : forall l n o t, linv n l -> (In (o, t) (map key l) <-> exists x, listed l o t x).
Proof.
  intros l n o t [_ FA]. split.
  - intros H. apply in_map_iff in H. destruct H as ([o' r] & HK & HI). unfold key in HK. cbn [fst snd] in HK. injection HK as -> <-. rewrite Forall_forall in FA. destruct (FA _ HI) as (b & HB & NB & _). destruct b as [|x b]; [contradiction|]. exists x, r, (x :: b). split; auto. split; auto. split; auto. left; auto.
  - intros (x & r & b & HI & HT & _). apply in_map_iff. exists (o, r). unfold key. cbn [fst snd]. split; auto. congruence.
Qed.
(** an RRset of the list is as in the zone *)
Definition agrees (z : contents) (l : list rrset) (o : name) (t : Z) : Prop := forall x, records (found z o) t x <-> listed l o t x.
Lemma check_stored : forall l0 z n, cwf z -> linv n l0 -> Forall (fun s => rr_type (snd s) <> T_ANY) l0 -> forall l, (forall s, In s l -> In s l0) ->
  exists ret rc, check_stored_rrsets z l = Ok (ret, rc) /\ (ret = KNOT_EOK \/ ret = KNOT_EPREREQ) /\ (ret = KNOT_EOK <-> rc = RC_NOERROR) /\ (ret = KNOT_EPREREQ -> rc = RC_NXRRSET) /\ (ret = KNOT_EOK <-> forall o t, In (o, t) (map key l) -> agrees z l0 o t).
Proof.
  intros l0 z n W LI FT. induction l as [|[o r] l IH]; intros HS; cbn [check_stored_rrsets].
  - exists KNOT_EOK, RC_NOERROR. split; auto. split; auto. split; [split; auto|]. split; [discriminate|]. split; auto. intros _ o t [].
  - unfold check_rrset_exists at 1. rewrite Forall_forall in FT. pose proof (FT _ (HS _ (or_introl eq_refl))) as HT. cbn [snd] in HT. replace (rr_type r =? T_ANY) with false by lia. pose proof (lookup_recs _ (rr_type r) (found_wf z o W)) as HL. unfold found in HL. fold (found z o) in HL. unfold found in HL.
    destruct (proj1 (Forall_forall _ _) (proj2 LI) _ (HS _ (or_introl eq_refl))) as (b & HB & NB & _). cbn [snd] in HB.
    assert (LD : forall x, listed l0 o (rr_type r) x <-> In x b).
    { intros x. split; [|intros; exists r, b; split; [apply HS; left; auto|auto]]. intros (r' & b' & HI & HT' & HB' & HX). assert (r' = r). { destruct LI as [ND _]. specialize (HS _ (or_introl eq_refl)). clear -ND HI HS HT'. induction l0 as [|s l0 IH]; [destruct HI|]. cbn [map] in ND. inversion ND as [|? ? N1 N2]; subst. assert (K : forall r', In (o, r') l0 -> rr_type r' = rr_type r -> In (o, rr_type r) (map key l0)) by (intros r2 H1 H2; apply in_map_iff; exists (o, r2); split; auto; unfold key; cbn [fst snd]; congruence). destruct HI as [->|HI], HS as [E|HS]; auto; [congruence| |]; exfalso; apply N1; [unfold key at 1; cbn [fst snd]; rewrite HT'; eapply K; eauto|subst s; unfold key at 1; cbn [fst snd]; eapply K; eauto]. } subst r'. rewrite (is_fun _ _ _ HB' HB) in HX. auto. }
    assert (LK : forall (P : Prop), (P <-> agrees z l0 o (rr_type r)) -> (forall o' t, In (o', t) (map key ((o, r) :: l)) -> agrees z l0 o' t) <-> P /\ forall o' t, In (o', t) (map key l) -> agrees z l0 o' t).
    { intros P HP. cbn [map In]. unfold key at 1. cbn [fst snd]. split; [intros H; split; [apply HP, H; auto|intros; apply H; auto]|intros [H1 H2] o' t [[= <- <-]|H3]; [apply HP; auto|auto]]. }
    destruct (IH (fun s H => HS s (or_intror H))) as (ret & rc & E & H1 & H2 & H3 & H4).
    destruct (node_rrset (node_rrs (node_or_nsec3 z o)) (rr_type r)) as [e|].
    + destruct HL as (b' & HB' & TE & NB' & _ & _ & HR). unfold rr_empty. rewrite (is_count _ _ HB'). replace (zlen b' =? 0) with false by (destruct b'; [contradiction|]; rewrite zlen_cons; pose proof (zlen_nonneg b'); lia).
      destruct (c07_eq _ _ _ _ HB' HB) as (q & EQ & HQ). rewrite EQ. cbn [rbind]. assert (QA : q = true <-> agrees z l0 o (rr_type r)). { rewrite HQ. unfold agrees. split; intros H x; specialize (H x); unfold found in *; rewrite ?HR, ?LD in *; auto. }
      destruct q.
      * cbn [rbind]. change (KNOT_EOK =? KNOT_EOK) with true. cbn [negb]. exists ret, rc. split; auto. split; auto. split; auto. split; auto. rewrite H4, (LK _ QA). tauto.
      * cbn [rbind]. change (KNOT_EPREREQ =? KNOT_EOK) with false. cbn [negb]. exists KNOT_EPREREQ, RC_NXRRSET. split; auto. split; auto. split; [split; discriminate|]. split; auto. rewrite (LK _ QA). split; [discriminate|intros [? _]; discriminate].
    + destruct HL as [_ HL]. cbn [rbind]. change (KNOT_EPREREQ =? KNOT_EOK) with false. cbn [negb]. exists KNOT_EPREREQ, RC_NXRRSET. split; auto. split; auto. split; [split; discriminate|]. split; auto. split; [discriminate|]. intros H. exfalso. specialize (H o (rr_type r) (or_introl eq_refl)). destruct b as [|x b]; [contradiction|]. apply (HL x), H, LD. left. auto.
Qed.
