(** Lemmas on zone contents. *)
From Verif Require Import Base RdatasetModel RdatasetSpec RdatasetProofs RdatasetProps NodeModel NodeProps ZoneModel.
From Coq Require Import Sorting.Sorted.

Lemma beqb_spec : forall a b, bytes_eqb a b = true <-> a = b.
Proof. induction a as [|x a IH]; intros [|y b]; cbn [bytes_eqb]; try (split; [discriminate|discriminate]); [tauto|]. rewrite andb_true_iff, IH, Z.eqb_eq. split; [intros [-> ->]; auto|intros [= -> ->]; auto]. Qed.
Lemma neqb_spec : forall a b, name_eqb a b = true <-> a = b.
Proof. induction a as [|x a IH]; intros [|y b]; cbn [name_eqb]; try (split; [discriminate|discriminate]); [tauto|]. rewrite andb_true_iff, IH, beqb_spec. split; [intros [-> ->]; auto|intros [= -> ->]; auto]. Qed.
Lemma neqb_refl : forall a, name_eqb a a = true. Proof. intros. apply neqb_spec. auto. Qed.
Lemma neqb_neq : forall a b, a <> b -> name_eqb a b = false.
Proof. intros. destruct (name_eqb a b) eqn:E; auto. apply neqb_spec in E. contradiction. Qed.
Lemma name_dec : forall a b : name, {a = b} + {a <> b}.
Proof. intros. destruct (name_eqb a b) eqn:E; [left; apply neqb_spec; auto|right; intros H; apply neqb_spec in H; congruence]. Qed.

(** ** Trees *)
Lemma tget_set : forall t o n o', tget (tset t o n) o' = if name_eqb o o' then Some n else tget t o'.
Proof.
  induction t as [|[a m] t IH]; intros o n o'; cbn [tset tget]; auto. destruct (name_eqb a o) eqn:E1; cbn [tget].
  - apply neqb_spec in E1. subst a. destruct (name_eqb o o'); auto.
  - rewrite IH. destruct (name_eqb a o') eqn:E2; auto. destruct (name_eqb o o') eqn:E3; auto. apply neqb_spec in E2, E3. subst. rewrite neqb_refl in E1. discriminate.
Qed.
Lemma tget_in : forall t o n, NoDup (map fst t) -> (tget t o = Some n <-> In (o, n) t).
Proof.
  induction t as [|[a m] t IH]; intros o n HN; cbn [tget map fst In] in *; [split; [discriminate|tauto]|]. inversion HN as [|? ? N1 N2]; subst. destruct (name_eqb a o) eqn:E.
  - apply neqb_spec in E. subst a. split; [intros [= ->]; auto|]. intros [[= ->]|I]; auto. exfalso. apply N1. apply in_map_iff. exists (o, n). auto.
  - rewrite IH by auto. split; auto. intros [[= -> ->]|I]; auto. rewrite neqb_refl in E. discriminate.
Qed.
Lemma tget_none : forall t o, tget t o = None <-> ~ In o (map fst t).
Proof.
  induction t as [|[a m] t IH]; intros o; cbn [tget map fst In]; [tauto|]. destruct (name_eqb a o) eqn:E.
  - apply neqb_spec in E. subst a. split; [discriminate|intros H; exfalso; apply H; auto].
  - rewrite IH. split; [intros H [H1|H1]; [subst; rewrite neqb_refl in E; discriminate|auto]|tauto].
Qed.
Lemma tset_keys : forall t o n x, In x (map fst (tset t o n)) <-> x = o \/ In x (map fst t).
Proof.
  induction t as [|[a m] t IH]; intros o n x; cbn [tset map fst In]; [split; intros [H|H]; auto; contradiction|]. destruct (name_eqb a o) eqn:E; cbn [map fst In].
  - apply neqb_spec in E. subst a. split; intros [H|H]; auto; destruct H; auto.
  - rewrite IH. split; [intros [H|[H|H]]; auto|intros [H|[H|H]]; auto].
Qed.
Lemma tset_nodup : forall t o n, NoDup (map fst t) -> NoDup (map fst (tset t o n)).
Proof.
  induction t as [|[a m] t IH]; intros o n HN; cbn [tset map fst]; [constructor; [intros []|constructor]|]. inversion HN as [|? ? N1 N2]; subst. destruct (name_eqb a o) eqn:E; cbn [map fst]; [auto|]. constructor; [|apply IH; auto]. rewrite tset_keys. intros [->|H]; auto. rewrite neqb_refl in E. discriminate.
Qed.
Lemma tdel_keys : forall t o x, In x (map fst (tdel t o)) -> In x (map fst t).
Proof. induction t as [|[a m] t IH]; intros o x; cbn [tdel map fst In]; auto. destruct (name_eqb a o); cbn [map fst In]; auto. intros [H|H]; auto. right. eapply IH; eauto. Qed.
Lemma tdel_nodup : forall t o, NoDup (map fst t) -> NoDup (map fst (tdel t o)).
Proof.
  induction t as [|[a m] t IH]; intros o HN; cbn [tdel map fst]; auto. inversion HN as [|? ? N1 N2]; subst. destruct (name_eqb a o); cbn [map fst]; auto. constructor; [|apply IH; auto]. intros H. apply N1. eapply tdel_keys; eauto.
Qed.
Lemma tget_del : forall t o o', NoDup (map fst t) -> tget (tdel t o) o' = if name_eqb o o' then None else tget t o'.
Proof.
  induction t as [|[a m] t IH]; intros o o' HN; cbn [tdel tget]; [destruct (name_eqb o o'); auto|]. inversion HN as [|? ? N1 N2]; subst. destruct (name_eqb a o) eqn:E1; cbn [tget].
  - apply neqb_spec in E1. subst a. destruct (name_eqb o o') eqn:E2; auto. apply neqb_spec in E2. subst o'. apply tget_none. auto.
  - rewrite IH by auto. destruct (name_eqb a o') eqn:E2; auto. destruct (name_eqb o o') eqn:E3; auto. apply neqb_spec in E2, E3. subst. rewrite neqb_refl in E1. discriminate.
Qed.

(** ** Contents *)
Definition keys_ok (z : contents) : Prop := NoDup (map fst (z_nodes z)) /\ NoDup (map fst (z_nsec3 z)) /\ ~ In (z_apex z) (map fst (z_nodes z)) /\ ~ In (z_apex z) (map fst (z_nsec3 z)).
Definition rrs_at (z : contents) (k : bool) (o : name) : list rr_data := match zget z k o with Some n => zn_rrs n | None => [] end.
Definition here (k : bool) (o : name) (k' : bool) (o' : name) : bool := Bool.eqb k k' && name_eqb o o'.
Lemma here_spec : forall k o k' o', here k o k' o' = true <-> k = k' /\ o = o'.
Proof. intros. unfold here. rewrite andb_true_iff, neqb_spec, eqb_true_iff. tauto. Qed.
Lemma zget_set : forall z k o n k' o', zget (zset z k o n) k' o' = if here k o k' o' then Some n else zget z k' o'.
Proof.
  intros z k o n k' o'. unfold zget, zset, here. destruct k; [destruct k'; cbn [z_apex z_apexn z_nodes z_nsec3 Bool.eqb andb]; [apply tget_set|auto]|]. destruct (name_eqb o (z_apex z)) eqn:E; cbn [z_apex z_apexn z_nodes z_nsec3].
  - apply neqb_spec in E. subst o. destruct k'; cbn [Bool.eqb andb]; auto. destruct (name_eqb o' (z_apex z)) eqn:E2; [apply neqb_spec in E2; subst; rewrite neqb_refl; auto|]. rewrite neqb_neq; auto. intros H. subst. rewrite neqb_refl in E2. discriminate.
  - destruct k'; cbn [Bool.eqb andb]; auto. rewrite tget_set. destruct (name_eqb o' (z_apex z)) eqn:E2; auto. apply neqb_spec in E2. subst o'. rewrite E. auto.
Qed.
Lemma zset_apex : forall z k o n, z_apex (zset z k o n) = z_apex z.
Proof. intros. unfold zset. destruct k; auto. destruct (name_eqb o (z_apex z)); auto. Qed.
Lemma zdel_apex : forall z k o, z_apex (zdel z k o) = z_apex z.
Proof. intros. unfold zdel. destruct k; auto. Qed.
Lemma zset_keys : forall z k o n, keys_ok z -> (k = true -> o <> z_apex z) -> keys_ok (zset z k o n).
Proof.
  intros z k o n (H1 & H2 & H3 & H4) HA. unfold zset, keys_ok. destruct k; [|destruct (name_eqb o (z_apex z)) eqn:E]; cbn [z_apex z_nodes z_nsec3]; auto.
  - split; auto. split; [apply tset_nodup; auto|]. split; auto. rewrite tset_keys. intros [H|H]; auto. apply HA; auto.
  - split; [apply tset_nodup; auto|]. split; auto. split; auto. rewrite tset_keys. intros [H|H]; auto. rewrite H, neqb_refl in E. discriminate.
Qed.
Lemma zdel_keys : forall z k o, keys_ok z -> keys_ok (zdel z k o).
Proof.
  intros z k o (H1 & H2 & H3 & H4). unfold zdel, keys_ok. destruct k; cbn [z_apex z_nodes z_nsec3].
  - split; auto. split; [apply tdel_nodup; auto|]. split; auto. intros H. apply H4. eapply tdel_keys; eauto.
  - split; [apply tdel_nodup; auto|]. split; auto. split; auto. intros H. apply H3. eapply tdel_keys; eauto.
Qed.
Lemma zget_del : forall z k o k' o', keys_ok z -> o <> z_apex z -> zget (zdel z k o) k' o' = if here k o k' o' then None else zget z k' o'.
Proof.
  intros z k o k' o' (H1 & H2 & H3 & H4) HA. unfold zget, zdel, here. destruct k, k'; cbn [z_apex z_apexn z_nodes z_nsec3 Bool.eqb andb]; auto; [apply tget_del; auto|]. rewrite tget_del by auto. destruct (name_eqb o' (z_apex z)) eqn:E; auto. apply neqb_spec in E. subst o'. rewrite neqb_neq; auto.
Qed.
Lemma rrs_set : forall z k o n k' o', rrs_at (zset z k o n) k' o' = if here k o k' o' then zn_rrs n else rrs_at z k' o'.
Proof. intros. unfold rrs_at. rewrite zget_set. destruct (here k o k' o'); auto. Qed.
Lemma rrs_del : forall z k o k' o', keys_ok z -> o <> z_apex z -> rrs_at (zdel z k o) k' o' = if here k o k' o' then [] else rrs_at z k' o'.
Proof. intros. unfold rrs_at. rewrite zget_del by auto. destruct (here k o k' o'); auto. Qed.
Lemma rrs_set_same : forall z k o n c, zget z k o = Some n -> forall k' o', rrs_at (zset z k o (mkzn (zn_rrs n) c)) k' o' = rrs_at z k' o'.
Proof. intros z k o n c H k' o'. rewrite rrs_set. cbn [zn_rrs]. destruct (here k o k' o') eqn:E; auto. apply here_spec in E. destruct E; subst. unfold rrs_at. rewrite H. auto. Qed.
(** adding a node does not touch RRsets *)
Lemma under_cons : forall l p a, under (l :: p) a = true -> l :: p <> a -> under p a = true.
Proof. intros l p a H N. cbn [under] in H. apply orb_true_iff in H. destruct H as [H|H]; auto. apply neqb_spec in H. contradiction. Qed.
Lemma zget_mono : forall z k o n k' o', zget z k' o' <> None -> zget (zset z k o n) k' o' <> None.
Proof. intros z k o n k' o' H. rewrite zget_set. destruct (here k o k' o'); [discriminate|auto]. Qed.
Lemma add_node_rrs : forall o z k z' h, keys_ok z -> add_node o z k = Ok (z', h) ->
  keys_ok z' /\ z_apex z' = z_apex z /\ (forall k' o', rrs_at z' k' o' = rrs_at z k' o') /\ h = (if name_eqb o (z_apex z) then (false, o) else (k, o)) /\ (exists n, zget z' (fst h) (snd h) = Some n) /\ (forall k' o', zget z k' o' <> None -> zget z' k' o' <> None).
Proof.
  induction o as [|l p IH]; intros z k z' h HK; cbn [add_node]; destruct (name_eqb _ (z_apex z)) eqn:EA.
  - intros [= <- <-]. split; auto. split; auto. split; auto. split; auto. split; auto. cbn [fst snd zget]. unfold zget. rewrite EA. eauto.
  - destruct (negb _); [discriminate|]. destruct (zget z k []) eqn:EG; [|discriminate]. intros [= <- <-]. split; auto. split; auto. split; auto. split; auto. split; eauto.
  - intros [= <- <-]. split; auto. split; auto. split; auto. split; auto. split; auto. cbn [fst snd]. unfold zget. rewrite EA. eauto.
  - destruct (negb _) eqn:EU; [discriminate|]. destruct (zget z k (l :: p)) as [n|] eqn:EG; [intros [= <- <-]; split; auto; split; auto; split; auto; split; auto; split; auto; exists n; auto|]. intros H.
    assert (NA : l :: p <> z_apex z) by (intros X; rewrite X, neqb_refl in EA; discriminate).
    destruct (add_node p (zset z k (l :: p) (mkzn [] 0)) k) as [[z1 [pk po]]| | |] eqn:E1; cbn [rbind] in H; try discriminate. apply IH in E1; [|apply zset_keys; auto]. destruct E1 as (K1 & A1 & R1 & HH & (pn & G1) & MM). cbn [fst snd] in G1. rewrite zset_apex in *. rewrite G1 in H. injection H as <- <-. split; [apply zset_keys; auto|].
    { intros ->. rewrite A1. destruct (name_eqb p (z_apex z)) eqn:EP; injection HH as HH1 HH2; [discriminate|]. subst po. intros X. rewrite X, neqb_refl in EP. discriminate. }
    split; [rewrite zset_apex; auto|]. split; [|split; auto; split].
    + intros k' o'. rewrite (rrs_set_same _ _ _ _ _ G1), R1. rewrite rrs_set. cbn [zn_rrs]. destruct (here k (l :: p) k' o') eqn:E; auto. apply here_spec in E. destruct E; subst. unfold rrs_at. rewrite EG. auto.
    + cbn [fst snd]. match goal with |- exists n, ?X = Some n => destruct X eqn:EZ; [eauto|] end. exfalso. revert EZ. apply zget_mono, MM. rewrite zget_set. unfold here. rewrite neqb_refl, eqb_reflx. discriminate.
    + intros k' o' HG. apply zget_mono, MM, zget_mono. auto.
Qed.

(** deleting an empty node does not touch RRsets *)
Lemma del_node_rrs : forall o z k, keys_ok z -> o <> z_apex z -> rrs_at z k o = [] ->
  keys_ok (del_node o z k) /\ z_apex (del_node o z k) = z_apex z /\ forall k' o', rrs_at (del_node o z k) k' o' = rrs_at z k' o'.
Proof.
  induction o as [|l p IH]; intros z k HK HA HE; cbn [del_node]; auto.
  assert (R : forall k' o', rrs_at (zdel z k (l :: p)) k' o' = rrs_at z k' o').
  { intros k' o'. rewrite rrs_del by auto. destruct (here k (l :: p) k' o') eqn:E; auto. apply here_spec in E. destruct E; subst. auto. }
  pose proof (zdel_keys z k (l :: p) HK) as K1. cbv zeta. rewrite zdel_apex. set (pk := if name_eqb p (z_apex z) then false else k). destruct (zget (zdel z k (l :: p)) pk p) as [pn|] eqn:EG; [|split; auto; split; auto; apply zdel_apex].
  assert (K2 : keys_ok (zset (zdel z k (l :: p)) pk p (mkzn (zn_rrs pn) (zn_children pn - 1)))).
  { apply zset_keys; auto. rewrite zdel_apex. unfold pk. destruct (name_eqb p (z_apex z)) eqn:E; [discriminate|]. intros _ X. rewrite X, neqb_refl in E. discriminate. }
  assert (R2 : forall k' o', rrs_at (zset (zdel z k (l :: p)) pk p (mkzn (zn_rrs pn) (zn_children pn - 1))) k' o' = rrs_at z k' o').
  { intros. rewrite (rrs_set_same _ _ _ _ _ EG). auto. }
  rewrite zset_apex, zdel_apex. cbn [zn_rrs zn_children]. match goal with |- context [if ?b then _ else _] => destruct b eqn:EB end.
  - apply andb_true_iff in EB. destruct EB as [EB EP]. apply andb_true_iff in EB. destruct EB as [_ EZ]. destruct (IH (zset (zdel z k (l :: p)) pk p (mkzn (zn_rrs pn) (zn_children pn - 1))) k K2) as (H1 & H2 & H3).
    + rewrite zset_apex, zdel_apex. intros X. rewrite X, neqb_refl in EP. discriminate.
    + unfold pk. destruct (name_eqb p (z_apex z)); [discriminate EP|]. rewrite rrs_set. unfold here. rewrite neqb_refl, eqb_reflx. cbn [andb zn_rrs]. destruct (zn_rrs pn); auto. rewrite zlen_cons in EZ. pose proof (zlen_nonneg l0). lia.
    + split; auto. split; [rewrite H2, zset_apex, zdel_apex; auto|]. intros. rewrite H3. auto.
  - split; auto. split; [rewrite zset_apex, zdel_apex; auto|auto].
Qed.

(** ** Records and TTLs at a node *)
Definition nttl (n : list rr_data) (t v : Z) : Prop := exists rs, has n t v rs.
Lemma recs_nil : forall t x, ~ records [] t x.
Proof. intros t x (v & rs & (e & [] & _) & _). Qed.
Lemma nttl_nil : forall t v, ~ nttl [] t v.
Proof. intros t x (rs & (e & [] & _)). Qed.
Lemma wf_nil : node_wf [].
Proof. split; constructor. Qed.
Lemma nttl_fun : forall n t v w, node_wf n -> nttl n t v -> nttl n t w -> v = w.
Proof. intros n t v w W (a & Ha) (b & Hb). destruct (c52_unique n t v a w b W Ha Hb). auto. Qed.
Lemma nttl_recs : forall n t, node_wf n -> ((exists v, nttl n t v) <-> exists x, records n t x).
Proof.
  intros n t W. split.
  - intros (v & rs & H). destruct (c52_nonempty n t v rs W H) as [N _]. destruct rs as [|x rs]; [contradiction|]. exists x, v, (x :: rs). split; auto. left. auto.
  - intros (x & v & rs & H & _). exists v, rs. auto.
Qed.
Lemma recs_nonempty : forall n, node_wf n -> (n = [] <-> forall t x, ~ records n t x).
Proof.
  intros n W. split; [intros -> ; apply recs_nil|]. intros H. destruct n as [|e n]; auto. exfalso. destruct W as [_ F]. destruct (Forall_inv F) as [_ (rs & I & N)]. destruct rs as [|x rs]; [contradiction|]. apply (H (rr_type e) x). exists (rr_ttl e), (x :: rs). split; [exists e; split; [left; auto|auto]|left; auto].
Qed.
Lemma node_add_view : forall n r b ret n', node_wf n -> entry_ok r -> is (rr_rrs r) b -> node_add_rrset yes true n r = Ok (ret, n') -> (ret =? KNOT_EOK) || (ret =? KNOT_ETTL) = true ->
  node_wf n' /\ (forall t x, records n' t x <-> records n t x \/ (t = rr_type r /\ In x b)) /\
  (forall t v, nttl n' t v <-> (t <> rr_type r /\ nttl n t v) \/ (t = rr_type r /\ ((t = RRSIG /\ nttl n t v) \/ (v = rr_ttl r /\ (t = RRSIG -> forall w, ~ nttl n t w))))).
Proof.
  intros n r b ret n' W HE HB E ER. destruct (c52_add n r b W HE HB) as (ret' & n1 & EA & _ & HNEW & HOLD). rewrite EA in E. injection E as -> ->. destruct (has_dec n (rr_type r) W) as [(ttl0 & rs0 & HH)|HN].
  - destruct (HOLD ttl0 rs0 HH ltac:(lia)) as (W1 & rs' & HI & _ & HS). split; auto. split.
    + intros t x. unfold records. split.
      * intros (v & rs & H1 & H2). apply HS in H1. destruct H1 as [[_ H1]|(-> & -> & ->)]; [left; eauto|]. apply HI in H2. destruct H2; [left; eauto|right; eauto].
      * intros [(v & rs & H1 & H2)|[-> H2]]; [|exists (if rr_type r =? RRSIG then ttl0 else rr_ttl r), rs'; split; [apply HS; right; auto|apply HI; auto]]. destruct (Z.eq_dec t (rr_type r)) as [->|NT]; [|exists v, rs; split; auto; apply HS; auto]. destruct (c52_unique n _ _ _ _ _ W HH H1) as [-> ->]. exists (if rr_type r =? RRSIG then v else rr_ttl r), rs'. split; [apply HS; right; auto|apply HI; auto].
    + intros t v. unfold nttl. split.
      * intros (rs & H1). apply HS in H1. destruct H1 as [[H0 H1]|(-> & -> & ->)]; [left; eauto|]. right. split; auto. destruct (rr_type r =? RRSIG) eqn:EQ; [left; split; [lia|eauto]|right; split; auto; lia].
      * intros [[H0 (rs & H1)]|[-> [[H0 (rs & H1)]|[-> H0]]]].
        -- exists rs. apply HS. auto.
        -- exists rs'. apply HS. right. split; auto. split; auto. replace (rr_type r =? RRSIG) with true by lia. destruct (c52_unique n _ _ _ _ _ W HH H1). auto.
        -- exists rs'. apply HS. right. split; auto. split; auto. destruct (rr_type r =? RRSIG) eqn:EQ; auto. exfalso. apply (H0 ltac:(lia) ttl0). eauto.
  - destruct (HNEW HN) as (_ & W1 & HS). split; auto. split.
    + intros t x. unfold records. split.
      * intros (v & rs & H1 & H2). apply HS in H1. destruct H1 as [[_ H1]|(-> & -> & ->)]; [left; eauto|right; auto].
      * intros [(v & rs & H1 & H2)|[-> H2]]; [|exists (rr_ttl r), b; split; auto; apply HS; auto]. exists v, rs. split; auto. apply HS. left. split; auto. intros ->. eapply HN; eauto.
    + intros t v. unfold nttl. split.
      * intros (rs & H1). apply HS in H1. destruct H1 as [[H0 H1]|(-> & -> & ->)]; [left; eauto|right]. split; auto. right. split; auto. intros _ w (rs & H). eapply HN; eauto.
      * intros [[H0 (rs & H1)]|[-> [[H0 (rs & H1)]|[-> H0]]]]; [exists rs; apply HS; auto|exfalso; eapply HN; eauto|exists b; apply HS; auto].
Qed.
Lemma in_dec_bytes : forall (x : list Z) b, In x b \/ ~ In x b.
Proof. intros. destruct (in_dec (list_eq_dec Z.eq_dec) x b); auto. Qed.
Lemma node_remove_view : forall n r b, node_wf n -> is (rr_rrs r) b -> exists ret n', node_remove_rrset yes false n r = Ok (ret, n') /\ (ret = KNOT_EOK \/ ret = KNOT_ENOENT) /\ (ret = KNOT_EOK <-> exists v, nttl n (rr_type r) v) /\
  node_wf n' /\ (forall t x, records n' t x <-> records n t x /\ ~ (t = rr_type r /\ In x b)) /\ (forall t v, nttl n' t v <-> nttl n t v /\ exists x, records n t x /\ ~ (t = rr_type r /\ In x b)).
Proof.
  intros n r b W HB. destruct (c52_remove n r b false W HB ltac:(discriminate)) as [HN HO]. destruct (has_dec n (rr_type r) W) as [(ttl0 & rs0 & HH)|H].
  - destruct (HO _ _ HH) as (n' & E & W' & rs' & HI & HS). exists KNOT_EOK, n'. split; auto. split; auto. split; [split; auto; intros _; exists ttl0, rs0; auto|]. split; auto.
    assert (HR : forall t x, records n' t x <-> records n t x /\ ~ (t = rr_type r /\ In x b)).
    { intros t x. unfold records. split.
      - intros (v & rs & H1 & H2). apply HS in H1. destruct H1 as [[H0 H1]|(-> & -> & -> & _)]; [split; [eauto|tauto]|]. apply HI in H2. destruct H2. split; [eauto|tauto].
      - intros [(v & rs & H1 & H2) H3]. destruct (Z.eq_dec t (rr_type r)) as [->|NT]; [|exists v, rs; split; auto; apply HS; auto]. destruct (c52_unique n _ _ _ _ _ W HH H1) as [-> ->]. assert (In x rs') by (apply HI; tauto). exists v, rs'. split; auto. apply HS. right. split; auto. split; auto. split; auto. intros ->. auto. }
    split; auto. intros t v. split.
    + intros Hv. split.
      * destruct Hv as (rs & H1). apply HS in H1. destruct H1 as [[H0 H1]|(-> & -> & -> & _)]; [exists rs; auto|exists rs0; auto].
      * destruct (proj1 (nttl_recs n' t W') (ex_intro _ v Hv)) as [x Hx]. exists x. apply HR. auto.
    + intros [Hv (x & Hx)]. apply HR in Hx. destruct (proj2 (nttl_recs n' t W') (ex_intro _ x Hx)) as [w Hw]. assert (Hw' : nttl n t w). { destruct Hw as (rs & H1). apply HS in H1. destruct H1 as [[H0 H1]|(-> & -> & -> & _)]; [exists rs; auto|exists rs0; auto]. } rewrite (nttl_fun n t v w W Hv Hw'). auto.
  - exists KNOT_ENOENT, n. split; auto. split; auto. split; [split; [discriminate|intros (v & rs & Hv); exfalso; eapply H; eauto]|]. split; auto. split.
    + intros t x. split; [|tauto]. intros Hx. split; auto. intros [-> _]. destruct Hx as (v & rs & Hx & _). eapply H; eauto.
    + intros t v. split; [|tauto]. intros Hv. split; auto. destruct (proj1 (nttl_recs n t W) (ex_intro _ v Hv)) as [x Hx]. exists x. split; auto. intros [-> _]. destruct Hv as (rs & Hv). eapply H; eauto.
Qed.
