(** The records and TTLs in zone contents and how the operations change them. *)
From Verif Require Import Base RdatasetModel RdatasetSpec RdatasetProofs RdatasetProps NodeModel NodeProps ZoneModel ZoneProofs.

(** One RRset of a zone: whether it is about NSEC3, its owner and its type. *)
Definition cell := (bool * name * Z)%type.
Definition ck (c : cell) : bool := fst (fst c).
Definition co (c : cell) : name := snd (fst c).
Definition ct (c : cell) : Z := snd c.
Definition crec (z : contents) (c : cell) (x : list Z) : Prop := records (rrs_at z (ck c) (co c)) (ct c) x.
Definition cttl (z : contents) (c : cell) (v : Z) : Prop := nttl (rrs_at z (ck c) (co c)) (ct c) v.
(** A record of type NSEC3, or a signature of one. *)
Definition rel (t : Z) (x : list Z) : bool :=
  (t =? NSEC3) || ((t =? RRSIG) && match x with b1 :: b2 :: _ => b1 * 256 + b2 =? NSEC3 | _ => false end).
Definition rec_ok (k : bool) (t : Z) (x : list Z) : Prop := rel t x = k /\ (t = RRSIG -> 2 <= zlen x).
Definition cwf (z : contents) : Prop :=
  keys_ok z /\ (forall k o, node_wf (rrs_at z k o)) /\ (forall c x, crec z c x -> rec_ok (ck c) (ct c) x) /\ (forall k o, ZoneModel.zget z k o <> None -> under o (z_apex z) = true).
(** An RRset given to an operation: its cell and its records. *)
Definition good (a : name) (s : rrset) (c : cell) (b : list (list Z)) : Prop :=
  entry_ok (snd s) /\ is (rr_rrs (snd s)) b /\ co c = fst s /\ ct c = rr_type (snd s) /\ (forall x, In x b -> rec_ok (ck c) (ct c) x) /\ (ck c = true -> fst s <> a).
Lemma cell_dec : forall a b : cell, {a = b} + {a <> b}.
Proof. intros [[k o] t] [[k' o'] t']. destruct (bool_dec k k'), (name_dec o o'), (Z.eq_dec t t'); subst; auto; right; congruence. Qed.
Lemma cell_eta : forall c : cell, c = (ck c, co c, ct c). Proof. intros [[k o] t]. auto. Qed.

Lemma cwf_wf : forall z c, cwf z -> node_wf (rrs_at z (ck c) (co c)). Proof. intros z c (_ & H & _). auto. Qed.
Lemma crec_cttl : forall z c, cwf z -> ((exists x, crec z c x) <-> exists v, cttl z c v).
Proof. intros z c W. symmetry. apply nttl_recs, cwf_wf. auto. Qed.
Lemma cttl_fun : forall z c v w, cwf z -> cttl z c v -> cttl z c w -> v = w.
Proof. intros z c v w W. apply nttl_fun, cwf_wf. auto. Qed.
Lemma good_b : forall a s c b, good a s c b -> b <> [].
Proof. intros a s c b ((_ & b' & H1 & H2) & H & _). rewrite (is_fun _ _ _ H H1). auto. Qed.
Lemma good_empty : forall a s c b, good a s c b -> rr_empty (snd s) = false.
Proof. intros a s c b H. pose proof (good_b _ _ _ _ H). destruct H as (_ & H & _). unfold rr_empty. rewrite (is_count _ _ H). destruct b; [contradiction|]. rewrite zlen_cons. pose proof (zlen_nonneg b). lia. Qed.
Lemma rel_ok : forall a s c b, good a s c b -> is_nsec3rel (snd s) = Ok (ck c).
Proof.
  intros a s c b H. pose proof (good_b _ _ _ _ H). destruct H as (_ & HI & _ & HT & HR & _). destruct b as [|x b]; [contradiction|]. specialize (HR x (or_introl eq_refl)). destruct HR as [HR HL]. unfold is_nsec3rel, rel in *. rewrite <- HT. destruct (ct c =? NSEC3) eqn:E1; cbn [orb] in HR; [congruence|]. destruct (ct c =? RRSIG) eqn:E2; cbn [andb] in HR; [|congruence].
  rewrite (c07_at _ _ 0 HI ltac:(lia)). cbn [Base.zget]. change (Base.zget (x :: b) 0) with (Some x). cbn [rbind]. specialize (HL ltac:(lia)). destruct x as [|b1 [|b2 x]]; rewrite ?zlen_cons, ?zlen_nil in HL; [lia|lia|congruence].
Qed.

Lemma del_node_sub : forall o z k k' o', keys_ok z -> o <> z_apex z -> ZoneModel.zget (del_node o z k) k' o' <> None -> ZoneModel.zget z k' o' <> None.
Proof.
  induction o as [|l p IH]; intros z k k' o' HK HA; cbn [del_node]; auto. cbv zeta. rewrite zdel_apex. pose proof (zdel_keys z k (l :: p) HK) as K1. assert (D : ZoneModel.zget (zdel z k (l :: p)) k' o' <> None -> ZoneModel.zget z k' o' <> None). { rewrite zget_del by auto. destruct (here _ _ _ _); [intros H; contradiction|auto]. }
  set (pk := if name_eqb p (z_apex z) then false else k). destruct (ZoneModel.zget (zdel z k (l :: p)) pk p) as [pn|] eqn:EG; auto.
  assert (K2 : keys_ok (zset (zdel z k (l :: p)) pk p (mkzn (zn_rrs pn) (zn_children pn - 1)))).
  { apply zset_keys; auto. rewrite zdel_apex. unfold pk. destruct (name_eqb p (z_apex z)) eqn:E; [discriminate|]. intros _ X. rewrite X, neqb_refl in E. discriminate. }
  assert (D2 : ZoneModel.zget (zset (zdel z k (l :: p)) pk p (mkzn (zn_rrs pn) (zn_children pn - 1))) k' o' <> None -> ZoneModel.zget z k' o' <> None).
  { rewrite zget_set. destruct (here pk p k' o') eqn:E; auto. intros _. apply D. apply here_spec in E. destruct E as [<- <-]. rewrite EG. discriminate. }
  rewrite zset_apex, zdel_apex. match goal with |- context [if ?b then _ else _] => destruct b eqn:EB end; auto. intros H. apply D2. eapply IH; eauto. rewrite zset_apex, zdel_apex. intros X. rewrite X, neqb_refl, andb_false_r in EB. discriminate.
Qed.
(** ** Effects *)
Definition eff_add (z z' : contents) (c0 : cell) (ttl : Z) (b : list (list Z)) : Prop :=
  cwf z' /\ z_apex z' = z_apex z /\ (forall c x, crec z' c x <-> crec z c x \/ (c = c0 /\ In x b)) /\
  (forall c v, cttl z' c v <-> (c <> c0 /\ cttl z c v) \/ (c = c0 /\ ((ct c = RRSIG /\ cttl z c v) \/ (v = ttl /\ (ct c = RRSIG -> forall w, ~ cttl z c w))))).
Definition eff_rem (z z' : contents) (c0 : cell) (b : list (list Z)) : Prop :=
  cwf z' /\ z_apex z' = z_apex z /\ (forall c x, crec z' c x <-> crec z c x /\ ~ (c = c0 /\ In x b)) /\
  (forall c v, cttl z' c v <-> cttl z c v /\ exists x, crec z c x /\ ~ (c = c0 /\ In x b)).

Lemma here_cell : forall c c0, here (ck c0) (co c0) (ck c) (co c) = true -> ct c = ct c0 -> c = c0.
Proof. intros c c0 H HT. apply here_spec in H. rewrite (cell_eta c), (cell_eta c0). destruct H. congruence. Qed.
Lemma add_node_under : forall o z k z' h, (forall k o, ZoneModel.zget z k o <> None -> under o (z_apex z) = true) -> keys_ok z -> add_node o z k = Ok (z', h) -> (forall k o, ZoneModel.zget z' k o <> None -> under o (z_apex z') = true).
Proof.
  induction o as [|l p IH]; intros z k z' h HU HK; cbn [add_node]; destruct (name_eqb _ (z_apex z)) eqn:EA; try (intros [= <- <-]; auto; fail).
  - destruct (negb _); [discriminate|]. destruct (ZoneModel.zget z k []); [|discriminate]. intros [= <- <-]. auto.
  - destruct (negb _) eqn:EU; [discriminate|]. destruct (ZoneModel.zget z k (l :: p)) as [n|]; [intros [= <- <-]; auto|]. intros H.
    destruct (add_node p _ k) as [[z1 [pk po]]| | |] eqn:E1; cbn [rbind] in H; try discriminate. assert (K : keys_ok (zset z k (l :: p) (mkzn [] 0))). { apply zset_keys; auto. intros _ X. rewrite X, neqb_refl in EA. discriminate. }
    assert (U2 : forall k0 o, ZoneModel.zget (zset z k (l :: p) (mkzn [] 0)) k0 o <> None -> under o (z_apex (zset z k (l :: p) (mkzn [] 0))) = true).
    { intros k' o'. rewrite zget_set, zset_apex. destruct (here k (l :: p) k' o') eqn:E; [|apply HU]. apply here_spec in E. destruct E. subst. intros _. apply negb_false_iff. auto. }
    pose proof (IH _ _ _ _ U2 K E1) as U3. destruct (ZoneModel.zget z1 pk po) as [pn|] eqn:G; [|discriminate]. injection H as <- <-. intros k' o'. rewrite zget_set, zset_apex. destruct (here pk po k' o') eqn:E; [|apply U3]. apply here_spec in E. destruct E. subst. intros _. apply (U3 k'). rewrite G. discriminate.
Qed.
Lemma set_view : forall z k o n rrs, cwf z -> ZoneModel.zget z k o = Some n -> (k = true -> o <> z_apex z) -> node_wf rrs -> (forall t x, records rrs t x -> rec_ok k t x) ->
  cwf (zset z k o (mkzn rrs (zn_children n))).
Proof.
  intros z k o n rrs (K & W & R & U) G HA W' R'. split; [apply zset_keys; auto|]. split; [|split].
  - intros k' o'. rewrite rrs_set. destruct (here k o k' o'); cbn [zn_rrs]; auto.
  - intros c x. unfold crec. rewrite rrs_set. destruct (here k o (ck c) (co c)) eqn:E; cbn [zn_rrs]; [|apply R]. apply here_spec in E. destruct E as [<- _]. apply R'.
  - intros k' o'. rewrite zget_set, zset_apex. destruct (here k o k' o') eqn:E; [|apply U]. apply here_spec in E. destruct E. subst. intros _. apply (U k'). rewrite G. discriminate.
Qed.
Lemma add_node_view : forall o z k z' h, cwf z -> add_node o z k = Ok (z', h) -> cwf z' /\ z_apex z' = z_apex z /\ (forall c x, crec z' c x <-> crec z c x) /\ (forall c v, cttl z' c v <-> cttl z c v).
Proof.
  intros o z k z' h (K & W & R & U) E. pose proof (add_node_under _ _ _ _ _ U K E) as U'. destruct (add_node_rrs _ _ _ _ _ K E) as (K' & A & RR & _). unfold crec, cttl. split; [|split; auto; split; intros; rewrite RR; tauto]. split; auto. split; [intros; rewrite RR; auto|]. split; auto. intros c x. unfold crec. rewrite RR. apply R.
Qed.
Lemma add_at : forall z s c b z1 h, cwf z -> good (z_apex z) s c b -> add_node (fst s) z (ck c) = Ok (z1, h) ->
  h = (ck c, co c) /\ exists n, ZoneModel.zget z1 (ck c) (co c) = Some n /\
  forall ret rrs, node_add_rrset yes true (zn_rrs n) (snd s) = Ok (ret, rrs) -> (ret =? KNOT_EOK) || (ret =? KNOT_ETTL) = true -> eff_add z (zset z1 (ck c) (co c) (mkzn rrs (zn_children n))) c (rr_ttl (snd s)) b.
Proof.
  intros z s c b z1 h W G E. destruct (add_node_view _ _ _ _ _ W E) as (W1 & A1 & R1 & T1). destruct (add_node_rrs _ _ _ _ _ (proj1 W) E) as (K1 & _ & RR & EH & (n & GN) & _). destruct G as (HE & HI & HO & HT & HR & HA).
  assert (HH : h = (ck c, co c)). { rewrite EH, HO. destruct (name_eqb (fst s) (z_apex z)) eqn:EN; auto. apply neqb_spec in EN. destruct (ck c) eqn:EK; auto. exfalso. apply HA; auto. }
  split; auto. rewrite HH in GN. cbn [fst snd] in GN. exists n. split; auto. intros ret rrs EA ER.
  assert (RN : rrs_at z (ck c) (co c) = zn_rrs n) by (rewrite <- RR; unfold rrs_at; rewrite GN; auto).
  assert (WN : node_wf (zn_rrs n)) by (rewrite <- RN; apply W).
  destruct (node_add_view _ _ _ _ _ WN HE HI EA ER) as (W' & V1 & V2). rewrite <- HT in V1, V2.
  assert (RC : forall t x, records (zn_rrs n) t x -> rec_ok (ck c) t x). { intros t x H. rewrite <- RN in H. destruct W as (_ & _ & R & _). apply (R (ck c, co c, t) x H). }
  split.
  { apply set_view; auto; [rewrite A1; intros; rewrite HO; auto|]. intros t x H. apply V1 in H. destruct H as [H|[-> H]]; auto. }
  split; [rewrite zset_apex; auto|]. split.
  - intros c' x. unfold crec. rewrite rrs_set. cbn [zn_rrs]. destruct (here (ck c) (co c) (ck c') (co c')) eqn:EHE.
    + rewrite V1. assert (RN' : rrs_at z (ck c') (co c') = zn_rrs n) by (apply here_spec in EHE; destruct EHE as [<- <-]; auto). rewrite RN'. split; [intros [H|[H1 H2]]; auto; right; split; auto; apply here_cell; auto|]. intros [H|[-> H]]; auto.
    + rewrite RR. split; auto. intros [H|[-> H]]; auto. exfalso. assert (here (ck c) (co c) (ck c) (co c) = true) by (apply here_spec; auto). congruence.
  - intros c' v. unfold cttl. rewrite rrs_set. cbn [zn_rrs]. destruct (here (ck c) (co c) (ck c') (co c')) eqn:EHE.
    + rewrite V2. assert (RN' : rrs_at z (ck c') (co c') = zn_rrs n) by (apply here_spec in EHE; destruct EHE as [<- <-]; auto). rewrite RN'. split.
      * intros [[H1 H2]|[H1 H2]]; [left; split; auto; intros ->; auto|right; split; auto; apply here_cell; auto].
      * intros [[H1 H2]|[-> H2]]; [left; split; auto; intros H; apply H1, here_cell; auto|right; auto].
    + rewrite RR. assert (c' <> c). { intros ->. assert (here (ck c) (co c) (ck c) (co c) = true) by (apply here_spec; auto). congruence. } tauto.
Qed.
Lemma contents_add_view : forall z s c b ret z', cwf z -> good (z_apex z) s c b -> contents_add_rr z s = Ok (ret, z') -> eff_add z z' c (rr_ttl (snd s)) b.
Proof.
  intros z [o r] c b ret z' W G. unfold contents_add_rr. pose proof (good_empty _ _ _ _ G) as HEm. cbn [snd] in HEm. rewrite HEm. pose proof (rel_ok _ _ _ _ G) as HRl. cbn [snd] in HRl. rewrite HRl. cbn [rbind]. destruct (add_node o z (ck c)) as [[z1 h]| | |] eqn:E; cbn [rbind]; try discriminate. destruct (add_at _ _ _ _ _ _ W G E) as (-> & n & GN & HH). rewrite GN. cbn [snd] in HH. destruct (node_add_rrset yes true (zn_rrs n) r) as [[ret' rrs]| | |]; cbn [rbind]; try discriminate. destruct ((ret' =? KNOT_EOK) || (ret' =? KNOT_ETTL)) eqn:ER; [|discriminate]. intros [= <- <-]. apply (HH ret' rrs); auto.
Qed.
(** errors of an addition below the apex *)
Lemma under_refl : forall a, under a a = true. Proof. intros [|l a]; cbn [under]; [auto|]. rewrite neqb_refl. auto. Qed.
Lemma add_node_ok : forall o z k, keys_ok z -> under o (z_apex z) = true -> exists z' h, add_node o z k = Ok (z', h).
Proof.
  induction o as [|l p IH]; intros z k K U; cbn [add_node].
  - cbn [under] in U. rewrite orb_false_r in U. rewrite U. eauto.
  - destruct (name_eqb (l :: p) (z_apex z)) eqn:E; [eauto|]. rewrite U. cbn [negb]. destruct (ZoneModel.zget z k (l :: p)); [eauto|]. cbn [under] in U. rewrite E in U. cbn [orb] in U. assert (K' : keys_ok (zset z k (l :: p) (mkzn [] 0))). { apply zset_keys; auto. intros _ X. rewrite X, neqb_refl in E. discriminate. } destruct (IH (zset z k (l :: p) (mkzn [] 0)) k K') as (z1 & [pk po] & E1); [rewrite zset_apex; auto|]. rewrite E1. cbn [rbind]. destruct (add_node_rrs _ _ _ _ _ K' E1) as (_ & _ & _ & _ & (n & Hn) & _). cbn [fst snd] in Hn. rewrite Hn. eauto.
Qed.

(** Removal from a node that is there. *)
Lemma remove_view : forall z s c b n, cwf z -> good (z_apex z) s c b -> ZoneModel.zget z (ck c) (co c) = Some n -> forall z',
  remove_from_node z (ck c) (co c) n (snd s) = Ok z' -> eff_rem z z' c b /\ exists v, cttl z c v.
Proof.
  intros z s c b n W (HE & HI & HO & HT & HR & HA) GN z' E. unfold remove_from_node in E.
  assert (RN : rrs_at z (ck c) (co c) = zn_rrs n) by (unfold rrs_at; rewrite GN; auto).
  assert (WN : node_wf (zn_rrs n)) by (rewrite <- RN; apply W).
  destruct (node_remove_view (zn_rrs n) (snd s) b WN HI) as (ret & n' & ER & HRet & HEx & W' & V1 & V2). rewrite ER in E. cbn [rbind] in E. destruct (ret =? KNOT_EOK) eqn:EK; cbn [negb] in E; [|discriminate]. rewrite <- HT in *.
  split; [|destruct (proj1 HEx ltac:(lia)) as [v Hv]; exists v; unfold cttl; rewrite RN; auto].
  assert (RC : forall t x, records (zn_rrs n) t x -> rec_ok (ck c) t x). { intros t x H. rewrite <- RN in H. destruct W as (_ & _ & R & _). apply (R (ck c, co c, t) x H). }
  set (z1 := zset z (ck c) (co c) (mkzn n' (zn_children n))) in *.
  assert (W1 : cwf z1). { unfold z1. apply set_view; auto; [intros; rewrite HO; auto|]. intros t x H. apply V1 in H. apply RC. tauto. }
  assert (EFF : eff_rem z z1 c b).
  { split; auto. split; [apply zset_apex|]. split.
    - intros c' x. unfold crec, z1. rewrite rrs_set. cbn [zn_rrs]. destruct (here (ck c) (co c) (ck c') (co c')) eqn:EHE.
      + rewrite V1. assert (RN' : rrs_at z (ck c') (co c') = zn_rrs n) by (apply here_spec in EHE; destruct EHE as [<- <-]; auto). rewrite RN'. split; intros [H1 H2]; split; auto; intros [H3 H4]; apply H2; split; auto; [subst; auto|apply here_cell; auto].
      + split; [|tauto]. intros H. split; auto. intros [-> _]. assert (here (ck c) (co c) (ck c) (co c) = true) by (apply here_spec; auto). congruence.
    - intros c' v. unfold cttl, crec, z1. rewrite rrs_set. cbn [zn_rrs]. destruct (here (ck c) (co c) (ck c') (co c')) eqn:EHE.
      + rewrite V2. assert (RN' : rrs_at z (ck c') (co c') = zn_rrs n) by (apply here_spec in EHE; destruct EHE as [<- <-]; auto). rewrite RN'. split; intros [H1 (x & H2 & H3)]; split; auto; exists x; split; auto; intros [H4 H5]; apply H3; split; auto; [subst; auto|apply here_cell; auto].
      + split; [|tauto]. intros H. split; auto. destruct (proj1 (nttl_recs _ _ (cwf_wf z c' W)) (ex_intro _ v H)) as [x Hx]. exists x. split; auto. intros [-> _]. assert (here (ck c) (co c) (ck c) (co c) = true) by (apply here_spec; auto). congruence. }
  destruct ((zlen n' =? 0) && (zn_children n =? 0) && negb (name_eqb (co c) (z_apex z1) && negb (ck c))) eqn:EB; injection E as <-; auto.
  assert (NA : co c <> z_apex z1). { intros X. rewrite <- X, neqb_refl in EB. destruct (ck c) eqn:EC; [|cbn in EB; rewrite andb_false_r in EB; discriminate]. apply HA; auto. rewrite <- HO, X. apply zset_apex. }
  assert (NE : rrs_at z1 (ck c) (co c) = []). { unfold z1. rewrite rrs_set. assert (X : here (ck c) (co c) (ck c) (co c) = true) by (apply here_spec; auto). rewrite X. cbn [zn_rrs]. destruct n'; auto. rewrite zlen_cons in EB. pose proof (zlen_nonneg n'). lia. }
  destruct (del_node_rrs (co c) z1 (ck c) (proj1 W1) NA NE) as (KD & AD & RD). destruct EFF as (_ & A1 & E1 & E2). split.
  { destruct W1 as (WK & WW & WR & WU). split; auto. split; [intros; rewrite RD; auto|]. split; [intros c' x; unfold crec; rewrite RD; apply WR|].
    rewrite AD. intros k' o' H. apply (WU k'). eapply del_node_sub; eauto. }
  split; [congruence|]. split; [intros; unfold crec in *; rewrite RD; apply E1|intros; unfold cttl in *; rewrite RD; apply E2].
Qed.

(** ** Strict application *)
Lemma members_spec : forall a pa s2 b want, Forall rdata_ok a -> holds s2 b ->
  exists r, members (length a) (enc (pa ++ a)) (zlen (enc pa)) s2 want = Ok r /\ (r = true <-> forall x, In x a -> if want then In x b else ~ In x b).
Proof.
  induction a as [|x a IH]; intros pa s2 b want HA H2; cbn [length members].
  - exists true. split; [auto|]. split; [intros _ ? []|auto].
  - inversion HA as [|? ? Hx HA']; subst.
    replace (enc (pa ++ x :: a)) with (enc pa ++ rdata_init x ++ enc a) by (rewrite enc_app; auto).
    rewrite rr_get_at by apply Hx. cbn [rbind]. destruct (member_spec s2 b x H2) as (m & -> & Hm). cbn [rbind].
    destruct (Bool.eqb m want) eqn:EM; cbn [negb].
    + apply eqb_prop in EM. subst m. rewrite next_at by apply Hx. cbn [rbind].
      replace (enc pa ++ rdata_init x) with (enc (pa ++ [x])) by (rewrite enc_app, enc_cons, app_nil_r; auto).
      replace (enc pa ++ rdata_init x ++ enc a) with (enc ((pa ++ [x]) ++ a)) by (rewrite <- app_assoc, enc_app; auto).
      destruct (IH (pa ++ [x]) s2 b want HA' H2) as (r & -> & Hr). exists r. split; [auto|]. rewrite Hr.
      split; [intros HI y [<-|Hy]; [destruct want; [apply Hm; auto|intros HH; apply Hm in HH; discriminate]|apply HI; auto]|intros HI y Hy; apply HI; cbn; auto].
    + exists false. split; [auto|]. split; [discriminate|]. intros HI. specialize (HI x (or_introl eq_refl)). destruct want, m; try discriminate; [apply Hm; auto|]. exfalso. apply HI, Hm. auto.
Qed.
Lemma can_spec : forall n r b want, node_wf n -> is (rr_rrs r) b ->
  match node_rdataset n (rr_type r) with
  | None => forall x, ~ records n (rr_type r) x
  | Some s => exists c, members (Z.to_nat (count (rr_rrs r))) (raw (rr_rrs r)) 0 s want = Ok c /\ (c = true <-> forall x, In x b -> if want then records n (rr_type r) x else ~ records n (rr_type r) x)
  end.
Proof.
  intros n r b want W HB. pose proof (c52_lookup n (rr_type r) W) as H. destruct (node_rrset n (rr_type r)) as [e|].
  - destruct H as (rs & I & T & HH & ->). apply is_holds in I, HB. rewrite (holds_len _ _ HB). pose proof HB as (_ & -> & _ & [_ F] & _). destruct (members_spec b [] (rr_rrs e) rs want F I) as (c & E & Hc). exists c. split; [exact E|]. rewrite Hc.
    assert (R : forall x, records n (rr_type r) x <-> In x rs). { intros x. unfold records. split; [intros (v & rs' & H1 & H2); destruct (c52_unique n _ _ _ _ _ W H1 HH) as [_ ->]; auto|intros; eauto]. }
    split; intros Q x Hx; specialize (Q x Hx); destruct want; rewrite ?R in *; auto.
  - destruct H as [H ->]. intros x (v & rs & Hx & _). eapply H; eauto.
Qed.
Lemma get_rrs : forall z k o, rrs_at z k o = match ZoneModel.zget z k o with Some n => zn_rrs n | None => [] end.
Proof. reflexivity. Qed.
Lemma can_remove_spec : forall z s c b, cwf z -> good (z_apex z) s c b -> exists r, can_remove (ZoneModel.zget z (ck c) (co c)) (snd s) = Ok r /\ (r = true <-> forall x, In x b -> crec z c x).
Proof.
  intros z s c b W G. pose proof (good_b _ _ _ _ G) as NB. destruct G as (HE & HI & HO & HT & HR & HA). unfold can_remove, crec. rewrite HT. pose proof (cwf_wf z c W) as WN. rewrite get_rrs in *. destruct (ZoneModel.zget z (ck c) (co c)) as [n|].
  - pose proof (can_spec (zn_rrs n) (snd s) b true WN HI) as H. destruct (node_rdataset (zn_rrs n) (rr_type (snd s))); [destruct H as (q & E & Hr); exists q; auto|]. exists false. split; auto. split; [discriminate|]. intros Q. destruct b as [|x b]; [contradiction|]. exfalso. apply (H x). apply Q. left. auto.
  - exists false. split; auto. split; [discriminate|]. intros Q. destruct b as [|x b]; [contradiction|]. exfalso. apply (recs_nil (rr_type (snd s)) x). apply Q. left. auto.
Qed.
Lemma can_add_spec : forall z s c b, cwf z -> good (z_apex z) s c b -> exists r, can_add (ZoneModel.zget z (ck c) (co c)) (snd s) = Ok r /\ (r = true <-> forall x, In x b -> ~ crec z c x).
Proof.
  intros z s c b W (HE & HI & HO & HT & HR & HA). unfold can_add, crec. rewrite HT. pose proof (cwf_wf z c W) as WN. rewrite get_rrs in *. destruct (ZoneModel.zget z (ck c) (co c)) as [n|].
  - pose proof (can_spec (zn_rrs n) (snd s) b false WN HI) as H. destruct (node_rdataset (zn_rrs n) (rr_type (snd s))); [destruct H as (q & E & Hr); exists q; auto|]. exists true. split; auto. split; auto.
  - exists true. split; auto. split; auto. intros _ x _. apply recs_nil.
Qed.
Lemma apply_remove_view : forall z s c b st, cwf z -> good (z_apex z) s c b ->
  ((forall x, In x b -> crec z c x) -> exists z', apply_remove_rr st z s = Ok z' /\ eff_rem z z' c b) /\
  (~ (forall x, In x b -> crec z c x) -> apply_remove_rr st z s = if st then Err KNOT_ENORECORD else Ok z).
Proof.
  intros z [o r] c b st W G. unfold apply_remove_rr. pose proof (rel_ok _ _ _ _ G) as HRl. cbn [snd] in HRl. rewrite HRl. cbn [rbind]. pose proof (proj1 (proj2 (proj2 G))) as HO. cbn [fst] in HO. rewrite <- HO. destruct (can_remove_spec z _ c b W G) as (q & E & HQ). cbn [snd] in E. rewrite E. cbn [rbind]. destruct q; cbn [negb].
  - split; [|intros H; exfalso; apply H, HQ; auto]. intros _. destruct (ZoneModel.zget z (ck c) (co c)) as [n|] eqn:EG; [|discriminate].
    assert (X : exists z', remove_from_node z (ck c) (co c) n r = Ok z').
    { unfold remove_from_node. assert (WN : node_wf (zn_rrs n)) by (pose proof (cwf_wf z c W) as H; unfold rrs_at in H; rewrite EG in H; auto). destruct (node_remove_view (zn_rrs n) r b WN (proj1 (proj2 G))) as (ret & n' & -> & HRet & HEx & _). cbn [rbind]. assert (ret = KNOT_EOK) as ->.
      { apply HEx. pose proof (good_b _ _ _ _ G) as NB. destruct b as [|x b]; [contradiction|]. pose proof (proj1 HQ eq_refl x (or_introl eq_refl)) as HX. unfold crec, rrs_at in HX. rewrite EG in HX. apply nttl_recs; auto. exists x. destruct G as (_ & _ & _ & HT & _). cbn [snd] in HT. rewrite <- HT. auto. }
      change (KNOT_EOK =? KNOT_EOK) with true. cbn [negb]. match goal with |- context [if ?b then _ else _] => destruct b end; eauto. }
    destruct X as [z' X]. exists z'. split; auto. apply (remove_view z (o, r) c b n W G EG z' X).
  - split; [intros H; apply HQ in H; discriminate|auto].
Qed.
Lemma apply_remove_strict : forall z s c b z', cwf z -> good (z_apex z) s c b -> apply_remove_rr true z s = Ok z' -> (forall x, In x b -> crec z c x) /\ eff_rem z z' c b.
Proof.
  intros z s c b z' W G E. destruct (apply_remove_view z s c b true W G) as [H1 H2]. destruct (can_remove_spec z s c b W G) as (q & _ & HQ). destruct q.
  - pose proof (proj1 HQ eq_refl) as H. split; auto. destruct (H1 H) as (z1 & E1 & H3). congruence.
  - rewrite H2 in E; [discriminate|]. intros H. apply HQ in H. discriminate.
Qed.
Lemma apply_add_view : forall z s c b st, cwf z -> good (z_apex z) s c b -> under (fst s) (z_apex z) = true ->
  ((forall x, In x b -> ~ crec z c x) -> (exists z', apply_add_rr st z s = Ok z' /\ eff_add z z' c (rr_ttl (snd s)) b) \/ (exists e, apply_add_rr st z s = Err e /\ (e = KNOT_ESPACE \/ e = KNOT_ENOMEM))) /\
  (~ (forall x, In x b -> ~ crec z c x) -> if st then apply_add_rr st z s = Err KNOT_EISRECORD else exists z' h, add_node (fst s) z (ck c) = Ok (z', h) /\ apply_add_rr st z s = Ok z').
Proof.
  intros z [o r] c b st W G U. unfold apply_add_rr. pose proof (rel_ok _ _ _ _ G) as HRl. cbn [snd] in HRl. rewrite HRl. cbn [rbind fst snd] in *. destruct (add_node_ok o z (ck c) (proj1 W) U) as (z1 & h & E1). rewrite E1. cbn [rbind]. destruct (add_at z (o, r) c b z1 h W G E1) as (-> & n & GN & HH). destruct (add_node_view _ _ _ _ _ W E1) as (W1 & A1 & R1 & T1). rewrite GN.
  assert (G1 : good (z_apex z1) (o, r) c b) by (rewrite A1; auto). destruct (can_add_spec z1 _ c b W1 G1) as (q & E & HQ). rewrite GN in E. cbn [snd] in E, HH. rewrite E. cbn [rbind].
  assert (HQ' : q = true <-> (forall x, In x b -> ~ crec z c x)). { rewrite HQ. split; intros H x Hx; specialize (H x Hx); rewrite R1 in *; auto. }
  destruct q; cbn [negb].
  - split; [|intros H; exfalso; apply H, HQ'; auto]. intros _. assert (WN : node_wf (zn_rrs n)) by (pose proof (cwf_wf z1 c W1) as H; unfold rrs_at in H; rewrite GN in H; auto). destruct (c52_add (zn_rrs n) r b WN (proj1 G) (proj1 (proj2 G))) as (ret & n' & EA & HRet & _). rewrite EA. cbn [rbind]. destruct ((ret =? KNOT_EOK) || (ret =? KNOT_ETTL)) eqn:ER.
    + left. eexists. split; [reflexivity|]. eapply HH; eauto.
    + right. exists ret. split; auto. lia.
  - split; [intros H; apply HQ' in H; discriminate|]. intros _. destruct st; eauto.
Qed.
Lemma add_node_out : forall o z k, under o (z_apex z) = false -> add_node o z k = Err KNOT_EOUTOFZONE.
Proof. intros [|l p] z k H; assert (E : forall o, under o (z_apex z) = false -> name_eqb o (z_apex z) = false) by (intros [|? ?] X; cbn [under] in X; apply orb_false_iff in X; tauto); cbn [add_node]; rewrite (E _ H), H; reflexivity. Qed.
Lemma apply_add_strict : forall z s c b z', cwf z -> good (z_apex z) s c b -> apply_add_rr true z s = Ok z' -> (forall x, In x b -> ~ crec z c x) /\ under (fst s) (z_apex z) = true /\ eff_add z z' c (rr_ttl (snd s)) b.
Proof.
  intros z s c b z' W G E. assert (U : under (fst s) (z_apex z) = true).
  { destruct s as [o r]. unfold apply_add_rr in E. pose proof (rel_ok _ _ _ _ G) as HRl. cbn [snd] in HRl. rewrite HRl in E. cbn [rbind fst] in *. destruct (under o (z_apex z)) eqn:EU; auto. rewrite add_node_out in E by auto. discriminate. }
  destruct (apply_add_view z s c b true W G U) as [H1 H2]. destruct (can_add_spec z s c b W G) as (q & _ & HQ). destruct q.
  - pose proof (proj1 HQ eq_refl) as H. split; auto. split; auto. destruct (H1 H) as [(z1 & E1 & H3)|(e & E1 & _)]; congruence.
  - rewrite H2 in E; [discriminate|]. intros H. apply HQ in H. discriminate.
Qed.
(** ** Redundancy *)
Definition hits (z : contents) (c : cell) (ttl : Z) : Prop := exists v, cttl z c v /\ (v = ttl \/ ct c = RRSIG).
Lemma hits_dec : forall z c ttl, cwf z -> hits z c ttl \/ ~ hits z c ttl.
Proof.
  intros z c ttl W. destruct (has_dec (rrs_at z (ck c) (co c)) (ct c) (cwf_wf z c W)) as [(v & rs & H)|H].
  - assert (HV : cttl z c v) by (exists rs; auto). destruct (Z.eq_dec v ttl); [left; exists v; auto|]. destruct (Z.eq_dec (ct c) RRSIG); [left; exists v; auto|]. right. intros (w & Hw & [->|H1]); auto. apply n. eapply cttl_fun; eauto.
  - right. intros (v & (rs & Hv) & _). eapply H; eauto.
Qed.
Lemma redundancy_view : forall z s c b, cwf z -> good (z_apex z) s c b -> exists z' r' b', check_redundancy z s = Ok (z', (fst s, r')) /\ rr_type r' = rr_type (snd s) /\ rr_ttl r' = rr_ttl (snd s) /\ is (rr_rrs r') b' /\
  (hits z c (rr_ttl (snd s)) -> eff_rem z z' c b /\ forall x, In x b' <-> In x b /\ ~ crec z c x) /\
  (~ hits z c (rr_ttl (snd s)) -> z' = z /\ b' = b).
Proof.
  intros z [o r] c b W G. unfold check_redundancy. pose proof (rel_ok _ _ _ _ G) as HRl. cbn [snd fst] in *. rewrite HRl. cbn [rbind]. pose proof G as (HE & HI & HO & HT & HR & HA). cbn [snd fst] in *. rewrite <- HO.
  pose proof (cwf_wf z c W) as WN. assert (RA : rrs_at z (ck c) (co c) = match ZoneModel.zget z (ck c) (co c) with Some n => zn_rrs n | None => [] end) by reflexivity. destruct (ZoneModel.zget z (ck c) (co c)) as [n|] eqn:EG.
  2:{ exists z, r, b. split; auto. split; auto. split; auto. split; auto. split; auto. intros (v & Hv & _). exfalso. unfold cttl in Hv. rewrite RA in Hv. eapply nttl_nil; eauto. }
  rewrite RA in WN. pose proof (c52_lookup (zn_rrs n) (rr_type r) WN) as HL. destruct (node_rrset (zn_rrs n) (rr_type r)) as [e|] eqn:EN.
  2:{ exists z, r, b. split; auto. split; auto. split; auto. split; auto. split; auto. intros (v & (rs & Hv) & _). exfalso. rewrite RA, HT in Hv. destruct HL as [HL _]. eapply HL; eauto. }
  destruct HL as (rs & IE & TE & HH & ND). assert (HTT : cttl z c (rr_ttl e)) by (unfold cttl; rewrite RA, HT; exists rs; auto). assert (CR : forall x, crec z c x <-> In x rs). { intros x. unfold crec. rewrite RA, HT. split; [intros (v & rs' & H1 & H2); destruct (c52_unique _ _ _ _ _ _ WN H1 HH) as [_ ->]; auto|intros; exists (rr_ttl e), rs; auto]. }
  destruct ((rr_ttl r =? rr_ttl e) || (rr_type r =? RRSIG)) eqn:EH.
  - destruct (c07_subtract yes false (rr_rrs r) (rr_rrs e) b rs HI IE ltac:(discriminate)) as (ret & s1 & s2 & -> & _ & S1 & S2). cbn [rbind]. assert (ret = KNOT_EOK) as -> by (destruct (Z.eq_dec ret KNOT_EOK); auto; destruct (S2 n0) as (_ & m & Hm); discriminate). destruct (S1 eq_refl) as (b' & IB & HB).
    destruct (node_remove_view (zn_rrs n) r b WN HI) as (ret & n' & ER & HRet & HEx & _). assert (ret = KNOT_EOK) as -> by (apply HEx; exists (rr_ttl e), rs; auto). rewrite ER. cbn [rbind]. change (KNOT_EOK =? KNOT_EOK) with true. cbn [negb]. cbv zeta.
    eexists. eexists. exists b'. split; [reflexivity|]. cbn [rr_type rr_ttl rr_rrs]. split; auto. split; auto. split; auto. split; [|intros H; exfalso; apply H; exists (rr_ttl e); split; auto; lia]. intros _. split; [|intros; rewrite CR; auto].
    match goal with |- eff_rem z ?Z c b => assert (X : remove_from_node z (ck c) (co c) n r = Ok Z) end.
    { unfold remove_from_node. rewrite ER. cbn [rbind]. change (KNOT_EOK =? KNOT_EOK) with true. cbn [negb]. cbv zeta. match goal with |- context [if ?b then _ else _] => destruct b end; auto. }
    apply (remove_view z (o, r) c b n W G EG _ X).
  - replace (zlen (zn_rrs n) =? 0) with false. 2:{ destruct HH as (y & Iy & _). destruct (zn_rrs n); [destruct Iy|]. rewrite zlen_cons. pose proof (zlen_nonneg l). lia. }
    cbn [andb]. exists z, r, b. split; auto. split; auto. split; auto. split; auto. split; auto. intros (v & Hv & Hc). exfalso. rewrite (cttl_fun z c _ _ W Hv HTT) in Hc. lia.
Qed.
