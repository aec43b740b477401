(** C55: which names exist in a zone, and how many children they have. *)
From Verif Require Import Base RdatasetModel RdatasetSpec RdatasetProofs RdatasetProps NodeModel NodeProps ZoneModel ZoneProofs ZoneView ZoneFold ZoneExamples ChangesetProofs ZoneTree.
From Coq Require Import FinFun.

(** ** Specification *)
(** An RRset that can be given to the operations: some records, distinct and sorted, that belong to one of the trees. *)
Definition proper (a : name) (s : rrset) : Prop := exists c b, good a s c b.
(** What the operations make of an empty zone. *)
Inductive reachable (a : name) : contents -> Prop :=
| r_new : reachable a (contents_new a)
| r_add : forall z s ret z', reachable a z -> proper a s -> contents_add_rr z s = Ok (ret, z') -> reachable a z'
| r_remove : forall z s z', reachable a z -> proper a s -> contents_remove_rr z s = Ok z' -> reachable a z'
| r_cancel : forall z s z' s', reachable a z -> proper a s -> check_redundancy z s = Ok (z', s') -> reachable a z'
| r_apply_add : forall z s strict z', reachable a z -> proper a s -> apply_add_rr strict z s = Ok z' -> reachable a z'
| r_apply_remove : forall z s strict z', reachable a z -> proper a s -> apply_remove_rr strict z s = Ok z' -> reachable a z'.
(** The name owns a node in the tree. *)
Definition name_exists (z : contents) (k : bool) (o : name) : Prop := ZoneModel.zget z k o <> None.
(** A record with this owner and type. *)
Definition has_record (z : contents) (k : bool) (o : name) (t : Z) (x : list Z) : Prop := records (rrs_at z k o) t x.

(** ** Proofs *)
Lemma new_struct : forall a, struct (contents_new a).
Proof.
  intros a. assert (EX : forall k o n, ZoneModel.zget (contents_new a) k o = Some n -> k = false /\ o = a /\ n = mkzn [] 0). { intros k o n. unfold ZoneModel.zget, contents_new. cbn [z_apex z_apexn z_nodes z_nsec3 tget]. destruct k; [discriminate|]. destruct (name_eqb o a) eqn:E; [|discriminate]. intros [= <-]. split; auto. split; auto. apply neqb_spec. auto. }
  split; [split|].
  - apply new_wf.
  - intros k o H. apply ex_get in H. destruct H as (n & H). apply EX in H. destruct H as (_ & -> & _). apply under_refl.
  - intros k l p H NA. apply ex_get in H. destruct H as (n & H). apply EX in H. destruct H as (_ & H & _). contradiction.
  - intros k o n H. apply EX in H. destruct H as (-> & -> & ->). rewrite pend_nil. unfold cnt. cbn [z_apex contents_new]. rewrite neqb_refl. reflexivity.
  - intros x [].
  - intros k o n H. apply EX in H. destruct H as (_ & -> & _). auto.
Qed.
Lemma eff_nonempty : forall z z' c ttl b, b <> [] -> eff_add z z' c ttl b -> rrs_at z' (ck c) (co c) <> [].
Proof. intros z z' c ttl b NB (_ & _ & R & _) E. destruct b as [|x b]; [contradiction|]. assert (H : crec z' c x) by (apply R; right; split; auto; left; auto). unfold crec in H. rewrite E in H. eapply recs_nil; eauto. Qed.
Lemma rrs_here : forall z k o n, rrs_at (zset z k o n) k o = zn_rrs n.
Proof. intros. rewrite rrs_set, (proj2 (here_spec _ _ _ _)); auto. Qed.
Lemma reach_inv : forall a z, reachable a z -> cwf z /\ z_apex z = a /\ struct z.
Proof.
  intros a z H. induction H as [|z s ret z' HR (W & A & S) (c & b & G) E|z s z' HR (W & A & S) (c & b & G) E|z s z' s' HR (W & A & S) (c & b & G) E|z s st z' HR (W & A & S) (c & b & G) E|z s st z' HR (W & A & S) (c & b & G) E].
  - split; [apply new_wf|]. split; auto. apply new_struct.
  - rewrite <- A in G. pose proof (contents_add_view _ _ _ _ _ _ W G E) as V. split; [apply V|]. split; [destruct V as (_ & V & _); congruence|]. pose proof (eff_nonempty _ _ _ _ _ (good_b _ _ _ _ G) V) as NE. destruct s as [o r]. unfold contents_add_rr in E. pose proof (good_empty _ _ _ _ G) as HEm. pose proof (rel_ok _ _ _ _ G) as HRl. cbn [snd] in *. rewrite HEm, HRl in E. cbn [rbind] in E. destruct (add_node o z (ck c)) as [[z1 h]| | |] eqn:E1; cbn [rbind] in E; try discriminate.
    destruct (add_at _ _ _ _ _ _ W G E1) as (-> & n & GN & _). rewrite GN in E. destruct (node_add_rrset yes true (zn_rrs n) r) as [[ret' rrs]| | |]; cbn [rbind] in E; try discriminate. destruct ((ret' =? KNOT_EOK) || (ret' =? KNOT_ETTL)); [|discriminate]. injection E as <- <-. rewrite rrs_here in NE. apply (grow_struct z (ck c) o z1 (ck c, co c) n rrs S E1 GN NE).
  - rewrite <- A in G. destruct s as [o r]. unfold contents_remove_rr in E. pose proof (good_empty _ _ _ _ G) as HEm. pose proof (rel_ok _ _ _ _ G) as HRl. cbn [snd] in *. rewrite HEm, HRl in E. destruct (negb _); [discriminate|]. cbn [rbind] in E. pose proof (proj1 (proj2 (proj2 G))) as HO. cbn [fst] in HO. rewrite <- HO in E. destruct (ZoneModel.zget z (ck c) (co c)) as [n|] eqn:GN; [|discriminate].
    destruct (remove_view _ _ _ _ _ W G GN _ E) as (V & _). split; [apply V|]. split; [destruct V as (_ & V & _); congruence|]. eapply remove_struct; eauto.
  - rewrite <- A in G. destruct (redundancy_view z s c b W G) as (z1 & r' & b' & E1 & _ & _ & _ & H1 & H2). rewrite E1 in E. injection E as <- <-. assert (V : cwf z1 /\ z_apex z1 = z_apex z). { destruct (hits_dec z c (rr_ttl (snd s)) W) as [Q|Q]; [destruct (H1 Q) as [V _]; split; apply V|destruct (H2 Q) as [-> _]; auto]. } split; [apply V|]. split; [destruct V; congruence|]. clear H1 H2.
    destruct s as [o r]. unfold check_redundancy in E1. pose proof (rel_ok _ _ _ _ G) as HRl. cbn [snd fst] in *. rewrite HRl in E1. cbn [rbind] in E1. destruct (ZoneModel.zget z (ck c) o) as [n|] eqn:GN; [|injection E1 as <- _; auto]. destruct (node_rrset (zn_rrs n) (rr_type r)) as [e|] eqn:EN; [|injection E1 as <- _; auto]. destruct (_ || _).
    + destruct (rdataset_subtract yes false (rr_rrs r) (rr_rrs e)) as [[[? ?] ?]| | |]; cbn [rbind] in E1; try discriminate. destruct (node_remove_rrset yes false (zn_rrs n) r) as [[ret rrs]| | |]; cbn [rbind] in E1; try discriminate. destruct (negb _); [injection E1 as <- _; auto|]. cbv zeta in E1. pose proof (drop_struct z (ck c) o n rrs S GN) as D. destruct (_ && _ && _); injection E1 as <- _; auto.
    + cbv zeta in E1. destruct (zn_rrs n) as [|e0 l]; [discriminate|]. assert (X : (zlen (e0 :: l) =? 0) = false) by (rewrite zlen_cons; pose proof (zlen_nonneg l); lia). rewrite X in E1. cbn [andb] in E1. injection E1 as <- _. auto.
  - rewrite <- A in G. destruct (can_add_spec z s c b W G) as (q & EQ & HQ). assert (U : under (fst s) (z_apex z) = true). { destruct s as [o r]. unfold apply_add_rr in E. pose proof (rel_ok _ _ _ _ G) as HRl. cbn [snd] in HRl. rewrite HRl in E. cbn [rbind fst] in *. destruct (under o (z_apex z)) eqn:EU; auto. rewrite add_node_out in E by auto. discriminate. }
    destruct (apply_add_view z s c b st W G U) as [H1 H2]. destruct q.
    + destruct (H1 (proj1 HQ eq_refl)) as [(z1 & E1 & V)|(e & E1 & _)]; [|congruence]. rewrite E1 in E. injection E as <-. split; [apply V|]. split; [destruct V as (_ & V & _); congruence|]. pose proof (eff_nonempty _ _ _ _ _ (good_b _ _ _ _ G) V) as NE. destruct s as [o r]. unfold apply_add_rr in E1. pose proof (rel_ok _ _ _ _ G) as HRl. cbn [snd fst] in *. rewrite HRl in E1. cbn [rbind] in E1. destruct (add_node o z (ck c)) as [[z2 h]| | |] eqn:E2; cbn [rbind] in E1; try discriminate.
      destruct (add_at _ _ _ _ _ _ W G E2) as (-> & n & GN & _). destruct (add_node_view _ _ _ _ _ W E2) as (W2 & A2 & R2 & _). rewrite <- A2 in G. destruct (can_add_spec z2 _ c b W2 G) as (q & EQ2 & HQ2). cbn [snd] in EQ2. rewrite EQ2 in E1. cbn [rbind] in E1. replace q with true in E1. 2:{ symmetry. apply HQ2. intros x Hx. rewrite R2. apply HQ; auto. } cbn [negb] in E1. rewrite GN in E1. destruct (node_add_rrset yes true (zn_rrs n) r) as [[ret' rrs]| | |]; cbn [rbind] in E1; try discriminate. destruct ((ret' =? KNOT_EOK) || (ret' =? KNOT_ETTL)); [|discriminate]. injection E1 as <-. rewrite rrs_here in NE. apply (grow_struct z (ck c) o z2 (ck c, co c) n rrs S E2 GN NE).
    + assert (NQ : ~ (forall x, In x b -> ~ crec z c x)) by (intros X; apply HQ in X; discriminate). specialize (H2 NQ). destruct st; [congruence|]. destruct H2 as (z1 & h & E1 & E2). rewrite E2 in E. injection E as <-. destruct (ZoneModel.zget z (ck c) (co c)) as [n|] eqn:GN.
      * pose proof (proj1 (proj2 (proj2 G))) as HO. rewrite <- HO in E1. rewrite (add_node_same z _ _ n (proj1 S) GN) in E1. injection E1 as <- _. auto.
      * exfalso. apply NQ. intros x _ X. unfold crec, rrs_at in X. rewrite GN in X. eapply recs_nil; eauto.
  - rewrite <- A in G. destruct (apply_remove_view z s c b st W G) as [H1 H2]. destruct (can_remove_spec z s c b W G) as (q & EQ & HQ). destruct q.
    + destruct (H1 (proj1 HQ eq_refl)) as (z1 & E1 & V). rewrite E1 in E. injection E as <-. split; [apply V|]. split; [destruct V as (_ & V & _); congruence|]. destruct s as [o r]. unfold apply_remove_rr in E1. pose proof (rel_ok _ _ _ _ G) as HRl. cbn [snd fst] in *. rewrite HRl in E1. cbn [rbind] in E1. pose proof (proj1 (proj2 (proj2 G))) as HO. cbn [fst] in HO. rewrite <- HO in E1. rewrite EQ in E1. cbn [rbind negb] in E1. destruct (ZoneModel.zget z (ck c) (co c)) as [n|] eqn:GN; [|discriminate]. eapply remove_struct; eauto.
    + rewrite H2 in E by (intros X; apply HQ in X; discriminate). destruct st; [discriminate|]. injection E as <-. auto.
Qed.
(** A node has records at or below its name. *)
Lemma max_len : forall z k, exists m, forall o, ex z k o -> (length o <= m)%nat.
Proof.
  intros z k. assert (G : forall l : list name, exists m, forall o, In o l -> (length o <= m)%nat). { induction l as [|x l (m & IH)]; [exists O; intros o []|]. exists (Nat.max (length x) m). intros o [<-|H]; [lia|]. apply IH in H. lia. }
  destruct (G (z_apex z :: names z k)) as (m & H). exists m. intros o HE. apply H. apply ex_names in HE. destruct HE as [[_ ->]|HE]; [left; auto|right; auto].
Qed.
Lemma kid_in : forall l o, 0 < kids l o -> exists x, In (x :: o) l.
Proof. intros l o H. unfold kids in H. destruct (filter (is_child o) l) as [|x t] eqn:E; [rewrite zlen_nil in H; lia|]. assert (HI : In x (filter (is_child o) l)) by (rewrite E; left; auto). apply filter_In in HI. destruct HI as [HI HC]. apply child_spec in HC. destruct HC as (y & ->). eauto. Qed.
Lemma down : forall z k o, cwf z -> struct z -> ex z k o -> o <> z_apex z -> exists q t x, has_record z k (q ++ o) t x.
Proof.
  intros z k o W [L F] HE NA. destruct (max_len z k) as (m & HM). remember (m - length o)%nat as d eqn:ED. revert o HE NA ED. induction d as [d IH] using lt_wf_ind. intros o HE NA ED. destruct (ex_get _ _ _ HE) as (n & G). destruct (F _ _ _ G) as [[]|[X|[X|X]]]; [contradiction| |].
  - exists []. cbn [app]. pose proof (proj1 (proj2 W) k o) as WN. assert (RN : rrs_at z k o = zn_rrs n) by (unfold rrs_at; rewrite G; auto). unfold has_record. rewrite RN in *. destruct (zn_rrs n) as [|e rrs] eqn:ER; [contradiction|]. destruct WN as [_ WF]. destruct (Forall_inv WF) as [_ (b & IB & NB)]. destruct b as [|y b]; [contradiction|]. exists (rr_type e), y, (rr_ttl e), (y :: b). split; [exists e; split; [left; auto|auto]|left; auto].
  - destruct L as [K U P C Q]. rewrite (C _ _ _ G), pend_nil in X. unfold cnt in X. rewrite (neqb_neq _ _ NA) in X. destruct (kid_in (names z k) o ltac:(lia)) as (l & HI). assert (HE' : ex z k (l :: o)) by (apply ex_names; auto). pose proof (HM _ HE') as HL. cbn [length] in HL. destruct (IH (m - length (l :: o))%nat ltac:(cbn [length]; lia) (l :: o) HE') as (q & t & x & H); auto.
    + intros X1. destruct K as (_ & _ & K1 & K2). unfold names in HI. destruct k; rewrite X1 in HI; auto.
    + exists (q ++ [l]), t, x. rewrite <- app_assoc. auto.
Qed.
Lemma under_spec : forall o a, under o a = true <-> exists q, o = q ++ a.
Proof.
  induction o as [|l p IH]; intros a; cbn [under]; rewrite orb_true_iff, neqb_spec.
  - split; [intros [<-|H]; [exists []; auto|discriminate]|]. intros (q & E). symmetry in E. apply app_eq_nil in E. destruct E as [_ ->]. auto.
  - rewrite IH. split; [intros [<-|(q & ->)]; [exists []; auto|exists (l :: q); auto]|]. intros ([|l' q] & E); [left; auto|right]. injection E as _ ->. eauto.
Qed.
Lemma up : forall z k q o, linked z false [] -> ex z k (q ++ o) -> under o (z_apex z) = true -> o <> z_apex z -> ex z k o.
Proof.
  intros z k q o L H U NA. apply under_spec in U. destruct U as (u & U). assert (LU : (length (z_apex z) < length o)%nat). { rewrite U, app_length. destruct u; [exfalso; apply NA; auto|cbn [length]; lia]. }
  induction q as [|l q IH]; auto. apply IH. cbn [app] in H. pose proof L as [_ _ P _ _]. assert (N : forall t, t ++ o <> z_apex z). { intros t X. apply (f_equal (@length _)) in X. rewrite app_length in X. lia. } destruct (P k l (q ++ o) H (N (l :: q))) as [[_ []]|HE]. unfold pk in HE. rewrite (neqb_neq _ _ (N q)) in HE. auto.
Qed.

(** ** C55 *)
(** A name below the apex exists in a tree exactly if there is a record of the tree at or below it: removing the last
    record removes the empty names above, adding one creates them. *)
Theorem c55_exists : forall a z k o, reachable a z -> o <> a ->
  (name_exists z k o <-> under o a = true /\ exists q t x, has_record z k (q ++ o) t x).
Proof.
  intros a z k o R NA. apply reach_inv in R. destruct R as (W & <- & S). split.
  - intros HE. split; [apply S in HE; auto|]. apply down; auto.
  - intros (U & q & t & x & HR). apply (up z k q o (proj1 S)); auto. intros X. unfold has_record, rrs_at in HR. rewrite X in HR. eapply recs_nil; eauto.
Qed.
(** The apex is always there, and it is not in the tree of NSEC3 nodes. *)
Theorem c55_apex : forall a z, reachable a z -> z_apex z = a /\ name_exists z false a /\ ~ name_exists z true a.
Proof.
  intros a z R. apply reach_inv in R. destruct R as (W & <- & S). split; auto. split; [apply ex_names; auto|]. intros H. apply ex_names in H. destruct H as [[H _]|H]; [discriminate|]. apply W in H. auto.
Qed.
(** The number kept in a node is the number of names one label below that exist; the apex counts both trees. *)
Theorem c55_children : forall a z k o n, reachable a z -> ZoneModel.zget z k o = Some n ->
  exists cs : list (bool * name), NoDup cs /\ zn_children n = zlen cs /\ forall k' x, In (k', x) cs <-> name_exists z k' x /\ (exists l, x = l :: o) /\ (k' = k \/ o = a).
Proof.
  intros a z k o n R G. apply reach_inv in R. destruct R as (W & <- & [[K U P C Q] F]). rewrite (C _ _ _ G), pend_nil.
  set (f := fun k' => map (pair k') (filter (is_child o) (names z k'))). exists (if name_eqb o (z_apex z) then f false ++ f true else f k).
  assert (NF : forall k', NoDup (f k')). { intros k'. unfold f. apply FinFun.Injective_map_NoDup; [intros x y [=]; auto|]. apply NoDup_filter. destruct K as (N1 & N2 & _). destruct k'; auto. }
  assert (IF : forall k1 k' x, In (k', x) (f k1) <-> k' = k1 /\ name_exists z k' x /\ exists l, x = l :: o).
  { intros k1 k' x. unfold f. rewrite in_map_iff. split.
    - intros (y & [= <- <-] & H). apply filter_In in H. destruct H as [H1 H2]. apply child_spec in H2. split; auto. split; auto. apply ex_names. auto.
    - intros (-> & H1 & (l & ->)). exists (l :: o). split; auto. apply filter_In. split; [|apply child_spec; eauto]. apply ex_names in H1. destruct H1 as [[_ X]|H1]; auto. exfalso. pose proof (U _ _ (get_ex _ _ _ _ G)) as HU. apply under_spec in HU. destruct HU as (q & HU). apply (f_equal (@length _)) in X. rewrite HU in X. cbn [length] in X. rewrite app_length in X. lia. }
  assert (LF : forall k', zlen (f k') = kids (names z k') o) by (intros; unfold f, kids, zlen; rewrite map_length; auto).
  unfold cnt. destruct (name_eqb o (z_apex z)) eqn:EA.
  - apply neqb_spec in EA. split; [apply nodup_app; auto; intros [k' x] H1 H2; apply IF in H1, H2; destruct H1, H2; congruence|]. split; [rewrite zlen_app, !LF; lia|]. intros k' x. rewrite in_app_iff, !IF. destruct k'; intuition.
  - split; auto. split; [rewrite LF; lia|]. intros k' x. rewrite IF. split; [tauto|]. intros (H1 & H2 & [H|H]); [auto|]. rewrite H, neqb_refl in EA. discriminate.
Qed.
(** The whole update keeps to the reachable states. *)
Theorem c55_update : forall a fuel strict u s u', reachable a (u_new u) -> proper a s ->
  zone_update_add fuel strict u s = Ok u' \/ zone_update_remove strict u s = Ok u' -> reachable a (u_new u').
Proof.
  intros a. assert (RM : forall strict u s u', reachable a (u_new u) -> proper a s -> zone_update_remove strict u s = Ok u' -> reachable a (u_new u')).
  { intros strict u s u' R PR E. unfold zone_update_remove in E. destruct (rr_empty (snd s)); [injection E as <-; auto|]. destruct (_ =? SOA); [injection E as <-; auto|]. destruct (apply_remove_rr strict (u_new u) s) as [z| | |] eqn:E1; cbn [rbind] in E; try discriminate. pose proof (r_apply_remove a _ _ _ _ R PR E1) as R1. destruct (u_chg u); [|injection E as <-; auto]. destruct (changeset_add_removal c s true); cbn [rbind] in E; try discriminate. injection E as <-. auto. }
  assert (ELEM : forall z k o n t e, reachable a z -> ZoneModel.zget z k o = Some n -> node_rrset (zn_rrs n) t = Some e -> proper a (o, e)).
  { intros z k o n t e R G EN. apply reach_inv in R. destruct R as (W & <- & _). pose proof (proj1 (proj2 W) k o) as WN. unfold rrs_at in WN. rewrite G in WN. assert (IE : In e (zn_rrs n)). { clear - EN. induction (zn_rrs n) as [|e0 l IHl]; [discriminate|]. cbn [node_rrset] in EN. destruct (rr_type e0 =? t); [injection EN as <-; left; auto|right; auto]. } assert (IC : In ((k, o, rr_type e), e) (cells z)) by (apply cells_in; [apply W|split; [reflexivity|unfold ck, co; cbn [fst snd]; unfold rrs_at; rewrite G; exact IE]]). destruct (cells_good z _ e W IC) as (b & GB & _); [eapply cells_apex; eauto|]. eexists; eexists; exact GB. }
  induction fuel as [|fuel IH]; intros strict u s u' R PR [E|E]; try (eapply RM; eauto; fail); [discriminate|].
  destruct s as [o r]. cbn [zone_update_add] in E. destruct (rr_empty r); [injection E as <-; auto|].
  destruct (if rr_type r =? SOA then _ else _) as [z| | |] eqn:E1; cbn [rbind] in E; try discriminate. cbn [u_new u_chg] in E.
  assert (R1 : reachable a z).
  { destruct (rr_type r =? SOA); [|eapply r_apply_add; eauto]. unfold apply_replace_soa in E1. destruct (negb _); [discriminate|]. destruct (node_rrset (zn_rrs (z_apexn (u_new u))) SOA) as [e|] eqn:EN.
    - destruct (apply_remove_rr strict (u_new u) (z_apex (u_new u), e)) as [z1| | |] eqn:E2; cbn [rbind] in E1; try discriminate. assert (R2 : reachable a z1). { eapply r_apply_remove; [exact R| |exact E2]. eapply (ELEM _ false); [exact R| |exact EN]. unfold ZoneModel.zget. rewrite neqb_refl. auto. } destruct (node_rrset (zn_rrs (z_apexn z1)) SOA); [discriminate|]. eapply r_apply_add; eauto.
    - destruct strict; cbn [rbind] in E1; [discriminate|]. rewrite EN in E1. eapply r_apply_add; eauto. }
  match goal with H : rbind ?m _ = _ |- _ => destruct m as [u1| | |] eqn:E2; cbn [rbind] in H; try discriminate end.
  assert (R2 : reachable a (u_new u1)).
  { destruct (_ || _); [injection E2 as <-; auto|]. destruct (ZoneModel.zget z false o) as [n|] eqn:G; [|injection E2 as <-; auto]. destruct (node_rrset (zn_rrs n) (rr_type r)) as [e|] eqn:EN; [|injection E2 as <-; auto]. destruct (_ || _); [injection E2 as <-; auto|]. pose proof (ELEM z false o n _ e R1 G EN) as PE. destruct (zone_update_remove strict (mkup z (u_chg u)) (o, e)) as [u2| | |] eqn:E3; cbn [rbind] in E2; try discriminate. apply RM in E3; auto. apply (IH strict u2 (o, mkrr (rr_type e) (rr_ttl r) (rr_rrs e)) u1 E3); auto. }
  destruct (u_chg u1); [|injection E as <-; auto]. destruct (changeset_add_addition c (o, r) true); cbn [rbind] in E; try discriminate. injection E as <-. auto.
Qed.

(** A case: c.b.a. owns a record, b.a. exists without any; both vanish with the record. *)
Definition na : name := [[97]]. Definition nba : name := [[98]; [97]]. Definition ncba : name := [[99]; [98]; [97]].
Definition s_c : rrset := rs ncba 1 3600 [[10; 0; 0; 1]].
Definition z_with : contents := match contents_add_rr (contents_new na) s_c with Ok (_, z) => z | _ => contents_new na end.
Example c55_case_proper : proper na s_c.
Proof. gex false. Qed.
Example c55_case : reachable na z_with /\ name_exists z_with false nba /\ rrs_at z_with false nba = [] /\
  (exists n, ZoneModel.zget z_with false nba = Some n /\ zn_children n = 1) /\
  exists z, contents_remove_rr z_with s_c = Ok z /\ reachable na z /\ ~ name_exists z false nba.
Proof.
  assert (R : reachable na z_with). { eapply (r_add na (contents_new na) s_c); [constructor|apply c55_case_proper|vm_compute; reflexivity]. }
  split; auto. split; [vm_compute; discriminate|]. split; [vm_compute; reflexivity|]. split; [eexists; split; vm_compute; reflexivity|].
  eexists. split; [vm_compute; reflexivity|]. split; [|intros H; apply H; vm_compute; reflexivity].
  eapply (r_remove na z_with s_c); [exact R|apply c55_case_proper|vm_compute; reflexivity].
Qed.
Print Assumptions c55_exists. Print Assumptions c55_apex. Print Assumptions c55_children. Print Assumptions c55_update.
