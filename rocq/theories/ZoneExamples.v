(** Building concrete contents for examples. *)
From Verif Require Import Base RdatasetModel RdatasetSpec RdatasetProofs RdatasetProps NodeModel NodeProps ZoneModel ZoneProofs ZoneView ZoneFold.
From Coq Require Import Sorting.Sorted.

Lemma ex_is : forall l, canonical l -> zlen l < 2 ^ 16 -> zlen (layout l) < 2 ^ 32 -> is (ex_s l) l.
Proof. intros l H1 H2 H3. repeat (split; [solve [auto]|]). auto. Qed.
Definition rs (o : name) (t ttl : Z) (l : list (list Z)) : rrset := (o, mkrr t ttl (ex_s l)).
Lemma good_ex : forall a o t ttl l k, 1 <= t <= 65535 -> canonical l -> l <> [] -> zlen l < 2 ^ 16 -> zlen (layout l) < 2 ^ 32 -> Forall (rec_ok k t) l -> (k = true -> o <> a) -> good a (rs o t ttl l) (k, o, t) l.
Proof.
  intros a o t ttl l k HT HC HN H1 H2 HF HA. pose proof (ex_is l HC H1 H2) as HI. split; [split; [cbn; lia|exists l; auto]|]. split; auto. split; auto. split; auto. split; auto. intros x Hx. rewrite Forall_forall in HF. apply HF. auto.
Qed.
Lemma new_wf : forall a, cwf (contents_new a).
Proof.
  intros a. assert (R : forall k o, rrs_at (contents_new a) k o = []). { intros k o. unfold rrs_at, ZoneModel.zget, contents_new. cbn [z_apex z_apexn z_nodes z_nsec3]. destruct k; auto. destruct (name_eqb o a); auto. }
  split; [split; [constructor|split; [constructor|split; intros []]]|]. split; [intros; rewrite R; apply wf_nil|]. split; [intros c x H; exfalso; unfold crec in H; rewrite R in H; eapply recs_nil; eauto|]. intros k o. unfold ZoneModel.zget, contents_new. cbn [z_apex z_apexn z_nodes z_nsec3]. destruct k; [intros H; contradiction|]. destruct (name_eqb o a) eqn:E; [|intros H; contradiction]. apply neqb_spec in E. subst. intros _. apply under_refl.
Qed.
Definition build (a : name) (l : list rrset) : res contents := fold_res add_rr_to_contents l (contents_new a).
Lemma build_wf : forall a l z, Forall (fun s => exists c b, good a s c b) l -> build a l = Ok z -> cwf z /\ z_apex z = a.
Proof.
  intros a l z HF E. assert (G : forall l z0, cwf z0 -> z_apex z0 = a -> Forall (fun s => exists c b, good a s c b) l -> fold_res add_rr_to_contents l z0 = Ok z -> cwf z /\ z_apex z = a).
  { clear. induction l as [|s l IH]; intros z0 W A HF E; cbn [fold_res] in E; [injection E as <-; auto|]. destruct (Forall_inv HF) as (c & b & G). unfold add_rr_to_contents in E at 1. destruct (contents_add_rr z0 s) as [[ret z1]| | |] eqn:E1; cbn [rbind] in E; try discriminate. rewrite <- A in G. destruct (contents_add_view _ _ _ _ _ _ W G E1) as (W1 & A1 & _). apply (IH z1); auto; [congruence|eapply Forall_inv_tail; eauto]. }
  apply (G l (contents_new a)); auto. apply new_wf.
Qed.
Lemma crec_in : forall z c x, cwf z -> crec z c x -> exists e b, In (c, e) (cells z) /\ is (rr_rrs e) b /\ In x b.
Proof. intros z c x W H. apply inl_cells in H; auto. Qed.
Lemma cttl_in : forall z c v, cwf z -> (cttl z c v <-> exists e, In (c, e) (cells z) /\ rr_ttl e = v).
Proof.
  intros z c v W. split; [intros (b & (e & HI & HT & HV & _)); exists e; split; auto; apply cells_in; [apply W|auto]|]. intros (e & HI & <-). destruct (cells_good z c e W HI) as (b & _ & _ & H); [eapply cells_apex; eauto|auto].
Qed.
Ltac canon := split; [repeat constructor|repeat (constructor; [split; [repeat constructor; unfold byte; lia|cbv; discriminate]|]); constructor].
Ltac gex k := eexists; eexists; apply (good_ex _ _ _ _ _ k); [lia|canon|discriminate|cbv; reflexivity|cbv; reflexivity|repeat (constructor; [split; [reflexivity|intros; try discriminate; cbv; discriminate]|]); constructor|try discriminate].
