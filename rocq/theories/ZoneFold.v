(** Iteration over the RRsets of contents, and applying all of them. *)
From Verif Require Import Base RdatasetModel RdatasetSpec RdatasetProofs RdatasetProps NodeModel NodeProps ZoneModel ZoneProofs ZoneView.
From Coq Require Import Sorting.Sorted.

Definition ncells (k : bool) (o : name) (n : list rr_data) : list (cell * rr_data) := map (fun e => ((k, o, rr_type e), e)) n.
Definition tcells (k : bool) (t : tree) : list (cell * rr_data) := flat_map (fun p => ncells k (fst p) (zn_rrs (snd p))) t.
Definition cells (z : contents) : list (cell * rr_data) := ncells false (z_apex z) (zn_rrs (z_apexn z)) ++ tcells false (z_nodes z) ++ tcells true (z_nsec3 z).
Definition sof (q : cell * rr_data) : rrset := (co (fst q), snd q).
Lemma iter_cells : forall z, iter z = map sof (cells z).
Proof.
  intros z. unfold iter, cells. cbn [flat_map fst snd]. rewrite flat_map_app, !map_app. f_equal; [unfold ncells; rewrite map_map; apply map_ext; reflexivity|].
  assert (G : forall k t, flat_map (fun p : name * znode => map (fun e => (fst p, e)) (zn_rrs (snd p))) t = map sof (tcells k t)).
  { intros k. induction t as [|[o n] t IH]; auto. unfold tcells in *. cbn [flat_map fst snd]. rewrite map_app, <- IH. f_equal. unfold ncells. rewrite map_map. apply map_ext. reflexivity. }
  f_equal; apply G.
Qed.
Lemma ncells_in : forall k o n c e, In (c, e) (ncells k o n) <-> ck c = k /\ co c = o /\ ct c = rr_type e /\ In e n.
Proof.
  intros k o n c e. unfold ncells. rewrite in_map_iff. split.
  - intros (e' & [= <- <-] & H). auto.
  - intros (<- & <- & H & HI). exists e. rewrite <- H, <- cell_eta. auto.
Qed.
Lemma tcells_in : forall k t c e, NoDup (map fst t) -> (In (c, e) (tcells k t) <-> ck c = k /\ ct c = rr_type e /\ exists n, tget t (co c) = Some n /\ In e (zn_rrs n)).
Proof.
  intros k t c e HN. unfold tcells. rewrite in_flat_map. split.
  - intros ([o n] & HI & H). cbn [fst snd] in H. apply ncells_in in H. destruct H as (H1 & H2 & H3 & H4). split; auto. split; auto. exists n. split; auto. apply tget_in; auto. rewrite H2. auto.
  - intros (H1 & H3 & n & HG & H4). exists (co c, n). split; [apply tget_in; auto|]. apply ncells_in. auto.
Qed.
Lemma cells_in : forall z c e, keys_ok z -> (In (c, e) (cells z) <-> ct c = rr_type e /\ In e (rrs_at z (ck c) (co c))).
Proof.
  intros z c e (N1 & N2 & A1 & A2). unfold cells. rewrite !in_app_iff, ncells_in, !tcells_in by auto. unfold rrs_at, ZoneModel.zget. destruct (ck c) eqn:EK.
  - split.
    + intros [H|[H|H]]; [destruct H; discriminate|destruct H; discriminate|]. destruct H as (_ & H & n & -> & HI). auto.
    + intros [H HI]. right. right. split; auto. split; auto. destruct (tget (z_nsec3 z) (co c)); [eauto|destruct HI].
  - destruct (name_eqb (co c) (z_apex z)) eqn:EN.
    + apply neqb_spec in EN. split.
      * intros [H|[H|H]]; [tauto| |destruct H; discriminate]. exfalso. destruct H as (_ & _ & n & H & _). apply tget_in in H; auto. apply A1. rewrite <- EN. apply in_map_iff. exists (co c, n). auto.
      * intros [H HI]. left. auto.
    + split.
      * intros [H|[H|H]]; [| |destruct H; discriminate]. { destruct H as (_ & H & _). apply neqb_spec in H. congruence. } destruct H as (_ & H & n & -> & HI). auto.
      * intros [H HI]. right. left. split; auto. split; auto. destruct (tget (z_nodes z) (co c)); [eauto|destruct HI].
Qed.
Lemma nodup_app : forall (A : Type) (a b : list A), NoDup a -> NoDup b -> (forall x, In x a -> In x b -> False) -> NoDup (a ++ b).
Proof. induction a as [|x a IH]; intros b HA HB H; auto. inversion HA as [|? ? H1 H2]; subst. cbn [app]. constructor; [|apply IH; auto; intros y Hy; apply H; right; auto]. rewrite in_app_iff. intros [X|X]; auto. apply (H x); auto. left. auto. Qed.
Lemma ncells_nodup : forall k o n, node_wf n -> NoDup (map fst (ncells k o n)).
Proof.
  intros k o n [HS _]. unfold ncells. rewrite map_map. induction HS as [|e n HS IH HF]; cbn [map fst]; constructor; auto. rewrite in_map_iff. intros (y & E & HI). cbn [fst] in E. injection E as E. rewrite Forall_forall in HF. specialize (HF y HI). unfold type_lt in HF. lia.
Qed.
Lemma cells_fst : forall k o n c, In c (map fst (ncells k o n)) -> ck c = k /\ co c = o.
Proof. intros k o n c H. apply in_map_iff in H. destruct H as ([c' e] & <- & H). apply ncells_in in H. tauto. Qed.
Lemma tcells_fst : forall k t c, In c (map fst (tcells k t)) -> ck c = k /\ In (co c) (map fst t).
Proof.
  intros k t c H. apply in_map_iff in H. destruct H as ([c' e] & <- & H). unfold tcells in H. apply in_flat_map in H. destruct H as ([o n] & HI & H). apply ncells_in in H. cbn [fst snd] in *. destruct H as (H1 & H2 & _). split; auto. apply in_map_iff. exists (o, n). auto.
Qed.
Lemma tcells_nodup : forall k t, NoDup (map fst t) -> (forall o n, In (o, n) t -> node_wf (zn_rrs n)) -> NoDup (map fst (tcells k t)).
Proof.
  intros k. induction t as [|[o n] t IH]; intros HN HW; [constructor|]. unfold tcells. cbn [flat_map fst snd]. rewrite map_app. inversion HN as [|? ? N1 N2]; subst. apply nodup_app; [apply ncells_nodup, (HW o n); left; auto|apply IH; auto; intros; eapply HW; right; eauto|].
  intros c H1 H2. apply cells_fst in H1. apply tcells_fst in H2. destruct H1 as [_ H1], H2 as [_ H2]. apply N1. rewrite <- H1. auto.
Qed.
Lemma cells_nodup : forall z, cwf z -> NoDup (map fst (cells z)).
Proof.
  intros z ((N1 & N2 & A1 & A2) & W & _). unfold cells. rewrite !map_app. apply nodup_app; [|apply nodup_app|].
  - apply ncells_nodup. specialize (W false (z_apex z)). unfold rrs_at, ZoneModel.zget in W. rewrite neqb_refl in W. auto.
  - apply tcells_nodup; auto. intros o n HI. specialize (W false o). unfold rrs_at, ZoneModel.zget in W. rewrite neqb_neq in W; [|intros ->; apply A1, in_map_iff; exists (z_apex z, n); auto]. apply tget_in in HI; auto. rewrite HI in W. auto.
  - apply tcells_nodup; auto. intros o n HI. specialize (W true o). unfold rrs_at, ZoneModel.zget in W. apply tget_in in HI; auto. rewrite HI in W. auto.
  - intros c H1 H2. apply tcells_fst in H1, H2. destruct H1 as [H1 _], H2 as [H2 _]. congruence.
  - intros c H1 H2. rewrite in_app_iff in H2. apply cells_fst in H1. destruct H1 as [K1 O1]. destruct H2 as [H2|H2]; apply tcells_fst in H2; destruct H2 as [K2 O2]; [rewrite O1 in O2; auto|congruence].
Qed.
Lemma cells_good : forall z c e, cwf z -> In (c, e) (cells z) -> (ck c = true -> co c <> z_apex z) ->
  exists b, good (z_apex z) (co c, e) c b /\ (forall x, crec z c x <-> In x b) /\ cttl z c (rr_ttl e).
Proof.
  intros z c e W HI HA. apply cells_in in HI; [|apply W]. destruct HI as [HT HI]. pose proof (cwf_wf z c W) as WN. pose proof WN as [_ HF]. rewrite Forall_forall in HF. pose proof (HF e HI) as HE. destruct HE as [HE (b & IB & NB)].
  assert (HH : has (rrs_at z (ck c) (co c)) (ct c) (rr_ttl e) b) by (exists e; auto).
  assert (CR : forall x, crec z c x <-> In x b). { intros x. split; [intros (v & rs & H1 & H2); destruct (c52_unique _ _ _ _ _ _ WN H1 HH) as [_ ->]; auto|intros; exists (rr_ttl e), b; auto]. }
  exists b. split; [|split; auto; exists b; auto]. split; [split; eauto|]. split; auto. split; auto. split; auto. split; [|cbn [fst]; intros; apply HA; auto]. intros x Hx. destruct W as (_ & _ & R & _). apply R, CR. auto.
Qed.
Lemma crec_cells : forall z c x, cwf z -> crec z c x -> exists e, In (c, e) (cells z).
Proof. intros z c x W (v & rs & (e & HI & HT & _) & _). exists e. apply cells_in; [apply W|auto]. Qed.
(** nodes below the apex are not in the NSEC3 tree under the name of the apex *)
Lemma cells_apex : forall z c e, cwf z -> In (c, e) (cells z) -> ck c = true -> co c <> z_apex z.
Proof.
  intros z c e W HI HK. apply cells_in in HI; [|apply W]. destruct HI as [_ HI]. rewrite HK in HI. unfold rrs_at, ZoneModel.zget in HI. intros X. rewrite X in HI. destruct W as ((_ & N2 & _ & A2) & _). destruct (tget (z_nsec3 z) (z_apex z)) as [n|] eqn:E; [|destruct HI]. apply tget_in in E; auto. apply A2, in_map_iff. exists (z_apex z, n). auto.
Qed.
Lemma cells_under : forall z c e, cwf z -> In (c, e) (cells z) -> under (co c) (z_apex z) = true.
Proof.
  intros z c e W HI. apply cells_in in HI; [|apply W]. destruct HI as [_ HI]. unfold rrs_at in HI. destruct W as (_ & _ & _ & U). apply (U (ck c)). intros X. rewrite X in HI. destruct HI.
Qed.
Lemma crec_dec : forall z c x, cwf z -> crec z c x \/ ~ crec z c x.
Proof.
  intros z c x W. pose proof (cwf_wf z c W) as WN. destruct (has_dec _ (ct c) WN) as [(v & rs & H)|H].
  - destruct (in_dec_bytes x rs); [left; exists v, rs; auto|]. right. intros (v' & rs' & H1 & H2). destruct (c52_unique _ _ _ _ _ _ WN H1 H) as [_ ->]. auto.
  - right. intros (v & rs & H1 & _). eapply H; eauto.
Qed.
Lemma cne_dec : forall z c, cwf z -> (exists x, crec z c x) \/ (forall x, ~ crec z c x).
Proof.
  intros z c W. destruct (has_dec _ (ct c) (cwf_wf z c W)) as [(v & rs & H)|H]; [left; apply crec_cttl; auto; exists v, rs; auto|]. right. intros x (v & rs & H1 & _). eapply H; eauto.
Qed.

(** ** Folding *)
Definition inl (L : list (cell * rr_data)) (c : cell) (x : list Z) : Prop := exists e b, In (c, e) L /\ is (rr_rrs e) b /\ In x b.
Lemma inl_cells : forall z c x, cwf z -> (inl (cells z) c x <-> crec z c x).
Proof.
  intros z c x W. split.
  - intros (e & b & HI & HB & HX). destruct (cells_good z c e W HI) as (b' & (_ & IB & _) & CR & _); [eapply cells_apex; eauto|]. apply CR. cbn [snd] in IB. rewrite (is_fun _ _ _ IB HB). auto.
  - intros H. destruct (crec_cells z c x W H) as [e HI]. destruct (cells_good z c e W HI) as (b' & (_ & IB & _) & CR & _); [eapply cells_apex; eauto|]. exists e, b'. split; auto. split; auto. apply CR. auto.
Qed.
Definition lgood (a : name) (L : list (cell * rr_data)) : Prop := Forall (fun q => exists b, good a (sof q) (fst q) b) L /\ NoDup (map fst L).
Lemma cells_lgood : forall z, cwf z -> lgood (z_apex z) (cells z).
Proof.
  intros z W. split; [|apply cells_nodup; auto]. apply Forall_forall. intros [c e] HI. destruct (cells_good z c e W HI) as (b & G & _); [eapply cells_apex; eauto|]. exists b. auto.
Qed.
Lemma lgood_cons : forall a q L, lgood a (q :: L) -> (exists b, good a (sof q) (fst q) b) /\ lgood a L /\ ~ In (fst q) (map fst L).
Proof. intros a q L [F N]. inversion N as [|? ? N1 N2]; subst. split; [apply (Forall_inv F)|]. split; auto. split; [eapply Forall_inv_tail; eauto|auto]. Qed.
Lemma inl_cons : forall a q L b c x, good a (sof q) (fst q) b -> (inl (q :: L) c x <-> (c = fst q /\ In x b) \/ inl L c x).
Proof.
  intros a [c0 e0] L b c x (_ & HB & _). cbn [sof snd fst] in *. unfold inl. split.
  - intros (e & b' & [[= -> ->]|HI] & H1 & H2); [left; split; auto; rewrite (is_fun _ _ _ HB H1); auto|right; eauto].
  - intros [[-> H]|(e & b' & HI & H)]; [exists e0, b; split; [left; auto|auto]|exists e, b'; split; [right; auto|auto]].
Qed.
Lemma inl_fst : forall L c x, inl L c x -> In c (map fst L).
Proof. intros L c x (e & b & HI & _). apply in_map_iff. exists (c, e). auto. Qed.

Lemma rem_phase : forall L z, cwf z -> lgood (z_apex z) L ->
  (forall z', fold_res (apply_remove_rr true) (map sof L) z = Ok z' -> (forall c x, inl L c x -> crec z c x) /\ cwf z' /\ z_apex z' = z_apex z /\
     (forall c x, crec z' c x <-> crec z c x /\ ~ inl L c x) /\ (forall c v, cttl z' c v <-> cttl z c v /\ exists x, crec z' c x)) /\
  ((forall c x, inl L c x -> crec z c x) -> exists z', fold_res (apply_remove_rr true) (map sof L) z = Ok z').
Proof.
  induction L as [|q L IH]; intros z W HL; cbn [map fold_res].
  - split; [|eauto]. intros z' [= <-]. split; [intros c x (e & b & [] & _)|]. split; auto. split; auto. split; [intros c x; split; [intros H; split; auto; intros (e & b & [] & _)|tauto]|]. intros c v. split; [intros H; split; auto; apply crec_cttl; auto; exists v; auto|tauto].
  - apply lgood_cons in HL. destruct HL as ((b & G) & HL & NI). split.
    + intros z' E. destruct (apply_remove_rr true z (sof q)) as [z1| | |] eqn:E1; cbn [rbind] in E; try discriminate. destruct (apply_remove_strict z _ _ _ z1 W G E1) as (HS & W1 & A1 & R1 & T1). rewrite <- A1 in HL. destruct (IH z1 W1 HL) as [I1 _]. destruct (I1 z' E) as (S2 & W2 & A2 & R2 & T2). split.
      * intros c x H. apply (inl_cons _ _ _ _ c x G) in H. destruct H as [[-> H]|H]; auto. apply S2 in H. apply R1 in H. tauto.
      * split; auto. split; [congruence|]. split.
        -- intros c x. rewrite R2, R1, (inl_cons _ _ _ _ c x G). tauto.
        -- intros c v. rewrite T2, T1. split; [intros [[H1 _] H2]; auto|]. intros [H1 (x & H2)]. split; [split; auto|eauto]. exists x. apply R2 in H2. rewrite R1 in H2. tauto.
    + intros HS. destruct (proj1 (apply_remove_view z _ _ _ true W G)) as (z1 & E1 & W1 & A1 & R1 & T1). { intros x Hx. apply HS. apply (inl_cons _ _ _ _ (fst q) x G). auto. } rewrite E1. cbn [rbind]. rewrite <- A1 in HL. apply (IH z1 W1 HL). intros c x H. apply R1. split; [apply HS, (inl_cons _ _ _ _ c x G); auto|]. intros [-> _]. apply NI. eapply inl_fst; eauto.
Qed.
Lemma add_phase : forall L z, cwf z -> lgood (z_apex z) L ->
  (forall z', fold_res (apply_add_rr true) (map sof L) z = Ok z' -> (forall c x, inl L c x -> ~ crec z c x) /\ cwf z' /\ z_apex z' = z_apex z /\
     (forall c x, crec z' c x <-> crec z c x \/ inl L c x) /\
     (forall c v, cttl z' c v <-> (~ In c (map fst L) /\ cttl z c v) \/ (exists e, In (c, e) L /\ ((ct c = RRSIG /\ cttl z c v) \/ (v = rr_ttl e /\ (ct c = RRSIG -> forall w, ~ cttl z c w)))))) /\
  ((forall c x, inl L c x -> ~ crec z c x) -> Forall (fun q => under (co (fst q)) (z_apex z) = true) L -> (exists z', fold_res (apply_add_rr true) (map sof L) z = Ok z') \/ exists e, fold_res (apply_add_rr true) (map sof L) z = Err e /\ (e = KNOT_ESPACE \/ e = KNOT_ENOMEM)).
Proof.
  induction L as [|q L IH]; intros z W HL; cbn [map fold_res].
  - split; [|eauto]. intros z' [= <-]. split; [intros c x (e & b & [] & _)|]. split; auto. split; auto. split; [intros c x; split; [auto|]; intros [H|(e & b & [] & _)]; auto|]. intros c v. split; [intros H; left; auto|]. intros [[_ H]|(e & [] & _)]. auto.
  - apply lgood_cons in HL. destruct HL as ((b & G) & HL & NI). split.
    + intros z' E. destruct (apply_add_rr true z (sof q)) as [z1| | |] eqn:E1; cbn [rbind] in E; try discriminate. destruct (apply_add_strict z _ _ _ z1 W G E1) as (HS & HU & W1 & A1 & R1 & T1). rewrite <- A1 in HL. destruct (IH z1 W1 HL) as [I1 _]. destruct (I1 z' E) as (S2 & W2 & A2 & R2 & T2). split.
      * intros c x H. apply (inl_cons _ _ _ _ c x G) in H. destruct H as [[-> H]|H]; auto. apply S2 in H. intros X. apply H, R1. auto.
      * split; auto. split; [congruence|]. split.
        -- intros c x. rewrite R2, R1, (inl_cons _ _ _ _ c x G). tauto.
        -- intros c v. rewrite T2. cbn [map In]. destruct (cell_dec c (fst q)) as [->|NC].
           ++ rewrite T1. split.
              ** intros [[_ [[H _]|[_ H]]]|(e & HI & _)]; [contradiction| |exfalso; apply NI, in_map_iff; exists (fst q, e); auto]. right. exists (snd q). split; [left; destruct q; auto|auto].
              ** intros [[H _]|(e & HI & H)]; [exfalso; apply H; auto|]. left. split; auto. right. split; auto. destruct HI as [HI|HI]; [rewrite HI; cbn [fst snd]|exfalso; apply NI, in_map_iff; exists (fst q, e); auto]. rewrite HI in H. auto.
           ++ assert (X : forall w, cttl z1 c w <-> cttl z c w) by (intros w; rewrite T1; tauto). rewrite X. split.
              ** intros [[H1 H2]|(e & HI & H)]; [left; split; auto; intros [Q|Q]; auto|right; exists e; split; auto]. destruct H as [[H0 H]|[H1 H2]]; [left; split; auto; apply X; auto|]. right. split; auto. intros H w Hw. apply (H2 H w), X. auto.
              ** intros [[H1 H2]|(e & [HI|HI] & H)]; [left; split; auto|subst q; contradiction|right; exists e; split; auto]. destruct H as [[H0 H]|[H1 H2]]; [left; split; auto; apply X; auto|]. right. split; auto. intros H w Hw. apply (H2 H w), X. auto.
    + intros HS HU. assert (HU1 := Forall_inv HU). cbv beta in HU1. destruct (proj1 (apply_add_view z _ _ _ true W G HU1)) as [(z1 & E1 & W1 & A1 & R1 & T1)|(e & -> & He)]. { intros x Hx. apply HS. apply (inl_cons _ _ _ _ (fst q) x G). auto. }
      2:{ right. exists e. auto. }
      rewrite E1. cbn [rbind]. rewrite <- A1 in HL. apply (IH z1 W1 HL). { intros c x H X. apply R1 in X. destruct X as [X|[-> _]]; [|apply NI; eapply inl_fst; eauto]. eapply HS; eauto. apply (inl_cons _ _ _ _ c x G). auto. }
      rewrite A1. eapply Forall_inv_tail; eauto.
Qed.
