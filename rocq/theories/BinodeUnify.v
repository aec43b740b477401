(** Proofs about the end of an update of a node with two versions. *)
From Verif Require Import Base RdatasetModel RdatasetSpec RdatasetProofs RdatasetProps NodeModel NodeProps BinodeModel BinodeProofs.
From Coq Require Import Sorting.Sorted.

Lemma find_app : forall a b t, find_ent (a ++ b) t = match find_ent a t with Some e => Some e | None => find_ent b t end.
Proof. induction a as [|x a IH]; intros b t; cbn [app find_ent]; auto. destruct (e_type x =? t); auto. Qed.
Lemma unify_loop_ok : forall l h l1 pre, (forall e, In e l1 -> find_ent l1 (e_type e) = Some e /\ e_ptr e <> 0) ->
  (forall e, In e l -> e_ptr e <> 0 -> alive h (e_ptr e) /\ e_type e <> 0) -> NoDup (map e_ptr (filter nz l)) -> NoDup (map e_type (filter nz l)) ->
  (forall e e', In e l -> In e' l1 -> e_ptr e = e_ptr e' -> e_type e = e_type e') -> (forall x e, In x pre -> In e l -> e_ptr e <> 0 -> e_type x <> e_type e) ->
  exists h', unify_loop h l1 pre l = Ok h' /\ h_arr h' = h_arr h /\ h_next h' = h_next h /\ (forall p, p <> 0 -> In p (ptrs l) -> ~ In p (ptrs l1) -> h_dat h' p = None) /\ (forall p, p = 0 \/ ~ In p (ptrs l) \/ In p (ptrs l1) -> h_dat h' p = h_dat h p).
Proof.
  induction l as [|e l IH]; intros h l1 pre U W NP NT SEP PRE; cbn [unify_loop].
  { exists h. split; auto. split; auto. split; auto. split; [intros p _ []|auto]. }
  assert (SEP' : forall x e', In x l -> In e' l1 -> e_ptr x = e_ptr e' -> e_type x = e_type e') by (intros x e' Hx; apply SEP; right; auto).
  destruct (Z.eq_dec (e_ptr e) 0) as [E0|EN].
  - assert (F0 : filter nz (e :: l) = filter nz l) by (cbn [filter]; unfold nz at 1; rewrite E0; auto). rewrite F0 in NP, NT.
    assert (DONE : forall h', (exists q, pre = pre /\ h' = h /\ h_arr q = h_arr h') -> True) by auto. clear DONE.
    destruct (match find_ent l1 (e_type e) with Some e1 => match find_ent (pre ++ e :: l) (e_type e) with Some e2 => e_ptr e1 =? e_ptr e2 | None => false end | None => false end) eqn:SH.
    + destruct (IH h l1 (pre ++ [e]) U) as (h' & E1 & A1 & N1 & D1 & D2); auto; [intros x Hx; apply W; right; auto| |].
      { intros x y Hx Hy NY. apply in_app_iff in Hx. destruct Hx as [Hx|[<-|[]]]; [apply PRE; auto; right; auto|]. destruct (find_ent l1 (e_type e)) as [e1|] eqn:F1; [|discriminate]. apply find_some in F1. destruct (U e1 (proj1 F1)) as [_ N1]. rewrite find_app in SH. destruct (find_ent pre (e_type e)) as [z|] eqn:F2; [|cbn [find_ent] in SH; rewrite Z.eqb_refl in SH; lia]. apply find_some in F2. destruct F2 as [F2 <-]. apply PRE; auto. right. auto. }
      exists h'. split; auto. split; auto. split; auto. split; [intros p HP HI HN; apply D1; auto; destruct HI as [<-|HI]; [contradiction|auto]|]. intros p HP. apply D2. destruct HP as [->|[HP|HP]]; auto. right. left. intros X. apply HP. right. auto.
    + unfold free_dat. rewrite E0. change (0 =? 0) with true. cbn [rbind]. destruct (IH h l1 (pre ++ [mkent 0 0 0 0 0]) U) as (h' & E1 & A1 & N1 & D1 & D2); auto; [intros x Hx; apply W; right; auto| |].
      { intros x y Hx Hy NY. apply in_app_iff in Hx. destruct Hx as [Hx|[<-|[]]]; [apply PRE; auto; right; auto|]. cbn [e_type]. destruct (W y) as [_ Q]; auto. right. auto. }
      exists h'. split; auto. split; auto. split; auto. split; [intros p HP HI HN; apply D1; auto; destruct HI as [<-|HI]; [contradiction|auto]|]. intros p HP. apply D2. destruct HP as [->|[HP|HP]]; auto. right. left. intros X. apply HP. right. auto.
  - assert (F0 : filter nz (e :: l) = e :: filter nz l) by (cbn [filter]; unfold nz at 1; replace (e_ptr e =? 0) with false by lia; auto). rewrite F0 in NP, NT. cbn [map] in NP, NT. inversion NP as [|? ? NP1 NP2]; subst. inversion NT as [|? ? NT1 NT2]; subst.
    assert (OTH : forall y, In y l -> e_ptr y <> 0 -> e_ptr y <> e_ptr e /\ e_type y <> e_type e). { intros y Hy NY. assert (In y (filter nz l)) by (apply filter_In; split; auto; unfold nz; lia). split; intros X; [apply NP1|apply NT1]; rewrite <- X; apply in_map; auto. }
    destruct (W e (or_introl eq_refl) EN) as [AE TE].
    assert (FP : find_ent (pre ++ e :: l) (e_type e) = Some e). { rewrite find_app. destruct (find_ent pre (e_type e)) as [z|] eqn:F2; [|cbn [find_ent]; rewrite Z.eqb_refl; auto]. apply find_some in F2. exfalso. apply (PRE z e); auto; [tauto|left; auto|tauto]. }
    rewrite FP. destruct (match find_ent l1 (e_type e) with Some e1 => e_ptr e1 =? e_ptr e | None => false end) eqn:SH.
    + assert (IN : In (e_ptr e) (ptrs l1)). { destruct (find_ent l1 (e_type e)) as [e1|] eqn:F1; [|discriminate]. apply find_some in F1. replace (e_ptr e) with (e_ptr e1) by lia. apply in_ptrs. tauto. }
      destruct (IH h l1 (pre ++ [e]) U) as (h' & E1 & A1 & N1 & D1 & D2); auto; [intros x Hx; apply W; right; auto| |].
      { intros x y Hx Hy NY. apply in_app_iff in Hx. destruct Hx as [Hx|[<-|[]]]; [apply PRE; auto; right; auto|]. destruct (OTH y Hy NY). auto. }
      exists h'. split; auto. split; auto. split; auto. split; [intros p HP HI HN; apply D1; auto; destruct HI as [<-|HI]; [contradiction|auto]|]. intros p HP. apply D2. destruct HP as [->|[HP|HP]]; auto. right. left. intros X. apply HP. right. auto.
    + assert (NI : ~ In (e_ptr e) (ptrs l1)). { intros X. apply in_map_iff in X. destruct X as (e1 & EP & H1). pose proof (SEP e e1 (or_introl eq_refl) H1 (eq_sym EP)) as ET. destruct (U e1 H1) as [FE _]. rewrite ET, FE in SH. lia. }
      unfold free_dat. replace (e_ptr e =? 0) with false by lia. destruct AE as [x0 Hx0]. rewrite Hx0. cbn [rbind].
      destruct (IH (set_dat h (e_ptr e) None) l1 (pre ++ [mkent 0 0 0 0 0]) U) as (h' & E1 & A1 & N1 & D1 & D2); auto.
      { intros y Hy NY. destruct (W y (or_intror Hy) NY) as [AY TY]. split; auto. destruct (OTH y Hy NY) as [Q _]. destruct AY as [z Hz]. exists z. unfold set_dat. cbn [h_dat]. destruct (Z.eqb_spec (e_ptr y) (e_ptr e)); [congruence|auto]. }
      { intros x y Hx Hy NY. apply in_app_iff in Hx. destruct Hx as [Hx|[<-|[]]]; [apply PRE; auto; right; auto|]. cbn [e_type]. destruct (W y) as [_ Q]; auto. right. auto. }
      exists h'. split; auto. split; auto. split; auto.
      assert (DE : forall p, p <> e_ptr e -> h_dat (set_dat h (e_ptr e) None) p = h_dat h p) by (intros p Hp; unfold set_dat; cbn [h_dat]; destruct (Z.eqb_spec p (e_ptr e)); [congruence|auto]).
      split.
      * intros p HP HI HN. destruct HI as [<-|HI]; [|apply D1; auto]. rewrite D2; [unfold set_dat; cbn [h_dat]; rewrite Z.eqb_refl; auto|]. right. left. intros X. apply in_map_iff in X. destruct X as (y & EY & Hy). destruct (OTH y Hy); lia.
      * intros p HP. rewrite D2, DE; auto.
        -- destruct HP as [->|[HP|HP]]; [auto|intros ->; apply HP; left; auto|intros ->; auto].
        -- destruct HP as [->|[HP|HP]]; auto. right. left. intros X. apply HP. right. auto.
Qed.
Lemma inv_sym : forall F G h np cp ln lc, inv F G h np cp ln lc -> inv F G h cp np lc ln.
Proof.
  intros F G h np cp ln lc [I1 I1' I2 I3 I4 I5 I6 I7 I8 I9 I10 I11 I12 I13 I14 I15 I16]. split; auto.
  - intros e e' H1 H2 E. symmetry. apply I12; auto.
  - intros p. rewrite I13. tauto.
  - intros p Hp. destruct (I14 p Hp). auto.
  - intros p. rewrite I15. tauto.
  - intros p Hp. destruct (I16 p Hp). auto.
Qed.
(** The end of an update without a failure: the version [np] remains *)
Lemma unify_ok : forall F G h np cp ln lc, inv F G h np cp ln lc -> exists h', unify h np cp = Ok h' /\ inv F G h' np np ln ln /\ frame F G np ln h h'.
Proof.
  intros F G h np cp ln lc I. unfold unify. pose proof I as [I1 I1' I2 I3 I4 I5 I6 I7 I8 I9 I10 I11 I12 I13 I14 I15 I16]. destruct (Z.eqb_spec (b_rrs cp) (b_rrs np)) as [E|E].
  - exists h. split; auto. split; [|apply frame_refl]. assert (ln = lc) as -> by (apply (inv_same _ _ _ _ _ _ _ I); auto). split; auto.
    + intros p. rewrite I15, E. tauto.
    + intros p Hp. destruct (I16 p Hp). auto.
  - rewrite I4, I5. cbn [rbind]. destruct (unify_loop_ok lc h ln []) as (h1 & E1 & A1 & N1 & D1 & D2).
    + intros e He. split; [apply (find_in h); auto|]. destruct (ent_ok h ln e I1 I8 He) as (_ & P & _). auto.
    + intros e He _. destruct (ent_ok h lc e I1 I9 He) as ((T & _) & P & r & HR & _). cbn [rr_of rr_type] in T. split; [exists r; auto|lia].
    + apply (w_ptr _ _ _ _ _ _ _ (inv_winv _ _ _ _ _ _ _ (inv_sym _ _ _ _ _ _ _ I))).
    + apply (w_type _ _ _ _ _ _ _ (inv_winv _ _ _ _ _ _ _ (inv_sym _ _ _ _ _ _ _ I))).
    + intros e e' H1 H2 EP. symmetry. apply I12; auto.
    + intros x e [].
    + rewrite E1. cbn [rbind]. assert (FA : exists h2, free_arr h1 (b_rrs cp) = Ok h2 /\ h_dat h2 = h_dat h1 /\ h_next h2 = h_next h1 /\ forall p, h_arr h2 p = if p =? b_rrs cp then None else h_arr h1 p).
      { unfold free_arr. destruct (Z.eqb_spec (b_rrs cp) 0) as [Z0|ZN].
        - exists h1. split; auto. split; auto. split; auto. intros p. destruct (Z.eqb_spec p (b_rrs cp)) as [->|]; auto. rewrite Z0, A1. auto.
        - assert (alive_arr h (b_rrs cp)) as [l Hl] by (apply I15; auto). rewrite <- A1 in Hl. rewrite Hl. eexists. split; [reflexivity|]. unfold set_arr. cbn [h_dat h_next h_arr]. auto. }
      destruct FA as (h2 & EF & DF & NF & AF). rewrite EF. exists h2. split; auto.
      assert (DN : forall p, F p \/ In p (ptrs ln) -> h_dat h2 p = h_dat h p). { intros p Hp. rewrite DF. apply D2. destruct Hp as [Hp|Hp]; auto. apply I14 in Hp. tauto. }
      assert (AN : forall p, p <> b_rrs cp -> h_arr h2 p = h_arr h p). { intros p Hp. rewrite AF, A1. destruct (Z.eqb_spec p (b_rrs cp)); [congruence|auto]. }
      assert (VN : viewl h2 ln = viewl h ln) by (apply view_ext; intros x Hx; apply DN; right; apply in_ptrs; auto).
      split; [|split; [auto|intros p [Hp| ->]; apply AN; [apply I16; auto|auto]]].
      split; auto; try (rewrite VN; auto).
      * rewrite DF, D2; auto.
      * rewrite AF, A1. destruct (0 =? b_rrs cp); auto.
      * lia.
      * intros p Hp. destruct (I3 p) as [Q1 Q2]; [lia|]. rewrite AF, A1, DF. split; [|destruct (p =? b_rrs cp); auto]. rewrite D2; auto. right. left. intros X. assert (alive h p) as [y Hy] by (apply I13; auto). congruence.
      * eapply arr_ext; [exact I4|]. apply AN. auto.
      * eapply arr_ext; [exact I4|]. apply AN. auto.
      * intros e e' H1 H2 EP. f_equal. destruct (ent_ok h ln e I1 I8 H1) as (_ & _ & _). clear -I10 H1 H2 EP. induction ln as [|x ln IH]; [destruct H1|]. cbn [ptrs map] in I10. inversion I10 as [|? ? N1 N2]; subst. destruct H1 as [<-|H1], H2 as [<-|H2]; auto; exfalso; apply N1; [rewrite EP|rewrite <- EP]; apply in_map; auto.
      * intros p. destruct (in_dec Z.eq_dec p (ptrs ln)) as [L|L].
        { split; auto. intros _. unfold alive. rewrite DN by auto. apply I13. auto. }
        destruct (in_dec Z.eq_dec p (ptrs lc)) as [C|C].
        { assert (alive h p) as AP by (apply I13; auto). assert (p <> 0) by (intros ->; destruct AP as [y Hy]; congruence). unfold alive. rewrite DF, D1 by auto. split; [intros [y Hy]; discriminate|]. intros [X|[X|X]]; [contradiction|contradiction|]. apply I14 in X. tauto. }
        unfold alive. rewrite DF, D2 by auto. specialize (I13 p). unfold alive in I13. rewrite I13. tauto.
      * intros p Hp. destruct (I14 p Hp). auto.
      * intros p. unfold alive_arr. rewrite AF, A1. destruct (Z.eqb_spec p (b_rrs cp)) as [->|N].
        { split; [intros [y Hy]; discriminate|]. intros [[X [Y|Y]]|X]; [congruence|congruence|]. apply I16 in X. tauto. }
        specialize (I15 p). unfold alive_arr in I15. rewrite I15. tauto.
      * intros p Hp. destruct (I16 p Hp). auto.
Qed.
(** The end of a failed update: the version [cp] remains. Some memory may be lost *)
Lemma unify_fail : forall F G h np cp ln lc, winv F G h np cp ln lc -> (forall p, G p -> alive_arr h p) -> exists h' F' G', unify h cp np = Ok h' /\ inv F' G' h' cp cp lc lc /\ frame F G cp lc h h' /\ (forall p, F p -> alive h p -> F' p) /\ (forall p, G p -> G' p).
Proof.
  intros F G h np cp ln lc [W1 W2 W3 W4 W5 W6 W7 W8 W9 W10 W11 W12 W13 W14 W15 W16] GA. 
  assert (MK : forall h', h_dat h' 0 = None -> h_arr h' 0 = None -> h_next h' = h_next h -> (forall p, h_next h' <= p -> h_dat h' p = None /\ h_arr h' p = None) -> frame F G cp lc h h' -> exists F' G', inv F' G' h' cp cp lc lc /\ (forall p, F p -> alive h p -> F' p) /\ (forall p, G p -> G' p)).
  { intros h' Q1 Q2 Q3 Q4 [FR1 FR2]. exists (fun p => alive h' p /\ ~ In p (ptrs lc)), (fun p => alive_arr h' p /\ p <> b_rrs cp). assert (V : viewl h' lc = viewl h lc) by (apply view_ext; intros x Hx; apply FR1; right; apply in_ptrs; auto). assert (AC : arr h' cp = Ok lc) by (eapply arr_ext; [exact W7|apply FR2; auto]).
    split; [|split; [intros p Hp [y Hy]; split; [exists y; rewrite FR1; auto|auto]|intros p Hp; split; [unfold alive_arr; rewrite FR2 by auto; apply GA; auto|apply W15; auto]]]. split; auto; try (rewrite V; auto).
    - lia.
    - intros e e' H1 H2 EP. f_equal. clear -W9 H1 H2 EP. induction lc as [|x l IH]; [destruct H1|]. cbn [ptrs map] in W9. inversion W9 as [|? ? N1 N2]; subst. destruct H1 as [<-|H1], H2 as [<-|H2]; auto; exfalso; apply N1; [rewrite EP|rewrite <- EP]; apply in_map; auto.
    - intros p. destruct (in_dec Z.eq_dec p (ptrs lc)) as [L|L]; [|tauto]. split; auto. intros _. apply in_map_iff in L. destruct L as (e & <- & He). destruct (ent_ok h' lc e Q1) as (_ & _ & r & HR & _); [rewrite V; auto|auto|]. exists r. auto.
    - intros p [_ N]. auto.
    - intros p. destruct (Z.eq_dec p (b_rrs cp)) as [->|N]; [|tauto]. split; [|intros [[Z0 _]|[_ X]]; [|congruence]].
      + intros [l Hl]. left. split; auto. intros Z0. rewrite Z0 in Hl. congruence.
      + unfold arr in AC. replace (b_rrs cp =? 0) with false in AC by lia. unfold alive_arr. destruct (h_arr h' (b_rrs cp)); [eauto|discriminate].
    - intros p [_ N]. auto. }
  unfold unify. destruct (Z.eqb_spec (b_rrs np) (b_rrs cp)) as [E|E].
  - destruct (MK h) as (F' & G' & I & Q1 & Q2); auto; [apply frame_refl|]. exists h, F', G'. split; auto. split; auto. split; [apply frame_refl|auto].
  - rewrite W6, W7. cbn [rbind]. destruct (unify_loop_ok ln h lc []) as (h1 & E1 & A1 & N1 & D1 & D2); auto.
    + intros e He. split; [apply (find_in h); auto|]. destruct (ent_ok h lc e W1 W8 He) as (_ & P & _). auto.
    + intros e He EN. destruct (W10 e He EN) as (Q1 & Q2 & Q3). auto.
    + rewrite E1. cbn [rbind]. assert (FA : exists h2, free_arr h1 (b_rrs np) = Ok h2 /\ h_dat h2 = h_dat h1 /\ h_next h2 = h_next h1 /\ forall p, h_arr h2 p = if p =? b_rrs np then None else h_arr h1 p).
      { unfold free_arr. destruct (Z.eqb_spec (b_rrs np) 0) as [Z0|ZN].
        - exists h1. split; auto. split; auto. split; auto. intros p. destruct (Z.eqb_spec p (b_rrs np)) as [->|]; auto. rewrite Z0, A1. auto.
        - unfold arr in W6. replace (b_rrs np =? 0) with false in W6 by lia. rewrite <- A1 in W6. destruct (h_arr h1 (b_rrs np)) eqn:Q; [|discriminate]. eexists. split; [reflexivity|]. unfold set_arr. cbn [h_dat h_next h_arr]. auto. }
      destruct FA as (h2 & EF & DF & NF & AF). rewrite EF.
      assert (FR : frame F G cp lc h h2). { split; [intros p Hp; rewrite DF; apply D2|intros p Hp; rewrite AF, A1; destruct (Z.eqb_spec p (b_rrs np)) as [->|]; auto; exfalso; destruct Hp as [Hp|Hp]; [apply W15 in Hp; tauto|congruence]]. destruct Hp as [Hp|Hp]; auto. destruct (Z.eq_dec p 0); auto. right. left. intros X. apply in_map_iff in X. destruct X as (e & EP & He). destruct (W10 e He) as (_ & Q & _); [congruence|]. apply Q. congruence. }
      destruct (MK h2) as (F' & G' & I & Q1 & Q2); auto.
      * rewrite DF, D2; auto.
      * rewrite AF, A1. destruct (0 =? b_rrs np); auto.
      * congruence.
      * intros p Hp. destruct (W4 p) as [X1 X2]; [lia|]. rewrite AF, A1, DF. split; [|destruct (p =? b_rrs np); auto]. destruct (in_dec Z.eq_dec p (ptrs ln)) as [L|L]; [|rewrite D2; auto]. destruct (Z.eq_dec p 0) as [->|P0]; [rewrite D2; auto|]. destruct (in_dec Z.eq_dec p (ptrs lc)) as [L2|L2]; [rewrite D2; auto|]. apply D1; auto.
      * exists h2, F', G'. split; auto.
Qed.
