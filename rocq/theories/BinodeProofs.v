(** Proofs about nodes with two versions. *)
From Verif Require Import Base RdatasetModel RdatasetSpec RdatasetProofs RdatasetProps NodeModel NodeProps BinodeModel.
From Coq Require Import Sorting.Sorted.

Definition ptrs (l : list ent) : list Z := map e_ptr l.
Definition viewl (h : heap) (l : list ent) : list rr_data := map (rr_of h) l.
Definition alive (h : heap) (p : Z) : Prop := exists r, h_dat h p = Some r.
Definition alive_arr (h : heap) (p : Z) : Prop := exists l, h_arr h p = Some l.
(** The state of an update: [F], [G] are the blocks and arrays that belong to something else *)
Record inv (F G : Z -> Prop) (h : heap) (np cp : half) (ln lc : list ent) : Prop := {
  i_null : h_dat h 0 = None; i_anull : h_arr h 0 = None; i_next : 0 < h_next h;
  i_fresh : forall p, h_next h <= p -> h_dat h p = None /\ h_arr h p = None;
  i_n : arr h np = Ok ln; i_c : arr h cp = Ok lc; i_ncnt : b_cnt np = zlen ln; i_ccnt : b_cnt cp = zlen lc;
  i_wn : node_wf (viewl h ln); i_wc : node_wf (viewl h lc); i_pn : NoDup (ptrs ln); i_pc : NoDup (ptrs lc);
  i_sep : forall e e', In e ln -> In e' lc -> e_ptr e = e_ptr e' -> e_type e = e_type e';
  i_dom : forall p, alive h p <-> In p (ptrs ln) \/ In p (ptrs lc) \/ F p;
  i_F : forall p, F p -> ~ In p (ptrs ln) /\ ~ In p (ptrs lc);
  i_adom : forall p, alive_arr h p <-> (p <> 0 /\ (p = b_rrs np \/ p = b_rrs cp)) \/ G p;
  i_G : forall p, G p -> p <> b_rrs np /\ p <> b_rrs cp }.
Definition frame (F G : Z -> Prop) (cp : half) (lc : list ent) (h h' : heap) : Prop :=
  (forall p, F p \/ In p (ptrs lc) -> h_dat h' p = h_dat h p) /\ (forall p, G p \/ p = b_rrs cp -> h_arr h' p = h_arr h p).
Lemma frame_refl : forall F G cp lc h, frame F G cp lc h h.
Proof. intros. split; auto. Qed.
Lemma frame_trans : forall F G cp lc h1 h2 h3, frame F G cp lc h1 h2 -> frame F G cp lc h2 h3 -> frame F G cp lc h1 h3.
Proof. intros F G cp lc h1 h2 h3 [A1 B1] [A2 B2]. split; intros p H; [rewrite A2, A1|rewrite B2, B1]; auto. Qed.
Lemma view_ext : forall h h' l, (forall e, In e l -> h_dat h' (e_ptr e) = h_dat h (e_ptr e)) -> viewl h' l = viewl h l.
Proof. intros h h' l H. apply map_ext_in. intros e He. unfold rr_of, rd_of. rewrite H; auto. Qed.
Lemma in_ptrs : forall e l, In e l -> In (e_ptr e) (ptrs l).
Proof. intros. apply in_map. auto. Qed.

Lemma is_raw : forall s rs, is s rs -> (raw s = [] <-> rs = []).
Proof.
  intros s rs (_ & -> & _). split; [|intros ->; auto]. destruct rs as [|r rs]; auto. unfold layout. cbn [map concat]. unfold record_layout. cbn [app]. discriminate.
Qed.
Lemma ent_ok : forall h l e, h_dat h 0 = None -> node_wf (viewl h l) -> In e l -> entry_ok (rr_of h e) /\ e_ptr e <> 0 /\ exists r, h_dat h (e_ptr e) = Some r /\ r <> [].
Proof.
  intros h l e H0 [_ W] HI. rewrite Forall_forall in W. assert (HE : entry_ok (rr_of h e)) by (apply W; apply in_map; auto). split; auto. destruct HE as [_ (rs & IS & NE)]. cbn [rr_rrs rr_of] in IS. pose proof (is_raw _ _ IS) as HR. unfold rd_of in HR. cbn [raw] in HR. destruct (h_dat h (e_ptr e)) as [r|] eqn:E; [|exfalso; apply NE, HR; auto]. split; [intros X; rewrite X in E; congruence|]. exists r. split; auto. intros ->. apply NE, HR. auto.
Qed.
Lemma ent_split : forall l t, (exists a e b, l = a ++ e :: b /\ e_type e = t /\ Forall (fun x => e_type x <> t) a /\ find_ent l t = Some e /\ (forall e', set_ent l t e' = a ++ e' :: b) /\ del_ent l t = a ++ b) \/ (find_ent l t = None /\ Forall (fun x => e_type x <> t) l).
Proof.
  induction l as [|e l IH]; intros t; [right; auto|]. cbn [find_ent set_ent del_ent]. destruct (e_type e =? t) eqn:E.
  - left. exists [], e, l. split; auto. split; [lia|]. split; auto.
  - destruct (IH t) as [(a & x & b & -> & HT & HF & H1 & H2 & H3)|[H1 H2]]; [left|right; split; auto; constructor; auto; lia]. exists (e :: a), x, b. split; auto. split; auto. split; [constructor; auto; lia|]. split; auto. split; [intros; rewrite H2; auto|rewrite H3; auto].
Qed.
Lemma wf_types : forall h l e e', node_wf (viewl h l) -> In e l -> In e' l -> e_type e = e_type e' -> e = e'.
Proof.
  intros h l e e' [HS _] HI HI' HT. induction l as [|x l IH]; [destruct HI|]. cbn [viewl map] in HS. inversion HS as [|? ? S1 S2]; subst. rewrite Forall_forall in S2. assert (Q : forall y, In y l -> e_type x < e_type y) by (intros y Hy; apply (S2 (rr_of h y)); apply in_map; auto). destruct HI as [<-|HI], HI' as [<-|HI']; auto; [specialize (Q _ HI')|specialize (Q _ HI)]; lia.
Qed.
Lemma find_in : forall h l e, node_wf (viewl h l) -> In e l -> find_ent l (e_type e) = Some e.
Proof.
  intros h l e W HI. destruct (ent_split l (e_type e)) as [(a & x & b & -> & HT & _ & -> & _)|[_ H]]; [|rewrite Forall_forall in H; exfalso; eapply H; eauto]. f_equal. apply (wf_types h (a ++ x :: b)); auto. apply in_or_app. right. left. auto.
Qed.
Lemma find_some : forall l t e, find_ent l t = Some e -> In e l /\ e_type e = t.
Proof. intros l t e H. destruct (ent_split l t) as [(a & x & b & -> & HT & _ & E & _)|[E _]]; rewrite E in H; [|discriminate]. injection H as <-. split; auto. apply in_or_app. right. left. auto. Qed.
Lemma arr_nz : forall h n l, arr h n = Ok l -> l <> [] -> b_rrs n <> 0 /\ h_arr h (b_rrs n) = Some l.
Proof. intros h n l H NE. unfold arr in H. destruct (b_rrs n =? 0) eqn:E; [destruct (b_cnt n =? 0); [injection H as <-; contradiction|discriminate]|]. split; [lia|]. destruct (h_arr h (b_rrs n)); [congruence|discriminate]. Qed.
Lemma arr_at : forall h n l, h_arr h (b_rrs n) = Some l -> b_rrs n <> 0 -> arr h n = Ok l.
Proof. intros h n l H N. unfold arr. replace (b_rrs n =? 0) with false by lia. rewrite H. auto. Qed.
Lemma arr_ext : forall h h' n l, arr h n = Ok l -> h_arr h' (b_rrs n) = h_arr h (b_rrs n) -> arr h' n = Ok l.
Proof. intros h h' n l H E. unfold arr in *. rewrite E. auto. Qed.
(** ** The array gets private *)
Lemma prep_inv : forall F G h np cp ln lc, inv F G h np cp ln lc -> b_rrs np = b_rrs cp -> b_rrs cp <> 0 ->
  exists p h', new_arr h lc = (p, h') /\ inv F G h' (mkhalf p (b_cnt np)) cp lc lc /\ frame F G cp lc h h' /\ h_dat h' = h_dat h /\ p <> b_rrs cp /\ p <> 0 /\ ln = lc.
Proof.
  intros F G h np cp ln lc [I1 I1' I2 I3 I4 I5 I6 I7 I8 I9 I10 I11 I12 I13 I14 I15 I16] E NZ. assert (ln = lc) as ->. { unfold arr in I4, I5. rewrite E in I4. replace (b_rrs cp =? 0) with false in * by lia. destruct (h_arr h (b_rrs cp)); congruence. }
  eexists. eexists. split; [reflexivity|]. assert (N : h_next h <> b_rrs cp). { intros X. destruct (I3 (h_next h)) as [_ Q]; [lia|]. assert (alive_arr h (b_rrs cp)) as [l Hl] by (apply I15; auto). congruence. }
  split; [|split; [split; cbn [h_dat h_arr new_arr]; auto|split; [reflexivity|split; auto; split; [lia|auto]]]].
  2:{ intros p H. destruct (Z.eqb_spec p (h_next h)) as [X|X]; auto. exfalso. destruct H as [H|H]; [|congruence]. assert (alive_arr h p) as [l Hl] by (apply I15; auto). destruct (I3 p) as [_ Q]; [lia|]. congruence. }
  split; cbn [h_dat h_arr h_next b_rrs b_cnt]; auto; try lia.
  - destruct (Z.eqb_spec 0 (h_next h)); [lia|auto].
  - intros p Hp. destruct (I3 p) as [Q1 Q2]; [lia|]. split; auto. destruct (Z.eqb_spec p (h_next h)); [lia|auto].
  - apply arr_at; cbn [b_rrs h_arr]; [rewrite Z.eqb_refl; auto|lia].
  - eapply arr_ext; [exact I5|]. cbn [h_arr]. destruct (Z.eqb_spec (b_rrs cp) (h_next h)); [congruence|auto].
  - intros p. unfold alive_arr. cbn [h_arr]. destruct (Z.eqb_spec p (h_next h)) as [->|X].
    + split; [|eauto]. intros _. left. split; [lia|auto].
    + specialize (I15 p). unfold alive_arr in I15. rewrite I15, E. split; [intros [[A [B|B]]|B]; auto|intros [[A [B|B]]|B]; auto; congruence].
  - intros p Hp. split; [|apply I16; auto]. intros ->. destruct (I3 (h_next h)) as [_ Q]; [lia|]. assert (alive_arr h (h_next h)) as [l Hl] by (apply I15; auto). congruence.
Qed.
(** ** One entry changes *)
Definition own (np cp : half) : Prop := b_rrs np <> b_rrs cp /\ b_rrs np <> 0.
Lemma nodup_mid : forall (a : list Z) x y b, NoDup (a ++ x :: b) -> (~ In y (a ++ b)) -> NoDup (a ++ y :: b).
Proof. intros a x y b H N. apply NoDup_remove in H. destruct H as [H _]. apply (NoDup_Add (a := y) (l := a ++ b)); [apply Add_app|auto]. Qed.
Lemma ptrs_app : forall a e b, ptrs (a ++ e :: b) = ptrs a ++ e_ptr e :: ptrs b.
Proof. intros. unfold ptrs. rewrite map_app. auto. Qed.
Lemma view_app : forall h a e b, viewl h (a ++ e :: b) = viewl h a ++ rr_of h e :: viewl h b.
Proof. intros. unfold viewl. rewrite map_app. auto. Qed.
Lemma in_mid : forall (A : Type) (a : list A) e b x, In x (a ++ e :: b) <-> x = e \/ In x (a ++ b).
Proof. intros. rewrite !in_app_iff. cbn [In]. intuition. Qed.
(** The new state, given what has happened to the data of the entry *)
Lemma change_inv : forall F G h np cp a e b lc h' e', inv F G h np cp (a ++ e :: b) lc -> own np cp -> h_arr h' = h_arr h -> h_next h <= h_next h' -> (forall p, h_next h' <= p -> h_dat h' p = None) -> h_dat h' 0 = None ->
  e_type e' = e_type e -> entry_ok (rr_of h' e') ->
  (e_ptr e' = e_ptr e /\ ~ In (e_ptr e) (ptrs lc) \/ e_ptr e' = h_next h) -> (forall p, p <> e_ptr e' -> ~ (p = e_ptr e /\ ~ In p (ptrs lc)) -> h_dat h' p = h_dat h p) -> (~ In (e_ptr e) (ptrs lc) -> e_ptr e' <> e_ptr e -> h_dat h' (e_ptr e) = None) ->
  let h2 := set_arr h' (b_rrs np) (Some (a ++ e' :: b)) in inv F G h2 np cp (a ++ e' :: b) lc /\ frame F G cp lc h h2 /\ viewl h2 (a ++ e' :: b) = viewl h a ++ rr_of h' e' :: viewl h b.
Proof.
  intros F G h np cp a e b lc h' e' HI [O1 O2] EA NX FR N0 ET EOK PE DAT FREED. cbv zeta. pose proof HI as [I1 I1' I2 I3 I4 I5 I6 I7 I8 I9 I10 I11 I12 I13 I14 I15 I16].
  assert (EI : In e (a ++ e :: b)) by (apply in_mid; auto). destruct (ent_ok h _ e I1 I8 EI) as (_ & PN & r & PR & _).
  assert (OLD : forall p, alive h p -> p <> h_next h). { intros p [x Hx] ->. destruct (I3 (h_next h)) as [Q _]; [lia|]. congruence. }
  rewrite ptrs_app in I10. assert (NE : ~ In (e_ptr e) (ptrs a ++ ptrs b)) by (apply NoDup_remove in I10; tauto).
  assert (OTH : forall x, In x (a ++ b) -> e_ptr x <> e_ptr e /\ e_ptr x <> e_ptr e').
  { intros x Hx. assert (HP : In (e_ptr x) (ptrs a ++ ptrs b)) by (unfold ptrs; rewrite <- map_app; apply in_map; auto). assert (e_ptr x <> e_ptr e) as X by (intros Y; rewrite Y in HP; auto). split; auto. destruct PE as [[-> _]| ->]; auto. apply OLD. apply I13. left. apply in_ptrs. apply in_mid. auto. }
  assert (FP : forall p, F p \/ In p (ptrs lc) -> h_dat h' p = h_dat h p).
  { intros p Hp. assert (AL : alive h p) by (apply I13; tauto). assert (p = e_ptr e -> In p (ptrs lc)) as X by (intros ->; destruct Hp as [Hp|Hp]; auto; apply I14 in Hp; exfalso; apply (proj1 Hp); apply in_ptrs; auto). apply DAT; [|tauto]. destruct PE as [[-> N]| ->]; [|apply OLD; auto]. intros ->. auto. }
  assert (VX : forall x, In x (a ++ b) -> h_dat h' (e_ptr x) = h_dat h (e_ptr x)) by (intros x Hx; destruct (OTH x Hx); apply DAT; auto; tauto).
  assert (VA : viewl h' a = viewl h a) by (apply view_ext; intros x Hx; apply VX, in_or_app; auto). assert (VB : viewl h' b = viewl h b) by (apply view_ext; intros x Hx; apply VX, in_or_app; auto).
  set (h2 := set_arr h' (b_rrs np) (Some (a ++ e' :: b))). assert (D2 : h_dat h2 = h_dat h') by reflexivity. assert (V2 : forall l, viewl h2 l = viewl h' l) by (intros; apply view_ext; auto).
  assert (VV : viewl h2 (a ++ e' :: b) = viewl h a ++ rr_of h' e' :: viewl h b) by (rewrite V2, view_app, VA, VB; auto).
  assert (A2 : forall p, p <> b_rrs np -> h_arr h2 p = h_arr h p) by (intros p Hp; unfold h2, set_arr; cbn [h_arr]; destruct (Z.eqb_spec p (b_rrs np)); [congruence|rewrite EA; auto]).
  assert (FRM : frame F G cp lc h h2) by (split; [intros p Hp; rewrite D2; auto|]; intros p Hp; apply A2; destruct Hp as [Hp| ->]; [apply I16; auto|auto]).
  split; [|split; auto]. assert (P' : e_ptr e' <> 0) by (destruct PE as [[-> _]| ->]; auto; lia).
  split; rewrite ?D2; auto.
  - rewrite A2; auto.
  - unfold h2, set_arr. cbn [h_next]. lia.
  - intros p Hp. change (h_next h2) with (h_next h') in Hp. split; auto. destruct (I3 p) as [_ Q]; [lia|]. rewrite A2; auto. intros ->. assert (alive_arr h (b_rrs np)) as [l Hl] by (apply I15; auto). congruence.
  - apply arr_at; auto. unfold h2, set_arr. cbn [h_arr]. rewrite Z.eqb_refl. auto.
  - eapply arr_ext; [exact I5|]. apply A2. auto.
  - rewrite I6, !zlen_app, !zlen_cons. auto.
  - rewrite VV. rewrite view_app in I8. apply (wf_mid _ (rr_of h e)); auto.
  - replace (viewl h2 lc) with (viewl h lc); auto. symmetry. apply view_ext. intros x Hx. rewrite D2. apply FP. right. apply in_ptrs. auto.
  - rewrite ptrs_app. apply (nodup_mid _ (e_ptr e)); auto. unfold ptrs. rewrite <- map_app. intros X. apply in_map_iff in X. destruct X as (x & E & Hx). destruct (OTH x Hx). congruence.
  - intros x y Hx Hy EP. apply in_mid in Hx. destruct Hx as [->|Hx]; [|apply I12; auto; apply in_mid; auto]. rewrite ET. destruct PE as [[EQ N]|EQ]; [apply I12; auto; congruence|]. exfalso. rewrite EQ in EP. apply (OLD (e_ptr y)); auto. apply I13. right. left. apply in_ptrs. auto.
  - intros p. rewrite ptrs_app, in_mid. rewrite ptrs_app in I13. setoid_rewrite in_mid in I13. specialize (I13 p). unfold alive in *. rewrite D2. destruct (Z.eq_dec p (e_ptr e')) as [->|N1].
    { split; auto. intros _. destruct EOK as [_ (rs & IS & NR)]. cbn [rr_rrs rr_of] in IS. pose proof (is_raw _ _ IS) as HR. unfold rd_of in HR. cbn [raw] in HR. destruct (h_dat h' (e_ptr e')); eauto. exfalso. apply NR, HR. auto. }
    destruct (Z.eq_dec p (e_ptr e)) as [->|N2]; [|rewrite DAT by tauto; rewrite I13; tauto]. destruct (in_dec Z.eq_dec (e_ptr e) (ptrs lc)) as [L|L].
    + rewrite FP by auto. rewrite I13. tauto.
    + rewrite FREED by auto. split; [intros [x Hx]; discriminate|]. intros [[X|X]|[X|X]]; [congruence|contradiction|contradiction|]. apply I14 in X. exfalso. apply (proj1 X). apply in_ptrs; auto.
  - intros p Hp. rewrite ptrs_app, in_mid. destruct (I14 p Hp) as [Q1 Q2]. split; auto. rewrite ptrs_app, in_mid in Q1. intros [->|X]; [|tauto]. destruct PE as [[EQ N]|EQ]; [rewrite EQ in Q1; tauto|]. apply (OLD (e_ptr e')); auto. apply I13. auto.
  - intros p. unfold alive_arr. destruct (Z.eq_dec p (b_rrs np)) as [->|N]; [|rewrite A2 by auto; apply I15]. split; [auto|]. intros _. unfold h2, set_arr. cbn [h_arr]. rewrite Z.eqb_refl. eauto.
Qed.
(** ** Storing a changed set *)
Lemma set_eta : forall s, mkset (RdatasetModel.count s) (size s) (raw s) = s.
Proof. destruct s. reflexivity. Qed.
Lemma store_ok : forall h e ttl s s', h_dat h (e_ptr e) = Some (raw s) -> h_dat h 0 = None -> 0 < h_next h -> (forall p, h_next h <= p -> h_dat h p = None) -> e_ptr e <> 0 ->
  exists e' h', store_rd h e ttl s s' = Ok (e', h') /\ e_type e' = e_type e /\ rr_of h' e' = mkrr (e_type e) ttl s' /\ h_arr h' = h_arr h /\ h_next h <= h_next h' /\ (forall p, h_next h' <= p -> h_dat h' p = None) /\ h_dat h' 0 = None /\
   (e_ptr e' = e_ptr e \/ (e_ptr e' = 0 /\ raw s' = []) \/ e_ptr e' = h_next h) /\ (forall p, p <> e_ptr e -> p <> e_ptr e' -> h_dat h' p = h_dat h p) /\ (e_ptr e' <> e_ptr e -> h_dat h' (e_ptr e) = None) /\ (e_ptr e' <> 0 -> alive h' (e_ptr e')) /\ (raw s' = [] -> raw s <> [] -> e_ptr e' = 0).
Proof.
  intros h e ttl s s' HD H0 HN HF NZ. unfold store_rd. destruct (list_eq_dec Z.eq_dec (raw s) (raw s')) as [EQ|NE].
  - eexists _, _. split; [reflexivity|]. cbn [e_type e_ptr]. split; auto. split; [|split; [auto|split; [lia|split; [auto|split; [auto|split; [auto|split; [auto|split; [congruence|split; [intros _; exists (raw s); auto|congruence]]]]]]]]]. unfold rr_of, rd_of. cbn [e_type e_ttl e_count e_size e_ptr]. rewrite HD. rewrite EQ; f_equal; apply set_eta.
  - assert (NX : e_ptr e <> h_next h) by (intros X; rewrite X, HF in HD by lia; discriminate). unfold free_dat. replace (e_ptr e =? 0) with false by lia. rewrite HD. cbn [rbind]. destruct (raw s') as [|z r] eqn:R.
    + eexists _, _. split; [reflexivity|]. unfold rr_of, rd_of. cbn [e_type e_ttl e_count e_size e_ptr set_dat h_dat h_arr h_next]. destruct (Z.eqb_spec 0 (e_ptr e)); [congruence|]. rewrite H0. split; auto. split; [f_equal; rewrite <- R; apply set_eta|]. split; auto. split; [lia|]. split; [intros p Hp; destruct (Z.eqb_spec p (e_ptr e)); auto|]. split; auto. split; auto. split; [intros p Hp _; destruct (Z.eqb_spec p (e_ptr e)); [congruence|auto]|]. split; [intros _; rewrite Z.eqb_refl; auto|]. split; [intros X; contradiction|auto].
    + eexists _, _. split; [reflexivity|]. unfold rr_of, rd_of. cbn [e_type e_ttl e_count e_size e_ptr set_dat new_dat h_dat h_arr h_next]. rewrite Z.eqb_refl. split; auto. split; [f_equal; rewrite <- R; apply set_eta|]. split; auto. split; [lia|]. split; [intros p Hp; destruct (Z.eqb_spec p (h_next h)); [lia|]; destruct (Z.eqb_spec p (e_ptr e)); auto; apply HF; lia|]. split; [destruct (Z.eqb_spec 0 (h_next h)); [lia|]; destruct (Z.eqb_spec 0 (e_ptr e)); auto|]. split; auto. split; [intros p Hp Hq; destruct (Z.eqb_spec p (h_next h)); [congruence|]; destruct (Z.eqb_spec p (e_ptr e)); [congruence|auto]|]. split; [intros _; destruct (Z.eqb_spec (e_ptr e) (h_next h)); [congruence|]; rewrite Z.eqb_refl; auto|]. split; [intros _; eexists; cbn [h_dat]; rewrite Z.eqb_refl; reflexivity|discriminate].
Qed.
Lemma read_ok : forall h e r, h_dat h (e_ptr e) = Some r -> read_rd h e = Ok (rd_of h e) /\ h_dat h (e_ptr e) = Some (raw (rd_of h e)).
Proof. intros h e r H. unfold read_rd, rd_of. rewrite H. destruct (e_ptr e =? 0); auto. Qed.
(** ** The entry of the type gets private *)
Definition private (t : Z) (ln lc : list ent) : Prop := forall e, In e ln -> e_type e = t -> ~ In (e_ptr e) (ptrs lc).
Lemma copy_inv : forall al F G h np cp ln lc t, inv F G h np cp ln lc -> own np cp -> (forall e, find_ent ln t = Some e -> In (e_ptr e) (ptrs lc)) -> exists ret h' ln',
  (let* l := arr h np in match find_ent l t with None => Ok (KNOT_EOK, np, h) | Some e => if negb (al (e_size e)) then Ok (KNOT_ENOMEM, np, h) else let* s := read_rd h e in let (p, h) := new_dat h (raw s) in Ok (KNOT_EOK, np, set_arr h (b_rrs np) (Some (set_ent l t (mkent (e_type e) (e_ttl e) (e_count e) (e_size e) p)))) end) = Ok (ret, np, h') /\
  inv F G h' np cp ln' lc /\ frame F G cp lc h h' /\ viewl h' ln' = viewl h ln /\ (ret = KNOT_EOK \/ ret = KNOT_ENOMEM /\ exists n, al n = false) /\ (ret = KNOT_EOK -> private t ln' lc).
Proof.
  intros al F G h np cp ln lc t I O SH. rewrite (i_n _ _ _ _ _ _ _ I). cbn [rbind]. destruct (ent_split ln t) as [(a & e & b & -> & HT & HF & FE & SE & _)|[FE HF]]; rewrite FE.
  2:{ exists KNOT_EOK, h, ln. split; auto. split; auto. split; [apply frame_refl|]. split; auto. split; auto. intros _ x Hx HX. rewrite Forall_forall in HF. exfalso. apply (HF x); auto. }
  destruct (al (e_size e)) eqn:AL; cbn [negb].
  2:{ exists KNOT_ENOMEM, h, (a ++ e :: b). split; auto. split; auto. split; [apply frame_refl|]. split; auto. split; [right; eauto|]. intros X. discriminate X. }
  assert (EI : In e (a ++ e :: b)) by (apply in_mid; auto). destruct (ent_ok h _ e (i_null _ _ _ _ _ _ _ I) (i_wn _ _ _ _ _ _ _ I) EI) as (EO & PN & r & PR & RN). destruct (read_ok h e r PR) as [RD PR2]. rewrite RD. cbn [rbind new_dat]. rewrite SE. specialize (SH e FE).
  set (e' := mkent (e_type e) (e_ttl e) (e_count e) (e_size e) (h_next h)). set (h1 := mkheap (h_arr h) (fun q => if q =? h_next h then Some (raw (rd_of h e)) else h_dat h q) (h_next h + 1)).
  assert (V : rr_of h1 e' = rr_of h e). { unfold rr_of, rd_of, e', h1. cbn [e_type e_ttl e_count e_size e_ptr h_dat raw]. rewrite Z.eqb_refl. auto. }
  pose proof (i_next _ _ _ _ _ _ _ I) as NX. pose proof (i_fresh _ _ _ _ _ _ _ I) as FR.
  destruct (change_inv F G h np cp a e b lc h1 e' I O) as (J1 & J2 & J3); auto.
  - unfold h1. cbn [h_next]. lia.
  - intros p Hp. unfold h1 in *. cbn [h_next h_dat] in *. destruct (Z.eqb_spec p (h_next h)); [lia|]. apply FR. lia.
  - unfold h1. cbn [h_dat]. destruct (Z.eqb_spec 0 (h_next h)); [lia|]. apply (i_null _ _ _ _ _ _ _ I).
  - rewrite V. auto.
  - intros p Hp _. unfold h1. cbn [h_dat]. destruct (Z.eqb_spec p (h_next h)); auto. contradiction.
  - tauto.
  - exists KNOT_EOK. eexists. exists (a ++ e' :: b). split; [reflexivity|]. split; [exact J1|]. split; [exact J2|]. split; [rewrite J3, V, view_app; auto|]. split; auto. intros _ x Hx HX.
    assert (x = e') as ->. { apply (wf_types _ _ _ _ (i_wn _ _ _ _ _ _ _ J1) Hx); [apply in_mid; auto|cbn [e' e_type]; congruence]. }
    cbn [e' e_ptr]. intros X. assert (alive h (h_next h)) as [y Hy] by (apply (i_dom _ _ _ _ _ _ _ I); auto). destruct (FR (h_next h)) as [Q _]; [lia|]. congruence.
Qed.
Lemma own_type : forall al F G h np cp ln lc t, inv F G h np cp ln lc -> exists ret np1 h1 ln1,
  (let* sh := rdata_shared h np cp t in if sh then replace_rdataset_with_copy al true h np cp t else Ok (KNOT_EOK, np, h)) = Ok (ret, np1, h1) /\
  inv F G h1 np1 cp ln1 lc /\ frame F G cp lc h h1 /\ viewl h1 ln1 = viewl h ln /\ (ret = KNOT_EOK \/ ret = KNOT_ENOMEM /\ exists n, al n = false) /\ (ret = KNOT_EOK -> private t ln1 lc /\ (own np1 cp \/ b_rrs np1 = 0)).
Proof.
  intros al F G h np cp ln lc t I. unfold rdata_shared, replace_rdataset_with_copy, prepare_change. destruct (Z.eqb_spec (b_rrs cp) (b_rrs np)) as [E|E].
  - cbn [rbind andb]. destruct (Z.eqb_spec (b_rrs cp) 0) as [Z0|NZ]; cbn [negb rbind].
    + change (KNOT_EOK =? KNOT_EOK) with true. cbn [negb]. rewrite (i_n _ _ _ _ _ _ _ I). cbn [rbind]. assert (ln = []) as ->. { pose proof (i_n _ _ _ _ _ _ _ I) as X. unfold arr in X. replace (b_rrs np =? 0) with true in X by lia. destruct (b_cnt np =? 0); congruence. }
      cbn [find_ent]. exists KNOT_EOK, np, h, []. split; auto. split; auto. split; [apply frame_refl|]. split; auto. split; auto. intros _. split; [|right; lia]. intros x [].
    + rewrite (i_c _ _ _ _ _ _ _ I). cbn [rbind]. destruct (prep_inv F G h np cp ln lc I) as (p & h' & EN & I1 & FR1 & ED & P1 & P2 & ->); auto. rewrite EN. change (KNOT_EOK =? KNOT_EOK) with true. cbn [negb rbind].
      destruct (copy_inv al F G h' (mkhalf p (b_cnt np)) cp lc lc t I1) as (ret & h2 & ln2 & E2 & I2 & FR2 & V2 & R2 & P); [split; auto|intros e He; apply in_ptrs; apply find_some in He; tauto|]. rewrite E2. exists ret. eexists. exists h2, ln2. split; [reflexivity|]. split; auto. split; [eapply frame_trans; eauto|]. split; [rewrite V2; apply view_ext; rewrite ED; auto|]. split; auto. intros R. split; auto. left. split; auto.
  - rewrite (i_n _ _ _ _ _ _ _ I), (i_c _ _ _ _ _ _ _ I). cbn [rbind andb]. destruct (match find_ent ln t with Some e1 => match find_ent lc t with Some e2 => e_ptr e1 =? e_ptr e2 | None => false end | None => false end) eqn:SH.
    + change (KNOT_EOK =? KNOT_EOK) with true. cbn [negb]. destruct (find_ent ln t) as [e1|] eqn:F1; [|discriminate]. destruct (find_ent lc t) as [e2|] eqn:F2; [|discriminate]. pose proof (find_some _ _ _ F1) as [G1 _]. pose proof (find_some _ _ _ F2) as [G2 _].
      assert (O : own np cp). { split; [lia|]. apply (arr_nz h np ln); [apply I|]. intros ->. destruct G1. }
      destruct (copy_inv al F G h np cp ln lc t I O) as (ret & h2 & ln2 & E2 & I2 & FR2 & V2 & R2 & P); [intros e He; replace e with e1 by congruence; replace (e_ptr e1) with (e_ptr e2) by lia; apply in_ptrs; auto|]. rewrite E2. exists ret, np, h2, ln2. split; auto. split; auto. split; auto.
    + exists KNOT_EOK, np, h, ln. split; auto. split; auto. split; [apply frame_refl|]. split; auto. split; auto. intros _. split.
      * intros e He HT X. apply in_map_iff in X. destruct X as (e' & EP & He'). pose proof (i_sep _ _ _ _ _ _ _ I e e' He He' (eq_sym EP)) as ET. rewrite <- HT in SH. rewrite (find_in h ln e (i_wn _ _ _ _ _ _ _ I) He) in SH. rewrite ET, (find_in h lc e' (i_wc _ _ _ _ _ _ _ I) He') in SH. lia.
      * destruct (Z.eq_dec (b_rrs np) 0); auto. left. split; auto.
Qed.

(** ** Adding *)
Lemma insert_at_pos : forall h l t a b, insert_at l t = (a, b) -> insert_pos (viewl h l) t = (viewl h a, viewl h b) /\ l = a ++ b.
Proof.
  induction l as [|e l IH]; intros t a b H; cbn [insert_at] in H; [injection H as <- <-; auto|]. cbn [viewl map insert_pos rr_of rr_type]. destruct (e_type e <? t) eqn:E; [|injection H as <- <-; auto]. destruct (insert_at l t) as [a' b'] eqn:EI. injection H as <- <-. destruct (IH _ _ _ EI) as [IH1 ->]. unfold viewl in IH1. rewrite IH1. auto.
Qed.
(** The state after a failure *)
Definition nz (e : ent) : bool := negb (e_ptr e =? 0).
Record winv (F G : Z -> Prop) (h : heap) (np cp : half) (ln lc : list ent) : Prop := {
  w_null : h_dat h 0 = None; w_anull : h_arr h 0 = None; w_next : 0 < h_next h; w_fresh : forall p, h_next h <= p -> h_dat h p = None /\ h_arr h p = None; w_ccnt : b_cnt cp = zlen lc;
  w_n : arr h np = Ok ln; w_c : arr h cp = Ok lc; w_wc : node_wf (viewl h lc); w_pc : NoDup (ptrs lc);
  w_live : forall e, In e ln -> e_ptr e <> 0 -> alive h (e_ptr e) /\ ~ F (e_ptr e) /\ e_type e <> 0;
  w_ptr : NoDup (map e_ptr (filter nz ln)); w_type : NoDup (map e_type (filter nz ln));
  w_sep : forall e e', In e ln -> In e' lc -> e_ptr e = e_ptr e' -> e_type e = e_type e';
  w_F : forall p, F p -> ~ In p (ptrs lc); w_G : forall p, G p -> p <> b_rrs np /\ p <> b_rrs cp; w_ar : b_rrs np = b_rrs cp -> ln = lc }.
Lemma wf_nodup_types : forall h l, node_wf (viewl h l) -> NoDup (map e_type l).
Proof.
  intros h l [HS _]. induction l as [|x l IH]; [constructor|]. cbn [viewl map] in *. inversion HS as [|? ? S1 S2]; subst. constructor; auto. intros X. apply in_map_iff in X. destruct X as (y & E & Hy). rewrite Forall_forall in S2. specialize (S2 (rr_of h y) (in_map _ _ _ Hy)). unfold type_lt in S2. cbn [rr_type rr_of] in S2. lia.
Qed.
Lemma filter_all : forall (A : Type) (f : A -> bool) l, (forall x, In x l -> f x = true) -> filter f l = l.
Proof. induction l as [|x l IH]; intros H; cbn [filter]; auto. rewrite H by (left; auto). rewrite IH; auto. intros y Hy. apply H. right. auto. Qed.
Lemma inv_same : forall F G h np cp ln lc, inv F G h np cp ln lc -> b_rrs np = b_rrs cp -> ln = lc.
Proof. intros F G h np cp ln lc I E. pose proof (i_n _ _ _ _ _ _ _ I) as X. pose proof (i_c _ _ _ _ _ _ _ I) as Y. unfold arr in *. rewrite E in X. destruct (b_rrs cp =? 0), (b_cnt np =? 0), (b_cnt cp =? 0), (h_arr h (b_rrs cp)); congruence. Qed.
Lemma inv_winv : forall F G h np cp ln lc, inv F G h np cp ln lc -> winv F G h np cp ln lc.
Proof.
  intros F G h np cp ln lc I. pose proof I as [I1 I1' I2 I3 I4 I5 I6 I7 I8 I9 I10 I11 I12 I13 I14 I15 I16].
  assert (NZ : filter nz ln = ln). { apply filter_all. intros x Hx. destruct (ent_ok h ln x I1 I8 Hx) as (_ & P & _). unfold nz. lia. }
  split; auto; try (rewrite NZ; auto).
  - intros e He _. destruct (ent_ok h ln e I1 I8 He) as ((T & _) & P & r & HR & _). cbn [rr_of rr_type] in T. split; [exists r; auto|]. split; [|lia]. intros X. apply I14 in X. apply (proj1 X). apply in_ptrs. auto.
  - apply (wf_nodup_types h). auto.
  - apply I14.
  - apply (inv_same _ _ _ _ _ _ _ I).
Qed.
(** One entry gets something that is not a set *)
Lemma change_winv2 : forall F G h np cp a e b lc h2 e', inv F G h np cp (a ++ e :: b) lc -> own np cp -> ~ In (e_ptr e) (ptrs lc) -> (forall p, h_arr h2 p = if p =? b_rrs np then Some (a ++ e' :: b) else h_arr h p) -> h_next h <= h_next h2 -> (forall p, h_next h2 <= p -> h_dat h2 p = None) -> h_dat h2 0 = None -> e_type e' = e_type e ->
  (e_ptr e' = e_ptr e \/ e_ptr e' = 0 \/ e_ptr e' = h_next h) -> (e_ptr e' <> 0 -> alive h2 (e_ptr e')) -> (forall p, p <> e_ptr e -> p <> e_ptr e' -> h_dat h2 p = h_dat h p) -> winv F G h2 np cp (a ++ e' :: b) lc /\ frame F G cp lc h h2.
Proof.
  intros F G h np cp a e b lc h2 e' HI [O1 O2] PRIV EA NX2 FRS2 N0 ET PE AL DAT. pose proof HI as [I1 I1' I2 I3 I4 I5 I6 I7 I8 I9 I10 I11 I12 I13 I14 I15 I16].
  assert (EI : In e (a ++ e :: b)) by (apply in_mid; auto). destruct (ent_ok h _ e I1 I8 EI) as (EOK & PN & r & PR & _).
  assert (OLD : forall p, alive h p -> p <> h_next h /\ p <> 0). { intros p [x Hx]. split; intros ->; [destruct (I3 (h_next h)) as [Q _]; [lia|]|]; congruence. }
  assert (OTH : forall x, In x (a ++ b) -> e_ptr x <> e_ptr e /\ e_ptr x <> e_ptr e' /\ e_type x <> e_type e /\ e_ptr x <> 0).
  { intros x Hx. rewrite ptrs_app in I10. assert (HP : In (e_ptr x) (ptrs a ++ ptrs b)) by (unfold ptrs; rewrite <- map_app; apply in_map; auto). assert (XI : In x (a ++ e :: b)) by (apply in_mid; auto). assert (e_ptr x <> e_ptr e) as X by (intros Y; rewrite Y in HP; apply NoDup_remove in I10; tauto). destruct (OLD (e_ptr x)) as [Q1 Q2]; [apply I13; left; apply in_ptrs; auto|]. split; auto. split; [destruct PE as [-> |[-> | ->]]; auto|]. split; auto. intros Y. apply X. f_equal. apply (wf_types h (a ++ e :: b)); auto. }
  assert (FP : forall p, F p \/ In p (ptrs lc) -> h_dat h2 p = h_dat h p).
  { intros p Hp. assert (A : alive h p) by (apply I13; tauto). assert (p <> e_ptr e) as X. { intros ->. destruct Hp as [Hp|Hp]; auto. apply I14 in Hp. apply (proj1 Hp). apply in_ptrs; auto. } apply DAT; auto. destruct (OLD p A). destruct PE as [-> |[-> | ->]]; auto. }
  assert (A2 : forall p, p <> b_rrs np -> h_arr h2 p = h_arr h p) by (intros p Hp; rewrite EA; destruct (Z.eqb_spec p (b_rrs np)); [congruence|auto]).
  assert (NZF : forall l, (forall x, In x l -> In x (a ++ b)) -> filter nz l = l). { intros l Hl. apply filter_all. intros x Hx. unfold nz. destruct (OTH x (Hl x Hx)). lia. }
  assert (FIL : filter nz (a ++ e' :: b) = if nz e' then a ++ e' :: b else a ++ b). { rewrite filter_app. cbn [filter]. rewrite (NZF a), (NZF b) by (intros; apply in_or_app; auto). destruct (nz e'); auto. }
  split.
  2:{ split; [intros p Hp; auto|]. intros p Hp. apply A2. destruct Hp as [Hp| ->]; [apply I16; auto|auto]. }
  split; auto.
  - rewrite A2; auto.
  - lia.
  - intros p Hp. split; auto. destruct (I3 p) as [_ Q]; [lia|]. rewrite A2; auto. intros ->. assert (alive_arr h (b_rrs np)) as [l Hl] by (apply I15; auto). congruence.
  - apply arr_at; auto. rewrite EA, Z.eqb_refl. auto.
  - eapply arr_ext; [exact I5|]. apply A2. auto.
  - replace (viewl h2 lc) with (viewl h lc); auto. symmetry. apply view_ext. intros x Hx. apply FP. right. apply in_ptrs. auto.
  - intros x Hx NX. apply in_mid in Hx. destruct Hx as [->|Hx].
    + split; [apply AL; auto|]. split; [|rewrite ET; destruct EOK as [T _]; cbn [rr_of rr_type] in T; lia]. intros X. destruct PE as [EQ|[EQ|EQ]]; [|congruence|].
      * rewrite EQ in X. apply I14 in X. apply (proj1 X). apply in_ptrs. auto.
      * destruct (OLD (e_ptr e')) as [Q _]; [apply I13; auto|]. congruence.
    + assert (XI : In x (a ++ e :: b)) by (apply in_mid; auto). destruct (ent_ok h _ x I1 I8 XI) as ((T & _) & _ & r' & HR & _). cbn [rr_of rr_type] in T. destruct (OTH x Hx) as (Q1 & Q2 & _). split; [exists r'; rewrite DAT; auto|]. split; [|lia]. intros X. apply I14 in X. apply (proj1 X). apply in_ptrs. auto.
  - rewrite FIL. fold (ptrs (a ++ e' :: b)). fold (ptrs (a ++ b)). destruct (nz e'); [|unfold ptrs in *; rewrite map_app in *; apply NoDup_remove in I10; tauto]. rewrite ptrs_app. rewrite ptrs_app in I10. apply (nodup_mid _ (e_ptr e)); auto. unfold ptrs. rewrite <- map_app. intros X. apply in_map_iff in X. destruct X as (x & E & Hx). destruct (OTH x Hx) as (Q1 & Q2 & _). congruence.
  - rewrite FIL. assert (T : NoDup (map e_type (a ++ e :: b))) by (apply (wf_nodup_types h); auto). destruct (nz e'); rewrite map_app in *; cbn [map] in *; [rewrite ET; auto|]. apply NoDup_remove in T. tauto.
  - intros x y Hx Hy EP. apply in_mid in Hx. destruct Hx as [->|Hx]; [|apply I12; auto; apply in_mid; auto]. rewrite ET. assert (YA : alive h (e_ptr y)) by (apply I13; right; left; apply in_ptrs; auto). destruct (OLD _ YA) as [Q1 Q2]. destruct PE as [EQ|[EQ|EQ]]; [apply I12; auto; congruence|congruence|congruence].
  - intros p Hp. apply I14; auto.
  - intros X. contradiction.
Qed.
Lemma change_winv : forall F G h np cp a e b lc h' e', inv F G h np cp (a ++ e :: b) lc -> own np cp -> ~ In (e_ptr e) (ptrs lc) -> h_arr h' = h_arr h -> h_next h <= h_next h' -> (forall p, h_next h' <= p -> h_dat h' p = None) -> h_dat h' 0 = None -> e_type e' = e_type e ->
  (e_ptr e' = e_ptr e \/ e_ptr e' = 0 \/ e_ptr e' = h_next h) -> (e_ptr e' <> 0 -> alive h' (e_ptr e')) -> (forall p, p <> e_ptr e -> p <> e_ptr e' -> h_dat h' p = h_dat h p) ->
  let h2 := set_arr h' (b_rrs np) (Some (a ++ e' :: b)) in winv F G h2 np cp (a ++ e' :: b) lc /\ frame F G cp lc h h2.
Proof. intros F G h np cp a e b lc h' e' I O P EA NX FRS N0 ET PE AL DAT. cbv zeta. apply (change_winv2 F G h np cp a e b lc); auto. intros p. unfold set_arr. cbn [h_arr]. rewrite EA. auto. Qed.
Lemma free_arr_ok : forall F G h np cp ln lc, inv F G h np cp ln lc -> own np cp \/ b_rrs np = 0 -> exists h1, free_arr h (b_rrs np) = Ok h1 /\ h_dat h1 = h_dat h /\ h_next h1 = h_next h /\ (forall p, h_arr h1 p = if p =? b_rrs np then None else h_arr h p).
Proof.
  intros F G h np cp ln lc I O. unfold free_arr. destruct (Z.eqb_spec (b_rrs np) 0) as [E|E].
  - exists h. split; auto. split; auto. split; auto. intros p. destruct (Z.eqb_spec p (b_rrs np)) as [->|]; auto. rewrite E. apply I.
  - assert (alive_arr h (b_rrs np)) as [l Hl] by (apply (i_adom _ _ _ _ _ _ _ I); auto). rewrite Hl. eexists. split; [reflexivity|]. unfold set_arr. cbn [h_dat h_next h_arr]. auto.
Qed.
Lemma insert_inv : forall F G h np cp a b lc e r h', inv F G h np cp (a ++ b) lc -> own np cp \/ b_rrs np = 0 ->
  h_next h' = h_next h + 2 -> (forall p, h_dat h' p = if p =? h_next h then Some r else h_dat h p) -> (forall p, h_arr h' p = if p =? h_next h + 1 then Some (a ++ e :: b) else if p =? b_rrs np then None else h_arr h p) ->
  e_ptr e = h_next h -> entry_ok (rr_of h' e) -> Forall (fun x => rr_type x < e_type e) (viewl h a) -> Forall (fun x => e_type e < rr_type x) (viewl h b) ->
  inv F G h' (mkhalf (h_next h + 1) (b_cnt np + 1)) cp (a ++ e :: b) lc /\ frame F G cp lc h h' /\ viewl h' (a ++ e :: b) = viewl h a ++ rr_of h' e :: viewl h b.
Proof.
  intros F G h np cp a b lc e r h' I O NX DAT AR EP EOK FA FB. pose proof I as [I1 I1' I2 I3 I4 I5 I6 I7 I8 I9 I10 I11 I12 I13 I14 I15 I16].
  assert (OLD : forall p, alive h p -> p <> h_next h). { intros p [x Hx] ->. destruct (I3 (h_next h)) as [Q _]; [lia|]; congruence. }
  assert (AOLD : forall p, alive_arr h p -> p <> h_next h + 1). { intros p [x Hx] ->. destruct (I3 (h_next h + 1)) as [_ Q]; [lia|]; congruence. }
  assert (DO : forall p, alive h p -> h_dat h' p = h_dat h p) by (intros p Hp; rewrite DAT; specialize (OLD p Hp); destruct (Z.eqb_spec p (h_next h)); [congruence|auto]).
  assert (VX : forall l, (forall x, In x l -> In x (a ++ b) \/ In x lc) -> viewl h' l = viewl h l). { intros l Hl. apply view_ext. intros x Hx. apply DO. apply I13. destruct (Hl x Hx) as [Q|Q]; apply in_ptrs in Q; auto. }
  assert (VV : viewl h' (a ++ e :: b) = viewl h a ++ rr_of h' e :: viewl h b) by (rewrite view_app, (VX a), (VX b); auto; intros x Hx; left; apply in_or_app; auto).
  assert (CPN : b_rrs cp = 0 \/ (b_rrs cp <> h_next h + 1 /\ alive_arr h (b_rrs cp))). { destruct (Z.eq_dec (b_rrs cp) 0); auto. right. assert (alive_arr h (b_rrs cp)) by (apply I15; auto). auto. }
  assert (AC : h_arr h' (b_rrs cp) = h_arr h (b_rrs cp)). { rewrite AR. destruct (Z.eqb_spec (b_rrs cp) (h_next h + 1)) as [E|E]; [destruct CPN as [Q|[Q _]]; lia|]. destruct (Z.eqb_spec (b_rrs cp) (b_rrs np)) as [E2|E2]; auto. destruct O as [[O1 O2]|O]; [congruence|]. rewrite E2, O. auto. }
  assert (AG : forall p, G p -> h_arr h' p = h_arr h p). { intros p Hp. rewrite AR. assert (alive_arr h p) as X by (apply I15; auto). specialize (AOLD p X). destruct (I16 p Hp). destruct (Z.eqb_spec p (h_next h + 1)); [congruence|]. destruct (Z.eqb_spec p (b_rrs np)); [congruence|auto]. }
  split; [|split; auto]. 2:{ split; [intros p Hp; apply DO, I13; tauto|]. intros p [Hp| ->]; auto. }
  split; cbn [b_rrs b_cnt]; auto; try lia.
  - rewrite DAT. destruct (Z.eqb_spec 0 (h_next h)); [lia|auto].
  - rewrite AR. destruct (Z.eqb_spec 0 (h_next h + 1)); [lia|]. destruct (0 =? b_rrs np); auto.
  - intros p Hp. destruct (I3 p) as [Q1 Q2]; [lia|]. rewrite DAT, AR. destruct (Z.eqb_spec p (h_next h)); [lia|]. destruct (Z.eqb_spec p (h_next h + 1)); [lia|]. split; auto. destruct (p =? b_rrs np); auto.
  - apply arr_at; cbn [b_rrs]; [|lia]. rewrite AR, Z.eqb_refl. auto.
  - eapply arr_ext; [exact I5|auto].
  - rewrite I6, !zlen_app, zlen_cons. lia.
  - rewrite VV. apply wf_insert; auto. unfold viewl. rewrite <- map_app. auto.
  - rewrite VX; auto.
  - rewrite ptrs_app. unfold ptrs in I10. rewrite map_app in I10. apply (NoDup_Add (a := e_ptr e) (l := ptrs a ++ ptrs b)); [apply Add_app|]. split; [exact I10|]. unfold ptrs. rewrite <- map_app. intros X. apply (OLD (e_ptr e)); auto. apply I13. auto.
  - intros x y Hx Hy EQ. apply in_mid in Hx. destruct Hx as [->|Hx]; [|apply I12; auto]. exfalso. apply (OLD (e_ptr y)); [apply I13; right; left; apply in_ptrs; auto|congruence].
  - intros p. rewrite ptrs_app, in_mid. unfold ptrs in *. rewrite map_app in I13. specialize (I13 p). unfold alive in *. rewrite DAT, EP. destruct (Z.eqb_spec p (h_next h)) as [->|E]; [split; eauto|]. rewrite I13. tauto.
  - intros p Hp. rewrite ptrs_app, in_mid. unfold ptrs in *. rewrite map_app in *. destruct (I14 p Hp) as [Q1 Q2]. split; auto. intros [X|X]; auto. apply (OLD p); [apply I13; auto|congruence].
  - intros p. unfold alive_arr in *. rewrite AR. destruct (Z.eqb_spec p (h_next h + 1)) as [->|E].
    + split; [|eauto]. intros _. left. split; [lia|auto].
    + destruct (Z.eqb_spec p (b_rrs np)) as [->|E2]; [|rewrite I15; intuition congruence]. split; [intros [l Hl]; discriminate|]. intros [[X [Y|Y]]|X]; [congruence| |apply I16 in X; tauto]. destruct O as [[O1 O2]|O]; congruence.
  - intros p Hp. split; [|apply I16; auto]. apply AOLD. apply I15. auto.
Qed.
Lemma prefix_filter : forall (f : ent -> bool) k l, exists q, filter f l = filter f (firstn k l) ++ q.
Proof. intros f k l. exists (filter f (skipn k l)). rewrite <- filter_app, firstn_skipn. auto. Qed.
Lemma nodup_prefix : forall (A : Type) (l q : list A), NoDup (l ++ q) -> NoDup l.
Proof. induction l as [|x l IH]; intros q H; [constructor|]. cbn [app] in H. inversion H; subst. constructor; eauto. intros X. apply H2. apply in_or_app. auto. Qed.
Lemma insert_fail : forall F G h np cp a b lc e h', inv F G h np cp (a ++ b) lc -> own np cp \/ b_rrs np = 0 ->
  h_next h' = h_next h + 1 -> h_dat h' = h_dat h -> (forall p, h_arr h' p = if p =? h_next h then Some (firstn (length (a ++ b)) (a ++ e :: b)) else if p =? b_rrs np then None else h_arr h p) ->
  e_ptr e = 0 ->
  winv F G h' (mkhalf (h_next h) (b_cnt np)) cp (firstn (length (a ++ b)) (a ++ e :: b)) lc /\ frame F G cp lc h h'.
Proof.
  intros F G h np cp a b lc e h' I O NX DAT AR EP. pose proof I as [I1 I1' I2 I3 I4 I5 I6 I7 I8 I9 I10 I11 I12 I13 I14 I15 I16]. set (l := firstn (length (a ++ b)) (a ++ e :: b)) in *.
  assert (AOLD : forall p, alive_arr h p -> p <> h_next h). { intros p [x Hx] ->. destruct (I3 (h_next h)) as [_ Q]; [lia|]; congruence. }
  assert (AC : h_arr h' (b_rrs cp) = h_arr h (b_rrs cp)). { rewrite AR. destruct (Z.eqb_spec (b_rrs cp) (h_next h)) as [E|E]; [exfalso; apply (AOLD (b_rrs cp)); auto; apply I15; left; split; auto; lia|]. destruct (Z.eqb_spec (b_rrs cp) (b_rrs np)) as [E2|E2]; auto. destruct O as [[O1 O2]|O]; [congruence|]. rewrite E2, O. auto. }
  assert (AG : forall p, G p -> h_arr h' p = h_arr h p). { intros p Hp. rewrite AR. assert (alive_arr h p) as X by (apply I15; auto). specialize (AOLD p X). destruct (I16 p Hp). destruct (Z.eqb_spec p (h_next h)); [congruence|]. destruct (Z.eqb_spec p (b_rrs np)); [congruence|auto]. }
  assert (LI : forall x, In x l -> e_ptr x <> 0 -> In x (a ++ b)). { intros x Hx N. assert (In x (a ++ e :: b)) as Q by (rewrite <- (firstn_skipn (length (a ++ b)) (a ++ e :: b)); apply in_or_app; auto). apply in_mid in Q. destruct Q as [->|Q]; [contradiction|auto]. }
  assert (FIL : exists q, a ++ b = filter nz l ++ q). { destruct (prefix_filter nz (length (a ++ b)) (a ++ e :: b)) as [q Hq]. exists q. fold l in Hq. rewrite <- Hq. rewrite filter_app. cbn [filter]. replace (nz e) with false by (unfold nz; rewrite EP; auto). rewrite <- filter_app. symmetry. apply filter_all. intros x Hx. destruct (ent_ok h _ x I1 I8 Hx) as (_ & P & _). unfold nz. lia. }
  destruct FIL as [q Hq].
  split; [|split; [intros; rewrite DAT; auto|intros p [Hp| ->]; auto]].
  split; cbn [b_rrs]; rewrite ?DAT; auto.
  - rewrite AR. destruct (Z.eqb_spec 0 (h_next h)); [lia|]. destruct (0 =? b_rrs np); auto.
  - lia.
  - intros p Hp. destruct (I3 p) as [Q1 Q2]; [lia|]. rewrite AR. destruct (Z.eqb_spec p (h_next h)); [lia|]. split; auto. destruct (p =? b_rrs np); auto.
  - apply arr_at; cbn [b_rrs]; [|lia]. rewrite AR, Z.eqb_refl. auto.
  - eapply arr_ext; [exact I5|auto].
  - replace (viewl h' lc) with (viewl h lc); auto. symmetry. apply view_ext. rewrite DAT. auto.
  - intros x Hx N. specialize (LI x Hx N). destruct (ent_ok h _ x I1 I8 LI) as ((T & _) & _ & r & HR & _). cbn [rr_of rr_type] in T. split; [exists r; rewrite DAT; auto|]. split; [|lia]. intros X. apply I14 in X. apply (proj1 X). apply in_ptrs. auto.
  - unfold ptrs in I10. rewrite Hq, map_app in I10. apply nodup_prefix in I10. auto.
  - pose proof (wf_nodup_types _ _ I8) as T. rewrite Hq, map_app in T. apply nodup_prefix in T. auto.
  - intros x y Hx Hy EQ. apply I12; auto. apply LI; auto. rewrite EQ. destruct (ent_ok h _ y I1 I9 Hy) as (_ & P & _). auto.
  - intros p Hp. apply I14. auto.
  - intros p Hp. split; [|apply I16; auto]. apply AOLD, I15. auto.
  - intros X. exfalso. destruct (Z.eq_dec (b_rrs cp) 0); [lia|]. apply (AOLD (b_rrs cp)); auto. apply I15. auto.
Qed.
Lemma add_step : forall al F G h np cp ln lc r, inv F G h np cp ln lc -> entry_ok r -> exists ret np' h' ln', bi_add al true h np cp r = Ok (ret, np', h') /\ frame F G cp lc h h' /\
  (ret = KNOT_EOK -> inv F G h' np' cp ln' lc /\ exists ret0, node_add_rrset al true (viewl h ln) r = Ok (ret0, viewl h' ln') /\ (ret0 = KNOT_EOK \/ ret0 = KNOT_ETTL)) /\
  (ret <> KNOT_EOK -> winv F G h' np' cp ln' lc /\ (ret = KNOT_ESPACE \/ ret = KNOT_ENOMEM)).
Proof.
  intros al F G h np cp ln lc r I [TR (rs & IS & RN)]. unfold bi_add. destruct (own_type al F G h np cp ln lc (rr_type r) I) as (ret & np1 & h1 & ln1 & E1 & I1 & FR1 & V1 & R1 & P1).
  assert (EE : forall (k : Z * half * heap -> res (Z * half * heap)), (let* sh := rdata_shared h np cp (rr_type r) in let* x := if sh then replace_rdataset_with_copy al true h np cp (rr_type r) else Ok (KNOT_EOK, np, h) in k x) = k (ret, np1, h1)).
  { intros k. destruct (rdata_shared h np cp (rr_type r)) as [[|]| | |]; cbn [rbind] in *; try discriminate; [rewrite E1; auto|congruence]. }
  rewrite (EE (fun x => let '(ret0, np0, h0) := x in if negb (ret0 =? KNOT_EOK) then Ok (ret0, np0, h0) else let* (ret1, np2, h2) := add_rrset al true h0 np0 r in Ok (if ret1 =? KNOT_ETTL then KNOT_EOK else ret1, np2, h2))). clear EE.
  destruct R1 as [->|[-> [n1 Hn1]]].
  2:{ change (KNOT_ENOMEM =? KNOT_EOK) with false. cbn [negb]. exists KNOT_ENOMEM, np1, h1, ln1. split; auto. split; auto. split; [intros X; discriminate X|]. intros _. split; [apply inv_winv; auto|auto]. }
  change (KNOT_EOK =? KNOT_EOK) with true. cbn [negb]. destruct (P1 eq_refl) as [PR OW]. unfold add_rrset. rewrite (i_n _ _ _ _ _ _ _ I1). cbn [rbind]. rewrite <- V1.
  destruct (ent_split ln1 (rr_type r)) as [(a & e & b & -> & HT & HF & FE & SE & _)|[FE HF]]; rewrite FE.
  - assert (EI : In e (a ++ e :: b)) by (apply in_mid; auto). assert (O : own np1 cp). { destruct OW as [O|O]; auto. exfalso. destruct (arr_nz h1 np1 _ (i_n _ _ _ _ _ _ _ I1)) as [Q _]; [intros X; rewrite X in EI; destruct EI|]. auto. }
    destruct (ent_ok h1 _ e (i_null _ _ _ _ _ _ _ I1) (i_wn _ _ _ _ _ _ _ I1) EI) as (EO & PN & r0 & P0 & _). destruct (read_ok h1 e r0 P0) as [RD PR2]. rewrite RD. cbn [rbind]. destruct EO as [TE (rs0 & IS0 & RN0)]. cbn [rr_rrs rr_of] in IS0.
    destruct (c07_merge al _ _ _ _ IS0 IS) as (ret & s' & rs' & EM & IS' & HOK & HNO). rewrite EM. cbn [rbind].
    set (ch := ttl_changed (rr_of h1 e) r). set (ttl := if ch then rr_ttl r else e_ttl e).
    destruct (store_ok h1 e ttl _ s' PR2 (i_null _ _ _ _ _ _ _ I1) (i_next _ _ _ _ _ _ _ I1) (fun p Hp => proj1 (i_fresh _ _ _ _ _ _ _ I1 p Hp)) PN) as (e' & h' & ES & ET & RV & AR & NX & FRS & N0 & PE & DAT & FREED & AL & _). rewrite ES. cbn [rbind]. rewrite SE. pose proof (PR e EI HT) as PRV.
    destruct (Z.eq_dec ret KNOT_EOK) as [->|NR].
    + assert (NE : rs' <> []) by (intros ->; destruct rs0 as [|x0 ?]; [contradiction|]; apply (HOK eq_refl x0); left; left; auto).
      destruct (change_inv F G h1 np1 cp a e b lc h' e' I1 O) as (J1 & J2 & J3); auto.
      { rewrite RV. split; [cbn [rr_type] in *; auto|]. exists rs'. auto. }
      { destruct PE as [PE|[[PE X]|PE]]; auto. exfalso. apply NE. apply (is_raw _ _ IS'). auto. }
      { intros p Hp Hq. apply DAT; auto. intros ->. apply Hq. auto. }
      change (KNOT_EOK =? KNOT_EOK) with true. cbn [negb]. exists KNOT_EOK, np1. eexists. exists (a ++ e' :: b). split; [destruct ch; reflexivity|]. split; [eapply frame_trans; eauto|]. split; [|congruence]. intros _. split; [exact J1|]. unfold node_add_rrset. rewrite view_app.
      rewrite (add_loop_some al (viewl h1 a) (rr_of h1 e) (viewl h1 b) r KNOT_EOK s'); auto.
      2:{ unfold viewl. apply Forall_forall. intros x Hx. apply in_map_iff in Hx. destruct Hx as (y & <- & Hy). cbn [rr_of rr_type]. rewrite Forall_forall in HF. auto. }
      cbn [rbind]. eexists. split; [rewrite J3, RV; reflexivity|]. fold ch. destruct ch; auto.
    + destruct (change_winv F G h1 np1 cp a e b lc h' e' I1 O) as (J1 & J2); auto; [tauto|]. specialize (HNO NR). exists ret, np1. eexists. exists (a ++ e' :: b). split; [destruct (ret =? KNOT_EOK) eqn:Q; [lia|]; cbn [negb]; destruct (ret =? KNOT_ETTL) eqn:Q2; [unfold KNOT_ETTL, KNOT_ESPACE, KNOT_ENOMEM in *; lia|reflexivity]|]. split; [eapply frame_trans; eauto|]. split; [congruence|]. intros _. split; auto.
  - unfold add_no_merge. cbn [negb]. rewrite (i_n _ _ _ _ _ _ _ I1). cbn [rbind]. destruct (free_arr_ok F G h1 np1 cp ln1 lc I1 OW) as (h2 & EF & D2 & N2 & A2). rewrite EF. cbn [rbind]. destruct (insert_at ln1 (rr_type r)) as [a b] eqn:EI. destruct (insert_at_pos h1 ln1 (rr_type r) a b EI) as [IP ->].
    assert (HFV : Forall (fun x => rr_type x <> rr_type r) (viewl h1 (a ++ b))). { unfold viewl. apply Forall_forall. intros x Hx. apply in_map_iff in Hx. destruct Hx as (y & <- & Hy). rewrite Forall_forall in HF. apply (HF y). auto. }
    destruct (insert_pos_spec (viewl h1 (a ++ b)) (rr_type r)) as (va & vb & IP2 & VE & FA & FB); auto; [apply (i_wn _ _ _ _ _ _ _ I1)|]. rewrite IP in IP2. injection IP2 as <- <-.
    unfold node_add_rrset. rewrite (add_loop_none al _ _ HFV). cbn [rbind]. unfold add_rrset_no_merge. cbn [negb]. rewrite IP. unfold rr_data_from.
    destruct (c07_copy al _ _ IS) as [C|[C AF]]; rewrite C.
    + destruct (raw (rr_rrs r)) as [|z q] eqn:RW; [exfalso; apply RN; apply (is_raw _ _ IS); auto|]. cbn [new_dat new_arr rbind]. rewrite N2, D2. cbn [h_next h_dat].
      set (e := mkent (rr_type r) (rr_ttl r) (RdatasetModel.count (rr_rrs r)) (size (rr_rrs r)) (h_next h1)).
      match goal with |- context [Ok (if KNOT_EOK =? KNOT_ETTL then _ else _, _, ?hh)] => set (h3 := hh) end.
      assert (RV : rr_of h3 e = mkrr (rr_type r) (rr_ttl r) (rr_rrs r)). { unfold rr_of, rd_of, e, h3. cbn [e_type e_ttl e_count e_size e_ptr h_dat]. rewrite Z.eqb_refl. f_equal. rewrite <- RW. apply set_eta. }
      destruct (insert_inv F G h1 np1 cp a b lc e (z :: q) h3 I1 OW) as (J1 & J2 & J3); auto.
      { unfold h3. cbn [h_next]. lia. }
      { intros p. unfold h3. cbn [h_arr h_next]. destruct (p =? h_next h1 + 1); auto. }
      { rewrite RV. split; auto. exists rs. auto. }
      eexists _, _, h3, (a ++ e :: b). split; [reflexivity|]. split; [eapply frame_trans; eauto|]. split; [|intros X; exfalso; apply X; reflexivity]. intros _. split; [exact J1|]. exists KNOT_EOK. change (KNOT_EOK =? KNOT_EOK) with true. cbn [negb]. split; auto. rewrite J3, RV. auto.
    + cbn [new_arr rbind]. rewrite N2, D2.
      match goal with |- context [firstn _ (a ++ ?x :: b)] => set (e := x) end.
      match goal with |- context [Ok (if KNOT_ENOMEM =? KNOT_ETTL then _ else _, _, ?hh)] => set (h3 := hh) end.
      destruct (insert_fail F G h1 np1 cp a b lc e h3 I1 OW) as (J1 & J2); auto.
      { intros p. unfold h3. cbn [h_arr]. destruct (p =? h_next h1); auto. }
      eexists _, _, h3, _. split; [reflexivity|]. split; [eapply frame_trans; eauto|]. split; [intros X; discriminate X|]. intros _. split; [exact J1|auto].
Qed.
(** ** Removing *)
Lemma del_inv : forall F G h np cp a e b lc h2, inv F G h np cp (a ++ e :: b) lc -> own np cp -> ~ In (e_ptr e) (ptrs lc) -> (forall p, h_arr h2 p = if p =? b_rrs np then Some (a ++ b) else h_arr h p) -> h_next h <= h_next h2 ->
  (forall p, h_dat h2 p = if p =? e_ptr e then None else h_dat h p) -> inv F G h2 (mkhalf (b_rrs np) (b_cnt np - 1)) cp (a ++ b) lc /\ frame F G cp lc h h2 /\ viewl h2 (a ++ b) = viewl h (a ++ b).
Proof.
  intros F G h np cp a e b lc h2 HI [O1 O2] PRIV AR NX DAT. pose proof HI as [I1 I1' I2 I3 I4 I5 I6 I7 I8 I9 I10 I11 I12 I13 I14 I15 I16].
  assert (EI : In e (a ++ e :: b)) by (apply in_mid; auto).
  assert (OTH : forall x, In x (a ++ b) -> e_ptr x <> e_ptr e). { intros x Hx Y. rewrite ptrs_app in I10. apply NoDup_remove in I10. apply (proj2 I10). rewrite <- Y. unfold ptrs. rewrite <- map_app. apply in_map. auto. }
  assert (DO : forall p, p <> e_ptr e -> h_dat h2 p = h_dat h p) by (intros p Hp; rewrite DAT; destruct (Z.eqb_spec p (e_ptr e)); [congruence|auto]).
  assert (FP : forall p, F p \/ In p (ptrs lc) -> p <> e_ptr e). { intros p Hp ->. destruct Hp as [Hp|Hp]; auto. apply I14 in Hp. apply (proj1 Hp). apply in_ptrs; auto. }
  assert (A2 : forall p, p <> b_rrs np -> h_arr h2 p = h_arr h p) by (intros p Hp; rewrite AR; destruct (Z.eqb_spec p (b_rrs np)); [congruence|auto]).
  assert (VV : viewl h2 (a ++ b) = viewl h (a ++ b)) by (apply view_ext; intros x Hx; apply DO; auto).
  split; [|split; auto]. 2:{ split; [intros p Hp; apply DO; auto|]. intros p Hp. apply A2. destruct Hp as [Hp| ->]; [apply I16; auto|auto]. }
  split; cbn [b_rrs b_cnt]; auto; try lia.
  - rewrite DAT. destruct (0 =? e_ptr e); auto.
  - rewrite A2; auto.
  - intros p Hp. destruct (I3 p) as [Q1 Q2]; [lia|]. rewrite DAT. split; [destruct (p =? e_ptr e); auto|]. rewrite A2; auto. intros ->. assert (alive_arr h (b_rrs np)) as [l Hl] by (apply I15; auto). congruence.
  - apply arr_at; auto. cbn [b_rrs]. rewrite AR, Z.eqb_refl. auto.
  - eapply arr_ext; [exact I5|]. apply A2. auto.
  - rewrite I6, !zlen_app, zlen_cons. lia.
  - rewrite VV. unfold viewl. rewrite map_app. rewrite view_app in I8. apply wf_del in I8. auto.
  - replace (viewl h2 lc) with (viewl h lc); auto. symmetry. apply view_ext. intros x Hx. apply DO, FP. right. apply in_ptrs. auto.
  - unfold ptrs in *. rewrite map_app in *. apply NoDup_remove in I10. tauto.
  - intros x y Hx. apply I12. apply in_mid. auto.
  - intros p. specialize (I13 p). rewrite ptrs_app, in_mid in I13. unfold ptrs in *. rewrite map_app. unfold alive in *. rewrite DAT. destruct (Z.eqb_spec p (e_ptr e)) as [->|N]; [|rewrite I13; tauto]. split; [intros [x Hx]; discriminate|]. intros [X|[X|X]]; [|contradiction|exfalso; apply (FP (e_ptr e)); auto]. exfalso. rewrite <- map_app in X. apply in_map_iff in X. destruct X as (y & EY & Hy). apply (OTH y); auto.
  - intros p Hp. destruct (I14 p Hp) as [Q1 Q2]. split; auto. intros X. apply Q1. rewrite ptrs_app, in_mid. unfold ptrs in *. rewrite map_app in X. auto.
  - intros p. unfold alive_arr in *. destruct (Z.eq_dec p (b_rrs np)) as [->|N]; [|rewrite A2 by auto; apply I15]. split; [auto|]. intros _. rewrite AR, Z.eqb_refl. eauto.
Qed.
Lemma remove_step : forall al F G h np cp ln lc r rs, inv F G h np cp ln lc -> is (rr_rrs r) rs -> exists ret np' h' ln', bi_remove al true h np cp r = Ok (ret, np', h') /\ frame F G cp lc h h' /\
  (ret = KNOT_EOK -> inv F G h' np' cp ln' lc /\ node_remove_rrset al false (viewl h ln) r = Ok (KNOT_EOK, viewl h' ln')) /\
  (ret <> KNOT_EOK -> winv F G h' np' cp ln' lc /\ (ret = KNOT_ENOENT \/ ret = KNOT_ENOMEM)).
Proof.
  intros al F G h np cp ln lc r rs I IS. unfold bi_remove. destruct (own_type al F G h np cp ln lc (rr_type r) I) as (ret & np1 & h1 & ln1 & E1 & I1 & FR1 & V1 & R1 & P1).
  assert (EE : forall (k : Z * half * heap -> res (Z * half * heap)), (let* sh := rdata_shared h np cp (rr_type r) in let* x := if sh then replace_rdataset_with_copy al true h np cp (rr_type r) else Ok (KNOT_EOK, np, h) in k x) = k (ret, np1, h1)).
  { intros k. destruct (rdata_shared h np cp (rr_type r)) as [[|]| | |]; cbn [rbind] in *; try discriminate; [rewrite E1; auto|congruence]. }
  rewrite (EE (fun x => let '(ret0, np0, h0) := x in if negb (ret0 =? KNOT_EOK) then Ok (ret0, np0, h0) else let* (ret1, np2, h2) := remove_rrset al h0 np0 cp r in if negb (ret1 =? KNOT_EOK) then let* h3 := clear_new_rrs h2 np2 (rr_type r) in Ok (ret1, np2, h3) else Ok (KNOT_EOK, np2, h2))). clear EE.
  destruct R1 as [->|[-> [n1 Hn1]]].
  2:{ change (KNOT_ENOMEM =? KNOT_EOK) with false. cbn [negb]. exists KNOT_ENOMEM, np1, h1, ln1. split; auto. split; auto. split; [intros X; discriminate X|]. intros _. split; [apply inv_winv; auto|auto]. }
  change (KNOT_EOK =? KNOT_EOK) with true. cbn [negb]. destruct (P1 eq_refl) as [PR OW]. unfold remove_rrset. rewrite (i_n _ _ _ _ _ _ _ I1). cbn [rbind]. rewrite <- V1.
  destruct (ent_split ln1 (rr_type r)) as [(a & e & b & -> & HT & HF & FE & SE & DE)|[FE HF]]; rewrite FE.
  2:{ cbn [rbind]. change (KNOT_ENOENT =? KNOT_EOK) with false. cbn [negb]. unfold clear_new_rrs. rewrite (i_n _ _ _ _ _ _ _ I1). cbn [rbind]. rewrite FE. cbn [rbind]. exists KNOT_ENOENT, np1, h1, ln1. split; auto. split; auto. split; [intros X; discriminate X|]. intros _. split; [apply inv_winv; auto|auto]. }
  assert (EI : In e (a ++ e :: b)) by (apply in_mid; auto). assert (O : own np1 cp). { destruct OW as [O|O]; auto. exfalso. destruct (arr_nz h1 np1 _ (i_n _ _ _ _ _ _ _ I1)) as [Q _]; [intros X; rewrite X in EI; destruct EI|]. auto. }
  destruct (ent_ok h1 _ e (i_null _ _ _ _ _ _ _ I1) (i_wn _ _ _ _ _ _ _ I1) EI) as (EO & PN & r0 & P0 & R0N). destruct (read_ok h1 e r0 P0) as [RD PR2]. rewrite RD. cbn [rbind]. destruct EO as [TE (rs0 & IS0 & RN0)]. cbn [rr_rrs rr_of] in IS0.
  destruct (c07_subtract al false _ _ _ _ IS0 IS) as (ret & s' & s2 & EM & _ & HOK & HNO); [discriminate|]. rewrite EM. cbn [rbind].
  destruct (store_ok h1 e (e_ttl e) _ s' PR2 (i_null _ _ _ _ _ _ _ I1) (i_next _ _ _ _ _ _ _ I1) (fun p Hp => proj1 (i_fresh _ _ _ _ _ _ _ I1 p Hp)) PN) as (e' & h' & ES & ET & RV & AR & NX & FRS & N0 & PE & DAT & FREED & AL & EMP). rewrite ES. cbn [rbind]. rewrite SE. pose proof (PR e EI HT) as PRV.
  assert (OA : forall hh, h_arr (set_arr hh (b_rrs np1) (Some (a ++ e' :: b))) (b_rrs np1) = Some (a ++ e' :: b)) by (intros hh; unfold set_arr; cbn [h_arr]; rewrite Z.eqb_refl; auto).
  assert (FE' : forall x, e_type x = rr_type r -> find_ent (a ++ x :: b) (rr_type r) = Some x /\ (forall y, set_ent (a ++ x :: b) (rr_type r) y = a ++ y :: b) /\ del_ent (a ++ x :: b) (rr_type r) = a ++ b).
  { intros x HX. clear -HF HX. induction HF as [|z a Hz HF IH]; cbn [app find_ent set_ent del_ent]; [replace (e_type x =? rr_type r) with true by lia; auto|]. replace (e_type z =? rr_type r) with false by lia. destruct IH as (-> & IH1 & ->). split; auto. split; auto. intros y. rewrite IH1. auto. }
  destruct (FE' e') as (FE1 & FE2 & FE3); [congruence|]. clear FE'.
  destruct (Z.eq_dec ret KNOT_EOK) as [->|NR].
  - change (KNOT_EOK =? KNOT_EOK) with true. cbn [negb]. destruct (HOK eq_refl) as (rs' & IS' & HS'). pose proof (is_count _ _ IS') as CN. rewrite CN.
    assert (NRM : node_remove_rrset al false (viewl h1 (a ++ e :: b)) r = Ok (KNOT_EOK, if zlen rs' =? 0 then viewl h1 (a ++ b) else viewl h1 a ++ mkrr (rr_type r) (e_ttl e) s' :: viewl h1 b)).
    { unfold node_remove_rrset. rewrite view_app. rewrite <- HT. change (e_type e) with (rr_type (rr_of h1 e)).
      destruct (rdataset_some (viewl h1 a) (rr_of h1 e) (viewl h1 b)) as (Q1 & _ & Q2 & _); [unfold viewl; apply Forall_forall; intros x Hx; apply in_map_iff in Hx; destruct Hx as (y & <- & Hy); cbn [rr_of rr_type]; rewrite Forall_forall in HF; rewrite HT; apply HF; auto|].
      rewrite Q1. cbn [rr_rrs rr_of]. rewrite EM. cbn [rbind]. change (KNOT_EOK =? KNOT_EOK) with true. cbn [negb]. cbn [rr_type rr_of] in Q2. rewrite Q2, CN. destruct (zlen rs' =? 0); auto. f_equal. f_equal. cbn [rr_ttl rr_type rr_of].
      destruct (rdataset_some (viewl h1 a) (mkrr (e_type e) (e_ttl e) s') (viewl h1 b)) as (_ & _ & _ & Q3); [unfold viewl; apply Forall_forall; intros x Hx; apply in_map_iff in Hx; destruct Hx as (y & <- & Hy); cbn [rr_of rr_type]; rewrite Forall_forall in HF; rewrite HT; apply HF; auto|]. cbn [rr_type] in Q3. rewrite Q3. unfold viewl. rewrite map_app. auto. }
    rewrite NRM. destruct (Z.eqb_spec (zlen rs') 0) as [Z0|ZN].
    + assert (rs' = []) as -> by (destruct rs'; auto; rewrite zlen_cons in Z0; pose proof (zlen_nonneg rs'); lia). assert (E0 : e_ptr e' = 0). { apply EMP; [apply (is_raw _ _ IS'); auto|]. intros X. apply (is_raw _ _ IS0) in X. auto. }
      unfold remove_rdataset. set (h2 := set_arr h' (b_rrs np1) (Some (a ++ e' :: b))). assert (AN : arr h2 np1 = Ok (a ++ e' :: b)) by (apply arr_at; [apply OA|apply O]). assert (AC : arr h2 cp = Ok lc). { eapply arr_ext; [apply (i_c _ _ _ _ _ _ _ I1)|]. unfold h2, set_arr. cbn [h_arr]. rewrite AR. destruct (Z.eqb_spec (b_rrs cp) (b_rrs np1)); auto. destruct O. congruence. }
      rewrite AN. cbn [rbind]. rewrite FE1. unfold rdata_shared. replace (b_rrs cp =? b_rrs np1) with false by (destruct O; lia). rewrite AN, AC. cbn [rbind]. rewrite FE1.
      replace (match find_ent lc (rr_type r) with Some e2 => e_ptr e' =? e_ptr e2 | None => false end) with false.
      2:{ destruct (find_ent lc (rr_type r)) as [e2|] eqn:F2; auto. apply find_some in F2. destruct (ent_ok h1 lc e2 (i_null _ _ _ _ _ _ _ I1) (i_wc _ _ _ _ _ _ _ I1) (proj1 F2)) as (_ & Q & _). lia. }
      unfold free_dat. rewrite E0. change (0 =? 0) with true. cbn [rbind]. rewrite FE3. change (KNOT_EOK =? KNOT_EOK) with true. cbn [negb].
      match goal with |- context [Ok (KNOT_EOK, _, ?hh)] => set (h3 := hh) end.
      destruct (del_inv F G h1 np1 cp a e b lc h3 I1 O PRV) as (J1 & J2 & J3).
      { intros p. unfold h3, h2, set_arr. cbn [h_arr]. rewrite AR. destruct (p =? b_rrs np1); auto. }
      { unfold h3, h2, set_arr. cbn [h_next]. auto. }
      { intros p. unfold h3, h2, set_arr. cbn [h_dat]. destruct (Z.eqb_spec p (e_ptr e)) as [->|N]; [apply FREED; lia|]. destruct (Z.eq_dec p (e_ptr e')) as [->|N2]; [|apply DAT; auto]. rewrite E0, N0. symmetry. apply (i_null _ _ _ _ _ _ _ I1). }
      exists KNOT_EOK. eexists. exists h3, (a ++ b). split; [reflexivity|]. split; [eapply frame_trans; eauto|]. split; [|congruence]. intros _. split; [exact J1|]. rewrite J3. auto.
    + assert (NE : rs' <> []) by (intros ->; apply ZN; reflexivity). cbn [rbind]. change (KNOT_EOK =? KNOT_EOK) with true. cbn [negb].
      destruct (change_inv F G h1 np1 cp a e b lc h' e' I1 O) as (J1 & J2 & J3); auto.
      { rewrite RV. split; [cbn [rr_type] in *; auto|]. exists rs'. auto. }
      { destruct PE as [PE|[[PE X]|PE]]; auto. exfalso. apply NE. apply (is_raw _ _ IS'). auto. }
      { intros p Hp Hq. apply DAT; auto. intros ->. apply Hq. auto. }
      exists KNOT_EOK, np1. eexists. exists (a ++ e' :: b). split; [reflexivity|]. split; [eapply frame_trans; eauto|]. split; [|congruence]. intros _. split; [exact J1|]. rewrite J3, RV, HT. auto.
  - destruct (HNO NR) as [-> _]. change (KNOT_ENOMEM =? KNOT_EOK) with false. cbn [negb rbind]. change (KNOT_ENOMEM =? KNOT_EOK) with false. cbn [negb]. unfold clear_new_rrs. rewrite (arr_at _ np1 (a ++ e' :: b) (OA h') (proj2 O)). cbn [rbind]. rewrite FE1.
    assert (FD : exists h2, free_dat (set_arr h' (b_rrs np1) (Some (a ++ e' :: b))) (e_ptr e') = Ok h2 /\ h_arr h2 = h_arr (set_arr h' (b_rrs np1) (Some (a ++ e' :: b))) /\ h_next h2 = h_next h' /\ forall p, h_dat h2 p = if p =? e_ptr e' then None else h_dat h' p).
    { unfold free_dat. destruct (Z.eqb_spec (e_ptr e') 0) as [E|E].
      - eexists. split; [reflexivity|]. split; auto. split; auto. intros p. unfold set_arr. cbn [h_dat]. destruct (Z.eqb_spec p (e_ptr e')) as [->|]; auto. rewrite E. auto.
      - destruct (AL E) as [x Hx]. unfold set_arr at 1. cbn [h_dat]. rewrite Hx. eexists. split; [reflexivity|]. split; auto. }
    destruct FD as (h2 & FD & A2 & N2 & D2). rewrite FD. cbn [rbind]. rewrite FE2.
    match goal with |- context [Ok (KNOT_ENOMEM, _, ?hh)] => set (h3 := hh) end. match goal with h3 := context [a ++ ?x :: b] |- _ => set (e3 := x) in * end.
    destruct (change_winv2 F G h1 np1 cp a e b lc h3 e3 I1 O PRV) as (J1 & J2); auto.
    { intros p. unfold h3, set_arr. cbn [h_arr]. rewrite A2. unfold set_arr. cbn [h_arr]. rewrite AR. destruct (p =? b_rrs np1); auto. }
    { unfold h3, set_arr. cbn [h_next]. rewrite N2. auto. }
    { intros p Hp. unfold h3, set_arr in *. cbn [h_next h_dat] in *. rewrite N2 in Hp. rewrite D2, FRS by auto. destruct (p =? e_ptr e'); auto. }
    { unfold h3, set_arr. cbn [h_dat]. rewrite D2, N0. destruct (0 =? e_ptr e'); auto. }
    { intros X. exfalso. apply X. reflexivity. }
    { intros p Hp Hq. unfold h3, set_arr. cbn [h_dat]. rewrite D2. destruct (Z.eqb_spec p (e_ptr e')) as [->|N]; [|apply DAT; auto]. destruct PE as [PE|[[PE X]|PE]]; [congruence| |]; [rewrite PE; symmetry; apply (i_null _ _ _ _ _ _ _ I1)|]. rewrite PE. symmetry. apply (i_fresh _ _ _ _ _ _ _ I1). lia. }
    exists KNOT_ENOMEM, np1, h3, (a ++ e3 :: b). split; [reflexivity|]. split; [eapply frame_trans; eauto|]. split; [intros X; discriminate X|]. intros _. split; [exact J1|auto].
Qed.
