(** The difference of two zones as a list of RRsets to be recorded. *)
From Verif Require Import Base DnameModel RdatasetModel RdatasetSpec RdatasetProofs RdatasetProps NodeModel NodeProps SerialModel ZoneModel ZoneProofs ZoneView ZoneFold ChangesetProofs MergeProofs DiffModel.
From Coq Require Import Sorting.Sorted.

(** ** Changes of an RRset *)
(** Far enough from the largest size of an RRset: 4 GiB. *)
Definition rr_fits (e : rr_data) : Prop := size (rr_rrs e) <= 2 ^ 32 - 1 - 65538.
Lemma sub_len : forall (u rs : list (list Z)) x, NoDup u -> (forall y, In y u -> In y rs) -> ~ In x u -> In x rs -> zlen u + 1 <= zlen rs.
Proof.
  intros u rs x N S NX X. assert (NoDup (x :: u)) by (constructor; auto). assert (incl (x :: u) rs) by (intros y [<-|Hy]; auto). pose proof (NoDup_incl_length H H0). unfold zlen. cbn [length] in *. lia.
Qed.
Lemma canon_nodup : forall rs, canonical rs -> NoDup rs.
Proof.
  intros rs [HS _]. induction HS as [|x rs HS IH HF]; constructor; auto. intros HI. rewrite Forall_forall in HF. apply (rd_lt_irrefl x). auto.
Qed.
Lemma enc_sub : forall u rs : list (list Z), NoDup u -> (forall y, In y u -> In y rs) -> zlen (enc u) <= zlen (enc rs).
Proof.
  induction u as [|x u IH]; intros rs N S; [change (zlen (enc [])) with 0; apply zlen_nonneg|]. inversion N; subst. destruct (in_split x rs) as (p & q & ->); [apply S; left; auto|]. assert (L : zlen (enc u) <= zlen (enc (p ++ q))). { apply IH; auto. intros y Hy. assert (In y (p ++ x :: q)) by (apply S; right; auto). rewrite in_app_iff in *. destruct H as [|[->|]]; auto. contradiction. } rewrite enc_app in *. rewrite !enc_cons. rewrite !zlen_app in *. lia.
Qed.
Lemma changes_loop_spec : forall a pa (td : bool) s2 b out u full s, Forall rdata_ok a -> holds s2 b -> holds out u -> holds s full -> (forall x, In x u -> In x full) -> (forall x, In x a -> In x full) -> size s <= 2 ^ 32 - 1 - 65538 ->
  exists s' u', changes_loop (length a) td (enc (pa ++ a)) (zlen (enc pa)) s2 out = Ok s' /\ holds s' u' /\ forall x, In x u' <-> In x u \/ (In x a /\ (td = true \/ ~ In x b)).
Proof.
  induction a as [|x a IH]; intros pa td s2 b out u full s HA H2 HO HS HU HF SZ; cbn [length changes_loop].
  - exists out, u. split; auto. split; auto. intros x. cbn [In]. tauto.
  - inversion HA as [|? ? Hx HA']; subst.
    replace (enc (pa ++ x :: a)) with (enc pa ++ rdata_init x ++ enc a) by (rewrite enc_app; auto).
    rewrite rr_get_at by apply Hx. cbn [rbind].
    assert (M : exists m, (if td then Ok false else rdataset_member s2 x) = Ok m /\ (m = false <-> td = true \/ ~ In x b)). { destruct td; [exists false; tauto|]. destruct (member_spec s2 b x H2) as (m & -> & Hm). exists m. split; auto. destruct m; split; try tauto; try discriminate; [intros [|H]; [discriminate|exfalso; apply H, Hm; auto]|intros _; right; intros H; apply Hm in H; discriminate]. }
    destruct M as (m & -> & Hm). cbn [rbind].
    assert (A : exists o1 u1, (if m then Ok out else rdataset_add yes out x) = Ok o1 /\ holds o1 u1 /\ (forall y, In y u1 <-> In y u \/ (y = x /\ m = false))).
    { destruct m; [exists out, u; split; auto; split; auto; intros; split; [auto|intros [|[_ X]]; [auto|discriminate]]|]. apply is_holds in HO. destruct (c07_add yes out u x HO Hx) as [(s' & u' & E & H1 & H3 & _)|[(NI & HH & _)|(_ & (n & X) & _)]]; [| |discriminate].
      - exists s', u'. split; auto. split; [apply is_holds; auto|]. intros y. rewrite H3. tauto.
      - exfalso. apply is_holds in HO. destruct HO as (C1 & _ & Z1 & K1 & _), HS as (C2 & _ & Z2 & K2 & L2 & _). assert (In x full) by (apply HF; left; auto). pose proof (sub_len u full x (canon_nodup _ K1) HU NI H). pose proof (enc_sub u full (canon_nodup _ K1) HU). lia. }
    destruct A as (o1 & u1 & -> & HO1 & HU1). cbn [rbind]. rewrite next_at by apply Hx. cbn [rbind].
    replace (enc pa ++ rdata_init x) with (enc (pa ++ [x])) by (rewrite enc_app, enc_cons, app_nil_r; auto).
    replace (enc pa ++ rdata_init x ++ enc a) with (enc ((pa ++ [x]) ++ a)) by (rewrite <- app_assoc, enc_app; auto).
    destruct (IH (pa ++ [x]) td s2 b o1 u1 full s HA' H2 HO1 HS) as (s' & u' & E & H' & HI); auto.
    { intros y Hy. apply HU1 in Hy. destruct Hy as [|[-> _]]; [auto|]. apply HF. left. auto. }
    { intros y Hy. apply HF. right. auto. }
    exists s', u'. split; auto. split; auto. intros y. rewrite HI, HU1. cbn [In]. rewrite Hm. split; [intros [[|[-> ?]]|[? ?]]; auto|]. intros [|[[<-|?] ?]]; auto.
Qed.
Definition ttl_diff (r1 r2 : rr_data) : Prop := rr_ttl r1 <> rr_ttl r2 /\ rr_type r1 <> RRSIG.
Lemma changes_spec : forall r1 r2 a b, is (rr_rrs r1) a -> is (rr_rrs r2) b -> rr_fits r1 ->
  exists r rs, rdata_return_changes r1 r2 = Ok r /\ rr_type r = rr_type r1 /\ rr_ttl r = rr_ttl r1 /\ is (rr_rrs r) rs /\ forall x, In x rs <-> In x a /\ (ttl_diff r1 r2 \/ ~ In x b).
Proof.
  intros r1 r2 a b H1 H2 HF. apply is_holds in H1, H2. unfold rdata_return_changes. rewrite (holds_len _ _ H1). pose proof H1 as (_ & -> & _ & [_ F1] & _).
  destruct (changes_loop_spec a [] (negb (rr_ttl r1 =? rr_ttl r2) && negb (rr_type r1 =? RRSIG)) (rr_rrs r2) b rdataset_init [] a (rr_rrs r1) F1 H2 holds_init H1) as (s' & u' & E & H' & HI); auto; [intros x []|].
  cbv zeta. cbn [app] in E. change (zlen (enc [])) with 0 in E. rewrite E. cbn [rbind]. eexists _, u'. split; [reflexivity|]. cbn [rr_type rr_ttl rr_rrs]. split; auto. split; auto. split; [apply is_holds; auto|]. intros x. rewrite HI. unfold ttl_diff. cbn [In]. rewrite andb_true_iff, !negb_true_iff, !Z.eqb_neq. tauto.
Qed.

(** ** Recording a list of RRsets *)
Notation ent := (bool * (cell * rr_data))%type.
Definition emit1 (ch : changeset) (q : ent) : res changeset :=
  if fst q then changeset_add_addition ch (sof (snd q)) false else changeset_add_removal ch (sof (snd q)) false.
Definition side (b : bool) (ch : changeset) : contents := if b then ch_add ch else ch_rem ch.
Definition ein (L : list ent) (b : bool) (c : cell) (x : list Z) : Prop := exists e l, In (b, (c, e)) L /\ is (rr_rrs e) l /\ In x l.
Definition egood (a : name) (L : list ent) : Prop := forall b c e, In (b, (c, e)) L -> (exists l, good a (co c, e) c l) /\ under (co c) a = true /\ ct c <> SOA.
Definition efun (L : list ent) : Prop := forall b c e e', In (b, (c, e)) L -> In (b, (c, e')) L -> e = e'.
Lemma fold_app : forall (A B : Type) (f : A -> B -> res A) l1 l2 a, fold_res f (l1 ++ l2) a = let* a := fold_res f l1 a in fold_res f l2 a.
Proof. induction l1 as [|x l1 IH]; intros l2 a; cbn [app fold_res rbind]; auto. destruct (f a x); cbn [rbind]; auto. Qed.

Lemma contents_add_can : forall z s c b, cwf z -> good (z_apex z) s c b -> under (fst s) (z_apex z) = true ->
  (exists z', add_rr_to_contents z s = Ok z' /\ eff_add z z' c (rr_ttl (snd s)) b) \/ exists e, add_rr_to_contents z s = Err e /\ limit e.
Proof.
  intros z s c b W G U. unfold add_rr_to_contents. destruct (contents_add_rr z s) as [[ret z']| | |] eqn:E; cbn [rbind].
  - left. exists z'. split; auto. eapply contents_add_view; eauto.
  - right. exists e. split; auto. destruct s as [o r]. unfold contents_add_rr in E. pose proof (good_empty _ _ _ _ G) as HEm. cbn [snd] in HEm. rewrite HEm in E. pose proof (rel_ok _ _ _ _ G) as HRl. cbn [snd] in HRl. rewrite HRl in E. cbn [rbind] in E. destruct (add_node_ok o z (ck c) (proj1 W) U) as (z1 & h & E1). rewrite E1 in E. cbn [rbind] in E. destruct (add_at _ _ _ _ _ _ W G E1) as (-> & n & GN & HH). rewrite GN in E. pose proof G as (HE & HI & _). cbn [snd] in *.
    assert (WN : node_wf (zn_rrs n)). { destruct (add_node_view _ _ _ _ _ W E1) as (W1 & _). pose proof (cwf_wf z1 c W1) as X. rewrite get_rrs, GN in X. auto. }
    destruct (c52_add (zn_rrs n) r b WN HE HI) as (ret & n' & EA & HRet & _). rewrite EA in E. cbn [rbind] in E. destruct ((ret =? KNOT_EOK) || (ret =? KNOT_ETTL)) eqn:ER; [discriminate|]. injection E as <-. unfold limit. lia.
  - exfalso. destruct s as [o r]. unfold contents_add_rr in E. pose proof (good_empty _ _ _ _ G) as HEm. cbn [snd] in HEm. rewrite HEm in E. pose proof (rel_ok _ _ _ _ G) as HRl. cbn [snd] in HRl. rewrite HRl in E. cbn [rbind] in E. destruct (add_node_ok o z (ck c) (proj1 W) U) as (z1 & h & E1). rewrite E1 in E. cbn [rbind] in E. destruct (add_at _ _ _ _ _ _ W G E1) as (-> & n & GN & HH). rewrite GN in E. pose proof G as (HE & HI & _). cbn [snd] in *.
    assert (WN : node_wf (zn_rrs n)). { destruct (add_node_view _ _ _ _ _ W E1) as (W1 & _). pose proof (cwf_wf z1 c W1) as X. rewrite get_rrs, GN in X. auto. }
    destruct (c52_add (zn_rrs n) r b WN HE HI) as (ret & n' & EA & HRet & _). rewrite EA in E. cbn [rbind] in E. destruct ((ret =? KNOT_EOK) || (ret =? KNOT_ETTL)); discriminate.
  - exfalso. destruct s as [o r]. unfold contents_add_rr in E. pose proof (good_empty _ _ _ _ G) as HEm. cbn [snd] in HEm. rewrite HEm in E. pose proof (rel_ok _ _ _ _ G) as HRl. cbn [snd] in HRl. rewrite HRl in E. cbn [rbind] in E. destruct (add_node_ok o z (ck c) (proj1 W) U) as (z1 & h & E1). rewrite E1 in E. cbn [rbind] in E. destruct (add_at _ _ _ _ _ _ W G E1) as (-> & n & GN & HH). rewrite GN in E. pose proof G as (HE & HI & _). cbn [snd] in *.
    assert (WN : node_wf (zn_rrs n)). { destruct (add_node_view _ _ _ _ _ W E1) as (W1 & _). pose proof (cwf_wf z1 c W1) as X. rewrite get_rrs, GN in X. auto. }
    destruct (c52_add (zn_rrs n) r b WN HE HI) as (ret & n' & EA & HRet & _). rewrite EA in E. cbn [rbind] in E. destruct ((ret =? KNOT_EOK) || (ret =? KNOT_ETTL)); discriminate.
Qed.
(** What has been recorded so far. *)
Record holds_list (a : name) (L : list ent) (ch : changeset) : Prop := {
  hl_wf : forall b, cwf (side b ch); hl_apex : forall b, z_apex (side b ch) = a;
  hl_rec : forall b c x, crec (side b ch) c x <-> ein L b c x;
  hl_ttl : forall b c v, cttl (side b ch) c v <-> exists e, In (b, (c, e)) L /\ v = rr_ttl e }.
Lemma emit_fold : forall L pre a ch, egood a (pre ++ L) -> efun (pre ++ L) -> holds_list a pre ch ->
  (exists ch', fold_res emit1 L ch = Ok ch' /\ soa_from ch' = soa_from ch /\ soa_to ch' = soa_to ch /\ holds_list a (pre ++ L) ch') \/ exists e, fold_res emit1 L ch = Err e /\ limit e.
Proof.
  induction L as [|[b0 [c0 e0]] L IH]; intros pre a ch HG HF HL; cbn [fold_res].
  - left. exists ch. rewrite app_nil_r. auto.
  - destruct HL as [W A R T]. destruct (HG b0 c0 e0) as ((l & G) & HU & NS); [apply in_or_app; right; left; auto|].
    assert (G' : good (z_apex (side b0 ch)) (co c0, e0) c0 l) by (rewrite A; auto). assert (HU' : under (fst (co c0, e0)) (z_apex (side b0 ch)) = true) by (rewrite A; auto).
    assert (TS : (rr_type e0 =? SOA) = false) by (destruct G as (_ & _ & _ & HT & _); cbn [snd] in HT; rewrite HT in NS; lia).
    pose proof (good_empty _ _ _ _ G) as EM. cbn [snd] in EM.
    assert (EE : emit1 ch (b0, (c0, e0)) = let* z' := add_rr_to_contents (side b0 ch) (co c0, e0) in Ok (if b0 then mkch z' (ch_rem ch) (soa_from ch) (soa_to ch) else mkch (ch_add ch) z' (soa_from ch) (soa_to ch))).
    { unfold emit1, changeset_add_addition, changeset_add_removal, sof, side. cbn [fst snd]. rewrite TS. destruct b0; cbn [rbind]; cbn [snd]; rewrite EM; reflexivity. }
    rewrite EE. destruct (contents_add_can _ _ _ _ (W b0) G' HU') as [(z' & -> & EFF)|(e & -> & He)]; cbn [rbind]; [|right; eauto].
    destruct EFF as (W' & A' & R' & T'). set (ch1 := if b0 then _ else _).
    assert (S0 : side b0 ch1 = z') by (unfold ch1, side; destruct b0; auto). assert (S1 : side (negb b0) ch1 = side (negb b0) ch) by (unfold ch1, side; destruct b0; auto).
    assert (NN : forall b, b <> b0 -> b = negb b0) by (intros [] H; destruct b0; auto; contradiction).
    assert (HL1 : holds_list a (pre ++ [(b0, (c0, e0))]) ch1).
    { split.
      - intros b. destruct (bool_dec b b0) as [->|N]; [rewrite S0; auto|apply NN in N; subst b; rewrite S1; auto].
      - intros b. destruct (bool_dec b b0) as [->|N]; [rewrite S0, A'; auto|apply NN in N; subst b; rewrite S1; auto].
      - intros b c x. destruct (bool_dec b b0) as [->|N].
        + rewrite S0, R', R. unfold ein. split.
          * intros [(e & l' & H1 & H2)|[-> Hx]]; [exists e, l'; split; [apply in_or_app; auto|auto]|]. exists e0, l. split; [apply in_or_app; right; left; auto|]. split; auto. apply G.
          * intros (e & l' & H1 & H2 & H3). apply in_app_or in H1. destruct H1 as [H1|[[= <- <-]|[]]]; [left; eauto|]. right. split; auto. destruct G as (_ & GI & _). cbn [snd] in GI. rewrite (is_fun _ _ _ GI H2). auto.
        + pose proof N as N0. apply NN in N. subst b. rewrite S1, R. unfold ein. split; intros (e & l' & H1 & H2); exists e, l'; split; auto; [apply in_or_app; auto|]. apply in_app_or in H1. destruct H1 as [H1|[[= H1 _]|[]]]; auto. exfalso. apply N0. auto.
      - intros b c v. destruct (bool_dec b b0) as [->|N].
        + rewrite S0, T'. destruct (cell_dec c c0) as [->|NC].
          * assert (OLD : forall w, cttl (side b0 ch) c0 w -> w = rr_ttl e0). { intros w H. apply T in H. destruct H as (e & HI & ->). rewrite (HF b0 c0 e e0); auto; apply in_or_app; [left; auto|right; left; auto]. }
            split.
            -- intros [[H _]|[_ [[_ H]|[-> _]]]]; [contradiction| |exists e0; split; [apply in_or_app; right; left; auto|auto]]. apply OLD in H. subst v. exists e0. split; [apply in_or_app; right; left; auto|auto].
            -- intros (e & HI & ->). assert (e = e0) as ->. { apply (HF b0 c0); [apply in_app_or in HI; apply in_or_app; destruct HI as [|[[= <-]|[]]]; [auto|right; left; auto]|apply in_or_app; right; left; auto]. }
               right. split; auto. destruct (crec_cttl (side b0 ch) c0 (W b0)) as [_ K2]. destruct (cne_dec (side b0 ch) c0 (W b0)) as [HN|HN].
               ++ destruct (proj1 (crec_cttl _ c0 (W b0)) HN) as [w Hw]. pose proof (OLD w Hw). subst w. destruct (Z.eq_dec (ct c0) RRSIG); [left; auto|right; split; [auto|intros; contradiction]].
               ++ right. split; auto. intros _ w Hw. destruct (K2 (ex_intro _ w Hw)) as [x Hx]. eapply HN; eauto.
          * split.
            -- intros [[_ H]|[H _]]; [|contradiction]. apply T in H. destruct H as (e & HI & ->). exists e. split; auto. apply in_or_app. auto.
            -- intros (e & HI & ->). apply in_app_or in HI. destruct HI as [HI|[[= X _]|[]]]; [|congruence]. left. split; auto. apply T. eauto.
        + pose proof N as N0. apply NN in N. subst b. rewrite S1, T. split; intros (e & H1 & H2); exists e; split; auto; [apply in_or_app; auto|]. apply in_app_or in H1. destruct H1 as [H1|[[= H1 _]|[]]]; auto. exfalso. apply N0. auto. }
    assert (AS : pre ++ (b0, (c0, e0)) :: L = (pre ++ [(b0, (c0, e0))]) ++ L) by (rewrite <- app_assoc; reflexivity). rewrite AS in HG, HF. rewrite AS.
    destruct (IH _ a ch1 HG HF HL1) as [(ch' & E & F1 & F2 & H)|H]; auto. left. exists ch'. split; auto. split; [|split; auto]; unfold ch1 in *; destruct b0; auto.
Qed.

(** ** The RRsets recorded by the difference *)
Definition em (b k : bool) (o : name) (e : rr_data) : ent := (b, ((k, o, rr_type e), e)).
Definition chg (e1 e2 : rr_data) : list rr_data := match rdata_return_changes e1 e2 with Ok r => if rr_empty r then [] else [r] | _ => [] end.
Definition skip (di zi : bool) (e : rr_data) : bool := (rr_type e =? SOA) || ignored di zi e.
Definition node1 (di zi k : bool) (o : name) (l1 l2 : list rr_data) : list ent :=
  flat_map (fun e => if skip di zi e then [] else
    match node_rrset l2 (rr_type e) with None => [em false k o e] | Some e2 => map (em false k o) (chg e e2) ++ map (em true k o) (chg e2 e) end) l1.
Definition node2 (di zi k : bool) (o : name) (l1 l2 : list rr_data) : list ent :=
  flat_map (fun e => if skip di zi e then [] else match node_rrset l1 (rr_type e) with None => [em true k o e] | Some _ => [] end) l2.
Definition at_ (t : tree) (o : name) : list rr_data := match tget t o with Some n => zn_rrs n | None => [] end.
Definition tlist (di zi k : bool) (t1 t2 : tree) : list ent :=
  flat_map (fun p => node1 di zi k (fst p) (zn_rrs (snd p)) (at_ t2 (fst p)) ++ node2 di zi k (fst p) (zn_rrs (snd p)) (at_ t2 (fst p))) t1 ++
  flat_map (fun p => match tget t1 (fst p) with None => node2 di zi k (fst p) [] (zn_rrs (snd p)) | Some _ => [] end) t2.

Lemma fold_flat : forall (B : Type) (f : changeset -> B -> res changeset) (g : B -> list ent) l ch, (forall x ch, In x l -> f ch x = fold_res emit1 (g x) ch) -> fold_res f l ch = fold_res emit1 (flat_map g l) ch.
Proof.
  induction l as [|x l IH]; intros ch H; cbn [fold_res flat_map]; auto. rewrite fold_app, H by (left; auto). destruct (fold_res emit1 (g x) ch); cbn [rbind]; auto. apply IH. intros; apply H; right; auto.
Qed.
Definition entries_ok (l : list rr_data) : Prop := node_wf l /\ Forall rr_fits l.
Lemma lookup_in : forall l t e, node_wf l -> node_rrset l t = Some e -> In e l /\ rr_type e = t.
Proof.
  intros l t e W E. destruct (split_at l t) as [(a & x & p & -> & HT & H)|H]; [subst t; destruct (rdataset_some a x p H) as (_ & E1 & _); rewrite E1 in E; injection E as <-; split; auto; apply in_or_app; right; left; auto|]. destruct (rdataset_none l t H) as [_ E1]. congruence.
Qed.
Lemma in_lookup : forall l e, node_wf l -> In e l -> node_rrset l (rr_type e) = Some e.
Proof.
  intros l e W HI. pose proof (c52_lookup l (rr_type e) W) as H. destruct (node_rrset l (rr_type e)) as [e'|] eqn:E.
  - f_equal. destruct (lookup_in l _ e' W E) as [HI' HT]. destruct W as [HS _]. destruct (in_split e l HI) as (a & b & ->). apply sorted_app in HS. destruct HS as (_ & _ & F1 & F2 & _). rewrite Forall_forall in F1, F2. apply in_app_or in HI'. destruct HI' as [I2|[I2|I2]]; auto; [apply F1 in I2|apply F2 in I2]; lia.
  - exfalso. destruct W as [_ HF]. rewrite Forall_forall in HF. destruct (HF e HI) as [_ (rs & IS & _)]. destruct H as [H _]. apply (H (rr_ttl e) rs). exists e. auto.
Qed.
Lemma not_empty : forall e, entry_ok e -> rr_empty e = false.
Proof. intros e [_ (b & H1 & H2)]. unfold rr_empty. rewrite (is_count _ _ H1). destruct b; [contradiction|]. rewrite zlen_cons. pose proof (zlen_nonneg b). lia. Qed.
Lemma entry_in : forall l e, node_wf l -> In e l -> entry_ok e. Proof. intros l e [_ H] HI. rewrite Forall_forall in H. auto. Qed.

Lemma add_node_list : forall di zi k o n ch, Forall (fun e => rr_type e <> SOA) (zn_rrs n) -> diff_add_node di zi o n ch = fold_res emit1 (node2 di zi k o [] (zn_rrs n)) ch.
Proof.
  intros di zi k o n ch HS. unfold diff_add_node, node2. apply fold_flat. intros r ch' HI. rewrite Forall_forall in HS. unfold skip. assert (E : (rr_type r =? SOA) = false) by (specialize (HS r HI); lia). rewrite E. cbn [orb]. destruct (ignored di zi r); [reflexivity|]. cbn [node_rrset fold_res]. change (emit1 ch' (em true k o r)) with (changeset_add_addition ch' (o, r) false). destruct (changeset_add_addition ch' (o, r) false); reflexivity.
Qed.
Lemma remove_node_list : forall di zi k o n ch, Forall (fun e => rr_type e <> SOA) (zn_rrs n) -> diff_remove_node di zi o n ch = fold_res emit1 (node1 di zi k o (zn_rrs n) []) ch.
Proof.
  intros di zi k o n ch HS. unfold diff_remove_node, node1. apply fold_flat. intros r ch' HI. rewrite Forall_forall in HS. unfold skip. assert (E : (rr_type r =? SOA) = false) by (specialize (HS r HI); lia). rewrite E. cbn [orb]. destruct (ignored di zi r); [reflexivity|]. cbn [node_rrset fold_res]. change (emit1 ch' (em false k o r)) with (changeset_add_removal ch' (o, r) false). destruct (changeset_add_removal ch' (o, r) false); reflexivity.
Qed.
Lemma fold1 : forall x ch, fold_res emit1 [x] ch = emit1 ch x.
Proof. intros. cbn [fold_res]. destruct (emit1 ch x); reflexivity. Qed.
Lemma rrsets_list : forall k o r1 r2 a b ch, is (rr_rrs r1) a -> is (rr_rrs r2) b -> rr_fits r1 -> rr_fits r2 -> diff_rrsets o r1 r2 ch = fold_res emit1 (map (em false k o) (chg r1 r2) ++ map (em true k o) (chg r2 r1)) ch.
Proof.
  intros k o r1 r2 a b ch H1 H2 F1 F2. unfold diff_rrsets, chg. destruct (changes_spec r1 r2 a b H1 H2 F1) as (x & xs & E1 & _). destruct (changes_spec r2 r1 b a H2 H1 F2) as (y & ys & E2 & _). rewrite E1, E2. cbn [rbind]. rewrite fold_app.
  assert (Q : (if rr_empty x then Ok ch else changeset_add_removal ch (o, x) false) = fold_res emit1 (map (em false k o) (if rr_empty x then [] else [x])) ch). { destruct (rr_empty x); [reflexivity|]. cbn [map]. rewrite fold1. reflexivity. }
  rewrite Q. destruct (fold_res emit1 _ ch) as [ch1| | |]; cbn [rbind]; auto. destruct (rr_empty y); [reflexivity|]. cbn [map]. rewrite fold1. reflexivity.
Qed.
Lemma node_list : forall di zi k t2 o n1 ch, entries_ok (zn_rrs n1) -> entries_ok (at_ t2 o) -> (tget t2 o = None \/ zn_rrs n1 = [] -> Forall (fun e => rr_type e <> SOA) (zn_rrs n1) /\ Forall (fun e => rr_type e <> SOA) (at_ t2 o)) ->
  diff_node di zi (tget t2) ch (o, n1) = fold_res emit1 (node1 di zi k o (zn_rrs n1) (at_ t2 o) ++ node2 di zi k o (zn_rrs n1) (at_ t2 o)) ch.
Proof.
  intros di zi k t2 o n1 ch [W1 F1] [W2 F2] HS. unfold diff_node. unfold at_ in *. destruct (tget t2 o) as [n2|] eqn:E2.
  - destruct (zlen (zn_rrs n1) =? 0) eqn:E0.
    + assert (N1 : zn_rrs n1 = []) by (destruct (zn_rrs n1); auto; rewrite zlen_cons in E0; pose proof (zlen_nonneg l); lia). destruct (HS (or_intror N1)) as [_ S2]. rewrite N1. unfold node1. cbn [flat_map app]. apply add_node_list. auto.
    + rewrite fold_app. rewrite Forall_forall in F1, F2. assert (Q1 : forall l ch, (forall e, In e l -> In e (zn_rrs n1)) -> fold_res (fun ch r => if (rr_type r =? SOA) || ignored di zi r then Ok ch else
      match node_rrset (zn_rrs n2) (rr_type r) with
      | None => changeset_add_removal ch (o, r) false
      | Some r2 => if rr_empty r2 then changeset_add_removal ch (o, r) false else diff_rrsets o r r2 ch
      end) l ch = fold_res emit1 (node1 di zi k o l (zn_rrs n2)) ch).
      { intros l ch0 HL. unfold node1. apply fold_flat. intros r ch' HI. unfold skip. destruct ((rr_type r =? SOA) || ignored di zi r); [reflexivity|]. destruct (node_rrset (zn_rrs n2) (rr_type r)) as [r2|] eqn:EN; [|rewrite fold1; reflexivity]. destruct (lookup_in _ _ _ W2 EN) as [I2 T2]. pose proof (entry_in _ _ W2 I2) as OK2. rewrite (not_empty _ OK2). pose proof (entry_in _ _ W1 (HL _ HI)) as OK1. destruct OK1 as [_ (a & IA & _)], OK2 as [_ (b & IB & _)]. eapply rrsets_list; eauto. }
      rewrite Q1 by auto. destruct (fold_res emit1 _ ch) as [ch1| | |]; cbn [rbind]; auto. unfold node2. apply fold_flat. intros r ch' HI. unfold skip. destruct ((rr_type r =? SOA) || ignored di zi r); [reflexivity|]. destruct (node_rrset (zn_rrs n1) (rr_type r)) as [r1|] eqn:EN; [|rewrite fold1; reflexivity]. destruct (lookup_in _ _ _ W1 EN) as [I1 T1]. rewrite (not_empty _ (entry_in _ _ W1 I1)). reflexivity.
  - destruct (HS (or_introl eq_refl)) as [S1 _]. unfold node2. cbn [flat_map]. rewrite app_nil_r. apply remove_node_list. auto.
Qed.
Definition tree_ok (t : tree) : Prop := NoDup (map fst t) /\ forall o, entries_ok (at_ t o).
Lemma tget_in : forall t o n, NoDup (map fst t) -> (In (o, n) t <-> tget t o = Some n).
Proof.
  induction t as [|[o' n'] t IH]; intros o n N; cbn [tget In]; [split; [intros []|discriminate]|]. inversion N; subst. destruct (name_eqb o' o) eqn:E.
  - apply neqb_spec in E. subst o'. split; [intros [[= <-]|H]; auto; exfalso; apply H1; apply in_map_iff; exists (o, n); auto|intros [= <-]; auto].
  - rewrite <- IH by auto. split; [intros [[= -> <-]|H]; auto; rewrite neqb_refl in E; discriminate|auto].
Qed.
Lemma trees_list : forall di zi k t1 t2 ch, tree_ok t1 -> tree_ok t2 ->
  (forall o, tget t2 o = None \/ at_ t1 o = [] -> Forall (fun e => rr_type e <> SOA) (at_ t1 o) /\ Forall (fun e => rr_type e <> SOA) (at_ t2 o)) ->
  load_trees di zi t1 t2 ch = fold_res emit1 (tlist di zi k t1 t2) ch.
Proof.
  intros di zi k t1 t2 ch [N1 O1] [N2 O2] HS. unfold load_trees, tlist. rewrite fold_app.
  rewrite (fold_flat _ (diff_node di zi (tget t2)) (fun p => node1 di zi k (fst p) (zn_rrs (snd p)) (at_ t2 (fst p)) ++ node2 di zi k (fst p) (zn_rrs (snd p)) (at_ t2 (fst p)))).
  2:{ intros [o n] ch' HI. cbn [fst snd]. apply (tget_in t1 o n N1) in HI. assert (A1 : zn_rrs n = at_ t1 o) by (unfold at_; rewrite HI; auto). apply node_list; [rewrite A1; auto|auto|]. rewrite A1. apply HS. }
  destruct (fold_res emit1 _ ch) as [ch1| | |]; cbn [rbind]; auto. apply fold_flat. intros [o n] ch' HI. cbn [fst snd diff_new_node]. apply (tget_in t2 o n N2) in HI. destruct (tget t1 o) eqn:E1; [reflexivity|]. apply add_node_list. assert (A2 : zn_rrs n = at_ t2 o) by (unfold at_; rewrite HI; auto). rewrite A2. apply HS. right. unfold at_. rewrite E1. auto.
Qed.
(** Which they are. *)
Lemma skip_type : forall di zi e e', rr_type e = rr_type e' -> skip di zi e = skip di zi e'.
Proof. intros di zi e e' H. unfold skip, ignored, is_dnssec. rewrite H. auto. Qed.
Definition rec_of (di zi : bool) (l l' : list rr_data) (e : rr_data) : Prop :=
  exists e1, In e1 l /\ skip di zi e1 = false /\ rr_type e = rr_type e1 /\ match node_rrset l' (rr_type e1) with None => e = e1 | Some e2 => In e (chg e1 e2) end.
Lemma chg_type : forall e1 e2 e, In e (chg e1 e2) -> rr_type e = rr_type e1.
Proof. intros e1 e2 e H. unfold chg, rdata_return_changes in H. destruct (changes_loop _ _ _ _ _ _); cbn [rbind] in H; try (destruct H; fail). destruct (rr_empty _); [destruct H|]. destruct H as [<-|[]]. reflexivity. Qed.
Lemma em_in : forall b k o b' c e l, In (b, (c, e)) (map (em b' k o) l) <-> b = b' /\ ck c = k /\ co c = o /\ ct c = rr_type e /\ In e l.
Proof.
  intros b k o b' c e l. rewrite in_map_iff. split.
  - intros (x & H & HI). unfold em in H. injection H as <- <- <-. auto.
  - intros (-> & <- & <- & HT & HI). exists e. split; auto. unfold em. rewrite <- HT, <- cell_eta. auto.
Qed.
Lemma node_in : forall di zi k o l1 l2 b c e, node_wf l1 -> node_wf l2 ->
  (In (b, (c, e)) (node1 di zi k o l1 l2 ++ node2 di zi k o l1 l2) <-> ck c = k /\ co c = o /\ ct c = rr_type e /\ if b then rec_of di zi l2 l1 e else rec_of di zi l1 l2 e).
Proof.
  intros di zi k o l1 l2 b c e W1 W2. rewrite in_app_iff. unfold node1, node2. rewrite !in_flat_map. split.
  - intros [(e1 & I1 & H)|(e2 & I2 & H)].
    + destruct (skip di zi e1) eqn:SK; [destruct H|]. destruct (node_rrset l2 (rr_type e1)) as [e2|] eqn:EN.
      * rewrite in_app_iff, !em_in in H. destruct H as [(-> & H1 & H2 & H3 & H4)|(-> & H1 & H2 & H3 & H4)]; split; auto; split; auto; split; auto.
        -- exists e1. rewrite EN. pose proof (chg_type _ _ _ H4). auto.
        -- destruct (lookup_in _ _ _ W2 EN) as [I2 T2]. exists e2. split; auto. split; [rewrite (skip_type di zi e2 e1); auto|]. split; [eapply chg_type; eauto|]. rewrite T2, (in_lookup _ _ W1 I1). auto.
      * destruct H as [H|[]]. unfold em in H. injection H as <- <- <-. split; auto. split; auto. split; auto. exists e1. rewrite EN. auto.
    + destruct (skip di zi e2) eqn:SK; [destruct H|]. destruct (node_rrset l1 (rr_type e2)) as [e1|] eqn:EN; [destruct H|]. destruct H as [H|[]]. unfold em in H. injection H as <- <- <-. split; auto. split; auto. split; auto. exists e2. rewrite EN. auto.
  - intros (H1 & H2 & H3 & H). destruct b.
    + destruct H as (e2 & I2 & SK & TE & H). destruct (node_rrset l1 (rr_type e2)) as [e1|] eqn:EN.
      * left. destruct (lookup_in _ _ _ W1 EN) as [I1 T1]. exists e1. split; auto. rewrite (skip_type di zi e1 e2), SK by auto. rewrite T1, (in_lookup _ _ W2 I2). apply in_or_app. right. apply em_in. auto.
      * right. exists e2. split; auto. rewrite SK, EN. subst e. left. unfold em. rewrite <- H3, <- H1, <- H2, <- cell_eta. auto.
    + destruct H as (e1 & I1 & SK & TE & H). left. exists e1. split; auto. rewrite SK. destruct (node_rrset l2 (rr_type e1)) as [e2|]; [apply in_or_app; left; apply em_in; auto|]. subst e. left. unfold em. rewrite <- H3, <- H1, <- H2, <- cell_eta. auto.
Qed.
Lemma tlist_in : forall di zi k t1 t2 b c e, tree_ok t1 -> tree_ok t2 ->
  (In (b, (c, e)) (tlist di zi k t1 t2) <-> ck c = k /\ ct c = rr_type e /\ if b then rec_of di zi (at_ t2 (co c)) (at_ t1 (co c)) e else rec_of di zi (at_ t1 (co c)) (at_ t2 (co c)) e).
Proof.
  intros di zi k t1 t2 b c e [N1 O1] [N2 O2]. unfold tlist. rewrite in_app_iff, !in_flat_map. split.
  - intros [([o n] & HI & H)|([o n] & HI & H)]; cbn [fst snd] in H.
    + apply (tget_in t1 o n N1) in HI. assert (A1 : zn_rrs n = at_ t1 o) by (unfold at_; rewrite HI; auto). rewrite A1 in H. apply node_in in H; [|apply O1|apply O2]. destruct H as (H1 & <- & H3 & H4). auto.
    + apply (tget_in t2 o n N2) in HI. destruct (tget t1 o) eqn:E1; [destruct H|]. assert (A2 : zn_rrs n = at_ t2 o) by (unfold at_; rewrite HI; auto). rewrite A2 in H. pose proof (node_in di zi k o [] (at_ t2 o) b c e wf_nil (proj1 (O2 o))) as HN. unfold node1 in HN. cbn [flat_map app] in HN. apply HN in H. destruct H as (H1 & <- & H3 & H4). split; auto. split; auto. assert (A1 : at_ t1 (co c) = []) by (unfold at_; rewrite E1; auto). rewrite A1. auto.
  - intros (H1 & H3 & H4). destruct (tget t1 (co c)) as [n1|] eqn:E1.
    + left. exists (co c, n1). split; [apply tget_in; auto|]. cbn [fst snd]. assert (A1 : zn_rrs n1 = at_ t1 (co c)) by (unfold at_; rewrite E1; auto). rewrite A1. apply node_in; [apply O1|apply O2|auto].
    + right. assert (A1 : at_ t1 (co c) = []) by (unfold at_; rewrite E1; auto). rewrite A1 in H4. destruct (tget t2 (co c)) as [n2|] eqn:E2.
      * exists (co c, n2). split; [apply tget_in; auto|]. cbn [fst snd]. rewrite E1. assert (A2 : zn_rrs n2 = at_ t2 (co c)) by (unfold at_; rewrite E2; auto). rewrite A2. pose proof (node_in di zi k (co c) [] (at_ t2 (co c)) b c e wf_nil (proj1 (O2 (co c)))) as HN. unfold node1 in HN. cbn [flat_map app] in HN. apply HN. auto.
      * exfalso. assert (A2 : at_ t2 (co c) = []) by (unfold at_; rewrite E2; auto). rewrite A2 in H4. destruct b; destruct H4 as (x & [] & _).
Qed.
