(** Catalog updates follow the members. *)
From Verif Require Import Base ZoneModel CatalogModel CatalogSpec CatalogProofs.

Definition below (o c : name) : Prop := exists l, o = l ++ c /\ (2 <= length l)%nat.
Definition okrem (r : option (name * name)) : Prop := exists o c, r = Some (o, c) /\ below o c.
Definition pos (cfg : name -> bool) (v : cval) (h : holder) : Prop :=
  exists o c, v_add v = Some (o, c) /\ cfg c = true /\ h = Some (o, c, group_of v).
(** The entry of one member, between the database [h0] and the present [h] *)
Definition mstate (cfg : name -> bool) (v : option cval) (h0 h : holder) (p : bool) : Prop :=
  match v with
  | None => h = h0
  | Some w =>
      (p = false -> v_group w = None) /\
      match v_type w with
      | UAdd => h0 = None /\ pos cfg w h
      | URem => h0 <> None /\ h = None /\ (p = false -> okrem (v_rem w))
      | UMinor | UUniq => h0 <> None /\ pos cfg w h /\ (p = false -> okrem (v_rem w))
      | UProp => pos cfg w h /\ p = true /\ exists o c g, h0 = Some (o, c, g) /\ v_add w = Some (o, c)
      | UInvalid => False
      end
  end.

Lemma uniq_ok : forall o c, below o c -> exists x, get_uniq (Some (o, c)) = Ok x.
Proof.
  intros o c (l & -> & H). unfold get_uniq. replace (length (l ++ c) <? length c + 2)%nat with false; [eauto|].
  symmetry. apply Nat.ltb_ge. rewrite app_length. lia.
Qed.
Lemma exact_held : forall d o, contains_exact d (co_m o) (co_o o) (co_c o) = held (member_of d (co_m o)) o.
Proof.
  intros d o. unfold contains_exact, member_of, held. destruct (aget (co_m o) d) as [v|]; cbn [option_map]; [|reflexivity].
  rewrite (nsym (co_o o)), (nsym (co_c o)). reflexivity.
Qed.
Lemma held_eq : forall h o, held h o = true -> exists g, h = Some (co_o o, co_c o, g).
Proof.
  intros [[[ow c] g]|] o H; [|discriminate]. cbn [held] in H. apply andb_true_iff in H. destruct H as [H1 H2]. apply nspec in H1, H2. subst. eauto.
Qed.
Lemma pos_equal : forall cfg v h o, pos cfg v h -> upd_val_equal v (co_o o) (co_c o) = held h o.
Proof.
  intros cfg v h o (ow & c & E & _ & ->). unfold upd_val_equal. rewrite E. cbn [held]. apply andb_comm.
Qed.

Definition next_p (m : name) (h : holder) (p : bool) (o : cop) : bool :=
  p || (name_eqb m (co_m o) && match co_type o with UProp => held h o | _ => false end).

Lemma step_calm : forall cfg u d o h p, proper cfg o -> fine u ->
  mstate cfg (aget (co_m o) u) (member_of d (co_m o)) h p ->
  (match co_type o with UAdd => h = None /\ p = false | _ => co_chk o = true \/ held h o = true end) ->
  exists u', update_add u (co_m o) (co_o o) (co_c o) (co_type o) (co_g o) (if co_chk o then Some d else None) false = Ok (u', KNOT_EOK) /\
    mstate cfg (aget (co_m o) u') (member_of d (co_m o)) (hstep (co_m o) h o) (next_p (co_m o) h p o).
Proof.
  intros cfg u d o h p (HT & HC & HG0 & l & EO & HL) HF HM HK. unfold update_add.
  assert (HB : below (co_o o) (co_c o)) by (exists l; auto).
  assert (ES : bailiwick_shift (co_o o) (co_c o) = Some (length l)) by (rewrite EO; apply shift_app). rewrite ES.
  unfold hstep, next_p. rewrite nrefl. cbn [negb andb]. destruct (aget (co_m o) u) as [v|] eqn:EG; cbn [mstate] in HM.
  - destruct HM as [HG HM]. destruct HT as [HT|[HT|HT]]; rewrite HT in *.
    + (* removal *)
      rewrite orb_false_r. destruct (v_type v) eqn:ET; try contradiction.
      * destruct HM as [H0 HP]. rewrite (pos_equal _ _ _ o HP). destruct (held h o) eqn:EH; cbn [negb].
        -- eexists. split; [reflexivity|]. rewrite aget_del, nrefl. cbn [mstate]. congruence.
        -- eexists. split; [reflexivity|]. rewrite EG. cbn [mstate]. rewrite ET. auto.
      * eexists. split; [reflexivity|]. rewrite EG. cbn [mstate]. rewrite ET. destruct HM as (H0 & -> & H1). cbn [held]. auto.
      * destruct HM as (H0 & HP & H1). rewrite (pos_equal _ _ _ o HP). destruct (held h o) eqn:EH; cbn [negb].
        -- eexists. split; [reflexivity|]. rewrite aget_set, nrefl. cbn [mstate v_type v_group v_rem]. auto.
        -- eexists. split; [reflexivity|]. rewrite EG. cbn [mstate]. rewrite ET. auto.
      * destruct HM as (H0 & HP & H1). rewrite (pos_equal _ _ _ o HP). destruct (held h o) eqn:EH; cbn [negb].
        -- eexists. split; [reflexivity|]. rewrite aget_set, nrefl. cbn [mstate v_type v_group v_rem]. auto.
        -- eexists. split; [reflexivity|]. rewrite EG. cbn [mstate]. rewrite ET. auto.
      * destruct HM as (HP & Hp & ow & c & g & H0 & H1). rewrite (pos_equal _ _ _ o HP). destruct (held h o) eqn:EH; cbn [negb].
        -- eexists. split; [reflexivity|]. rewrite aget_set, nrefl. cbn [mstate v_type v_group v_rem]. rewrite H0. repeat split; try congruence.
        -- eexists. split; [reflexivity|]. rewrite EG. cbn [mstate]. rewrite ET. split; [exact HG|]. split; [exact HP|]. split; [exact Hp|]. eauto.
    + (* addition *)
      rewrite orb_false_r. destruct HK as [-> ->]. destruct (v_type v) eqn:ET; try contradiction;
        try (exfalso; first [destruct HM as (_ & ? & ? & _ & _ & K)|destruct HM as (_ & (? & ? & _ & _ & K) & _)|destruct HM as ((? & ? & _ & _ & K) & _)]; discriminate K).
      destruct HM as (H0 & _ & H1). destruct (H1 eq_refl) as (ro & rc & ER & HR). rewrite ER. unfold same_uniq.
      destruct (uniq_ok ro rc HR) as [x ->]. destruct (uniq_ok _ _ HB) as [y ->]. cbn [rbind].
      eexists. split; [reflexivity|]. rewrite aget_set, nrefl. cbn [mstate v_type v_group v_rem]. split; [exact HG|].
      destruct (bytes_eqb x y); (split; [exact H0|]; split; [|intros _; exists ro, rc; auto]; exists (co_o o), (co_c o); cbn [v_add]; unfold group_of; cbn [v_group]; rewrite (HG eq_refl); auto).
    + (* property *)
      unfold set_prop. destruct (v_type v) eqn:ET; try contradiction; cbn [orb].
      * destruct HM as [H0 HP]. rewrite (pos_equal _ _ _ o HP). destruct (held h o) eqn:EH; cbn [negb].
        -- eexists. split; [reflexivity|]. rewrite aget_set, nrefl. cbn [mstate v_type v_group v_rem]. rewrite orb_true_r.
           split; [discriminate|]. split; [exact H0|]. destruct HP as (ow & c & E1 & E2 & ->). exists ow, c. cbn [v_add]. unfold group_of; cbn [v_group].
           destruct (held_eq _ _ EH) as (g & K). injection K as -> -> _. auto.
        -- eexists. split; [reflexivity|]. rewrite aget_set, nrefl. cbn [mstate]. rewrite ET, orb_false_r. auto.
      * destruct HM as (H0 & -> & H1). eexists. split; [reflexivity|]. rewrite aget_set, nrefl. cbn [mstate held]. rewrite ET, orb_false_r. auto.
      * destruct HM as (H0 & HP & H1). rewrite (pos_equal _ _ _ o HP). destruct (held h o) eqn:EH; cbn [negb].
        -- eexists. split; [reflexivity|]. rewrite aget_set, nrefl. cbn [mstate v_type v_group v_rem]. rewrite orb_true_r.
           split; [discriminate|]. split; [exact H0|]. split; [|discriminate]. destruct HP as (ow & c & E1 & E2 & ->). exists ow, c. cbn [v_add]. unfold group_of; cbn [v_group].
           destruct (held_eq _ _ EH) as (g & K). injection K as -> -> _. auto.
        -- eexists. split; [reflexivity|]. rewrite aget_set, nrefl. cbn [mstate]. rewrite ET, orb_false_r. auto.
      * destruct HM as (H0 & HP & H1). rewrite (pos_equal _ _ _ o HP). destruct (held h o) eqn:EH; cbn [negb].
        -- eexists. split; [reflexivity|]. rewrite aget_set, nrefl. cbn [mstate v_type v_group v_rem]. rewrite orb_true_r.
           split; [discriminate|]. split; [exact H0|]. split; [|discriminate]. destruct HP as (ow & c & E1 & E2 & ->). exists ow, c. cbn [v_add]. unfold group_of; cbn [v_group].
           destruct (held_eq _ _ EH) as (g & K). injection K as -> -> _. auto.
        -- eexists. split; [reflexivity|]. rewrite aget_set, nrefl. cbn [mstate]. rewrite ET, orb_false_r. auto.
      * destruct HM as (HP & -> & ow0 & c0 & g0 & H0 & H1). rewrite (pos_equal _ _ _ o HP). destruct (held h o) eqn:EH; cbn [negb].
        -- eexists. split; [reflexivity|]. rewrite aget_set, nrefl. cbn [mstate v_type v_group v_rem orb].
           split; [discriminate|]. split; [|split; [reflexivity|exists ow0, c0, g0; auto]]. destruct HP as (ow & c & E1 & E2 & ->). exists ow, c. cbn [v_add]. unfold group_of; cbn [v_group].
           destruct (held_eq _ _ EH) as (g & K). injection K as -> -> _. auto.
        -- eexists. split; [reflexivity|]. rewrite aget_set, nrefl. cbn [mstate orb]. rewrite ET. split; [exact HG|]. split; [exact HP|]. split; [reflexivity|]. eauto.
  - subst h. pose proof (exact_held d o) as HX.
    destruct HT as [HT|[HT|HT]]; rewrite HT in *; cbn [upd_val_new v_type v_rem v_add].
    + rewrite (HG0 ltac:(discriminate)). rewrite orb_false_r. destruct (held (member_of d (co_m o)) o) eqn:EH.
      * assert (HN : member_of d (co_m o) <> None) by (intros K; rewrite K in EH; discriminate EH).
        destruct (co_chk o); [rewrite HX; cbn [negb]|]; (eexists; split; [reflexivity|]); rewrite aget_set, nrefl; cbn [mstate v_type v_group v_rem];
          (split; [reflexivity|split; [exact HN|]; split; [reflexivity|]; intros _; exists (co_o o), (co_c o); auto]).
      * destruct HK as [HK|HK]; [|discriminate]. rewrite HK, HX. cbn [negb]. eexists. split; [reflexivity|]. rewrite EG. cbn [mstate]. reflexivity.
    + rewrite (HG0 ltac:(discriminate)). rewrite orb_false_r. destruct HK as [HN ->]. rewrite HN.
      assert (HH : has_member d (co_m o) = false) by (unfold member_of in HN; unfold has_member; destruct (aget (co_m o) d); [discriminate|reflexivity]).
      destruct (co_chk o); [rewrite HH|]; (eexists; split; [reflexivity|]); rewrite aget_set, nrefl; cbn [mstate v_type v_group v_rem];
          (split; [reflexivity|split; [reflexivity|]]; exists (co_o o), (co_c o); cbn [v_add]; auto).
    + destruct (held (member_of d (co_m o)) o) eqn:EH.
      * destruct (held_eq _ _ EH) as (g & EHG).
        destruct (co_chk o); [rewrite HX; cbn [negb]|]; (eexists; split; [reflexivity|]); rewrite aget_set, nrefl; cbn [mstate v_type v_group v_rem]; rewrite orb_true_r;
          (split; [discriminate|split; [exists (co_o o), (co_c o); cbn [v_add]; unfold group_of; cbn [v_group]; destruct (co_g o); auto|split; [reflexivity|]; exists (co_o o), (co_c o), g; auto]]).
      * destruct HK as [HK|HK]; [|discriminate]. rewrite HK, HX. cbn [negb]. eexists. split; [reflexivity|]. rewrite EG. cbn [mstate]. reflexivity.
Qed.

Lemma hstep_ne : forall m h o, m <> co_m o -> hstep m h o = h.
Proof. intros m h o H. unfold hstep. apply nne in H. rewrite H. reflexivity. Qed.
Lemma next_ne : forall m h p o, m <> co_m o -> next_p m h p o = p.
Proof. intros m h p o H. unfold next_p. apply nne in H. rewrite H. apply orb_false_r. Qed.

Lemma run_calm : forall cfg d ops u (h : name -> holder) (p : name -> bool), Forall (proper cfg) ops -> fine u ->
  (forall m, mstate cfg (aget m u) (member_of d m) (h m) (p m)) -> (forall m, calm m (h m) (p m) ops) ->
  exists u' p', run_ops u d ops [] = Ok (u', KNOT_EOK) /\ fine u' /\
    (forall m, mstate cfg (aget m u') (member_of d m) (fold_left (hstep m) ops (h m)) (p' m)) /\
    ((forall o, In o ops -> co_type o <> UProp) -> forall m, p' m = p m).
Proof.
  intros cfg d. induction ops as [|o r IH]; intros u h p HP HF HM HC; cbn [run_ops fold_left].
  - exists u, p. split; [reflexivity|]. split; [exact HF|]. split; [exact HM|]. reflexivity.
  - inversion HP; subst. destruct (HC (co_m o)) as [HK _]. specialize (HK (nrefl _)). cbn [hd tl].
    destruct (step_calm cfg u d o (h (co_m o)) (p (co_m o)) H1 HF (HM _) HK) as (u1 & E1 & HM1). rewrite E1. cbn [rbind]. rewrite Z.eqb_refl.
    destruct (update_add_fine _ _ _ _ _ _ _ _ _ _ HF E1) as [HF1 HO].
    destruct (IH u1 (fun m => hstep m (h m) o) (fun m => next_p m (h m) (p m) o) H2 HF1) as (u' & p' & E' & HF' & HM' & HP').
    + intros m. destruct (name_eqb m (co_m o)) eqn:EM; [apply nspec in EM; subst; exact HM1|]. apply nne in EM.
      rewrite (HO m EM), (hstep_ne _ _ _ EM), (next_ne _ _ _ _ EM). apply HM.
    + intros m. apply (HC m).
    + exists u', p'. split; [exact E'|]. split; [exact HF'|]. split; [exact HM'|]. intros K m. rewrite HP'; [|intros o' Ho; apply K; right; exact Ho].
      unfold next_p. specialize (K o (or_introl eq_refl)). destruct (co_type o); try (rewrite andb_false_r, orb_false_r; reflexivity). congruence.
Qed.

Lemma member_none : forall d m, member_of d m = None <-> aget m d = None.
Proof. intros d m. unfold member_of. destruct (aget m d); cbn [option_map]; split; congruence. Qed.
Lemma settle : forall cfg u d h p u' d' m, mstate cfg (aget m u) (member_of d m) h p ->
  (forall m, let v := option_map (checked d cfg m) (aget m u) in
      aget m u' = match aget m d with Some e => if cfg m then removed v e else v | None => v end) ->
  (forall m, member_of d' m = outcome (aget m u') (member_of d m)) ->
  member_of d' m = if cfg m then None else h.
Proof.
  intros cfg u d h p u' d' m HM HU HD. rewrite HD. specialize (HU m). cbv zeta in HU. rewrite HU. clear HU HD.
  destruct (aget m d) as [e|] eqn:EA.
  - assert (H0 : member_of d m = Some (fst (fst e), catz_of e, snd e)) by (unfold member_of; rewrite EA; reflexivity). rewrite H0 in *.
    assert (HH : has_member d m = true) by (unfold has_member; rewrite EA; reflexivity).
    destruct (aget m u) as [v|]; cbn [mstate option_map] in *.
    + destruct HM as [HG HM]. unfold checked, check_member. destruct (v_type v) eqn:ET; try contradiction.
      * destruct HM as [K _]. discriminate.
      * destruct HM as (_ & -> & _). destruct (cfg m); cbn [removed]; rewrite ?ET; cbn [outcome]; rewrite ET; reflexivity.
      * destruct HM as (_ & (o & c & E1 & E2 & ->) & _). rewrite E1, E2. destruct (cfg m); cbn [andb negb removed outcome v_type]; [reflexivity|]. rewrite ET, E1. reflexivity.
      * destruct HM as (_ & (o & c & E1 & E2 & ->) & _). rewrite E1, E2. destruct (cfg m); cbn [andb negb removed outcome v_type]; [reflexivity|]. rewrite ET, E1. reflexivity.
      * destruct HM as ((o & c & E1 & E2 & ->) & _ & o0 & c0 & g0 & K1 & K2). destruct (cfg m); cbn [removed]; rewrite ?ET; [|cbn [outcome]; rewrite ET, E1; reflexivity].
        unfold upd_val_equal. rewrite K2. injection K1 as -> -> _. rewrite !nrefl. reflexivity.
    + subst h. destruct (cfg m); reflexivity.
  - assert (H0 : member_of d m = None) by (apply member_none; exact EA). rewrite H0 in *.
    assert (HH : has_member d m = false) by (unfold has_member; rewrite EA; reflexivity).
    destruct (aget m u) as [v|]; cbn [mstate option_map] in *.
    + destruct HM as [HG HM]. unfold checked, check_member. destruct (v_type v) eqn:ET; try contradiction.
      * destruct HM as (_ & o & c & E1 & E2 & ->). rewrite E1, E2, HH. destruct (cfg m); cbn [andb negb outcome v_type]; [reflexivity|]. rewrite ET, E1. reflexivity.
      * destruct HM as (K & _). congruence.
      * destruct HM as (K & _). congruence.
      * destruct HM as (K & _). congruence.
      * destruct HM as (_ & _ & o0 & c0 & g0 & K1 & _). discriminate K1.
    + subst h. destruct (cfg m); reflexivity.
Qed.
Lemma process_calm : forall cfg d ops, NoDup (map fst d) -> Forall (proper cfg) ops -> (forall m, calm m (member_of d m) false ops) ->
  exists d', process d ops cfg = Ok d' /\ NoDup (map fst d') /\
    forall m, member_of d' m = if cfg m then None else fold_left (hstep m) ops (member_of d m).
Proof.
  intros cfg d ops HN HP HC. unfold process.
  destruct (run_calm cfg d ops [] (member_of d) (fun _ => false) HP fine_nil) as (u & p & E & HF & HM & _); [intros m; reflexivity|exact HC|].
  rewrite E. cbn [rbind]. destruct (finalize_char u d cfg HF HN) as (u' & EF & HF' & HA). rewrite EF. cbn [rbind].
  destruct (update_commit_char u' d HF' HN) as (d' & EC & HN' & HD). rewrite EC. cbn [rbind].
  exists d'. split; [reflexivity|]. split; [exact HN'|]. intros m. exact (settle cfg u d _ (p m) u' d' m (HM m) HA HD).
Qed.
