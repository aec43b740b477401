(** Members are not stolen; the database follows the catalog zones. *)
From Verif Require Import Base ZoneModel CatalogModel CatalogSpec CatalogProofs CatalogProofs2.

(** ** Conflicts *)
Definition kept (v : option cval) (o c : name) : Prop :=
  match v with
  | None => True
  | Some w => v_type w = UAdd \/ (v_type w = UProp /\ v_add w = Some (o, c))
  end.
Definition foreign (d : cdb) (m : name) (x : cop) : Prop :=
  co_m x = m ->
  match co_type x with
  | URem => co_chk x = true /\ held (member_of d m) x = false
  | UProp => co_chk x = true \/ held (member_of d m) x = true
  | UAdd => True
  | _ => False
  end.
Lemma step_kept : forall d m o c g x u fail u' ret, member_of d m = Some (o, c, g) -> foreign d m x -> fine u ->
  kept (aget m u) o c ->
  update_add u (co_m x) (co_o x) (co_c x) (co_type x) (co_g x) (if co_chk x then Some d else None) fail = Ok (u', ret) ->
  kept (aget m u') o c.
Proof.
  intros d m o c g x u fail u' ret HD HX HF HK E.
  destruct (name_eqb m (co_m x)) eqn:EM.
  2:{ apply nne in EM. destruct (update_add_fine _ _ _ _ _ _ _ _ _ _ HF E) as [_ HO]. rewrite (HO m EM). exact HK. }
  apply nspec in EM. specialize (HX (eq_sym EM)). pose proof (exact_held d x) as HE. rewrite <- EM in *.
  assert (HH : has_member d m = true) by (unfold member_of in HD; unfold has_member; destruct (aget m d); [reflexivity|discriminate]).
  assert (HQ : held (member_of d m) x = true -> co_o x = o /\ co_c x = c).
  { intros K. destruct (held_eq _ _ K) as (g' & K'). rewrite HD in K'. injection K' as -> -> _. auto. }
  unfold update_add in E. destruct (bailiwick_shift (co_o x) (co_c x)); [|injection E as <- <-; exact HK].
  destruct (aget m u) as [v|] eqn:EG; cbn [kept] in HK.
  - destruct (co_type x); try discriminate.
    + destruct HK as [HK|[HK HA]]; rewrite HK in E; injection E as <- <-; rewrite EG; cbn [kept]; auto.
    + destruct HX as [HX1 HX2]. destruct HK as [HK|[HK HA]]; rewrite HK in E.
      * destruct (negb (upd_val_equal v (co_o x) (co_c x))); injection E as <- <-; [rewrite EG; cbn [kept]; auto|]. rewrite aget_del, nrefl. exact I.
      * replace (upd_val_equal v (co_o x) (co_c x)) with false in E; [cbn [negb] in E; injection E as <- <-; rewrite EG; cbn [kept]; auto|].
        unfold upd_val_equal. rewrite HA. rewrite HD in HX2. cbn [held] in HX2. rewrite andb_comm. auto.
    + destruct (set_prop v (co_o x) (co_c x) (co_g x) fail) as [w r] eqn:EP. injection E as <- <-. rewrite aget_set, nrefl. cbn [kept].
      unfold set_prop in EP. destruct (_ || _) in EP; [injection EP as <- <-; exact HK|]. destruct fail; injection EP as <- <-; exact HK.
  - destruct (co_type x); try contradiction; destruct (co_chk x) eqn:EC; rewrite ?HH, ?HE in E; cbn [upd_val_new v_type v_rem v_add] in E.
    + injection E as <- <-; rewrite EG; exact I.
    + destruct fail; injection E as <- <-; [rewrite EG; exact I|rewrite aget_set, nrefl; cbn [kept v_type]; auto].
    + destruct HX as [_ HX2]. rewrite HX2 in E. cbn [negb] in E. injection E as <- <-. rewrite EG. exact I.
    + destruct HX as [HX1 _]. discriminate.
    + destruct (held (member_of d m) x) eqn:EH; cbn [negb] in E; [|injection E as <- <-; rewrite EG; exact I]. destruct (HQ eq_refl) as [<- <-].
      destruct fail; injection E as <- <-; [rewrite EG; exact I|rewrite aget_set, nrefl; cbn [kept v_type v_add]; auto].
    + destruct HX as [HX|HX]; [discriminate|]. destruct (HQ HX) as [<- <-].
      destruct fail; injection E as <- <-; [rewrite EG; exact I|rewrite aget_set, nrefl; cbn [kept v_type v_add]; auto].
Qed.
Lemma run_kept : forall d m o c g ops u fl u' ret, member_of d m = Some (o, c, g) -> Forall (foreign d m) ops -> fine u ->
  kept (aget m u) o c -> run_ops u d ops fl = Ok (u', ret) -> kept (aget m u') o c.
Proof.
  intros d m o c g. induction ops as [|x r IH]; intros u fl u' ret HD HX HF HK E; cbn [run_ops] in E; [injection E as <- <-; exact HK|].
  inversion HX; subst. destruct (update_add _ _ _ _ _ _ _ _) as [[u1 r1]| | |] eqn:EU; cbn [rbind] in E; try discriminate.
  pose proof (step_kept d m o c g x u _ u1 r1 HD H1 HF HK EU) as HK1. destruct (update_add_fine _ _ _ _ _ _ _ _ _ _ HF EU) as [HF1 _].
  destruct (r1 =? KNOT_EOK); [eapply IH; eassumption|injection E as <- <-; exact HK1].
Qed.
Lemma rem_conflicts_other : forall cfg l u fl u', fine u -> rem_conflicts u l cfg fl = Ok u' ->
  fine u' /\ forall m, cfg m = false -> aget m u' = aget m u.
Proof.
  intros cfg. induction l as [|[k e] r IH]; intros u fl u' HF E; cbn [rem_conflicts] in E; [injection E as <-; auto|].
  destruct (cfg k) eqn:EK; [|eapply IH; eassumption].
  destruct (update_add _ _ _ _ _ _ _ _) as [[u1 r1]| | |] eqn:EU; cbn [rbind] in E; try discriminate.
  destruct (update_add_fine _ _ _ _ _ _ _ _ _ _ HF EU) as [HF1 HO].
  assert (HO1 : forall m, cfg m = false -> aget m u1 = aget m u) by (intros m Hm; apply HO; congruence).
  destruct (r1 =? KNOT_EOK); [|injection E as <-; auto]. destruct (IH _ _ _ HF1 E) as [HF2 HO2]. split; [exact HF2|].
  intros m Hm. rewrite (HO2 m Hm). apply HO1. exact Hm.
Qed.
Lemma kept_end : forall cfg d ops fl fl' fail m o c g u ret u' d' ret', NoDup (map fst d) -> cfg m = false ->
  member_of d m = Some (o, c, g) -> Forall (foreign d m) ops ->
  run_ops [] d ops fl = Ok (u, ret) -> finalize u d cfg fl' = Ok u' -> update_commit u' d fail = Ok (d', ret') ->
  exists g', member_of d' m = Some (o, c, g').
Proof.
  intros cfg d ops fl fl' fail m o c g u ret u' d' ret' HN HC HD HX E1 E2 E3.
  pose proof (run_kept d m o c g ops [] fl u ret HD HX fine_nil I E1) as HK.
  pose proof (run_ops_fine ops [] d fl u ret fine_nil E1) as HF.
  unfold finalize in E2. destruct (rem_conflicts_other cfg d _ fl' u' (fine_checked d cfg u HF) E2) as [HF' HO].
  specialize (HO m HC). rewrite aget_checked in HO.
  destruct fail.
  { unfold update_commit in E3. destruct u'; injection E3 as <- _; eauto. }
  destruct (update_commit_char u' d HF' HN) as (d1 & E4 & _ & HA). rewrite E4 in E3. injection E3 as <- _. rewrite HA, HO.
  assert (HH : has_member d m = true) by (unfold member_of in HD; unfold has_member; destruct (aget m d); [reflexivity|discriminate]).
  destruct (aget m u) as [v|]; cbn [option_map kept] in *; [|eauto]. unfold checked, check_member. destruct HK as [HK|[HK HV]]; rewrite HK.
  - rewrite HH. cbn [negb]. destruct (v_add v) as [[o' c']|]; [rewrite andb_false_r|]; cbn [outcome v_type]; eauto.
  - cbn [outcome]. rewrite HK, HV. eauto.
Qed.

(** ** The database follows the zones *)
Definition shows (z : zones) (h : name -> holder) : Prop :=
  forall m o c, (exists g, h m = Some (o, c, g)) <-> lists z m o c.
Definition synced (cfg : name -> bool) (z : zones) (u : cupd) (d : cdb) : Prop :=
  orderly cfg z /\ fine u /\ NoDup (map fst d) /\
  exists h : name -> holder, shows z h /\ forall m, mstate cfg (aget m u) (member_of d m) (h m) false.

Lemma calm_app : forall m a b h p, (forall x, In x a -> co_type x <> UProp) ->
  calm m h p (a ++ b) <-> calm m h p a /\ calm m (fold_left (hstep m) a h) p b.
Proof.
  induction a as [|x r IH]; intros b h p HP; cbn [app calm fold_left]; [tauto|].
  replace (p || (name_eqb m (co_m x) && match co_type x with UProp => held h x | _ => false end)) with p.
  2:{ specialize (HP x (or_introl eq_refl)). destruct (co_type x); try congruence; rewrite andb_false_r, orb_false_r; reflexivity. }
  rewrite IH by (intros y Hy; apply HP; right; exact Hy). tauto.
Qed.
Definition hit (m : name) (h : holder) (x : cop) : bool := name_eqb m (co_m x) && held h x.
Lemma fold_rem_none : forall m ops, Forall (fun x => co_type x = URem) ops -> fold_left (hstep m) ops None = None.
Proof.
  intros m. induction ops as [|x r IH]; intros H; cbn [fold_left]; [reflexivity|]. inversion H; subst.
  replace (hstep m None x) with (@None (name * name * list Z)); [auto|]. unfold hstep. rewrite H2. destruct (negb _); reflexivity.
Qed.
Lemma fold_rem : forall m ops h, Forall (fun x => co_type x = URem) ops ->
  fold_left (hstep m) ops h = if existsb (hit m h) ops then None else h.
Proof.
  intros m. induction ops as [|x r IH]; intros h H; cbn [fold_left existsb]; [reflexivity|]. inversion H; subst.
  unfold hstep at 2. unfold hit at 1. rewrite H2. destruct (name_eqb m (co_m x)); cbn [negb andb orb]; [|auto].
  destruct (held h x); cbn [orb]; [apply fold_rem_none; auto|auto].
Qed.
Lemma calm_checked : forall m ops h p, Forall (fun x => co_type x = URem /\ co_chk x = true) ops -> calm m h p ops.
Proof.
  intros m. induction ops as [|x r IH]; intros h p H; cbn [calm]; [exact I|]. inversion H; subst. destruct H2 as [H2 H4].
  split; [intros _; rewrite H2; auto|apply IH; exact H3].
Qed.
(** Additions, each member at most once *)
Lemma adds : forall m ops h, Forall (fun x => co_type x = UAdd) ops -> NoDup (map co_o ops) ->
  (forall x y, In x ops -> In y ops -> co_m x = m -> co_m y = m -> co_o x = co_o y) ->
  (h <> None -> forall x, In x ops -> co_m x <> m) ->
  calm m h false ops /\
  ((forall x, In x ops -> co_m x <> m) /\ fold_left (hstep m) ops h = h \/
   exists x, In x ops /\ co_m x = m /\ h = None /\ fold_left (hstep m) ops h = Some (co_o x, co_c x, [])).
Proof.
  intros m. induction ops as [|x r IH]; intros h H HN HU HH; cbn [calm fold_left].
  - split; [exact I|]. left. split; [intros x []|reflexivity].
  - inversion H; subst. cbn [map] in HN. inversion HN; subst. rewrite H2. rewrite andb_false_r. cbn [orb].
    destruct (name_eqb m (co_m x)) eqn:EM.
    + apply nspec in EM. subst m.
      assert (h = None) by (destruct h; [exfalso; apply (HH ltac:(discriminate) x); [left|]; reflexivity|reflexivity]). subst h.
      assert (HR : forall y, In y r -> co_m y <> co_m x).
      { intros y Hy K. apply H4. rewrite (HU x y (or_introl eq_refl) (or_intror Hy) eq_refl K). apply in_map. exact Hy. }
      assert (EH : hstep (co_m x) None x = Some (co_o x, co_c x, [])) by (unfold hstep; rewrite nrefl, H2; reflexivity). rewrite EH.
      destruct (IH (Some (co_o x, co_c x, [])) H3 H5) as [K1 K2]; [intros; apply HU; auto; right; auto|auto|].
      split; [split; [auto|exact K1]|]. right. exists x. split; [left; reflexivity|]. split; [reflexivity|]. split; [reflexivity|].
      destruct K2 as [[_ K2]|(y & Hy & K2 & _)]; [exact K2|exfalso; exact (HR y Hy K2)].
    + assert (EH : hstep m h x = h) by (apply hstep_ne; apply nne; exact EM). rewrite EH.
      destruct (IH h H3 H5) as [K1 K2]; [intros; apply HU; auto; right; auto|intros K y Hy; apply HH; auto; right; exact Hy|].
      split; [split; [discriminate|exact K1]|]. destruct K2 as [[K2 K3]|(y & Hy & K2)].
      * left. split; [|exact K3]. intros y [<-|Hy]; [apply nne in EM; auto|auto].
      * right. exists y. split; [right; exact Hy|exact K2].
Qed.

Lemma eget_in : forall l e, NoDup (map e_o l) -> In e l -> eget (e_o e) l = Some e.
Proof.
  induction l as [|x r IH]; intros e HN H; cbn [eget]; [destruct H|]. cbn [map] in HN. inversion HN; subst. destruct H as [->|H]; [rewrite nrefl; reflexivity|].
  destruct (name_eqb (e_o e) (e_o x)) eqn:E; [|auto]. apply nspec in E. exfalso. apply H2. rewrite <- E. apply in_map. exact H.
Qed.
Lemma eget_some : forall l o e, eget o l = Some e -> In e l /\ e_o e = o.
Proof.
  induction l as [|x r IH]; intros o e H; cbn [eget] in H; [discriminate|]. destruct (name_eqb o (e_o x)) eqn:E.
  - injection H as <-. apply nspec in E. split; [left; reflexivity|auto].
  - destruct (IH _ _ H). split; [right|]; auto.
Qed.

Definition rem_of (c : name) (e : centry) : cop := mkco URem (e_m e) (e_o e) c [] true.
Definition add_of (c : name) (e : centry) : cop := mkco UAdd (e_m e) (e_o e) c [] false.
Lemma rem_ops_eq : forall c old new, (forall e, In e old -> e_g e = None) ->
  rem_ops c old new = map (rem_of c) (filter (fun e => negb (same_ptr e new)) old).
Proof.
  intros c old new. unfold rem_ops. induction old as [|e r IH]; intros H; cbn [flat_map filter map]; [reflexivity|].
  rewrite IH by (intros; apply H; right; auto). unfold same_txt at 1. rewrite (H e (or_introl eq_refl)). rewrite app_nil_r.
  destruct (same_ptr e new); reflexivity.
Qed.
Lemma add_ops_eq : forall c old new, (forall e, In e new -> e_g e = None) ->
  add_ops c old new = map (add_of c) (filter (fun e => negb (same_ptr e old)) new).
Proof.
  intros c old new. unfold add_ops. induction new as [|e r IH]; intros H; cbn [flat_map filter map]; [reflexivity|].
  rewrite IH by (intros; apply H; right; auto). unfold same_txt at 1. rewrite (H e (or_introl eq_refl)). rewrite app_nil_r.
  destruct (same_ptr e old); reflexivity.
Qed.
Lemma nodup_filter : forall A B (f : A -> B) p l, NoDup (map f l) -> NoDup (map f (filter p l)).
Proof.
  induction l as [|x r IH]; cbn [filter map]; intros H; [exact H|]. inversion H; subst. destruct (p x); [|auto]. cbn [map]. constructor; [|auto].
  intros K. apply H2. apply in_map_iff in K. destruct K as (y & E & Hy). apply filter_In in Hy. apply in_map_iff. exists y. tauto.
Qed.
Lemma lists_in : forall z m o c, lists z m o c <-> exists e, In e (z c) /\ e_m e = m /\ e_o e = o.
Proof.
  intros z m o c. unfold lists. split.
  - intros (g & H). eexists. split; [exact H|]. auto.
  - intros ([o' m' g] & H & E1 & E2). cbn [e_m e_o] in *. subst. eauto.
Qed.
Lemma zset_same : forall z c l, zset z c l c = l. Proof. intros. unfold zset. rewrite nrefl. reflexivity. Qed.
Lemma zset_ne : forall z c l c', c' <> c -> zset z c l c' = z c'. Proof. intros z c l c' H. unfold zset. apply nne in H. rewrite H. reflexivity. Qed.

(** Additions to catalog [c], after what it doesn't list any more is removed: [h1] *)
Lemma adds_zone : forall cfg z c new old (h1 : name -> holder), orderly cfg (zset z c new) -> NoDup (map e_o old) ->
  (forall m o c', (exists g, h1 m = Some (o, c', g)) <->
     (c' <> c /\ lists z m o c') \/ (c' = c /\ exists e, In e old /\ e_m e = m /\ e_o e = o /\ same_ptr e new = true)) ->
  let ops := add_ops c old new in
  Forall (proper cfg) ops /\ (forall m, calm m (h1 m) false ops) /\ shows (zset z c new) (fun m => fold_left (hstep m) ops (h1 m)).
Proof.
  intros cfg z c new old h1 (HO1 & HO2 & HO3) HN HH. cbv zeta.
  assert (HE : forall e, In e new -> cfg c = true /\ cfg (e_m e) = false /\ e_g e = None /\ exists l, e_o e = l ++ c /\ (2 <= length l)%nat).
  { intros e He. apply HO1. rewrite zset_same. exact He. }
  assert (HW : NoDup (map e_o new)) by (specialize (HO2 c); rewrite zset_same in HO2; exact HO2).
  rewrite add_ops_eq by (intros e He; apply (HE e He)).
  set (L := filter (fun e => negb (same_ptr e old)) new).
  assert (HLI : forall e, In e L <-> In e new /\ same_ptr e old = false).
  { intros e. unfold L. rewrite filter_In. destruct (same_ptr e old); cbn [negb]; intuition discriminate. }
  assert (HL1 : forall e, In e new -> lists (zset z c new) (e_m e) (e_o e) c).
  { intros e He. apply lists_in. exists e. rewrite zset_same. auto. }
  assert (HP : Forall (proper cfg) (map (add_of c) L)).
  { apply Forall_forall. intros x Hx. apply in_map_iff in Hx. destruct Hx as (e & <- & He). apply HLI in He. destruct He as [He _].
    destruct (HE e He) as (K1 & _ & _ & K2). unfold proper, add_of. cbn [co_type co_c co_o co_g]. auto. }
  (* what isn't removed isn't added *)
  assert (HX : forall m, h1 m <> None -> forall x, In x (map (add_of c) L) -> co_m x <> m).
  { intros m Hm x Hx Em. apply in_map_iff in Hx. destruct Hx as (e & <- & He). cbn [add_of co_m] in Em. apply HLI in He. destruct He as [He Hs].
    destruct (h1 m) as [[[o1 c1] g1]|] eqn:E1; [|congruence].
    assert (K : exists g, h1 m = Some (o1, c1, g)) by eauto. apply HH in K. pose proof (HL1 e He) as HLe. rewrite Em in HLe.
    destruct K as [[K1 K2]|(K1 & e1 & K2 & K3 & K4 & K5)].
    - assert (K' : lists (zset z c new) m o1 c1) by (unfold lists in *; rewrite (zset_ne z c new c1 K1); exact K2).
      destruct (HO3 _ _ _ _ _ K' HLe) as [_ ->]. congruence.
    - subst c1. unfold same_ptr in K5. destruct (eget (e_o e1) new) as [e2|] eqn:EE; [|discriminate]. apply nspec in K5.
      apply eget_some in EE. destruct EE as [EE1 EE2].
      assert (K' : lists (zset z c new) m (e_o e2) c) by (rewrite <- K3, K5; apply HL1; exact EE1).
      destruct (HO3 _ _ _ _ _ K' HLe) as [K6 _]. unfold same_ptr in Hs. rewrite <- K6, EE2, (eget_in old e1 HN K2), Em, K3, nrefl in Hs. discriminate. }
  assert (HA : forall m, calm m (h1 m) false (map (add_of c) L) /\
     ((forall x, In x (map (add_of c) L) -> co_m x <> m) /\ fold_left (hstep m) (map (add_of c) L) (h1 m) = h1 m \/
      exists x, In x (map (add_of c) L) /\ co_m x = m /\ h1 m = None /\ fold_left (hstep m) (map (add_of c) L) (h1 m) = Some (co_o x, co_c x, []))).
  { intros m. apply adds.
    - apply Forall_forall. intros x Hx. apply in_map_iff in Hx. destruct Hx as (e & <- & _). reflexivity.
    - rewrite map_map. cbn [add_of co_o]. unfold L. apply nodup_filter. exact HW.
    - intros x y Hx Hy Ex Ey. apply in_map_iff in Hx, Hy. destruct Hx as (e & <- & He), Hy as (e' & <- & He'). cbn [add_of co_m co_o] in *.
      apply HLI in He, He'. pose proof (HL1 e (proj1 He)) as A1. pose proof (HL1 e' (proj1 He')) as A2. rewrite Ex in A1. rewrite Ey in A2.
      exact (proj1 (HO3 _ _ _ _ _ A1 A2)).
    - apply HX. }
  split; [exact HP|]. split; [intros m; apply HA|]. intros m o c'. cbv beta. destruct (HA m) as [_ [[HNo ->]|(x & Hx & Em & EN & ->)]].
  - rewrite HH. split.
    + intros [[K1 K2]|(-> & e & K2 & K3 & K4 & K5)].
      * unfold lists in *. rewrite (zset_ne z c new c' K1). exact K2.
      * unfold same_ptr in K5. destruct (eget (e_o e) new) as [e2|] eqn:EE; [|discriminate]. apply nspec in K5. apply eget_some in EE. destruct EE as [EE1 EE2].
        rewrite <- K3, <- K4, K5, <- EE2. apply HL1. exact EE1.
    + intros K. destruct (name_eqb c' c) eqn:EC.
      * apply nspec in EC. subst c'. right. split; [reflexivity|]. apply lists_in in K. destruct K as (e & K1 & K2 & K3). rewrite zset_same in K1.
        destruct (same_ptr e old) eqn:ES.
        -- unfold same_ptr in ES. destruct (eget (e_o e) old) as [e2|] eqn:EE; [|discriminate]. apply nspec in ES. apply eget_some in EE. destruct EE as [EE1 EE2].
           exists e2. split; [exact EE1|]. split; [congruence|]. split; [congruence|]. unfold same_ptr. rewrite EE2, (eget_in new e HW K1). apply nspec. congruence.
        -- exfalso. apply (HNo (add_of c e)); [apply in_map; apply HLI; auto|exact K2].
      * apply nne in EC. left. split; [exact EC|]. unfold lists in *. rewrite (zset_ne z c new c' EC) in K. exact K.
  - apply in_map_iff in Hx. destruct Hx as (e & <- & He). cbn [add_of co_m co_o co_c] in *. apply HLI in He. pose proof (HL1 e (proj1 He)) as A1. rewrite Em in A1. split.
    + intros (g & K). injection K as <- <- _. exact A1.
    + intros K. destruct (HO3 _ _ _ _ _ A1 K) as [<- <-]. eauto.
Qed.

Lemma diff_synced : forall cfg z u d c new, synced cfg z u d -> orderly cfg (zset z c new) ->
  exists u', run_ops u d (diff_ops c (z c) new) [] = Ok (u', KNOT_EOK) /\ synced cfg (zset z c new) u' d.
Proof.
  intros cfg z u d c new (HO & HF & HN & h & HS & HM) HO'.
  set (R := rem_ops c (z c) new). set (A := add_ops c (z c) new).
  assert (ER : R = map (rem_of c) (filter (fun e => negb (same_ptr e new)) (z c))) by (apply rem_ops_eq; intros e He; apply (proj1 HO c e He)).
  assert (HR : Forall (fun x => co_type x = URem) R).
  { rewrite ER. apply Forall_forall. intros x Hx. apply in_map_iff in Hx. destruct Hx as (e & <- & _). reflexivity. }
  assert (HRp : Forall (proper cfg) R).
  { rewrite ER. apply Forall_forall. intros x Hx. apply in_map_iff in Hx. destruct Hx as (e & <- & He). apply filter_In in He.
    destruct (proj1 HO c e (proj1 He)) as (K1 & _ & _ & K2). unfold proper, rem_of. cbn [co_type co_c co_o co_g]. auto. }
  set (h1 := fun m => fold_left (hstep m) R (h m)).
  destruct (adds_zone cfg z c new (z c) h1 HO' (proj1 (proj2 HO) c)) as (HAp & HAc & HAs).
  { intros m o c'. unfold h1. rewrite (fold_rem m R (h m) HR). destruct (existsb (hit m (h m)) R) eqn:EX.
    - apply existsb_exists in EX. destruct EX as (x & Hx & Hh). rewrite ER in Hx. apply in_map_iff in Hx. destruct Hx as (e & <- & He).
      apply filter_In in He. destruct He as [He Hs]. unfold hit in Hh. apply andb_true_iff in Hh. destruct Hh as [Hm Hh]. apply nspec in Hm. cbn [rem_of co_m] in Hm.
      apply held_eq in Hh. destruct Hh as (g & Hh). cbn [rem_of co_o co_c] in Hh.
      split; [intros (? & K); discriminate K|]. intros K. exfalso.
      assert (HL : lists z m (e_o e) c) by (apply HS; eauto).
      destruct K as [[K1 K2]|(-> & e1 & K2 & K3 & K4 & K5)].
      + destruct (proj2 (proj2 HO) _ _ _ _ _ HL K2) as [_ ->]. congruence.
      + assert (HL1 : lists z m (e_o e1) c) by (apply lists_in; exists e1; auto). destruct (proj2 (proj2 HO) _ _ _ _ _ HL HL1) as [EQ _].
        assert (e = e1) by (pose proof (eget_in _ _ (proj1 (proj2 HO) c) He) as Q1; pose proof (eget_in _ _ (proj1 (proj2 HO) c) K2) as Q2; rewrite EQ in Q1; congruence).
        subst e1. rewrite K5 in Hs. discriminate.
    - rewrite (HS m o c'). split.
      + intros K. destruct (name_eqb c' c) eqn:EC; [|apply nne in EC; auto]. apply nspec in EC. subst c'. right. split; [reflexivity|].
        pose proof K as K0. apply lists_in in K. destruct K as (e & K1 & K2 & K3). exists e. split; [exact K1|]. split; [exact K2|]. split; [exact K3|].
        destruct (same_ptr e new) eqn:ES; [reflexivity|]. exfalso.
        assert (EX' : existsb (hit m (h m)) R = true); [|congruence].
        apply existsb_exists. exists (rem_of c e). split; [rewrite ER; apply in_map; apply filter_In; rewrite ES; auto|].
        apply HS in K0. destruct K0 as (g & K0). unfold hit. cbn [rem_of co_m]. rewrite K0, <- K2, nrefl. cbn [held rem_of co_o co_c andb]. rewrite K3, !nrefl. reflexivity.
      + intros [[_ K]|(-> & e & K1 & K2 & K3 & _)]; [exact K|]. apply lists_in. eauto. }
  fold A in HAp, HAc, HAs.
  destruct (run_calm cfg d (R ++ A) u h (fun _ => false)) as (u' & p' & E & HF' & HM' & HP').
  - apply Forall_app. auto.
  - exact HF.
  - exact HM.
  - intros m. apply calm_app; [intros x Hx; rewrite Forall_forall in HR; rewrite (HR x Hx); discriminate|]. split; [|apply HAc].
    apply calm_checked. rewrite ER. apply Forall_forall. intros x Hx. apply in_map_iff in Hx. destruct Hx as (e & <- & _). auto.
  - exists u'. split; [exact E|]. split; [exact HO'|]. split; [exact HF'|]. split; [exact HN|].
    exists (fun m => fold_left (hstep m) (R ++ A) (h m)). split.
    + intros m o c'. cbv beta. rewrite fold_left_app. apply (HAs m o c').
    + intros m. rewrite <- (HP') with (m := m); [apply HM'|]. intros o Ho. apply in_app_iff in Ho. destruct Ho as [Ho|Ho].
      * rewrite Forall_forall in HR. rewrite (HR o Ho). discriminate.
      * unfold A in Ho. rewrite add_ops_eq in Ho; [apply in_map_iff in Ho; destruct Ho as (e & <- & _); discriminate|].
        intros e He. apply (proj1 HO' c). rewrite zset_same. exact He.
Qed.

Definition purge_ops (c : name) (d : cdb) : list cop :=
  flat_map (fun mv => if name_eqb (catz_of (snd mv)) c then [mkco URem (fst mv) (fst (fst (snd mv))) (catz_of (snd mv)) [] false] else []) d.
Lemma purge_in : forall c d x, In x (purge_ops c d) ->
  exists m v, In (m, v) d /\ catz_of v = c /\ x = mkco URem m (fst (fst v)) c [] false.
Proof.
  intros c d x H. unfold purge_ops in H. apply in_flat_map in H. destruct H as ([m v] & H1 & H2). cbn [fst snd] in H2.
  destruct (name_eqb (catz_of v) c) eqn:E; [|destruct H2]. destruct H2 as [<-|[]]. apply nspec in E. exists m, v. rewrite E. auto.
Qed.
Lemma purge_mem : forall c d m v, In (m, v) d -> catz_of v = c -> In (mkco URem m (fst (fst v)) c [] false) (purge_ops c d).
Proof.
  intros c d m v H E. unfold purge_ops. apply in_flat_map. exists (m, v). split; [exact H|]. cbn [fst snd]. rewrite E, nrefl. left. reflexivity.
Qed.
Lemma purge_calm : forall c m l h, NoDup (map fst l) ->
  (forall v, In (m, v) l -> h = Some (fst (fst v), catz_of v, snd v)) -> calm m h false (purge_ops c l).
Proof.
  intros c m. induction l as [|[k v] r IH]; intros h HN HH; [exact I|]. cbn [map fst] in HN. inversion HN; subst.
  assert (HR : calm m h false (purge_ops c r)) by (apply IH; [exact H2|]; intros w Hw; apply HH; right; exact Hw).
  unfold purge_ops. cbn [flat_map fst snd]. fold (purge_ops c r). destruct (name_eqb (catz_of v) c); cbn [app]; [|exact HR].
  cbn [calm co_m co_type]. rewrite andb_false_r. cbn [orb]. destruct (name_eqb m k) eqn:EM.
  - apply nspec in EM. subst k. split.
    + intros _. right. rewrite (HH v (or_introl eq_refl)). cbn [held co_o co_c]. rewrite !nrefl. reflexivity.
    + apply IH; [exact H2|]. intros w Hw. exfalso. apply H1. apply in_map_iff. exists (m, w). auto.
  - split; [discriminate|]. rewrite hstep_ne by (apply nne; exact EM). exact HR.
Qed.

Lemma full_synced : forall cfg z d c new, synced cfg z [] d -> orderly cfg (zset z c new) ->
  exists u', run_ops [] d (full_ops c d new) [] = Ok (u', KNOT_EOK) /\ synced cfg (zset z c new) u' d.
Proof.
  intros cfg z d c new (HO & HF & HN & h & HS & HM) HO'.
  assert (Hh : forall m, h m = member_of d m) by (intros m; exact (HM m)).
  set (R := purge_ops c d). set (A := add_ops c [] new). assert (EF : full_ops c d new = R ++ A) by reflexivity. rewrite EF.
  assert (HR : Forall (fun x => co_type x = URem) R).
  { apply Forall_forall. intros x Hx. apply purge_in in Hx. destruct Hx as (m & v & _ & _ & ->). reflexivity. }
  assert (HRp : Forall (proper cfg) R).
  { apply Forall_forall. intros x Hx. apply purge_in in Hx. destruct Hx as (m & v & H1 & H2 & ->).
    assert (HL : lists z m (fst (fst v)) c).
    { apply HS. exists (snd v). rewrite Hh. unfold member_of. rewrite (aget_in _ _ _ _ HN H1). cbn [option_map]. rewrite H2. reflexivity. }
    apply lists_in in HL. destruct HL as (e & L1 & L2 & L3). destruct (proj1 HO c e L1) as (K1 & _ & _ & K2). rewrite L3 in K2.
    unfold proper. cbn [co_type co_c co_o co_g]. auto. }
  set (h1 := fun m => fold_left (hstep m) R (h m)).
  destruct (adds_zone cfg z c new [] h1 HO' (NoDup_nil _)) as (HAp & HAc & HAs).
  { intros m o c'. unfold h1. rewrite (fold_rem m R (h m) HR). destruct (existsb (hit m (h m)) R) eqn:EX.
    - apply existsb_exists in EX. destruct EX as (x & Hx & Hh'). apply purge_in in Hx. destruct Hx as (k & v & H1 & H2 & ->).
      unfold hit in Hh'. apply andb_true_iff in Hh'. destruct Hh' as [_ K]. apply held_eq in K. destruct K as (g & K). cbn [co_o co_c] in K.
      assert (HL : lists z m (fst (fst v)) c) by (apply HS; eauto).
      split; [intros (? & Q); discriminate Q|]. intros [[K1 K2]|(_ & e & [] & _)]. destruct (proj2 (proj2 HO) _ _ _ _ _ HL K2) as [_ ->]. congruence.
    - rewrite (HS m o c'). split.
      + intros K. left. split; [|exact K]. intros ->. apply HS in K. destruct K as (g & K). rewrite Hh in K. unfold member_of in K.
        destruct (aget m d) as [v|] eqn:EA; [|discriminate]. cbn [option_map] in K. injection K as K1 K2 K3.
        assert (EX' : existsb (hit m (h m)) R = true); [|congruence]. apply existsb_exists. eexists. split; [apply (purge_mem c d m v (aget_some_in _ _ _ _ EA) K2)|].
        unfold hit. cbn [co_m]. rewrite nrefl, Hh. unfold member_of. rewrite EA. cbn [option_map held co_o co_c andb]. rewrite K2, !nrefl. reflexivity.
      + intros [[_ K]|(_ & e & [] & _)]. exact K. }
  fold A in HAp, HAc, HAs.
  destruct (run_calm cfg d (R ++ A) [] h (fun _ => false)) as (u' & p' & E & HF' & HM' & HP').
  - apply Forall_app. auto.
  - exact HF.
  - exact HM.
  - intros m. apply calm_app; [intros x Hx; rewrite Forall_forall in HR; rewrite (HR x Hx); discriminate|]. split; [|apply HAc].
    apply purge_calm; [exact HN|]. intros v Hv. rewrite Hh. unfold member_of. rewrite (aget_in _ _ _ _ HN Hv). reflexivity.
  - exists u'. split; [exact E|]. split; [exact HO'|]. split; [exact HF'|]. split; [exact HN|].
    exists (fun m => fold_left (hstep m) (R ++ A) (h m)). split.
    + intros m o c'. cbv beta. rewrite fold_left_app. apply (HAs m o c').
    + intros m. rewrite <- (HP') with (m := m); [apply HM'|]. intros o Ho. apply in_app_iff in Ho. destruct Ho as [Ho|Ho].
      * rewrite Forall_forall in HR. rewrite (HR o Ho). discriminate.
      * unfold A in Ho. rewrite add_ops_eq in Ho; [apply in_map_iff in Ho; destruct Ho as (e & <- & _); discriminate|].
        intros e He. apply (proj1 HO' c). rewrite zset_same. exact He.
Qed.

Lemma commit_synced : forall cfg z u d, synced cfg z u d ->
  exists u' d', finalize u d cfg [] = Ok u' /\ update_commit u' d false = Ok (d', KNOT_EOK) /\ synced cfg z [] d' /\
    forall m o c, (exists g, member_of d' m = Some (o, c, g)) <-> lists z m o c.
Proof.
  intros cfg z u d (HO & HF & HN & h & HS & HM).
  destruct (finalize_char u d cfg HF HN) as (u' & EF & HF' & HA). destruct (update_commit_char u' d HF' HN) as (d' & EC & HN' & HD).
  exists u', d'. split; [exact EF|]. split; [exact EC|].
  assert (HH : forall m, member_of d' m = h m).
  { intros m. rewrite (settle cfg u d _ false u' d' m (HM m) HA HD). destruct (cfg m) eqn:EM; [|reflexivity].
    destruct (h m) as [[[o c] g]|] eqn:EH; [|reflexivity]. exfalso. assert (HL : lists z m o c) by (apply HS; eauto).
    apply lists_in in HL. destruct HL as (e & L1 & L2 & L3). destruct (proj1 HO c e L1) as (_ & K & _). congruence. }
  split; [|intros m o c; rewrite HH; apply HS]. split; [exact HO|]. split; [apply fine_nil|]. split; [exact HN'|]. exists h. split; [exact HS|].
  intros m. cbn [aget mstate]. symmetry. apply HH.
Qed.
Lemma steps_synced : forall cfg z u d, csteps cfg z u d -> synced cfg z u d.
Proof.
  intros cfg z u d H. induction H as [|z u d c new u' H IH HO E|z d c new u' H IH HO E|z u d u' d' H IH E1 E2].
  - split; [split; [intros c e []|split; [intros; constructor|intros m o c o' c' (g & [])]]|]. split; [apply fine_nil|]. split; [constructor|].
    exists (fun _ => None). split; [|reflexivity]. intros m o c. split; [intros (? & K); discriminate K|intros (g & [])].
  - destruct (diff_synced cfg z u d c new IH HO) as (u1 & E' & K). rewrite E in E'. injection E' as <-. exact K.
  - destruct (full_synced cfg z d c new IH HO) as (u1 & E' & K). rewrite E in E'. injection E' as <-. exact K.
  - destruct (commit_synced cfg z u d IH) as (u1 & d1 & E1' & E2' & K & _). rewrite E1 in E1'. injection E1' as <-. rewrite E2 in E2'. injection E2' as <-. exact K.
Qed.
