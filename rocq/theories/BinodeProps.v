(** C57: readers of a zone do not see an update in progress; what remains after it. *)
From Verif Require Import Base DnameSpec RdatasetModel RdatasetSpec RdatasetProofs RdatasetProps NodeModel NodeProps BinodeModel BinodeProofs BinodeUnify.
From Coq Require Import Sorting.Sorted.

(** ** Specification *)
(** A reader finds exactly the RRsets [v] in the node [n]: the array and the data of all entries can be read. *)
Definition reads (h : heap) (n : half) (v : list rr_data) : Prop :=
  exists l, arr h n = Ok l /\ b_cnt n = zlen l /\ (forall e, In e l -> e_ptr e <> 0 /\ read_rd h e = Ok (rd_of h e)) /\ map (rr_of h) l = v.
(** Between updates both versions of a node are the same array [n] that holds [v]. The memory that is allocated is what
    the node uses and what belongs to others: blocks [F] and arrays [G]. *)
Definition settled (F G : Z -> Prop) (h : heap) (n : half) (v : list rr_data) : Prop := exists l, inv F G h n n l l /\ map (rr_of h) l = v.
(** the data blocks of the node *)
Definition uses (h : heap) (n : half) (p : Z) : Prop := exists l e, arr h n = Ok l /\ In e l /\ e_ptr e = p.
Definition bop_ok (o : bop) : Prop := match o with BAdd _ alp r => alp = true /\ entry_ok r | BRemove _ alp r => alp = true /\ exists b, is (rr_rrs r) b end.
Definition spec_op (o : bop) : nop := match o with BAdd _ _ r => NAdd r | BRemove _ _ r => NRemove r end.
(** the records (type, rdata) after the operations: NodeProps.nspecs *)
Definition expected (os : list bop) (old : Z -> list Z -> Prop) : Z -> list Z -> Prop := nspecs (map spec_op os) old.

(** ** Proofs *)
Lemma records_mid : forall a e b t x, records (a ++ e :: b) t x <-> (rr_type e = t /\ exists rs, is (rr_rrs e) rs /\ In x rs) \/ records (a ++ b) t x.
Proof.
  intros a e b t x. unfold records. split.
  - intros (v & rs & H & HX). apply has_mid in H. destruct H as [(H1 & H2 & H3)|H]; [left|right]; eauto.
  - intros [(H1 & rs & H2 & H3)|(v & rs & H & HX)]; [exists (rr_ttl e), rs|exists v, rs]; split; auto; apply has_mid; auto.
Qed.
Lemma add_records : forall al n r ret n', node_wf n -> entry_ok r -> node_add_rrset al true n r = Ok (ret, n') -> ret = KNOT_EOK \/ ret = KNOT_ETTL -> forall t x, records n' t x <-> nspec (NAdd r) (records n) t x.
Proof.
  intros al n r ret n' W HR E HE t x. pose proof HR as [_ (b & HB & NB)]. unfold nspec, node_add_rrset in *. assert (HBX : forall y, (exists b', is (rr_rrs r) b' /\ In y b') <-> In y b) by (intros y; split; [intros (b' & H1 & H2); rewrite <- (is_fun _ _ _ H1 HB); auto|eauto]).
  destruct (split_at n (rr_type r)) as [(a & e & p & -> & HT & HF)|HF].
  - pose proof W as [_ FE]. rewrite Forall_forall in FE. destruct (FE e) as [TE (rs0 & I0 & N0)]; [apply in_or_app; right; left; auto|]. destruct (c07_merge al _ _ _ _ I0 HB) as (ret1 & s & rs' & EM & IS & HOK & HNO). rewrite (add_loop_some al a e p r ret1 s HF HT EM) in E. cbn [rbind] in E. injection E as <- <-.
    assert (ret1 = KNOT_EOK) as ->. { destruct (ret1 =? KNOT_EOK) eqn:Q; [lia|]. cbn [negb] in HE. exfalso. destruct (HNO ltac:(lia)) as [->| ->]; destruct HE as [HE|HE]; discriminate HE. }
    rewrite !records_mid. cbn [rr_type rr_rrs]. rewrite HBX. split.
    + intros [(<- & rs & H1 & H2)|H]; [|auto]. rewrite (is_fun _ _ _ H1 IS) in H2. apply (HOK eq_refl) in H2. destruct H2 as [H2|H2]; [left; left; eauto|right; auto].
    + intros [[(<- & rs & H1 & H2)|H]|[-> H]]; [|auto|]; left; (split; [auto; lia|]); exists rs'; split; auto; apply (HOK eq_refl); [rewrite (is_fun _ _ _ H1 I0) in H2; auto|auto].
  - rewrite (add_loop_none al n r HF) in E. cbn [rbind] in E. unfold add_rrset_no_merge, rr_data_from in E. cbn [negb] in E. destruct (insert_pos_spec n (rr_type r) (proj1 W) HF) as (va & vb & IP & -> & FA & FB). rewrite IP in E. destruct (c07_copy al _ _ HB) as [C|[C _]]; rewrite C in E; cbn [rbind] in E.
    + 
      change (KNOT_EOK =? KNOT_EOK) with true in E. cbn [negb] in E. injection E as <- <-. rewrite records_mid. cbn [rr_type rr_rrs]. rewrite HBX. split; [intros [[<- H]|H]; auto|]. intros [H|[-> H]]; auto.
    + change (KNOT_ENOMEM =? KNOT_EOK) with false in E. cbn [negb] in E. injection E as <- <-. destruct HE as [HE|HE]; discriminate HE.
Qed.
Lemma remove_records : forall al n r n' b, node_wf n -> is (rr_rrs r) b -> node_remove_rrset al false n r = Ok (KNOT_EOK, n') -> forall t x, records n' t x <-> nspec (NRemove r) (records n) t x.
Proof.
  intros al n r n' b W HB E t x. unfold nspec, node_remove_rrset in *. assert (HBX : forall y, (exists b', is (rr_rrs r) b' /\ In y b') <-> In y b) by (intros y; split; [intros (b' & H1 & H2); rewrite <- (is_fun _ _ _ H1 HB); auto|eauto]). rewrite HBX.
  destruct (split_at n (rr_type r)) as [(a & e & p & -> & HT & HF)|HF].
  - pose proof W as [SS FE]. rewrite Forall_forall in FE. destruct (FE e) as [TE (rs0 & I0 & N0)]; [apply in_or_app; right; left; auto|]. rewrite <- HT in HF |- *. destruct (rdataset_some a e p HF) as (Q1 & _ & Q2 & _). rewrite <- HT in E. rewrite Q1 in E. destruct (c07_subtract al false _ _ _ _ I0 HB) as (ret1 & s & s2 & EM & _ & HOK & HNO); [discriminate|]. rewrite EM in E. cbn [rbind] in E.
    destruct (ret1 =? KNOT_EOK) eqn:Q; cbn [negb] in E; [|injection E as X _; lia]. assert (ret1 = KNOT_EOK) as -> by lia. destruct (HOK eq_refl) as (rs' & IS & HX). rewrite Q2, (is_count _ _ IS) in E.
    assert (OT : forall y, records (a ++ p) (rr_type e) y -> False). { intros y (v & rs & (z & Hz & HZ & _) & _). eapply sorted_others; [exact SS|exact Hz|exact HZ]. }
    assert (n' = if zlen rs' =? 0 then a ++ p else a ++ mkrr (rr_type e) (rr_ttl e) s :: p) as ->. { destruct (zlen rs' =? 0); [|congruence]. destruct (rdataset_some a (mkrr (rr_type e) (rr_ttl e) s) p HF) as (_ & _ & _ & Q3). cbn [rr_type] in Q3. rewrite Q3 in E. congruence. }
    rewrite records_mid. destruct (zlen rs' =? 0) eqn:Z0.
    + assert (NX : forall y, In y rs0 -> In y b). { intros y Hy. destruct (in_dec (list_eq_dec Z.eq_dec) y b); auto. exfalso. assert (In y rs') as H by (apply HX; auto). destruct rs'; [destruct H|]. rewrite zlen_cons in Z0. pose proof (zlen_nonneg rs'). lia. }
      split.
      * intros H. split; auto. intros [-> _]. eapply OT; eauto.
      * intros [[(<- & rs & H1 & H2)|H] N]; auto. exfalso. apply N. split; auto. apply NX. rewrite (is_fun _ _ _ H1 I0) in H2. auto.
    + rewrite records_mid. cbn [rr_type rr_rrs]. split.
      * intros [(<- & rs & H1 & H2)|H]; [|split; auto; intros [-> _]; eapply OT; eauto]. rewrite (is_fun _ _ _ H1 IS) in H2. apply HX in H2. split; [left; split; auto; exists rs0; tauto|tauto].
      * intros [[(<- & rs & H1 & H2)|H] N]; auto. left. split; auto. exists rs'. split; auto. apply HX. rewrite (is_fun _ _ _ H1 I0) in H2. tauto.
  - destruct (rdataset_none n (rr_type r) HF) as [Q _]. rewrite Q in E. injection E as X _. discriminate X.
Qed.
Lemma brun_ok : forall F G cp lc os h np ln, inv F G h np cp ln lc -> Forall bop_ok os -> exists ret np' h' ln', brun h np cp os = Ok (ret, np', h') /\ frame F G cp lc h h' /\
  (ret = KNOT_EOK -> inv F G h' np' cp ln' lc /\ forall t x, records (viewl h' ln') t x <-> expected os (records (viewl h ln)) t x) /\ (ret <> KNOT_EOK -> winv F G h' np' cp ln' lc /\ (ret = KNOT_ENOENT \/ ret = KNOT_ESPACE \/ ret = KNOT_ENOMEM)).
Proof.
  intros F G cp lc. induction os as [|o os IH]; intros h np ln I HO; cbn [brun].
  - exists KNOT_EOK, np, h, ln. split; auto. split; [apply frame_refl|]. split; [|congruence]. intros _. split; auto. intros. reflexivity.
  - assert (ST : exists ret np1 h1 ln1, bstep h np cp o = Ok (ret, np1, h1) /\ frame F G cp lc h h1 /\ (ret = KNOT_EOK -> inv F G h1 np1 cp ln1 lc /\ forall t x, records (viewl h1 ln1) t x <-> nspec (spec_op o) (records (viewl h ln)) t x) /\ (ret <> KNOT_EOK -> winv F G h1 np1 cp ln1 lc /\ (ret = KNOT_ENOENT \/ ret = KNOT_ESPACE \/ ret = KNOT_ENOMEM))).
    { apply Forall_inv in HO. destruct o as [al alp r|al alp r]; cbn [bop_ok bstep spec_op] in *; destruct HO as [-> HR].
      - destruct (add_step al F G h np cp ln lc r I HR) as (ret & np1 & h1 & ln1 & E & FR & HOK & HNO). exists ret, np1, h1, ln1. split; auto. split; auto. split; [|intros N; destruct (HNO N) as [X [Y|Y]]; auto]. intros R. destruct (HOK R) as (I1 & ret0 & EA & R0). split; auto. eapply add_records; eauto. apply I.
      - destruct HR as [b HB]. destruct (remove_step al F G h np cp ln lc r b I HB) as (ret & np1 & h1 & ln1 & E & FR & HOK & HNO). exists ret, np1, h1, ln1. split; auto. split; auto. split; [|intros N; destruct (HNO N) as [X [Y|Y]]; auto]. intros R. destruct (HOK R) as (I1 & EA). split; auto. eapply remove_records; eauto. apply I. }
    destruct ST as (ret & np1 & h1 & ln1 & E & FR & HOK & HNO). rewrite E. cbn [rbind]. destruct (Z.eqb_spec ret KNOT_EOK) as [R|R]; cbn [negb].
    + destruct (HOK R) as [I1 R1]. destruct (IH h1 np1 ln1 I1 (Forall_inv_tail HO)) as (ret2 & np2 & h2 & ln2 & E2 & FR2 & HOK2 & HNO2). exists ret2, np2, h2, ln2. split; auto. split; [eapply frame_trans; eauto|]. split; auto. intros R2. destruct (HOK2 R2) as [I2 X2]. split; auto. intros t x. rewrite X2. unfold expected. cbn [map]. change (nspecs (spec_op o :: map spec_op os) (records (viewl h ln))) with (nspecs (map spec_op os) (nspec (spec_op o) (records (viewl h ln)))). apply nspecs_ext. auto.
    + exists ret, np1, h1, ln1. split; auto. split; auto. split; [congruence|auto].
Qed.
Lemma reads_of : forall h n l, h_dat h 0 = None -> arr h n = Ok l -> b_cnt n = zlen l -> node_wf (viewl h l) -> reads h n (viewl h l).
Proof. intros h n l H0 HA HC W. exists l. split; auto. split; auto. split; auto. intros e He. destruct (ent_ok h l e H0 W He) as (_ & P & r & HR & _). destruct (read_ok h e r HR). auto. Qed.
Lemma view_frame : forall F G cp lc h h', frame F G cp lc h h' -> viewl h' lc = viewl h lc.
Proof. intros F G cp lc h h' [H _]. apply view_ext. intros e He. apply H. right. apply in_ptrs. auto. Qed.

(** ** The theorems *)
(** What the state between updates means. *)
Theorem c57_settled : forall F G h n v, settled F G h n v -> reads h n v /\ node_wf v /\ (forall p, alive h p <-> uses h n p \/ F p) /\ (forall p, F p -> ~ uses h n p) /\ (forall p, alive_arr h p <-> (p <> 0 /\ p = b_rrs n) \/ G p).
Proof.
  intros F G h n v (l & I & <-). split; [apply reads_of; apply I|]. split; [apply I|].
  assert (U : forall p, uses h n p <-> In p (ptrs l)). { intros p. unfold uses. split; [intros (l' & e & H1 & H2 & <-); rewrite (i_n _ _ _ _ _ _ _ I) in H1; injection H1 as <-; apply in_ptrs; auto|]. intros H. apply in_map_iff in H. destruct H as (e & HE & HI). exists l, e. split; [apply I|auto]. }
  split; [intros p; rewrite U, (i_dom _ _ _ _ _ _ _ I); tauto|]. split; [intros p Hp; rewrite U; apply (i_F _ _ _ _ _ _ _ I); auto|]. intros p. rewrite (i_adom _ _ _ _ _ _ _ I). tauto.
Qed.
(** While an update is in progress (any operations so far, whether the last one has failed or not), a reader of the
    published version still finds what was there before, no memory of others is touched, and nothing undefined happens. *)
Theorem c57_isolated : forall F G h n v os, settled F G h n v -> Forall bop_ok os -> exists ret np h', brun h n n os = Ok (ret, np, h') /\ reads h' n v /\ (forall p, F p -> h_dat h' p = h_dat h p) /\ (forall p, G p -> h_arr h' p = h_arr h p).
Proof.
  intros F G h n v os (l & I & <-) HO. destruct (brun_ok F G n l os h n l I HO) as (ret & np & h' & ln & E & FR & HOK & HNO). exists ret, np, h'. split; auto. split; [|split; intros; apply FR; auto].
  change (map (rr_of h) l) with (viewl h l). rewrite <- (view_frame _ _ _ _ _ _ FR). destruct (Z.eq_dec ret KNOT_EOK) as [R|R].
  - destruct (HOK R) as [I1 _]. apply reads_of; apply I1.
  - destruct (HNO R) as [W _]. apply reads_of; apply W.
Qed.
(** When all operations have been successful, the new version holds the old records changed as asked for. After the end
    of the update both versions are the new one, and exactly the memory of the old one is free again. *)
Theorem c57_commit : forall F G h n v os np h1, settled F G h n v -> Forall bop_ok os -> brun h n n os = Ok (KNOT_EOK, np, h1) -> exists v' h2, reads h1 np v' /\ unify h1 np n = Ok h2 /\ settled F G h2 np v' /\ (forall t x, records v' t x <-> expected os (records v) t x) /\ (forall p, F p -> h_dat h2 p = h_dat h p) /\ (forall p, G p -> h_arr h2 p = h_arr h p).
Proof.
  intros F G h n v os np h1 (l & I & <-) HO E. destruct (brun_ok F G n l os h n l I HO) as (ret & np' & h' & ln & E' & FR & HOK & _). rewrite E in E'. injection E' as <- <- <-. destruct (HOK eq_refl) as [I1 R1]. destruct (unify_ok F G h1 np n ln l I1) as (h2 & E2 & I2 & FR2). exists (viewl h1 ln), h2. split; [apply reads_of; apply I1|]. split; auto. split; [exists ln; split; auto; apply (view_frame _ _ _ _ _ _ FR2)|]. split; auto. split; intros p Hp; [rewrite (proj1 FR2), (proj1 FR)|rewrite (proj2 FR2), (proj2 FR)]; auto.
Qed.
(** Giving an update up, before its end or after a failed operation, leaves the old version alone. If no operation has
    failed, exactly the memory of the new one is free again; otherwise some of it may be lost. What is missing: memory
    for the array of RRsets is assumed not to run out ([bop_ok]), see [c57_nomem_refuted]. *)
Theorem c57_rollback_partial : forall F G h n v os ret np h1, settled F G h n v -> Forall bop_ok os -> brun h n n os = Ok (ret, np, h1) -> exists h2 F' G', unify h1 n np = Ok h2 /\ settled F' G' h2 n v /\ (forall p, F p -> F' p /\ h_dat h2 p = h_dat h p) /\ (forall p, G p -> G' p /\ h_arr h2 p = h_arr h p) /\ (ret = KNOT_EOK -> F' = F /\ G' = G).
Proof.
  intros F G h n v os ret np h1 (l & I & <-) HO E. destruct (brun_ok F G n l os h n l I HO) as (ret' & np' & h' & ln & E' & FR & HOK & HNO). rewrite E in E'. injection E' as <- <- <-. destruct (Z.eq_dec ret KNOT_EOK) as [R|R].
  - destruct (HOK R) as [I1 _]. destruct (unify_ok F G h1 n np l ln (inv_sym _ _ _ _ _ _ _ I1)) as (h2 & E2 & I2 & FR2). exists h2, F, G. split; auto. split; [exists l; split; auto; change (viewl h2 l = viewl h l); rewrite (view_frame _ _ _ _ _ _ FR2); apply (view_frame _ _ _ _ _ _ FR)|]. split; [|split; [|auto]]; intros p Hp; (split; auto); [rewrite (proj1 FR2), (proj1 FR)|rewrite (proj2 FR2), (proj2 FR)]; auto.
  - destruct (HNO R) as [W _]. destruct (unify_fail F G h1 np n ln l W) as (h2 & F' & G' & E2 & I2 & FR2 & HF & HG). { intros p Hp. unfold alive_arr. rewrite (proj2 FR) by auto. apply (i_adom _ _ _ _ _ _ _ I). auto. }
    exists h2, F', G'. split; auto. split; [exists l; split; auto; change (viewl h2 l = viewl h l); rewrite (view_frame _ _ _ _ _ _ FR2); apply (view_frame _ _ _ _ _ _ FR)|]. split; [|split; [|congruence]]; intros p Hp; (split; auto).
    + apply HF; auto. unfold alive. rewrite (proj1 FR) by auto. apply (i_dom _ _ _ _ _ _ _ I). auto.
    + rewrite (proj1 FR2), (proj1 FR); auto.
    + rewrite (proj2 FR2), (proj2 FR); auto.
Qed.

(** ** Any number of updates *)
(** an update that is completed if nothing fails and it is not to be given up ([b_keep] false) *)
Record upd := mkupd { b_ops : list bop; b_keep : bool }.
Definition run_update (h : heap) (n : half) (u : upd) : res (bool * half * heap) :=
  let* (ret, np, h1) := brun h n n (b_ops u) in
  if (ret =? KNOT_EOK) && b_keep u then let* h2 := unify h1 np n in Ok (true, np, h2) else let* h2 := unify h1 n np in Ok (false, n, h2).
Fixpoint run_updates (h : heap) (n : half) (us : list upd) : res (list bool * half * heap) :=
  match us with
  | [] => Ok ([], n, h)
  | u :: us => let* (b, n, h) := run_update h n u in let* (bs, n, h) := run_updates h n us in Ok (b :: bs, n, h)
  end.
Definition history (us : list (upd * bool)) (old : Z -> list Z -> Prop) : Z -> list Z -> Prop := fold_left (fun s (u : upd * bool) => if snd u then expected (b_ops (fst u)) s else s) us old.
Definition heap0 : heap := mkheap (fun _ => None) (fun _ => None) 1.
Lemma settled0 : settled (fun _ => False) (fun _ => False) heap0 (mkhalf 0 0) [].
Proof.
  exists []. split; auto. split; cbn; auto; try lia; try (constructor; constructor).
  - intros p. split; [intros [r H]; discriminate|tauto].
  - intros p. split; [intros [r H]; discriminate|]. intros [[H [->| ->]]|[]]; lia.
Qed.
Lemma history_ext : forall us s1 s2, (forall t x, s1 t x <-> s2 t x) -> forall t x, history us s1 t x <-> history us s2 t x.
Proof. induction us as [|[u b] us IH]; intros s1 s2 H t x; [apply H|]. unfold history. cbn [fold_left snd fst]. apply IH. destruct b; auto. intros t' x'. apply nspecs_ext. auto. Qed.
(** Any number of updates of a new node, some completed and some not: nothing undefined happens and the node holds what
    the completed ones ask for. *)
Theorem c57_history : forall us, Forall (fun u => Forall bop_ok (b_ops u)) us -> exists bs n h v, run_updates heap0 (mkhalf 0 0) us = Ok (bs, n, h) /\ length bs = length us /\ reads h n v /\ node_wf v /\ forall t x, records v t x <-> history (combine us bs) (fun _ _ => False) t x.
Proof.
  intros us H. assert (X : forall us F G h n v, settled F G h n v -> Forall (fun u => Forall bop_ok (b_ops u)) us -> exists bs n' h' v', run_updates h n us = Ok (bs, n', h') /\ length bs = length us /\ reads h' n' v' /\ node_wf v' /\ forall t x, records v' t x <-> history (combine us bs) (records v) t x).
  { clear. induction us as [|u us IH]; intros F G h n v S HU; cbn [run_updates].
    - exists [], n, h, v. destruct (c57_settled _ _ _ _ _ S) as (R & W & _). split; auto. split; auto. split; auto. split; auto. intros. reflexivity.
    - pose proof (Forall_inv HU) as HO. cbv beta in HO. destruct (c57_isolated F G h n v (b_ops u) S HO) as (ret & np & h1 & E1 & _). unfold run_update. rewrite E1. cbn [rbind]. destruct (ret =? KNOT_EOK) eqn:ER; cbn [andb]; [destruct (b_keep u)|].
      2,3: destruct (c57_rollback_partial F G h n v (b_ops u) ret np h1 S HO E1) as (h2 & F' & G' & E2 & S2 & _); rewrite E2; cbn [rbind]; destruct (IH F' G' h2 n v S2 (Forall_inv_tail HU)) as (bs & n' & h' & v' & E & L & R & W & HX); rewrite E; cbn [rbind]; exists (false :: bs), n', h', v'; (split; [auto|]); (split; [cbn [length]; lia|]); auto.
      assert (ret = KNOT_EOK) as -> by lia. destruct (c57_commit F G h n v (b_ops u) np h1 S HO E1) as (v1 & h2 & _ & E2 & S2 & R2 & _). rewrite E2. cbn [rbind]. destruct (IH F G h2 np v1 S2 (Forall_inv_tail HU)) as (bs & n' & h' & v' & E & L & R & W & HX). rewrite E. cbn [rbind]. exists (true :: bs), n', h', v'. split; auto. split; [cbn [length]; lia|]. split; auto. split; auto. intros t x. rewrite HX. cbn [combine]. change (history ((u, true) :: combine us bs) (records v)) with (history (combine us bs) (expected (b_ops u) (records v))). apply history_ext. auto. }
  destruct (X us _ _ _ _ _ settled0 H) as (bs & n & h & v & E & L & R & W & HX). exists bs, n, h, v. split; auto. split; auto. split; auto. split; auto. intros t x. rewrite HX. apply history_ext. intros t' x'. split; [|tauto]. intros (ttl & rs & (e & [] & _) & _).
Qed.

(** ** A case *)
Definition ex_add (t : Z) (l : list (list Z)) : bop := BAdd yes true (mkrr t 60 (ex_s l)).
Definition ex_rem (t : Z) (l : list (list Z)) : bop := BRemove yes true (mkrr t 60 (ex_s l)).
Lemma ex_is1 : forall x, byte x -> is (ex_s [[x]]) [[x]].
Proof. intros x Hx. split; [split; [repeat constructor|constructor; [split; [repeat constructor; apply Hx|cbv; discriminate]|constructor]]|]. repeat split; reflexivity. Qed.
Lemma ex_ok : forall t x, 1 <= t <= 65535 -> byte x -> bop_ok (ex_add t [[x]]) /\ bop_ok (ex_rem t [[x]]).
Proof. intros t x Ht Hx. split; (split; [reflexivity|]); [split; [exact Ht|]; exists [[x]]; split; [apply ex_is1; auto|discriminate]|exists [[x]]; apply ex_is1; auto]. Qed.
Definition ex_first : list bop := [ex_add 1 [[1]]; ex_add 16 [[5]]; ex_add 1 [[2]]].
Definition ex_second : list bop := [ex_rem 1 [[1]]; ex_add 2 [[7]]; ex_rem 16 [[5]]].
Lemma ex_opsok : Forall bop_ok ex_first /\ Forall bop_ok ex_second.
Proof. split; (repeat constructor); try apply ex_ok; unfold byte; lia. Qed.
(** After a first update there is a second one: its view, and the one a reader still has. *)
Example c57_case : exists n h np h1, settled (fun _ => False) (fun _ => False) h n [mkrr 1 60 (ex_s [[1]; [2]]); mkrr 16 60 (ex_s [[5]])] /\
  brun h n n ex_second = Ok (KNOT_EOK, np, h1) /\ reads h1 n [mkrr 1 60 (ex_s [[1]; [2]]); mkrr 16 60 (ex_s [[5]])] /\ reads h1 np [mkrr 1 60 (ex_s [[2]]); mkrr 2 60 (ex_s [[7]])].
Proof.
  destruct ex_opsok as [O1 O2]. assert (E1 : exists n h0, brun heap0 (mkhalf 0 0) (mkhalf 0 0) ex_first = Ok (KNOT_EOK, n, h0) /\ (exists l, arr h0 n = Ok l /\ map (rr_of h0) l = [mkrr 1 60 (ex_s [[1]; [2]]); mkrr 16 60 (ex_s [[5]])]) /\ exists np h1, (let* h := unify h0 n (mkhalf 0 0) in brun h n n ex_second) = Ok (KNOT_EOK, np, h1) /\ exists l, arr h1 np = Ok l /\ map (rr_of h1) l = [mkrr 1 60 (ex_s [[2]]); mkrr 2 60 (ex_s [[7]])]).
  { eexists _, _. split; [vm_compute; reflexivity|]. split; [eexists; split; vm_compute; reflexivity|]. eexists _, _. split; [vm_compute; reflexivity|]. eexists. split; vm_compute; reflexivity. }
  destruct E1 as (n & h0 & E1 & (l & A1 & V1) & np & h1 & E2 & (l2 & A2 & V2)). destruct (c57_commit _ _ _ _ _ _ _ _ settled0 O1 E1) as (v & h & R & U & S & _). rewrite U in E2. cbn [rbind] in E2.
  assert (v = [mkrr 1 60 (ex_s [[1]; [2]]); mkrr 16 60 (ex_s [[5]])]) as ->. { destruct R as (l' & A' & _ & _ & <-). rewrite A1 in A'. injection A' as <-. exact V1. }
  exists n, h, np, h1. split; auto. split; auto. destruct (c57_isolated _ _ _ _ _ _ S O2) as (ret & np' & h' & E & R1 & _). rewrite E2 in E. injection E as <- <- <-. split; auto.
  destruct (c57_commit _ _ _ _ _ _ _ _ S O2 E2) as (v' & h2 & R2 & _). replace v' with (map (rr_of h1) l2) in R2; [rewrite V2 in R2; auto|]. destruct R2 as (l' & A' & _ & _ & <-). rewrite A2 in A'. injection A' as <-. reflexivity.
Qed.
(** If there is no memory for the array, the structure is left with a number of RRsets and no array: giving the update up
    then reads through NULL. *)
Theorem c57_nomem_refuted : exists F G h n v np h1, settled F G h n v /\ brun h n n [BAdd yes false (mkrr 2 60 (ex_s [[7]]))] = Ok (KNOT_ENOMEM, np, h1) /\ reads h1 n v /\ unify h1 n np = UB.
Proof.
  destruct ex_opsok as [O1 _]. assert (E1 : exists n h0, brun heap0 (mkhalf 0 0) (mkhalf 0 0) ex_first = Ok (KNOT_EOK, n, h0) /\ exists h, unify h0 n (mkhalf 0 0) = Ok h /\ brun h n n [BAdd yes false (mkrr 2 60 (ex_s [[7]]))] = Ok (KNOT_ENOMEM, mkhalf 0 (b_cnt n), h) /\ unify h n (mkhalf 0 (b_cnt n)) = UB).
  { eexists _, _. split; [vm_compute; reflexivity|]. eexists. split; [vm_compute; reflexivity|]. split; vm_compute; reflexivity. }
  destruct E1 as (n & h0 & E1 & h & U & E2 & E3). destruct (c57_commit _ _ _ _ _ _ _ _ settled0 O1 E1) as (v & h' & R & U' & S & _). rewrite U in U'. injection U' as <-. eexists _, _, h, n, v, _, h. split; [exact S|]. split; [exact E2|]. split; [apply (c57_settled _ _ _ _ _ S)|exact E3].
Qed.
Print Assumptions c57_settled. Print Assumptions c57_isolated. Print Assumptions c57_commit. Print Assumptions c57_rollback_partial. Print Assumptions c57_history. Print Assumptions c57_nomem_refuted.
