(** Fixing of the NSEC chain as a whole, histories, and validation. *)
From Verif Require Import Base BitmapModel BitmapProps DnameSpec DnameProofs3 NsecModel NsecSpec NsecProofs NsecProofs2 NsecProofs3 NsecProofs4.
From Coq Require Import Sorting.Sorted.

Lemma ins_in : forall x l y, In y (ins_name x l) <-> y = x \/ In y l.
Proof.
  induction l as [|w l IH]; intros y; cbn [ins_name]; [cbn [In]; intuition auto|]. destruct (name_eqb x w) eqn:E.
  - apply eqb_spec in E. subst. cbn [In]. intuition auto.
  - destruct (name_ltb x w); cbn [In]; [intuition auto|]. rewrite IH. intuition auto.
Qed.
Lemma ins_sorted : forall x l, sorted l -> sorted (ins_name x l).
Proof.
  induction l as [|w l IH]; intros H; cbn [ins_name]; [repeat constructor|]. destruct (name_eqb x w) eqn:E; auto. destruct (name_ltb x w) eqn:L.
  - apply ltb_spec in L. apply sorted_cons; auto. apply sorted_inv in H. intros y [<- | Hy]; auto. eapply clt_trans; eauto. apply H; auto.
  - apply sorted_inv in H. destruct H as [H1 H2]. apply sorted_cons; auto. intros y Hy. apply ins_in in Hy. destruct Hy as [-> | Hy]; auto. apply ltb_false in L. destruct (clt_total x w) as [X|[X|X]]; auto; [contradiction|]. subst. rewrite eqb_refl in E. discriminate.
Qed.
Lemma inss_in : forall xs l y, In y (ins_names xs l) <-> In y xs \/ In y l.
Proof. induction xs as [|x xs IH]; intros l y; cbn [ins_names fold_right In]; [tauto|]. rewrite ins_in. fold (ins_names xs l). rewrite IH. intuition auto. Qed.
Lemma inss_sorted : forall xs l, sorted l -> sorted (ins_names xs l).
Proof. induction xs as [|x xs IH]; intros l H; cbn [ins_names fold_right]; auto. apply ins_sorted. apply IH. auto. Qed.

Lemma a_zone_facts : forall apex z, a_zone apex z -> sorted (map fst z) /\ In apex (members z) /\ (forall x, In x (members z) -> x = apex \/ canonical_lt apex x) /\ (forall x n, nget z x = Some n -> types_ok n) /\ exists tl, members z = apex :: tl.
Proof.
  intros apex z (S & (n & rest & Ez & T) & TY). split; auto. rewrite Forall_forall in TY. assert (exists tl, members z = apex :: tl) as [tl Etl] by (rewrite Ez; unfold members; cbn [filter snd]; rewrite T; cbn [map fst]; eauto).
  split; [rewrite Etl; left; auto|]. split; [|split; [|eauto]].
  - intros x Hx. pose proof (fnames_sorted takes_part z S) as SM. rewrite <- members_eq in SM. rewrite Etl in *. destruct Hx as [<- | Hx]; auto. right. apply sorted_inv in SM. apply SM. auto.
  - intros x m E. apply nget_in1 in E. apply (TY _ E).
Qed.
Lemma links_some : forall (R : nm -> nm -> Prop) l e x, links R l e -> In x l -> exists y, R x y.
Proof. induction l as [|w l IH]; intros e x L []; cbn [links] in L; destruct L as [L1 L2]; [subst; eauto|eauto]. Qed.

Lemma fix_ok : forall apex ttl zo z ptrs moved, a_zone apex zo -> settled ttl apex zo -> a_zone apex z -> no_orphans z -> edited zo z ptrs -> StronglySorted canonical_lt ptrs ->
  (forall x, In x ptrs \/ In x moved -> x = apex \/ canonical_lt apex x) ->
  exists z', nsec_fix_chain zo z ptrs moved apex ttl = Ok z' /\ same_data z z' /\ settled ttl apex z'.
Proof.
  intros apex ttl zo z ptrs moved AZo (LKo & Ho) AZ NO (ED1 & ED2) SP MP.
  destruct (a_zone_facts _ _ AZo) as (So & AO & MINO & TYo & _). destruct (a_zone_facts _ _ AZ) as (Sz & AN & MINZ & TYz & _).
  assert (TI : forall x n, nget z x = Some n -> tidy n) by (intros x n E A B; apply nget_in1 in E; apply (NO x n); auto).
  destruct (update_bitmaps_ok ttl ptrs z (sorted_nodup _ SP)) as (zb & EB & SDb & OUT & INP); [intros; split; eauto|].
  unfold nsec_fix_chain. rewrite EB. cbn [rbind]. set (all := ins_name apex (ins_names moved ptrs)).
  assert (Sb : sorted (map fst zb)) by (rewrite <- (sd_names _ _ SDb); auto). assert (MB : members zb = members z) by (symmetry; apply sd_members; auto).
  assert (LOn : links (nxt zo) (members zo) apex) by (eapply links_ext; [|exact LKo]; intros; eapply linked_nxt; eauto).
  assert (MEM : forall zz x, sorted (map fst zz) -> (In x (members zz) <-> exists n, nget zz x = Some n /\ takes_part n = true)) by (intros; rewrite members_eq; apply fnames_in; auto).
  (* outside of ptrs *)
  assert (DZ : forall x, ~ In x ptrs -> (In x (members zo) <-> In x (members zb))).
  { intros x Hx. rewrite MB, !MEM by auto. pose proof (ED1 x Hx) as G. destruct (nget zo x) as [m|], (nget z x) as [n|]; try contradiction; [|split; intros (k & X & _); discriminate].
    destruct G as (G1 & G2 & G3). assert (takes_part n = takes_part m) as TT by (unfold takes_part; rewrite G1, G3; auto). split; intros (k & X & Y); injection X as <-; eexists; split; eauto; congruence. }
  assert (NB : forall x n, nget zb x = Some n -> takes_part n = false -> aside n).
  { intros x n E T. destruct (sd_get2 _ _ _ _ SDb E) as (m & E1 & SN). destruct (in_dec (list_eq_dec (list_eq_dec Z.eq_dec)) x ptrs) as [Hx|Hx].
    - destruct (INP x m Hx E1) as (n' & E2 & (_ & _ & U)). assert (n' = n) by congruence. subst. apply U. rewrite (same_takes m n SN). auto.
    - rewrite OUT in E by auto. assert (n_nsec n = []) as NN.
      { rewrite (ED2 _ _ E). pose proof (ED1 x Hx) as G. rewrite E in G. destruct (nget zo x) as [k|] eqn:EK; [|auto]. destruct G as (G1 & G2 & G3). apply (Ho x k EK). unfold takes_part in *. rewrite <- G1, <- G3. auto. }
      split; auto. intros NA. destruct (takes_false _ T) as [X|X]; [congruence|]. apply (TI _ _ E NA X). auto. }
  assert (LB : forall x, In x (members zb) -> exists y, linked ttl zb x y).
  { intros x HM. assert (HM2 := HM). rewrite MEM in HM2 by auto. destruct HM2 as (n & E & T). destruct (sd_get2 _ _ _ _ SDb E) as (m & E1 & SN). destruct (in_dec (list_eq_dec (list_eq_dec Z.eq_dec)) x ptrs) as [Hx|Hx].
    - destruct (INP x m Hx E1) as (n' & E2 & (_ & U & _)). assert (n' = n) by congruence. subst. destruct U as (w & U1 & U2); [rewrite (same_takes m n SN); auto|]. eexists _, n, w. eauto.
    - apply DZ in HM; auto. destruct (links_some _ _ _ _ LKo HM) as (y & (k & w & K1 & K2 & K3)). exists y, n, w. rewrite OUT in E by auto. split; [rewrite OUT; auto|]. pose proof (ED1 x Hx) as G. rewrite K1, E in G. destruct G as (G1 & G2 & _).
      split; [rewrite <- K2; unfold nbits, node_types; rewrite G1, G2; auto|]. rewrite (ED2 _ _ E), K1. auto. }
  assert (KB : forall x y, In x (members zb) -> In x (members zo) -> nxt zo x y -> nxt zb x y).
  { intros x y HM HO (k & s & K1 & K2 & K3). rewrite MEM in HM by auto. destruct HM as (n & E & T). destruct (sd_get2 _ _ _ _ SDb E) as (m & E1 & SN). pose proof (ED2 _ _ E1) as Q. rewrite K1, K2 in Q. destruct (in_dec (list_eq_dec (list_eq_dec Z.eq_dec)) x ptrs) as [Hx|Hx].
    - destruct (INP x m Hx E1) as (n' & E2 & (_ & U & _)). assert (n' = n) by congruence. subst n'. destruct U as (w & U1 & U2); [rewrite (same_takes m n SN); auto|]. rewrite Q in U2. eexists n, _. split; eauto.
    - rewrite OUT in E by auto. assert (n = m) by congruence. subst. exists m, s. rewrite OUT by auto. auto. }
  assert (SA : sorted all) by (apply ins_sorted, inss_sorted; auto).
  assert (MINA : forall x, In x all -> x = apex \/ canonical_lt apex x) by (intros x Hx; apply ins_in in Hx; destruct Hx as [Hx|Hx]; auto; apply inss_in in Hx; apply MP; tauto).
  assert (IA : In apex all) by (apply ins_in; auto).
  assert (DA : forall x, ~ In x all -> (In x (members zo) <-> In x (members zb))) by (intros x Hx; apply DZ; intros Y; apply Hx; apply ins_in; right; apply inss_in; auto).
  assert (exists tl, all = apex :: tl) as [tl Etl].
  { destruct all as [|a tl]; [destruct IA|]. exists tl. f_equal. apply sorted_inv in SA. destruct SA as [_ LA]. destruct IA as [IA|IA]; auto. apply LA in IA. destruct (MINA a) as [X|X]; [left; auto|auto|]. exfalso. apply (clt_irrefl a). eapply clt_trans; eauto. }
  assert (ANb : In apex (members zb)) by (rewrite MB; auto). assert (SNb : sorted (members zb)) by (apply fnames_sorted; auto). assert (SOo : sorted (members zo)) by (apply fnames_sorted; auto).
  assert (MINb : forall x, In x (members zb) -> x = apex \/ canonical_lt apex x) by (rewrite MB; auto).
  rewrite Etl. cbn [fix_loop]. rewrite (proj2 (no_nsec_member zo apex So Ho) AO), (proj2 (no_nsec_member zb apex Sb NB) ANb). cbn [negb andb rbind]. rewrite <- Etl.
  destruct (fix_loop_ok ttl zo zb apex all So Sb Ho) with (items := tl) (fuel := length all) (z := zb) (prev_it := @None nm) as (z' & p & E & M); auto.
  - intros x n E. destruct (sd_get2 _ _ _ _ SDb E) as (m & X & (Y & _)). unfold types_ok. rewrite <- Y. apply (TYz _ _ X).
  - intros x [H|[H|H]]; auto.
  - exists [apex]. split; [auto|left; auto].
  - rewrite Etl. cbn [length]. lia.
  - assert (SI : sorted (apex :: tl)) by (rewrite <- Etl; auto). split; [apply sd_refl|]. split; auto. split; auto. split; [|split].
    + apply (advance zo zb apex (members zo) (members zb) apex tl); auto.
      * intros x X1 X2. apply DA. rewrite Etl. intros [H|H]; [subst; eapply clt_irrefl; eauto|]. destruct tl as [|d tl]; [destruct H|]. cbn [lo] in X2. apply ltb_spec in X2. destruct H as [H|H]; [subst; eapply clt_irrefl; eauto|]. apply sorted_inv in SI. destruct SI as [SI _]. apply sorted_inv in SI. apply (clt_irrefl x). eapply clt_trans; [eauto|]. apply SI. auto.
      * rewrite le_in by auto. assert (filter (fun x => name_ltb x apex) (members zb) = []) as ->.
        { apply filter_none. intros x Hx. apply ltb_false. intros Y. destruct (MINb x Hx) as [X|X]; [subst; eapply clt_irrefl; eauto|]. apply (clt_irrefl x). eapply clt_trans; eauto. }
        cbn [app links hd]. split; auto. apply KB; auto. apply old_next; auto.
    + intros x y X1 X2 _. apply KB; auto.
    + intros x X1 X2. destruct (MINb x X1) as [X|X]; [subst; auto|]. apply DA; auto. rewrite Etl. intros [H|H]; [subst; eapply clt_irrefl; eauto|]. destruct tl as [|d tl]; [destruct H|]. cbn [lo] in X2. apply ltb_spec in X2. destruct H as [H|H]; [subst; eapply clt_irrefl; eauto|]. apply sorted_inv in SI. destruct SI as [SI _]. apply sorted_inv in SI. apply (clt_irrefl x). eapply clt_trans; [eauto|]. apply SI. auto.
  - destruct M as (SD & NM & L3 & L1 & _). exists z'. split; auto. split; [eapply sd_trans; eauto|]. split; auto. rewrite <- (sd_members _ _ SD). cbn [lo] in L1.
    assert (forall l : list nm, filter (lo []) l = l) as FT by (induction l as [|u l IH]; cbn [filter lo]; congruence). rewrite FT in L1.
    assert (filter (fun x : nm => negb true) (members zo) = []) as FE by (apply filter_none; auto). rewrite FE in L1. cbn [hd] in L1.
    apply (links_ext (nxt z')); auto. intros x y Hx HN. destruct (L3 x Hx) as [y' HL]. eapply nxt_linked; eauto.
Qed.

(** * The chain is determined by the data *)
Lemma links_det : forall (R R' : nm -> nm -> Prop) l e, (forall x y y', R x y -> R x y' -> y = y') -> links R l e -> links R' l e -> forall x y, In x l -> R x y -> R' x y.
Proof.
  induction l as [|w l IH]; intros e F L L' x y [] HR; cbn [links] in *; destruct L as [L1 L2], L' as [L1' L2'].
  - subst. assert (y = hd e l) by (eapply F; eauto). subst. auto.
  - eapply IH; eauto.
Qed.
Lemma settled_unique : forall apex ttl z z1 z2, sorted (map fst z) -> same_data z z1 -> same_data z z2 -> settled ttl apex z1 -> settled ttl apex z2 ->
  forall x, option_map n_nsec (nget z1 x) = option_map n_nsec (nget z2 x).
Proof.
  intros apex ttl z z1 z2 S SD1 SD2 (L1 & A1) (L2 & A2) x. pose proof (sd_get _ _ x SD1) as G1. pose proof (sd_get _ _ x SD2) as G2.
  destruct (nget z x) as [n|] eqn:E; destruct (nget z1 x) as [n1|] eqn:E1; destruct (nget z2 x) as [n2|] eqn:E2; try contradiction; cbn [option_map]; auto. f_equal.
  destruct (takes_part n) eqn:T.
  - assert (In x (members z)) as HM by (rewrite members_eq, fnames_in by auto; eauto). rewrite <- (sd_members _ _ SD1) in L1. rewrite <- (sd_members _ _ SD2) in L2.
    destruct (links_some _ _ _ _ L1 HM) as (y & HY). pose proof (links_det _ _ _ _ (linked_fun ttl z1) L1 L2 x y HM HY) as HY2. destruct HY as (m & w & B1 & B2 & B3). destruct HY2 as (m' & w' & B1' & B2' & B3').
    assert (m = n1) by congruence. assert (m' = n2) by congruence. subst. rewrite <- (nbits_same n) in B2 by auto. rewrite <- (nbits_same n) in B2' by auto. assert (w' = w) by congruence. subst. rewrite B3, B3'. auto.
  - destruct (A1 _ _ E1) as [X _]; [rewrite <- (same_takes n); auto|]. destruct (A2 _ _ E2) as [Y _]; [rewrite <- (same_takes n); auto|]. congruence.
Qed.

(** * Histories *)
Lemma signed_ok : forall apex ttl z, signed_zone apex ttl z -> a_zone apex z /\ settled ttl apex z.
Proof.
  intros apex ttl z H. induction H as [ttl z0 z AZ NO ON E|ttl z z' H IH F CL|ttlo ttl zo z ptrs moved changed z' H IH AZ NO SP MP ED ON E].
  - destruct (create_ok apex z0 ttl AZ NO ON) as (z1 & E1 & SD & ST). assert (z1 = z) by congruence. subst. split; auto. eapply sd_zone; eauto.
  - destruct IH as [AZ (L & A)]. assert (G : forall x, match nget z x, nget z' x with Some n, Some m => n_types n = n_types m /\ n_nsec n = n_nsec m /\ n_deleg n = n_deleg m /\ n_nonauth n = n_nonauth m | None, None => True | _, _ => False end).
    { intros x. clear - F. induction F as [|[y n] [y' m] a b [He H2] _ IH]; cbn [nget]; auto. cbn [fst snd] in *. subst y'. destruct (name_eqb y x); auto. }
    assert (map fst z = map fst z') as EN by (clear - F; induction F as [|e e' a b (He & _) _ IH]; cbn [map]; auto; f_equal; auto).
    assert (members z = members z') as EM.
    { clear - F. unfold members. induction F as [|[y n] [y' m] a b (He & H2 & H3 & H4 & H5) _ IH]; auto. cbn [fst snd filter] in *. subst y'. replace (takes_part m) with (takes_part n) by (unfold takes_part; rewrite H2, H5; auto). destruct (takes_part n); cbn [map fst]; auto. f_equal. auto. }
    destruct AZ as (S & (n & rest & -> & T) & TY). inversion F as [|? [y m] ? rest' (H1 & H2 & H3 & H4 & H5) H6]; subst. cbn [fst snd] in *. subst y. split; [split; [|split]|split].
    + rewrite EN in S. auto.
    + exists m, rest'. split; auto. unfold takes_part in *. rewrite <- H2, <- H5. auto.
    + clear - TY F. induction F as [|e e' a b (X1 & X2 & X3) _ IH]; inversion TY; subst; constructor; auto. rewrite <- X2. auto.
    + rewrite <- EM. apply (links_ext (linked ttl ((apex, n) :: rest))); auto. intros x y _ (k & w & K1 & K2 & K3). pose proof (G x) as Gx. rewrite K1 in Gx. destruct (nget ((apex, m) :: rest') x) as [k'|] eqn:EK; [|contradiction]. destruct Gx as (G1 & G2 & G3 & G4). exists k', w. split; auto. split; [rewrite <- K2; unfold nbits, node_types; rewrite G1, G3; auto|]. congruence.
    + intros x k K1 K2. pose proof (G x) as Gx. rewrite K1 in Gx. destruct (nget ((apex, n) :: rest) x) as [k'|] eqn:EK; [|contradiction]. destruct Gx as (G1 & G2 & G3 & G4). destruct (A x k' EK) as [A1 A2]; [unfold takes_part in *; rewrite G1, G4; auto|]. split; [congruence|]. intros NA. apply (CL x k); auto; [apply nget_in1; auto|]. destruct (takes_false _ K2) as [X|X]; [congruence|auto].
  - destruct IH as [AZo STo]. unfold zone_fix_nsec_chain in E. destruct (negb (ttlo =? ttl) || changed) eqn:EC.
    + destruct (create_ok apex z ttl AZ NO ON) as (z1 & E1 & SD & ST). assert (z1 = z') by congruence. subst. split; auto. eapply sd_zone; eauto.
    + apply orb_false_iff in EC. destruct EC as [EC1 EC2]. apply negb_false_iff in EC1. assert (ttlo = ttl) by lia. subst. destruct (fix_ok apex ttl zo z ptrs moved AZo STo AZ NO (ED eq_refl) SP MP) as (z1 & E1 & SD & ST).
      assert (z1 = z') by congruence. subst. split; auto. eapply sd_zone; eauto.
Qed.
