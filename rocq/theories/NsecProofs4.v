(** Fixing of the NSEC chain: the loop over the changed nodes. *)
From Verif Require Import Base BitmapModel BitmapProps DnameSpec DnameProofs3 NsecModel NsecSpec NsecProofs NsecProofs2 NsecProofs3.
From Coq Require Import Sorting.Sorted.

Definition lo (items : list nm) (x : nm) : bool := match items with [] => true | c :: _ => name_ltb x c end.
(** The versions of the chain: new up to the next changed node, old from there on. *)
Definition mixed (ttl : Z) (zo zb : zone) (apex : nm) (z : zone) (items : list nm) (prev_it : option nm) : Prop :=
  same_data zb z /\ (forall x n, nget z x = Some n -> takes_part n = false -> aside n) /\
  (forall x, In x (members zb) -> exists y, linked ttl z x y) /\
  links (nxt z) (filter (lo items) (members zb)) (hd apex (filter (fun x => negb (lo items x)) (members zo))) /\
  (forall x y, In x (members zb) -> In x (members zo) -> lo items x = false -> nxt zo x y -> nxt z x y) /\
  match prev_it with
  | None => forall x, In x (members zb) -> lo items x = true -> In x (members zo)
  | Some p => In p (members zb) /\ lo items p = true /\ (forall x, In x (members zb) -> ~ In x (members zo) -> lo items x = true -> x = p \/ canonical_lt x p)
  end.

Lemma lo_down : forall c items, sorted (c :: items) -> forall x y, canonical_lt x y -> lo items y = true -> lo items x = true.
Proof. intros c items S x y H. destruct items as [|d items]; cbn [lo]; auto. rewrite !ltb_spec. intros. eapply clt_trans; eauto. Qed.
Lemma lo_c : forall c items, sorted (c :: items) -> lo items c = true.
Proof. intros c items S. destruct items as [|d items]; cbn [lo]; auto. apply ltb_spec. apply sorted_inv in S. apply (proj2 S). left; auto. Qed.
Lemma not_lo : forall c items x, sorted (c :: items) -> lo items x = false -> canonical_lt c x.
Proof. intros c items x S H. destruct (clt_total x c) as [X|[X|X]]; auto; exfalso; [rewrite (lo_down c items S x c X (lo_c c items S)) in H|subst; rewrite (lo_c c items S) in H]; discriminate. Qed.

(** From a changed node, handled, to the next one *)
Lemma advance : forall zo z apex (O N : list nm) c items, sorted O -> sorted N -> sorted (c :: items) -> links (nxt zo) O apex ->
  (forall x, canonical_lt c x -> lo items x = true -> (In x O <-> In x N)) ->
  (forall x y, In x N -> In x O -> canonical_lt c x -> nxt zo x y -> nxt z x y) ->
  links (nxt z) (filter (fun x => negb (name_ltb c x)) N) (hd apex (filter (fun x => name_ltb c x) O)) ->
  links (nxt z) (filter (lo items) N) (hd apex (filter (fun x => negb (lo items x)) O)).
Proof.
  intros zo z apex O N c items SO SN SI LO D L2 L. set (f := fun x => name_ltb c x && lo items x).
  assert (E1 : filter (lo items) N = filter (fun x => negb (name_ltb c x)) N ++ filter f N).
  { apply sorted_ext; [apply sorted_filter; auto| |].
    - apply sorted_app; try (apply sorted_filter; auto). intros x y Hx Hy. apply filter_In in Hx. apply filter_In in Hy. unfold f in Hy. rewrite negb_true_iff, ltb_false in Hx. rewrite andb_true_iff, ltb_spec in Hy.
      destruct (clt_total x c) as [X|[X|X]]; [|subst; tauto|tauto]. eapply clt_trans; [eauto|tauto].
    - intros x. rewrite in_app_iff, !filter_In. unfold f. destruct (name_ltb c x) eqn:E; cbn [negb andb]; [intuition congruence|]. split; [tauto|]. intros [[H _]|[_ H]]; [|discriminate]. split; auto.
      apply ltb_false in E. destruct (clt_total x c) as [X|[X|X]]; [|subst; apply (lo_c c); auto|contradiction]. eapply lo_down; eauto. eapply lo_c; eauto. }
  assert (E2 : filter (fun x => name_ltb c x) O = filter f N ++ filter (fun x => negb (lo items x)) O).
  { apply sorted_ext; [apply sorted_filter; auto| |].
    - apply sorted_app; try (apply sorted_filter; auto). intros x y Hx Hy. apply filter_In in Hx. apply filter_In in Hy. unfold f in Hx. rewrite negb_true_iff in Hy. rewrite andb_true_iff in Hx. destruct Hx as (_ & _ & Hx). destruct Hy as [_ Hy].
      destruct (clt_total x y) as [X|[X|X]]; auto; exfalso; [subst; congruence|]. rewrite (lo_down c items SI y x X Hx) in Hy. discriminate.
    - intros x. rewrite in_app_iff, !filter_In. unfold f. rewrite andb_true_iff, negb_true_iff, ltb_spec. destruct (lo items x) eqn:E.
      + split; [intros [H1 H2]; left; rewrite <- D by auto; auto|]. intros [(H1 & H2 & _)|[_ H]]; [|discriminate]. rewrite D by auto. auto.
      + split; [tauto|]. intros [(_ & _ & H)|[H _]]; [discriminate|]. split; auto. eapply not_lo; eauto. }
  rewrite E1. rewrite E2 in L. apply links_app. split.
  - replace (hd (hd apex (filter (fun x => negb (lo items x)) O)) (filter f N)) with (hd apex (filter f N ++ filter (fun x => negb (lo items x)) O)) by (destruct (filter f N); auto). auto.
  - rewrite (sorted_split (fun x => negb (name_ltb c x)) O SO) in LO.
    + apply links_app in LO. destruct LO as [_ LO]. rewrite (filter_ext2 _ (fun x => name_ltb c x)) in LO by (intros; apply negb_involutive). rewrite E2 in LO. apply links_app in LO. destruct LO as [LO _].
      apply (links_ext (nxt zo)); auto. intros x y Hx. apply filter_In in Hx. unfold f in Hx. rewrite andb_true_iff, ltb_spec in Hx. apply L2; try tauto. apply D; tauto.
    + intros x y H. rewrite !negb_true_iff, !ltb_false. intros H1 H2. apply H1. eapply clt_trans; eauto.
Qed.

Lemma old_next : forall zo apex O c, sorted O -> links (nxt zo) O apex -> In c O -> nxt zo c (hd apex (filter (fun x => name_ltb c x) O)).
Proof.
  intros zo apex O c SO LO HC. rewrite (sorted_split (fun x => name_ltb x c) O SO) in LO.
  - rewrite ge_in in LO by auto. apply links_app in LO. destruct LO as [_ LO]. cbn [links] in LO. tauto.
  - intros x y H. rewrite !ltb_spec. intros. eapply clt_trans; eauto.
Qed.

Lemma fix_loop_ok : forall ttl zo zb apex all, sorted (map fst zo) -> sorted (map fst zb) -> (forall x n, nget zo x = Some n -> takes_part n = false -> aside n) ->
  (forall x n, nget zb x = Some n -> types_ok n) -> links (nxt zo) (members zo) apex -> In apex (members zo) -> In apex (members zb) ->
  (forall x, In x (members zo) \/ In x (members zb) \/ In x all -> x = apex \/ canonical_lt apex x) ->
  sorted all -> In apex all -> (forall x, ~ In x all -> (In x (members zo) <-> In x (members zb))) ->
  forall items fuel z prev_it, (exists dn, all = dn ++ items /\ In apex dn) -> (length items < fuel)%nat -> mixed ttl zo zb apex z items prev_it ->
  exists z' p, fix_loop fuel ttl zo z all items (Some apex) prev_it = Ok z' /\ mixed ttl zo zb apex z' [] p.
Proof.
  intros ttl zo zb apex all So Sb Ho TYB LO AO AN MIN SA IA D. set (O := members zo) in *. set (N := members zb) in *.
  assert (SO : sorted O) by (apply fnames_sorted; auto). assert (SN : sorted N) by (apply fnames_sorted; auto).
  induction items as [|c items IH]; intros fuel z prev_it HD Hf M; (destruct fuel as [|fuel]; [cbn [length] in Hf; lia|]); cbn [fix_loop].
  - destruct all as [|a all']; [destruct IA|]. assert (a = apex).
    { apply sorted_inv in SA. destruct SA as [SA LA]. destruct IA as [IA|IA]; auto. apply LA in IA. destruct (MIN a) as [X|X]; [right; right; left; auto|auto|]. exfalso. apply (clt_irrefl a). eapply clt_trans; eauto. }
    subst a. rewrite eqb_refl. eauto.
  - destruct M as (SD & NM & L3 & L1 & L2 & P). fold O in L1, L2, P. fold N in L3, L1, L2, P. change (filter (lo (c :: items)) N) with (filter (fun x => name_ltb x c) N) in L1. destruct HD as (dn & HA & HDn).
    assert (Sz : sorted (map fst z)) by (rewrite <- (sd_names _ _ SD); auto). assert (MZ : members z = N) by (symmetry; apply sd_members; auto).
    assert (SI : sorted (c :: items)) by (rewrite HA in SA; apply sorted_app_inv in SA; tauto).
    assert (LC : canonical_lt apex c) by (rewrite HA in SA; apply sorted_app_inv in SA; destruct SA as (_ & _ & X); apply X; auto; left; auto).
    assert (HNE : name_eqb apex c = false) by (apply eqb_neq; intros ->; eapply clt_irrefl; eauto). rewrite HNE.
    assert (DN : node_no_nsec (nget z c) = false <-> In c N) by (rewrite <- MZ; apply no_nsec_member; auto).
    assert (DO : node_no_nsec (nget zo c) = false <-> In c O) by (apply no_nsec_member; auto).
    assert (NXT : exists dn0, all = dn0 ++ items /\ In apex dn0) by (exists (dn ++ [c]); rewrite <- app_assoc; split; auto; apply in_app_iff; auto).
    assert (BT : forall x, canonical_lt c x -> lo items x = true -> (In x O <-> In x N)).
    { intros x Hx1 Hx2. apply D. intros Hx. rewrite HA in Hx. apply in_app_iff in Hx. destruct Hx as [Hx|[Hx|Hx]].
      - rewrite HA in SA. apply sorted_app_inv in SA. destruct SA as (_ & _ & X). apply (clt_irrefl x). eapply clt_trans; [|eauto]. apply X; auto. left; auto.
      - subst. eapply clt_irrefl; eauto.
      - destruct items as [|d items]; [destruct Hx|]. cbn [lo] in Hx2. apply ltb_spec in Hx2. destruct Hx as [Hx|Hx]; [subst; eapply clt_irrefl; eauto|]. apply sorted_inv in SI. destruct SI as [SI _]. apply sorted_inv in SI. apply (clt_irrefl x). eapply clt_trans; [eauto|]. apply (proj2 SI). auto. }
    cbn [lo] in *.
    assert (LX : forall x, canonical_lt x c -> lo items x = true) by (intros x Hx; eapply lo_down; eauto; eapply lo_c; eauto).
    assert (LX2 : forall x, lo items x = true -> In x N -> ~ canonical_lt c x \/ In x O) by (intros x X1 X2; destruct (name_ltb c x) eqn:E; [right; apply ltb_spec in E; apply BT; auto|left; apply ltb_false; auto]).
    assert (LX3 : forall x, ~ canonical_lt c x -> x = c \/ canonical_lt x c) by (intros x X; destruct (clt_total x c) as [Y|[Y|Y]]; auto; contradiction).
    destruct (below_split N c apex SN AN LC) as (A & p & EA & PN & PC & PU & EA2).
    cbn [rbind]. destruct (node_no_nsec (nget z c)) eqn:EN; destruct (node_no_nsec (nget zo c)) eqn:EO; cbn [negb andb rbind].
    + (* in neither *)
      assert (HN : ~ In c N) by (intros X; apply DN in X; congruence). assert (HO : ~ In c O) by (intros X; apply DO in X; congruence).
      apply (IH fuel z prev_it); auto; [cbn [length] in Hf; lia|]. split; auto. split; auto. split; auto. split; [|split].
      * apply (advance zo z apex O N c items); auto; [intros x y X1 X2 X3; apply L2; auto; apply ltb_false; intros X; apply (clt_irrefl x); eapply clt_trans; eauto|]. rewrite le_out by auto. rewrite ge_out in L1 by auto. auto.
      * intros x y X1 X2 X3. apply L2; auto. apply not_lo with (c := c) in X3; auto. apply ltb_false. intros X. apply (clt_irrefl x). eapply clt_trans; eauto.
      * destruct prev_it as [q|].
        { destruct P as (P1 & P2 & P3). apply ltb_spec in P2. split; auto. split; auto. intros x X1 X2 X3. destruct (LX2 x X3 X1) as [Y|Y]; [|contradiction]. apply LX3 in Y. destruct Y as [Y|Y]; [subst; first [contradiction | assumption]|]. apply P3; auto. apply ltb_spec; auto. }
        { intros x X1 X3. destruct (LX2 x X3 X1) as [Y|Y]; auto. apply LX3 in Y. destruct Y as [Y|Y]; [subst; first [contradiction | assumption]|]. apply P; auto. apply ltb_spec; auto. }
    + (* removed *)
      assert (HN : ~ In c N) by (intros X; apply DN in X; congruence). assert (HO : In c O) by (apply DO; auto).
      destruct (old_prev_ok zo z apex So Ho Sz NM AO ltac:(rewrite MZ; auto) (S (length zo)) c LC) as (q & E & Q1 & Q2 & Q3 & Q4).
      { apply Nat.lt_succ_r. fold O. eapply Nat.le_trans; [|apply Nat.eq_le_incl, (map_length fst)]. apply NoDup_incl_length; [apply sorted_nodup, sorted_filter; auto|]. intros x Hx. apply filter_In in Hx. destruct Hx as [Hx _]. unfold O in Hx. rewrite members_eq, fnames_in in Hx by auto. destruct Hx as (n & Hx & _). apply nget_names. congruence. }
      cbv beta iota zeta delta [andb negb]. rewrite E. cbn [rbind]. rewrite MZ in Q2, Q4. fold O in Q1, Q4.
      pose proof (old_next zo apex O c SO LO HO) as (cn & s & C1 & C2 & C3). rewrite C1.
      assert (NP : node_nearer q prev_it c = p).
      { apply (nearer_ok q prev_it c p (fun y => In y N)); auto. destruct prev_it as [r|].
        - destruct P as (P1 & P2 & P3). apply ltb_spec in P2. split; auto. split; auto. destruct (node_no_nsec (nget zo p)) eqn:EP.
          + assert (~ In p O) as NPO by (intros X; apply (no_nsec_member zo p So Ho) in X; congruence). right; right. apply P3; auto. apply ltb_spec; auto.
          + apply (no_nsec_member zo p So Ho) in EP. destruct (Q4 p EP PN PC); auto.
        - assert (In p O) as PO by (apply P; auto; apply ltb_spec; auto). destruct (Q4 p PO PN PC) as [X|X]; auto. destruct (PU q Q2 Q3) as [Y|Y]; auto. exfalso. apply (clt_irrefl p). eapply clt_trans; eauto. }
      rewrite NP. destruct (L3 p PN) as [y0 Ly0].
      destruct (reconnect_ok ttl z cn p y0 s [] C2 Ly0) as (z1 & E1 & SD1 & LK1 & OT1). rewrite E1. cbn [rbind]. rewrite C3 in LK1.
      apply (IH fuel z1 prev_it); auto; [cbn [length] in Hf; lia|]. split; [eapply sd_trans; eauto|]. split; [|split; [|split; [|split]]].
      * intros x n X1 X2. destruct (name_dec x p) as [-> | Hne]; [|rewrite OT1 in X1 by auto; eauto]. exfalso. destruct (sd_get2 _ _ _ _ SD1 X1) as (m & X3 & X4). assert (In p (members z)) as X5 by (rewrite MZ; auto). rewrite members_eq, fnames_in in X5 by auto. destruct X5 as (m' & X5 & X6). assert (m' = m) by congruence. subst. rewrite <- (same_takes m n), X6 in X2 by auto. discriminate.
      * intros x X1. destruct (name_dec x p) as [-> | Hne]; [eauto|]. destruct (L3 x X1) as [y Y]. exists y. eapply linked_other; [|eauto]. auto.
      * apply (advance zo z1 apex O N c items); auto.
        { intros x y X1 X2 X3 X4. assert (x <> p) by (intros ->; apply (clt_irrefl p); eapply clt_trans; eauto). apply (nxt_other z); auto. apply L2; auto. apply ltb_false. intros X. apply (clt_irrefl x). eapply clt_trans; eauto. }
        rewrite le_out by auto. rewrite EA in *. rewrite ge_in in L1 by auto. apply links_app in L1. destruct L1 as [L1 _]. apply links_app. cbn [hd links] in *. split; [|split; auto; eapply linked_nxt; eauto].
        apply (links_ext (nxt z)); auto. intros x y Hx. apply nxt_other. apply OT1. intros ->. rewrite EA2 in Hx. apply filter_In in Hx. rewrite ltb_spec in Hx. apply (clt_irrefl p). tauto.
      * intros x y X1 X2 X3 X4. apply not_lo with (c := c) in X3; auto. assert (x <> p) by (intros ->; apply (clt_irrefl p); eapply clt_trans; eauto). apply (nxt_other z); auto. apply L2; auto. apply ltb_false. intros X. apply (clt_irrefl x). eapply clt_trans; eauto.
      * destruct prev_it as [r|].
        { destruct P as (P1 & P2 & P3). apply ltb_spec in P2. split; auto. split; auto. intros x X1 X2 X3. destruct (LX2 x X3 X1) as [Y|Y]; [|contradiction]. apply LX3 in Y. destruct Y as [Y|Y]; [subst; first [contradiction | assumption]|]. apply P3; auto. apply ltb_spec; auto. }
        { intros x X1 X3. destruct (LX2 x X3 X1) as [Y|Y]; auto. apply LX3 in Y. destruct Y as [Y|Y]; [subst; first [contradiction | assumption]|]. apply P; auto. apply ltb_spec; auto. }
    + (* inserted *)
      assert (HN : In c N) by (apply DN; auto). assert (HO : ~ In c O) by (intros X; apply DO in X; congruence).
      rewrite (prev_ok z c A p Sz NM) by (rewrite MZ; auto). cbn [rbind].
      rewrite EA in L1. rewrite ge_out in L1 by auto. apply links_app in L1. cbn [hd links] in L1. destruct L1 as (LA & LP & _). pose proof LP as (pn & s & P1 & P2 & P3). rewrite P1.
      destruct (L3 c HN) as [y0 Ly0]. destruct (reconnect_ok ttl z pn c y0 s [] P2 Ly0) as (z1 & E1 & SD1 & LK1 & OT1). rewrite E1. cbn [rbind]. rewrite P3 in LK1.
      assert (HPC : p <> c) by (intros ->; eapply clt_irrefl; eauto). assert (P1' : nget z1 p = Some pn) by (rewrite OT1; auto).
      assert (exists cn, nget z1 c = Some cn /\ takes_part cn = true) as (cn & C1 & C2).
      { assert (In c (members z1)) as X by (rewrite <- (sd_members _ _ SD1), MZ; auto). rewrite members_eq, fnames_in in X by (rewrite <- (sd_names _ _ SD1); auto). destruct X as (n & X & Y). eauto. }
      assert (TP : types_ok pn) by (destruct (sd_get2 _ _ _ _ SD P1) as (m & X & (Y & _)); unfold types_ok; rewrite <- Y; apply (TYB _ _ X)).
      destruct (connect_in ttl z1 p c pn cn P1' C1 C2 TP) as (z2 & E2 & SD2 & LK2 & OT2); [rewrite P2; cbn [length]; lia|]. rewrite E2. cbn [rbind].
      assert (SD12 : same_data z z2) by (eapply sd_trans; eauto).
      assert (OT : forall x, x <> p -> x <> c -> nget z2 x = nget z x) by (intros; rewrite OT2, OT1 by auto; auto).
      apply (IH fuel z2 (Some c)); auto; [cbn [length] in Hf; lia|]. split; [eapply sd_trans; eauto|]. split; [|split; [|split; [|split]]].
      * intros x n X1 X2. destruct (name_dec x p) as [-> | Hne]; [|destruct (name_dec x c) as [-> | Hne2]; [|rewrite OT in X1 by auto; eauto]]; exfalso.
        { destruct (sd_get2 _ _ _ _ SD12 X1) as (m & X3 & X4). assert (In p (members z)) as X5 by (rewrite MZ; auto). rewrite members_eq, fnames_in in X5 by auto. destruct X5 as (m' & X5 & X6). assert (m' = m) by congruence. subst. rewrite <- (same_takes m n), X6 in X2 by auto. discriminate. }
        { destruct (sd_get2 _ _ _ _ SD12 X1) as (m & X3 & X4). assert (In c (members z)) as X5 by (rewrite MZ; auto). rewrite members_eq, fnames_in in X5 by auto. destruct X5 as (m' & X5 & X6). assert (m' = m) by congruence. subst. rewrite <- (same_takes m n), X6 in X2 by auto. discriminate. }
      * intros x X1. destruct (name_dec x p) as [-> | Hne]; [eauto|]. destruct (name_dec x c) as [-> | Hne2]; [eexists; eapply linked_other; [|eauto]; auto|]. destruct (L3 x X1) as [y Y]. exists y. eapply linked_other; [|eauto]. auto.
      * apply (advance zo z2 apex O N c items); auto.
        { intros x y X1 X2 X3 X4. assert (x <> p) by (intros ->; apply (clt_irrefl p); eapply clt_trans; eauto). assert (x <> c) by (intros ->; contradiction). apply (nxt_other z); auto. apply L2; auto. apply ltb_false. intros X. apply (clt_irrefl x). eapply clt_trans; eauto. }
        rewrite le_in by auto. rewrite EA. apply links_app. cbn [hd links]. split; [apply links_app; cbn [hd links]; split|].
        { apply (links_ext (nxt z)); auto. intros x y Hx. rewrite EA2 in Hx. apply filter_In in Hx. rewrite ltb_spec in Hx. destruct Hx as [_ Hx]. apply nxt_other. apply OT; intros ->; [eapply clt_irrefl; eauto|]. apply (clt_irrefl c). eapply clt_trans; eauto. }
        { split; auto. eapply linked_nxt; eauto. }
        { split; auto. apply (nxt_other z1); [auto|]. eapply linked_nxt; eauto. }
      * intros x y X1 X2 X3 X4. apply not_lo with (c := c) in X3; auto. assert (x <> p) by (intros ->; apply (clt_irrefl p); eapply clt_trans; eauto). assert (x <> c) by (intros ->; contradiction). apply (nxt_other z); auto. apply L2; auto. apply ltb_false. intros X. apply (clt_irrefl x). eapply clt_trans; eauto.
      * split; auto. split; [eapply lo_c; eauto|]. intros x X1 X2 X3. destruct (LX2 x X3 X1) as [Y|Y]; [|contradiction]. apply LX3 in Y. auto.
    + (* in both *)
      assert (HN : In c N) by (apply DN; auto). assert (HO : In c O) by (apply DO; auto).
      apply (IH fuel z prev_it); auto; [cbn [length] in Hf; lia|]. split; auto. split; auto. split; auto. split; [|split].
      * apply (advance zo z apex O N c items); auto; [intros x y X1 X2 X3; apply L2; auto; apply ltb_false; intros X; apply (clt_irrefl x); eapply clt_trans; eauto|]. rewrite le_in by auto. rewrite ge_in in L1 by auto. apply links_app. cbn [hd links] in *. split; auto. split; auto.
        apply L2; auto; [apply ltb_false, clt_irrefl|]. apply old_next; auto.
      * intros x y X1 X2 X3. apply L2; auto. apply not_lo with (c := c) in X3; auto. apply ltb_false. intros X. apply (clt_irrefl x). eapply clt_trans; eauto.
      * destruct prev_it as [q|].
        { destruct P as (P1 & P2 & P3). apply ltb_spec in P2. split; auto. split; auto. intros x X1 X2 X3. destruct (LX2 x X3 X1) as [Y|Y]; [|contradiction]. apply LX3 in Y. destruct Y as [Y|Y]; [subst; first [contradiction | assumption]|]. apply P3; auto. apply ltb_spec; auto. }
        { intros x X1 X3. destruct (LX2 x X3 X1) as [Y|Y]; auto. apply LX3 in Y. destruct Y as [Y|Y]; [subst; first [contradiction | assumption]|]. apply P; auto. apply ltb_spec; auto. }
Qed.
