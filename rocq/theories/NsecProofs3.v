(** Fixing of the NSEC chain. *)
From Verif Require Import Base BitmapModel BitmapProps DnameSpec DnameProofs3 NsecModel NsecSpec NsecProofs NsecProofs2.
From Coq Require Import Sorting.Sorted.

Definition nxt (z : zone) (x y : nm) : Prop := exists n s, nget z x = Some n /\ n_nsec n = [s] /\ ns_next s = y.
Lemma linked_nxt : forall ttl z x y, linked ttl z x y -> nxt z x y.
Proof. intros ttl z x y (n & w & A & B & C). exists n, (mknsec y w ttl). auto. Qed.
Lemma nxt_fun : forall z x y y', nxt z x y -> nxt z x y' -> y = y'.
Proof. intros z x y y' (n & s & A & B & C) (n' & s' & A' & B' & C'). assert (n' = n) by congruence. subst n'. assert (s' = s) by congruence. congruence. Qed.
Lemma nxt_linked : forall ttl z x y y', linked ttl z x y -> nxt z x y' -> linked ttl z x y'.
Proof. intros ttl z x y y' H1 H2. rewrite (nxt_fun z x y' y) by (auto; eapply linked_nxt; eauto). auto. Qed.
Lemma nxt_other : forall z z' x y, nget z' x = nget z x -> nxt z x y -> nxt z' x y.
Proof. intros z z' x y E (n & s & A & B & C). exists n, s. rewrite E. auto. Qed.
Lemma linked_other : forall ttl z z' x y, nget z' x = nget z x -> linked ttl z x y -> linked ttl z' x y.
Proof. intros ttl z z' x y E (n & s & A & B & C). exists n, s. rewrite E. auto. Qed.

(** * Updating the bitmaps of the changed nodes *)
Definition upd_spec (ttl : Z) (n n' : node) : Prop :=
  same_node n n' /\
  (takes_part n = true -> exists w, bitmap_wire (nbits n') = Ok w /\ n_nsec n' = [mknsec (match n_nsec n with [] => [] | o :: _ => ns_next o end) w ttl]) /\
  (takes_part n = false -> aside n').
Lemma update_bitmap_ok : forall ttl n, types_ok n -> tidy n -> exists n', nsec_update_bitmap ttl n = Ok n' /\ upd_spec ttl n n'.
Proof.
  intros ttl n TO TI. unfold nsec_update_bitmap, node_no_nsec, empty_nsec_and_rrsigs. destruct (takes_part n) eqn:T.
  - destruct (takes_true _ T) as [T1 T2]. unfold no_rrsets. rewrite T1. destruct (n_types n) as [|t0 ts0] eqn:ET; [congruence|]. cbn [isnil orb andb].
    destruct (nbits_wire n TO) as (w & W & _). unfold create_nsec. change (node_types n false ++ [T_NSEC; T_RRSIG]) with (nbits n). rewrite W. cbn [rbind].
    eexists. split; [reflexivity|]. match goal with |- upd_spec _ _ ?m => assert (SN : same_node n m) by (eapply same_trans; [apply same_rem|apply same_add]) end. split; auto. split; [|congruence].
    intros _. exists w. split; [rewrite <- (nbits_same n); auto|]. reflexivity.
  - assert (n_nonauth n || no_rrsets n || isnil (n_types n) = true) as -> by (destruct (takes_false _ T) as [-> | ->]; cbn [isnil]; auto; apply orb_true_r).
    exists (changeset_remove n). split; auto. split; [apply same_remove|]. split; [congruence|]. intros _. split; [reflexivity|]. unfold changeset_remove. cbn [n_nonauth n_sigs]. intros NA.
    destruct (takes_false _ T) as [H|H]; [congruence|]. destruct (TI NA H) as [G _]. apply filter_none. intros t Ht. rewrite (G t Ht). reflexivity.
Qed.
Lemma update_bitmaps_ok : forall ttl ptrs z, NoDup ptrs -> (forall x n, nget z x = Some n -> types_ok n /\ tidy n) ->
  exists zb, nsec_update_bitmaps ttl z ptrs = Ok zb /\ same_data z zb /\ (forall x, ~ In x ptrs -> nget zb x = nget z x) /\
    (forall x n, In x ptrs -> nget z x = Some n -> exists n', nget zb x = Some n' /\ upd_spec ttl n n').
Proof.
  intros ttl. induction ptrs as [|c ptrs IH]; intros z ND H; cbn [nsec_update_bitmaps].
  - exists z. split; auto. split; [apply sd_refl|]. split; auto. intros x n [].
  - inversion ND as [|? ? NI ND']; subst. destruct (nget z c) as [cn|] eqn:E.
    + destruct (H _ _ E) as [TO TI]. destruct (update_bitmap_ok ttl cn TO TI) as (cn' & E1 & US). rewrite E1. cbn [rbind]. assert (NN : nget z c <> None) by congruence.
      assert (SDn : same_data z (nset z c cn')) by (eapply sd_nset; eauto; apply US).
      destruct (IH (nset z c cn') ND') as (zb & E2 & SD & A & B).
      { intros x n Ex. destruct (name_dec x c) as [-> | Hne]; [|rewrite nget_nset_other in Ex by auto; eauto]. rewrite nget_nset_same in Ex by auto. injection Ex as <-. destruct US as ((S1 & S2 & S3 & S4) & U1 & U2). split; [unfold types_ok in *; rewrite <- S1; auto|].
        intros NA NT. assert (aside cn') as [A1 A2] by (apply U2; unfold takes_part; rewrite S1, S3, NA, NT; auto). rewrite (A2 NA). split; auto. intros t []. }
      exists zb. split; auto. split; [eapply sd_trans; eauto|]. split.
      * intros x Hx. rewrite A by (intros X; apply Hx; right; auto). apply nget_nset_other. intros ->. apply Hx. left; auto.
      * intros x n [<- | Hx] Ex; [|apply B; auto; rewrite nget_nset_other; auto; intros ->; auto]. assert (n = cn) by congruence. subst n. exists cn'. split; auto. rewrite A by auto. apply nget_nset_same; auto.
    + destruct (IH z ND' H) as (zb & E2 & SD & A & B). exists zb. split; auto. split; auto. split; [intros; apply A; intros X; apply H0; right; auto|]. intros x n [<- | Hx] Ex; [congruence|auto].
Qed.

(** * Thresholds *)
Lemma le_in : forall c l, sorted l -> In c l -> filter (fun x => negb (name_ltb c x)) l = filter (fun x => name_ltb x c) l ++ [c].
Proof.
  intros c l S H. apply sorted_ext; [apply sorted_filter; auto| |].
  - apply sorted_app; [apply sorted_filter; auto|repeat constructor|]. intros x y Hx [<- | []]. apply filter_In in Hx. apply ltb_spec. tauto.
  - intros x. rewrite in_app_iff, !filter_In. cbn [In]. rewrite negb_true_iff, ltb_false, ltb_spec. split.
    + intros [H1 H2]. destruct (clt_total x c) as [X|[X|X]]; auto; contradiction.
    + intros [[H1 H2]|[<- | []]]; split; auto; [|apply clt_irrefl]. intros X. apply (clt_irrefl x). eapply clt_trans; eauto.
Qed.
Lemma le_out : forall c l, sorted l -> ~ In c l -> filter (fun x => negb (name_ltb c x)) l = filter (fun x => name_ltb x c) l.
Proof.
  intros c l S H. apply filter_ext2. intros x Hx. destruct (clt_total x c) as [X|[X|X]].
  - rewrite (proj2 (ltb_spec x c) X). rewrite (proj2 (ltb_false c x)); auto. intros Y. apply (clt_irrefl x). eapply clt_trans; eauto.
  - congruence.
  - rewrite (proj2 (ltb_spec c x) X). rewrite (proj2 (ltb_false x c)); auto. intros Y. apply (clt_irrefl x). eapply clt_trans; eauto.
Qed.
Lemma ge_in : forall c l, sorted l -> In c l -> filter (fun x => negb (name_ltb x c)) l = c :: filter (fun x => name_ltb c x) l.
Proof.
  intros c l S H. apply sorted_ext; [apply sorted_filter; auto| |].
  - apply sorted_cons; [apply sorted_filter; auto|]. intros y Hy. apply filter_In in Hy. apply ltb_spec. tauto.
  - intros x. cbn [In]. rewrite !filter_In. rewrite negb_true_iff, ltb_false, ltb_spec. split.
    + intros [H1 H2]. destruct (clt_total x c) as [X|[X|X]]; auto; contradiction.
    + intros [<- | [H1 H2]]; split; auto; [apply clt_irrefl|]. intros X. apply (clt_irrefl x). eapply clt_trans; eauto.
Qed.
Lemma ge_out : forall c l, sorted l -> ~ In c l -> filter (fun x => negb (name_ltb x c)) l = filter (fun x => name_ltb c x) l.
Proof.
  intros c l S H. apply filter_ext2. intros x Hx. destruct (clt_total x c) as [X|[X|X]].
  - rewrite (proj2 (ltb_spec x c) X). symmetry. cbn [negb]. apply ltb_false. intros Y. apply (clt_irrefl x). eapply clt_trans; eauto.
  - congruence.
  - rewrite (proj2 (ltb_spec c x) X). rewrite (proj2 (ltb_false x c)); auto. intros Y. apply (clt_irrefl x). eapply clt_trans; eauto.
Qed.

(** * Previous nodes *)
Lemma has_auth_takes : forall n, (takes_part n = false -> aside n) -> has_auth n = takes_part n.
Proof.
  intros n H. unfold has_auth. destruct (takes_part n) eqn:T.
  - destruct (takes_true _ T) as [A B]. rewrite A. unfold no_rrsets. destruct (n_types n); [congruence|auto].
  - destruct (H eq_refl) as [A B]. destruct (n_nonauth n) eqn:NA; auto. destruct (takes_false _ T) as [X|X]; [congruence|]. unfold no_rrsets. rewrite X, A, (B eq_refl). reflexivity.
Qed.
Lemma auth_members : forall z, sorted (map fst z) -> (forall x n, nget z x = Some n -> takes_part n = false -> aside n) -> auth_names z = members z.
Proof.
  intros z S H. apply sorted_ext; [apply (fnames_sorted has_auth); auto|apply fnames_sorted; auto|]. intros x. change (auth_names z) with (fnames has_auth z). rewrite members_eq, !fnames_in by auto.
  split; intros (n & E & T); exists n; split; auto; [rewrite <- has_auth_takes|rewrite has_auth_takes]; auto; intros; eapply H; eauto.
Qed.
Lemma no_nsec_member : forall z x, sorted (map fst z) -> (forall x n, nget z x = Some n -> takes_part n = false -> aside n) -> (node_no_nsec (nget z x) = false <-> In x (members z)).
Proof.
  intros z x S H. rewrite members_eq, fnames_in by auto. unfold node_no_nsec. destruct (nget z x) as [n|] eqn:E; [|split; [discriminate|intros (n & X & _); discriminate]].
  pose proof (has_auth_takes n (H _ _ E)) as HT. unfold has_auth in HT. rewrite <- negb_orb in HT. rewrite <- negb_true_iff, HT. split; [eauto|]. intros (m & X & Y). congruence.
Qed.
Lemma prev_ok : forall z c A p, sorted (map fst z) -> (forall x n, nget z x = Some n -> takes_part n = false -> aside n) ->
  filter (fun y => name_ltb y c) (members z) = A ++ [p] -> nsec_prev z c = Ok p.
Proof.
  intros z c A p S H E. unfold nsec_prev. rewrite (auth_members z S H), E, last_opt_app.
  assert (In p (members z)) as HP by (assert (In p (A ++ [p])) as X by (apply in_app_iff; right; left; auto); rewrite <- E in X; apply filter_In in X; tauto).
  rewrite members_eq, fnames_in in HP by auto. destruct HP as (n & E1 & T). rewrite E1. destruct (takes_true _ T) as [_ T2]. unfold empty_nsec_and_rrsigs. destruct (n_types n); [congruence|auto].
Qed.
Lemma below_split : forall l c a, sorted l -> In a l -> canonical_lt a c -> exists A p, filter (fun y => name_ltb y c) l = A ++ [p] /\ In p l /\ canonical_lt p c /\ (forall y, In y l -> canonical_lt y c -> y = p \/ canonical_lt y p) /\ A = filter (fun y => name_ltb y p) l.
Proof.
  intros l c a S Ha Hc. assert (filter (fun y => name_ltb y c) l <> []) as NE by (assert (In a (filter (fun y => name_ltb y c) l)) as X by (apply filter_In; split; auto; apply ltb_spec; auto); intros Y; rewrite Y in X; destruct X).
  destruct (last_split _ NE) as (A & p & E). exists A, p. split; auto.
  assert (In p l /\ canonical_lt p c) as [P1 P2] by (assert (In p (A ++ [p])) as X by (apply in_app_iff; right; left; auto); rewrite <- E in X; apply filter_In in X; rewrite ltb_spec in X; auto).
  pose proof (sorted_filter (fun y => name_ltb y c) l S) as SF. rewrite E in SF. apply sorted_app_inv in SF. destruct SF as (SA & _ & LT).
  assert (U : forall y, In y l -> canonical_lt y c -> y = p \/ canonical_lt y p).
  { intros y Hy1 Hy2. assert (In y (A ++ [p])) as X by (rewrite <- E; apply filter_In; split; auto; apply ltb_spec; auto). apply in_app_iff in X. destruct X as [X|[X|[]]]; auto. right. apply LT; auto. left; auto. }
  split; auto. split; auto. split; auto. apply sorted_ext; [auto|apply sorted_filter; auto|]. intros y. rewrite filter_In, ltb_spec. split.
  - intros X. assert (In y (A ++ [p])) as Y by (apply in_app_iff; auto). rewrite <- E in Y. apply filter_In in Y. split; [tauto|]. apply LT; auto. left; auto.
  - intros [X Y]. assert (In y (A ++ [p])) as W by (rewrite <- E; apply filter_In; split; auto; apply ltb_spec; eapply clt_trans; eauto). apply in_app_iff in W. destruct W as [W|[W|[]]]; auto. subst. exfalso. eapply clt_irrefl; eauto.
Qed.
Lemma old_prev_ok : forall zo z apex, sorted (map fst zo) -> (forall x n, nget zo x = Some n -> takes_part n = false -> aside n) ->
  sorted (map fst z) -> (forall x n, nget z x = Some n -> takes_part n = false -> aside n) -> In apex (members zo) -> In apex (members z) ->
  forall fuel x, canonical_lt apex x -> (length (filter (fun y => name_ltb y x) (members zo)) < fuel)%nat ->
  exists q, old_prev_loop fuel zo z x = Ok q /\ In q (members zo) /\ In q (members z) /\ canonical_lt q x /\
    (forall y, In y (members zo) -> In y (members z) -> canonical_lt y x -> y = q \/ canonical_lt y q).
Proof.
  intros zo z apex So Ho Sz Hz AO AN. induction fuel as [|fuel IH]; intros x Hx Hf; [lia|]. cbn [old_prev_loop].
  assert (SO : sorted (members zo)) by (apply fnames_sorted; auto).
  destruct (below_split (members zo) x apex SO AO Hx) as (A & p & E & P1 & P2 & U & EA). rewrite (prev_ok zo x A p So Ho E). cbn [rbind].
  destruct (node_no_nsec (nget z p)) eqn:EN.
  - assert (NP : ~ In p (members z)) by (intros X; apply (no_nsec_member z p Sz Hz) in X; congruence).
    assert (canonical_lt apex p) as LP by (destruct (U apex AO Hx) as [X|X]; auto; subst; contradiction).
    destruct (IH p LP) as (q & E2 & Q1 & Q2 & Q3 & Q4).
    { rewrite <- EA. rewrite E, app_length in Hf. cbn [length] in Hf. lia. }
    exists q. split; auto. split; auto. split; auto. split; [eapply clt_trans; eauto|]. intros y Y1 Y2 Y3. destruct (U y Y1 Y3) as [X|X]; [subst; contradiction|auto].
  - apply (no_nsec_member z p Sz Hz) in EN. exists p. repeat split; auto.
Qed.
Lemma reconnect_ok : forall ttl z a b y s ss, n_nsec a = s :: ss -> linked ttl z b y ->
  exists z', reconnect_nsec_nodes z a b = Ok z' /\ same_data z z' /\ linked ttl z' b (ns_next s) /\ (forall x, x <> b -> nget z' x = nget z x).
Proof.
  intros ttl z a b y s ss Ea (n & w & A & B & C). unfold reconnect_nsec_nodes. rewrite A, Ea, C. cbn [ns_bitmap ns_ttl].
  eexists. split; [reflexivity|]. assert (SN : forall s, same_node n (add_nsec (rem_nsec n) s)) by (intros; eapply same_trans; [apply same_rem|apply same_add]). split; [eapply sd_nset; eauto|]. split; [|intros; apply nget_nset_other; auto].
  eexists _, w. rewrite nget_nset_same by congruence. split; [reflexivity|]. split; [rewrite <- (nbits_same n); auto|]. reflexivity.
Qed.
Lemma nearer_ok : forall a b c p (N : nm -> Prop), canonical_lt a c -> N a -> N p -> canonical_lt p c -> (forall y, N y -> canonical_lt y c -> y = p \/ canonical_lt y p) ->
  match b with None => p = a | Some q => N q /\ canonical_lt q c /\ (p = a \/ canonical_lt p a \/ p = q \/ canonical_lt p q) end -> node_nearer a b c = p.
Proof.
  intros a b c p N La Na Np Lp U H. unfold node_nearer. destruct b as [q|]; auto. destruct H as (Nq & Lq & H). destruct (name_eqb a q) eqn:EQ.
  - apply eqb_spec in EQ. subst q. destruct (U a Na La) as [X|X]; auto. destruct H as [H|[H|[H|H]]]; auto; exfalso; apply (clt_irrefl a); eapply clt_trans; eauto.
  - rewrite (proj2 (ltb_spec a c) La), (proj2 (ltb_spec q c) Lq). cbn [negb Bool.eqb]. destruct (canonical_cmp a q) eqn:EC.
    + apply canonical_cmp_eq in EC. subst. rewrite eqb_refl in EQ. discriminate.
    + fold (canonical_lt a q) in EC. destruct (U q Nq Lq) as [X|X]; auto. exfalso. destruct H as [H|[H|[H|H]]].
      * subst. apply (clt_irrefl a). eapply clt_trans; eauto.
      * apply (clt_irrefl a). eapply clt_trans; [eauto|]. eapply clt_trans; eauto.
      * subst. eapply clt_irrefl; eauto.
      * apply (clt_irrefl q). eapply clt_trans; eauto.
    + assert (canonical_lt q a) as EC2 by (unfold canonical_lt; rewrite canonical_cmp_antisym, EC; auto). destruct (U a Na La) as [X|X]; auto. exfalso. destruct H as [H|[H|[H|H]]].
      * subst. eapply clt_irrefl; eauto.
      * apply (clt_irrefl a). eapply clt_trans; eauto.
      * subst. apply (clt_irrefl a). eapply clt_trans; eauto.
      * apply (clt_irrefl a). eapply clt_trans; [eauto|]. eapply clt_trans; eauto.
Qed.
