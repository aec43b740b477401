(** Bitmaps, changes of one node, and the creation of the NSEC chain. *)
From Verif Require Import Base BitmapModel BitmapProps DnameSpec DnameProofs3 NsecModel NsecSpec NsecProofs.
From Coq Require Import Sorting.Sorted.

Lemma bm_add_list_eq : forall ts b, bm_add_list b ts = add_all b ts.
Proof. induction ts as [|t ts IH]; intros b; cbn [bm_add_list add_all]; [auto|]. destruct (bitmap_add b t); cbn [rbind]; auto. Qed.
Lemma wire_ok : forall ts, Forall (fun t => 0 <= t < 65536) ts -> exists w, bitmap_wire ts = Ok w /\ lists w (fun t => In t ts).
Proof.
  intros ts H. destruct (c32_build ts [] H) as (b & n & E1 & E2 & E3 & _). destruct (c32_build ts (repeat 0 (Z.to_nat n)) H) as (b' & n' & E1' & E2' & _ & E4).
  assert (b' = b) by congruence. subst b'. assert (n' = n) by congruence. subst n'. unfold bitmap_wire. rewrite bm_add_list_eq, E1. cbn [rbind]. rewrite E2. cbn [rbind].
  destruct E4 as (bs & W & L & _ & _ & C).
  { unfold zlen. rewrite repeat_length. rewrite Z2Nat.id; auto. clear - E1 E2 H. destruct (c32_build ts [] H) as (b2 & n2 & F1 & F2 & F3 & F4). assert (b2 = b) by congruence. subst b2. assert (n2 = n) by congruence. subst n2.
    destruct (Z_lt_le_dec n 0); [|auto]. exfalso. pose proof (add_all_inv ts (fun _ => False) bitmap_new new_inv H) as (b3 & G1 & G2). assert (b3 = b) by congruence. subst b3. unfold bitmap_size in E2. pose proof G2 as (A & B & _).
    rewrite (size_blocks _ _ b 0 0 G2) in E2 by lia. injection E2 as E2. pose proof (zlen_nonneg (encode (blocks b 0 (Z.to_nat (bm_used b))))). lia. }
  exists (encode bs). split; auto. intros t Ht. rewrite L. apply C. auto.
Qed.
Lemma wire_set : forall ts1 ts2 w1 w2, Forall (fun t => 0 <= t < 65536) ts1 -> Forall (fun t => 0 <= t < 65536) ts2 -> (forall t, In t ts1 <-> In t ts2) ->
  bitmap_wire ts1 = Ok w1 -> bitmap_wire ts2 = Ok w2 -> w1 = w2.
Proof.
  intros ts1 ts2 w1 w2 H1 H2 HE E1 E2. unfold bitmap_wire in *. rewrite bm_add_list_eq in *.
  destruct (add_all bitmap_new ts1) as [b1| | |] eqn:A1; cbn [rbind] in E1; try discriminate. destruct (add_all bitmap_new ts2) as [b2| | |] eqn:A2; cbn [rbind] in E2; try discriminate.
  destruct (bitmap_size b1) as [n1| | |] eqn:S1; cbn [rbind] in E1; try discriminate. destruct (bitmap_size b2) as [n2| | |] eqn:S2; cbn [rbind] in E2; try discriminate.
  assert (P : forall ts b n, Forall (fun t => 0 <= t < 65536) ts -> add_all bitmap_new ts = Ok b -> bitmap_size b = Ok n -> zlen (repeat 0 (Z.to_nat n)) = n).
  { intros ts b n H E S. unfold zlen. rewrite repeat_length. apply Z2Nat.id. pose proof (add_all_inv ts (fun _ => False) bitmap_new new_inv H) as (b3 & G1 & G2). assert (b3 = b) by congruence. subst b3. unfold bitmap_size in S. pose proof G2 as (A & B & _).
    rewrite (size_blocks _ _ b 0 0 G2) in S by lia. injection S as S. pose proof (zlen_nonneg (encode (blocks b 0 (Z.to_nat (bm_used b))))). lia. }
  pose proof (c32_set ts1 ts2 b1 b2 n1 n2 (repeat 0 (Z.to_nat n1)) (repeat 0 (Z.to_nat n2)) H1 H2 HE A1 A2 S1 S2 (P _ _ _ H1 A1 S1) (P _ _ _ H2 A2 S2)). congruence.
Qed.

(** * Data of nodes *)
Definition types_ok (n : node) : Prop := Forall (fun t => 0 <= t < 65536 /\ t <> 46 /\ t <> 47) (n_types n).
Definition nbits (n : node) : list Z := node_types n false ++ [T_NSEC; T_RRSIG].
Lemma nbits_range : forall n, types_ok n -> Forall (fun t => 0 <= t < 65536) (nbits n).
Proof.
  intros n H. unfold nbits, node_types. cbn [andb]. rewrite !app_nil_r. apply Forall_app. split; [|repeat constructor; unfold T_NSEC, T_RRSIG; lia].
  unfold types_ok in H. rewrite Forall_forall in *. intros t Ht. destruct (n_deleg n); [apply filter_In in Ht; destruct Ht as [Ht _]|]; apply H in Ht; tauto.
Qed.
Lemma nbits_in : forall n t, In t (nbits n) <-> to_list n t.
Proof.
  intros n t. unfold nbits, node_types, to_list. cbn [andb]. rewrite !app_nil_r, in_app_iff. unfold T_NSEC, T_RRSIG. cbn [In]. destruct (n_deleg n).
  - rewrite filter_In. unfold at_deleg, T_NS, T_DS. rewrite orb_true_iff, !Z.eqb_eq. split; intros H; intuition auto; lia.
  - split; intros H; intuition auto; try lia; try discriminate.
Qed.
Lemma nbits_wire : forall n, types_ok n -> exists w, bitmap_wire (nbits n) = Ok w /\ lists w (to_list n).
Proof.
  intros n H. destruct (wire_ok (nbits n) (nbits_range n H)) as (w & E & L). exists w. split; auto. intros t Ht. destruct (L t Ht) as (r & E1 & E2). exists r. split; auto. rewrite E2. apply nbits_in.
Qed.
Lemma nbits_same : forall n m, same_node n m -> nbits n = nbits m.
Proof. intros n m (A & B & _). unfold nbits, node_types. cbn [andb]. rewrite A, B. auto. Qed.
Lemma same_takes : forall n m, same_node n m -> takes_part n = takes_part m.
Proof. intros n m (A & B & C & _). unfold takes_part. rewrite A, C. auto. Qed.
Lemma same_refl : forall n, same_node n n.
Proof. intros n. repeat split; auto. Qed.
Lemma same_trans : forall a b c, same_node a b -> same_node b c -> same_node a c.
Proof. intros a b c (A1 & A2 & A3 & A4) (B1 & B2 & B3 & B4). repeat split; try congruence; intros; [apply B4, A4|apply A4, B4]; auto. Qed.
Lemma same_sym : forall a b, same_node a b -> same_node b a.
Proof. intros a b (A1 & A2 & A3 & A4). repeat split; try congruence; intros; apply A4; auto. Qed.
Lemma same_remove : forall n, same_node n (changeset_remove n).
Proof.
  intros n. unfold changeset_remove. repeat split; cbn [n_types n_deleg n_nonauth n_sigs]; intros; try (apply filter_In; split; auto; unfold T_NSEC; lia).
  match goal with H : In _ (filter _ _) |- _ => apply filter_In in H; tauto end.
Qed.
Lemma same_rem : forall n, same_node n (rem_nsec n).
Proof. intros n. repeat split; auto. Qed.
Lemma same_add : forall n s, same_node n (add_nsec n s).
Proof. intros n s. repeat split; auto. Qed.

Lemma sd_refl : forall z, same_data z z.
Proof. induction z as [|[x n] z IH]; constructor; auto. split; auto. apply same_refl. Qed.
Lemma sd_trans : forall a b c, same_data a b -> same_data b c -> same_data a c.
Proof.
  intros a b c H. revert c. induction H as [|e e' a b [He He2] _ IH]; intros c Hc; inversion Hc as [|? f ? c' [Hf Hf2] Hc']; subst; constructor; auto. split; [congruence|eapply same_trans; eauto].
  apply IH. auto.
Qed.
Lemma sd_names : forall a b, same_data a b -> map fst a = map fst b.
Proof. intros a b H. induction H as [|e e' a b [He _] _ IH]; cbn [map]; auto. f_equal; auto. Qed.
Lemma sd_get : forall a b x, same_data a b -> match nget a x, nget b x with Some n, Some m => same_node n m | None, None => True | _, _ => False end.
Proof. intros a b x H. induction H as [|[y n] [y' m] a b [He H2] _ IH]; cbn [nget]; auto. cbn [fst snd] in *. subst y'. destruct (name_eqb y x); auto. Qed.
Lemma sd_get1 : forall a b x n, same_data a b -> nget a x = Some n -> exists m, nget b x = Some m /\ same_node n m.
Proof. intros a b x n H E. pose proof (sd_get a b x H) as G. rewrite E in G. destruct (nget b x); [eauto|tauto]. Qed.
Lemma sd_get2 : forall a b x n, same_data a b -> nget b x = Some n -> exists m, nget a x = Some m /\ same_node m n.
Proof. intros a b x n H E. pose proof (sd_get a b x H) as G. rewrite E in G. destruct (nget a x); [eauto|tauto]. Qed.
Lemma sd_nset : forall z x n m, nget z x = Some n -> same_node n m -> same_data z (nset z x m).
Proof.
  induction z as [|[y k] z IH]; intros x n m E S; cbn [nget nset] in *; [discriminate|]. destruct (name_eqb y x).
  - injection E as ->. constructor; [split; auto|]. apply sd_refl.
  - constructor; [split; auto; apply same_refl|]. eapply IH; eauto.
Qed.
Lemma sd_members : forall a b, same_data a b -> members a = members b.
Proof.
  intros a b H. unfold members. induction H as [|[y n] [y' m] a b [He H2] _ IH]; auto. cbn [fst snd filter] in *. subst y'. rewrite (same_takes n m H2). cbn [snd]. destruct (takes_part m); cbn [map fst]; auto. f_equal. auto.
Qed.

Definition linked (ttl : Z) (z : zone) (x y : nm) : Prop :=
  exists n w, nget z x = Some n /\ bitmap_wire (nbits n) = Ok w /\ n_nsec n = [mknsec y w ttl].
Lemma linked_fun : forall ttl z x y y', linked ttl z x y -> linked ttl z x y' -> y = y'.
Proof. intros ttl z x y y' (n & w & A & B & C) (n' & w' & A' & B' & C'). congruence. Qed.
Lemma linked_nset : forall ttl z x y a n, x <> a -> linked ttl z x y -> linked ttl (nset z a n) x y.
Proof. intros ttl z x y a n H (m & w & A & B & C). exists m, w. rewrite nget_nset_other by auto. auto. Qed.
(** Nodes out of the chain have no NSEC record, and no signatures if they have no data. *)
Definition aside (n : node) : Prop := n_nsec n = [] /\ (n_nonauth n = false -> n_sigs n = []).
Definition settled (ttl : Z) (first : nm) (z : zone) : Prop :=
  links (linked ttl z) (members z) first /\ (forall x n, nget z x = Some n -> takes_part n = false -> aside n).

Lemma takes_false : forall n, takes_part n = false -> n_nonauth n = true \/ n_types n = [].
Proof. intros n. unfold takes_part. destruct (n_nonauth n); auto. destruct (n_types n); auto; discriminate. Qed.
Lemma takes_true : forall n, takes_part n = true -> n_nonauth n = false /\ n_types n <> [].
Proof. intros n. unfold takes_part. destruct (n_nonauth n); [discriminate|]. destruct (n_types n); [discriminate|]. split; auto; discriminate. Qed.

(** Connecting to a node in the chain, and passing over one which is not *)
Lemma connect_in : forall ttl z a b na nb, nget z a = Some na -> nget z b = Some nb -> takes_part nb = true -> types_ok na -> (length (n_nsec na) <= 1)%nat ->
  exists z', connect_nsec_nodes ttl z a b = Ok (z', false) /\ same_data z z' /\ linked ttl z' a b /\ (forall x, x <> a -> nget z' x = nget z x).
Proof.
  intros ttl z a b na nb Ea Eb T TO L. destruct (takes_true _ T) as [T1 T2]. unfold connect_nsec_nodes. rewrite Ea, Eb. unfold empty_nsec_and_rrsigs, no_rrsets. rewrite T1.
  destruct (n_types nb) as [|t0 ts0] eqn:ET; [congruence|]. cbn [isnil orb andb]. rewrite andb_false_r.
  destruct (nbits_wire na TO) as (w & W & _). unfold create_nsec. change (node_types na false ++ [T_NSEC; T_RRSIG]) with (nbits na). rewrite W. cbn [rbind].
  assert (NA : nget z a <> None) by congruence.
  destruct (n_nsec na) as [|old [|]] eqn:EN; [| |cbn [length] in L; lia].
  - exists (nset z a (add_nsec na (mknsec b w ttl))). split; auto. split; [eapply sd_nset; eauto; apply same_add|]. split; [|intros; apply nget_nset_other; auto].
    exists (add_nsec na (mknsec b w ttl)), w. rewrite nget_nset_same by auto. split; auto. split; [rewrite <- (nbits_same na); auto; apply same_add|]. unfold add_nsec. cbn [n_nsec]. rewrite EN. reflexivity.
  - destruct (nsec_eqb (mknsec b w ttl) old) eqn:EE.
    + apply nsec_eqb_spec in EE. subst old. exists z. split; auto. split; [apply sd_refl|]. split; auto. exists na, w. auto.
    + exists (nset z a (add_nsec (changeset_remove na) (mknsec b w ttl))). split; auto. assert (SN : same_node na (add_nsec (changeset_remove na) (mknsec b w ttl))) by (eapply same_trans; [apply same_remove|apply same_add]).
      split; [eapply sd_nset; eauto|]. split; [|intros; apply nget_nset_other; auto]. eexists _, w. rewrite nget_nset_same by auto. split; [reflexivity|]. split; [rewrite <- (nbits_same na); auto|]. reflexivity.
Qed.
Definition tidy (n : node) : Prop := n_nonauth n = false -> n_types n = [] -> (forall t, In t (n_sigs n) -> t = 47) /\ (n_nsec n = [] -> n_sigs n = []).
Lemma filter_none : forall {A} (f : A -> bool) l, (forall x, In x l -> f x = false) -> filter f l = [].
Proof. induction l as [|x l IH]; intros H; cbn [filter]; auto. rewrite (H x) by (left; auto). apply IH. intros; apply H; right; auto. Qed.
Lemma connect_out : forall ttl z a b na nb, nget z a = Some na -> nget z b = Some nb -> takes_part nb = false -> tidy nb ->
  exists z' nb', connect_nsec_nodes ttl z a b = Ok (z', true) /\ same_data z z' /\ nget z' b = Some nb' /\ aside nb' /\ (forall x, x <> b -> nget z' x = nget z x).
Proof.
  intros ttl z a b na nb Ea Eb T TI. unfold connect_nsec_nodes. rewrite Ea, Eb. unfold empty_nsec_and_rrsigs.
  assert (NB : nget z b <> None) by congruence.
  assert (HT : n_nonauth nb || isnil (n_types nb) = true) by (destruct (takes_false _ T) as [-> | ->]; auto; apply orb_true_r).
  destruct (n_nsec nb) as [|s ss] eqn:EN; cbn [isnil negb andb].
  - assert (no_rrsets nb || n_nonauth nb = true) as ->.
    { destruct (n_nonauth nb) eqn:EA; [apply orb_true_r|]. cbn [orb] in HT. destruct (n_types nb) eqn:ET; [|discriminate]. destruct (TI EA ET) as [_ H]. unfold no_rrsets. rewrite ET, (H EN), EN. reflexivity. }
    exists z, nb. split; auto. split; [apply sd_refl|]. split; auto. split; auto. split; auto. intros EA. rewrite EA in HT. cbn [orb] in HT. destruct (n_types nb) eqn:ET; [|discriminate]. destruct (TI EA ET) as [_ H]. auto.
  - rewrite HT. exists (nset z b (changeset_remove nb)), (changeset_remove nb). split; auto. split; [eapply sd_nset; eauto; apply same_remove|]. rewrite nget_nset_same by auto. split; auto. split; [|intros; apply nget_nset_other; auto].
    split; [reflexivity|]. unfold changeset_remove. cbn [n_nonauth n_sigs]. intros EA. rewrite EA in HT. cbn [orb] in HT. destruct (n_types nb) eqn:ET; [|discriminate]. destruct (TI EA ET) as [H _].
    apply filter_none. intros t Ht. rewrite (H t Ht). reflexivity.
Qed.

Definition part_of (z : zone) (x : nm) : bool := match nget z x with Some n => takes_part n | None => false end.
Lemma members_filter : forall z, sorted (map fst z) -> members z = filter (part_of z) (map fst z).
Proof.
  intros z S. apply sorted_ext; [apply fnames_sorted; auto|apply sorted_filter; auto|]. intros x. rewrite members_eq, fnames_in by auto. rewrite filter_In. unfold part_of. split.
  - intros (n & E & T). rewrite E. split; auto. apply nget_names. congruence.
  - intros [H1 H2]. destruct (nget z x) eqn:E; [eauto|discriminate].
Qed.
Lemma create_loop_ok : forall ttl z0 first, sorted (map fst z0) -> (forall x n, nget z0 x = Some n -> types_ok n /\ tidy n /\ (length (n_nsec n) <= 1)%nat) -> part_of z0 first = true ->
  forall rest z prev cur skip A, (skip = false -> cur = prev) -> same_data z0 z ->
  members z0 = A ++ prev :: filter (part_of z0) rest -> links (linked ttl z) A prev -> part_of z0 prev = true -> NoDup (A ++ prev :: rest) -> NoDup rest -> (forall x, In x rest -> In x (map fst z0)) ->
  (forall x, In x rest \/ x = prev -> nget z x = nget z0 x) ->
  (forall x n, nget z x = Some n -> takes_part n = false -> In x rest \/ aside n) ->
  (~ In first rest) ->
  exists z', create_loop (connect_nsec_nodes ttl) z first prev cur skip rest = Ok (z', false) /\ same_data z0 z' /\ links (linked ttl z') (members z0) first /\
    (forall x n, nget z' x = Some n -> takes_part n = false -> aside n).
Proof.
  intros ttl z0 first S0 H0 HF. induction rest as [|x rest IH]; intros z prev cur skip A Hskip SD HM L HP ND NDR HR U AS NF; cbn [create_loop].
  - assert (exists pn, nget z prev = Some pn) as [pn Ep] by (rewrite U by auto; unfold part_of in HP; destruct (nget z0 prev); eauto; discriminate).
    assert (exists fn, nget z first = Some fn /\ takes_part fn = true) as (fn & Ef & Tf).
    { unfold part_of in HF. destruct (nget z0 first) as [f0|] eqn:E0; [|discriminate]. destruct (sd_get1 _ _ _ _ SD E0) as (m & E1 & E2). exists m. split; auto. rewrite <- (same_takes f0); auto. }
    pose proof (U prev (or_intror eq_refl)) as Up. rewrite Ep in Up. symmetry in Up. destruct (H0 _ _ Up) as (TO & _ & L1).
    destruct (connect_in ttl z prev first pn fn Ep Ef Tf TO L1) as (z' & E & SD' & LK & OTH). replace (if skip then connect_nsec_nodes ttl z prev first else connect_nsec_nodes ttl z cur first) with (connect_nsec_nodes ttl z prev first) by (destruct skip; [|rewrite Hskip]; auto).
    exists z'. split; auto. split; [eapply sd_trans; eauto|]. split.
    + rewrite HM. cbn [filter]. apply links_app. cbn [hd links]. split; [|auto]. apply (links_ext (linked ttl z)); auto. intros u v Hu (n & w & X & Y & Z). exists n, w. split; auto. rewrite OTH; auto. intros ->. apply NoDup_remove_2 in ND. apply ND. apply in_app_iff. auto.
    + intros u n Hu Tn. destruct (name_dec u prev) as [-> | Hne].
      * exfalso. destruct (sd_get2 _ _ _ _ SD' Hu) as (m & X & Y). rewrite (U prev) in X by auto. unfold part_of in HP. rewrite X in HP. rewrite <- (same_takes m n Y), HP in Tn. discriminate.
      * rewrite OTH in Hu by auto. destruct (AS _ _ Hu Tn) as [[]|]; auto.
  - assert (exists pn, nget z prev = Some pn) as [pn Ep] by (rewrite U by auto; unfold part_of in HP; destruct (nget z0 prev); eauto; discriminate).
    assert (Hx : In x (map fst z0)) by (apply HR; left; auto). apply nget_names in Hx. destruct (nget z0 x) as [xn|] eqn:Ex0; [|congruence]. pose proof (U x (or_introl (or_introl eq_refl))) as Ex. rewrite Ex0 in Ex.
    assert (Hnx : x <> prev) by (intros ->; apply NoDup_remove_2 in ND; apply ND; apply in_app_iff; right; left; auto).
    inversion NDR as [|? ? NX NDR']; subst. pose proof (H0 _ _ Ex0) as (TOx & TIx & _). pose proof (U prev (or_intror eq_refl)) as Up. rewrite Ep in Up. symmetry in Up. pose proof (H0 _ _ Up) as (TO & _ & L1).
    destruct (takes_part xn) eqn:Tx.
    + destruct (connect_in ttl z prev x pn xn Ep Ex Tx TO L1) as (z' & E & SD' & LK & OTH). rewrite E. cbn [rbind].
      assert (PX : part_of z0 x = true) by (unfold part_of; rewrite Ex0; auto).
      apply (IH z' x x false (A ++ [prev])); auto.
      * eapply sd_trans; eauto.
      * rewrite HM. cbn [filter]. rewrite PX. rewrite <- app_assoc. auto.
      * apply links_app. cbn [hd links]. split; auto. apply (links_ext (linked ttl z)); auto. intros u v Hu (n & w & X & Y & Z). exists n, w. split; auto. rewrite OTH; auto. intros ->. apply NoDup_remove_2 in ND. apply ND. apply in_app_iff. auto.
      * rewrite <- app_assoc. cbn [app]. auto.
      * intros; apply HR; right; auto.
      * intros u Hu. assert (u <> prev) by (intros ->; destruct Hu as [Hu|Hu]; [|congruence]; apply NoDup_remove_2 in ND; apply ND; apply in_app_iff; right; right; auto). rewrite OTH by auto. apply U. left. cbn [In]. destruct Hu as [Hu|Hu]; auto.
      * intros u n Hu Tn. destruct (name_dec u prev) as [-> | Hne].
        { exfalso. destruct (sd_get2 _ _ _ _ SD' Hu) as (m & X & Y). rewrite (U prev) in X by auto. unfold part_of in HP. rewrite X in HP. rewrite <- (same_takes m n Y), HP in Tn. discriminate. }
        rewrite OTH in Hu by auto. destruct (AS _ _ Hu Tn) as [[H|H]|]; auto. subst u. congruence.
      * intros H. apply NF. right; auto.
    + destruct (connect_out ttl z prev x pn xn Ep Ex Tx TIx) as (z' & xn' & E & SD' & Ex' & AX & OTH). rewrite E. cbn [rbind].
      assert (PX : part_of z0 x = false) by (unfold part_of; rewrite Ex0; auto).
      apply (IH z' prev x true A); auto; try discriminate.
      * eapply sd_trans; eauto.
      * rewrite HM. cbn [filter]. rewrite PX. auto.
      * apply (links_ext (linked ttl z)); auto. intros u v Hu (n & w & X & Y & Z). exists n, w. split; auto. rewrite OTH; auto. intros ->. change (A ++ prev :: x :: rest) with (A ++ [prev] ++ x :: rest) in ND. rewrite app_assoc in ND. apply NoDup_remove_2 in ND. apply ND. rewrite !in_app_iff. auto.
      * change (A ++ prev :: x :: rest) with (A ++ [prev] ++ x :: rest) in ND. rewrite app_assoc in ND. apply NoDup_remove_1 in ND. rewrite <- app_assoc in ND. auto.
      * intros; apply HR; right; auto.
      * intros u Hu. assert (u <> x) by (intros ->; destruct Hu as [Hu|Hu]; auto). rewrite OTH by auto. apply U. destruct Hu as [Hu|Hu]; auto. left; right; auto.
      * intros u n Hu Tn. destruct (name_dec u x) as [-> | Hne]; [right; congruence|]. rewrite OTH in Hu by auto. destruct (AS _ _ Hu Tn) as [[H|H]|]; auto. congruence.
      * intros H. apply NF. right; auto.
Qed.

Lemma create_ok : forall apex z ttl, a_zone apex z -> no_orphans z -> one_nsec z ->
  exists z', nsec_create_chain z ttl = Ok z' /\ same_data z z' /\ settled ttl apex z'.
Proof.
  intros apex z ttl (S & (an & rest & Ez & Ta) & TY) NO ON. rewrite Forall_forall in TY.
  assert (G : forall x n, nget z x = Some n -> types_ok n /\ tidy n /\ (length (n_nsec n) <= 1)%nat).
  { intros x n E. apply nget_in1 in E. split; [apply (TY (x, n)); auto|]. split; [intros A B; apply (NO x n); auto|]. apply (ON x n); auto. }
  assert (PA : part_of z apex = true) by (unfold part_of; rewrite Ez; cbn [nget]; rewrite eqb_refl; auto).
  assert (MN : map fst z = apex :: map fst rest) by (rewrite Ez; auto).
  assert (ND : NoDup (apex :: map fst rest)) by (rewrite <- MN; apply sorted_nodup; auto).
  unfold nsec_create_chain, chain_iterate_create. rewrite MN.
  destruct (create_loop_ok ttl z apex S G PA (map fst rest) z apex apex false []) as (z' & E & SD & L & AS); auto.
  - apply sd_refl.
  - rewrite (members_filter z S), MN. cbn [filter]. rewrite PA. auto.
  - cbn [links]. auto.
  - inversion ND; auto.
  - intros x Hx. rewrite MN. right; auto.
  - intros x n E T. left. assert (In x (map fst z)) as H by (apply nget_names; congruence). rewrite MN in H. destruct H as [H|H]; auto. subst x. unfold part_of in PA. rewrite E in PA. congruence.
  - inversion ND; auto.
  - rewrite E. cbn [rbind]. exists z'. split; auto. split; auto. split; auto. rewrite <- (sd_members z z'); auto.
Qed.

(** * What a settled zone is *)
Lemma sd_zone : forall apex z z', same_data z z' -> a_zone apex z -> a_zone apex z'.
Proof.
  intros apex z z' SD (S & (an & rest & -> & T) & TY). split; [rewrite <- (sd_names _ _ SD); auto|]. split.
  - inversion SD as [|? [y m] ? rest' [H1 H2] H3]; subst. cbn [fst snd] in *. subst y. exists m, rest'. split; auto. rewrite <- (same_takes an m); auto.
  - clear S T. induction SD as [|e e' a b [H1 H2] _ IH]; inversion TY; subst; constructor; auto. destruct H2 as (H2 & _). rewrite <- H2. auto.
Qed.
Lemma settled_chain : forall apex ttl z, a_zone apex z -> settled ttl apex z -> closed_chain ttl z /\ clean z.
Proof.
  intros apex ttl z (S & (an & rest & Ez & T) & TY) (L & AS). rewrite Forall_forall in TY. split; [split|].
  - intros x n HI Tn. assert (E : nget z x = Some n) by (apply nget_in; auto).
    assert (HM : In x (members z)) by (rewrite members_eq, fnames_in; eauto).
    assert (exists y, linked ttl z x y) as [y Hy].
    { apply in_split in HM. destruct HM as (a & b & HM). rewrite HM in L. apply links_app in L. destruct L as [_ L]. cbn [links] in L. destruct L. eauto. }
    pose proof Hy as (m & w & X & Y & Z). assert (m = n) by congruence. subst m. exists (mknsec y w ttl). split; auto. cbn [ns_next ns_bitmap ns_ttl]. split; [|split; auto].
    + apply (links_follows (linked ttl z) (members z) apex); auto; [apply linked_fun|]. rewrite Ez. unfold members. cbn [filter snd]. rewrite T. reflexivity.
    + destruct (nbits_wire n (TY _ HI)) as (w' & W & LI). assert (w' = w) by congruence. subst w'. auto.
  - intros x n HI Tn. apply (AS x n); auto. apply nget_in; auto.
  - intros x n HI NA TN. apply (AS x n); auto; [apply nget_in; auto|]. unfold takes_part. rewrite NA, TN. reflexivity.
Qed.
Lemma follows_links : forall (R : nm -> nm -> Prop) l e, NoDup l -> hd e l = e -> (forall x, In x l -> exists y, R x y /\ follows l x y) -> links R l e.
Proof.
  intros R l e ND He H. assert (G : forall a b, l = a ++ b -> links R b e); [|apply (G [] l); auto].
  intros a b. revert a. induction b as [|x b IH]; intros a E; cbn [links]; auto. split; [|apply (IH (a ++ [x])); rewrite <- app_assoc; auto].
  destruct (H x) as (y & HR & F); [rewrite E; apply in_app_iff; right; left; auto|]. replace (hd e b) with y; auto.
  destruct F as [(p & q & F)|[(p & F) (q & F2)]].
  - rewrite E in F. assert (a = p /\ b = y :: q) as [-> ->]; auto. rewrite E in ND. clear - ND F. revert a ND F. induction p as [|v p IH]; intros [|u a] ND F; cbn [app] in *.
    + injection F as ->. auto.
    + injection F as -> F. apply NoDup_cons_iff in ND. exfalso. apply (proj1 ND). apply in_app_iff. right; left; auto.
    + injection F as -> ->. apply NoDup_cons_iff in ND. exfalso. apply (proj1 ND). apply in_app_iff. right; left; auto.
    + injection F as -> F. apply NoDup_cons_iff in ND. destruct (IH a (proj2 ND) F) as [-> ->]. auto.
  - rewrite E in F. assert (b = []) as ->.
    { rewrite E in ND. clear - ND F. revert a ND F. induction p as [|v p IH]; intros [|u a] ND F; cbn [app] in *.
      - injection F as ->. auto.
      - injection F as -> F. destruct a; discriminate.
      - injection F as -> F. apply NoDup_cons_iff in ND. exfalso. apply (proj1 ND). rewrite F. apply in_app_iff. right; left; auto.
      - injection F as -> F. apply NoDup_cons_iff in ND. apply (IH a); tauto. }
    cbn [hd]. rewrite <- He. rewrite F2. reflexivity.
Qed.
