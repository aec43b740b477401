(** C33: the NSEC chain. *)
From Verif Require Import Base BitmapModel BitmapProps DnameSpec DnameProofs3 NsecModel NsecSpec NsecProofs NsecProofs2 NsecProofs3 NsecProofs4 NsecProofs5 NsecProofs6.
From Coq Require Import Sorting.Sorted.

(** Creation succeeds on every zone and makes a closed chain, changing nothing but NSEC records and their signatures. *)
Theorem c33_create : forall apex z ttl, a_zone apex z -> no_orphans z -> one_nsec z ->
  exists z', nsec_create_chain z ttl = Ok z' /\ same_data z z' /\ closed_chain ttl z'.
Proof.
  intros apex z ttl AZ NO ON. destruct (create_ok apex z ttl AZ NO ON) as (z' & E & SD & ST). exists z'. split; auto. split; auto.
  eapply settled_chain; [eapply sd_zone; eauto|eauto].
Qed.
(** A closed chain is one cycle: following the records from the apex meets every member once, in the canonical order, and
    comes back to the apex. *)
Theorem c33_cycle : forall apex ttl z, a_zone apex z -> closed_chain ttl z ->
  walk z (length (members z)) apex = members z ++ [apex] /\ StronglySorted canonical_lt (members z) /\ hd_error (members z) = Some apex.
Proof.
  intros apex ttl z AZ (C1 & _). destruct (a_zone_facts _ _ AZ) as (S & AM & _ & _ & tl & Etl). assert (SM : sorted (members z)) by (apply fnames_sorted; auto).
  split; [|split; auto; rewrite Etl; auto].
  assert (L : links (nxt z) (members z) apex).
  { apply follows_links; [apply sorted_nodup; auto|rewrite Etl; auto|]. intros x Hx. rewrite members_eq, fnames_in in Hx by auto. destruct Hx as (n & E & T). destruct (C1 x n (nget_in1 _ _ _ E) T) as (s & X & Y & _). exists (ns_next s). split; auto. exists n, s. auto. }
  assert (G : forall l x, links (nxt z) (x :: l) apex -> walk z (length (x :: l)) x = (x :: l) ++ [apex]).
  { induction l as [|y l IH]; intros x H; cbn [links hd] in H; destruct H as [(n & s & X & Y & Z) H].
    - cbn [length walk app]. rewrite X, Y, Z. auto.
    - change (walk z (length (x :: y :: l)) x) with (x :: match nget z x with Some n => match n_nsec n with s :: _ => walk z (length (y :: l)) (ns_next s) | [] => [] end | None => [] end).
      rewrite X, Y, Z. rewrite IH by auto. reflexivity. }
  rewrite Etl in *. apply G. auto.
Qed.
(** Fixing after any change of any nodes gives the same chain as creation from scratch. *)
Theorem c33_fix : forall apex ttl zo z ptrs moved, signed_zone apex ttl zo -> a_zone apex z -> no_orphans z -> edited zo z ptrs ->
  StronglySorted canonical_lt ptrs -> (forall x, In x ptrs \/ In x moved -> x = apex \/ canonical_lt apex x) ->
  exists z' zc, nsec_fix_chain zo z ptrs moved apex ttl = Ok z' /\ same_data z z' /\ closed_chain ttl z' /\ clean z' /\
    nsec_create_chain z ttl = Ok zc /\ forall x, option_map n_nsec (nget z' x) = option_map n_nsec (nget zc x).
Proof.
  intros apex ttl zo z ptrs moved SZ AZ NO ED SP MP. destruct (signed_ok _ _ _ SZ) as [AZo STo].
  destruct (fix_ok apex ttl zo z ptrs moved AZo STo AZ NO ED SP MP) as (z' & E & SD & ST).
  assert (ON : one_nsec z).
  { intros x n HI. destruct AZ as (S & _). apply nget_in in HI; auto. destruct ED as [_ ED]. rewrite (ED _ _ HI). destruct (nget zo x) as [m|] eqn:EM; [|cbn [length]; lia].
    destruct (settled_chain _ _ _ AZo STo) as [[C1 C2] _]. destruct (takes_part m) eqn:T; [destruct (C1 x m (nget_in1 _ _ _ EM) T) as (s & -> & _); auto|rewrite (C2 x m (nget_in1 _ _ _ EM) T); cbn [length]; lia]. }
  destruct (create_ok apex z ttl AZ NO ON) as (zc & Ec & SDc & STc). exists z', zc. split; auto. split; auto.
  destruct (settled_chain apex ttl z') as [C CL]; [eapply sd_zone; eauto|auto|]. split; auto. split; auto. split; auto. eapply settled_unique; eauto. apply AZ.
Qed.
(** In every history of signing and updates, the zone has a closed chain. *)
Theorem c33_history : forall apex ttl z, signed_zone apex ttl z -> a_zone apex z /\ closed_chain ttl z /\ clean z.
Proof. intros apex ttl z H. destruct (signed_ok _ _ _ H) as [A B]. split; auto. eapply settled_chain; eauto. Qed.
(** ... and no step of it fails. *)
Theorem c33_history_goes_on : forall apex ttlo ttl zo z ptrs moved changed, signed_zone apex ttlo zo -> a_zone apex z -> no_orphans z -> one_nsec z ->
  StronglySorted canonical_lt ptrs -> (forall x, In x ptrs \/ In x moved -> x = apex \/ canonical_lt apex x) -> (changed = false -> edited zo z ptrs) ->
  exists z', zone_fix_nsec_chain zo z ptrs moved apex ttlo ttl changed = Ok z' /\ same_data z z' /\ signed_zone apex ttl z'.
Proof.
  intros apex ttlo ttl zo z ptrs moved changed SZ AZ NO ON SP MP ED.
  assert (exists z', zone_fix_nsec_chain zo z ptrs moved apex ttlo ttl changed = Ok z' /\ same_data z z') as (z' & E & SD).
  { unfold zone_fix_nsec_chain. destruct (negb (ttlo =? ttl) || changed) eqn:EC.
    - destruct (create_ok apex z ttl AZ NO ON) as (z' & E & SD & _). eauto.
    - apply orb_false_iff in EC. destruct EC as [EC1 EC2]. apply negb_false_iff in EC1. assert (ttlo = ttl) by lia. subst. destruct (signed_ok _ _ _ SZ) as [AZo STo]. destruct (fix_ok apex ttl zo z ptrs moved AZo STo AZ NO (ED eq_refl) SP MP) as (z' & E & SD & _). eauto. }
  exists z'. split; auto. split; auto. eapply SZ_update; eauto.
Qed.

(** * Validation *)
(** The full check accepts only valid chains, *)
Theorem c33_check_sound : forall apex z, a_zone apex z -> nsec_check_chain z = Ok tt -> valid_chain z.
Proof. intros apex z AZ H. apply (check_chain_iff apex z AZ) in H. destruct H as [B L]. eapply links_valid; eauto. Qed.
(** and the chains the server makes, once the records are signed. *)
Theorem c33_check_complete : forall apex ttl z, signed_zone apex ttl z -> (forall x n, In (x, n) z -> takes_part n = true -> In 47 (n_sigs n)) -> nsec_check_chain z = Ok tt.
Proof.
  intros apex ttl z SZ SG. destruct (signed_ok _ _ _ SZ) as [AZ (L & A)]. destruct (a_zone_facts _ _ AZ) as (S & _ & _ & TY & _).
  assert (HT : forall n x, nget z x = Some n -> has_rrsets n = takes_part n) by (intros n x E; apply has_auth_takes; eauto).
  apply (check_chain_iff apex z AZ). split.
  - intros x Hx. apply nget_names in Hx. destruct (nget z x) as [n|] eqn:E; [|congruence]. apply check_bitmap_iff; [eauto|]. rewrite (HT n x E). split; [intros T; apply (A x n E T)|]. intros T.
    assert (HM : In x (members z)) by (rewrite members_eq, fnames_in by auto; eauto). destruct (links_some _ _ _ _ L HM) as (y & (m & w & X & Y & Z)). assert (m = n) by congruence. subst. exists (mknsec y w ttl). split; auto. cbn [ns_bitmap].
    destruct (wire_ok _ (exact_range n (TY _ _ E))) as (w' & W & _). rewrite W. f_equal. eapply wire_set; [apply exact_range; eauto|apply nbits_range; eauto| |eauto|eauto].
    intros t. rewrite exact_in, nbits_in. unfold present, to_list. pose proof (SG x n (nget_in1 _ _ _ E) T) as S47. assert (n_nsec n <> []) by (rewrite Z; discriminate). assert (n_sigs n <> []) by (intros X0; rewrite X0 in S47; destruct S47). tauto.
  - replace (participants z) with (members z); [apply (links_ext (linked ttl z)); auto; intros; eapply linked_nxt; eauto|]. symmetry. apply (auth_members z S A).
Qed.
(** The incremental check is right if the list of checked nodes has every node which changed, and every node whose
    predecessor in the chain, or the name in the record of that predecessor, changed. *)
Theorem c33_check_fix_partial : forall apex zo z ptrs, a_zone apex zo -> a_zone apex z -> valid_chain zo -> nsec_check_chain_fix z ptrs = Ok tt ->
  (forall x, ~ In x ptrs -> nget z x = nget zo x) ->
  (forall p x, follows (participants z) p x -> ~ In x ptrs -> follows (participants zo) p x /\
     option_map (fun n => map ns_next (n_nsec n)) (nget z p) = option_map (fun n => map ns_next (n_nsec n)) (nget zo p)) ->
  valid_chain z.
Proof.
  intros apex zo z ptrs AZo AZ (V1 & V2) H U F. destruct (a_zone_facts _ _ AZ) as (S & _ & _ & TY & _). destruct (a_zone_facts _ _ AZo) as (So & _ & _ & TYo & _).
  destruct (apex_part _ _ AZ) as (PA & rest & MN). unfold nsec_check_chain_fix in H.
  destruct (apply_all (fun x => check_nsec_bitmap (nget z x)) ptrs) as [[]| | |] eqn:EB; cbn [rbind] in H; try discriminate. rewrite apply_all_iff in EB. rewrite apply_all_iff in H.
  assert (SP : sorted (participants z)) by (apply (fnames_sorted has_rrsets); auto). assert (SPo : sorted (participants zo)) by (apply (fnames_sorted has_rrsets); auto).
  assert (L : links (nxt z) (participants z) apex).
  { apply follows_succ; [rewrite (participants_filter z S), MN; cbn [filter]; rewrite PA; auto|]. intros p x FX. destruct (follows_in _ _ _ FX) as [HP HX].
    destruct (in_dec (list_eq_dec (list_eq_dec Z.eq_dec)) x ptrs) as [Hx|Hx].
    - specialize (H x Hx). unfold check_prev_next in H. assert (HX2 := HX). apply participants_in in HX2; auto. pose proof (proj1 (part_get z x) HX2) as (n & E & HR). rewrite E in H. assert (node_no_nsec (Some n) = false) as NN by (unfold part in HX2; rewrite E in HX2; apply negb_true_iff in HX2; auto). rewrite NN in H.
      destruct (nsec_prev z x) as [q| | |] eqn:EQ; cbn [rbind] in H; try discriminate. pose proof (prev_follows z x q S HX EQ) as FQ. assert (q = p) by (eapply follows_inj; eauto; apply sorted_nodup; auto). subst q.
      destruct (check_connect z p x) as [[z1 sk]| | |] eqn:EC; cbn [rbind] in H; try discriminate. apply check_connect_in in EC; auto; [tauto|]. apply participants_in in HP; auto. apply part_get in HP. destruct HP as (m & HP & _). congruence.
    - destruct (F p x FX Hx) as [FO NX]. destruct (follows_in _ _ _ FO) as [HPo _]. apply participants_in in HPo; auto. apply part_get in HPo. destruct HPo as (m & Em & HRm). destruct (V1 p m (nget_in1 _ _ _ Em) HRm) as (s & X & Y & _).
      assert (ns_next s = x) by (eapply follows_fun; [apply sorted_nodup; exact SPo|exact Y|exact FO]). rewrite Em in NX. destruct (nget z p) as [n|] eqn:En; [|discriminate]. cbn [option_map] in NX. injection NX as NX. rewrite X in NX. cbn [map] in NX.
      destruct (n_nsec n) as [|s' [|]] eqn:ES; try discriminate. cbn [map] in NX. injection NX as NX. exists n, s'. split; auto. split; auto. congruence. }
  split.
  - intros x n HI HR. assert (E : nget z x = Some n) by (apply nget_in; auto). assert (HX : In x (participants z)) by (apply participants_in; auto; apply part_get; eauto). destruct (links_some _ _ _ _ L HX) as (y & (m & s & A1 & A2 & A3)). assert (m = n) by congruence. subst m.
    exists s. split; auto. split; [apply (links_follows (nxt z) (participants z) apex); auto; [apply nxt_fun|rewrite (participants_filter z S), MN; cbn [filter]; rewrite PA; auto|exists n, s; auto]|].
    destruct (in_dec (list_eq_dec (list_eq_dec Z.eq_dec)) x ptrs) as [Hx|Hx].
    + specialize (EB x Hx). rewrite E in EB. apply check_bitmap_iff in EB; [|eauto]. destruct EB as [_ EB]. destruct (EB HR) as (s' & X & Y). assert (s' = s) by congruence. subst. destruct (wire_ok _ (exact_range n (TY _ _ E))) as (w & W & LI). assert (w = ns_bitmap s) by congruence. subst. intros t Ht. destruct (LI t Ht) as (r & R1 & R2). exists r. split; auto. rewrite R2. apply exact_in.
    + rewrite U in E by auto. destruct (V1 x n (nget_in1 _ _ _ E) HR) as (s' & X & _ & Y). assert (s' = s) by congruence. subst. auto.
  - intros x n HI HR. assert (E : nget z x = Some n) by (apply nget_in; auto). destruct (in_dec (list_eq_dec (list_eq_dec Z.eq_dec)) x ptrs) as [Hx|Hx].
    + specialize (EB x Hx). rewrite E in EB. apply check_bitmap_iff in EB; [|eauto]. apply EB; auto.
    + rewrite U in E by auto. apply (V2 x n (nget_in1 _ _ _ E) HR).
Qed.

(** What the incremental check says of each checked node, in every zone: the record of the name before names it, and
    its own record names a name of the zone, the next of the chain unless it is a name without data. *)
Theorem c33_check_fix_local : forall apex z ptrs x n, a_zone apex z -> nsec_check_chain_fix z ptrs = Ok tt -> In x ptrs -> nget z x = Some n -> has_rrsets n = true ->
  (exists p m s, follows (participants z) p x /\ nget z p = Some m /\ n_nsec m = [s] /\ ns_next s = x) /\
  (exists s, n_nsec n = [s] /\ nget z (ns_next s) <> None /\ (In (ns_next s) (participants z) -> follows (participants z) x (ns_next s))).
Proof.
  intros apex z ptrs x n AZ H Hx E HR. destruct (a_zone_facts _ _ AZ) as (S & _ & _ & TY & _). unfold nsec_check_chain_fix in H.
  destruct (apply_all (fun x => check_nsec_bitmap (nget z x)) ptrs) as [[]| | |] eqn:EB; cbn [rbind] in H; try discriminate. rewrite apply_all_iff in H. specialize (H x Hx).
  assert (HX : In x (participants z)) by (apply participants_in; auto; apply part_get; eauto). assert (HX2 := HX). apply participants_in in HX2; auto.
  unfold check_prev_next in H. rewrite E in H. assert (node_no_nsec (Some n) = false) as NN by (unfold part in HX2; rewrite E in HX2; apply negb_true_iff in HX2; auto). rewrite NN in H.
  destruct (nsec_prev z x) as [p| | |] eqn:EQ; cbn [rbind] in H; try discriminate. pose proof (prev_follows z x p S HX EQ) as FP. destruct (follows_in _ _ _ FP) as [HP _].
  destruct (check_connect z p x) as [[z1 sk]| | |] eqn:EC; cbn [rbind] in H; try discriminate. apply check_connect_in in EC; auto; [|apply participants_in in HP; auto; apply part_get in HP; destruct HP as (m & HP & _); congruence].
  destruct EC as (-> & -> & m & s & A1 & A2 & A3). split; [exists p, m, s; auto|].
  destruct (n_nsec n) as [|s' [|]] eqn:ES; try discriminate. exists s'. split; [auto|]. destruct (nget z (ns_next s')) eqn:EN; [|discriminate]. split; [congruence|]. intros HI.
  destruct (nsec_prev z (ns_next s')) as [q| | |] eqn:EP; cbn [rbind] in H; try discriminate. destruct (name_eqb q x) eqn:EE; [|discriminate]. apply eqb_spec in EE. subst q. apply prev_follows; auto.
Qed.

(** * Examples and refutations *)
Definition ex_e : nm := [[101]].
Definition ex_a : nm := [[97]; [101]].
Definition ex_b : nm := [[98]; [101]].
Definition ex_c : nm := [[99]; [101]].
Definition ex_d : nm := [[100]; [101]].
Definition ex_xb : nm := [[120]; [98]; [101]].
Definition plain (ts : list Z) : node := mknode ts [] [] false false.
(** An apex, a host, an empty non-terminal, a host below it, a delegation with glue *)
Definition ex_zone : zone :=
  [(ex_e, plain [6; 2; 48]); (ex_a, plain [1; 28]); (ex_b, plain []); (ex_xb, plain [16]); (ex_c, mknode [2; 43; 1] [] [] true false); ([99] :: ex_c, mknode [1] [] [] false true)].
Definition sign_node (n : node) : node := if takes_part n then mknode (n_types n) (47 :: n_types n) (n_nsec n) (n_deleg n) (n_nonauth n) else n.
Definition sign_all (z : zone) : zone := map (fun e => (fst e, sign_node (snd e))) z.
Ltac ex_in H tac := repeat (destruct H as [H|H]; [injection H as <- <-; tac|]); destruct H.
Ltac ex_lt := repeat constructor; vm_compute; reflexivity.
Lemma ex_zone_ok : a_zone ex_e ex_zone /\ no_orphans ex_zone /\ one_nsec ex_zone.
Proof.
  split; [split; [ex_lt|split; [eexists _, _; split; [reflexivity|reflexivity]|]]|split].
  - repeat constructor; cbn [snd n_types plain]; repeat constructor; lia.
  - intros x n H _ _. cbn [ex_zone In] in H. ex_in H ltac:(cbn [n_sigs plain In]; split; [intros t []|auto]).
  - intros x n H. cbn [ex_zone In] in H. ex_in H ltac:(cbn [n_nsec plain length]; lia).
Qed.
Definition ok_or {A} (d : A) (r : res A) : A := match r with Ok a => a | _ => d end.
Definition ex_signed : zone := ok_or [] (nsec_create_chain ex_zone 3600).
Example c33_create_example : nsec_create_chain ex_zone 3600 = Ok ex_signed /\ signed_zone ex_e 3600 ex_signed /\
  walk ex_signed 4 ex_e = [ex_e; ex_a; ex_xb; ex_c; ex_e] /\ nsec_check_chain (sign_all ex_signed) = Ok tt.
Proof.
  assert (E : nsec_create_chain ex_zone 3600 = Ok ex_signed) by (vm_compute; reflexivity). split; auto. split; [|split; vm_compute; reflexivity].
  destruct ex_zone_ok as (A & B & C). eapply SZ_first; eauto.
Qed.
(** The host is removed, data comes to the empty non-terminal and a new name after the delegation is added. *)
Definition ex_kept (x : nm) : list nsec := match nget ex_signed x with Some n => n_nsec n | None => [] end.
Definition ex_new : zone :=
  [(ex_e, mknode [6; 2; 48] [] (ex_kept ex_e) false false); (ex_a, mknode [] [] (ex_kept ex_a) false false); (ex_b, plain [15]); (ex_xb, mknode [16] [] (ex_kept ex_xb) false false);
   (ex_c, mknode [2; 43; 1] [] (ex_kept ex_c) true false); ([99] :: ex_c, mknode [1] [] [] false true); (ex_d, plain [1])].
Example c33_fix_example : a_zone ex_e ex_new /\ no_orphans ex_new /\ edited ex_signed ex_new [ex_e; ex_a; ex_b; ex_d] /\
  exists z', nsec_fix_chain ex_signed ex_new [ex_e; ex_a; ex_b; ex_d] [ex_xb] ex_e 3600 = Ok z' /\ walk z' 5 ex_e = [ex_e; ex_b; ex_xb; ex_c; ex_d; ex_e].
Proof.
  split; [|split; [|split]].
  - split; [ex_lt|split; [eexists _, _; split; [reflexivity|reflexivity]|]]. repeat constructor; cbn [snd n_types plain]; repeat constructor; lia.
  - intros x n H _ _. cbn [ex_new In] in H. ex_in H ltac:(cbn [n_sigs plain In]; split; [intros t []|auto]).
  - split.
    + assert (KEY : forall x, ~ In x (map fst ex_new) -> nget ex_signed x = None /\ nget ex_new x = None).
      { intros x Hx. assert (~ In x (map fst ex_signed)) as Hx2 by (intros Y; apply Hx; assert (map fst ex_signed = [ex_e; ex_a; ex_b; ex_xb; ex_c; [99] :: ex_c]) as EM by (vm_compute; reflexivity); rewrite EM in Y; cbn [ex_new map fst In] in *; tauto).
        split; [destruct (nget ex_signed x) eqn:E; auto|destruct (nget ex_new x) eqn:E; auto]; exfalso; [apply Hx2|apply Hx]; apply nget_names; congruence. }
      intros x Hx. destruct (in_dec (list_eq_dec (list_eq_dec Z.eq_dec)) x (map fst ex_new)) as [Y|Y]; [|destruct (KEY x Y) as [-> ->]; auto].
      cbn [ex_new map fst In] in Y. cbn [In] in Hx. destruct Y as [Y|[Y|[Y|[Y|[Y|[Y|[Y|[]]]]]]]]; subst x; try tauto; vm_compute; auto.
    + intros x n H. apply nget_in1 in H. cbn [ex_new In] in H. destruct H as [H|[H|[H|[H|[H|[H|[H|[]]]]]]]]; injection H as <- <-; vm_compute; reflexivity.
  - exists (ok_or [] (nsec_fix_chain ex_signed ex_new [ex_e; ex_a; ex_b; ex_d] [ex_xb] ex_e 3600)). split; vm_compute; reflexivity.
Qed.

(** Incremental validation accepts a zone from which a name was removed while the NSEC record before it still names it:
    only the removed node and its parents are looked at. *)
Definition three : zone := sign_all (ok_or [] (nsec_create_chain [(ex_e, plain [6; 2]); (ex_a, plain [1]); (ex_b, plain [1]); (ex_c, plain [1])] 3600)).
Definition without (x : nm) (z : zone) : zone := filter (fun e => negb (name_eqb (fst e) x)) z.
Theorem c33_check_fix_refuted : exists zo z ptrs, nsec_check_chain zo = Ok tt /\ (forall x, ~ In x ptrs -> nget z x = nget zo x) /\
  nsec_check_chain_fix z ptrs = Ok tt /\ nsec_check_chain z = Err KNOT_DNSSEC_ENSEC_CHAIN /\ ~ valid_chain z.
Proof.
  exists three, (without ex_b three), [ex_e; ex_b]. split; [vm_compute; reflexivity|]. split; [|split; [vm_compute; reflexivity|split; [vm_compute; reflexivity|]]].
  - intros x Hx. assert (three = [nth 0 three (ex_e, plain []); nth 1 three (ex_e, plain []); nth 2 three (ex_e, plain []); nth 3 three (ex_e, plain [])]) as E3 by (vm_compute; reflexivity).
    assert (without ex_b three = [nth 0 three (ex_e, plain []); nth 1 three (ex_e, plain []); nth 3 three (ex_e, plain [])]) as E4 by (vm_compute; reflexivity).
    rewrite E4, E3. assert (fst (nth 2 three (ex_e, plain [])) = ex_b) as F2 by (vm_compute; reflexivity). destruct (nth 0 three (ex_e, plain [])) as [y0 n0], (nth 1 three (ex_e, plain [])) as [y1 n1], (nth 2 three (ex_e, plain [])) as [y2 n2], (nth 3 three (ex_e, plain [])) as [y3 n3].
    cbn [fst] in F2. subst y2. cbn [nth nget]. rewrite (eqb_neq ex_b x); auto. intros E0. apply Hx. right; left; auto.
  - intros (V & _). destruct (nth 1 (without ex_b three) (ex_e, plain [])) as [x n] eqn:E. assert (In (x, n) (without ex_b three)) as HI by (rewrite <- E; vm_compute; auto).
    assert (has_rrsets n = true) as HR by (change n with (snd (x, n)); rewrite <- E; vm_compute; reflexivity). destruct (V x n HI HR) as (s & X & Y & _). apply follows_in in Y. destruct Y as [_ Y].
    assert (n_nsec n = n_nsec (snd (nth 1 (without ex_b three) (ex_e, plain [])))) as X2 by (rewrite E; auto). rewrite X in X2. assert (ns_next s = ex_b) as NE by (assert (Some s = hd_error (n_nsec (snd (nth 1 (without ex_b three) (ex_e, plain []))))) as X3 by (rewrite <- X2; auto); vm_compute in X3; injection X3 as ->; reflexivity).
    rewrite NE in Y. vm_compute in Y. intuition discriminate.
Qed.
(** It accepts an NSEC record which names an empty non-terminal, too. *)
Definition with_ent : zone := sign_all (ok_or [] (nsec_create_chain [(ex_e, plain [6; 2]); (ex_a, plain [1]); (ex_b, plain []); (ex_xb, plain [1]); (ex_d, plain [1])] 3600)).
Definition renext (y : nm) (n : node) : node := mknode (n_types n) (n_sigs n) (map (fun s => mknsec y (ns_bitmap s) (ns_ttl s)) (n_nsec n)) (n_deleg n) (n_nonauth n).
Theorem c33_check_fix_ent_refuted : exists zo z ptrs, nsec_check_chain zo = Ok tt /\ ptrs = [ex_e; ex_a] /\ (exists n, nget zo ex_a = Some n /\ z = nset zo ex_a (renext ex_b n)) /\
  nsec_check_chain_fix z ptrs = Ok tt /\ nsec_check_chain z = Err KNOT_DNSSEC_ENSEC_CHAIN.
Proof.
  exists with_ent, (nset with_ent ex_a (renext ex_b (snd (nth 1 with_ent (ex_e, plain []))))), [ex_e; ex_a]. split; [vm_compute; reflexivity|]. split; auto. split; [eexists; split; [|reflexivity]; vm_compute; reflexivity|]. split; vm_compute; reflexivity.
Qed.
(** Without the assumption on signatures, fixing leaves a broken chain: a node without data keeps its place if a signature
    of other data is left at it. *)
Definition two_signed : zone := sign_all (ok_or [] (nsec_create_chain [(ex_e, plain [6; 2]); (ex_a, plain [1])] 3600)).
Definition no_types (n : node) : node := mknode [] (n_sigs n) (n_nsec n) (n_deleg n) (n_nonauth n).
Theorem c33_fix_orphan_refuted : exists zo z z', nsec_check_chain zo = Ok tt /\ (exists n, nget zo ex_a = Some n /\ z = nset zo ex_a (no_types n)) /\
  nsec_fix_chain zo z [ex_e; ex_a] [] ex_e 3600 = Ok z' /\ walk z' 2 ex_e = [ex_e; ex_a] /\ exists n, nget z' ex_a = Some n /\ n_nsec n = [].
Proof.
  exists two_signed, (nset two_signed ex_a (no_types (snd (nth 1 two_signed (ex_e, plain []))))), (ok_or [] (nsec_fix_chain two_signed (nset two_signed ex_a (no_types (snd (nth 1 two_signed (ex_e, plain []))))) [ex_e; ex_a] [] ex_e 3600)).
  split; [vm_compute; reflexivity|]. split; [eexists; split; [|reflexivity]; vm_compute; reflexivity|]. split; [vm_compute; reflexivity|]. split; [vm_compute; reflexivity|]. eexists. split; vm_compute; reflexivity.
Qed.
(** Without the assumption on the number of records: a node with two NSEC records makes creation fail. *)
Theorem c33_create_two_records_refuted : exists z, a_zone ex_e z /\ no_orphans z /\ nsec_create_chain z 3600 = Err KNOT_EINVAL.
Proof.
  exists [(ex_e, plain [6; 2]); (ex_a, mknode [1] [] [mknsec ex_e [] 3600; mknsec ex_b [] 3600] false false)]. split; [|split].
  - split; [ex_lt|split; [eexists _, _; split; [reflexivity|reflexivity]|]]. repeat constructor; cbn [snd n_types plain]; repeat constructor; lia.
  - intros x n H _ _. cbn [In] in H. ex_in H ltac:(cbn [n_sigs plain In]; split; [intros t []|auto]).
  - vm_compute. reflexivity.
Qed.

Print Assumptions c33_create.
Print Assumptions c33_cycle.
Print Assumptions c33_fix.
Print Assumptions c33_history.
Print Assumptions c33_history_goes_on.
Print Assumptions c33_check_sound.
Print Assumptions c33_check_complete.
Print Assumptions c33_check_fix_partial.
Print Assumptions c33_check_fix_local.
Print Assumptions c33_check_fix_refuted.
Print Assumptions c33_check_fix_ent_refuted.
Print Assumptions c33_fix_orphan_refuted.
Print Assumptions c33_create_two_records_refuted.
