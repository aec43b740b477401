From Verif Require Import Base DnameModel DnameSpec DnameProofs DnameProofs2 WireModel WireProofs RrwireModel RrwireProofs RrwireProofs2 ComprModel ComprProofs ComprProofs2 PutModel PutProofs PktparseModel PktparseProofs AclModel TsigModel TsigSpec TsigProofs.

(** the algorithm *)
Lemma dname_equal_nc_spec : forall a b j j' fuel, legal_labels a -> legal_labels b -> (length a < fuel)%nat ->
  dname_equal_nc fuel (dwire a ++ j) (dwire b ++ j') = Ok (labs_eqb true a b).
Proof.
  induction a as [|x a IH]; intros b j j' fuel HA HB Hf; (destruct fuel; [lia|]); cbn [dname_equal_nc].
  - destruct b as [|y b]; [reflexivity|]. inversion HB as [|? ? Hy HB']; subst. rewrite nm_rd0_root, nm_rd0. cbn [rbind]. rewrite Z.eqb_sym, (legal_nonzero _ Hy). reflexivity.
  - inversion HA as [|? ? Hx HA']; subst. destruct b as [|y b].
    + rewrite nm_rd0_root, nm_rd0. cbn [rbind]. rewrite (legal_nonzero _ Hx). reflexivity.
    + inversion HB as [|? ? Hy HB']; subst. rewrite !nm_rd0. cbn [rbind labs_eqb]. rewrite (legal_nonzero _ Hx).
      destruct (zlen x =? zlen y) eqn:E; cbn [negb].
      * destruct Hx as [Hx1 Hx2]. replace (zlen x >? 63) with false by lia. rewrite nm_take. cbn [rbind]. assert (EQ : zlen x = zlen y) by lia. rewrite EQ. rewrite nm_take. cbn [rbind tl].
        unfold lab_eqb. destruct (bytes_eqb (map tolower x) (map tolower y)); cbn [negb andb]; [|reflexivity].
        rewrite <- EQ at 1. rewrite nm_advance. cbn [rbind]. rewrite nm_advance. cbn [rbind]. apply IH; auto. cbn [length] in Hf. lia.
      * destruct (lab_eqb true x y) eqn:E2; auto. apply lab_eqb_len in E2. lia.
Qed.
Lemma algorithms_spec : algorithms = [ (2, dwire hmac_sha1, 20); (3, dwire hmac_sha224, 28); (4, dwire hmac_sha256, 32); (5, dwire hmac_sha384, 48); (6, dwire hmac_sha512, 64); (1, dwire hmac_md5, 16) ].
Proof. reflexivity. Qed.
Lemma algorithm_facts : forall id n s, algorithm id n s -> legal_name n /\ lower_name n = n /\ alg_find id algorithms = Some (dwire n, s) /\ id <> 0 /\ 16 <= s <= 64.
Proof.
  intros id n s H. destruct H; (split; [|split; [reflexivity|split; [reflexivity|lia]]]); (split; [repeat constructor; cbn; try lia; repeat constructor; unfold byte; lia|vm_compute; discriminate]).
Qed.
Lemma alg_from_spec : forall alg j, legal_name alg -> exists id, alg_from_dname (dwire alg ++ j) = Ok id /\
  ((id = 0 /\ forall i s, ~ names_algorithm alg i s) \/ (id <> 0 /\ names_algorithm alg id (alg_size id))).
Proof.
  intros alg j HL. unfold alg_from_dname. rewrite algorithms_spec.
  assert (HF : (length alg < S (length (dwire alg ++ j)))%nat) by (pose proof (wire_length alg j); lia).
  assert (STEP : forall id n s l, algorithm id n s -> alg_from (dwire alg ++ j) ((id, dwire n, s) :: l) = (if labs_eqb true alg n then Ok id else alg_from (dwire alg ++ j) l)).
  { intros id n s l HA. cbn [alg_from]. destruct (algorithm_facts _ _ _ HA) as (Hn & _). rewrite <- (app_nil_r (dwire n)). rewrite dname_equal_nc_spec by (first [apply HL|apply Hn|exact HF]). reflexivity. }
  assert (YES : forall id n s, algorithm id n s -> labs_eqb true alg n = true -> names_algorithm alg id (alg_size id)).
  { intros id n s HA E. destruct (algorithm_facts _ _ _ HA) as (Hn & Hl & Hf & _). apply labs_eqb_true in E. rewrite !lower_labels in E by (first [apply HL|apply Hn]). exists n. unfold alg_size. rewrite Hf. split; [exact HA|congruence]. }
  assert (NO : forall n, lower_name alg = n -> legal_name n -> lower_name n = n -> labs_eqb true alg n = false -> False).
  { intros n E Hn Hl F. assert (labs_eqb true alg n = true); [|congruence]. apply labs_eqb_true. rewrite !lower_labels by (first [apply HL|apply Hn]). congruence. }
  assert (S1 := is_sha1). assert (S2 := is_sha224). assert (S3 := is_sha256). assert (S4 := is_sha384). assert (S5 := is_sha512). assert (S6 := is_md5).
  rewrite (STEP _ _ _ _ S1). destruct (labs_eqb true alg hmac_sha1) eqn:E1. { exists 2. split; [reflexivity|]. right. split; [lia|]. eapply YES; eauto. }
  rewrite (STEP _ _ _ _ S2). destruct (labs_eqb true alg hmac_sha224) eqn:E2. { exists 3. split; [reflexivity|]. right. split; [lia|]. eapply YES; eauto. }
  rewrite (STEP _ _ _ _ S3). destruct (labs_eqb true alg hmac_sha256) eqn:E3. { exists 4. split; [reflexivity|]. right. split; [lia|]. eapply YES; eauto. }
  rewrite (STEP _ _ _ _ S4). destruct (labs_eqb true alg hmac_sha384) eqn:E4. { exists 5. split; [reflexivity|]. right. split; [lia|]. eapply YES; eauto. }
  rewrite (STEP _ _ _ _ S5). destruct (labs_eqb true alg hmac_sha512) eqn:E5. { exists 6. split; [reflexivity|]. right. split; [lia|]. eapply YES; eauto. }
  rewrite (STEP _ _ _ _ S6). destruct (labs_eqb true alg hmac_md5) eqn:E6. { exists 1. split; [reflexivity|]. right. split; [lia|]. eapply YES; eauto. }
  exists 0. split; [reflexivity|]. left. split; [auto|]. intros i s (n & HA & E). destruct (algorithm_facts _ _ _ HA) as (Hn & Hl & _).
  assert (F : labs_eqb true alg n = false) by (destruct HA; assumption). eapply NO; eauto.
Qed.
Lemma names_unique : forall n i s i' s', names_algorithm n i s -> names_algorithm n i' s' -> i = i' /\ s = s'.
Proof. intros n i s i' s' (a & H & E) (b & H' & E'). rewrite E in E'. subst b. destruct H; inversion H'; subst; auto. Qed.

(** what is signed *)
Lemma put_name_spec : forall (P : list Z) off n N j, legal_name n -> off = zlen P -> name_size n <= N ->
  put_name (P ++ zeros N) off (dwire n ++ j) = Ok (name_size n, (P ++ dwire n) ++ zeros (N - name_size n)).
Proof.
  intros P off n N j Hn -> HN. unfold put_name. rewrite dname_size_spec by apply Hn. cbn [rbind]. unfold take. pose proof (zlen_nonneg j). pose proof (zlen_wire n) as W.
  rewrite zlen_app. replace (_ >? _) with false by lia. cbn [rbind]. rewrite <- W. rewrite zfirstn_app_exact. rewrite mem_write_front by lia. reflexivity.
Qed.
Lemma zlen_low : forall n, zlen (dwire (lower_name n)) = name_size n.
Proof.
  intros. rewrite zlen_wire. induction n; [reflexivity|]. cbn [lower_name map name_size] in *. rewrite zlen_map. unfold lower_name in IHn. lia.
Qed.
Ltac front := rewrite mem_write_front by (zl; lia); cbn [rbind]; rewrite ?be_length.
Lemma write_variables_spec : forall (P : list Z) off owner ty cl ttl t, legal_name owner -> legal_tsig t -> off = zlen P ->
  write_variables (P ++ zeros (zlen (variables owner cl ttl t))) off (mkrr (dwire owner) ty cl ttl (tsig_bytes t)) = Ok (P ++ variables owner cl ttl t).
Proof.
  intros P off owner ty cl ttl t HO HT ->. set (N := zlen (variables owner cl ttl t)).
  assert (LN : N = name_size owner + name_size (t_alg t) + zlen (t_other t) + 18) by (unfold N, variables; repeat (rewrite ?zlen_app, ?zlen_num, ?zlen_low, ?zlen_wire); lia).
  pose proof (name_size_ge1 owner). pose proof (name_size_ge1 (t_alg t)). pose proof (zlen_nonneg (t_other t)).
  pose proof (tsig_len t) as TL. pose proof (zlen_nonneg (t_mac t)). pose proof HT as (HA & Ht & _).
  unfold write_variables. cbn [rr_owner rr_class rr_ttl rr_rdata]. rewrite <- (app_nil_r (dwire owner)) at 1. rewrite put_name_spec by (auto; lia). cbn [rbind].
  front. front. replace (zlen (tsig_bytes t) =? 0) with false by lia.
  set (P1 := ((P ++ dwire owner) ++ be 2 cl) ++ be 4 ttl). assert (LP : zlen P + name_size owner + 2 + 4 = zlen P1) by (unfold P1; rewrite !zlen_app, !be_length, zlen_wire; lia). rewrite LP.
  unfold tsig_bytes at 1. rewrite put_name_spec; [|exact HA|reflexivity|lia]. cbn [rbind].
  rewrite <- app_assoc. rewrite zskipn_app_exact. rewrite dname_to_lower_spec by apply HA. cbn [rbind].
  rewrite mem_write_mid by (rewrite ?zlen_low, ?zlen_wire; reflexivity). cbn [rbind]. rewrite app_assoc.
  rewrite get_time by auto. cbn [rbind]. rewrite be48_num by lia. rewrite mem_write_front by (rewrite ?zlen_app, ?zlen_low, ?zlen_num; lia). cbn [rbind]. rewrite zlen_num.
  rewrite get_fudge by auto. cbn [rbind]. rewrite mem_write_front by (rewrite ?zlen_app, ?zlen_low, ?zlen_num, ?be_length; lia). cbn [rbind]. rewrite be_length.
  rewrite get_error by auto. cbn [rbind]. rewrite mem_write_front by (rewrite ?zlen_app, ?zlen_low, ?zlen_num, ?be_length; lia). cbn [rbind]. rewrite be_length.
  rewrite get_olen by auto. cbn [rbind]. destruct (get_other t HT) as [G1 G2]. rewrite G1. cbn [rbind].
  rewrite mem_write_front by (rewrite ?zlen_app, ?zlen_low, ?zlen_num, ?be_length; lia). cbn [rbind]. rewrite be_length.
  rewrite G2. cbn [rbind]. rewrite mem_write_front by (rewrite ?zlen_app, ?zlen_low, ?zlen_num, ?be_length; lia).
  match goal with |- context [zeros ?n] => replace n with 0 by lia end. change (zeros 0) with (@nil Z). rewrite app_nil_r. unfold P1, variables. rewrite <- !app_assoc. reflexivity.
Qed.
Lemma variables_length_spec : forall owner ty cl ttl t, legal_name owner -> legal_tsig t ->
  variables_length (mkrr (dwire owner) ty cl ttl (tsig_bytes t)) = Ok (zlen (variables owner cl ttl t)).
Proof.
  intros owner ty cl ttl t HO HT. unfold variables_length. cbn [rr_rdata rr_owner]. pose proof (tsig_len t). pose proof (name_size_ge1 (t_alg t)). pose proof (zlen_nonneg (t_other t)). pose proof (zlen_nonneg (t_mac t)).
  replace (zlen (tsig_bytes t) =? 0) with false by lia. rewrite get_olen by auto. cbn [rbind]. rewrite <- (app_nil_r (dwire owner)). rewrite dname_size_spec by apply HO. cbn [rbind].
  unfold tsig_bytes. rewrite dname_size_spec by apply HT. cbn [rbind]. f_equal. unfold variables. repeat (rewrite ?zlen_app, ?zlen_num, ?zlen_low, ?zlen_wire). lia.
Qed.
Lemma create_sign_wire_spec : forall H msg mac owner ty cl ttl t k al2, legal_name owner -> legal_tsig t ->
  create_sign_wire H msg mac (mkrr (dwire owner) ty cl ttl (tsig_bytes t)) k true al2 = compute_digest H (signed_data mac msg owner cl ttl t) k al2.
Proof.
  intros H msg mac owner ty cl ttl t k al2 HO HT. unfold create_sign_wire. rewrite variables_length_spec by auto. cbn [rbind negb]. set (V := variables owner cl ttl t).
  pose proof (zlen_nonneg msg). pose proof (zlen_nonneg mac). pose proof (zlen_nonneg V).
  unfold signed_data. fold V. destruct (zlen mac >? 0) eqn:E.
  - replace (zlen mac =? 0) with false by lia.
    change (zeros (zlen msg + zlen mac + 2 + zlen V)) with ([] ++ zeros (zlen msg + zlen mac + 2 + zlen V)).
    rewrite mem_write_front by (rewrite ?be_length; reflexivity || lia). cbn [rbind]. rewrite be_length.
    rewrite mem_write_front by (rewrite ?zlen_app, ?zlen_nil, ?be_length; lia). cbn [rbind].
    rewrite mem_write_front by (rewrite ?zlen_app, ?zlen_nil, ?be_length; lia). cbn [rbind].
    replace (zlen msg + zlen mac + 2 + zlen V - Z.of_nat 2 - zlen mac - zlen msg) with (zlen V) by lia.
    unfold V. rewrite write_variables_spec; [|auto|auto|rewrite ?zlen_app, ?zlen_nil, ?be_length; lia]. cbn [rbind]. f_equal. unfold with_length. cbn [app]. rewrite <- !app_assoc. reflexivity.
  - assert (EM : mac = []) by (destruct mac; [auto|rewrite zlen_cons in E; pose proof (zlen_nonneg mac); lia]). subst mac. change (zlen (@nil Z)) with 0 in *. cbn [Z.eqb app rbind].
    change (zeros (zlen msg + 0 + 0 + zlen V)) with ([] ++ zeros (zlen msg + 0 + 0 + zlen V)).
    rewrite mem_write_front by (reflexivity || lia). cbn [rbind app]. replace (zlen msg + 0 + 0 + zlen V - zlen msg) with (zlen V) by lia.
    unfold V. rewrite write_variables_spec; [|auto|auto|lia]. reflexivity.
Qed.
Lemma create_sign_wire_next_spec : forall H msg mac t j k al2, laid t j -> 0 <= t_time t < 2 ^ 48 -> 0 <= t_fudge t < 2 ^ 16 ->
  create_sign_wire_next H msg mac (tsig_bytes t ++ j) k true al2 = compute_digest H (signed_next mac msg t) k al2.
Proof.
  intros H msg mac t j k al2 LD Ht Hf. unfold create_sign_wire_next. cbn [negb]. pose proof (zlen_nonneg msg). pose proof (zlen_nonneg mac).
  change (zeros (zlen msg + zlen mac + 8 + 2)) with ([] ++ zeros (zlen msg + zlen mac + 8 + 2)).
  rewrite mem_write_front by (rewrite ?be_length; reflexivity || lia). cbn [rbind]. rewrite be_length.
  rewrite mem_write_front by (rewrite ?zlen_app, ?zlen_nil, ?be_length; lia). cbn [rbind].
  rewrite mem_write_front by (rewrite ?zlen_app, ?zlen_nil, ?be_length; lia). cbn [rbind].
  assert (GT : rd_time (tsig_bytes t ++ j) = Ok (t_time t)).
  { unfold rd_time, rd_num. rewrite seek_spec by (first [assumption|lia|discriminate|apply field_bound]). cbn [rbind]. destruct (split_time t j) as (A & B & E & EL). rewrite E. rewrite mem_read_mid by (rewrite ?zlen_num; auto). cbn [rbind]. rewrite unbe_num by (cbn; lia). reflexivity. }
  assert (GF : rd_fudge (tsig_bytes t ++ j) = Ok (t_fudge t)).
  { unfold rd_fudge, rd_num. rewrite seek_spec by (first [assumption|lia|discriminate|apply field_bound]). cbn [rbind]. destruct (split_fudge t j) as (A & B & E & EL). rewrite E. rewrite mem_read_mid by (rewrite ?zlen_num; auto). cbn [rbind]. rewrite unbe_num by (cbn; lia). reflexivity. }
  unfold write_timers. rewrite GT. cbn [rbind]. rewrite be48_num by lia. rewrite mem_write_front by (rewrite ?zlen_app, ?zlen_nil, ?be_length, ?zlen_num; lia). cbn [rbind]. rewrite zlen_num.
  rewrite GF. cbn [rbind]. rewrite mem_write_front by (rewrite ?zlen_app, ?zlen_nil, ?be_length, ?zlen_num; lia). cbn [rbind]. rewrite be_length.
  match goal with |- context [zeros ?n] => replace n with 0 by lia end. change (zeros 0) with (@nil Z). rewrite app_nil_r. f_equal. unfold signed_next, with_length. rewrite <- !app_assoc. reflexivity.
Qed.
Lemma set_id : forall w id, 2 <= zlen w -> 0 <= id < 2 ^ 16 -> set16 w 0 id = Ok (with_id w id).
Proof.
  intros w id HW Hid. unfold set16, with_id. replace (0 + 2 >? zlen w) with false by lia. unfold u16. rewrite Z.mod_small by lia. unfold overwrite.
  change (zfirstn 0 w) with (@nil Z). cbn [app]. rewrite be_length. reflexivity.
Qed.
