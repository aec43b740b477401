From Verif Require Import Base DnameModel DnameSpec DnameProofs DnameProofs2 WireModel WireProofs RrwireModel RrwireProofs RrwireProofs2 ComprModel ComprProofs ComprProofs2 PutModel PutProofs PktparseModel PktparseProofs AclModel TsigModel TsigSpec TsigProofs TsigProofs2 TsigProofs3.

(** ** The setters *)
Ltac setter A1 x1 B1 := eapply set_field with (A := A1) (x := x1) (B := B1); [assumption|lia|discriminate|rewrite ?zlen_num, ?zlen_app, ?zlen_nil; lia|rewrite ?zlen_num, ?zlen_app, ?zlen_nil; lia|unfold tsig_bytes; rewrite <- ?app_assoc; reflexivity|cbn [field t_alg t_mac t_other]; zl; lia|unfold tsig_bytes; cbn [t_alg t_time t_fudge t_mac t_id t_error t_other]; rewrite <- ?app_assoc; reflexivity].
Lemma set_time : forall a ti f m i e o j v, laid (mktsig a ti f m i e o) j -> rd_set (tsig_bytes (mktsig a ti f m i e o) ++ j) TSIGNED_O 6 (num 6 v) = Ok (tsig_bytes (mktsig a v f m i e o) ++ j).
Proof. intros. setter (dwire a) (num 6 ti) (num 2 f ++ num 2 (zlen m) ++ m ++ num 2 i ++ num 2 e ++ num 2 (zlen o) ++ o ++ j). Qed.
Lemma set_fudge : forall a ti f m i e o j v, laid (mktsig a ti f m i e o) j -> rd_set (tsig_bytes (mktsig a ti f m i e o) ++ j) FUDGE_O 2 (num 2 v) = Ok (tsig_bytes (mktsig a ti v m i e o) ++ j).
Proof. intros. setter (dwire a ++ num 6 ti) (num 2 f) (num 2 (zlen m) ++ m ++ num 2 i ++ num 2 e ++ num 2 (zlen o) ++ o ++ j). Qed.
Lemma set_mac : forall a ti f m i e o j v, laid (mktsig a ti f m i e o) j -> zlen v = zlen m -> rd_set (tsig_bytes (mktsig a ti f m i e o) ++ j) MAC_O (zlen v) v = Ok (tsig_bytes (mktsig a ti f v i e o) ++ j).
Proof.
  intros. pose proof (zlen_nonneg v). eapply set_field with (A := dwire a ++ num 6 ti ++ num 2 f ++ num 2 (zlen m)) (x := m) (B := num 2 i ++ num 2 e ++ num 2 (zlen o) ++ o ++ j); [assumption|lia|discriminate|lia|lia|unfold tsig_bytes; rewrite <- ?app_assoc; reflexivity|cbn [field t_alg t_mac t_other]; zl; lia|].
  unfold tsig_bytes; cbn [t_alg t_time t_fudge t_mac t_id t_error t_other]. rewrite H0. rewrite <- ?app_assoc; reflexivity.
Qed.
Lemma set_origid : forall a ti f m i e o j v, laid (mktsig a ti f m i e o) j -> rd_set (tsig_bytes (mktsig a ti f m i e o) ++ j) ORIGID_O 2 (num 2 v) = Ok (tsig_bytes (mktsig a ti f m v e o) ++ j).
Proof. intros. setter (dwire a ++ num 6 ti ++ num 2 f ++ num 2 (zlen m) ++ m) (num 2 i) (num 2 e ++ num 2 (zlen o) ++ o ++ j). Qed.
Lemma set_error : forall a ti f m i e o j v, laid (mktsig a ti f m i e o) j -> rd_set (tsig_bytes (mktsig a ti f m i e o) ++ j) ERROR_O 2 (num 2 v) = Ok (tsig_bytes (mktsig a ti f m i v o) ++ j).
Proof. intros. setter (dwire a ++ num 6 ti ++ num 2 f ++ num 2 (zlen m) ++ m ++ num 2 i) (num 2 e) (num 2 (zlen o) ++ o ++ j). Qed.
Lemma set_other : forall a ti f m i e j v, laid (mktsig a ti f m i e []) j -> zlen v = zlen j -> zlen v <= 6 -> rd_set_other (tsig_bytes (mktsig a ti f m i e []) ++ j) v = Ok (tsig_bytes (mktsig a ti f m i e v)).
Proof.
  intros a ti f m i e j v LD HV H6. unfold rd_set_other. replace (zlen v >? 6) with false by lia. pose proof (zlen_nonneg v). change (be 2 (zlen v)) with (num 2 (zlen v)).
  rewrite <- (app_nil_r (tsig_bytes (mktsig a ti f m i e v))).
  eapply set_field with (A := dwire a ++ num 6 ti ++ num 2 f ++ num 2 (zlen m) ++ m ++ num 2 i ++ num 2 e) (x := num 2 0 ++ j) (B := []); [assumption|lia|discriminate|rewrite zlen_app, zlen_num; lia|rewrite zlen_app, zlen_num; lia|unfold tsig_bytes; cbn [t_alg t_time t_fudge t_mac t_id t_error t_other]; rewrite <- ?app_assoc, ?app_nil_r; reflexivity|cbn [field t_alg t_mac]; zl; lia|].
  unfold tsig_bytes; cbn [t_alg t_time t_fudge t_mac t_id t_error t_other]; rewrite <- ?app_assoc; reflexivity.
Qed.
Lemma zeros_bytes : forall n, bytes (zeros n).
Proof. intros. unfold zeros, bytes. induction (Z.to_nat n); cbn; constructor; auto. unfold byte; lia. Qed.
Lemma build : forall a ti f m i e o j, legal_name a -> bytes m -> bytes o -> bytes j -> zlen m < 65536 -> zlen o < 65536 -> zlen j < 65536 -> laid (mktsig a ti f m i e o) j.
Proof.
  intros a ti f m i e o j HA Hm Ho Hj Lm Lo Lj. pose proof HA as [_ HA2]. unfold laid. rewrite zlen_app, tsig_len. cbn [t_alg t_mac t_other]. repeat split; try apply HA; try lia.
  unfold tsig_bytes. cbn [t_alg t_time t_fudge t_mac t_id t_error t_other]. repeat (apply bytes_app; split); auto using num_bytes. apply bytes_wire. apply HA.
Qed.
Lemma create_rdata_spec : forall n ml err, legal_name n -> 0 <= ml < 65536 -> create_rdata (dwire n) ml err true = Ok (tsig_bytes (mktsig n 0 0 (zeros ml) 0 err []) ++ zeros (if err =? 18 then 6 else 0)).
Proof.
  intros n ml err HN HM. unfold create_rdata. rewrite <- (app_nil_r (dwire n)) at 1. rewrite dname_size_spec by apply HN. cbn [rbind]. pose proof (name_size_ge1 n). pose proof (zlen_wire n) as ZW.
  unfold take. replace (name_size n >? zlen (dwire n)) with false by lia. cbn [rbind]. rewrite zfirstn_all by lia. set (ol := if err =? 18 then 6 else 0). assert (Hol : 0 <= ol <= 6) by (unfold ol; destruct (err =? 18); lia).
  change (zeros (name_size n + 16 + ml + ol)) with ([] ++ zeros (name_size n + 16 + ml + ol)). rewrite mem_write_front by (rewrite ?ZW; reflexivity || lia). cbn [rbind app]. rewrite ZW.
  replace (name_size n + 16 + ml + ol - name_size n) with (8 + (2 + (ml + (6 + ol)))) by lia. rewrite (zeros_split 8) by lia. rewrite (zeros_split 2) by lia. rewrite app_assoc.
  rewrite mem_write_mid; [|rewrite zlen_app, ZW, zlen_zeros by lia; lia|rewrite be_length, zlen_zeros by lia; reflexivity]. cbn [rbind negb].
  rewrite (zeros_split ml) by lia. rewrite (zeros_split 6) by lia.
  assert (E : (dwire n ++ zeros 8) ++ be 2 ml ++ zeros ml ++ zeros 6 ++ zeros ol = tsig_bytes (mktsig n 0 0 (zeros ml) 0 0 []) ++ zeros ol).
  { unfold tsig_bytes; cbn [t_alg t_time t_fudge t_mac t_id t_error t_other]. rewrite zlen_zeros by lia. rewrite <- !app_assoc. reflexivity. }
  rewrite E. change (be 2 err) with (num 2 err). apply set_error. apply build; auto using zeros_bytes; rewrite ?zlen_zeros, ?zlen_nil by lia; try lia. constructor.
Qed.

(** ** Signing *)
Definition signature (H : hmac) (mac msg : list Z) (kn alg : list label) (id : Z) (secret : list Z) (t : tsig) : Prop :=
  t_mac t = H id secret (signed_data mac msg kn 255 0 t).
(** the record without its MAC *)
Definition unsigned (alg : list label) (msg : list Z) (time rcode now : Z) : tsig :=
  mktsig alg time 300 [] (message_id msg) (if rcode =? 18 then 18 else 0) (if rcode =? 18 then num 6 now else []).
Definition with_mac (t : tsig) (m : list Z) : tsig := mktsig (t_alg t) (t_time t) (t_fudge t) m (t_id t) (t_error t) (t_other t).
Lemma signed_data_mac : forall mac msg o cl ttl t m, signed_data mac msg o cl ttl (with_mac t m) = signed_data mac msg o cl ttl t.
Proof. reflexivity. Qed.
Lemma signed_next_mac : forall mac msg t m, signed_next mac msg (with_mac t m) = signed_next mac msg t.
Proof. reflexivity. Qed.
Lemma tsig_alg : forall t, exists j, tsig_bytes t = dwire (t_alg t) ++ j.
Proof. intros. eexists. unfold tsig_bytes. reflexivity. Qed.
Lemma legal_with : forall alg ti f m i e o, legal_name alg -> 0 <= ti < 2 ^ 48 -> 0 <= f < 2 ^ 16 -> bytes m -> 0 <= i < 2 ^ 16 -> 0 <= e < 2 ^ 16 -> bytes o -> zlen m <= 64 -> zlen o <= 6 ->
  legal_tsig (mktsig alg ti f m i e o).
Proof.
  intros alg ti f m i e o HA Ht Hf Hm Hi He Ho Lm Lo. unfold legal_tsig. rewrite tsig_len. cbn [t_alg t_time t_fudge t_mac t_id t_error t_other]. destruct HA as [HA1 HA2]. repeat split; auto; lia.
Qed.
Lemma sign_spec : forall H msg R kn alg s k max mac rcode req_time now, is_hmac H -> legal_name kn -> k_name k = dwire kn -> algorithm (k_alg k) alg s ->
  bytes msg -> 12 <= zlen msg -> max <= zlen (msg ++ R) -> 0 <= req_time < 2 ^ 48 -> 0 <= now < 2 ^ 48 ->
  let u := unsigned alg msg (if rcode =? 18 then req_time else now) rcode now in
  let digest := H (k_alg k) (k_secret k) (signed_data mac msg kn 255 0 u) in
  let rec := tsig_record kn (with_mac u digest) in
  tsig_sign H (msg ++ R) (zlen msg) max mac k rcode req_time now plenty =
    (if zlen msg + zlen rec <=? max then Ok (with_record msg rec ++ zskipn (zlen rec) R, zlen msg + zlen rec, digest) else Err KNOT_ESPACE) /\
  legal_tsig (with_mac u digest).
Proof.
  intros H msg R kn alg s k max mac rcode req_time now HH HK KN HA HB HM Hmax Hr Hn u digest rec.
  destruct (algorithm_facts _ _ _ HA) as (HN & _ & HF & _ & HS). destruct (HH _ _ _ (k_secret k) (signed_data mac msg kn 255 0 u) HA) as [HD1 HD2]. fold digest in HD1, HD2.
  destruct (get_msg_id msg R ltac:(lia) HB) as [GI RI].
  assert (LG : forall m, bytes m -> zlen m = s -> legal_tsig (with_mac u m)).
  { intros m Bm Lm. unfold u, unsigned, with_mac. cbn [t_alg t_time t_fudge t_mac t_id t_error t_other]. apply legal_with; auto; try lia; destruct (rcode =? 18); try lia; rewrite ?zlen_num, ?zlen_nil; try lia; [apply num_bytes|constructor]. }
  split; [|apply LG; auto].
  unfold tsig_sign. cbn [plenty a_rrset a_rdata a_wire a_ctx negb]. unfold alg_to_dname, alg_size. rewrite HF. cbn [option_map fst].
  rewrite create_rdata_spec by (auto; lia). cbn [rbind].
  assert (EE : ((if rcode =? 18 then rcode else 0) =? 18) = (rcode =? 18)) by (destruct (rcode =? 18) eqn:E; [exact E|reflexivity]). rewrite EE.
  assert (E18 : (if rcode =? 18 then rcode else 0) = (if rcode =? 18 then 18 else 0)) by (destruct (rcode =? 18) eqn:E; lia). rewrite E18.
  assert (BZ : bytes (zeros s) /\ zlen (zeros s) = s) by (split; [apply zeros_bytes|apply zlen_zeros; lia]). destruct BZ as [BZ LZ].
  assert (ST : (if rcode =? 18 then let* rd := rd_set (tsig_bytes (mktsig alg 0 0 (zeros s) 0 (if rcode =? 18 then 18 else 0) []) ++ zeros (if rcode =? 18 then 6 else 0)) TSIGNED_O 6 (be48 req_time) in rd_set_other rd (be48 now)
      else let* rd := rd_set (tsig_bytes (mktsig alg 0 0 (zeros s) 0 (if rcode =? 18 then 18 else 0) []) ++ zeros (if rcode =? 18 then 6 else 0)) TSIGNED_O 6 (be48 now) in rd_set_other rd []) =
     Ok (tsig_bytes (mktsig alg (if rcode =? 18 then req_time else now) 0 (zeros s) 0 (if rcode =? 18 then 18 else 0) (if rcode =? 18 then num 6 now else [])))).
  { rewrite !be48_num by lia. destruct (rcode =? 18).
    - rewrite set_time by (apply build; auto using zeros_bytes; rewrite ?zlen_zeros, ?zlen_nil by lia; try lia; constructor). cbn [rbind].
      apply set_other; [apply build; auto using zeros_bytes; rewrite ?zlen_zeros, ?zlen_nil by lia; try lia; constructor|reflexivity|rewrite zlen_num; lia].
    - rewrite set_time by (apply build; auto using zeros_bytes; rewrite ?zlen_zeros, ?zlen_nil by lia; try lia; constructor). cbn [rbind].
      apply set_other; [apply build; auto using zeros_bytes; rewrite ?zlen_zeros, ?zlen_nil by lia; try lia; constructor|reflexivity|rewrite zlen_nil; lia]. }
  rewrite ST. cbn [rbind]. set (time := if rcode =? 18 then req_time else now) in *. set (e := if rcode =? 18 then 18 else 0) in *. set (o := if rcode =? 18 then num 6 now else []) in *.
  assert (LO : bytes o /\ zlen o <= 6) by (unfold o; destruct (rcode =? 18); split; rewrite ?zlen_num, ?zlen_nil; try lia; [apply num_bytes|constructor]). destruct LO as [BO LO].
  assert (LD : forall f m i, bytes m -> zlen m = s -> laid (mktsig alg time f m i e o) []) by (intros; apply build; auto; try lia; [constructor|rewrite zlen_nil; lia]).
  rewrite <- (app_nil_r (tsig_bytes _)). change (be 2 300) with (num 2 300). rewrite set_fudge by auto. cbn [rbind]. rewrite GI. cbn [rbind]. change (be 2 (message_id msg)) with (num 2 (message_id msg)). rewrite set_origid by auto. cbn [rbind].
  rewrite app_nil_r. rewrite KN. rewrite zfirstn_app_exact. change (mktsig alg time 300 (zeros s) (message_id msg) e o) with (with_mac u (zeros s)). rewrite create_sign_wire_spec by (auto). rewrite signed_data_mac.
  unfold compute_digest. rewrite HF. cbn [negb orb]. fold digest. cbn [rbind]. rewrite <- (app_nil_r (tsig_bytes (with_mac u (zeros s)))). unfold with_mac at 1. rewrite set_mac by (first [apply LD; auto|lia]). cbn [rbind]. rewrite app_nil_r.
  change (mktsig (t_alg u) (t_time u) (t_fudge u) digest (t_id u) (t_error u) (t_other u)) with (with_mac u digest).
  pose proof (LG digest HD2 HD1) as (_ & _ & _ & _ & _ & _ & _ & LT).
  unfold rec, tsig_record. destruct (tsig_alg (with_mac u digest)) as [j EJ]. rewrite EJ in *. cbn [with_mac t_alg u unsigned] in *.
  rewrite append_spec by auto. unfold bytes_of. destruct (_ <=? _); reflexivity.
Qed.
(** the next messages *)
Lemma sign_next_spec : forall H msg R kn alg s k max prev dlen now, is_hmac H -> legal_name kn -> k_name k = dwire kn -> algorithm (k_alg k) alg s ->
  bytes msg -> 12 <= zlen msg -> max <= zlen (msg ++ R) -> 0 <= now < 2 ^ 48 -> s <= dlen ->
  let u := unsigned alg msg now 0 0 in
  let digest := H (k_alg k) (k_secret k) (signed_next prev msg u) in
  let rec := tsig_record kn (with_mac u digest) in
  tsig_sign_next H (msg ++ R) (zlen msg) max prev dlen k msg now plenty =
    (if zlen msg + zlen rec <=? max then Ok (with_record msg rec ++ zskipn (zlen rec) R, zlen msg + zlen rec, digest) else Err KNOT_ESPACE) /\
  legal_tsig (with_mac u digest).
Proof.
  intros H msg R kn alg s k max prev dlen now HH HK KN HA HB HM Hmax Hn Hdl u digest rec.
  destruct (algorithm_facts _ _ _ HA) as (HN & _ & HF & _ & HS). destruct (HH _ _ _ (k_secret k) (signed_next prev msg u) HA) as [HD1 HD2]. fold digest in HD1, HD2.
  destruct (get_msg_id msg R ltac:(lia) HB) as [GI RI].
  assert (LG : forall m, bytes m -> zlen m = s -> legal_tsig (with_mac u m)).
  { intros m Bm Lm. unfold u, unsigned, with_mac. cbn [t_alg t_time t_fudge t_mac t_id t_error t_other Z.eqb]. apply legal_with; auto; try lia; rewrite ?zlen_nil; try lia. constructor. }
  split; [|apply LG; auto].
  unfold tsig_sign_next. cbn [plenty a_rrset a_rdata a_wire a_ctx negb]. unfold alg_to_dname, alg_size. rewrite HF. cbn [option_map fst].
  rewrite create_rdata_spec by (auto; lia). cbn [rbind]. change (if 0 =? 18 then 6 else 0) with 0. change (zeros 0) with (@nil Z).
  assert (BZ : bytes (zeros s) /\ zlen (zeros s) = s) by (split; [apply zeros_bytes|apply zlen_zeros; lia]). destruct BZ as [BZ LZ].
  assert (LD : forall ti f m i, bytes m -> zlen m = s -> laid (mktsig alg ti f m i 0 []) []) by (intros; apply build; auto; try lia; try constructor; rewrite zlen_nil; lia).
  rewrite be48_num by lia. rewrite set_time by auto. cbn [rbind]. change (be 2 300) with (num 2 300). rewrite set_fudge by auto. cbn [rbind].
  rewrite create_sign_wire_next_spec by (first [apply LD; auto|cbn [t_time t_fudge]; lia]).
  change (signed_next prev msg (mktsig alg now 300 (zeros s) 0 0 [])) with (signed_next prev msg u).
  unfold compute_digest. rewrite HF. cbn [negb orb]. fold digest. cbn [rbind]. replace (zlen digest >? dlen) with false by lia.
  rewrite set_mac by (first [apply LD; auto|lia]). cbn [rbind]. rewrite GI. cbn [rbind]. change (be 2 (message_id msg)) with (num 2 (message_id msg)). rewrite set_origid by (apply LD; auto). cbn [rbind].
  rewrite set_other by (first [apply LD; auto|rewrite ?zlen_nil; lia]). cbn [rbind].
  change (mktsig alg now 300 digest (message_id msg) 0 []) with (with_mac u digest). rewrite KN.
  pose proof (LG digest HD2 HD1) as (_ & _ & _ & _ & _ & _ & _ & LT).
  unfold rec, tsig_record. destruct (tsig_alg (with_mac u digest)) as [j EJ]. rewrite EJ in *. cbn [with_mac t_alg u unsigned] in *.
  rewrite append_spec by auto. unfold bytes_of. destruct (_ <=? _); reflexivity.
Qed.
