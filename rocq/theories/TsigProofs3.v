From Verif Require Import Base DnameModel DnameSpec DnameProofs DnameProofs2 WireModel WireProofs RrwireModel RrwireProofs RrwireProofs2 ComprModel ComprProofs ComprProofs2 PutModel PutProofs PktparseModel PktparseProofs AclModel TsigModel TsigSpec TsigProofs TsigProofs2.

(** ** The record behind the message *)
Lemma overwrite_mid : forall (A x y B : list Z) p, p = zlen A -> zlen x = zlen y -> overwrite (A ++ x ++ B) p y = A ++ y ++ B.
Proof.
  intros A x y B p -> E. unfold overwrite. rewrite zfirstn_app_exact. do 2 f_equal. rewrite app_assoc. replace (zlen A + zlen y) with (zlen (A ++ x)) by (rewrite zlen_app; lia). apply zskipn_app_exact.
Qed.
Lemma overwrite_front : forall (P R l : list Z) p, p = zlen P -> zlen l <= zlen R -> overwrite (P ++ R) p l = (P ++ l) ++ zskipn (zlen l) R.
Proof.
  intros P R l p -> H. pose proof (zlen_nonneg l). rewrite <- (zfirstn_skipn _ R (zlen l)) at 1. rewrite overwrite_mid; [rewrite <- app_assoc; reflexivity|reflexivity|apply zlen_zfirstn; lia].
Qed.
Lemma put_front : forall (P R l : list Z) p d a c, p = zlen P -> zlen l <= zlen R ->
  put p l (mkst (P ++ R) d a c) = Done tt (mkst ((P ++ l) ++ zskipn (zlen l) R) d a c).
Proof.
  intros. pose proof (zlen_nonneg P). rewrite put_ok by (cbn [s_mem]; rewrite ?zlen_app; lia). unfold with_mem. cbn [s_mem s_dst s_avail s_compr]. rewrite overwrite_front by auto. reflexivity.
Qed.
Lemma write_be_front : forall (P R : list Z) n v d a c, d = zlen P -> a <= zlen R -> 0 <= n ->
  write_be n v (mkst (P ++ R) d a c) = if a <? n then Fail KNOT_ESPACE (mkst (P ++ R) d a c) else Done tt (mkst ((P ++ num (Z.to_nat n) v) ++ zskipn n R) (d + n) (a - n) c).
Proof.
  intros P R n v d a c Hd Ha Hn. unfold write_be, bind, get. cbn [s_avail s_dst]. destruct (a <? n) eqn:E; [reflexivity|].
  rewrite put_front by (rewrite ?be_length; lia). rewrite be_length, Z2Nat.id by lia. unfold move. cbn [s_mem s_dst s_avail s_compr]. reflexivity.
Qed.
Lemma put_dname_front : forall (P R : list Z) n j d a, legal_name n -> d = zlen P -> a <= zlen R ->
  forall use, compr_put_dname (dwire n ++ j) d (dname_max a) use (mkst (P ++ R) d a None) =
    if a <? name_size n then Fail KNOT_ESPACE (mkst (P ++ R) d a None) else Done (name_size n) (mkst ((P ++ dwire n) ++ zskipn (name_size n) R) d a None).
Proof.
  intros P R n j d a Hn Hd Ha use. pose proof (name_size_ge1 n) as G. unfold compr_put_dname. unfold bind at 1. unfold get at 1. unfold bind at 1.
  assert (R0 : exists c, rd0 (dwire n ++ j) = Ok c) by (destruct n; eexists; reflexivity). destruct R0 as [c R0]. rewrite R0. cbn [lift s_compr].
  replace (if use then None else None) with (@None compr) by (destruct use; auto).
  unfold dname_to_wire, bind. rewrite dname_size_spec by apply Hn. cbn [lift]. destruct Hn as [Hn1 Hn2]. unfold dname_max, KNOT_DNAME_MAXLEN.
  destruct (a <? name_size n) eqn:E.
  - replace (_ >? _) with true by lia. reflexivity.
  - replace (_ >? _) with false by lia. replace (take (dwire n ++ j) (name_size n)) with (Ok (dwire n)) by (rewrite <- zlen_wire; symmetry; apply take_app). cbn [lift].
    rewrite put_front by (rewrite ?zlen_wire; lia). rewrite zlen_wire. reflexivity.
Qed.
Lemma write_fixed_front : forall (P R src : list Z) d a, d = zlen P -> a <= zlen R ->
  write_fixed src (zlen src) (mkst (P ++ R) d a None) = if a <? zlen src then Fail KNOT_ESPACE (mkst (P ++ R) d a None)
    else Done [] (mkst ((P ++ src) ++ zskipn (zlen src) R) (d + zlen src) (a - zlen src) None).
Proof.
  intros P R src d a Hd Ha. unfold write_fixed, bind, get. cbn [s_avail s_dst]. replace (zlen src >? zlen src) with false by lia. rewrite Z.gtb_ltb. destruct (a <? zlen src) eqn:E; [reflexivity|].
  unfold take, advance. replace (zlen src >? zlen src) with false by lia. cbn [lift]. rewrite zfirstn_all by lia.
  rewrite put_front by lia. unfold move, ret. cbn [s_mem s_dst s_avail s_compr]. replace (zskipn (zlen src) src) with (@nil Z); [reflexivity|]. rewrite <- (app_nil_r src) at 2. symmetry. apply zskipn_app_exact.
Qed.
Definition bytes_of (owner : list label) (ty cl ttl : Z) (rd : list Z) : list Z :=
  dwire owner ++ num 2 ty ++ num 2 cl ++ num 4 ttl ++ num 2 (zlen rd) ++ rd.
Ltac fronts := cbn [s_mem s_dst s_avail s_compr lift].
Lemma write_rr_front : forall (P R : list Z) owner alg j cl ttl d a, legal_name owner -> legal_name alg -> d = zlen P -> a <= zlen R -> zlen (dwire alg ++ j) <= 65535 ->
  let rd := dwire alg ++ j in
  exists s, write_rr (dwire owner) 250 cl ttl 0 rd false false (mkst (P ++ R) d a None) =
    if a <? zlen (bytes_of owner 250 cl ttl rd) then Fail KNOT_ESPACE s else
    Done tt (mkst ((P ++ bytes_of owner 250 cl ttl rd) ++ zskipn (zlen (bytes_of owner 250 cl ttl rd)) R) (d + zlen (bytes_of owner 250 cl ttl rd)) (a - zlen (bytes_of owner 250 cl ttl rd)) None).
Proof.
  intros P R owner alg j cl ttl d a HO HA Hd Ha HR rd. pose proof (name_size_ge1 owner) as G1. pose proof (name_size_ge1 alg) as G2. pose proof (zlen_nonneg j) as G3.
  assert (LB : zlen (bytes_of owner 250 cl ttl rd) = name_size owner + 10 + name_size alg + zlen j) by (unfold bytes_of, rd; zl; lia).
  assert (LR : zlen rd = name_size alg + zlen j) by (unfold rd; zl; lia).
  rewrite LB. unfold write_rr. unfold bind at 1. 
  assert (WO : write_owner (dwire owner) (mkst (P ++ R) d a None) = if a <? name_size owner then Fail KNOT_ESPACE (mkst (P ++ R) d a None)
     else Done tt (mkst ((P ++ dwire owner) ++ zskipn (name_size owner) R) (d + name_size owner) (a - name_size owner) None)).
  { unfold write_owner. unfold bind at 1. assert (R0 : exists c, rd0 (dwire owner) = Ok c) by (destruct owner; eexists; reflexivity). destruct R0 as [c R0]. rewrite R0. fronts.
    assert (Q : (if negb (c =? 0) then compr_get_ptr 0 else ret 0) (mkst (P ++ R) d a None) = Done 0 (mkst (P ++ R) d a None)) by (destruct (negb (c =? 0)); reflexivity).
    unfold bind at 1. rewrite Q. unfold bind at 1, get at 1. change (0 >? 0) with false. cbn iota. unfold bind at 1. fronts. unfold ret at 1. unfold bind at 1. unfold ret at 1. unfold bind at 1. fronts.
    rewrite <- (app_nil_r (dwire owner)) at 1. rewrite put_dname_front by auto. destruct (a <? name_size owner); [reflexivity|]. unfold bind, compr_set_ptr, get, ret, move. unfold bind. fronts. reflexivity. }
  rewrite WO. destruct (a <? name_size owner) eqn:E0.
  { replace (a <? _) with true by lia. eexists; reflexivity. }
  assert (LR1 : a - name_size owner <= zlen (zskipn (name_size owner) R)) by (rewrite zlen_zskipn by lia; lia).
  set (R1 := zskipn (name_size owner) R) in *. set (P1 := P ++ dwire owner). assert (LP1 : d + name_size owner = zlen P1) by (unfold P1; zl; lia).
  unfold bind at 1. unfold write_fixed_header. unfold bind at 1. cbn [andb]. unfold ret at 1. unfold bind at 1. rewrite write_be_front by lia.
  destruct (a - name_size owner <? 2) eqn:E1. { replace (a <? _) with true by lia. eexists; reflexivity. }
  unfold bind at 1. rewrite write_be_front; [|rewrite zlen_app, zlen_num; lia|rewrite zlen_zskipn by lia; lia|lia].
  destruct (a - name_size owner - 2 <? 2) eqn:E2. { replace (a <? _) with true by lia. eexists; reflexivity. }
  rewrite write_be_front; [|rewrite !zlen_app, !zlen_num; lia|rewrite !zlen_zskipn by (rewrite ?zlen_zskipn by lia; lia); lia|lia].
  destruct (a - name_size owner - 2 - 2 <? 4) eqn:E3. { replace (a <? _) with true by lia. eexists; reflexivity. }
  change (Z.to_nat 2) with 2%nat. change (Z.to_nat 4) with 4%nat. rewrite !zskipn_zskipn by lia. change (2 + (2 + 4)) with 8. set (P2 := ((P1 ++ num 2 250) ++ num 2 cl) ++ num 4 ttl).
  set (d2 := d + name_size owner + 2 + 2 + 4). set (a2 := a - name_size owner - 2 - 2 - 4). assert (LP2 : d2 = zlen P2) by (unfold P2, d2; zl; lia).
  assert (LR2 : zlen (zskipn 8 R1) = zlen R1 - 8) by (apply zlen_zskipn; lia). set (R2 := zskipn 8 R1) in *.
  unfold write_rdata. unfold bind at 1, get at 1. fronts. destruct (2 >? a2) eqn:E4. { replace (a <? _) with true by lia. eexists; reflexivity. }
  unfold bind at 1, move at 1. fronts. replace (zlen rd >? 0) with true by lia. change (snd (get_desc 250)) with [BName; BRem]. cbn [traverse_write].
  set (h := zfirstn 2 R2). assert (Lh : zlen h = 2) by (apply zlen_zfirstn; lia). assert (SP : P2 ++ R2 = (P2 ++ h) ++ zskipn 2 R2) by (unfold h; rewrite <- app_assoc, zfirstn_skipn; reflexivity). rewrite SP.
  assert (LR3 : zlen (zskipn 2 R2) = zlen R2 - 2) by (apply zlen_zskipn; lia). set (R3 := zskipn 2 R2) in *. set (P3 := P2 ++ h). assert (LP3 : d2 + 2 = zlen P3) by (unfold P3; rewrite zlen_app; lia).
  assert (CD : compress_rdata_dname rd false 1 (mkst (P3 ++ R3) (d2 + 2) (a2 - 2) None) = if a2 - 2 <? name_size alg then Fail KNOT_ESPACE (mkst (P3 ++ R3) (d2 + 2) (a2 - 2) None)
    else Done j (mkst ((P3 ++ dwire alg) ++ zskipn (name_size alg) R3) (d2 + 2 + name_size alg) (a2 - 2 - name_size alg) None)).
  { unfold compress_rdata_dname, rd. unfold bind at 1. rewrite dname_size_spec by apply HA. fronts. unfold bind at 1, get at 1. unfold bind at 1. fronts. rewrite put_dname_front by (auto; lia).
    destruct (a2 - 2 <? name_size alg); [reflexivity|]. unfold bind at 1, compr_get_ptr, bind at 1, get at 1. fronts. unfold ret at 1. change (0 =? 0) with true. cbn iota. unfold bind at 1, compr_set_ptr, bind at 1, get at 1. fronts. unfold ret at 1. unfold bind, move. fronts.
    replace (advance (dwire alg ++ j) (name_size alg)) with (Ok j) by (rewrite <- zlen_wire; symmetry; apply advance_app). reflexivity. }
  assert (TW : (do* src := (do* src := compress_rdata_dname rd false (1 + 0) in do* src0 := write_fixed src (zlen src) in ret src0) in
      if zlen src >? 0 then fail KNOT_EMALF else do* s := get in put d2 (be 2 (u16 (s_dst s - (d2 + 2))))) (mkst (P3 ++ R3) (d2 + 2) (a2 - 2) None) =
    if a2 - 2 <? name_size alg then Fail KNOT_ESPACE (mkst (P3 ++ R3) (d2 + 2) (a2 - 2) None) else
    if a2 - 2 - name_size alg <? zlen j then Fail KNOT_ESPACE (mkst ((P3 ++ dwire alg) ++ zskipn (name_size alg) R3) (d2 + 2 + name_size alg) (a2 - 2 - name_size alg) None)
    else Done tt (mkst ((P ++ bytes_of owner 250 cl ttl rd) ++ zskipn (zlen (bytes_of owner 250 cl ttl rd)) R) (d + zlen (bytes_of owner 250 cl ttl rd)) (a - zlen (bytes_of owner 250 cl ttl rd)) None)).
  { unfold bind at 1. change (1 + 0) with 1. unfold bind at 1. rewrite CD. destruct (a2 - 2 <? name_size alg) eqn:E5; [reflexivity|]. unfold bind at 1. rewrite write_fixed_front; [|rewrite zlen_app, zlen_wire; lia|rewrite zlen_zskipn by lia; lia].
    destruct (a2 - 2 - name_size alg <? zlen j) eqn:E6; [reflexivity|]. unfold ret at 1. change (zlen (@nil Z) >? 0) with false. cbn iota. unfold bind, get. fronts.
    pose proof (zlen_nonneg P) as GP; rewrite put_ok by (fronts; rewrite ?zlen_app; rewrite ?zlen_app, ?be_length; pose proof (zlen_nonneg (zskipn (zlen j) (zskipn (name_size alg) R3))); pose proof (zlen_nonneg P2); rewrite ?zlen_wire; lia).
    unfold with_mem. fronts. f_equal. f_equal; [|rewrite LB; unfold d2; lia|rewrite LB; unfold a2; lia].
    replace (u16 _) with (zlen rd) by (unfold u16; rewrite Z.mod_small by (fold rd in HR; lia); lia). unfold P3. rewrite <- !app_assoc. rewrite overwrite_mid by (rewrite ?be_length; lia).
    rewrite LB. unfold R3, R2, R1. rewrite !zskipn_zskipn by lia. unfold bytes_of, P2, P1, rd. rewrite <- !app_assoc. idtac. do 8 f_equal. cbn [app].
    f_equal. lia. }
  unfold ret in TW. rewrite LB in TW.
  destruct (a2 - 2 <? name_size alg) eqn:E8; [|destruct (a2 - 2 - name_size alg <? zlen j) eqn:E9].
  - eexists. etransitivity; [exact TW|]. replace (a <? _) with true by (unfold a2 in *; lia). reflexivity.
  - eexists. etransitivity; [exact TW|]. replace (a <? _) with true by (unfold a2 in *; lia). reflexivity.
  - exists (mkst [] 0 0 None). etransitivity; [exact TW|]. replace (a <? _) with false by (unfold a2 in *; lia). reflexivity.
Qed.

(** a record is appended *)
Lemma header_split : forall P : list Z, 12 <= zlen P -> exists h a b T, P = h ++ [a; b] ++ T /\ zlen h = 10 /\ firstn 10 P = h /\ skipn 12 P = T /\ octet P 10 = a /\ octet P 11 = b.
Proof.
  intros P H. do 12 (destruct P as [|? P]; [cbv in H; congruence|]). unfold octet. exists [z; z0; z1; z2; z3; z4; z5; z6; z7; z8], z9, z10, P. repeat split.
Qed.
Lemma id_split : forall P : list Z, 2 <= zlen P -> exists a b T, P = [a; b] ++ T /\ octet P 0 = a /\ octet P 1 = b.
Proof. intros P H. do 2 (destruct P as [|? P]; [cbv in H; congruence|]). unfold octet. exists z, z0, P. repeat split. Qed.
Lemma get_msg_id : forall P R, 2 <= zlen P -> bytes P -> get16 (P ++ R) 0 = Ok (message_id P) /\ 0 <= message_id P < 2 ^ 16.
Proof.
  intros P R H HB. destruct (id_split P H) as (a & b & T & -> & E1 & E2). unfold message_id. rewrite E1, E2. apply bytes_app in HB as [HB _]. apply bytes_cons in HB as [Ha HB]. apply bytes_cons in HB as [Hb _]. unfold byte in *.
  split; [|lia]. unfold get16. pose proof (zlen_nonneg (T ++ R)). rewrite rdn_ok; [|lia|lia|rewrite <- app_assoc, zlen_app; cbn [zlen length]; unfold zlen in *; cbn [length]; lia].
  cbn [rbind]. change (zskipn 0 (([a; b] ++ T) ++ R)) with (([a; b] ++ T) ++ R). change (zfirstn 2 (([a; b] ++ T) ++ R)) with [a; b]. f_equal.
Qed.
Lemma with_id_same : forall P x, 2 <= zlen P -> bytes P -> with_id (with_id P x) (message_id P) = P.
Proof.
  intros P x H HB. destruct (id_split P H) as (a & b & T & -> & E1 & E2). unfold message_id. rewrite E1, E2. apply bytes_app in HB as [HB _]. apply bytes_cons in HB as [Ha HB]. apply bytes_cons in HB as [Hb _]. unfold byte in *.
  unfold with_id. cbn [num app skipn]. change (Z.of_nat 1) with 1. change (Z.of_nat 0) with 0. rewrite Z.pow_1_r, Z.pow_0_r, Z.div_1_r. rewrite Z.div_add_l by lia. rewrite (Z.div_small b) by lia. rewrite Z.add_0_r, (Z.mod_small a) by lia.
  rewrite Z.add_comm, Z.mod_add by lia. rewrite Z.mod_small by lia. reflexivity.
Qed.
Lemma append_spec : forall (msg R : list Z) owner alg j max, legal_name owner -> legal_name alg -> bytes msg -> 12 <= zlen msg -> max <= zlen (msg ++ R) ->
  zlen (dwire alg ++ j) <= 65535 ->
  let rd := dwire alg ++ j in let rec := bytes_of owner 250 255 0 rd in
  append (msg ++ R) (zlen msg) max (mkrr (dwire owner) 250 255 0 rd) =
    if zlen msg + zlen rec <=? max then Ok (with_record msg rec ++ zskipn (zlen rec) R, zlen msg + zlen rec) else Err KNOT_ESPACE.
Proof.
  intros msg R owner alg j max HO HA HB HM Hmax HR rd rec. pose proof (name_size_ge1 alg) as G2. pose proof (zlen_nonneg j) as G3. assert (LR : zlen rd = name_size alg + zlen j) by (unfold rd; zl; lia).
  unfold append. cbn [rr_owner rr_type rr_class rr_ttl rr_rdata]. replace (zlen rd =? 0) with false by lia. unfold to_wire_extra. cbn [rs_rdata]. change (zlen [rd]) with 1. change (1 =? 0) with false. cbn iota zeta.
  change (negb (0 =? 0)) with false. cbn iota. change (0 >? 1) with false. cbn iota. unfold bind at 1, get at 1. cbn [length write_loop rs_rdata rs_owner rs_type rs_class rs_ttl]. change (zlen [rd]) with 1. cbn iota zeta. change (0 <? 1) with true. cbn iota. change (negb (0 =? 0)) with false. cbn iota.
  unfold bind at 1. unfold bind at 1. change (rdata_at [rd] 0) with (Ok rd). cbn [lift]. unfold bind at 1.
  rewrite zlen_app in Hmax. destruct (write_rr_front msg R owner alg j 255 0 (zlen msg) (max - zlen msg) HO HA eq_refl ltac:(lia) HR) as [s W]. fold rd in W. fold rec in W. rewrite W. clear W.
  destruct (zlen msg + zlen rec <=? max) eqn:E.
  - replace (max - zlen msg <? zlen rec) with false by lia. unfold ret, bind, get. cbn [s_mem s_dst].
    destruct (header_split msg HM) as (h & x & y & T & EQ & Lh & E1 & E2 & E3 & E4). unfold with_record. rewrite E1, E2, E3, E4. rewrite EQ in HB |- *.
    apply bytes_app in HB as [_ HB]. apply bytes_app in HB as [HB _]. apply bytes_cons in HB as [Hx HB]. apply bytes_cons in HB as [Hy _]. unfold byte in *.
    pose proof (zlen_nonneg (T ++ rec ++ zskipn (zlen rec) R)) as GG.
    assert (SP : ((h ++ [x; y] ++ T) ++ rec) ++ zskipn (zlen rec) R = h ++ [x; y] ++ (T ++ rec ++ zskipn (zlen rec) R)) by (rewrite <- !app_assoc; reflexivity). rewrite SP.
    assert (LZ : 10 + 2 <= zlen (h ++ [x; y] ++ T ++ rec ++ zskipn (zlen rec) R)) by (rewrite zlen_app, (zlen_app [x; y]); change (zlen [x; y]) with 2; lia).
    unfold get16, set16. rewrite rdn_ok by lia. cbn [rbind]. replace (zskipn 10 (h ++ [x; y] ++ T ++ rec ++ zskipn (zlen rec) R)) with ([x; y] ++ T ++ rec ++ zskipn (zlen rec) R) by (rewrite <- Lh; symmetry; apply zskipn_app_exact). change (zfirstn 2 ([x; y] ++ T ++ rec ++ zskipn (zlen rec) R)) with [x; y].
    replace (10 + 2 >? _) with false by lia. cbn [rbind]. replace (unbe [x; y]) with (x * 256 + y) by reflexivity.
    rewrite overwrite_mid; [|lia|rewrite be_length; reflexivity]. rewrite <- !app_assoc. f_equal. f_equal; [|lia]. do 2 f_equal.
    { unfold num. change (256 ^ Z.of_nat 1) with 256. change (256 ^ Z.of_nat 0) with 1. unfold be. change (256 ^ Z.of_nat 1) with 256. change (256 ^ Z.of_nat 0) with 1. unfold u16. rewrite !Z.div_1_r. f_equal; [|f_equal].
      - change (2 ^ 16) with (256 * 256). rewrite Z.rem_mul_r by lia. rewrite (Z.mul_comm 256 (_ mod _)), Z.div_add by lia. rewrite (Z.div_small (_ mod _)) by (apply Z.mod_pos_bound; lia). rewrite Z.add_0_l. rewrite Z.mod_mod by lia. reflexivity.
      - change (2 ^ 16) with (256 * 256). rewrite Z.rem_mul_r by lia. rewrite (Z.mul_comm 256 (_ mod _)), Z.mod_add by lia. apply Z.mod_mod. lia. }
  - replace (max - zlen msg <? zlen rec) with true by lia. reflexivity.
Qed.
