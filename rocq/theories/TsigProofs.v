From Verif Require Import Base DnameModel DnameSpec DnameProofs DnameProofs2 WireModel WireProofs RrwireModel RrwireProofs RrwireProofs2 ComprModel ComprProofs ComprProofs2 PutModel PutProofs PktparseModel PktparseProofs AclModel TsigModel TsigSpec.

Lemma num_be : forall n v, num n v = be n v.
Proof. induction n; intros; cbn [num be]; [auto|]. rewrite IHn. reflexivity. Qed.
Lemma zlen_num : forall n v, zlen (num n v) = Z.of_nat n.
Proof. intros. rewrite num_be. apply be_length. Qed.
Lemma num_bytes : forall n v, bytes (num n v).
Proof. intros. rewrite num_be. apply be_bytes. Qed.
Lemma unbe_num : forall n v, 0 <= v < 256 ^ Z.of_nat n -> unbe (num n v) = v.
Proof. intros. rewrite num_be, unbe_be. apply Z.mod_small; auto. Qed.
Lemma be48_num : forall v, 0 <= v < 2 ^ 48 -> be48 v = num 6 v.
Proof.
  intros v H. unfold be48. rewrite Z.shiftl_mul_pow2 by lia. unfold u64. rewrite Z.mod_small by lia.
  cbn [be num]. unfold zskipn, zfirstn. change (Z.to_nat 1) with 1%nat. change (Z.to_nat 6) with 6%nat. cbn [skipn firstn].
  assert (D : forall m, 0 <= m -> v * 2 ^ 8 / 256 ^ (m + 1) = v / 256 ^ m).
  { intros m Hm. rewrite Z.pow_add_r, Z.pow_1_r, (Z.mul_comm (256 ^ m)) by lia. rewrite <- Z.div_div by lia. change (2 ^ 8) with 256. rewrite Z.div_mul by lia. reflexivity. }
  change (Z.of_nat 6) with (5 + 1). change (Z.of_nat 5) with (4 + 1) at 1. change (Z.of_nat 4) with (3 + 1) at 1. change (Z.of_nat 3) with (2 + 1) at 1. change (Z.of_nat 2) with (1 + 1) at 1. change (Z.of_nat 1) with (0 + 1) at 1.
  rewrite !D by lia. reflexivity.
Qed.
Ltac zl := repeat rewrite ?zlen_app, ?zlen_num, ?zlen_cons, ?zlen_nil, ?zlen_wire, ?zlen_zeros.

Lemma mem_read_mid : forall (A x B : list Z) p n, p = zlen A -> n = zlen x -> mem_read (A ++ x ++ B) p n = Ok x.
Proof.
  intros A x B p n -> ->. pose proof (zlen_nonneg A). pose proof (zlen_nonneg x). pose proof (zlen_nonneg B).
  rewrite mem_read_ok by (rewrite ?zlen_app; lia). rewrite zskipn_app_exact, zfirstn_app_exact. reflexivity.
Qed.
Lemma mem_write_mid : forall (A x y B : list Z) p, p = zlen A -> zlen x = zlen y -> mem_write (A ++ x ++ B) p y = Ok (A ++ y ++ B).
Proof.
  intros A x y B p -> E. pose proof (zlen_nonneg A). pose proof (zlen_nonneg x). pose proof (zlen_nonneg B).
  rewrite mem_write_ok by (rewrite ?zlen_app; lia). rewrite zfirstn_app_exact. do 3 f_equal. rewrite app_assoc. replace (zlen A + zlen y) with (zlen (A ++ x)) by (rewrite zlen_app; lia).
  apply zskipn_app_exact.
Qed.
Lemma zeros_split : forall a b, 0 <= a -> 0 <= b -> zeros (a + b) = zeros a ++ zeros b.
Proof. intros. unfold zeros. rewrite Z2Nat.inj_add by lia. apply repeat_app. Qed.
Lemma mem_write_front : forall (P y : list Z) n p, p = zlen P -> zlen y <= n -> mem_write (P ++ zeros n) p y = Ok ((P ++ y) ++ zeros (n - zlen y)).
Proof.
  intros P y n p -> H. pose proof (zlen_nonneg y). replace n with (zlen y + (n - zlen y)) at 1 by lia. rewrite zeros_split by lia.
  rewrite mem_write_mid with (y := y); [rewrite <- app_assoc; reflexivity|reflexivity|apply zlen_zeros; lia].
Qed.

(** Fields *)
Definition field (t : tsig) (id : tsig_off) : Z :=
  let a := name_size (t_alg t) in let m := zlen (t_mac t) in
  match id with
  | ALGNAME_O => 0 | TSIGNED_O => a | FUDGE_O => a + 6 | MACLEN_O => a + 8 | MAC_O => a + 10
  | ORIGID_O => a + 10 + m | ERROR_O => a + 12 + m | OLEN_O => a + 14 + m | OTHER_O => a + 16 + m
  end.
(** what is needed of the fields for the positions *)
Definition laid (t : tsig) (j : list Z) : Prop :=
  legal_name (t_alg t) /\ bytes (tsig_bytes t ++ j) /\ zlen (t_mac t) < 65536 /\ zlen (t_other t) < 65536 /\ zlen (tsig_bytes t ++ j) < 2 ^ 63.
Lemma tsig_len : forall t, zlen (tsig_bytes t) = name_size (t_alg t) + 16 + zlen (t_mac t) + zlen (t_other t).
Proof. intros. unfold tsig_bytes. zl. lia. Qed.
Lemma legal_laid : forall t, legal_tsig t -> laid t [].
Proof.
  intros t (H1 & H2 & H3 & H4 & H5 & H6 & H7 & H8). pose proof (tsig_len t) as E. pose proof (name_size_ge1 (t_alg t)).
  pose proof (zlen_nonneg (t_mac t)). pose proof (zlen_nonneg (t_other t)).
  unfold laid. rewrite app_nil_r. repeat split; try apply H1; try lia. unfold tsig_bytes.
  repeat (apply bytes_app; split); auto using num_bytes. apply bytes_wire. apply H1.
Qed.
Lemma u16_mid : forall (A B : list Z) v p, p = zlen A -> 0 <= v < 65536 -> mem_read (A ++ num 2 v ++ B) p 2 = Ok (num 2 v).
Proof. intros. apply mem_read_mid; auto. Qed.
Lemma read_u16_mid : forall (A B : list Z) v p, p = zlen A -> 0 <= v < 65536 -> zlen (A ++ num 2 v ++ B) < 2 ^ 63 ->
  wire_read_u16 (cw (A ++ num 2 v ++ B) p) = Ok (v, cw (A ++ num 2 v ++ B) (p + 2)).
Proof.
  intros A B v p -> Hv HZ. pose proof (zlen_nonneg A). pose proof (zlen_nonneg B). assert (HL : zlen (A ++ num 2 v ++ B) = zlen A + 2 + zlen B) by (zl; lia).
  unfold wire_read_u16. rewrite read_c by lia. replace (_ <? 2) with false by lia. cbn [rbind].
  rewrite zskipn_app_exact. replace (zfirstn 2 (num 2 v ++ B)) with (num 2 v) by (symmetry; apply (zfirstn_app_exact Z (num 2 v) B)). rewrite unbe_num by (cbn; lia). reflexivity.
Qed.

Lemma seek_spec : forall t j id nb, laid t j -> 0 <= nb -> id <> OTHER_O -> field t id + nb <= zlen (tsig_bytes t ++ j) ->
  rdata_seek (tsig_bytes t ++ j) id nb = Ok (Some (field t id)).
Proof.
  intros t j id nb (HL & HB & HM & HO & HZ) Hn Hid HF. pose proof (tsig_len t) as E. pose proof (name_size_ge1 (t_alg t)).
  pose proof (zlen_nonneg (t_mac t)). pose proof (zlen_nonneg (t_other t)). pose proof (zlen_nonneg j).
  set (rd := tsig_bytes t ++ j) in *. assert (LZ : zlen rd = zlen (tsig_bytes t) + zlen j) by (unfold rd; apply zlen_app).
  assert (SZ : dname_size rd = Ok (name_size (t_alg t))). { unfold rd, tsig_bytes. rewrite <- !app_assoc. apply dname_size_spec. apply HL. }
  assert (U : wire_read_u16 (cw rd (name_size (t_alg t) + 8)) = Ok (zlen (t_mac t), cw rd (name_size (t_alg t) + 8 + 2))).
  { assert (X : exists A B, rd = A ++ num 2 (zlen (t_mac t)) ++ B /\ zlen A = name_size (t_alg t) + 8).
    { exists (dwire (t_alg t) ++ num 6 (t_time t) ++ num 2 (t_fudge t)), (t_mac t ++ num 2 (t_id t) ++ num 2 (t_error t) ++ num 2 (zlen (t_other t)) ++ t_other t ++ j).
      split; [unfold rd, tsig_bytes; rewrite <- !app_assoc; reflexivity|zl; lia]. }
    destruct X as (A & B & X & XL). rewrite X in *. apply read_u16_mid; lia. }
  unfold rdata_seek. replace (zlen rd =? 0) with false by lia. rewrite SZ. cbn [rbind]. cbv zeta. unfold wire_init_const.
  destruct id; cbn [field] in *; try congruence.
  all: try (rewrite skip_c by lia; replace (_ >? _) with false by lia; cbn [rbind]; rewrite ?Z.sub_0_r, ?Z.add_0_l).
  all: try (rewrite U; cbn [rbind]; rewrite skip_c by lia; replace (_ >? _) with false by lia; cbn [rbind]).
  all: try (rewrite skip_c by lia; replace (_ >? _) with false by lia; cbn [rbind]).
  all: cbn [rbind w_err]; change (KNOT_EOK =? KNOT_EOK) with true; cbn [negb]; rewrite avail_c by lia; cbn [w_pos];
    match goal with |- context [?a <? ?b] => replace (a <? b) with false by lia end; do 2 f_equal; lia.
Qed.
Lemma seek_other : forall t, laid t [] -> rdata_seek (tsig_bytes t) OTHER_O 0 = Ok (Some (field t OTHER_O)).
Proof.
  intros t (HL & HB & HM & HO & HZ). rewrite app_nil_r in *. pose proof (tsig_len t) as E. pose proof (name_size_ge1 (t_alg t)).
  pose proof (zlen_nonneg (t_mac t)). pose proof (zlen_nonneg (t_other t)).
  set (rd := tsig_bytes t) in *.
  assert (SZ : dname_size rd = Ok (name_size (t_alg t))). { unfold rd, tsig_bytes. apply dname_size_spec. apply HL. }
  assert (U : wire_read_u16 (cw rd (name_size (t_alg t) + 8)) = Ok (zlen (t_mac t), cw rd (name_size (t_alg t) + 8 + 2))).
  { assert (X : exists A B, rd = A ++ num 2 (zlen (t_mac t)) ++ B /\ zlen A = name_size (t_alg t) + 8).
    { exists (dwire (t_alg t) ++ num 6 (t_time t) ++ num 2 (t_fudge t)), (t_mac t ++ num 2 (t_id t) ++ num 2 (t_error t) ++ num 2 (zlen (t_other t)) ++ t_other t).
      split; [unfold rd, tsig_bytes; rewrite <- !app_assoc; reflexivity|zl; lia]. }
    destruct X as (A & B & X & XL). rewrite X in *. apply read_u16_mid; lia. }
  assert (U2 : wire_read_u16 (cw rd (field t OLEN_O)) = Ok (zlen (t_other t), cw rd (field t OLEN_O + 2))).
  { assert (X : exists A B, rd = A ++ num 2 (zlen (t_other t)) ++ B /\ zlen A = field t OLEN_O).
    { exists (dwire (t_alg t) ++ num 6 (t_time t) ++ num 2 (t_fudge t) ++ num 2 (zlen (t_mac t)) ++ t_mac t ++ num 2 (t_id t) ++ num 2 (t_error t)), (t_other t).
      split; [unfold rd, tsig_bytes; rewrite <- !app_assoc; reflexivity|cbn [field]; zl; lia]. }
    destruct X as (A & B & X & XL). rewrite X in *. apply read_u16_mid; lia. }
  unfold rdata_seek. replace (zlen rd =? 0) with false by lia. rewrite SZ. cbn [rbind]. cbv zeta. unfold wire_init_const.
  rewrite skip_c by lia; replace (_ >? _) with false by lia; cbn [rbind]; rewrite ?Z.sub_0_r, ?Z.add_0_l.
  rewrite U; cbn [rbind]; rewrite skip_c by lia; replace (_ >? _) with false by lia; cbn [rbind].
  rewrite skip_c by lia; replace (_ >? _) with false by lia; cbn [rbind].
  change (negb (0 =? 0)) with false. cbn iota. replace (name_size (t_alg t) + 8 + 2 + zlen (t_mac t) + 4) with (field t OLEN_O) by (cbn [field]; lia).
  rewrite U2. cbn [rbind]. cbn [field] in *. rewrite avail_c by lia. replace (_ =? zlen (t_other t)) with true by lia. cbn [negb rbind w_err].
  change (KNOT_EOK =? KNOT_EOK) with true; cbn [negb]. rewrite avail_c by lia. cbn [w_pos]. replace (_ <? _) with false by lia. do 2 f_equal; lia.
Qed.

(** splitting the RDATA at a field *)
Ltac at_field A B := exists A, B; split; [unfold tsig_bytes; rewrite <- ?app_assoc; reflexivity|cbn [field]; zl; lia].
Lemma split_time : forall t j, exists A B, tsig_bytes t ++ j = A ++ num 6 (t_time t) ++ B /\ zlen A = field t TSIGNED_O.
Proof. intros. at_field (dwire (t_alg t)) (num 2 (t_fudge t) ++ num 2 (zlen (t_mac t)) ++ t_mac t ++ num 2 (t_id t) ++ num 2 (t_error t) ++ num 2 (zlen (t_other t)) ++ t_other t ++ j). Qed.
Lemma split_fudge : forall t j, exists A B, tsig_bytes t ++ j = A ++ num 2 (t_fudge t) ++ B /\ zlen A = field t FUDGE_O.
Proof. intros. at_field (dwire (t_alg t) ++ num 6 (t_time t)) (num 2 (zlen (t_mac t)) ++ t_mac t ++ num 2 (t_id t) ++ num 2 (t_error t) ++ num 2 (zlen (t_other t)) ++ t_other t ++ j). Qed.
Lemma split_maclen : forall t j, exists A B, tsig_bytes t ++ j = A ++ num 2 (zlen (t_mac t)) ++ B /\ zlen A = field t MACLEN_O.
Proof. intros. at_field (dwire (t_alg t) ++ num 6 (t_time t) ++ num 2 (t_fudge t)) (t_mac t ++ num 2 (t_id t) ++ num 2 (t_error t) ++ num 2 (zlen (t_other t)) ++ t_other t ++ j). Qed.
Lemma split_mac : forall t j, exists A B, tsig_bytes t ++ j = A ++ t_mac t ++ B /\ zlen A = field t MAC_O.
Proof. intros. at_field (dwire (t_alg t) ++ num 6 (t_time t) ++ num 2 (t_fudge t) ++ num 2 (zlen (t_mac t))) (num 2 (t_id t) ++ num 2 (t_error t) ++ num 2 (zlen (t_other t)) ++ t_other t ++ j). Qed.
Lemma split_id : forall t j, exists A B, tsig_bytes t ++ j = A ++ num 2 (t_id t) ++ B /\ zlen A = field t ORIGID_O.
Proof. intros. at_field (dwire (t_alg t) ++ num 6 (t_time t) ++ num 2 (t_fudge t) ++ num 2 (zlen (t_mac t)) ++ t_mac t) (num 2 (t_error t) ++ num 2 (zlen (t_other t)) ++ t_other t ++ j). Qed.
Lemma split_error : forall t j, exists A B, tsig_bytes t ++ j = A ++ num 2 (t_error t) ++ B /\ zlen A = field t ERROR_O.
Proof. intros. at_field (dwire (t_alg t) ++ num 6 (t_time t) ++ num 2 (t_fudge t) ++ num 2 (zlen (t_mac t)) ++ t_mac t ++ num 2 (t_id t)) (num 2 (zlen (t_other t)) ++ t_other t ++ j). Qed.
Lemma split_olen : forall t j, exists A B, tsig_bytes t ++ j = A ++ num 2 (zlen (t_other t)) ++ B /\ zlen A = field t OLEN_O.
Proof. intros. at_field (dwire (t_alg t) ++ num 6 (t_time t) ++ num 2 (t_fudge t) ++ num 2 (zlen (t_mac t)) ++ t_mac t ++ num 2 (t_id t) ++ num 2 (t_error t)) (t_other t ++ j). Qed.
Lemma split_other : forall t j, exists A B, tsig_bytes t ++ j = A ++ t_other t ++ B /\ zlen A = field t OTHER_O.
Proof. intros. at_field (dwire (t_alg t) ++ num 6 (t_time t) ++ num 2 (t_fudge t) ++ num 2 (zlen (t_mac t)) ++ t_mac t ++ num 2 (t_id t) ++ num 2 (t_error t) ++ num 2 (zlen (t_other t))) j. Qed.

Lemma field_bound : forall t j id, field t id + (match id with ALGNAME_O => 0 | TSIGNED_O => 6 | MAC_O => zlen (t_mac t) | OTHER_O => zlen (t_other t) | _ => 2 end) <= zlen (tsig_bytes t ++ j).
Proof.
  intros t j id. rewrite zlen_app, tsig_len. pose proof (name_size_ge1 (t_alg t)). pose proof (zlen_nonneg (t_mac t)). pose proof (zlen_nonneg (t_other t)). pose proof (zlen_nonneg j).
  destruct id; cbn [field]; lia.
Qed.
Ltac getter L := intros t (HL & HT & HF & HM & HI & HE & HO & HZ); pose proof (legal_laid t ltac:(unfold legal_tsig; auto 10)) as LD;
  pose proof LD as (_ & _ & X1 & X2 & _); pose proof (zlen_nonneg (t_mac t)); pose proof (zlen_nonneg (t_other t));
  unfold rd_num; rewrite <- (app_nil_r (tsig_bytes t)); rewrite seek_spec by (first [assumption|lia|discriminate|apply field_bound]); cbn [rbind];
  destruct (L t []) as (A & B & E & EL); rewrite E; rewrite mem_read_mid by (rewrite ?zlen_num; auto); cbn [rbind]; rewrite unbe_num by (cbn; lia); reflexivity.
Lemma get_time : forall t, legal_tsig t -> rd_time (tsig_bytes t) = Ok (t_time t).
Proof. unfold rd_time. getter split_time. Qed.
Lemma get_fudge : forall t, legal_tsig t -> rd_fudge (tsig_bytes t) = Ok (t_fudge t).
Proof. unfold rd_fudge. getter split_fudge. Qed.
Lemma get_id : forall t, legal_tsig t -> rd_orig_id (tsig_bytes t) = Ok (t_id t).
Proof. unfold rd_orig_id. getter split_id. Qed.
Lemma get_error : forall t, legal_tsig t -> rd_error (tsig_bytes t) = Ok (t_error t).
Proof. unfold rd_error. getter split_error. Qed.
Lemma get_maclen : forall t, legal_tsig t -> rd_mac_length (tsig_bytes t) = Ok (zlen (t_mac t)).
Proof. unfold rd_mac_length. getter split_maclen. Qed.
Lemma get_olen : forall t, legal_tsig t -> rd_other_length (tsig_bytes t) = Ok (zlen (t_other t)).
Proof. unfold rd_other_length. getter split_olen. Qed.
Lemma get_mac : forall t, legal_tsig t -> rd_mac (tsig_bytes t) = Ok (Some (field t MAC_O)) /\ mem_read (tsig_bytes t) (field t MAC_O) (zlen (t_mac t)) = Ok (t_mac t).
Proof.
  intros t HT. pose proof (legal_laid t HT) as LD. unfold rd_mac. pose proof (zlen_nonneg (t_mac t)). pose proof (field_bound t [] MAC_O) as FB. cbn iota in FB. split.
  - rewrite <- (app_nil_r (tsig_bytes t)). apply seek_spec; try assumption; try lia; discriminate.
  - destruct (split_mac t []) as (A & B & E & EL). rewrite app_nil_r in E. rewrite E. apply mem_read_mid; auto.
Qed.
Lemma get_other : forall t, legal_tsig t -> rd_other (tsig_bytes t) = Ok (Some (field t OTHER_O)) /\ mem_read (tsig_bytes t) (field t OTHER_O) (zlen (t_other t)) = Ok (t_other t).
Proof.
  intros t HT. pose proof (legal_laid t HT) as LD. unfold rd_other. split.
  - apply seek_other; auto.
  - destruct (split_other t []) as (A & B & E & EL). rewrite app_nil_r in E. rewrite E. apply mem_read_mid; auto.
Qed.

(** setters *)
Lemma set_field : forall t j id nb l A x B t' j', laid t j -> 0 <= nb -> id <> OTHER_O -> zlen l = nb -> zlen x = nb ->
  tsig_bytes t ++ j = A ++ x ++ B -> zlen A = field t id -> A ++ l ++ B = tsig_bytes t' ++ j' ->
  rd_set (tsig_bytes t ++ j) id nb l = Ok (tsig_bytes t' ++ j').
Proof.
  intros t j id nb l A x B t' j' LD Hn Hid Hl Hx E EL E'. unfold rd_set. pose proof (zlen_nonneg B). rewrite seek_spec; auto.
  - cbn [rbind]. rewrite E, <- E'. apply mem_write_mid; lia.
  - rewrite E, !zlen_app. lia.
Qed.
