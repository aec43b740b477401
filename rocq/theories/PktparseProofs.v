(** Parsing of messages. *)
From Verif Require Import Base DnameModel DnameSpec DnameProofs DnameProofs2 DnameProps WireModel WireProofs EdnsModel EdnsProps RrwireModel RrwireSpec RrwireProofs RrwireProofs2 RrwireProofs3 ComprModel ComprProofs ComprProofs2 ComprProofs3 ComprProofs4 PutModel PutProofs PktparseModel PktparseSpec.

(** ** TSIG *)
Ltac wsimp := unfold wire_available, wire_offset, w_size; cbn [w_err w_buf w_pos w_ro].
Lemma avail_c : forall d p e b, 0 <= p <= zlen d -> zlen d < 2 ^ 63 -> wire_available (mkwire d p e b) = zlen d - p.
Proof. intros d p e b Hp Hd. wsimp. assert (Ho : u64 p = p) by (unfold u64; apply Z.mod_small; lia). rewrite Ho. unfold u64; apply Z.mod_small; lia. Qed.
Lemma read_u16_any : forall d p, bytes d -> zlen d < 2 ^ 63 -> 0 <= p <= zlen d ->
  (exists v, u16_at d p v /\ 0 <= v < 65536 /\ p + 2 <= zlen d /\ wire_read_u16 (cw d p) = Ok (v, cw d (p + 2))) \/
  (zlen d < p + 2 /\ wire_read_u16 (cw d p) = Ok (0, mkwire d p KNOT_EFEWDATA true)).
Proof.
  intros d p HB HD Hp. destruct (Z_le_dec (p + 2) (zlen d)) as [H|H].
  - left. destruct (read_u16_c d p HB HD ltac:(lia) H) as (v & E & U & R). exists v. auto.
  - right. split; [lia|]. unfold wire_read_u16. rewrite read_c by lia. replace (zlen d - p <? 2) with true by lia. reflexivity.
Qed.
Lemma read_u16_e : forall w, w_err w <> KNOT_EOK -> wire_read_u16 w = Ok (0, w).
Proof. intros w H. unfold wire_read_u16. rewrite read_e by auto. reflexivity. Qed.

Lemma tsig_ok_spec : forall alg j, legal_name alg -> bytes j -> zlen (dwire alg ++ j) < 2 ^ 63 ->
  exists b, tsig_rdata_is_ok (dwire alg ++ j) = Ok b /\ (b = true <-> tsig_rdata (dwire alg ++ j)).
Proof.
  intros alg j HL HB HD. set (rd := dwire alg ++ j) in *. assert (SZ : dname_size rd = Ok (name_size alg)) by (apply dname_size_spec; apply HL). pose proof (name_size_ge1 alg).
  assert (LZ : zlen rd = name_size alg + zlen j) by (unfold rd; rewrite zlen_app, zlen_wire; lia). pose proof (zlen_nonneg j). assert (HBr : bytes rd) by (apply bytes_app; split; [apply bytes_wire; apply HL|auto]).
  assert (ALG : rdata_seek rd ALGNAME_O 0 = Ok (Some 0)). { unfold rdata_seek. replace (zlen rd =? 0) with false by lia. rewrite SZ. cbn [rbind]. unfold wire_init_const. cbn [w_err w_pos]. change (KNOT_EOK =? KNOT_EOK) with true. cbn [negb]. rewrite avail_c by lia. replace (zlen rd - 0 <? 0) with false by lia. reflexivity. }
  assert (KEY : (exists p, rdata_seek rd OTHER_O 0 = Ok (Some p) /\ tsig_rdata rd) \/ (rdata_seek rd OTHER_O 0 = Ok None /\ ~ tsig_rdata rd)).
  { assert (UNI : tsig_rdata rd -> exists ml ol, u16_at rd (name_size alg + 8) ml /\ u16_at rd (name_size alg + 10 + ml + 4) ol /\ zlen rd = name_size alg + 10 + ml + 6 + ol).
    { intros (alg' & j' & ml & ol & HL' & E & U1 & U2 & HZ). assert (NS : name_size alg' = name_size alg) by (pose proof (dname_size_spec alg' j' (proj1 HL')) as S2; unfold rd in E; rewrite <- E in S2; unfold rd in SZ; congruence). rewrite NS in *. exists ml, ol. auto. }
    assert (BAD : forall p e k, e <> KNOT_EOK ->
      (let* r := (let* w := (let* w := Ok (mkwire rd p e true) in wire_skip w k) in if negb (0 =? 0) then UB else let* (nb, w) := wire_read_u16 w in if negb (wire_available w =? nb) then Ok None else Ok (Some (w, nb))) in
       match r with None => Ok None | Some (w, nb) => if negb (w_err w =? KNOT_EOK) then Ok None else if wire_available w <? nb then Ok None else Ok (Some (w_pos w)) end) = Ok None).
    { intros p e k He. cbn [rbind]. rewrite skip_e by auto. cbn [rbind]. change (negb (0 =? 0)) with false. cbn iota. rewrite read_u16_e by auto. cbn [rbind]. destruct (negb _); [reflexivity|]. cbn [rbind w_err]. replace (e =? KNOT_EOK) with false by lia. reflexivity. }
    unfold rdata_seek. replace (zlen rd =? 0) with false by lia. rewrite SZ. cbn [rbind]. cbv zeta. unfold wire_init_const. rewrite skip_c by lia. rewrite Z.sub_0_r, Z.add_0_l.
    destruct (name_size alg + 8 >? zlen rd) eqn:E1.
    { right. split; [|intros T; destruct (UNI T) as (ml & ol & U1 & _); apply u16_range in U1; auto; lia]. cbn [rbind]. rewrite read_u16_e by (cbn; discriminate). cbn [rbind]. rewrite skip_e by (cbn; discriminate). apply (BAD 0 KNOT_ERANGE 4). discriminate. }
    cbn [rbind]. destruct (read_u16_any rd (name_size alg + 8) HBr HD ltac:(lia)) as [(ml & U1 & R1 & B1 & ->)|[B1 ->]]; cbn [rbind].
    2: { right. split; [|intros T; destruct (UNI T) as (ml & ol & U1 & _); apply u16_range in U1; auto; lia]. rewrite skip_e by (cbn; discriminate). apply (BAD _ KNOT_EFEWDATA 4). discriminate. }
    rewrite skip_c by lia. destruct (ml >? zlen rd - (name_size alg + 8 + 2)) eqn:E2.
    { right. split; [apply (BAD _ KNOT_ERANGE 4); discriminate|]. intros T. destruct (UNI T) as (ml' & ol & U1' & U2 & HZ). rewrite (u16_det _ _ _ _ U1' U1) in *. apply u16_range in U2; auto. lia. }
    cbn [rbind]. rewrite skip_c by lia. destruct (4 >? zlen rd - (name_size alg + 8 + 2 + ml)) eqn:E3.
    { right. split; [|intros T; destruct (UNI T) as (ml' & ol & U1' & U2 & HZ); rewrite (u16_det _ _ _ _ U1' U1) in *; apply u16_range in U2; auto; lia].
      cbn [rbind]. change (negb (0 =? 0)) with false. cbn iota. rewrite read_u16_e by (cbn; discriminate). cbn [rbind]. match goal with |- context [wire_available ?w =? ?n] => destruct (wire_available w =? n) end; reflexivity. }
    cbn [rbind]. change (negb (0 =? 0)) with false. cbn iota.
    destruct (read_u16_any rd (name_size alg + 8 + 2 + ml + 4) HBr HD ltac:(lia)) as [(ol & U2 & R2 & B2 & ->)|[B2 ->]]; cbn [rbind].
    2: { right. split; [|intros T; destruct (UNI T) as (ml' & ol & U1' & U2 & HZ); rewrite (u16_det _ _ _ _ U1' U1) in *; apply u16_range in U2; auto; lia]. match goal with |- context [wire_available ?w =? ?n] => destruct (wire_available w =? n) end; reflexivity. }
    rewrite avail_c by lia. destruct (zlen rd - (name_size alg + 8 + 2 + ml + 4 + 2) =? ol) eqn:E4; cbn [negb rbind].
    - left. cbn [w_err w_pos]. change (KNOT_EOK =? KNOT_EOK) with true. cbn [negb]. rewrite avail_c by lia. replace (_ <? ol) with false by lia. eexists. split; [reflexivity|]. exists alg, j, ml, ol. split; [auto|]. split; [auto|]. split; [auto|]. split; [|lia]. replace (name_size alg + 10 + ml + 4) with (name_size alg + 8 + 2 + ml + 4) by lia. exact U2.
    - right. split; [reflexivity|]. intros T. destruct (UNI T) as (ml' & ol' & U1' & U2' & HZ). rewrite (u16_det _ _ _ _ U1' U1) in *. replace (name_size alg + 8 + 2 + ml + 4) with (name_size alg + 10 + ml + 4) in U2 by lia. rewrite (u16_det _ _ _ _ U2' U2) in *. lia. }
  unfold tsig_rdata_is_ok. destruct KEY as [(p & -> & HT)|[-> HT]]; cbn [rbind]; [rewrite ALG; cbn [rbind]; exists true|exists false]; (split; [reflexivity|]); split; auto; try discriminate.
Qed.

Lemma opt_ok_spec : forall cl ttl rd, bytes rd -> zlen rd < 65536 ->
  exists ret t, edns_get_options (mkopt cl ttl (Some rd)) = Ok (ret, t) /\ (ret = KNOT_EOK <-> opt_rdata rd).
Proof.
  intros cl ttl rd HB HZ. destruct (c49_unique rd HB) as (os & tail & HS & HU). destruct rd as [|b rd'] eqn:ER.
  - exists KNOT_EOK, None. split; [reflexivity|]. split; auto. intros _. exists []. split; [reflexivity|]. split; [constructor|auto].
  - rewrite <- ER in *. destruct (c49_options cl ttl rd os tail HB ltac:(subst; discriminate) HZ HS) as [H1 H2]. destruct tail as [|x tail].
    + destruct (H1 eq_refl) as (t & E & _). exists KNOT_EOK, (Some t). split; [auto|]. split; auto. intros _. exists os. exact HS.
    + destruct (H2 ltac:(discriminate)) as (e & E & He). exists e, None. split; [auto|]. split; [congruence|]. intros (os' & HS'). destruct (HU _ _ HS') as [_ HT]. discriminate.
Qed.

(** ** Reading of one record *)
Definition reads1 (m : list Z) (can : bool) (pos : Z) (x : rr) (e : Z) : Prop := rr_from_wire m pos can true true = Ok (KNOT_EOK, e, SFilled x).
Inductive chain (m : list Z) (can : bool) : Z -> list (rr * Z) -> Z -> Prop :=
| ch_nil : forall pos, chain m can pos [] pos
| ch_cons : forall pos x mid l e, reads1 m can pos x mid -> chain m can mid l e -> chain m can pos ((x, pos) :: l) e.
Lemma chain_app : forall m can a b pos e, chain m can pos (a ++ b) e <-> exists mid, chain m can pos a mid /\ chain m can mid b e.
Proof.
  intros m can a. induction a as [|[x p] a IH]; intros b pos e; cbn [app].
  - split; [intros H; exists pos; split; [constructor|auto]|intros (mid & H1 & H2); inversion H1; subst; auto].
  - split.
    + intros H. inversion H as [|? ? mid ? ? H1 H2]; subst. apply IH in H2. destruct H2 as (mid' & H3 & H4). exists mid'. split; [econstructor; eauto|auto].
    + intros (mid & H1 & H2). inversion H1 as [|? ? mid' ? ? H3 H4]; subst. econstructor; [eauto|]. apply IH. eauto.
Qed.

Lemma read_result : forall m pos can al1 al2, bytes m -> zlen m < 2 ^ 63 -> 0 <= pos ->
  exists ret e st, rr_from_wire m pos can al1 al2 = Ok (ret, e, st) /\
    (ret = KNOT_EOK -> exists x, st = SFilled x /\ reads1 m can pos x e).
Proof.
  intros m pos can al1 al2 HB HM Hp. destruct (rr_from_wire_sound m pos can al1 al2 HB HM Hp) as (ret & e & st & E & H). exists ret, e, st. split; [auto|]. intros ->.
  destruct H as [[H _]|(_ & r & _ & _ & _ & _ & _ & _ & _ & _ & ->)]; [congruence|]. eexists. split; [reflexivity|]. unfold reads1. rewrite <- E. unfold rr_from_wire in *. destruct (pos >? zlen m); [reflexivity|].
  assert (HH : parse_header m pos al1 = parse_header m pos true \/ parse_header m pos al1 = Err KNOT_ENOMEM \/ exists x, parse_header m pos al1 = Err x).
  { destruct al1; [auto|]. unfold parse_header. destruct (catch _ _); cbn [rbind]; auto. destruct (_ <=? 0); auto. destruct (catch _ _); cbn [rbind]; auto. }
  destruct HH as [<-|[HH|(x & HH)]]; [|rewrite HH in E; discriminate|].
  2: { rewrite HH in E |- *. inversion E. }
  destruct (parse_header m pos al1) as [[[h rdlen] p]| | |]; try discriminate.
  destruct al2; [reflexivity|]. unfold parse_rdata in *. destruct (parse_desc (rr_type h)) as [named bl]. destruct (rdlen =? 0); [destruct (allow_zero_rdata _ _ _); discriminate|]. destruct (_ <? rdlen); [discriminate|]. destruct (catch _ _) as [[? out]| | |]; cbn [rbind] in *; try discriminate. destruct (_ <? rdlen); discriminate.
Qed.
Lemma reads1_in : forall m can pos x e, bytes m -> zlen m < 2 ^ 63 -> 0 <= pos -> reads1 m can pos x e -> record_in false m can pos x e /\ pos + 11 <= e <= zlen m.
Proof.
  intros m can pos x e HB HM Hp HR. unfold reads1 in HR. destruct (rr_from_wire_sound m pos can true true HB HM Hp) as (ret & e' & st & E & H). rewrite HR in E. inversion E; subst.
  destruct H as [[H _]|(_ & r & d & next & HF & HP & Hn & HL & HZ & HC & HS)]; [congruence|]. inversion HS; subst. pose proof HF as (n & rdlen & HE & Hd & He & Hm & _ & _ & _ & Ud). pose proof (encodes_window _ _ _ _ _ HE). pose proof (u16_range _ _ _ HB Ud). split; [|lia].
  exists r, d, next. do 2 (split; [auto|]). split; [destruct HC as [HC|HC]; [left; split; [discriminate|auto]|auto]|]. do 3 (split; [auto|]). split; [discriminate|]. reflexivity.
Qed.
Lemma in_reads1 : forall m can pos x e, bytes m -> zlen m < 2 ^ 63 -> 0 <= pos -> record_in true m can pos x e -> reads1 m can pos x e.
Proof.
  intros m can pos x e HB HM Hp (r & d & next & HF & HL & HC & HP & Hn & HZ & HX & ->). specialize (HX eq_refl). subst next. unfold reads1. cbv zeta. rewrite (rr_from_wire_complete m pos can r d e); auto.
  destruct HC as [[HC1 HC2]|(_ & HC1 & HC2)]; auto.
Qed.
Lemma chain_in : forall m can pos l e, bytes m -> zlen m < 2 ^ 63 -> 0 <= pos -> chain m can pos l e -> records_in false m can pos l e /\ pos + 11 * zlen l <= e /\ (l <> [] -> e <= zlen m).
Proof.
  intros m can pos l e HB HM Hp H. revert Hp. induction H; intros Hp; [split; [constructor|split; [cbn; lia|congruence]]|]. destruct (reads1_in _ _ _ _ _ HB HM Hp H). destruct IHchain as (I1 & I2 & I3); [lia|]. split; [econstructor; eauto|]. rewrite zlen_cons. split; [lia|]. intros _. destruct l; [inversion H0; subst; lia|apply I3; discriminate].
Qed.
Lemma in_chain : forall m can pos l e, bytes m -> zlen m < 2 ^ 63 -> 0 <= pos -> records_in true m can pos l e -> chain m can pos l e.
Proof.
  intros m can pos l e HB HM Hp H. revert Hp. induction H; intros Hp; [constructor|]. pose proof (in_reads1 _ _ _ _ _ HB HM Hp H) as HR. destruct (reads1_in _ _ _ _ _ HB HM Hp HR). econstructor; [eauto|]. apply IHrecords_in. lia.
Qed.

(** the type and the RDATA of what is read *)
Lemma reads1_parts : forall m can pos x e, bytes m -> zlen m < 2 ^ 63 -> 0 <= pos -> reads1 m can pos x e ->
  zlen (rr_rdata x) <= 65535 /\ (rr_type x = 41 -> bytes (rr_rdata x)) /\
  (rr_type x = 250 -> rr_rdata x = [] \/ exists alg j, legal_name alg /\ bytes j /\ rr_rdata x = dwire alg ++ j) /\
  exists n ls, encodes m true pos ls n /\ u16_at m (pos + n) (rr_type x).
Proof.
  intros m can pos x e HB HM Hp HR. destruct (reads1_in _ _ _ _ _ HB HM Hp HR) as [(r & d & next & HF & HL & HC & HP & Hn & HZ & _ & ->) _]. destruct HF as (n & rdlen & HE & _ & _ & _ & Ut & _).
  assert (TY : r_type (if can then canonical_record r else r) = r_type r) by (destruct can; reflexivity). cbn [rr_rdata rr_type]. rewrite TY.
  assert (DT : r_type r = 41 \/ r_type r = 250 -> r_data (if can then canonical_record r else r) = r_data r) by (intros HT; destruct can; [|reflexivity]; unfold canonical_record; cbn [r_data]; destruct HT as [->| ->]; reflexivity).
  split; [destruct can; [unfold canonical_record; cbn [r_data]; destruct (existsb _ _); [rewrite flat_lower|]|]; lia|].
  split; [intros HT; rewrite DT by auto|split; [intros HT; rewrite DT by auto|exists n, (r_owner r); auto]].
  - destruct HC as [[_ HC]|(_ & -> & _)]; [|constructor]. eapply fits_bytes. apply lay_fits. rewrite layout_table. exact HC.
  - destruct HC as [[_ HC]|(_ & -> & _)]; [right|left; reflexivity]. rewrite HT in HC. change (rfc_layout 250) with [Name; Rest] in HC. inversion HC as [| |fl ls ps HLs HR'| |]; subst. inversion HR'; subst. exists ls, l. cbn [flat map concat piece_bytes]. rewrite app_nil_r. auto.
Qed.

(** the size of a name in place does not depend on what is before *)
Lemma enc_same_size : forall m b pos ls n, encodes m b pos ls n -> forall m' b' ls' n', encodes m' b' pos ls' n' ->
  (forall i v v', pos <= i -> zget m i = Some v -> zget m' i = Some v' -> v = v') -> n = n'.
Proof.
  intros m b pos ls n H. induction H as [pos H0|pos lab ls n HL H0 H1 HE IH|pos hi lo ls n Hb H0 Hl Hhi Hlt HE IH]; intros m' b' ls' n' H' HA; inversion H' as [p' G0|p' lab' ls2 n2 GL G0 G1 GE|p' hi' lo' ls2 n2 Gb G0 Gl Ghi Glt GE]; subst; auto;
    pose proof (HA pos _ _ ltac:(lia) H0 G0) as EQ; try (destruct HL as [HL _]); try (destruct GL as [GL _]); try lia.
  rewrite EQ in *. f_equal. eapply IH; [exact GE|]. intros i v v' Hi. apply HA. pose proof (zlen_nonneg lab'). lia.
Qed.
