(** Parsing of records: the header and the RDATA. *)
From Verif Require Import Base DnameModel DnameSpec DnameProofs DnameProofs2 WireModel WireProofs RrwireModel RrwireSpec RrwireProofs.

Lemma u16_det : forall m p v v', u16_at m p v -> u16_at m p v' -> v = v'.
Proof. intros m p v v' (a & b & H1 & H2 & H3) (a' & b' & H1' & H2' & H3'). congruence. Qed.
Lemma u32_det : forall m p v v', u32_at m p v -> u32_at m p v' -> v = v'.
Proof. intros m p v v' (a & b & H1 & H2 & H3) (a' & b' & H1' & H2' & H3'). assert (a = a') by (eapply u16_det; eauto). assert (b = b') by (eapply u16_det; eauto). congruence. Qed.
Lemma u16_range : forall m p v, bytes m -> u16_at m p v -> 0 <= v < 65536 /\ 0 <= p /\ p + 2 <= zlen m.
Proof. intros m p v HB (a & b & H1 & H2 & ->). pose proof (zget_byte _ _ _ HB H1). pose proof (zget_byte _ _ _ HB H2). apply zget_some in H1. apply zget_some in H2. unfold byte in *. lia. Qed.
Lemma u16_exists : forall m p, bytes m -> 0 <= p -> p + 2 <= zlen m ->
  exists v, u16_at m p v /\ 0 <= v < 65536 /\ unbe (zfirstn 2 (zskipn p m)) = v.
Proof.
  intros m p HB Hp Hl. destruct (sub1 m p ltac:(lia)) as (a & Ga & Sa). destruct (sub1 m (p + 1) ltac:(lia)) as (b & Gb & Sb).
  exists (256 * a + b). assert (U : u16_at m p (256 * a + b)) by (exists a, b; auto). split; [exact U|]. split; [apply (u16_range _ _ _ HB U)|].
  change 2 with (1 + 1). rewrite sub_split by lia. rewrite Sa, Sb. unfold unbe. cbn [app fold_left]. lia.
Qed.
Lemma u32_exists : forall m p, bytes m -> 0 <= p -> p + 4 <= zlen m ->
  exists v, u32_at m p v /\ 0 <= v < 2 ^ 32 /\ unbe (zfirstn 4 (zskipn p m)) = v.
Proof.
  intros m p HB Hp Hl. destruct (u16_exists m p HB Hp ltac:(lia)) as (a & Ua & Ra & Ea). destruct (u16_exists m (p + 2) HB ltac:(lia) ltac:(lia)) as (b & Ub & Rb & Eb).
  exists (65536 * a + b). split; [exists a, b; auto|]. split; [lia|].
  change 4 with (2 + 2). rewrite sub_split by lia. rewrite unbe_app, Ea, Eb. rewrite zlen_zfirstn by (rewrite zlen_zskipn by lia; lia). change (256 ^ 2) with 65536. lia.
Qed.
Lemma u32_range : forall m p v, bytes m -> u32_at m p v -> 0 <= v < 2 ^ 32.
Proof. intros m p v HB (a & b & Ha & Hb & ->). apply u16_range in Ha; auto. apply u16_range in Hb; auto. lia. Qed.

Lemma read_u16_c : forall m p, bytes m -> zlen m < 2 ^ 63 -> 0 <= p -> p + 2 <= zlen m ->
  exists v, wire_read_u16 (cw m p) = Ok (v, cw m (p + 2)) /\ u16_at m p v /\ 0 <= v < 65536.
Proof.
  intros m p HB HM Hp Hl. destruct (u16_exists m p HB Hp Hl) as (v & U & R & E). exists v. split; auto. unfold wire_read_u16. rewrite read_c by lia.
  replace (zlen m - p <? 2) with false by lia. cbn [rbind]. rewrite E. reflexivity.
Qed.
Lemma read_u32_c : forall m p, bytes m -> zlen m < 2 ^ 63 -> 0 <= p -> p + 4 <= zlen m ->
  exists v, wire_read_u32 (cw m p) = Ok (v, cw m (p + 4)) /\ u32_at m p v /\ 0 <= v < 2 ^ 32.
Proof.
  intros m p HB HM Hp Hl. destruct (u32_exists m p HB Hp Hl) as (v & U & R & E). exists v. split; auto. unfold wire_read_u32. rewrite read_c by lia.
  replace (zlen m - p <? 4) with false by lia. cbn [rbind]. rewrite E. reflexivity.
Qed.

Lemma header_enc : forall m pos al ls n, bytes m -> zlen m < 2 ^ 63 -> 0 <= pos -> encodes m true pos ls n -> legal_name ls ->
  (al = true /\ exists t c ttl rdlen, u16_at m (pos + n) t /\ u16_at m (pos + n + 2) c /\ u32_at m (pos + n + 4) ttl /\ u16_at m (pos + n + 8) rdlen /\
     pos + n + 10 + rdlen <= zlen m /\ 0 <= rdlen < 65536 /\
     parse_header m pos al = Ok (mkrr (dwire ls) t c ttl [], rdlen, pos + n + 10)) \/
  (exists e, parse_header m pos al = Err e /\ e <> KNOT_EOK /\
     (al = true -> forall rdlen, u16_at m (pos + n + 8) rdlen -> zlen m < pos + n + 10 + rdlen)).
Proof.
  intros m pos al ls n HB HM Hp HE HL.
  pose proof (encodes_window _ _ _ _ _ HE) as [Hn Hw].
  enough (H : forall r, parse_header m pos al = r ->
    (al = true /\ exists t c ttl rdlen, u16_at m (pos + n) t /\ u16_at m (pos + n + 2) c /\ u32_at m (pos + n + 4) ttl /\ u16_at m (pos + n + 8) rdlen /\
     pos + n + 10 + rdlen <= zlen m /\ 0 <= rdlen < 65536 /\ r = Ok (mkrr (dwire ls) t c ttl [], rdlen, pos + n + 10)) \/
    (exists e, r = Err e /\ e <> KNOT_EOK /\ (al = true -> forall rdlen, u16_at m (pos + n + 8) rdlen -> zlen m < pos + n + 10 + rdlen))) by (apply H; reflexivity).
  intros r Hr. unfold parse_header in Hr. cbv zeta in Hr.
  assert (E0 : wire_set_offset (wire_init_const m) pos = cw m pos).
  { unfold wire_set_offset, wire_init_const, w_size; cbn [w_err w_buf]. change (KNOT_EOK =? KNOT_EOK) with true. cbn [negb]. replace (pos >? zlen m) with false by lia. reflexivity. }
  rewrite E0 in Hr. cbn [w_pos] in Hr. destruct HL as [HL1 HL2].
  rewrite (wire_check_complete m true pos ls n HB HE HL2) in Hr. cbn [catch rbind] in Hr. replace (n <=? 0) with false in Hr by lia.
  destruct (unpack_spec m true pos ls n KNOT_DNAME_MAXLEN HB HE ltac:(unfold KNOT_DNAME_MAXLEN; lia)) as [U _].
  rewrite U in Hr by (unfold KNOT_DNAME_MAXLEN; lia). cbn [catch rbind] in Hr. destruct al; cbn [negb] in Hr.
  2: { right. exists KNOT_ENOMEM. subst r. split; [reflexivity|]. split; [discriminate|]. discriminate. }
  rewrite skip_c in Hr by lia. replace (n >? zlen m - pos) with false in Hr by lia. cbn [rbind] in Hr.
  assert (SHORT : pos + n + 10 > zlen m -> r = Err KNOT_EMALF).
  { intros HS.
    assert (ERR : forall e p, e <> KNOT_EOK -> forall k, wire_read (mkwire m p e true) k = Ok (zeros k, mkwire m p e true)) by (intros e p He k; apply read_e; exact He).
    assert (NF : KNOT_EFEWDATA <> KNOT_EOK) by discriminate.
    unfold wire_read_u16, wire_read_u32 in Hr.
    rewrite read_c in Hr by lia. destruct (zlen m - (pos + n) <? 2) eqn:X1; cbn [rbind] in Hr.
    { rewrite ERR in Hr by exact NF. cbn [rbind] in Hr. rewrite ERR in Hr by exact NF. cbn [rbind] in Hr. rewrite ERR in Hr by exact NF. cbn [rbind w_err] in Hr. rewrite <- Hr; reflexivity. }
    rewrite read_c in Hr by lia. destruct (zlen m - (pos + n + 2) <? 2) eqn:X2; cbn [rbind] in Hr.
    { rewrite ERR in Hr by exact NF. cbn [rbind] in Hr. rewrite ERR in Hr by exact NF. cbn [rbind w_err] in Hr. rewrite <- Hr; reflexivity. }
    rewrite read_c in Hr by lia. destruct (zlen m - (pos + n + 2 + 2) <? 4) eqn:X3; cbn [rbind] in Hr.
    { rewrite ERR in Hr by exact NF. cbn [rbind w_err] in Hr. rewrite <- Hr; reflexivity. }
    rewrite read_c in Hr by lia. destruct (zlen m - (pos + n + 2 + 2 + 4) <? 2) eqn:X4; cbn [rbind] in Hr; [|lia].
    cbn [w_err] in Hr. rewrite <- Hr; reflexivity. }
  destruct (Z_gt_dec (pos + n + 10) (zlen m)) as [G|G].
  { right. exists KNOT_EMALF. split; [auto|]. split; [discriminate|]. intros _ rdlen HR. apply u16_range in HR; auto. lia. }
  destruct (read_u16_c m (pos + n) HB HM ltac:(lia) ltac:(lia)) as (t & Et & Ut & Rt). rewrite Et in Hr. cbn [rbind] in Hr.
  destruct (read_u16_c m (pos + n + 2) HB HM ltac:(lia) ltac:(lia)) as (c & Ec & Uc & Rc). rewrite Ec in Hr. cbn [rbind] in Hr.
  destruct (read_u32_c m (pos + n + 2 + 2) HB HM ltac:(lia) ltac:(lia)) as (ttl & El & Ul & Rl). rewrite El in Hr. cbn [rbind] in Hr.
  destruct (read_u16_c m (pos + n + 2 + 2 + 4) HB HM ltac:(lia) ltac:(lia)) as (rdlen & Ed & Ud & Rd). rewrite Ed in Hr. cbn [rbind w_err] in Hr.
  replace (pos + n + 2 + 2 + 4) with (pos + n + 8) in * by lia. replace (pos + n + 2 + 2) with (pos + n + 4) in * by lia.
  change (KNOT_EOK =? KNOT_EOK) with true in Hr. cbn [negb] in Hr.
  unfold wire_available, wire_offset, w_size in Hr. cbn [w_buf w_pos] in Hr. replace (pos + n + 8 + 2) with (pos + n + 10) in Hr by lia.
  unfold u64 in Hr. rewrite (Z.mod_small (pos + n + 10)) in Hr by lia. rewrite Z.mod_small in Hr by lia.
  destruct (zlen m - (pos + n + 10) <? rdlen) eqn:X.
  - right. exists KNOT_EMALF. split; [auto|]. split; [discriminate|]. intros _ rdlen' HR. assert (rdlen' = rdlen) by (eapply u16_det; eauto). lia.
  - left. split; [reflexivity|]. exists t, c, ttl, rdlen. split; [exact Ut|]. split; [exact Uc|]. split; [exact Ul|]. split; [exact Ud|]. split; [lia|]. split; [lia|]. auto.
Qed.
Lemma header_noenc : forall m pos al, bytes m -> 0 <= pos <= zlen m ->
  (exists ls n, encodes m true pos ls n /\ legal_name ls) \/ exists e, parse_header m pos al = Err e /\ e <> KNOT_EOK.
Proof.
  intros m pos al HB Hp. pose proof (wire_check_sound m true pos HB Hp) as H.
  destruct (wire_check m true pos) as [n|e| |] eqn:E; try contradiction.
  - left. destruct H as (ls & He & Hs). exists ls, n. split; auto. split; auto. eapply encodes_legal; eauto.
  - right. exists KNOT_EMALF. unfold parse_header. cbv zeta.
    assert (E0 : wire_set_offset (wire_init_const m) pos = cw m pos).
    { unfold wire_set_offset, wire_init_const, w_size; cbn [w_err w_buf]. change (KNOT_EOK =? KNOT_EOK) with true. cbn [negb]. replace (pos >? zlen m) with false by lia. reflexivity. }
    rewrite E0. cbn [w_pos]. rewrite E. cbn [catch rbind]. split; [reflexivity|discriminate].
Qed.

(** ** RDATA *)
Lemma bytes_zfirstn : forall n m, bytes m -> bytes (zfirstn n m).
Proof. intros n m H. unfold bytes, zfirstn in *. rewrite Forall_forall in *. intros x Hx. apply H. rewrite <- (firstn_skipn (Z.to_nat n) m). apply in_or_app. auto. Qed.
Lemma bytes_zskipn : forall n m, bytes m -> bytes (zskipn n m).
Proof. intros n m H. unfold bytes, zskipn in *. rewrite Forall_forall in *. intros x Hx. apply H. rewrite <- (firstn_skipn (Z.to_nat n) m). apply in_or_app. auto. Qed.
(** encodings survive more memory *)
Lemma encodes_mono : forall m m' p pos ls n, (forall i b, zget m i = Some b -> zget m' i = Some b) -> encodes m p pos ls n -> encodes m' p pos ls n.
Proof.
  intros m m' p pos ls n HI H. induction H.
  - constructor; auto.
  - constructor; auto. intros i Hi. assert (Hx : exists b, zget lab i = Some b) by (apply zget_in_range; lia). destruct Hx as (b & Hb). rewrite Hb. apply HI. rewrite H1 by lia. exact Hb.
  - eapply enc_ptr; eauto.
Qed.
Lemma zget_firstn_some : forall (m : list Z) e i b, zget (zfirstn e m) i = Some b -> zget m i = Some b.
Proof.
  intros m e i b H. pose proof (zget_some _ _ _ H) as R. assert (i < e). { unfold zfirstn, zlen in R. rewrite firstn_length in R. lia. }
  rewrite zget_zfirstn in H by lia. exact H.
Qed.
Lemma encodes_pre : forall m e p pos ls n, encodes (zfirstn e m) p pos ls n -> encodes m p pos ls n.
Proof. intros. eapply encodes_mono; [|eauto]. intros i b. apply zget_firstn_some. Qed.

Definition state_at (m : list Z) (e : Z) (src avail : Z) : Prop := 0 <= src /\ 0 <= avail /\ src + avail = e /\ e <= zlen m.

(** one block *)
Definition pread (m : list Z) (b : block) (src avail : Z) (out : list Z) (cap : Z) : res (Z * Z * list Z) :=
  match b with
  | BCompr | BDecompr | BName => read_dname m src avail out cap
  | BNaptr => read_naptr m src avail out cap
  | BRem => read_fixed m src avail out cap avail
  | BFixed n => read_fixed m src avail out cap n
  end.
Lemma traverse_cons : forall m b bl src avail out cap,
  traverse_parse m (b :: bl) src avail out cap = let* (st, out) := pread m b src avail out cap in let (src, avail) := (st : Z * Z) in traverse_parse m bl src avail out cap.
Proof. reflexivity. Qed.

(** a block is a piece; the remainder is only used as the last one *)
Definition block_ok (b : block) (p : piece) : Prop :=
  match b, p with
  | BFixed n, PData l => zlen l = n /\ bytes l
  | (BCompr | BDecompr | BName), PName ls => legal_name ls
  | BNaptr, PData l => naptr_at l (zlen l) /\ bytes l
  | BRem, PData l => bytes l
  | _, _ => False
  end.
Definition piece_bytes (p : piece) : list Z := match p with PData l => l | PName ls => dwire ls end.
Lemma flat_cons : forall p ps, flat (p :: ps) = piece_bytes p ++ flat ps.
Proof. destruct p; reflexivity. Qed.

Definition neg_blocks (bl : list block) : Prop := Forall (fun b => match b with BFixed n => 0 <= n | _ => True end) bl.

Lemma read_fixed_sound : forall m e src avail out cap n, state_at m e src avail -> bytes m -> 0 <= n -> zlen out <= cap ->
  match read_fixed m src avail out cap n with
  | Ok (s, a, o) => exists l, zlen l = n /\ bytes l /\ o = out ++ l /\ zlen o <= cap /\ s = src + n /\ a = avail - n /\ state_at m e s a /\
      l = zfirstn n (zskipn src m) /\ (forall i, 0 <= i < zlen l -> zget m (src + i) = zget l i)
  | Err x => x <> KNOT_EOK
  | _ => False
  end.
Proof.
  intros m e src avail out cap n (H1 & H2 & H3 & H4) HB Hn Hc. unfold read_fixed. destruct (n >? avail) eqn:E1; [discriminate|]. destruct (n >? cap - zlen out) eqn:E2; [discriminate|].
  rewrite rdn_ok by lia. cbn [rbind]. exists (zfirstn n (zskipn src m)).
  assert (L : zlen (zfirstn n (zskipn src m)) = n) by (rewrite zlen_zfirstn; [reflexivity|rewrite zlen_zskipn by lia; lia]).
  split; [exact L|]. split; [apply bytes_sub; auto|]. split; [reflexivity|]. split; [rewrite zlen_app; lia|]. split; [reflexivity|]. split; [reflexivity|]. split; [unfold state_at; lia|]. split; [reflexivity|].
  rewrite L. intros i Hi. rewrite zfirstn_zskipn_get by lia. reflexivity.
Qed.

Lemma check_err : forall f w h p a b c x, wire_check_loop f w h p a b c = Err x -> x <> KNOT_EOK.
Proof.
  induction f as [|f IHf]; intros w h p a b c x H; cbn [wire_check_loop] in H; [discriminate|].
  unfold rd in H. destruct (zget w p); cbn [rbind] in H; [|discriminate].
  repeat match type of H with (if ?c then _ else _) = _ => destruct c end; try discriminate; try (injection H as <-; discriminate); eauto.
  destruct (zget w (p + 1)); cbn [rbind] in H; [|discriminate].
  repeat match type of H with (if ?c then _ else _) = _ => destruct c end; try discriminate; try (injection H as <-; discriminate); eauto.
Qed.
Lemma seek_err : forall f w p a, seek_label_loop f w p <> Err a.
Proof. induction f; intros w p a; cbn [seek_label_loop]; [discriminate|]. unfold rd. destruct (zget w p); cbn [rbind]; [|discriminate]. destruct (is_pointer z); [|discriminate]. destruct (zget w (p + 1)); cbn [rbind]; [|discriminate]. destruct (_ >=? _); [discriminate|auto]. Qed.
Lemma unpack_loop_err : forall f m p c o x, unpack_loop f m p c o = Err x -> x <> KNOT_EOK.
Proof.
  induction f as [|f IHf]; intros m p c o x H; cbn [unpack_loop] in H; [discriminate|].
  unfold rd in H. destruct (zget m p) eqn:EG; cbn [rbind] in H; [|discriminate]. destruct (z =? 0). { destruct (_ >? _); [injection H as <-|]; discriminate. }
  destruct (_ >? _); [injection H as <-; discriminate|]. unfold rdn in H. destruct (_ || _); cbn [rbind] in H; [discriminate|]. unfold wire_next_label, rd in H. rewrite EG in H. cbn [rbind] in H. destruct (_ =? 0); cbn [rbind] in H; [discriminate|].
  destruct (seek_label m (p + z + 1)) eqn:E; cbn [rbind] in H; try discriminate; [eapply IHf; eauto|]. unfold seek_label in E. exfalso. eapply seek_err; eauto.
Qed.
Lemma unpack_err : forall m p c x, unpack m p c = Err x -> x <> KNOT_EOK.
Proof. intros m p c x H. unfold unpack in H. destruct (seek_label m p) eqn:E; cbn [rbind] in H; try discriminate; [eapply unpack_loop_err; eauto|]. unfold seek_label in E. exfalso. eapply seek_err; eauto. Qed.

Lemma pread_sound : forall m b e src avail out cap, zlen m < 2 ^ 63 -> bytes m -> state_at m e src avail -> zlen out <= cap ->
  (match b with BFixed n => 0 <= n | _ => True end) ->
  match pread m b src avail out cap with
  | Ok (s, a, o) => exists p, block_ok b p /\ o = out ++ piece_bytes p /\ zlen o <= cap /\ state_at m e s a /\ src <= s /\ (b = BRem -> s = e) /\
      (forall ps next, pieces_at m e s ps next -> pieces_at m e src (p :: ps) next)
  | Err x => x <> KNOT_EOK
  | _ => False
  end.
Proof.
  intros m b e src avail out cap HM HB HS Hc Hb. pose proof HS as (H1 & H2 & H3 & H4).
  assert (FIX : forall n l s a, zlen l = n -> 0 <= n -> s = src + n -> a = avail - n -> state_at m e s a -> (forall i, 0 <= i < zlen l -> zget m (src + i) = zget l i) ->
     forall ps next, pieces_at m e s ps next -> pieces_at m e src (PData l :: ps) next).
  { intros n l s a L Hn Hs Ha (S1 & S2 & S3 & S4) HI ps next HP. constructor; auto; try lia. rewrite L. subst s. exact HP. }
  assert (NAME : match read_dname m src avail out cap with
    | Ok (s, a, o) => exists p, (exists ls, p = PName ls /\ legal_name ls) /\ o = out ++ piece_bytes p /\ zlen o <= cap /\ state_at m e s a /\ src <= s /\
        (forall ps next, pieces_at m e s ps next -> pieces_at m e src (p :: ps) next)
    | Err x => x <> KNOT_EOK | _ => False end).
  { unfold read_dname. rewrite H3.
    assert (LE : zlen (zfirstn e m) = e) by (apply zlen_zfirstn; lia).
    assert (HBe : bytes (zfirstn e m)) by (apply bytes_zfirstn; auto).
    unfold wire_check. rewrite LE. destruct (src =? e) eqn:Ee; [discriminate|].
    pose proof (wire_check_sound (zfirstn e m) true src HBe ltac:(rewrite LE; lia)) as W. unfold wire_check in W. rewrite LE, Ee in W.
    assert (WE : forall x, wire_check_loop (wire_check_fuel (zfirstn e m)) (zfirstn e m) true src 0 1 false = Err x -> x <> KNOT_EOK).
    { intros x. apply check_err. }
    destruct (wire_check_loop (wire_check_fuel (zfirstn e m)) (zfirstn e m) true src 0 1 false) as [n|x| |] eqn:EW; try contradiction; cbn [rbind].
    2: { apply WE. reflexivity. }
    destruct W as (ls & He & Hsz). pose proof (encodes_window _ _ _ _ _ He) as [Hn0 Hwin]. rewrite LE in Hwin.
    replace (n <=? 0) with false by lia.
    pose proof (encodes_pre _ _ _ _ _ _ He) as He'.
    destruct (unpack_spec m true src ls n (cap - zlen out) HB He' ltac:(lia)) as [U1 U2].
    destruct (Z_le_dec (name_size ls) (cap - zlen out)) as [G|G].
    - rewrite U1 by lia. cbn [rbind]. exists (PName ls). split; [exists ls; split; [reflexivity|split; [eapply encodes_legal; eauto|auto]]|].
      split; [reflexivity|]. split; [rewrite zlen_app, zlen_wire; lia|]. split; [unfold state_at; lia|]. split; [lia|].
      intros ps next HP. econstructor; eauto.
    - destruct U2 as (x & Hx); [lia|]. rewrite Hx. cbn [rbind].
      eapply unpack_err; eauto. }
  destruct b as [n| | | | |]; cbn [pread].
  - pose proof (read_fixed_sound m e src avail out cap n HS HB Hb Hc) as R. destruct (read_fixed m src avail out cap n) as [[[s a] o]|x| |]; auto.
    destruct R as (l & L & Bl & Ho & Hcap & Hs & Ha & HS' & _ & HI). exists (PData l). split; [split; auto|]. split; [exact Ho|]. split; [exact Hcap|]. split; [exact HS'|]. split; [lia|]. split; [discriminate|]. eapply FIX; eauto.
  - destruct (read_dname m src avail out cap) as [[[s a] o]|x| |]; auto. destruct NAME as (p & (ls & -> & HL) & Ho & Hcap & HS' & Hs & HP). exists (PName ls). split; [exact HL|]. split; [exact Ho|]. split; [exact Hcap|]. split; [exact HS'|]. split; [exact Hs|]. split; [discriminate|exact HP].
  - destruct (read_dname m src avail out cap) as [[[s a] o]|x| |]; auto. destruct NAME as (p & (ls & -> & HL) & Ho & Hcap & HS' & Hs & HP). exists (PName ls). split; [exact HL|]. split; [exact Ho|]. split; [exact Hcap|]. split; [exact HS'|]. split; [exact Hs|]. split; [discriminate|exact HP].
  - destruct (read_dname m src avail out cap) as [[[s a] o]|x| |]; auto. destruct NAME as (p & (ls & -> & HL) & Ho & Hcap & HS' & Hs & HP). exists (PName ls). split; [exact HL|]. split; [exact Ho|]. split; [exact Hcap|]. split; [exact HS'|]. split; [exact Hs|]. split; [discriminate|exact HP].
  - unfold read_naptr. rewrite rdn_ok by lia. cbn [rbind].
    assert (LD : zlen (zfirstn avail (zskipn src m)) = avail) by (rewrite zlen_zfirstn; [reflexivity|rewrite zlen_zskipn by lia; lia]).
    destruct (naptr_spec (zfirstn avail (zskipn src m)) (bytes_sub _ _ _ HB) ltac:(lia)) as [(n & En & Hn)|((x & Ex & Hx) & _)].
    2: { rewrite Ex. cbn [rbind]. unfold KNOT_EOK. lia. }
    rewrite En. cbn [rbind].
    assert (Hn0 : 0 <= n <= avail). { destruct Hn as (a & b & c & Ga & Gb & Gc & Hn1 & Hn2). pose proof (zget_byte _ _ _ (bytes_sub m src avail HB) Ga). pose proof (zget_byte _ _ _ (bytes_sub m src avail HB) Gb). pose proof (zget_byte _ _ _ (bytes_sub m src avail HB) Gc). unfold byte in *. lia. }
    pose proof (read_fixed_sound m e src avail out cap n HS HB ltac:(lia) Hc) as R. destruct (read_fixed m src avail out cap n) as [[[s a] o]|x| |]; auto.
    destruct R as (l & L & Bl & Ho & Hcap & Hs & Ha & HS' & El & HI). exists (PData l). split.
    { split; [|exact Bl]. rewrite L. destruct Hn as (a' & b & c & Ga & Gb & Gc & Hn1 & Hn2).
      pose proof (zget_byte _ _ _ (bytes_sub m src avail HB) Ga). pose proof (zget_byte _ _ _ (bytes_sub m src avail HB) Gb). pose proof (zget_byte _ _ _ (bytes_sub m src avail HB) Gc). unfold byte in *.
      rewrite zfirstn_zskipn_get in Ga by lia. rewrite zfirstn_zskipn_get in Gb by lia. rewrite zfirstn_zskipn_get in Gc by lia.
      exists a', b, c. rewrite <- !HI by lia. repeat split; auto; lia. }
    split; [exact Ho|]. split; [exact Hcap|]. split; [exact HS'|]. split; [lia|]. split; [discriminate|]. eapply FIX; eauto. lia.
  - pose proof (read_fixed_sound m e src avail out cap avail HS HB ltac:(lia) Hc) as R. destruct (read_fixed m src avail out cap avail) as [[[s a] o]|x| |]; auto.
    destruct R as (l & L & Bl & Ho & Hcap & Hs & Ha & HS' & _ & HI). exists (PData l). split; [exact Bl|]. split; [exact Ho|]. split; [exact Hcap|]. split; [exact HS'|]. split; [lia|]. split; [intros; lia|]. eapply FIX; eauto.
Qed.

(** ** All blocks *)
Fixpoint layout_ok (bl : list block) : Prop :=
  match bl with
  | [] => True
  | [BRem] => True
  | BRem :: _ => False
  | BFixed n :: bl => 0 <= n /\ layout_ok bl
  | _ :: bl => layout_ok bl
  end.
Lemma layout_cons : forall b bl, layout_ok (b :: bl) -> layout_ok bl /\ (match b with BFixed n => 0 <= n | _ => True end) /\ (b = BRem -> bl = []).
Proof. intros b bl H. destruct b; cbn [layout_ok] in H; try (split; [tauto|split; [tauto|discriminate]]). destruct bl; [|contradiction]. split; [exact I|auto]. Qed.
Lemma desc_ok : forall t, layout_ok (snd (parse_desc t)).
Proof.
  intros t. unfold parse_desc, get_desc, get_obsolete_desc. destruct (rdata_descriptors t) as [b|] eqn:E; cbn [fst snd].
  - revert E. unfold rdata_descriptors.
    repeat match goal with |- context [match ?x with _ => _ end] => destruct x end; intros E; try discriminate; injection E as <-; cbn [layout_ok]; repeat split; lia.
  - destruct (obsolete_descriptors t) as [b|] eqn:E2; cbn [snd]; [|exact I]. revert E2. unfold obsolete_descriptors.
    repeat match goal with |- context [match ?x with _ => _ end] => destruct x end; intros E2; try discriminate; injection E2 as <-; cbn [layout_ok]; repeat split; lia.
Qed.

Lemma fits_cons : forall b p bl ps, block_ok b p -> (b = BRem -> ps = []) -> (b = BRem -> bl = []) -> fits bl ps -> fits (b :: bl) (p :: ps).
Proof.
  intros b p bl ps HO HR HR' HF. destruct b; destruct p as [l|ls]; cbn [block_ok] in HO; try contradiction.
  - destruct HO. constructor; auto.
  - apply fits_name; auto. left; reflexivity.
  - apply fits_name; auto. right; left; reflexivity.
  - apply fits_name; auto. right; right; reflexivity.
  - destruct HO as [HN HB]. destruct (naptr_strings _ _ HB HN) as (f & s1 & s2 & s3 & rest & Hf & H1 & H2 & H3 & E & _).
    rewrite zfirstn_all in E by lia. rewrite E. apply fits_naptr with (s1 := s1) (s2 := s2) (s3 := s3); auto; try (split; auto; fail). rewrite <- E. exact HB.
  - rewrite HR by auto. rewrite HR' by auto. constructor. exact HO.
Qed.
Lemma fits_inv : forall b bl ps, fits (b :: bl) ps -> exists p ps', ps = p :: ps' /\ block_ok b p /\ (b = BRem -> ps' = []) /\ fits bl ps'.
Proof.
  intros b bl ps H. inversion H; subst.
  - exists (PData l), ps0. split; [reflexivity|]. split; [split; auto|]. split; [discriminate|auto].
  - exists (PName ls), ps0. split; [reflexivity|]. destruct H2 as [->|[->| ->]]; (split; [auto|split; [discriminate|auto]]).
  - exists (PData (f ++ l1 ++ l2 ++ l3)), ps0. split; [reflexivity|]. split; [|split; [discriminate|auto]]. split; [|auto].
    destruct H4 as [_ ->]. destruct H5 as [_ ->]. destruct H6 as [_ ->].
    pose proof (naptr_of_strings f s1 s2 s3 [] H2) as N. rewrite app_nil_r in N.
    replace (zlen (f ++ (zlen s1 :: s1) ++ (zlen s2 :: s2) ++ zlen s3 :: s3)) with (7 + zlen s1 + zlen s2 + zlen s3); [exact N|].
    repeat (rewrite zlen_app || rewrite zlen_cons). lia.
  - exists (PData l), []. split; [reflexivity|]. split; [assumption|]. split; [auto|constructor].
Qed.

Lemma traverse_sound : forall m e, zlen m < 2 ^ 63 -> bytes m -> forall bl src avail out cap, layout_ok bl -> state_at m e src avail -> zlen out <= cap ->
  match traverse_parse m bl src avail out cap with
  | Ok (s, a, o) => exists ps, fits bl ps /\ o = out ++ flat ps /\ zlen o <= cap /\ state_at m e s a /\ src <= s /\ pieces_at m e src ps s
  | Err x => x <> KNOT_EOK
  | _ => False
  end.
Proof.
  intros m e HM HB. induction bl as [|b bl IH]; intros src avail out cap HL HS Hc.
  - cbn [traverse_parse]. exists []. split; [constructor|]. split; [cbn [flat]; rewrite app_nil_r; reflexivity|]. split; [auto|]. split; [auto|]. split; [lia|constructor].
  - rewrite traverse_cons. apply layout_cons in HL. destruct HL as (HL & Hb & HR).
    pose proof (pread_sound m b e src avail out cap HM HB HS Hc Hb) as P. destruct (pread m b src avail out cap) as [[[s a] o]|x| |]; cbn [rbind]; auto.
    destruct P as (p & Hp & Ho & Hcap & HS' & Hs & _ & HP). specialize (IH s a o cap HL HS' Hcap).
    destruct (traverse_parse m bl s a o cap) as [[[s' a'] o']|x| |]; auto.
    destruct IH as (ps & HF & Ho' & Hcap' & HS'' & Hs' & HP'). exists (p :: ps).
    split. { apply fits_cons; auto. intros HRem. specialize (HR HRem). subst bl. inversion HF. reflexivity. }
    split; [rewrite Ho', Ho, flat_cons, app_assoc; reflexivity|]. split; [auto|]. split; [auto|]. split; [lia|]. apply HP. exact HP'.
Qed.

Lemma pieces_range : forall m e pos ps next, pieces_at m e pos ps next -> 0 <= pos -> pos <= next.
Proof.
  intros m e pos ps next H. induction H; intros Hp; [lia| |].
  - pose proof (zlen_nonneg l). lia.
  - pose proof (encodes_window _ _ _ _ _ H). lia.
Qed.
Lemma sub_data : forall (m l : list Z) src, 0 <= src -> src + zlen l <= zlen m -> (forall i, 0 <= i < zlen l -> zget m (src + i) = zget l i) -> zfirstn (zlen l) (zskipn src m) = l.
Proof.
  intros m l src Hs Hl HI. pose proof (zlen_nonneg l). apply zget_ext.
  - apply zlen_zfirstn. rewrite zlen_zskipn by lia. lia.
  - rewrite zlen_zfirstn by (rewrite zlen_zskipn by lia; lia). intros i Hi. rewrite zfirstn_zskipn_get by lia. apply HI. lia.
Qed.
Lemma read_fixed_complete : forall m src avail out cap l, 0 <= src -> src + zlen l <= zlen m -> zlen l <= avail -> zlen out + zlen l <= cap ->
  (forall i, 0 <= i < zlen l -> zget m (src + i) = zget l i) ->
  read_fixed m src avail out cap (zlen l) = Ok (src + zlen l, avail - zlen l, out ++ l).
Proof.
  intros m src avail out cap l Hs Hl Ha Hc HI. pose proof (zlen_nonneg l). unfold read_fixed. replace (zlen l >? avail) with false by lia. replace (zlen l >? cap - zlen out) with false by lia.
  rewrite rdn_ok by lia. cbn [rbind]. rewrite sub_data; auto.
Qed.
Lemma naptr_complete : forall d l n, zfirstn (zlen l) d = l -> bytes d -> zlen d < 2 ^ 63 -> zlen l <= zlen d -> naptr_at l (zlen l) -> naptr_header_size d = Ok n -> n = zlen l.
Proof.
  intros d l n E HB HD HL HN H.
  destruct (naptr_spec d HB HD) as [(n' & En & Hn)|((x & Ex & _) & _)]; [|congruence].
  assert (n' = n) by congruence. subst n'. eapply naptr_at_det; [exact Hn|]. destruct HN as (a & b & c & Ga & Gb & Gc & H1 & H2).
  pose proof (zget_some _ _ _ Ga). pose proof (zget_some _ _ _ Gb). pose proof (zget_some _ _ _ Gc).
  exists a, b, c. rewrite <- E in Ga, Gb, Gc. rewrite zget_zfirstn in Ga by lia. rewrite zget_zfirstn in Gb by lia. rewrite zget_zfirstn in Gc by lia. repeat split; auto; lia.
Qed.

Lemma traverse_complete : forall m e, zlen m < 2 ^ 63 -> bytes m -> e <= zlen m -> forall bl ps src out cap, fits bl ps -> 0 <= src ->
  pieces_at m e src ps e -> zlen out + zlen (flat ps) <= cap ->
  traverse_parse m bl src (e - src) out cap = Ok (e, 0, out ++ flat ps).
Proof.
  intros m e HM HB He. induction bl as [|b bl IH]; intros ps src out cap HF Hs HP Hc.
  - inversion HF; subst. inversion HP; subst. cbn [traverse_parse flat]. rewrite app_nil_r. replace (e - e) with 0 by lia. reflexivity.
  - destruct (fits_inv _ _ _ HF) as (p & ps' & -> & HO & HR & HF'). rewrite traverse_cons. rewrite flat_cons, zlen_app in Hc. rewrite flat_cons.
    pose proof (zlen_nonneg (flat ps')) as F0.
    enough (P : exists s, pread m b src (e - src) out cap = Ok (s, e - s, out ++ piece_bytes p) /\ 0 <= s /\ pieces_at m e s ps' e).
    { destruct P as (s & -> & Hs' & HP'). cbn [rbind]. rewrite (IH ps' s (out ++ piece_bytes p) cap HF' Hs' HP') by (rewrite zlen_app; lia). rewrite app_assoc. reflexivity. }
    pose proof (pieces_range _ _ _ _ _ HP Hs) as Hse.
    assert (FIX : forall l, p = PData l -> src + zlen l <= zlen m /\ zlen l <= e - src /\ (forall i, 0 <= i < zlen l -> zget m (src + i) = zget l i) /\ pieces_at m e (src + zlen l) ps' e).
    { intros l ->. inversion HP; subst. repeat split; auto; lia. }
    assert (NAME : forall ls, p = PName ls -> legal_name ls -> exists s, read_dname m src (e - src) out cap = Ok (s, e - s, out ++ piece_bytes p) /\ 0 <= s /\ pieces_at m e s ps' e).
    { intros ls -> HL. cbn [piece_bytes] in *. inversion HP as [| |? ? n ? ? HE HP']; subst. pose proof (encodes_window _ _ _ _ _ HE) as [W1 W2]. rewrite zlen_zfirstn in W2 by lia. exists (src + n). split; [|split; [lia|auto]].
      unfold read_dname. replace (src + (e - src)) with e by lia. destruct HL as [HO1 HO2]. rewrite (wire_check_complete _ _ _ _ _ (bytes_zfirstn e m HB) HE HO2). cbn [rbind]. replace (n <=? 0) with false by lia.
      destruct (unpack_spec m true src ls n (cap - zlen out) HB (encodes_pre _ _ _ _ _ _ HE) ltac:(rewrite zlen_wire in Hc; pose proof (name_size_pos ls); lia)) as [U _]. rewrite U by (rewrite zlen_wire in Hc; lia). cbn [rbind]. replace (e - src - n) with (e - (src + n)) by lia. reflexivity. }
    destruct b as [n| | | | |]; destruct p as [l|ls]; cbn [block_ok] in HO; try contradiction; cbn [pread piece_bytes] in *.
    + destruct HO as [HO _]. destruct (FIX l eq_refl) as (F1 & F2 & F3 & F4). pose proof (zlen_nonneg l). exists (src + zlen l). rewrite <- HO. rewrite read_fixed_complete; auto; try lia. split; [replace (e - src - zlen l) with (e - (src + zlen l)) by lia; reflexivity|]. split; [lia|auto].
    + apply (NAME ls eq_refl HO).
    + apply (NAME ls eq_refl HO).
    + apply (NAME ls eq_refl HO).
    + destruct HO as [HN _]. destruct (FIX l eq_refl) as (F1 & F2 & F3 & F4). pose proof (zlen_nonneg l). exists (src + zlen l). split; [|split; [lia|auto]].
      unfold read_naptr. rewrite rdn_ok by lia. cbn [rbind].
      assert (LD : zlen (zfirstn (e - src) (zskipn src m)) = e - src) by (rewrite zlen_zfirstn; [reflexivity|rewrite zlen_zskipn by lia; lia]).
      assert (EL : zfirstn (zlen l) (zfirstn (e - src) (zskipn src m)) = l). { unfold zfirstn. rewrite firstn_firstn. rewrite Nat.min_l by lia. apply sub_data; auto. }
      destruct (naptr_spec (zfirstn (e - src) (zskipn src m)) (bytes_sub _ _ _ HB) ltac:(lia)) as [(n & En & Hn)|(_ & Hx)].
      * pose proof (naptr_complete _ _ _ EL (bytes_sub _ _ _ HB) ltac:(lia) ltac:(lia) HN En). subst n. rewrite En. cbn [rbind]. rewrite read_fixed_complete; auto; try lia. replace (e - src - zlen l) with (e - (src + zlen l)) by lia. reflexivity.
      * exfalso. apply (Hx (zlen l)). destruct HN as (a & b & c & Ga & Gb & Gc & H1 & H2). pose proof (zget_some _ _ _ Ga). pose proof (zget_some _ _ _ Gb). pose proof (zget_some _ _ _ Gc).
        exists a, b, c. rewrite <- EL in Ga, Gb, Gc. rewrite zget_zfirstn in Ga by lia. rewrite zget_zfirstn in Gb by lia. rewrite zget_zfirstn in Gc by lia. repeat split; auto; lia.
    + destruct (FIX l eq_refl) as (F1 & F2 & F3 & F4). rewrite (HR eq_refl) in F4. assert (Hx : e = src + zlen l) by (inversion F4; auto). clear F4. exists e. pose proof (zlen_nonneg l).
      replace (e - src) with (zlen l) by lia. rewrite read_fixed_complete; auto; try lia. rewrite <- Hx. split; [replace (zlen l - zlen l) with (e - e) by lia; reflexivity|]. split; [lia|]. rewrite (HR eq_refl). constructor.
Qed.

(** ** Canonical form *)
Lemma take_app : forall l d, take (l ++ d) (zlen l) = Ok l.
Proof. intros. unfold take. rewrite zlen_app. pose proof (zlen_nonneg d). replace (zlen l >? zlen l + zlen d) with false by lia. rewrite zfirstn_app_exact. reflexivity. Qed.
Lemma advance_app : forall l d, advance (l ++ d) (zlen l) = Ok d.
Proof. intros. unfold advance. rewrite zlen_app. pose proof (zlen_nonneg d). replace (zlen l >? zlen l + zlen d) with false by lia. rewrite zskipn_app_exact. reflexivity. Qed.
Lemma fits_bytes : forall bl ps, fits bl ps -> bytes (flat ps).
Proof.
  intros bl ps H. induction H; cbn [flat].
  - constructor.
  - apply bytes_app; auto.
  - apply bytes_app; split; auto. apply bytes_wire. apply H0.
  - apply bytes_app; split; auto.
  - rewrite app_nil_r; auto.
Qed.
Lemma canonical_spec : forall bl ps out, fits bl ps -> zlen (flat ps) < 2 ^ 63 -> canonical_loop bl (flat ps) out = Ok (out ++ flat (map lower_piece ps)).
Proof.
  induction bl as [|b bl IH]; intros ps out HF HZ.
  - inversion HF; subst. reflexivity.
  - pose proof (fits_bytes _ _ HF) as HB0. destruct (fits_inv _ _ _ HF) as (p & ps' & -> & HO & HR & HF'). cbn [canonical_loop map]. rewrite flat_cons in *. rewrite zlen_app in HZ.
    pose proof (zlen_nonneg (piece_bytes p)). pose proof (zlen_nonneg (flat ps')).
    assert (NAME : forall ls, p = PName ls -> legal_name ls -> (let* low := dname_to_lower (piece_bytes p ++ flat ps') in let* n := dname_size (piece_bytes p ++ flat ps') in let* d := advance (piece_bytes p ++ flat ps') n in canonical_loop bl d (out ++ low)) = Ok (out ++ flat (lower_piece p :: map lower_piece ps'))).
    { intros ls -> HL. cbn [piece_bytes]. rewrite dname_to_lower_spec by (apply HL). rewrite dname_size_spec by (apply HL). cbn [rbind].
      rewrite <- zlen_wire. rewrite advance_app. cbn [rbind]. rewrite IH by (auto; lia). cbn [lower_piece flat]. rewrite app_assoc. reflexivity. }
    destruct b as [n| | | | |]; destruct p as [l|ls]; cbn [block_ok] in HO; try contradiction; try (apply (NAME ls eq_refl HO)); cbn [piece_bytes lower_piece flat] in *.
    + destruct HO as [<- _]. rewrite take_app, advance_app. cbn [rbind]. rewrite IH by (auto; lia). rewrite app_assoc. reflexivity.
    + destruct HO as [HN HB].
      destruct (naptr_spec (l ++ flat ps') HB0 ltac:(rewrite zlen_app; lia)) as [(n & En & Hn)|(_ & Hx)].
      * pose proof (naptr_complete (l ++ flat ps') l n (zfirstn_app_exact _ _ _) HB0 ltac:(rewrite zlen_app; lia) ltac:(rewrite zlen_app; lia) HN En). subst n. rewrite En. cbn [rbind].
        rewrite take_app, advance_app. cbn [rbind]. rewrite IH by (auto; lia). rewrite app_assoc. reflexivity.
      * exfalso. apply (Hx (zlen l)). destruct HN as (a & b & c & Ga & Gb & Gc & H1 & H2). pose proof (zget_some _ _ _ Ga). pose proof (zget_some _ _ _ Gb). pose proof (zget_some _ _ _ Gc).
        exists a, b, c. rewrite !zget_app_l by lia. repeat split; auto. rewrite zlen_app. lia.
    + rewrite (HR eq_refl). cbn [flat map]. rewrite (HR eq_refl) in HF'. inversion HF'; subst. cbn [canonical_loop]. rewrite app_nil_r. reflexivity.
Qed.
