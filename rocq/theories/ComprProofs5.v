(** Writing of records: the header, the length of RDATA and the whole RRset. *)
From Verif Require Import Base DnameModel DnameSpec DnameProofs DnameProofs2 WireModel WireProofs RrwireModel RrwireSpec RrwireProofs RrwireProofs2 RrwireProofs3 ComprModel ComprSpec ComprProofs ComprProofs2 ComprProofs3 ComprProofs4.

(** ** Numbers *)
Lemma holds_u16 : forall m off v, 0 <= v < 65536 -> holds m off (be 2 v) -> u16_at m off v.
Proof.
  intros m off v Hv H. exists (v / 256), (v mod 256). change (be 2 v) with [(v / 256 ^ 1) mod 256; (v / 256 ^ 0) mod 256] in H.
  change (256 ^ 1) with 256 in H. change (256 ^ 0) with 1 in H. rewrite Z.div_1_r in H.
  assert (E : (v / 256) mod 256 = v / 256) by (apply Z.mod_small; split; [apply Z.div_pos; lia|apply Z.div_lt_upper_bound; lia]). rewrite E in H.
  split; [replace off with (off + 0) by lia; rewrite (H 0) by (cbn; lia); reflexivity|]. split; [rewrite (H 1) by (cbn; lia); reflexivity|]. apply Z.div_mod. lia.
Qed.
Lemma holds_u32 : forall m off v, 0 <= v < 2 ^ 32 -> holds m off (be 4 v) -> u32_at m off v.
Proof.
  intros m off v Hv H. exists (v / 65536), (v mod 65536).
  assert (E : be 4 v = be 2 (v / 65536) ++ be 2 (v mod 65536)).
  { cbn [be app]. change (256 ^ Z.of_nat 3) with (65536 * 256). change (256 ^ Z.of_nat 2) with 65536. change (256 ^ Z.of_nat 1) with 256. change (256 ^ Z.of_nat 0) with 1.
    rewrite !Z.div_1_r, <- Z.div_div by lia. f_equal. f_equal. pose proof (Z.div_mod v 65536 ltac:(lia)) as DM. pose proof (Z.mod_pos_bound v 65536 ltac:(lia)) as MB. set (q := v / 65536) in *. set (w := v mod 65536) in *.
    assert (E1 : v / 256 = q * 256 + w / 256) by (symmetry; apply Z.div_unique with (r := w mod 256); [left; apply Z.mod_pos_bound; lia|pose proof (Z.div_mod w 256 ltac:(lia)); lia]).
    assert (E2 : v mod 256 = w mod 256) by (rewrite DM; replace (65536 * q + w) with (w + (q * 256) * 256) by lia; apply Z.mod_add; lia).
    rewrite E1, E2. f_equal. replace (q * 256 + w / 256) with (w / 256 + q * 256) by lia. apply Z.mod_add. lia. }
  rewrite E in H. apply holds_app_inv in H. destruct H as [H1 H2]. rewrite be_length in H2.
  pose proof (Z.mod_pos_bound v 65536 ltac:(lia)). split; [apply holds_u16; [split; [apply Z.div_pos; lia|apply Z.div_lt_upper_bound; lia]|auto]|]. split; [apply holds_u16; auto|apply Z.div_mod; lia].
Qed.

(** ** The TTL *)
Definition ttl_of (type ttl : Z) (rdata : list Z) (origttl soaminttl : bool) : st -> out Z :=
  if origttl && (type =? 46) then lift (rrsig_original_ttl rdata)
  else if soaminttl && (type =? 6) then do* m := lift (soa_minimum rdata) in ret (Z.min m ttl)
  else ret ttl.
Lemma ttl_spec : forall t ttl ps o sm s, rdata_ok o sm t ps -> 0 <= ttl < 2 ^ 32 ->
  exists v, ttl_of t ttl (flat ps) o sm s = Done v s /\ sent_ttl o sm t ttl (flat ps) v /\ 0 <= v < 2 ^ 32.
Proof.
  intros t ttl ps o sm s [HZ H] Ht. unfold ttl_of, sent_ttl. destruct (o && (t =? 46)) eqn:E1.
  - assert (t = 46) by lia. subst t. destruct H as [H|(_ & H & _)]; [|exfalso; apply H; [destruct o; [auto|discriminate]|auto]].
    assert (HB : bytes (flat ps)) by (eapply fits_bytes; apply (lay_fits [BFixed 18; BName; BRem]); exact H).
    assert (L : 8 <= zlen (flat ps)). { change (rfc_layout 46) with [Octets 18; Name; Rest] in H. inversion H as [|? ? l ps' HL _ _| | |]; subst. cbn [flat]. rewrite zlen_app. pose proof (zlen_nonneg (flat ps')). lia. }
    destruct (u32_exists (flat ps) 4 HB ltac:(lia) ltac:(lia)) as (v & U & Hv & Ev). exists v. unfold rrsig_original_ttl. rewrite rdn_ok by lia. cbn [rbind lift]. rewrite Ev. auto.
  - destruct (sm && (t =? 6)) eqn:E2; [|exists ttl; split; [reflexivity|auto]].
    assert (t = 6) by lia. subst t. destruct H as [H|(_ & _ & H)]; [|exfalso; apply H; [destruct sm; [auto|discriminate]|auto]].
    assert (HB : bytes (flat ps)) by (eapply fits_bytes; apply (lay_fits [BName; BName; BFixed 20]); exact H).
    change (rfc_layout 6) with [Name; Name; Octets 20] in H. inversion H as [| |? l1 ps1 HL1 H1| |]; subst. inversion H1 as [| |? l2 ps2 HL2 H2| |]; subst. inversion H2 as [|? ? l ps3 HL3 _ H3| | |]; subst. inversion H3; subst.
    cbn [flat] in *. rewrite app_nil_r in *.
    assert (LZ : zlen (dwire l1 ++ dwire l2 ++ l) = name_size l1 + name_size l2 + 20) by (rewrite !zlen_app, !zlen_wire; lia). pose proof (name_size_ge1 l1). pose proof (name_size_ge1 l2).
    destruct (u32_exists (dwire l1 ++ dwire l2 ++ l) (name_size l1 + name_size l2 + 16) HB ltac:(lia) ltac:(lia)) as (v & U & Hv & Ev).
    exists (Z.min v ttl). unfold soa_minimum. unfold bind. rewrite dname_size_spec by (try apply HL1; try apply HL2; auto). cbn [rbind].
    replace (advance (dwire l1 ++ dwire l2 ++ l) (name_size l1)) with (Ok (dwire l2 ++ l) : res (list Z)) by (rewrite <- zlen_wire; symmetry; apply RrwireProofs2.advance_app). cbn [rbind].
    rewrite dname_size_spec by (try apply HL1; try apply HL2; auto). cbn [rbind]. rewrite rdn_ok by lia. cbn [rbind lift]. rewrite Ev. split; [reflexivity|]. split; [|lia]. exists v. split; [|auto]. replace (zlen (dwire l1 ++ dwire l2 ++ l) - 4) with (name_size l1 + name_size l2 + 16) by lia. exact U.
Qed.

Lemma fixed_header_spec : forall al nr wn s t c ttl ps o sm, good al nr wn s -> rdata_ok o sm t ps -> 0 <= ttl < 2 ^ 32 ->
  match write_fixed_header t c ttl (flat ps) o sm s with
  | Done _ s' => adv s s' 8 /\ good al nr wn s' /\ s_compr s' = s_compr s /\ exists v, sent_ttl o sm t ttl (flat ps) v /\ 0 <= v < 2 ^ 32 /\ holds (s_mem s') (s_dst s) (be 2 t ++ be 2 c ++ be 4 v)
  | Fail e s' => e = KNOT_ESPACE /\ s_avail s < 8 /\ failed s s'
  | _ => False
  end.
Proof.
  intros al nr wn s t c ttl ps o sm HG HR Ht. destruct (ttl_spec t ttl ps o sm s HR Ht) as (v & E & HS & Hv).
  unfold write_fixed_header. fold (ttl_of t ttl (flat ps) o sm). unfold bind at 1. rewrite E. unfold bind at 1.
  destruct (write_be_spec al nr wn s 2 t HG ltac:(lia)) as [(H2 & s1 & -> & A1 & C1 & W1 & G1)|(H2 & ->)]; [|split; [auto|split; [lia|apply failed_refl]]].
  unfold bind. pose proof A1 as (D1 & Sd1 & Sa1 & _).
  destruct (write_be_spec al nr wn s1 2 c G1 ltac:(lia)) as [(H3 & s2 & -> & A2 & C2 & W2 & G2)|(H3 & ->)]; [|split; [auto|split; [lia|eapply adv_failed; [exact A1|apply failed_refl]]]].
  pose proof A2 as (D2 & Sd2 & Sa2 & _). pose proof (adv_trans _ _ _ _ _ A1 A2) as A12.
  destruct (write_be_spec al nr wn s2 4 v G2 ltac:(lia)) as [(H4 & s3 & -> & A3 & C3 & W3 & G3)|(H4 & ->)]; [|split; [auto|split; [lia|eapply adv_failed; [exact A12|apply failed_refl]]]].
  pose proof A3 as (D3 & Sd3 & Sa3 & _). split; [exact (adv_trans _ _ _ _ _ A12 A3)|]. split; [auto|]. split; [congruence|]. exists v. split; [auto|]. split; [auto|].
  change (Z.to_nat 2) with 2%nat in *. change (Z.to_nat 4) with 4%nat in *.
  apply holds_app; [|apply holds_app]; rewrite ?be_length.
  - eapply holds_differ; [eapply holds_differ; [exact W1|exact D2|rewrite be_length; lia]|exact D3|rewrite be_length; lia].
  - replace (s_dst s + Z.of_nat 2) with (s_dst s1) by lia. eapply holds_differ; [exact W2|exact D3|rewrite be_length; lia].
  - replace (s_dst s + Z.of_nat 2 + Z.of_nat 2) with (s_dst s2) by lia. exact W3.
Qed.

(** ** RDATA *)
Lemma desc_cases : forall t, get_desc t = parse_desc t \/ snd (get_desc t) = [BRem].
Proof. intros t. unfold parse_desc. destruct (fst (get_desc t)) eqn:E; [left; auto|right]. unfold get_desc in *. destruct (rdata_descriptors t); [discriminate|reflexivity]. Qed.
Lemma compr_table : forall t, ~ In t compressible -> ~ In BCompr (snd (get_desc t)).
Proof.
  intros t H HI. apply H. revert HI. unfold get_desc, rdata_descriptors. clear H. unfold compressible.
  repeat match goal with |- context [match ?x with _ => _ end] => is_var x; destruct x end; cbn; intros HI; try tauto; repeat (destruct HI as [HI|HI]; [discriminate|]); tauto.
Qed.
(** plain octets are pieces *)
Lemma holds_pieces : forall wn m c bl ps off, fits bl ps -> free wn off -> off + zlen (flat ps) = c -> c <= zlen m -> holds m off (flat ps) -> pieces_at (view wn m c) c off ps c.
Proof.
  intros wn m c bl ps. revert bl. induction ps as [|p ps IH]; intros bl off HF HW HC HM HH.
  - cbn in HC. replace off with c by lia. constructor.
  - destruct bl as [|b bl]; [inversion HF|]. destruct (fits_inv _ _ _ HF) as (p' & ps' & E & HO & _ & HF'). injection E as <- <-. rewrite flat_cons in *. rewrite zlen_app in HC. apply holds_app_inv in HH. destruct HH as [H1 H2].
    pose proof HW as (H0 & _). pose proof (zlen_nonneg (flat ps)). pose proof (zlen_nonneg (piece_bytes p)). specialize (IH bl (off + zlen (piece_bytes p)) HF' ltac:(eapply free_more; [exact HW|lia]) ltac:(lia) HM H2).
    destruct p as [l|ls]; cbn [piece_bytes] in *.
    + apply pa_data; auto; rewrite ?zlen_view; try lia. apply holds_view; auto. lia.
    + rewrite zlen_wire in *. apply pa_name with (n := name_size ls); [|exact IH]. unfold zfirstn; rewrite firstn_all2 by (pose proof (zlen_view wn m c ltac:(lia)); unfold zlen in *; lia). apply plain_name; auto; [|lia]. destruct b; cbn in HO; try contradiction; apply HO.
Qed.

Lemma write_rdata_spec : forall al nr lo s t i ps o sm, good al nr (mkwin lo (-2)) s -> rdata_ok o sm t ps -> 0 <= i -> (forall ls, In (PName ls) ps -> al (1 + i) (lower_name ls)) ->
  match write_rdata t i (flat ps) s with
  | Done _ s' => exists n ps', adv s s' (2 + n) /\ n <= zlen (flat ps) /\ good al nr (mkwin lo (-2)) s' /\ map lower_piece ps' = map lower_piece ps /\ (ps <> [] -> lay_out (rfc_layout t) ps') /\
      0 <= n < 65536 /\ holds (s_mem s') (s_dst s) (be 2 n) /\ data_bytes ps' /\
      pieces_at (view (mkwin lo (-2)) (s_mem s') (s_dst s + 2 + n)) (s_dst s + 2 + n) (s_dst s + 2) ps' (s_dst s + 2 + n) /\
      (s_compr s = None \/ ~ In t compressible -> ps' = ps /\ n = zlen (flat ps))
  | Fail e s' => e = KNOT_ESPACE /\ s_avail s < 2 + zlen (flat ps) /\ failed s s'
  | _ => False
  end.
Proof.
  intros al nr lo s t i ps o sm HG HR Hi Hal. set (wn := mkwin lo (-2)) in *. pose proof HG as ((HB & HF & Ha & Hl & H64) & HC). pose proof HF as (Hd & Hlo & _). cbn [wn w_lo] in Hlo. pose proof (zlen_nonneg (flat ps)) as HZ0.
  unfold write_rdata. unfold bind at 1. cbn [get]. destruct (2 >? s_avail s) eqn:E2; [cbn [fail]; split; [auto|split; [lia|apply failed_refl]]|].
  unfold bind at 1, move. set (s1 := {| s_mem := s_mem s; s_dst := _; s_avail := _; s_compr := _ |}). set (wh := mkwin lo (s_dst s)).
  assert (G1 : good al nr wh s1).
  { split; [split; [exact HB|]|]; cbn [s1 s_mem s_dst s_avail s_compr].
    - split; [unfold free; cbn [wh w_lo w_hole]; lia|lia].
    - eapply ctx_mono'; [exact HC| |exact HB|split; [auto|auto]|lia|lia]. intros j Hj. unfold hidden. cbn [wn wh w_lo w_hole]. lia. }
  set (SRC := if zlen (flat ps) >? 0 then traverse_write (snd (get_desc t)) (flat ps) (1 + i) else ret (flat ps)).
  assert (TW : match SRC s1 with
    | Done r s' => r = [] /\ exists n ps', adv s1 s' n /\ n <= zlen (flat ps) /\ good al nr wh s' /\ (ps <> [] -> lay_out (rfc_layout t) ps') /\ map lower_piece ps' = map lower_piece ps /\ data_bytes ps' /\
        pieces_at (view wh (s_mem s') (s_dst s1 + n)) (s_dst s1 + n) (s_dst s1) ps' (s_dst s1 + n) /\ (s_compr s = None \/ ~ In t compressible -> ps' = ps /\ n = zlen (flat ps))
    | Fail e s' => e = KNOT_ESPACE /\ s_avail s1 < zlen (flat ps) /\ failed s1 s'
    | _ => False end).
  { destruct HR as [HZ HR]. unfold SRC. pose proof G1 as ((HB1 & HF1 & Ha1 & Hl1 & _) & _). pose proof HF1 as (Hd1 & _). destruct (zlen (flat ps) >? 0) eqn:E0.
    - destruct HR as [HR|(-> & _)]; [|cbn in E0; discriminate]. assert (HFt : fits (snd (parse_desc t)) ps) by (apply lay_fits; rewrite layout_table; exact HR).
      destruct (desc_cases t) as [Hg|Hg].
      + pose proof (traverse_write_spec al nr wh (snd (get_desc t)) ps (1 + i) s1 ltac:(rewrite Hg; exact HFt) G1 ltac:(lia) Hal HZ) as TW.
        destruct (traverse_write (snd (get_desc t)) (flat ps) (1 + i) s1) as [r s'|e s'| |]; try contradiction; [|exact TW]. destruct TW as (-> & n & ps' & A & Hn & G & HF2 & Hlow & HP & Hx). split; [auto|]. exists n, ps'.
        split; [auto|]. split; [auto|]. split; [auto|]. split; [intros _; rewrite <- layout_table; apply lay_fits; rewrite <- Hg; auto|]. split; [auto|]. split; [eapply fits_data; eauto|]. split; [auto|].
        intros [H|H]; apply Hx; [left; exact H|right; apply compr_table; auto].
      + rewrite Hg. pose proof (fits_bytes _ _ HFt) as HBf. assert (FL : flat [PData (flat ps)] = flat ps) by (cbn [flat]; apply app_nil_r).
        pose proof (traverse_write_spec al nr wh [BRem] [PData (flat ps)] (1 + i) s1 ltac:(constructor; auto) G1 ltac:(lia) ltac:(intros ls [H|[]]; discriminate) ltac:(rewrite FL; auto)) as TW. rewrite FL in TW.
        destruct (traverse_write [BRem] (flat ps) (1 + i) s1) as [r s'|e s'| |]; try contradiction; [|exact TW]. destruct TW as (-> & n & ps' & A & Hn & G & HF2 & Hlow & HP & Hx). split; [auto|].
        destruct Hx as [-> ->]; [right; intros [H|[]]; discriminate|]. exists (zlen (flat ps)), ps.
        split; [auto|]. split; [lia|]. split; [auto|]. split; [auto|]. split; [auto|]. split; [eapply fits_data; eauto|]. split; [|auto].
        pose proof A as ((DL & _) & _ & _ & Hn' & _).
        eapply holds_pieces; [exact HFt|exact HF1|lia|lia|]. inversion HP as [|? l ? ? ? ? HZl HH|]; subst. intros j Hj. specialize (HH j Hj). rewrite zget_view in HH by lia. replace (_ && _) with true in HH by lia. rewrite (free_visible wh (s_dst s1)) in HH by (auto; lia). exact HH.
    - assert (E : flat ps = []) by (apply zlen_0_nil; lia). cbn [ret]. split; [auto|]. exists 0, ps. replace (s_dst s1 + 0) with (s_dst s1) by lia.
      split. { split; [apply differ_refl|]. split; [lia|]. split; [lia|]. split; [lia|tauto]. }
      split; [lia|]. split; [auto|]. split. { intros Hne. destruct HR as [HR|(HR & _)]; [auto|contradiction]. } split; [auto|].
      assert (HD : data_bytes ps). { destruct HR as [HR|(-> & _)]; [|constructor]. eapply fits_data. apply (lay_fits (snd (parse_desc t))). rewrite layout_table. exact HR. }
      split; [auto|]. split; [|split; [auto|lia]].
      destruct HR as [HR|(-> & _)]; [|constructor]. apply (holds_pieces wh (s_mem s1) (s_dst s1) (snd (parse_desc t)) ps (s_dst s1)); [apply lay_fits; rewrite layout_table; exact HR|exact HF1|lia|lia|]. rewrite E. intros j Hj. cbn in Hj. lia. }
  unfold bind at 1. destruct (SRC s1) as [r s2|e s2| |]; try contradiction.
  2: { destruct TW as (-> & Hgt & Hf). cbn [s1 s_avail] in Hgt. split; [auto|]. split; [lia|]. unfold failed in *. cbn [s1 s_mem s_dst s_avail] in Hf. eapply differ_wide; [exact Hf|lia|lia]. }
  destruct TW as (-> & n & ps' & A & Hn & G & HLy & Hlow & HD & HP & Hx). change (zlen ([] : list Z) >? 0) with false. cbn [s1 s_dst] in HP.
  pose proof A as (D & Sd & Sa & Hn' & CC). cbn [s1 s_mem s_dst s_avail s_compr] in D, Sd, Sa, Hn', CC. pose proof D as (DL & DB & DD). pose proof (DB HB) as HB2.
  unfold bind at 1. cbn [get]. assert (U : u16 (s_dst s2 - (s_dst s + 2)) = n) by (unfold u16; rewrite Z.mod_small; lia). rewrite U.
  assert (L2 : zlen (be 2 n) = 2) by (rewrite be_length; reflexivity). rewrite put_ok by lia.
  pose proof (differ_overwrite (s_mem s2) (s_dst s) (be 2 n) Hd ltac:(lia) (be_bytes _ _)) as D3. rewrite L2 in D3. pose proof D3 as (DL3 & DB3 & DD3). set (s3 := with_mem s2 _).
  assert (K : keeps wh (s_mem s2) (s_mem s3) (s_dst s + 2 + n)). { split; [auto|]. intros j Hj Hh. cbn [s3 with_mem s_mem]. apply DD3. unfold hidden in Hh. cbn [wh w_lo w_hole] in Hh. lia. }
  assert (WD : wider (s_dst s + 2 + n) wh wn). { intros j Hj. unfold hidden. cbn [wn wh w_lo w_hole]. lia. }
  assert (A3 : adv s s3 (2 + n)).
  { split; [|cbn [s3 with_mem s_mem s_dst s_avail s_compr]; split; [lia|split; [lia|split; [lia|exact CC]]]].
    eapply differ_trans; [eapply differ_wide with (a' := s_dst s) (b' := s_dst s + (2 + n)); [exact D|lia|lia]|eapply differ_wide with (a' := s_dst s) (b' := s_dst s + (2 + n)); [exact D3|lia|lia]|lia|lia]. }
  exists n, ps'. split; [exact A3|]. split; [auto|].
  split. { split; [eapply sized_adv; [|exact A3]; apply HG|]. cbn [s3 with_mem s_mem s_dst s_compr]. apply (ctx_mono' al nr wh wn (s_mem s2) _ (s_dst s2) _ _ (proj2 G)); [rewrite Sd; exact WD|exact HB2|rewrite Sd; exact K|lia|lia]. }
  split; [auto|]. split; [auto|]. split; [lia|]. split; [apply holds_overwrite; lia|]. split; [auto|]. split; [|exact Hx].
  eapply vpieces_mono; [exact HB2|exact WD|lia|lia|cbn [s3 with_mem s_mem]; lia|apply K|exact HD|exact HP].
Qed.
