(** Filling of messages: the calls keep the invariant. *)
From Verif Require Import Base DnameModel DnameSpec DnameProofs DnameProofs2 WireModel WireProofs RrwireModel RrwireSpec RrwireProofs RrwireProofs2 RrwireProofs3 ComprModel ComprSpec ComprProofs ComprProofs2 ComprProofs3 ComprProofs4 ComprProofs5 ComprProofs6 PutModel PutSpec PutProofs.

Lemma eok_eq : forall r, (r =? KNOT_EOK) = true -> r = KNOT_EOK. Proof. intros; lia. Qed.
Lemma remaining_ok : forall p m, Inv p m -> pkt_remaining p = p_max p - p_size p - p_reserved p /\ 0 <= pkt_remaining p.
Proof. intros p m (HB & H64 & Hs & Hr & Hm & Hw & _). unfold pkt_remaining, u16. rewrite Z.mod_small by lia. lia. Qed.
Lemma item_count : forall p m, Inv p m -> zlen (m_items m) <= zlen (records_of (m_items m)) /\ 11 * zlen (records_of (m_items m)) <= p_size p.
Proof.
  intros p m (HB & H64 & Hs & Hr & Hm & Hw & HQs & HRR & HH & ((rs & HR & HSm & HF) & HQn) & HSec & HD & _). split; [apply items_le; auto|]. apply recs_count in HR. rewrite (Forall2_zlen _ _ _ _ _ HF).
  assert (12 <= qend m) by (unfold qend; destruct (m_question m) as [[[q ?] ?]|]; [pose proof (name_size_ge1 q)|]; lia). lia.
Qed.

Lemma begin_inv : forall p m s, Inv p m -> 0 <= s <= 2 -> Inv (snd (pkt_begin p s)) (effect (CBegin s) (fst (pkt_begin p s)) m).
Proof.
  intros p m s HI Hs. pose proof (item_count _ _ HI) as HC. pose proof HI as (HB & H64 & Hs12 & Hr & Hm & Hw & HQs & HRR & HH & HBd & (Hcur & Hc2 & HL3 & HFa & HIS & HSec) & HD & HX & HLi).
  unfold pkt_begin. destruct (s <? p_current p) eqn:E; cbn [fst snd effect]; [exact HI|]. change (KNOT_EOK =? KNOT_EOK) with true. cbn iota.
  do 10 (split; [assumption|]). split; [|auto]. unfold sections_ok. cbn [with_section p_current p_sections m_section m_items]. split; [auto|]. split; [auto|]. split; [destruct (s >? p_current p); rewrite ?set_nth_len; auto|].
  split; [eapply Forall_impl; [|exact HFa]; cbn; intros; lia|]. split; [auto|].
  intros k Hk. specialize (HSec k Hk). destruct HSec as [H1 H2]. unfold section_of in *. cbn [with_section p_sections]. destruct (s >? p_current p) eqn:E2.
  - destruct (Z.eq_dec k s) as [->|Hne].
    + rewrite set_nth_same by (rewrite HL3; lia). cbn [fst snd]. split; [auto|]. intros _. rewrite HRR. unfold zlen at 1. rewrite map_length. fold (zlen (m_items m)). unfold u16. rewrite Z.mod_small by (pose proof (zlen_nonneg (m_items m)); lia).
      f_equal. symmetry. clear - HFa E2 Hcur. induction HFa; cbn; [auto|]. replace (_ <? s) with true by lia. f_equal; auto.
    + rewrite set_nth_other by lia. split; [auto|]. intros [H|H]; [|lia]. apply H2. auto.
  - split; [auto|]. intros [H|H]; apply H2; [auto|]. right. lia.
Qed.

Lemma reserve_inv : forall p m n, Inv p m -> 0 <= n < 65536 -> Inv (snd (pkt_reserve p n)) m /\ Inv (snd (pkt_reclaim p n)) m.
Proof.
  intros p m n HI Hn. pose proof (remaining_ok _ _ HI) as [HR HR0]. pose proof HI as (HB & H64 & Hs12 & Hr & Hm & Hw & HRest). unfold pkt_reserve, pkt_reclaim. split.
  - destruct (pkt_remaining p >=? n) eqn:E; cbn [snd]; [|auto]. assert (U : u16 (p_reserved p + n) = p_reserved p + n) by (unfold u16; apply Z.mod_small; lia). rewrite U. unfold Inv in *. cbn [with_reserved p_wire p_size p_max p_reserved p_qname_size p_rr p_info p_suffix]. do 3 (split; [assumption|]). split; [lia|]. split; [lia|]. split; [assumption|]. exact HRest.
  - destruct (p_reserved p >=? n) eqn:E; cbn [snd]; [|auto]. unfold Inv in *. cbn [with_reserved p_wire p_size p_max p_reserved p_qname_size p_rr p_info p_suffix]. do 3 (split; [assumption|]). split; [lia|]. split; [lia|]. split; [assumption|]. exact HRest.
Qed.

Definition any (id : Z) (x : list label) : Prop := True.

(** the writes of the question *)
Lemma question_write : forall w q cl t max, bytes w -> zlen w <= 65535 -> 12 <= max <= zlen w -> legal_name q ->
  let r := (do* qname_len := dname_to_wire 12 (dwire q) (max - 12) in do* _ := move qname_len in do* _ := write_be 2 t in do* _ := write_be 2 cl in ret qname_len) (mkst w 12 (max - 12) None) in
  (12 + name_size q + 4 <= max /\ exists s, r = Done (name_size q) s /\ s_dst s = 12 + name_size q + 4 /\ differ w (s_mem s) 12 (12 + name_size q + 4) /\ holds (s_mem s) 12 (dwire q ++ be 2 t ++ be 2 cl)) \/
  (max < 12 + name_size q + 4 /\ exists s, r = Fail KNOT_ESPACE s /\ differ w (s_mem s) 12 max).
Proof.
  intros w q cl t max HB H64 Hm HL r. pose proof (name_size_ge1 q). assert (Hr : r = r) by reflexivity. unfold r at 2 in Hr. clearbody r. unfold bind at 1 in Hr.
  destruct (dname_to_wire_spec q [] 12 (max - 12) (mkst w 12 (max - 12) None) (proj1 HL) ltac:(lia) ltac:(cbn [s_mem]; lia)) as [(H1 & s1 & E & (D1 & Sd1 & Sa1 & Sc1) & HH)|(H1 & E)]; rewrite app_nil_r in E; rewrite E in Hr.
  2: { right. split; [lia|]. eexists. split; [exact Hr|]. apply differ_refl. }
  cbn [s_mem s_dst s_avail s_compr] in *. unfold bind at 1, move in Hr. rewrite Sd1, Sa1, Sc1 in Hr. set (s2 := mkst (s_mem s1) (12 + name_size q) (max - 12 - name_size q) None) in *. pose proof D1 as (DL1 & DB1 & _).
  assert (G2 : good any false WN s2). { split; [split; [apply DB1; auto|]|exact I]. cbn [s2 s_mem s_dst s_avail]. split; [unfold free; cbn [WN w_lo w_hole]; lia|lia]. }
  unfold bind at 1 in Hr. destruct (write_be_spec any false WN s2 2 t G2 ltac:(lia)) as [(H2 & s3 & E3 & A3 & C3 & W3 & G3)|(H2 & E3)]; rewrite E3 in Hr.
  2: { right. cbn [s2 s_avail] in H2. split; [lia|]. eexists. split; [exact Hr|]. cbn [s2 s_mem]. eapply differ_wide; [exact D1|lia|lia]. }
  pose proof A3 as (D3 & Sd3 & Sa3 & _). cbn [s2 s_mem s_dst s_avail] in *. unfold bind in Hr. destruct (write_be_spec any false WN s3 2 cl G3 ltac:(lia)) as [(H4 & s4 & E4 & A4 & C4 & W4 & G4)|(H4 & E4)]; rewrite E4 in Hr.
  2: { right. split; [lia|]. eexists. split; [exact Hr|]. eapply differ_trans; [eapply differ_wide with (a' := 12) (b' := max); [exact D1|lia|lia]|eapply differ_wide with (a' := 12) (b' := max); [exact D3|lia|lia]|lia|lia]. }
  pose proof A4 as (D4 & Sd4 & Sa4 & _). left. split; [lia|]. exists s4. split; [exact Hr|]. split; [lia|]. change (Z.to_nat 2) with 2%nat in *. split.
  - eapply differ_trans; [eapply differ_trans; [eapply differ_wide with (a' := 12) (b' := 12 + name_size q + 4); [exact D1|lia|lia]|eapply differ_wide with (a' := 12) (b' := 12 + name_size q + 4); [exact D3|lia|lia]|lia|lia]|eapply differ_wide with (a' := 12) (b' := 12 + name_size q + 4); [exact D4|lia|lia]|lia|lia].
  - apply holds_app; [|apply holds_app]; rewrite ?zlen_wire, ?be_length.
    + eapply holds_differ; [eapply holds_differ; [exact HH|exact D3|rewrite zlen_wire; lia]|exact D4|rewrite zlen_wire; lia].
    + eapply holds_differ; [exact W3|exact D4|rewrite be_length; lia].
    + replace (12 + name_size q + Z.of_nat 2) with (s_dst s3) by lia. exact W4.
Qed.

Lemma plain_flat : forall w q size, legal_name q -> bytes w -> 12 + name_size q <= size -> size <= zlen w -> holds w 12 (dwire q) -> flat_at WN w size 12 q.
Proof.
  intros w q size [HL HS] HB H1 H2 HH. pose proof (name_size_ge1 q). unfold KNOT_DNAME_MAXLEN in *. assert (HF : free WN 12) by (unfold free; cbn [WN w_lo w_hole]; lia).
  assert (HM : 12 + name_size q <= lim size) by (unfold lim, PTR_MAX; lia). pose proof (lim_le size). split; [exists (name_size q); apply plain_name; auto; lia|]. split; [|lia].
  pose proof (holds_view WN w (lim size) 12 (dwire q) HH HF ltac:(rewrite zlen_wire; lia) ltac:(lia)) as HV. specialize (HV 0 ltac:(rewrite zlen_wire; lia)).
  destruct q as [|l q]; [exists 0; split; [exact HV|lia]|]. exists (zlen l). split; [exact HV|]. inversion HL as [|? ? [Hl _] _]; subst. lia.
Qed.

Lemma question_inv : forall p m q cl t, Inv p m -> allowed_call p m (CQuestion q cl t) ->
  exists ret p', pkt_put_question p (dwire q) cl t = Ok (ret, p') /\ Inv p' (effect (CQuestion q cl t) ret m) /\ (ret = KNOT_EOK <-> 12 + name_size q + 4 <= p_max p) /\
    (ret <> KNOT_EOK -> ret = KNOT_ESPACE /\ p_size p' = p_size p /\ differ (p_wire p) (p_wire p') (p_size p) (p_max p)).
Proof.
  intros p m q cl t HI (HL & Hcl & Ht & HQN & HS0 & HIt & HR0).
  pose proof HI as (HB & H64 & Hs12 & Hr & Hm & Hw & HQs & HRR & (HH1 & HH2) & HBd & HSec & HD & HX & HLi). pose proof HBd as ((rs & HRs & HSm & HF) & _).
  assert (HSz : p_size p = 12). { rewrite HIt in HF. inversion HF; subst. unfold qend in HRs. rewrite HQN in HRs. inversion HRs. auto. }
  unfold pkt_put_question. rewrite HSz. rewrite HRR, HIt. cbn [map]. change (negb (12 =? 12) || negb (zlen ([] : list (Z * Z)) =? 0)) with false. cbn iota.
  destruct (question_write (p_wire p) q cl t (p_max p) HB H64 ltac:(lia) HL) as [(H1 & s & -> & Sd & D & HH)|(H1 & s & -> & D)].
  2: { eexists. eexists. split; [reflexivity|]. cbn [effect]. change (KNOT_ESPACE =? KNOT_EOK) with false. cbn iota. pose proof D as (DL & DB & DD). split; [|split; [split; [discriminate|lia]|intros _; auto]].
    unfold Inv in *. cbn [with_wire p_wire p_size p_max p_reserved p_qname_size p_rr p_info p_suffix]. split; [apply DB; auto|]. split; [lia|]. do 3 (split; [assumption|]). split; [lia|]. do 2 (split; [assumption|]). split.
    - split; [eapply differ_u16; [exact D|auto|lia]|]. intros k Hk. eapply differ_u16; [exact D|auto|lia].
    - split; [|split; [exact HSec|auto]]. eapply body_keep; [exact HBd| |auto|rewrite HSz; unfold qend; rewrite HQN; lia]. rewrite HSz. eapply differ_keeps; [exact D|lia]. }
  pose proof D as (DL & DB & DD). pose proof (name_size_ge1 q).
  destruct (set16_ok (s_mem s) 4 1 (DB HB) ltac:(lia) ltac:(lia) ltac:(lia)) as (w & Ew & Dw & Uw). pose proof Dw as (DLw & DBw & DDw). rewrite Ew. cbn [rbind].
  set (m' := mkmsg (Some (q, cl, t)) (m_section m) (m_items m) (m_broken m)). set (p1 := with_qname (with_size (with_wire p w) (s_dst s)) (name_size q)).
  assert (HI1 : Inv p1 m').
  { unfold Inv. cbn [p1 with_qname with_size with_wire p_wire p_size p_max p_reserved p_qname_size p_rr p_info p_suffix m' m_question m_items]. split; [auto|]. split; [lia|]. do 3 (split; [lia|]). split; [lia|]. split; [auto|]. split; [assumption|]. split; [|split; [|split; [|split; [assumption|split; [discriminate|assumption]]]]].
    - split; [exact Uw|]. intros k Hk. cbn [m' m_items]. eapply differ_u16; [exact Dw| |lia]. eapply differ_u16; [exact D|auto|lia].
    - assert (HHw : holds w 12 (dwire q ++ be 2 t ++ be 2 cl)). { intros i Hi. rewrite DDw by lia. apply HH. auto. }
      split. { exists []. unfold qend. cbn [m' m_question m_items]. rewrite HIt. split; [rewrite Sd; constructor|]. split; constructor. }
      cbn [m' m_question m_items m_broken]. split; [auto|]. split; [auto|]. split; [auto|]. split; [auto|]. split; [apply plain_flat; auto; try lia; apply holds_app_inv in HHw; apply HHw|].
      split; [|right; left; rewrite (HX HQN); reflexivity]. rewrite HIt in *. destruct (p_info p); [constructor|discriminate].
    - exact HSec. }
  assert (HBg : pkt_begin p1 0 = (KNOT_EOK, with_section p1 0 (p_sections p1))). { unfold pkt_begin. destruct HSec as (Hcur & _). cbn [p1 with_qname with_size with_wire p_current]. rewrite Hcur, HS0. reflexivity. }
  rewrite HBg. eexists. eexists. split; [reflexivity|]. cbn [effect]. change (KNOT_EOK =? KNOT_EOK) with true. cbn iota. fold m'. split; [|split; [tauto|congruence]].
  pose proof (begin_inv p1 m' 0 HI1 ltac:(lia)) as BI. rewrite HBg in BI. cbn [fst snd effect] in BI. change (KNOT_EOK =? KNOT_EOK) with true in BI. cbn iota in BI. cbn [m' m_question m_items m_broken] in BI. unfold m'. rewrite HS0. exact BI.
Qed.
