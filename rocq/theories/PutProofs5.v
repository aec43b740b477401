(** Filling of messages: reading of what was written, sequences of names. *)
From Verif Require Import Base DnameModel DnameSpec DnameProofs DnameProofs2 WireModel WireProofs RrwireModel RrwireSpec RrwireProofs RrwireProofs2 RrwireProofs3 ComprModel ComprSpec ComprProofs ComprProofs2 ComprProofs3 ComprProofs4 ComprProofs5 ComprProofs6 PutModel PutSpec PutProofs PutProofs2 PutProofs3 PutProofs4.

Lemma pieces_longer : forall m e pos ps next, pieces_at m e pos ps next -> pos <= next /\ (0 < zlen (flat ps) -> pos < next).
Proof.
  intros m e pos ps next H. induction H as [pos|pos l ps next H0 H1 H2 H3 H4 IH|pos ls n ps next HE H4 IH]; cbn [flat].
  - cbn. lia.
  - rewrite zlen_app. pose proof (zlen_nonneg l). lia.
  - rewrite zlen_app. destruct (encodes_window _ _ _ _ _ HE). lia.
Qed.

Lemma compact_reads : forall m pos r e canonical o sm owner t c ttl ps, compact_at m pos r e -> bytes m -> zlen m <= 65535 -> 0 <= pos -> sent o sm owner t c ttl ps r -> readable c t ps ->
  rr_from_wire m pos canonical true true = Ok (KNOT_EOK, e, SFilled (to_rr (if canonical then canonical_record r else r))).
Proof.
  intros m pos r e canonical o sm owner t c ttl ps (d & HFd & HP & HZ) HB HM Hp (HL & HLow & HT & HC & HTtl & HMap & HLay & HNC) HR. pose proof (flat_len_eq _ _ HMap) as HFL.
  apply rr_from_wire_complete with (d := d); auto; try lia.
  - destruct HR as [HR|[-> _]]; [lia|cbn in HFL; lia].
  - rewrite HT, HC. destruct HR as [HR|[-> HE]].
    + left. split; [apply (proj2 (pieces_longer _ _ _ _ _ HP)); lia|]. apply HLay. intros ->. cbn in HR. lia.
    + right. split; [destruct (r_data r); [auto|discriminate]|auto].
Qed.

Lemma lower_types : forall t, In t compressible -> existsb (Z.eqb t) lowered_types = true.
Proof. intros t H. unfold compressible in H. cbn in H. repeat (destruct H as [<-|H]; [reflexivity|]). destruct H. Qed.

Lemma canonical_sent : forall o sm owner t c ttl ps r, sent o sm owner t c ttl ps r -> canonical_record r = canonical_record (mkrecord owner t c (r_ttl r) ps).
Proof.
  intros o sm owner t c ttl ps r (HL & HLow & HT & HC & HTtl & HMap & HLay & HNC). unfold canonical_record. cbn [r_owner r_type r_class r_ttl r_data]. rewrite HLow, HT, HC. f_equal.
  destruct (existsb (Z.eqb t) lowered_types) eqn:E; [auto|]. apply HNC. intros Hi. rewrite (lower_types _ Hi) in E. discriminate.
Qed.

Lemma reads_message : forall m pos rs e l, records_at m pos rs e -> bytes m -> zlen m <= 65535 -> 0 <= pos -> Forall2 is_record l rs ->
  Forall (fun x => readable (x_class (i_rrs (fst x))) (x_type (i_rrs (fst x))) (snd x)) l -> exists xs, reads m true pos xs e /\ Forall2 canonical_of l xs.
Proof.
  intros m pos rs e l H HB HM. revert l. induction H as [pos|pos r mid rs e H1 H2 IH]; intros l Hp HF HR.
  - inversion HF; subst. exists []. split; constructor.
  - inversion HF as [|x ? l' ? Hx HF']; subst. inversion HR as [|? ? R1 R2]; subst. destruct x as [i ps]. unfold is_record in Hx. cbn [fst snd] in *.
    pose proof (compact_reads _ _ _ _ true _ _ _ _ _ _ _ H1 HB HM Hp Hx R1) as E. cbn iota in E.
    assert (Hmid : pos <= mid). { destruct H1 as (d & (n & rdlen & HE & Hd & He & _) & HP & _). pose proof (encodes_window _ _ _ _ _ HE). pose proof (proj1 (pieces_longer _ _ _ _ _ HP)). lia. }
    destruct (IH l' ltac:(lia) HF' R2) as (xs & HX & HXF). exists (to_rr (canonical_record r) :: xs). split; [econstructor; eauto|]. constructor; [|auto].
    exists (r_ttl r). cbn [fst snd]. split; [apply Hx|]. rewrite <- (canonical_sent _ _ _ _ _ _ _ _ Hx). reflexivity.
Qed.

Lemma reads_exact : forall m owner t c ttl pos rs e l, records_at m pos rs e -> bytes m -> zlen m <= 65535 -> 0 <= pos -> Forall2 (sent false false owner t c ttl) l rs -> Forall (readable c t) l ->
  Forall (fun r => r_owner r = owner) rs -> map r_data rs = l -> reads m false pos (map (fun ps => mkrr (dwire owner) t c ttl (flat ps)) l) e.
Proof.
  intros m owner t c ttl pos rs e l H HB HM. revert l. induction H as [pos|pos r mid rs e H1 H2 IH]; intros l Hp HF HR HO HD.
  - subst l. constructor.
  - inversion HF as [|x ? l' ? Hx HF']; subst. inversion HR as [|? ? R1 R2]; subst. inversion HO as [|? ? O1 O2]; subst. cbn [map] in *.
    injection H as HD1 HD2. subst x l'. pose proof (compact_reads _ _ _ _ false _ _ _ _ _ _ _ H1 HB HM Hp Hx R1) as E. cbn iota in E.
    assert (Hmid : pos <= mid). { destruct H1 as (d & (n & rdlen & HE & Hd & He & _) & HP & _). pose proof (encodes_window _ _ _ _ _ HE). pose proof (proj1 (pieces_longer _ _ _ _ _ HP)). lia. }
    destruct Hx as (_ & _ & HT & HC & HTtl & _). cbn in HTtl. unfold to_rr in E. rewrite HT, HC, HTtl in E. econstructor; [exact E|]. apply IH; auto. lia.
Qed.

(** ** Sequences of names *)
Lemma names_spec : forall lo names s, bytes (s_mem s) -> free (mkwin lo (-2)) (s_dst s) -> 0 <= s_avail s -> s_dst s + s_avail s <= zlen (s_mem s) -> zlen (s_mem s) <= 65535 -> Forall legal_name names ->
  ctx_suffix (mkwin lo (-2)) (s_mem s) (s_dst s) (s_compr s) ->
  match put_names (map dwire names) s with
  | Done ps s' => differ (s_mem s) (s_mem s') (s_dst s) (s_dst s + s_avail s) /\ s_dst s <= s_dst s' /\ s_dst s' + s_avail s' = s_dst s + s_avail s /\ 0 <= s_avail s' /\ Forall2 (name_back (s_mem s')) names ps
  | Fail e s' => e = KNOT_ESPACE /\ differ (s_mem s) (s_mem s') (s_dst s) (s_dst s + s_avail s) /\ s_avail s < fold_right (fun ls n => name_size ls + n) 0 names
  | _ => False
  end.
Proof.
  intros lo. set (wn := mkwin lo (-2)). induction names as [|ls names IH]; intros s HB HF Ha Hle H64 HL HC; cbn [map put_names].
  - cbn. split; [apply differ_refl|]. split; [lia|]. split; [auto|]. split; [auto|constructor].
  - inversion HL as [|? ? HL1 HL2]; subst. pose proof HL1 as [HLL HLS]. pose proof HF as (Hd & _). unfold bind at 1. cbn [get]. unfold bind at 1. pose proof (put_dname_spec wn s ls [] (dname_max (s_avail s)) true HB HF) as PD. rewrite app_nil_r in PD. unfold dname_max, KNOT_DNAME_MAXLEN in *.
    specialize (PD ltac:(lia) H64 HL1 HC). destruct (compr_put_dname (dwire ls) (s_dst s) (Z.min (s_avail s) 255) true s) as [n s1|e s1| |]; try contradiction.
    2: { destruct PD as (-> & Hgt & (D & _)). cbn [fold_right]. split; [auto|]. split; [eapply differ_wide; [exact D|lia|lia]|]. unfold legal_name, KNOT_DNAME_MAXLEN in *. assert (0 <= fold_right (fun (ls : list label) n => name_size ls + n) 0 names) by (clear; induction names as [|x l IH]; cbn [fold_right]; [lia|]; pose proof (name_size_ge1 x); lia). lia. }
    destruct PD as (Hn & Hns & ls' & (D & Sd & Sa & HE & HLL' & Hlow & HSz & HC' & HSH & _) & _). pose proof D as (DL & DB & DD). unfold bind at 1, move. unfold bind. set (s2 := mkst (s_mem s1) (s_dst s1 + n) (s_avail s1 - n) (s_compr s1)).
    specialize (IH s2). cbn [s2 s_mem s_dst s_avail s_compr] in IH. rewrite Sd, Sa in IH. specialize (IH (DB HB) ltac:(eapply free_more; [exact HF|lia]) ltac:(lia) ltac:(lia) ltac:(lia) HL2 HC'). fold s2 in IH. unfold s2 in *. rewrite Sd, Sa in *. clear s2.
    destruct (put_names (map dwire names) _) as [ps s3|e s3| |]; try contradiction.
    + destruct IH as (D3 & I1 & I2 & I3 & IF). cbn [ret]. pose proof D3 as (DL3 & DB3 & DD3). split; [eapply differ_trans; [eapply differ_wide with (a' := s_dst s) (b' := s_dst s + s_avail s); [exact D|lia|lia]|eapply differ_wide with (a' := s_dst s) (b' := s_dst s + s_avail s); [exact D3|lia|lia]|lia|lia]|].
      split; [lia|]. split; [lia|]. split; [auto|]. constructor; [|exact IF]. exists ls', n. split; [|split; [split; [auto|unfold KNOT_DNAME_MAXLEN in *; lia]|split; [auto|split; [lia|lia]]]].
      destruct (view_real wn (s_mem s1) (s_dst s + n) (s_mem s3) (DB HB) ltac:(lia)) as [V1 V2]. { intros i Hi _. apply DD3. lia. } revert HE. apply enc_mono; auto.
    + destruct IH as (-> & D3 & I1). split; [auto|]. split; [eapply differ_trans; [eapply differ_wide with (a' := s_dst s) (b' := s_dst s + s_avail s); [exact D|lia|lia]|eapply differ_wide with (a' := s_dst s) (b' := s_dst s + s_avail s); [exact D3|lia|lia]|lia|lia]|]. cbn [fold_right]. lia.
Qed.
